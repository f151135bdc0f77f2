(** * Negation commutes with the operations of IEEE arithmetic rounded to nearest even
    (up to the sign of an exact zero sum). *)
From Coq Require Import ZArith Bool Lia.
From Coq.Floats Require Import SpecFloat.
From Flocq Require Import Core BinarySingleNaN.
From Verif Require Import Prelude Flt FltFacts Flt32.
#[local] Open Scope Z_scope.

Section Opp.
Variables prec emax : Z.
Context (prec_gt_0_ : Prec_gt_0 prec) (prec_lt_emax_ : Prec_lt_emax prec emax).
Notation bf := (binary_float prec emax).
Notation norm := (binary_normalize prec emax prec_gt_0_ prec_lt_emax_ mode_NE).
Lemma round_aux_opp s m e l : binary_round_aux prec emax mode_NE (negb s) m e l = SFopp (binary_round_aux prec emax mode_NE s m e l).
Proof.
  unfold binary_round_aux. destruct (shr_fexp prec emax m e l) as [r e1]. change (choice_mode mode_NE (negb s)) with (choice_mode mode_NE s).
  destruct (shr_fexp prec emax _ e1 _) as [r2 e2]. destruct (shr_m r2); try reflexivity. unfold binary_fit_aux. destruct (_ <=? _); [reflexivity|]. unfold binary_overflow. cbn [overflow_to_inf]. reflexivity.
Qed.
Lemma round_opp s m e : binary_round prec emax mode_NE (negb s) m e = SFopp (binary_round prec emax mode_NE s m e).
Proof. unfold binary_round. destruct (shl_align_fexp _ _ _ _) as [a b]. apply round_aux_opp. Qed.
Lemma B2SF_opp (x : bf) : B2SF (Bopp x) = SFopp (B2SF x).
Proof. destruct x; reflexivity. Qed.
Lemma norm_opp m e s : norm (- m) e (negb s) = Bopp (norm m e s).
Proof.
  destruct m as [|p|p]; cbn [Z.opp binary_normalize]; [reflexivity| |]; apply B2SF_inj; rewrite B2SF_opp, !B2SF_SF2B.
  - apply (round_opp false).
  - apply (round_opp true).
Qed.
(** Equal, or both zero. *)
Definition zsame (x y : bf) : Prop := x = y \/ (exists s t, x = B754_zero s /\ y = B754_zero t).
Lemma plus_opp (x y : bf) : zsame (Bplus mode_NE (Bopp x) (Bopp y)) (Bopp (Bplus mode_NE x y)).
Proof.
  destruct x as [sx|sx| |sx mx ex Hx], y as [sy|sy| |sy my ey Hy]; cbn [Bopp Bplus]; try (left; reflexivity).
  - destruct sx, sy; cbn; (left; reflexivity) || (right; eexists _, _; split; reflexivity).
  - destruct sx, sy; left; reflexivity.
  - replace (Fplus_naive (negb sx) mx ex (negb sy) my ey (Z.min ex ey)) with (- Fplus_naive sx mx ex sy my ey (Z.min ex ey)).
    2:{ unfold Fplus_naive. destruct sx, sy; cbn [negb cond_Zopp]; lia. }
    destruct (Fplus_naive sx mx ex sy my ey (Z.min ex ey)) as [|p|p] eqn:EF; [right; eexists _, _; split; reflexivity| |].
    + left. exact (norm_opp (Z.pos p) (Z.min ex ey) false).
    + left. exact (norm_opp (Z.neg p) (Z.min ex ey) false).
Qed.
Lemma mult_opp (x y : bf) : Bmult mode_NE (Bopp x) y = Bopp (Bmult mode_NE x y).
Proof.
  destruct x as [sx|sx| |sx mx ex Hx], y as [sy|sy| |sy my ey Hy]; cbn [Bopp Bmult]; try reflexivity; try (f_equal; destruct sx, sy; reflexivity).
  apply B2SF_inj. rewrite B2SF_opp, !B2SF_SF2B. rewrite <- (round_aux_opp (xorb sx sy)). f_equal. destruct sx, sy; reflexivity.
Qed.
Lemma div_opp (x y : bf) : Bdiv mode_NE (Bopp x) y = Bopp (Bdiv mode_NE x y).
Proof.
  destruct x as [sx|sx| |sx mx ex Hx], y as [sy|sy| |sy my ey Hy]; cbn [Bopp Bdiv]; try reflexivity; try (f_equal; destruct sx, sy; reflexivity).
  apply B2SF_inj. rewrite B2SF_opp, !B2SF_SF2B. destruct (SFdiv_core_binary prec emax (Z.pos mx) ex (Z.pos my) ey) as [[mz ez] lz]. rewrite <- (round_aux_opp (xorb sx sy)). f_equal. destruct sx, sy; reflexivity.
Qed.
Lemma plus_comm_bf (x y : bf) : Bplus mode_NE x y = Bplus mode_NE y x.
Proof.
  destruct x as [sx|sx| |sx mx ex Hx], y as [sy|sy| |sy my ey Hy]; cbn [Bplus]; try reflexivity; try (destruct sx, sy; reflexivity).
  rewrite Z.min_comm. f_equal. unfold Fplus_naive. rewrite Z.add_comm. reflexivity.
Qed.
End Opp.
Lemma f32_of_f64_opp v : f32_of_f64 (fopp v) = f32opp (f32_of_f64 v).
Proof.
  destruct v as [s|s| |s m e H]; try reflexivity. unfold fopp, f32opp. cbn [Bopp f32_of_f64].
  rewrite <- norm_opp. destruct s; reflexivity.
Qed.
Lemma f64_of_f32_opp v : f64_of_f32 (f32opp v) = fopp (f64_of_f32 v).
Proof.
  destruct v as [s|s| |s m e H]; try reflexivity. unfold fopp, f32opp. cbn [Bopp f64_of_f32].
  rewrite <- norm_opp. destruct s; reflexivity.
Qed.
Lemma fsub_opp a b : fsub (fopp b) (fopp a) = fsub a b.
Proof.
  assert (M : forall x y : f64, Bminus mode_NE x y = Bplus mode_NE x (Bopp y)) by (intros [] []; reflexivity).
  unfold fsub, fopp. rewrite !M, Bopp_involutive. apply plus_comm_bf.
Qed.
Definition lin_opp (f : linfun) : linfun := {| lf_intercept := f32opp (lf_intercept f); lf_slope := f32opp (lf_slope f) |}.
Lemma lin_eval_opp f x : zsame prec32 emax32 (lin_eval (lin_opp f) x) (f32opp (lin_eval f x)).
Proof. unfold lin_eval, lin_opp. cbn [lf_intercept lf_slope]. unfold f32mul, f32opp, f32add. rewrite mult_opp. apply plus_opp. Qed.
Lemma zsame_abs a b : zsame prec32 emax32 a b -> f32abs a = f32abs b.
Proof. intros [->|(s & t & -> & ->)]; reflexivity. Qed.
Lemma zsame_f64 a b : zsame prec32 emax32 a b -> fisnan (f64_of_f32 a) = fisnan (f64_of_f32 b) /\ fkey (f64_of_f32 a) = fkey (f64_of_f32 b).
Proof. intros [->|(s & t & -> & ->)]; split; reflexivity. Qed.
