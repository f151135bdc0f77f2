(** * Facts about QLalgo2 (CmaEigen.v) over the reals *)
From Coq Require Import Reals Lra Lia Arith Bool Setoid Nsatz.
From Flocq Require Import Core.
From Verif Require Import Prelude Num Cma CmaEigen MatR.
#[local] Open Scope R_scope.

(** ** Loops *)
Lemma for_up_ind : forall S (P : nat -> S -> Prop) body cnt lo s,
  P lo s -> (forall k s, (lo <= k < lo + cnt)%nat -> P k s -> P (Datatypes.S k) (body k s)) ->
  P (lo + cnt)%nat (for_up lo cnt body s).
Proof.
  induction cnt as [|c IH]; intros lo s H0 H; cbn; [now rewrite Nat.add_0_r|].
  rewrite <- plus_n_Sm. change (Datatypes.S (lo + c)) with (Datatypes.S lo + c)%nat. apply IH.
  - apply H; [lia|exact H0].
  - intros k t Hk. apply H. lia.
Qed.
Lemma for_down_ind : forall S (P : nat -> S -> Prop) body cnt lo s,
  P (lo + cnt)%nat s -> (forall k s, (lo <= k < lo + cnt)%nat -> P (Datatypes.S k) s -> P k (body k s)) ->
  P lo (for_down lo cnt body s).
Proof.
  induction cnt as [|c IH]; intros lo s H0 H; cbn; [now rewrite Nat.add_0_r in H0|].
  apply IH.
  - apply H; [lia|]. now rewrite plus_n_Sm.
  - intros k t Hk. apply H. lia.
Qed.
Lemma for_down_last : forall S (body : nat -> S -> S) cnt lo s,
  for_down lo (Datatypes.S cnt) body s = body lo (for_down (Datatypes.S lo) cnt body s).
Proof.
  induction cnt as [|c IH]; intros lo s; [cbn; now rewrite Nat.add_0_r|].
  change (for_down lo (Datatypes.S c) body (body (lo + Datatypes.S c)%nat s)
          = body lo (for_down (Datatypes.S lo) c body (body (Datatypes.S lo + c)%nat s))).
  rewrite IH. do 3 f_equal. lia.
Qed.

(** ** Rotations *)
Definition colrot (i : nat) (c s : R) (A : matrix) : matrix := fun a b =>
  if Nat.eqb b (S i) then s * A a i + c * A a (S i) else if Nat.eqb b i then c * A a i - s * A a (S i) else A a b.
Definition rowrot (i : nat) (c s : R) (A : matrix) : matrix := fun a b =>
  if Nat.eqb a (S i) then s * A i b + c * A (S i) b else if Nat.eqb a i then c * A i b - s * A (S i) b else A a b.

Lemma colrot_i i c s A a : colrot i c s A a i = c * A a i - s * A a (S i).
Proof. unfold colrot. replace (Nat.eqb i (S i)) with false by (symmetry; apply Nat.eqb_neq; lia). now rewrite Nat.eqb_refl. Qed.
Lemma colrot_Si i c s A a : colrot i c s A a (S i) = s * A a i + c * A a (S i).
Proof. unfold colrot. now rewrite Nat.eqb_refl. Qed.
Lemma colrot_other i c s A a b : b <> i -> b <> S i -> colrot i c s A a b = A a b.
Proof. intros H1 H2. unfold colrot. apply Nat.eqb_neq in H1, H2. now rewrite H1, H2. Qed.
Lemma colrot_dot : forall n i c s A B, (S i < n)%nat -> c * c + s * s = 1 ->
  meq n (mmul n (colrot i c s A) (mtr (colrot i c s B))) (mmul n A (mtr B)).
Proof.
  intros n i c s A B Hi E a b _ _. unfold mmul, mtr.
  apply (sum_change2 n i (S i)); [lia|exact Hi|lia| |].
  - intros k _ H1 H2. now rewrite !colrot_other by assumption.
  - rewrite !colrot_i, !colrot_Si.
    replace (_ + _) with ((c * c + s * s) * (A a i * B b i + A a (S i) * B b (S i))) by ring. rewrite E. ring.
Qed.
Lemma rowrot_mtr : forall i c s A a b, rowrot i c s A a b = mtr (colrot i c s (mtr A)) a b.
Proof. reflexivity. Qed.
Lemma mmul_colrot : forall n i c s A B a b, mmul n A (colrot i c s B) a b = colrot i c s (mmul n A B) a b.
Proof.
  intros. unfold mmul, colrot.
  destruct (Nat.eqb b (S i)); [rewrite <- !sum_scal, <- sum_plus; apply sum_ext; intros; ring|].
  destruct (Nat.eqb b i); [rewrite <- !sum_scal, <- sum_minus; apply sum_ext; intros; ring|reflexivity].
Qed.
Lemma mmul_rowrot : forall n i c s A B a b, mmul n (rowrot i c s A) B a b = rowrot i c s (mmul n A B) a b.
Proof.
  intros. unfold mmul, rowrot.
  destruct (Nat.eqb a (S i)); [rewrite <- !sum_scal, <- sum_plus; apply sum_ext; intros; ring|].
  destruct (Nat.eqb a i); [rewrite <- !sum_scal, <- sum_minus; apply sum_ext; intros; ring|reflexivity].
Qed.
Lemma sandwich_rot : forall n i c s V T, (S i < n)%nat -> c * c + s * s = 1 ->
  meq n (sandwich n (colrot i c s V) (colrot i c s (rowrot i c s T))) (sandwich n V T).
Proof.
  intros n i c s V T Hi E. unfold sandwich. rewrite (colrot_dot n i c s (rowrot i c s T) V Hi E).
  intros a b Ha Hb.
  transitivity (mmul n (colrot i c s V) (mtr (colrot i c s (mtr (mmul n T (mtr V))))) a b).
  - apply sum_ext. intros k Hk. f_equal. apply mmul_rowrot.
  - rewrite (colrot_dot n i c s V (mtr (mmul n T (mtr V))) Hi E a b Ha Hb). reflexivity.
Qed.
Lemma colrot_meq : forall n i c s A B, (S i < n)%nat -> meq n A B -> meq n (colrot i c s A) (colrot i c s B).
Proof. intros n i c s A B Hi H a b Ha Hb. unfold colrot. rewrite !(H a) by lia. reflexivity. Qed.
Lemma rowrot_meq : forall n i c s A B, (S i < n)%nat -> meq n A B -> meq n (rowrot i c s A) (rowrot i c s B).
Proof. intros n i c s A B Hi H a b Ha Hb. unfold rowrot. rewrite !(H _ b) by lia. reflexivity. Qed.
Lemma orthogonal_rot : forall n i c s V, (S i < n)%nat -> c * c + s * s = 1 -> orthogonal n V -> orthogonal n (colrot i c s V).
Proof.
  intros n i c s V Hi E [O1 O2]. split; [|now rewrite colrot_dot].
  assert (H : meq n (mmul n (mtr (colrot i c s V)) (colrot i c s V)) (rowrot i c s (colrot i c s (mmul n (mtr V) V)))).
  { intros a b Ha Hb. rewrite <- (rowrot_meq n i c s _ _ Hi (fun a b _ _ => mmul_colrot n i c s (mtr V) V a b) a b Ha Hb).
    rewrite <- mmul_rowrot. reflexivity. }
  rewrite H, (rowrot_meq n i c s _ _ Hi (colrot_meq n i c s _ _ Hi O1)).
  intros a b _ _. unfold rowrot, colrot, mid.
  repeat match goal with |- context [Nat.eqb ?x ?y] => destruct (Nat.eqb_spec x y); try lia end; nra.
Qed.

(** ** The tridiagonal matrix and the bulge *)
Definition tri (D e : nat -> R) : matrix := fun a b =>
  if Nat.eqb a b then D a else if Nat.eqb b (S a) then e a else if Nat.eqb a (S b) then e b else 0.
Definition bul (j : nat) (D e : nat -> R) (c s p f : R) : matrix := fun a b =>
  if Nat.eqb a b then (if Nat.eqb a j then c * p + f else D a)
  else if Nat.eqb b (S a) then (if Nat.eqb a j then s * p else if Nat.eqb b j then c * e a else e a)
  else if Nat.eqb a (S b) then (if Nat.eqb b j then s * p else if Nat.eqb a j then c * e b else e b)
  else if Nat.eqb (S a) j && Nat.eqb b (S j) then s * e a
  else if Nat.eqb (S b) j && Nat.eqb a (S j) then s * e b else 0.
(** d[l..n-1] are stored with a shift f *)
Definition shifted (l : nat) (f : R) (d : nat -> R) : nat -> R := fun a => if Nat.ltb a l then d a else d a + f.
Definition upd (v : nat -> R) (i : nat) (x : R) : nat -> R := fun j => if Nat.eqb j i then x else v j.
Lemma upd_same v i x : upd v i x i = x.
Proof. unfold upd. now rewrite Nat.eqb_refl. Qed.
Lemma upd_other v i x j : j <> i -> upd v i x j = v j.
Proof. intros H. unfold upd. apply Nat.eqb_neq in H. now rewrite H. Qed.

Lemma bul_ext : forall j D D' e e' c s p f, (forall a, D a = D' a) -> (forall a, e a = e' a) ->
  forall a b, bul j D e c s p f a b = bul j D' e' c s p f a b.
Proof. intros j D D' e e' c s p f HD HE a b. unfold bul. now rewrite !HD, !HE. Qed.
Lemma shifted_upd : forall l f d k x a, (l <= k)%nat -> shifted l f (upd d k x) a = upd (shifted l f d) k (x + f) a.
Proof.
  intros l f d k x a H. unfold shifted, upd. destruct (Nat.eqb_spec a k) as [->|]; [|reflexivity].
  now replace (Nat.ltb k l) with false by (symmetry; apply Nat.ltb_ge; lia).
Qed.
(** one rotation moves the bulge up *)
Lemma bulge_step : forall i D e c s p f r g c' s' p',
  r <> 0 -> r * r = p * p + e i * e i -> s' = e i / r -> c' = p / r -> g = c * e i ->
  p' = c' * (D i - f) - s' * g ->
  forall a b, colrot i c' s' (rowrot i c' s' (bul (S i) D e c s p f)) a b
            = bul i (upd D (S i) (c * p + s' * (c' * g + s' * (D i - f)) + f)) (upd e (S i) (s * r)) c' s' p' f a b.
Proof.
  intros i D e c s p f r g c' s' p' Hr Err Es Ec Eg Ep a b.
  assert (P1 : c' * c' + s' * s' = 1) by (rewrite Es, Ec; field_simplify_eq; [lra|exact Hr]).
  assert (P2 : c' * e i = s' * p) by (rewrite Es, Ec; field; exact Hr).
  assert (P3 : s' * e i + c' * p = r) by (rewrite Es, Ec; field_simplify_eq; [lra|exact Hr]).
  assert (P4 : c' * g = s' * (c * p)) by (rewrite Eg; transitivity (c * (c' * e i)); [ring|rewrite P2; ring]).
  unfold colrot, rowrot, bul, upd.
  repeat match goal with
  | |- context [Nat.eqb ?x ?y] => destruct (Nat.eqb_spec x y); try (exfalso; lia)
  end; cbn [andb]; repeat match goal with H : a = _ |- _ => rewrite !H in * | H : b = _ |- _ => rewrite !H in * end; clear - P1 P2 P3 P4 Eg Ep.
  all: try ring. all: nsatz.
Qed.

(** ** hypot *)
Notation hypotR := (@hypot numR).
Lemma hypot_spec : forall a b : R, 0 <= (hypotR a b : R) /\ (hypotR a b : R) * (hypotR a b : R) = a * a + b * b.
Proof.
  intros a b. unfold hypot. cbn. change (nT numR) with R.
  assert (K : forall x y : R, x <> 0 -> 0 <= Rabs x * sqrt (1 + y / x * (y / x)) /\
     Rabs x * sqrt (1 + y / x * (y / x)) * (Rabs x * sqrt (1 + y / x * (y / x))) = x * x + y * y).
  { intros x y Hx. assert (P : 0 <= 1 + y / x * (y / x)) by nra. split.
    - apply Rmult_le_pos; [apply Rabs_pos|apply sqrt_pos].
    - replace (_ * _) with (Rabs x * Rabs x * (sqrt (1 + y / x * (y / x)) * sqrt (1 + y / x * (y / x)))) by ring.
      rewrite sqrt_sqrt by exact P. replace (Rabs x * Rabs x) with (x * x).
      + field. exact Hx.
      + unfold Rabs. destruct (Rcase_abs x); ring. }
  destruct (Rlt_bool_spec (Rabs b) (Rabs a)) as [H|H].
  - apply (K a b). intros ->. rewrite Rabs_R0 in H. pose proof (Rabs_pos b). lra.
  - destruct (Req_bool_spec b 0) as [Hb|Hb]; cbn [negb].
    + subst b. rewrite Rabs_R0 in H. assert (a = 0) by (destruct (Req_dec a 0) as [|Ha]; [assumption|apply Rabs_pos_lt in Ha; lra]). subst. lra.
    + destruct (K b a Hb) as [K1 K2]. split; [exact K1|]. rewrite K2. ring.
Qed.
Lemma hypot_nonzero : forall a b : R, b <> 0 -> (hypotR a b : R) <> 0.
Proof. intros a b Hb E. destruct (hypot_spec a b) as [_ H]. rewrite E in H. nra. Qed.

(** ** One sweep *)
Lemma rotate_spec : forall n i (c s : R) (V : matrix), meq n (rotate (K := numR) n i c s V) (colrot i c s V).
Proof.
  intros n i c s V. unfold rotate.
  assert (H : forall a b, (@for_up (@mat numR) 0 n (fun k V => let h := V k (S i) in
                         let V1 := mset (K := numR) V k (S i) (s * V k i + c * h) in
                         mset (K := numR) V1 k i (c * V1 k i - s * h)) V) a b = if Nat.ltb a n then colrot i c s V a b else V a b).
  { apply (for_up_ind _ (fun k W => forall a b, W a b = if Nat.ltb a k then colrot i c s V a b else V a b)) with (lo := O) (cnt := n).
    - intros a b. now replace (Nat.ltb a 0) with false by (symmetry; apply Nat.ltb_ge; lia).
    - intros k W Hk HW a b. cbn zeta. unfold mset. rewrite !HW. replace (Nat.ltb k k) with false by (symmetry; apply Nat.ltb_ge; lia).
      rewrite Nat.eqb_refl. cbn [andb]. unfold colrot.
      destruct (Nat.ltb_spec a k) as [H1|H1].
      + replace (Nat.ltb a (S k)) with true by (symmetry; apply Nat.ltb_lt; lia).
        replace (Nat.eqb a k) with false by (symmetry; apply Nat.eqb_neq; lia). reflexivity.
      + destruct (Nat.eqb_spec a k) as [->|Hne].
        * replace (Nat.ltb k (S k)) with true by (symmetry; apply Nat.ltb_lt; lia). cbn [andb].
          replace (Nat.eqb i (S i)) with false by (symmetry; apply Nat.eqb_neq; lia).
          destruct (Nat.eqb_spec b i) as [->|Hbi]; [replace (Nat.eqb i (S i)) with false by (symmetry; apply Nat.eqb_neq; lia); reflexivity|].
          destruct (Nat.eqb b (S i)); reflexivity.
        * replace (Nat.ltb a (S k)) with false by (symmetry; apply Nat.ltb_ge; lia). reflexivity. }
  intros a b Ha Hb. change (rotate (K := numR) n i c s V a b = colrot i c s V a b). unfold rotate. rewrite H.
  now replace (Nat.ltb a n) with true by (symmetry; apply Nat.ltb_lt; lia).
Qed.

Notation sweepR := (@sweep numR).
Section Sweep.
Variables (n l m : nat) (f : R) (d e : nat -> R) (X : matrix).
Hypothesis Hlm : (l < m < n)%nat.
Hypothesis He : forall a, (l <= a < m)%nat -> e a <> 0.

(** the state when the bulge is at j *)
Record bulge_at (j : nat) (w : sweepR) : Prop := {
  ba_total : meq n (sandwich n (wV w) (bul j (shifted l f (wd w)) (we w) (wc w) (ws w) (wp w) f)) X;
  ba_orth : orthogonal n (wV w);
  ba_unit : (wc w : R) * wc w + (ws w : R) * ws w = 1;
  ba_d : forall a, (a < j \/ m < a)%nat -> wd w a = d a;
  ba_e : forall a, (a < j \/ m < a)%nat -> we w a = e a;
  ba_ne : forall a, (j < a < m)%nat -> we w a <> 0;
  ba_em : (j < m)%nat -> we w m = 0;
  ba_s : (j < m)%nat -> ws w <> 0;
  ba_s0 : j = m -> ws w = 0 /\ wc w = 1;
  ba_p : (wp w : R) = (wc w : R) * d j - (ws w : R) * wc2 w * e j;
  ba_c2 : (wc2 w : R) * wc2 w <= 1 }.

Lemma sweep_step_bulge : forall i w, (l <= i < m)%nat -> bulge_at (S i) w ->
  bulge_at i (sweep_step n i w)
  /\ wc3 (sweep_step n i w) = wc2 w /\ ws2 (sweep_step n i w) = ws w /\ wc2 (sweep_step n i w) = wc w
  /\ (wp (sweep_step n i w) : R) * (hypotR (wp w) (e i) : R) = (wp w : R) * d i - e i * e i * wc w
  /\ (ws (sweep_step n i w) : R) * (hypotR (wp w) (e i) : R) = e i
  /\ we (sweep_step n i w) i = e i
  /\ we (sweep_step n i w) (S i) = (ws w : R) * (hypotR (wp w) (e i) : R).
Proof using Hlm He.
  intros i w Hi B. destruct B as [B1 B2 B3 B4 B5 B6 B7 B8 B9 B10 B11].
  destruct (hypot_spec (wp w) (e i)) as [Hr0 Hrr].
  assert (Ei : we w i = e i) by (apply B5; lia).
  assert (Hr : (hypotR (wp w) (e i) : R) <> 0) by (apply hypot_nonzero; apply He; lia).
  assert (Ev : @vset numR (we w) (S i) (ws w * hypotR (wp w) (we w i))%num i = we w i).
  { unfold vset. now replace (Nat.eqb i (S i)) with false by (symmetry; apply Nat.eqb_neq; lia). }
  unfold sweep_step. cbn zeta. rewrite Ev, Ei.
  set (r := hypotR (wp w) (e i)) in *.
  assert (Di : wd w i = d i) by (apply B4; lia).
  assert (Fi : shifted l f (wd w) i = d i + f).
  { unfold shifted. rewrite Di. now replace (Nat.ltb i l) with false by (symmetry; apply Nat.ltb_ge; lia). }
  cbn [wV wd we wp wc wc2 wc3 ws ws2]. change (nT numR) with R in *.
  cbn [numR nadd nsub nmul ndiv]. rewrite Di.
  set (c' := wp w / r). set (s' := e i / r). set (g := wc w * e i). set (p' := c' * d i - s' * g).
  assert (U : c' * c' + s' * s' = 1).
  { unfold c', s'. field_simplify_eq; [|exact Hr]. unfold Rsqr in *. nra. }
  split; [|split; [reflexivity|split; [reflexivity|split; [reflexivity|split; [|split; [|split]]]]]].
  - constructor; cbn [wV wd we wp wc wc2 wc3 ws ws2].
    + rewrite <- B1. rewrite (rotate_spec n i c' s' (wV w)).
      rewrite <- (sandwich_rot n i c' s' (wV w) (bul (S i) (shifted l f (wd w)) (we w) (wc w) (ws w) (wp w) f) ltac:(lia) U).
      apply sandwich_proper; [reflexivity|]. intros a b Ha Hb. symmetry.
      rewrite (bulge_step i (shifted l f (wd w)) (we w) (wc w) (ws w) (wp w) f r g c' s' p'); [|exact Hr|rewrite Ei; exact Hrr|rewrite Ei; reflexivity|reflexivity|rewrite Ei; reflexivity|rewrite Fi; unfold p'; ring].
      apply bul_ext; [|reflexivity]. intros k. symmetry.
      rewrite Fi. change (vset (K := numR) (wd w) (S i) (wc w * wp w + s' * (c' * g + s' * d i))) with (upd (wd w) (S i) (wc w * wp w + s' * (c' * g + s' * d i))).
      rewrite shifted_upd by lia. unfold upd. destruct (Nat.eqb k (S i)); [ring|reflexivity].
    + apply (fun H => proj1 (conj H I)).
      pose proof (orthogonal_rot n i c' s' (wV w) ltac:(lia) U B2) as [O1 O2]. split; rewrite (rotate_spec n i c' s' (wV w)); assumption.
    + exact U.
    + intros a Ha. change (upd (wd w) (S i) (wc w * wp w + s' * (c' * g + s' * d i)) a = d a). rewrite upd_other by lia. apply B4. lia.
    + intros a Ha. change (upd (we w) (S i) (ws w * r) a = e a). rewrite upd_other by lia. apply B5. lia.
    + intros a Ha. change (upd (we w) (S i) (ws w * r) a <> 0). unfold upd. destruct (Nat.eqb_spec a (S i)) as [->|].
      * assert ((ws w : R) <> 0) by (apply B8; lia). intros Z. apply Rmult_integral in Z. tauto.
      * apply B6. lia.
    + intros _. change (upd (we w) (S i) (ws w * r) m = 0). unfold upd. destruct (Nat.eqb_spec m (S i)) as [->|].
      * destruct (B9 eq_refl) as [Z _]. change (nT numR) with R in Z. rewrite Z. ring.
      * apply B7. lia.
    + intros _ Z. assert (e i = 0) by (transitivity (s' * r); [unfold s'; field; exact Hr|rewrite Z; ring]). now apply (He i).
    + intros ->. lia.
    + unfold p', g. ring.
    + change (nT numR) with R in *. nra.
  - unfold p', c', s', g. field. exact Hr.
  - unfold s'. field. exact Hr.
  - change (upd (we w) (S i) (ws w * r) i = e i). rewrite upd_other by lia. exact Ei.
  - change (upd (we w) (S i) (ws w * r) (S i) = ws w * r). apply upd_same.
Qed.
End Sweep.

Lemma tri_meq : forall n D D' e e', (forall a, (a < n)%nat -> D a = D' a) -> (forall a, (S a < n)%nat -> e a = e' a) -> meq n (tri D e) (tri D' e').
Proof.
  intros n D D' e e' HD HE a b Ha Hb. unfold tri.
  destruct (Nat.eqb a b); [now apply HD|]. destruct (Nat.eqb_spec b (S a)); [apply HE; lia|]. destruct (Nat.eqb_spec a (S b)); [apply HE; lia|reflexivity].
Qed.
Lemma bul_start : forall m D e p f a b, p + f = D m -> bul m D e 1 0 p f a b = tri D (upd e m 0) a b.
Proof.
  intros m D e p f a b E. unfold bul, tri, upd.
  repeat match goal with |- context [Nat.eqb ?x ?y] => destruct (Nat.eqb_spec x y); try (exfalso; lia) end; cbn [andb];
  try (match goal with H : a = m |- _ => rewrite H in * end); try lra.
Qed.
Lemma bul_end : forall l f d e c s p a b, (forall k, S k = l -> e k = 0) ->
  bul l (shifted l f d) e c s p f a b = tri (shifted l f (upd d l (c * p))) (upd e l (s * p)) a b.
Proof.
  intros l f d e c s p a b H. unfold bul, tri, upd, shifted.
  repeat match goal with |- context [Nat.eqb ?x ?y] => destruct (Nat.eqb_spec x y); try (exfalso; lia) end; cbn [andb]; try reflexivity;
  try (rewrite H by lia; ring);
  repeat match goal with |- context [Nat.ltb ?x ?y] => destruct (Nat.ltb_spec x y); try (exfalso; lia) end; reflexivity.
Qed.

(** the shift is an eigenvalue of the leading 2 x 2 block *)
Lemma shift_facts : forall g d1 e : R, e <> 0 ->
  let p := (d1 - g) / (2 * e) in
  let r0 := hypotR p 1 in
  let r := if Rlt_bool p 0 then - r0 else (r0 : R) in
  p + r <> 0 /\ e * (p + r) = d1 - (g - e / (p + r)) /\ Rabs (e / (p + r)) <= Rabs e /\ 1 <= Rabs (p + r).
Proof.
  intros g d1 e He p r0 r.
  destruct (hypot_spec p 1) as [H0 H1]. fold r0 in H0, H1. change (nT numR) with R in *.
  assert (Hrr : r * r = p * p + 1) by (unfold r; destruct (Rlt_bool p 0); lra).
  assert (H2 : 1 <= Rabs (p + r)).
  { assert (A : 1 <= r0). { destruct (Rlt_or_le r0 1); [|assumption]. assert (r0 * r0 < 1) by nra. nra. }
    unfold r. destruct (Rlt_bool_spec p 0).
    - rewrite Rabs_left1; lra.
    - rewrite Rabs_pos_eq; lra. }
  assert (Hn : p + r <> 0) by (intros Z; rewrite Z, Rabs_R0 in H2; lra).
  split; [exact Hn|split; [|split; [|exact H2]]].
  - assert (E1 : (p + r) * (r - p) = 1) by nra.
    assert (E2 : e / (p + r) = e * (r - p)). { transitivity (e * ((p + r) * (r - p)) / (p + r)); [rewrite E1; now rewrite Rmult_1_r|field; exact Hn]. }
    rewrite E2. assert (E3 : 2 * e * p = d1 - g) by (unfold p; field; exact He). nra.
  - unfold Rdiv. rewrite Rabs_mult, Rabs_inv.
    assert (/ Rabs (p + r) <= 1). { rewrite <- Rinv_1. apply Rinv_le_contravar; lra. }
    pose proof (Rabs_pos e). nra.
Qed.

Lemma cancel_e : forall x e1 S c e2 t : R, e1 <> 0 -> t <> 0 -> - x * S * c * e2 * e1 / (e1 * t) = - x * S * c * e2 / t.
Proof. intros. field. split; assumption. Qed.
Lemma am_gm : forall x y : R, x * y <= (y * y + x * x) / 2.
Proof. intros x y. pose proof (Rle_0_sqr (x - y)) as H. unfold Rsqr in H. lra. Qed.
Lemma cube_bound : forall x : R, 0 <= x -> (1 - x * x) * x <= 2 / 5.
Proof.
  intros x Hx. assert (0 <= (x - 29 / 50) * (x - 29 / 50) * (x + 29 / 25)) by (apply Rmult_le_pos; [apply Rle_0_sqr|lra]). nra.
Qed.
(** the first two off-diagonal elements become smaller *)
Lemma decrease : forall e1 e2 S C c3 t P r : R,
  e1 <> 0 -> 0 <= r -> r * r = P * P + e1 * e1 -> C * C + S * S = 1 -> c3 * c3 <= 1 -> 1 <= Rabs t -> P = C * (e1 * t) - S * c3 * e2 ->
  let a := e1 / r * (- (e1 / r) * S * c3 * e2 / t) in
  Rabs a <= Rabs e2 /\ a * a * Rabs (S * r) <= 9 / 10 * (e1 * e1 * Rabs e2).
Proof.
  intros e1 e2 S C c3 t P r He Hr Hrr HU Hc Ht HP a.
  assert (He1 : 0 < e1 * e1) by nra.
  assert (Hr1 : 0 < r) by nra.
  assert (Ht0 : t <> 0) by (intros ->; rewrite Rabs_R0 in Ht; lra).
  set (T := Rabs t) in *. set (s := Rabs S). set (k := Rabs c3). set (E1 := Rabs e1). set (E2 := Rabs e2). set (Q := Rabs P). set (K := Rabs C).
  assert (Sq : forall x, Rabs x * Rabs x = x * x) by (intros x; unfold Rabs; destruct (Rcase_abs x); ring).
  pose proof (Sq t) as Qt. fold T in Qt. pose proof (Sq S) as Qs. fold s in Qs. pose proof (Sq c3) as Qk. fold k in Qk.
  pose proof (Sq e1) as Q1. fold E1 in Q1. pose proof (Sq P) as QP. fold Q in QP. pose proof (Sq C) as QC. fold K in QC.
  pose proof (Rabs_pos S) as s0. fold s in s0. pose proof (Rabs_pos c3) as k0. fold k in k0. pose proof (Rabs_pos e2) as E20. fold E2 in E20.
  pose proof (Rabs_pos P) as Q0. fold Q in Q0. pose proof (Rabs_pos C) as K0. fold K in K0. assert (E10 : 0 < E1) by (apply Rabs_pos_lt; exact He).
  assert (s1 : s <= 1) by nra. assert (k1 : k <= 1) by nra. assert (K1 : K <= 1) by nra.
  set (z := s * k * E2).
  assert (z0 : 0 <= z) by (unfold z; apply Rmult_le_pos; [now apply Rmult_le_pos|assumption]).
  assert (zE : z <= E2). { unfold z. assert (s * k <= 1) by nra. assert (0 <= s * k) by (now apply Rmult_le_pos). nra. }
  assert (Ea : Rabs a = E1 * E1 / (r * r) * z / T).
  { unfold a, z, T, s, k, E1, E2. unfold Rdiv. rewrite !Rabs_mult, !Rabs_Ropp, !Rabs_mult, !Rabs_inv, (Rabs_pos_eq r) by lra. rewrite Rinv_mult. ring. }
  assert (HT : 0 < T) by lra.
  assert (Hq : E1 * E1 / (r * r) <= 1). { apply (Rmult_le_reg_r (r * r)); [nra|]. unfold Rdiv. rewrite Rmult_assoc, Rinv_l, Rmult_1_r by nra. nra. }
  assert (Hq0 : 0 <= E1 * E1 / (r * r)). { apply Rmult_le_pos; [nra|]. left. apply Rinv_0_lt_compat. nra. }
  split.
  - fold E2. rewrite Ea. apply (Rmult_le_reg_r T); [exact HT|]. unfold Rdiv at 1. rewrite Rmult_assoc, Rinv_l, Rmult_1_r by lra.
    assert (E1 * E1 / (r * r) * z <= 1 * z) by (apply Rmult_le_compat_r; assumption). assert (E2 * 1 <= E2 * T) by (apply Rmult_le_compat_l; lra). lra.
  - rewrite <- (Sq a), Ea, Rabs_mult, (Rabs_pos_eq r) by lra. fold s E2.
    (* z is bounded by P and C *)
    assert (Hz : z <= Q + K * (E1 * T)).
    { assert (M : S * c3 * e2 = C * (e1 * t) - P) by lra. assert (Zz : z = Rabs (S * c3 * e2)) by (unfold z; now rewrite !Rabs_mult).
      rewrite Zz, M. eapply Rle_trans; [apply (Rabs_triang (C * (e1 * t)) (- P))|]. rewrite Rabs_Ropp, !Rabs_mult. fold Q K E1 T. lra. }
    assert (H25 : (1 - K * K) * K <= 2 / 5). { now apply cube_bound. }
    assert (Ess : s * s = 1 - K * K) by lra.
    assert (Main : E1 * (s * s) * z <= 9 / 10 * (r * r) * (T * T)).
    { assert (N1 : 0 <= E1 * (s * s)) by (apply Rmult_le_pos; nra).
      assert (N2 : E1 * (s * s) * z <= E1 * (s * s) * (Q + K * (E1 * T))) by (now apply Rmult_le_compat_l).
      assert (N3 : E1 * (s * s) * Q <= E1 * Q). { assert (s * s <= 1) by nra. assert (0 <= E1 * Q) by nra. nra. }
      assert (N4 : E1 * (s * s) * (K * (E1 * T)) <= 2 / 5 * (E1 * E1) * T). { rewrite Ess. assert (0 <= E1 * E1 * T) by nra. replace (E1 * (1 - K * K) * (K * (E1 * T))) with ((1 - K * K) * K * (E1 * E1 * T)) by ring. nra. }
      assert (N5 : E1 * Q <= (Q * Q + E1 * E1) / 2) by (apply am_gm).
      assert (N6 : T <= T * T) by (clear - Ht; nra). assert (N7 : 1 <= T * T) by (clear - Ht; nra).
      assert (N8 : E1 * E1 <= r * r) by (clear - Hrr Q1; nra).
      assert (N9 : 2 / 5 * (E1 * E1) * T <= 2 / 5 * (r * r) * (T * T)). { assert (E1 * E1 * T <= r * r * (T * T)); [|lra]. apply Rmult_le_compat; [clear; nra|lra|exact N8|exact N6]. }
      assert (N10 : (Q * Q + E1 * E1) / 2 <= 1 / 2 * (r * r) * (T * T)). { replace (Q * Q + E1 * E1) with (r * r) by lra. clear - N7. nra. }
      lra. }
    (* put together *)
    assert (Rr : 0 < r * r * r) by nra.
    replace (E1 * E1 / (r * r) * z / T * (E1 * E1 / (r * r) * z / T) * (s * r)) with (E1 * E1 * (E1 * E1) * (z * z) * s / (r * r * r * (T * T))) by (field; lra).
    apply (Rmult_le_reg_r (r * r * r * (T * T))); [apply Rmult_lt_0_compat; nra|]. unfold Rdiv at 1. rewrite (Rmult_assoc _ (/ _)), Rinv_l, Rmult_1_r by (apply Rgt_not_eq; apply Rmult_lt_0_compat; nra).
    rewrite <- Q1.
    (* z * z * s <= E2 * s^2 * z *)
    assert (A1 : z * z * s <= E2 * (s * s) * z).
    { assert (z * s <= E2 * (s * s)); [|nra]. unfold z. assert (k * E2 <= E2) by nra. assert (0 <= s * s) by nra. replace (s * k * E2 * s) with (s * s * (k * E2)) by ring. nra. }
    assert (A2 : E1 * E1 * (E1 * E1) * (z * z * s) <= E1 * E1 * (E1 * E1) * (E2 * (s * s) * z)) by (apply Rmult_le_compat_l; [nra|exact A1]).
    assert (A3 : E1 * E1 * E1 * E2 * (E1 * (s * s) * z) <= E1 * E1 * E1 * E2 * (9 / 10 * (r * r) * (T * T))).
    { apply Rmult_le_compat_l; [|exact Main]. apply Rmult_le_pos; [|assumption]. apply Rmult_le_pos; nra. }
    assert (A4 : E1 * (E1 * E1 * E2 * (9 / 10 * (r * r) * (T * T))) <= r * (E1 * E1 * E2 * (9 / 10 * (r * r) * (T * T)))).
    { apply Rmult_le_compat_r; [|nra]. apply Rmult_le_pos; [apply Rmult_le_pos; nra|apply Rmult_le_pos; nra]. }
    nra.
Qed.

Notation qlR := (@ql numR).
Definition actual (l : nat) (q : qlR) : matrix := tri (shifted l (qf q) (qd q)) (qe q).

Lemma shift_rest : forall n l (h : R) (d : nat -> R) a,
  @for_up (nat -> R) (l + 2) (n - (l + 2)) (fun i d => @vset numR d i (d i - h)) d a = if Nat.leb (l + 2) a && Nat.ltb a n then d a - h else d a.
Proof.
  intros n l h d a.
  destruct (Nat.le_gt_cases n (l + 2)) as [Hn|Hn].
  { replace (n - (l + 2))%nat with O by lia. cbn [for_up]. destruct (Nat.leb_spec (l + 2) a); [|reflexivity].
    now replace (Nat.ltb a n) with false by (symmetry; apply Nat.ltb_ge; lia). }
  pose (P := fun k (v : nat -> R) => forall a, v a = if Nat.leb (l + 2) a && Nat.ltb a k then d a - h else d a).
  enough (HP : P (l + 2 + (n - (l + 2)))%nat (@for_up (nat -> R) (l + 2) (n - (l + 2)) (fun i d => @vset numR d i (d i - h)) d)).
  { replace (l + 2 + (n - (l + 2)))%nat with n in HP by lia. apply HP. }
  clear a. apply for_up_ind.
  - intros a. destruct (Nat.leb_spec (l + 2) a); [|reflexivity]. now replace (Nat.ltb a (l + 2)) with false by (symmetry; apply Nat.ltb_ge; lia).
  - intros k v Hk H a. change (upd v k (v k - h) a = if Nat.leb (l + 2) a && Nat.ltb a (S k) then d a - h else d a).
    unfold upd. destruct (Nat.eqb_spec a k) as [->|Hne].
    + rewrite H. replace (Nat.ltb k k) with false by (symmetry; apply Nat.ltb_ge; lia). rewrite andb_false_r.
      replace (Nat.leb (l + 2) k) with true by (symmetry; apply Nat.leb_le; lia).
      now replace (Nat.ltb k (S k)) with true by (symmetry; apply Nat.ltb_lt; lia).
    + rewrite H. destruct (Nat.leb (l + 2) a); [|reflexivity]. cbn [andb].
      destruct (Nat.ltb_spec a k); destruct (Nat.ltb_spec a (S k)); try lia; reflexivity.
Qed.

Lemma ql_iteration_spec : forall n l m (q : qlR),
  (l < m < n)%nat -> (forall a, (l <= a < m)%nat -> qe q a <> 0) -> (forall k, S k = l -> qe q k = 0) -> orthogonal n (qV q) ->
  let q' := ql_iteration n l m q in
  meq n (sandwich n (qV q') (actual l q')) (sandwich n (qV q) (tri (shifted l (qf q) (qd q)) (upd (qe q) m 0)))
  /\ orthogonal n (qV q')
  /\ (forall a, (a < l \/ m < a)%nat -> qe q' a = qe q a) /\ (forall a, (l < a < m)%nat -> qe q' a <> 0) /\ qe q' m = 0
  /\ qtst q' = qtst q
  /\ Rabs (qf q') <= Rabs (qd q l + qf q) + Rabs (qe q l)
  /\ Rabs (qe q' l) <= Rabs (qe q (S l))
  /\ (qe q' l : R) * qe q' l * Rabs (qe q' (S l)) <= 9 / 10 * ((qe q l : R) * qe q l * Rabs (qe q (S l))).
Proof.
  intros n l m q Hm He H0 HO q'. assert (Eq' : q' = ql_iteration n l m q) by reflexivity. clearbody q'. unfold ql_iteration in Eq'. cbn zeta in Eq'.
  cbn [numR nadd nsub nmul ndiv nopp nofZ nlt] in Eq'. change (nT numR) with R in *.
  pose proof (shift_facts (qd q l) (qd q (S l)) (qe q l) (He l ltac:(lia))) as SF. cbn zeta in SF. change (nT numR) with R in *.
  set (p := (qd q (S l) - qd q l) / (2 * qe q l)) in *.
  set (r := if Rlt_bool p 0 then - hypotR p 1 else hypotR p 1) in *.
  destruct SF as (S1 & S2 & S3 & S4).
  set (h := qd q l - vset (K := numR) (vset (K := numR) (qd q) l (qe q l / (p + r))) (S l) (qe q l * (p + r)) l) in *.
  assert (Eh : h = qd q l - qe q l / (p + r)).
  { unfold h. change (qd q l - upd (upd (qd q) l (qe q l / (p + r))) (S l) (qe q l * (p + r)) l = qd q l - qe q l / (p + r)).
    rewrite upd_other by lia. now rewrite upd_same. }
  set (d2 := vset (K := numR) (vset (K := numR) (qd q) l (qe q l / (p + r))) (S l) (qe q l * (p + r))) in *.
  set (d3 := for_up (l + 2) (n - (l + 2)) (fun i (d : vec) => vset (K := numR) d i (d i - h)) d2) in *.
  assert (E2l : d2 l = qe q l / (p + r)) by (change (upd (upd (qd q) l (qe q l / (p + r))) (S l) (qe q l * (p + r)) l = qe q l / (p + r)); rewrite upd_other by lia; apply upd_same).
  assert (E2sl : d2 (S l) = qe q l * (p + r)) by (change (upd (upd (qd q) l (qe q l / (p + r))) (S l) (qe q l * (p + r)) (S l) = qe q l * (p + r)); apply upd_same).
  assert (E2o : forall a, a <> l -> a <> S l -> d2 a = qd q a) by (intros a A1 A2; change (upd (upd (qd q) l (qe q l / (p + r))) (S l) (qe q l * (p + r)) a = qd q a); now rewrite !upd_other).
  assert (E3 : forall a, d3 a = if Nat.leb (l + 2) a && Nat.ltb a n then d2 a - h else d2 a) by (intros a; apply shift_rest).
  clearbody d2 d3.
  assert (E3l : d3 l = qe q l / (p + r)) by (rewrite E3; replace (Nat.leb (l + 2) l) with false by (symmetry; apply Nat.leb_gt; lia); exact E2l).
  assert (E3sl : d3 (S l) = qe q l * (p + r)) by (rewrite E3; replace (Nat.leb (l + 2) (S l)) with false by (symmetry; apply Nat.leb_gt; lia); exact E2sl).
  assert (ED : forall a, (a < n)%nat -> shifted l (qf q + h) d3 a = shifted l (qf q) (qd q) a).
  { intros a Ha. unfold shifted. destruct (Nat.ltb_spec a l) as [Hl|Hl].
    - rewrite E3. replace (Nat.leb (l + 2) a) with false by (symmetry; apply Nat.leb_gt; lia). apply E2o; lia.
    - destruct (Nat.eq_dec a l) as [->|N1]; [rewrite E3l, Eh; ring|]. destruct (Nat.eq_dec a (S l)) as [->|N2]; [rewrite E3sl, S2, Eh; ring|].
      rewrite E3. replace (Nat.leb (l + 2) a) with true by (symmetry; apply Nat.leb_le; lia).
      replace (Nat.ltb a n) with true by (symmetry; apply Nat.ltb_lt; lia). cbn [andb]. rewrite E2o by lia. ring. }
  set (w0 := {| wV := qV q; wd := d3; we := qe q; wp := d3 m; wc := 1; wc2 := 1; wc3 := 1; ws := 0; ws2 := 0 |}) in *.
  set (X := sandwich n (qV q) (tri (shifted l (qf q) (qd q)) (upd (qe q) m 0))).
  assert (B0 : bulge_at n l m (qf q + h) d3 (qe q) X m w0).
  { constructor; cbn [w0 wV wd we wp wc wc2 wc3 ws ws2]; try (intros; lia); try (intros; reflexivity); try tauto; try ring; try exact HO; [|change (@eq R (d3 m) (1 * d3 m - 0 * 1 * qe q m)); generalize (d3 m : R) (qe q m : R); clear; intros x y; change (nT numR) with R in *; ring|change (1 * 1 <= 1); lra].
    unfold X. apply sandwich_proper; [reflexivity|]. intros a b Ha Hb.
    rewrite bul_start.
    - apply (tri_meq n); [exact ED|reflexivity|exact Ha|exact Hb].
    - unfold shifted. now replace (Nat.ltb m l) with false by (symmetry; apply Nat.ltb_ge; lia). }
  assert (Ecnt : (m - l = S (m - l - 1))%nat) by lia. rewrite Ecnt, for_down_last in Eq'. clear Ecnt.
  set (cnt := (m - l - 1)%nat) in *. assert (Ecnt : (m - l = S cnt)%nat) by (unfold cnt; lia). clearbody cnt.
  set (w1 := for_down (S l) cnt (sweep_step n) w0) in *.
  assert (B1 : bulge_at n l m (qf q + h) d3 (qe q) X (S l) w1).
  { apply (for_down_ind _ (bulge_at n l m (qf q + h) d3 (qe q) X)).
    - replace (S l + cnt)%nat with m by lia. exact B0.
    - intros k w Hk B. apply sweep_step_bulge; [lia|intros a Ha; apply He; lia|lia|exact B]. }
  clearbody w1.
  destruct (sweep_step_bulge n l m (qf q + h) d3 (qe q) X Hm He l w1 ltac:(lia) B1) as (B & F1 & F2 & F3 & F4 & F5 & F6 & F7).
  set (w := sweep_step n l w1) in *. clearbody w.
  assert (NZ : d2 (S l) <> 0). { rewrite E2sl. intros Z. apply Rmult_integral in Z. destruct Z as [Z|Z]; [now apply (He l ltac:(lia))|contradiction]. }
  assert (EP : - ws w * ws2 w * wc3 w * qe q (S l) * we w l / d2 (S l) = wp w).
  { change (nT numR) with R in *. assert (Hr : (hypotR (wp w1) (qe q l) : R) <> 0) by (apply hypot_nonzero, He; lia).
    apply (Rmult_eq_reg_r (hypotR (wp w1) (qe q l))); [|exact Hr]. rewrite F4, F6, F1, F2.
    pose proof (ba_p _ _ _ _ _ _ _ _ _ B1) as Bp. change (nT numR) with R in *.
    replace (- ws w * ws w1 * wc2 w1 * qe q (S l) * qe q l / d2 (S l) * hypotR (wp w1) (qe q l))
      with (- (ws w * hypotR (wp w1) (qe q l)) * ws w1 * wc2 w1 * qe q (S l) * qe q l / d2 (S l)) by (unfold Rdiv; ring).
    rewrite F5, Bp, E3l, E3sl, E2sl. field. split; [exact S1|apply He; lia]. }
  assert (Dec : Rabs (ws w * wp w) <= Rabs (qe q (S l)) /\ (ws w * wp w) * (ws w * wp w) * Rabs (we w (S l)) <= 9 / 10 * ((qe q l : R) * qe q l * Rabs (qe q (S l)))).
  { assert (Hr : (hypotR (wp w1) (qe q l) : R) <> 0) by (apply hypot_nonzero, He; lia).
    destruct (hypot_spec (wp w1) (qe q l)) as [Hr0 Hrr]. change (nT numR) with R in *.
    assert (Ews : ws w = qe q l / hypotR (wp w1) (qe q l)). { apply (Rmult_eq_reg_r (hypotR (wp w1) (qe q l))); [|exact Hr]. unfold Rdiv. rewrite Rmult_assoc, Rinv_l, Rmult_1_r by exact Hr. exact F5. }
    assert (Ewp : wp w = - (qe q l / hypotR (wp w1) (qe q l)) * ws w1 * wc2 w1 * qe q (S l) / (p + r)).
    { rewrite <- EP, F1, F2, F6, E2sl, Ews. apply cancel_e; [apply He; lia|exact S1]. }
    pose proof (ba_p _ _ _ _ _ _ _ _ _ B1) as Bp. rewrite E3sl in Bp.
    pose proof (decrease (qe q l) (qe q (S l)) (ws w1) (wc w1) (wc2 w1) (p + r) (wp w1) (hypotR (wp w1) (qe q l)) (He l ltac:(lia)) Hr0 Hrr
      (ba_unit _ _ _ _ _ _ _ _ _ B1) (ba_c2 _ _ _ _ _ _ _ _ _ B1) S4 Bp) as DD.
    cbn zeta in DD. rewrite <- Ewp, <- Ews in DD. change (nT numR) with R in *. rewrite F7. exact DD. }
  rewrite EP in Eq'.
  assert (Ewl : forall k, S k = l -> we w k = 0). { intros k Hk. rewrite (ba_e _ _ _ _ _ _ _ _ _ B k) by lia. now apply H0. }
  subst q'. cbn [qV qd qe qf qtst].
  split; [|split; [apply (ba_orth _ _ _ _ _ _ _ _ _ B)|split; [|split; [|split; [|split; [reflexivity|split; [|split]]]]]]].
  - rewrite <- (ba_total _ _ _ _ _ _ _ _ _ B). apply sandwich_proper; [reflexivity|]. intros a b _ _. symmetry. unfold actual. cbn [qd qe qf].
    apply bul_end. exact Ewl.
  - intros a Ha. change (upd (we w) l (ws w * wp w) a = qe q a). rewrite upd_other by lia. apply (ba_e _ _ _ _ _ _ _ _ _ B). exact Ha.
  - intros a Ha. change (upd (we w) l (ws w * wp w) a <> 0). rewrite upd_other by lia. apply (ba_ne _ _ _ _ _ _ _ _ _ B). lia.
  - change (upd (we w) l (ws w * wp w) m = 0). rewrite upd_other by lia. apply (ba_em _ _ _ _ _ _ _ _ _ B). lia.
  - rewrite Eh. replace (qf q + (qd q l - qe q l / (p + r))) with ((qd q l + qf q) + - (qe q l / (p + r))) by ring.
    eapply Rle_trans; [apply Rabs_triang|]. rewrite Rabs_Ropp. lra.
  - change (Rabs (upd (we w) l (ws w * wp w) l) <= Rabs (qe q (S l))). rewrite upd_same. exact (proj1 Dec).
  - change (upd (we w) l (ws w * wp w) l * upd (we w) l (ws w * wp w) l * Rabs (upd (we w) l (ws w * wp w) (S l)) <= 9 / 10 * (qe q l * qe q l * Rabs (qe q (S l)))).
    rewrite upd_same, upd_other by lia. exact (proj2 Dec).
Qed.

(** ** The do loop *)
Definition epsR : R := @eps numR.
Lemma epsR_value : epsR = 222 / 1000000000000000000.
Proof. unfold epsR, eps. cbn. lra. Qed.

Lemma frob_of_sandwich : forall n V V' T T', orthogonal n V -> orthogonal n V' ->
  meq n (sandwich n V' T') (sandwich n V T) -> frob n T' = frob n T.
Proof. intros n V V' T T' O O' H. rewrite <- (frob_sandwich n V' T' O'), <- (frob_sandwich n V T O). now rewrite H. Qed.
Lemma tri_diag D e a : tri D e a a = D a.
Proof. unfold tri. now rewrite Nat.eqb_refl. Qed.
Lemma tri_next D e a : tri D e a (S a) = e a.
Proof. unfold tri. replace (Nat.eqb a (S a)) with false by (symmetry; apply Nat.eqb_neq; lia). now rewrite Nat.eqb_refl. Qed.

Lemma ql_loop_spec : forall F n l m fuel (q : qlR),
  (l < m < n)%nat -> (forall a, (l <= a < m)%nat -> qe q a <> 0) -> (forall k, S k = l -> qe q k = 0) -> orthogonal n (qV q) ->
  0 <= qtst q -> frob n (tri (shifted l (qf q) (qd q)) (upd (qe q) m 0)) <= F ->
  match ql_loop fuel n l m q with
  | Ok q' =>
      meq n (sandwich n (qV q') (actual l q')) (sandwich n (qV q) (tri (shifted l (qf q) (qd q)) (upd (qe q) m 0)))
      /\ orthogonal n (qV q')
      /\ (forall a, (a < l \/ m < a)%nat -> qe q' a = qe q a) /\ qe q' m = 0
      /\ qtst q' = qtst q /\ Rabs (qf q') <= 2 * F /\ Rabs (qe q' l) <= epsR * qtst q'
  | Throw _ => True
  | Undef => False
  end.
Proof.
  intros F n l m fuel. induction fuel as [|fu IH]; intros q Hm He H0 HO Ht HF; [exact I|].
  cbn [ql_loop]. replace (Nat.leb n m) with false by (symmetry; apply Nat.leb_gt; lia).
  destruct (ql_iteration_spec n l m q Hm He H0 HO) as (I1 & I2 & I3 & I4 & I5 & I6 & I7 & _ & _).
  set (q1 := ql_iteration n l m q) in *. clearbody q1.
  assert (Bf : Rabs (qf q1) <= 2 * F).
  { eapply Rle_trans; [exact I7|].
    pose proof (entry_le_frob n (tri (shifted l (qf q) (qd q)) (upd (qe q) m 0)) l l ltac:(lia) ltac:(lia)) as P1.
    pose proof (entry_le_frob n (tri (shifted l (qf q) (qd q)) (upd (qe q) m 0)) l (S l) ltac:(lia) ltac:(lia)) as P2.
    rewrite tri_diag in P1. rewrite tri_next, upd_other in P2 by lia. unfold shifted at 1 in P1.
    replace (Nat.ltb l l) with false in P1 by (symmetry; apply Nat.ltb_ge; lia). lra. }
  cbn [numR nlt nmul nabs]. change (@eps numR) with epsR.
  destruct (Rlt_bool_spec (epsR * qtst q1) (Rabs (qe q1 l))) as [Hlt|Hle].
  - assert (H0' : forall k, S k = l -> qe q1 k = 0) by (intros k Hk; rewrite I3 by lia; now apply H0).
    assert (He' : forall a, (l <= a < m)%nat -> qe q1 a <> 0).
    { intros a Ha. destruct (Nat.eq_dec a l) as [->|]; [|apply I4; lia]. intros Z. change (nT numR) with R in *. rewrite Z, Rabs_R0 in Hlt.
      assert (0 <= epsR * qtst q1) by (apply Rmult_le_pos; [rewrite epsR_value; lra|rewrite I6; exact Ht]). lra. }
    assert (Eup : meq n (tri (shifted l (qf q1) (qd q1)) (upd (qe q1) m 0)) (actual l q1)).
    { apply tri_meq; [reflexivity|]. intros a _. unfold upd. destruct (Nat.eqb_spec a m) as [->|]; [symmetry; exact I5|reflexivity]. }
    assert (HF' : frob n (tri (shifted l (qf q1) (qd q1)) (upd (qe q1) m 0)) <= F).
    { rewrite Eup, (frob_of_sandwich n _ _ _ _ HO I2 I1). exact HF. }
    specialize (IH q1 Hm He' H0' I2 ltac:(rewrite I6; exact Ht) HF').
    destruct (ql_loop fu n l m q1) as [q'| |]; [|exact I|exact IH].
    destruct IH as (J1 & J2 & J3 & J4 & J5 & J6 & J7).
    split; [rewrite J1, Eup; exact I1|split; [exact J2|split; [|split; [exact J4|split; [|split; [exact J6|exact J7]]]]]].
    + intros a Ha. rewrite J3 by exact Ha. now apply I3.
    + rewrite J5. exact I6.
  - split; [exact I1|split; [exact I2|split; [exact I3|split; [exact I5|split; [exact I6|split; [exact Bf|exact Hle]]]]]].
Qed.

Lemma find_small_spec : forall (e : nat -> R) (tol : R) cnt m0,
  let m := find_small (K := numR) e tol m0 cnt in
  (m0 <= m <= m0 + cnt)%nat /\ (forall a, (m0 <= a < m)%nat -> tol < Rabs (e a)) /\ ((m < m0 + cnt)%nat -> Rabs (e m) <= tol).
Proof.
  intros e tol cnt. induction cnt as [|c IH]; intros m0; cbn [find_small numR nle nabs].
  - split; [lia|]. split; intros; lia.
  - destruct (Rle_bool_spec (Rabs (e m0)) tol) as [H|H].
    + split; [lia|]. split; [intros; lia|]. intros _. exact H.
    + destruct (IH (S m0)) as (J1 & J2 & J3). split; [cbn zeta in *; lia|]. split.
      * intros a Ha. destruct (Nat.eq_dec a m0) as [->|]; [exact H|]. apply J2. lia.
      * intros Hm. apply J3. cbn zeta in *. lia.
Qed.

(** ** Dropping a small off-diagonal element *)
Lemma drop_le : forall n D e m, frob n (tri D (upd e m 0)) <= frob n (tri D e).
Proof.
  intros n D e m. unfold frob. apply sqrt_le_1_alt. unfold dot. apply sum_le. intros i Hi. apply sum_le. intros j Hj.
  unfold tri, upd. repeat match goal with |- context [Nat.eqb ?x ?y] => destruct (Nat.eqb_spec x y) end; nra.
Qed.
Lemma drop_error : forall n D e m, frob n (msub (tri D e) (tri D (upd e m 0))) <= 3 / 2 * Rabs (e m).
Proof.
  intros n D e m. apply Rsqr_incr_0_var; [|pose proof (Rabs_pos (e m)); lra]. unfold Rsqr. rewrite frob_sqr.
  set (E := fun a b => if Nat.eqb a m && Nat.eqb b (S m) then e m * e m else if Nat.eqb b m && Nat.eqb a (S m) then e m * e m else 0).
  assert (H : dot n (msub (tri D e) (tri D (upd e m 0))) (msub (tri D e) (tri D (upd e m 0))) = sum n (fun a => sum n (fun b => E a b))).
  { apply sum_ext. intros a _. apply sum_ext. intros b _. unfold msub, tri, upd, E.
    repeat match goal with |- context [Nat.eqb ?x ?y] => destruct (Nat.eqb_spec x y); try (exfalso; lia) end; cbn [andb];
    repeat match goal with H : ?x = m |- _ => subst x end; ring. }
  rewrite H.
  assert (Rb : forall a, sum n (fun b => E a b) <= (if Nat.eqb a m then e m * e m else 0) + (if Nat.eqb a (S m) then e m * e m else 0)).
  { assert (PP : 0 <= e m * e m) by nra.
    intros a. unfold E. destruct (Nat.eqb_spec a m) as [->|Ha]; cbn [andb].
    - replace (Nat.eqb m (S m)) with false by (symmetry; apply Nat.eqb_neq; lia).
      destruct (Nat.lt_ge_cases (S m) n).
      + rewrite (sum_single n (S m)); [rewrite Nat.eqb_refl; lra|assumption|]. intros k _ Hk. apply Nat.eqb_neq in Hk. rewrite Hk, andb_false_r. reflexivity.
      + rewrite sum_0; [lra|]. intros k Hk. replace (Nat.eqb k (S m)) with false by (symmetry; apply Nat.eqb_neq; lia). now rewrite andb_false_r.
    - destruct (Nat.eqb_spec a (S m)) as [->|Ha2].
      + destruct (Nat.lt_ge_cases m n).
        * rewrite (sum_single n m); [rewrite Nat.eqb_refl; cbn [andb]; lra|assumption|]. intros k _ Hk. apply Nat.eqb_neq in Hk. now rewrite Hk.
        * rewrite sum_0; [lra|]. intros k Hk. now replace (Nat.eqb k m) with false by (symmetry; apply Nat.eqb_neq; lia).
      + rewrite sum_0; [lra|]. intros k Hk. now rewrite andb_false_r. }
  eapply Rle_trans; [apply sum_le; intros a _; apply Rb|]. rewrite sum_plus.
  assert (One : forall k, sum n (fun a => if Nat.eqb a k then e m * e m else 0) <= e m * e m).
  { intros k. destruct (Nat.lt_ge_cases k n).
    - rewrite (sum_single n k); [rewrite Nat.eqb_refl; lra|assumption|]. intros b _ Hb. apply Nat.eqb_neq in Hb. now rewrite Hb.
    - rewrite sum_0; [nra|]. intros b Hb. now replace (Nat.eqb b k) with false by (symmetry; apply Nat.eqb_neq; lia). }
  pose proof (One m). pose proof (One (S m)). assert (Rabs (e m) * Rabs (e m) = e m * e m) by (unfold Rabs; destruct (Rcase_abs (e m)); ring). nra.
Qed.

(** ** All rows *)
Record row_inv (n : nat) (A : matrix) (F : R) (l : nat) (q : qlR) : Prop := {
  ri_orth : orthogonal n (qV q);
  ri_norm : frob n (actual l q) <= F;
  ri_err : frob n (msub A (sandwich n (qV q) (actual l q))) <= INR l * (12 * epsR * F);
  ri_done : forall k, (k < l)%nat -> qe q k = 0;
  ri_last : qe q (n - 1)%nat = 0;
  ri_f : Rabs (qf q) <= 2 * F;
  ri_tst : 0 <= qtst q <= 4 * F }.

Lemma drop_step : forall n A V D e m F B, orthogonal n V ->
  frob n (msub A (sandwich n V (tri D e))) <= B -> Rabs (e m) <= epsR * (4 * F) ->
  frob n (msub A (sandwich n V (tri D (upd e m 0)))) <= B + 6 * epsR * F.
Proof.
  intros n A V D e m F B O HB He.
  eapply Rle_trans; [apply (frob_sub_triangle n A (sandwich n V (tri D e)))|].
  rewrite <- (sandwich_msub n V), (frob_sandwich n V _ O). pose proof (drop_error n D e m). lra.
Qed.
Lemma ql_row_spec : forall n A F l fuel q, (l < n)%nat -> row_inv n A F l q ->
  match ql_row fuel n l q with Ok q' => row_inv n A F (S l) q' | Throw _ => True | Undef => False end.
Proof.
  intros n A F l fuel q Hl [R1 R2 R3 R4 R5 R6 R7]. unfold ql_row. cbn zeta.
  cbn [numR nlt nadd nmul nabs]. change (@eps numR) with epsR. change (nT numR) with R in *.
  set (tst := if Rlt_bool (qtst q) (Rabs (qd q l) + Rabs (qe q l)) then Rabs (qd q l) + Rabs (qe q l) else qtst q).
  assert (F0 : 0 <= F) by (eapply Rle_trans; [apply frob_nonneg|exact R2]).
  assert (E0 : 0 <= epsR) by (rewrite epsR_value; lra).
  assert (Pd : Rabs (qd q l + qf q) <= F).
  { eapply Rle_trans; [|exact R2]. pose proof (entry_le_frob n (actual l q) l l Hl Hl) as P. unfold actual in P at 1. rewrite tri_diag in P. unfold shifted in P.
    now replace (Nat.ltb l l) with false in P by (symmetry; apply Nat.ltb_ge; lia). }
  assert (Pe : Rabs (qe q l) <= F).
  { destruct (Nat.eq_dec l (n - 1)) as [E|]; [rewrite E; change (nT numR) with R; rewrite R5, Rabs_R0; exact F0|].
    eapply Rle_trans; [|exact R2]. pose proof (entry_le_frob n (actual l q) l (S l) Hl ltac:(lia)) as P. unfold actual in P at 1. now rewrite tri_next in P. }
  assert (Ht : 0 <= tst <= 4 * F).
  { unfold tst. destruct (Rlt_bool_spec (qtst q) (Rabs (qd q l) + Rabs (qe q l))); [|exact R7]. split.
    - pose proof (Rabs_pos (qd q l)). pose proof (Rabs_pos (qe q l)). lra.
    - replace (qd q l) with ((qd q l + qf q) + - qf q) by ring. pose proof (Rabs_triang (qd q l + qf q) (- qf q)) as P. rewrite Rabs_Ropp in P. lra. }
  clearbody tst.
  destruct (find_small_spec (qe q) (epsR * tst) (n - l) l) as (M1 & M2 & M3). cbn zeta in M1, M2, M3.
  set (m := find_small (K := numR) (qe q) (epsR * tst) l (n - l)) in *.
  change (find_small (qe q) (epsR * tst) l (n - l)) with m. clearbody m.
  assert (Tol : 0 <= epsR * tst) by (apply Rmult_le_pos; lra).
  assert (Mn : (m < n)%nat).
  { destruct (Nat.lt_ge_cases m n) as [|G]; [assumption|]. exfalso. specialize (M2 (n - 1)%nat ltac:(lia)). change (nT numR) with R in *. rewrite R5, Rabs_R0 in M2. lra. }
  specialize (M3 ltac:(lia)).
  assert (TolF : epsR * tst <= epsR * (4 * F)) by (apply Rmult_le_compat_l; lra).
  assert (Fin : forall q2 : qlR, orthogonal n (qV q2) -> frob n (actual l q2) <= F ->
    frob n (msub A (sandwich n (qV q2) (actual l q2))) <= INR l * (12 * epsR * F) + 6 * epsR * F ->
    (forall k, (k < l)%nat -> qe q2 k = 0) -> qe q2 (n - 1)%nat = 0 -> Rabs (qf q2) <= 2 * F -> qtst q2 = tst -> Rabs (qe q2 l) <= epsR * tst ->
    row_inv n A F (S l) {| qV := qV q2; qd := vset (qd q2) l (qd q2 l + qf q2); qe := vset (qe q2) l (nofZ 0); qf := qf q2; qtst := qtst q2 |}).
  { intros q2 Q1 Q2 Q3 Q4 Q5 Q6 Q7 Q8.
    assert (Eact : meq n (actual (S l) {| qV := qV q2; qd := vset (qd q2) l (qd q2 l + qf q2); qe := vset (qe q2) l (nofZ 0); qf := qf q2; qtst := qtst q2 |})
                         (tri (shifted l (qf q2) (qd q2)) (upd (qe q2) l 0))).
    { unfold actual. cbn [qf qd qe]. apply tri_meq; [|reflexivity]. intros a Ha.
      change (shifted (S l) (qf q2) (upd (qd q2) l (qd q2 l + qf q2)) a = shifted l (qf q2) (qd q2) a). unfold shifted, upd.
      destruct (Nat.eqb_spec a l) as [->|Hne].
      - replace (Nat.ltb l (S l)) with true by (symmetry; apply Nat.ltb_lt; lia). now replace (Nat.ltb l l) with false by (symmetry; apply Nat.ltb_ge; lia).
      - destruct (Nat.ltb_spec a (S l)); destruct (Nat.ltb_spec a l); try lia; reflexivity. }
    constructor; cbn [qV qe qf qtst].
    - exact Q1.
    - rewrite Eact. eapply Rle_trans; [apply drop_le|exact Q2].
    - rewrite Eact, S_INR. pose proof (drop_step n A (qV q2) (shifted l (qf q2) (qd q2)) (qe q2) l F _ Q1 Q3 (Rle_trans _ _ _ Q8 TolF)). lra.
    - intros k Hk. change (upd (qe q2) l 0 k = 0). unfold upd. destruct (Nat.eqb_spec k l); [reflexivity|]. apply Q4. lia.
    - change (upd (qe q2) l 0 (n - 1)%nat = 0). unfold upd. destruct (Nat.eqb_spec (n - 1) l); [reflexivity|exact Q5].
    - exact Q6.
    - rewrite Q7. exact Ht. }
  destruct (Nat.ltb_spec l m) as [Hlm|Hlm].
  - set (q1 := {| qV := qV q; qd := qd q; qe := qe q; qf := qf q; qtst := tst |}).
    pose proof (ql_loop_spec F n l m fuel q1 (conj Hlm Mn)) as L. cbn [q1 qV qd qe qf qtst] in L.
    assert (L1 : forall a, (l <= a < m)%nat -> qe q a <> 0).
    { intros a Ha Z. specialize (M2 a Ha). change (nT numR) with R in *. rewrite Z, Rabs_R0 in M2. lra. }
    specialize (L L1 (fun k Hk => R4 k ltac:(lia)) R1 (proj1 Ht) (Rle_trans _ _ _ (drop_le n _ _ m) R2)).
    fold q1 in L. destruct (ql_loop fuel n l m q1) as [q2| |]; cbn [obind]; [|exact I|exact L].
    destruct L as (J1 & J2 & J3 & J4 & J5 & J6 & J7).
    apply Fin; [exact J2| | | | |exact J6|exact J5|].
    + rewrite (frob_of_sandwich n _ _ _ _ R1 J2 J1). eapply Rle_trans; [apply drop_le|exact R2].
    + rewrite J1. apply (drop_step n A (qV q) _ (qe q) m F _ R1 R3). lra.
    + intros k Hk. rewrite J3 by lia. now apply R4.
    + destruct (Nat.eq_dec (n - 1) m) as [->|]; [exact J4|]. rewrite J3 by lia. exact R5.
    + rewrite <- J5. exact J7.
  - cbn [obind]. assert (m = l) as -> by lia.
    apply (Fin {| qV := qV q; qd := qd q; qe := qe q; qf := qf q; qtst := tst |}); cbn [qV qd qe qf qtst]; try assumption; try reflexivity.
    assert (0 <= 6 * epsR * F) by (apply Rmult_le_pos; lra). unfold actual in *. cbn [qd qe qf]. lra.
Qed.
Lemma ql_rows_spec : forall n A F fuel cnt l q, (l + cnt = n)%nat -> row_inv n A F l q ->
  match ql_rows fuel n l cnt q with Ok q' => row_inv n A F n q' | Throw _ => True | Undef => False end.
Proof.
  intros n A F fuel cnt. induction cnt as [|c IH]; intros l q E H; cbn [ql_rows].
  - rewrite Nat.add_0_r in E. rewrite <- E. rewrite <- E in H. exact H.
  - pose proof (ql_row_spec n A F l fuel q ltac:(lia) H) as P. destruct (ql_row fuel n l q) as [q1| |]; cbn [obind]; [|exact I|exact P].
    apply IH; [lia|exact P].
Qed.
