(** * Facts about Householder2 (CmaEigen.v) over the reals *)
From Coq Require Import Reals Lra Lia Arith Bool Setoid.
From Flocq Require Import Core.
From Verif Require Import Prelude Num Cma CmaEigen MatR EigenQL.
#[local] Open Scope R_scope.

Ltac natcase :=
  repeat match goal with
  | |- context [Nat.eqb ?x ?y] => destruct (Nat.eqb_spec x y); try (exfalso; lia)
  | |- context [Nat.ltb ?x ?y] => destruct (Nat.ltb_spec x y); try (exfalso; lia)
  | |- context [Nat.leb ?x ?y] => destruct (Nat.leb_spec x y); try (exfalso; lia)
  end; cbn [andb orb].

Ltac rring := unfold Rdiv; change (nT numR) with R in *; ring.
Ltac rfield H := change (nT numR) with R in *; field; exact H.
Notation mkA V d e := (@Build_arrays numR V d e).
Definition mupd (M : matrix) (i j : nat) (x : R) : matrix := fun a b => if Nat.eqb a i && Nat.eqb b j then x else M a b.

Lemma for_up_ind' : forall S (P : nat -> S -> Prop) body lo hi s, (lo <= hi)%nat ->
  P lo s -> (forall k s, (lo <= k < hi)%nat -> P k s -> P (Datatypes.S k) (body k s)) -> P hi (for_up lo (hi - lo) body s).
Proof.
  intros S P body lo hi s Hl H0 H. replace hi with (lo + (hi - lo))%nat at 1 by lia. apply for_up_ind; [exact H0|].
  intros k t Hk. apply H. lia.
Qed.
Lemma for_up_ind0 : forall S (P : nat -> S -> Prop) body hi s,
  P O s -> (forall k s, (k < hi)%nat -> P k s -> P (Datatypes.S k) (body k s)) -> P hi (for_up O hi body s).
Proof.
  intros S P body hi s H0 H. pose proof (for_up_ind' S P body O hi s ltac:(lia) H0) as Q. rewrite Nat.sub_0_r in Q. apply Q.
  intros k t Hk. apply H. lia.
Qed.

Lemma for_up_sum : forall n (f : nat -> R), @for_up R O n (fun k s => s + f k) 0 = sum n f.
Proof.
  intros n f. apply (for_up_ind0 _ (fun k s => s = sum k f)); [reflexivity|]. intros k s _ ->. reflexivity.
Qed.

(** lines 628-631 *)
Lemma scale_row_spec : forall (scale : R) i (d : nat -> R),
  let r := scale_row (K := numR) scale i d in
  (forall k, fst r k = if Nat.ltb k i then d k / scale else d k) /\ (snd r : R) = sum i (fun k => d k / scale * (d k / scale)).
Proof.
  intros scale i d. unfold scale_row.
  apply (for_up_ind0 _ (fun j (s : (nat -> R) * R) =>
     (forall k, fst s k = if Nat.ltb k j then d k / scale else d k) /\ snd s = sum j (fun k => d k / scale * (d k / scale)))).
  - split; [intros k; reflexivity|reflexivity].
  - intros k [v h] Hk [H1 H2]. cbn [fst snd] in *. cbn zeta. cbn [fst snd numR nadd nmul ndiv]. split.
    + intros j. change (upd v k (v k / scale) j = if Nat.ltb j (S k) then d j / scale else d j). unfold upd. rewrite !H1. natcase; subst; reflexivity.
    + rewrite H1. natcase. cbn [sum]. now rewrite H2.
Qed.

(** lines 644-653 *)
Definition lower (V : matrix) : matrix := fun a b => V (Nat.max a b) (Nat.min a b).
Lemma sum_tail : forall (F G : nat -> R) j i, (j <= i)%nat -> (forall k, (j <= k < i)%nat -> F k = G k) -> sum i F - sum j F = sum i G - sum j G.
Proof.
  intros F G j i H. induction H as [|i H IH]; intros E; [lra|]. cbn [sum]. rewrite (E i) by lia.
  specialize (IH (fun k Hk => E k ltac:(lia))). lra.
Qed.
Lemma apply_column_spec : forall i j (V : matrix) (d e : nat -> R), (j < i)%nat ->
  let s' := apply_column (K := numR) i j (mkA V d e) in
  (forall a b, aV s' a b = mupd V j i (d j) a b) /\ (forall a, ad s' a = d a)
  /\ (forall k, ae s' k = if Nat.eqb k j then e j + V j j * d j + (sum i (fun q => V q j * d q) - sum (S j) (fun q => V q j * d q))
                          else if Nat.ltb j k && Nat.ltb k i then e k + V k j * d j else e k).
Proof.
  intros i j V d e Hj. unfold apply_column. cbn zeta. cbn [aV ad ae numR nadd nmul].
  split; [reflexivity|split; [reflexivity|]].
  set (V1 := mset (K := numR) V j i (d j)).
  assert (HV1 : forall q b, b <> i -> V1 q b = V q b). { intros q b Hb. unfold V1, mset. apply Nat.eqb_neq in Hb. now rewrite Hb, andb_false_r. }
  clearbody V1.
  pose proof (for_up_ind' _ (fun k (r : R * (nat -> R)) =>
     fst r = e j + V j j * d j + (sum k (fun q => V q j * d q) - sum (S j) (fun q => V q j * d q))
     /\ (forall a, snd r a = if Nat.ltb j a && Nat.ltb a k then e a + V a j * d j else e a))
     (fun k (r : R * (nat -> R)) => (fst r + V1 k j * d k, vset (K := numR) (snd r) k (snd r k + V1 k j * d j))) (S j) i (e j + V1 j j * d j, e) ltac:(lia)) as L.
  match type of L with ?A -> ?B -> _ => assert (HA : A); [|assert (HB : B)] end.
  - cbn [fst snd]. rewrite HV1 by lia. split; [ring|]. intros a. natcase; reflexivity.
  - intros k [g v] Hk [H1 H2]. cbn [fst snd] in *. rewrite !HV1 by lia. split.
    + cbn [sum]. rewrite H1. cbn [sum]. ring.
    + intros a. change (upd v k (v k + V k j * d j) a = if Nat.ltb j a && Nat.ltb a (S k) then e a + V a j * d j else e a). unfold upd. rewrite !H2. natcase; subst; reflexivity.
  - destruct (L HA HB) as [R1 R2]. intros k. 
    match goal with |- vset ?v j ?x k = _ => change (upd v j x k = if Nat.eqb k j then e j + V j j * d j + (sum i (fun q => V q j * d q) - sum (S j) (fun q => V q j * d q))
                          else if Nat.ltb j k && Nat.ltb k i then e k + V k j * d j else e k) end.
    unfold upd. destruct (Nat.eqb k j); [exact R1|exact (R2 k)].
Qed.
Lemma apply_columns_spec : forall i (V : matrix) (u e : nat -> R), (forall j, (j < i)%nat -> e j = 0) ->
  let s' := for_up O i (fun j s => apply_column (K := numR) i j s) (mkA V u e) in
  (forall a b, aV s' a b = if Nat.ltb a i && Nat.eqb b i then u a else V a b) /\ (forall a, ad s' a = u a)
  /\ (forall k, ae s' k = if Nat.ltb k i then sum i (fun b => lower V k b * u b) else e k).
Proof.
  intros i V u e He.
  pose (P := fun j (s : @arrays numR) =>
    (forall a b, aV s a b = if Nat.ltb a j && Nat.eqb b i then u a else V a b) /\ (forall a, ad s a = u a)
    /\ (forall k, ae s k = if Nat.ltb k j then sum i (fun b => lower V k b * u b) else if Nat.ltb k i then sum j (fun b => lower V k b * u b) else e k)).
  pose proof (for_up_ind0 _ P (fun j s => apply_column (K := numR) i j s) i (mkA V u e)) as L.
  match type of L with ?A -> ?B -> _ => assert (HA : A); [|assert (HB : B)] end.
  - split; [intros a b; reflexivity|split; [reflexivity|]]. intros k. cbn [ae]. natcase; [|reflexivity]. now apply He.
  - intros j [W d c] Hj (H1 & H2 & H3). cbn [aV ad ae] in *.
    destruct (apply_column_spec i j W d c Hj) as (A1 & A2 & A3). cbn zeta in *.
    assert (HW : forall q b, b <> i -> W q b = V q b). { intros q b Hb. rewrite H1. apply Nat.eqb_neq in Hb. now rewrite Hb, andb_false_r. }
    split; [|split].
    + intros a b. rewrite A1. unfold mupd. rewrite H1, H2. natcase; subst; reflexivity.
    + intros a. rewrite A2. apply H2.
    + intros k. rewrite A3, !H3, !H2, !HW by lia.
      assert (Ej : sum j (fun b => lower V j b * u b) + V j j * u j + (sum i (fun q => W q j * d q) - sum (S j) (fun q => W q j * d q)) = sum i (fun b => lower V j b * u b)).
      { rewrite (sum_tail (fun q => W q j * d q) (fun b => lower V j b * u b) (S j) i ltac:(lia)).
        - cbn [sum]. assert (D : lower V j j = V j j) by (unfold lower; now rewrite Nat.max_id, Nat.min_id). rewrite D. ring.
        - intros q Hq. rewrite HW, H2 by lia. unfold lower. now rewrite Nat.max_r, Nat.min_l by lia. }
      destruct (Nat.eqb_spec k j) as [->|Hne].
      * natcase. exact Ej.
      * natcase; try reflexivity. cbn [sum]. assert (D : lower V k j = V k j) by (unfold lower; now rewrite Nat.max_l, Nat.min_r by lia). now rewrite D.
  - destruct (L HA HB) as (R1 & R2 & R3). split; [exact R1|split; [exact R2|]]. intros k. rewrite R3. natcase; reflexivity.
Qed.

(** lines 654-661 *)
Lemma divide_e_spec : forall (h : R) i (d e : nat -> R),
  let r := divide_e (K := numR) h i d e in
  (forall k, fst r k = if Nat.ltb k i then e k / h else e k) /\ (snd r : R) = sum i (fun k => e k / h * d k).
Proof.
  intros h i d e. unfold divide_e.
  apply (for_up_ind0 _ (fun j (s : (nat -> R) * R) =>
     (forall k, fst s k = if Nat.ltb k j then e k / h else e k) /\ snd s = sum j (fun k => e k / h * d k))).
  - split; [intros k; reflexivity|reflexivity].
  - intros k [v f] Hk [H1 H2]. cbn [fst snd] in *. cbn zeta. cbn [fst snd numR nadd nmul ndiv]. split.
    + intros j. change (upd v k (v k / h) j = if Nat.ltb j (S k) then e j / h else e j). unfold upd. rewrite !H1. natcase; subst; reflexivity.
    + rewrite H1. natcase. cbn [sum]. now rewrite H2.
Qed.
Lemma sub_e_spec : forall (hh : R) i (d e : nat -> R) k,
  @for_up (nat -> R) O i (fun j e => vset (K := numR) e j (e j - hh * d j)) e k = if Nat.ltb k i then e k - hh * d k else e k.
Proof.
  intros hh i d e.
  apply (for_up_ind0 _ (fun j (v : nat -> R) => forall k, v k = if Nat.ltb k j then e k - hh * d k else e k)).
  - intros k; reflexivity.
  - intros j v Hj H k. change (upd v j (v j - hh * d j) k = if Nat.ltb k (S j) then e k - hh * d k else e k). unfold upd. rewrite !H. natcase; subst; reflexivity.
Qed.
Lemma zero_e_spec : forall i (e : nat -> R) k, @for_up (nat -> R) O i (fun j e => vset (K := numR) e j 0) e k = if Nat.ltb k i then 0 else e k.
Proof.
  intros i e.
  apply (for_up_ind0 _ (fun j (v : nat -> R) => forall k, v k = if Nat.ltb k j then 0 else e k)).
  - intros k; reflexivity.
  - intros j v Hj H k. change (upd v j 0 k = if Nat.ltb k (S j) then 0 else e k). unfold upd. rewrite !H. natcase; subst; reflexivity.
Qed.

(** lines 663-671 *)
Lemma update_column_spec : forall i j (V : matrix) (d e : nat -> R), (j < i)%nat ->
  let s' := update_column (K := numR) i j (mkA V d e) in
  let W := fun a b => if Nat.eqb b j && Nat.leb j a && Nat.ltb a i then V a b - (d b * e a + e b * d a) else V a b in
  (forall a b, aV s' a b = if Nat.eqb a i && Nat.eqb b j then 0 else W a b)
  /\ (forall a, ad s' a = if Nat.eqb a j then W (i - 1)%nat j else d a) /\ (forall a, ae s' a = e a).
Proof.
  intros i j V d e Hj s' W.
  assert (L : forall a b, @for_up matrix j (i - j) (fun k V => mset (K := numR) V k j (V k j - (d j * e k + e j * d k))) V a b = W a b).
  { apply (for_up_ind' _ (fun k (X : matrix) => forall a b, X a b = if Nat.eqb b j && Nat.leb j a && Nat.ltb a k then V a b - (d b * e a + e b * d a) else V a b)); [lia| |].
    - intros a b. natcase; reflexivity.
    - intros k X Hk H a b. change (mupd X k j (X k j - (d j * e k + e j * d k)) a b = if Nat.eqb b j && Nat.leb j a && Nat.ltb a (S k) then V a b - (d b * e a + e b * d a) else V a b).
      unfold mupd. rewrite !H. natcase; subst; try reflexivity. }
  unfold update_column in s'. cbn zeta in s'. cbn [aV ad ae numR nadd nsub nmul] in s'.
  split; [|split; [|reflexivity]].
  - intros a b. unfold s'. cbn [aV].
    match goal with |- mset ?X i j _ a b = _ => change (mupd X i j 0 a b = if Nat.eqb a i && Nat.eqb b j then 0 else W a b) end.
    unfold mupd. rewrite L. reflexivity.
  - intros a. unfold s'. cbn [ad].
    match goal with |- vset d j ?x a = _ => change (upd d j x a = if Nat.eqb a j then W (i - 1)%nat j else d a) end.
    unfold upd. rewrite L. reflexivity.
Qed.
Lemma update_columns_spec : forall i (V : matrix) (u q : nat -> R),
  let s' := for_up O i (fun j s => update_column (K := numR) i j s) (mkA V u q) in
  (forall a b, aV s' a b = if Nat.eqb a i && Nat.ltb b i then 0 else if Nat.leb b a && Nat.ltb a i then V a b - (u b * q a + q b * u a) else V a b)
  /\ (forall a, ad s' a = if Nat.ltb a i then V (i - 1)%nat a - (u a * q (i - 1)%nat + q a * u (i - 1)%nat) else u a) /\ (forall a, ae s' a = q a).
Proof.
  intros i V u q.
  pose (P := fun j (s : @arrays numR) =>
    (forall a b, aV s a b = if Nat.eqb a i && Nat.ltb b j then 0 else if Nat.ltb b j && Nat.leb b a && Nat.ltb a i then V a b - (u b * q a + q b * u a) else V a b)
    /\ (forall a, ad s a = if Nat.ltb a j then V (i - 1)%nat a - (u a * q (i - 1)%nat + q a * u (i - 1)%nat) else u a) /\ (forall a, ae s a = q a)).
  pose proof (for_up_ind0 _ P (fun j s => update_column (K := numR) i j s) i (mkA V u q)) as L.
  match type of L with ?A -> ?B -> _ => assert (HA : A); [|assert (HB : B)] end.
  - split; [intros a b; cbn [aV]; natcase; reflexivity|split; [reflexivity|reflexivity]].
  - intros j [W d c] Hj (H1 & H2 & H3). cbn [aV ad ae] in *.
    destruct (update_column_spec i j W d c Hj) as (A1 & A2 & A3). cbn zeta in *.
    split; [|split].
    + intros a b. rewrite A1, !H1, !H2, !H3. natcase; subst; try reflexivity; ring.
    + intros a. rewrite A2, !H1, !H2, !H3. natcase; subst; try reflexivity; ring.
    + intros a. rewrite A3. apply H3.
  - destruct (L HA HB) as (R1 & R2 & R3). split; [|split; [exact R2|exact R3]]. intros a b. rewrite R1. natcase; reflexivity.
Qed.

(** ** One step of the reduction (lines 606-674) *)
Lemma reduce_trivial_spec : forall i (V : matrix) (d e : nat -> R), (0 < i)%nat ->
  let s' := reduce_trivial (K := numR) i (mkA V d e) in
  (forall a b, aV s' a b = if (Nat.eqb a i && Nat.ltb b i) || (Nat.eqb b i && Nat.ltb a i) then 0 else V a b)
  /\ (forall a, ad s' a = if Nat.ltb a i then V (i - 1)%nat a else d a)
  /\ (forall a, ae s' a = if Nat.eqb a i then d (i - 1)%nat else e a).
Proof.
  intros i V d e Hi. unfold reduce_trivial. cbn [aV ad ae].
  pose (P := fun j (s : @arrays numR) =>
    (forall a b, aV s a b = if (Nat.eqb a i && Nat.ltb b j) || (Nat.eqb b i && Nat.ltb a j) then 0 else V a b)
    /\ (forall a, ad s a = if Nat.ltb a j then V (i - 1)%nat a else d a)
    /\ (forall a, ae s a = if Nat.eqb a i then d (i - 1)%nat else e a)).
  apply (for_up_ind0 _ P).
  - split; [intros a b; cbn [aV]; natcase; reflexivity|split; [reflexivity|reflexivity]].
  - intros j [W c f] Hj (H1 & H2 & H3). cbn [aV ad ae] in *. split; [|split; [|exact H3]]; cbn [aV ad ae].
    + intros a b. change (mupd (mupd W i j 0) j i 0 a b = if (Nat.eqb a i && Nat.ltb b (S j)) || (Nat.eqb b i && Nat.ltb a (S j)) then 0 else V a b).
      unfold mupd. rewrite H1. natcase; reflexivity.
    + intros a. change (upd c j (W (i - 1)%nat j) a = if Nat.ltb a (S j) then V (i - 1)%nat a else d a). unfold upd. rewrite H1, H2. natcase; subst; reflexivity.
Qed.

Definition reflector (i : nat) (V : matrix) : nat -> R := fun k => if Nat.ltb k i then V k i else 0.
Definition reduced (i : nat) (V : matrix) (d e : nat -> R) (s' : @arrays numR) : Prop :=
  let u := reflector i (aV s') in
  let h : R := ad s' i in
  let w := fun b => sum i (fun k => lower V b k * u k) in
  let t := sum i (fun k => w k * u k) in
  sum i (fun k => u k * u k) = 2 * h
  /\ (forall a b, (b <= a < i)%nat -> aV s' a b = V a b - u a * w b / h - u b * w a / h + u a * u b * t / (h * h))
  /\ (forall a, (a < i)%nat -> d a - u a * sum i (fun k => u k * d k) / h = if Nat.eqb a (i - 1) then ae s' i else 0)
  /\ (forall b, (b < i)%nat -> aV s' i b = 0)
  /\ (forall b, (b < i)%nat -> ad s' b = aV s' (i - 1)%nat b)
  /\ (forall a b, (i < a \/ i < b \/ (a = i /\ b = i))%nat -> aV s' a b = V a b)
  /\ (forall a, (i < a)%nat -> ad s' a = d a /\ ae s' a = e a).

Lemma reduce_spec : forall i (V : matrix) (d e : nat -> R), (0 < i)%nat -> reduced i V d e (reduce (K := numR) i (mkA V d e)).
Proof.
  intros i V d e Hi. unfold reduce. cbn [ad].
  assert (Es : (row_scale (K := numR) d i : R) = sum i (fun k => Rabs (d k))).
  { unfold row_scale. apply (for_up_sum i (fun k => Rabs (d k))). }
  cbn zeta. cbn [numR neq nofZ aV ad ae]. change (nT numR) with R in *. rewrite Es. set (scale := sum i (fun k => Rabs (d k))) in *.
  destruct (Req_bool_spec scale 0) as [Z|NZ].
  - (* all elements are zero *)
    assert (D0 : forall k, (k < i)%nat -> d k = 0).
    { intros k Hk. pose proof (sum_zero_inv i (fun k => Rabs (d k)) (fun k _ => Rabs_pos _) Z k Hk) as A. cbn beta in A.
      destruct (Req_dec (d k) 0) as [|N]; [assumption|]. apply Rabs_no_R0 in N. contradiction. }
    destruct (reduce_trivial_spec i V d e Hi) as (T1 & T2 & T3). cbn zeta in *.
    set (s1 := reduce_trivial (K := numR) i (mkA V d e)) in *. clearbody s1.
    set (s' := {| aV := aV s1; ad := vset (ad s1) i 0; ae := ae s1 |}).
    assert (U : forall k, reflector i (aV s') k = 0).
    { intros k. unfold reflector, s'. cbn [aV]. rewrite T1. natcase; reflexivity. }
    assert (H : (ad s' i : R) = 0) by (unfold s'; cbn [ad]; unfold vset; now rewrite Nat.eqb_refl).
    unfold reduced. cbn zeta. rewrite H.
    split; [|split; [|split; [|split; [|split; [|split]]]]].
    + rewrite sum_0; [ring|]. intros k _. rewrite U. ring.
    + intros a b Hab. rewrite !U. unfold s'. cbn [aV]. rewrite T1. natcase; rring.
    + intros a Ha. rewrite U, (D0 a Ha). unfold s'. cbn [ae]. rewrite T3, Nat.eqb_refl, (D0 (i - 1)%nat ltac:(lia)). natcase; rring.
    + intros b Hb. unfold s'. cbn [aV]. rewrite T1. natcase; reflexivity.
    + intros b Hb. unfold s'. cbn [aV ad]. rewrite T1. change (upd (ad s1) i 0 b = (if (Nat.eqb (i - 1) i && Nat.ltb b i) || (Nat.eqb b i && Nat.ltb (i - 1) i) then 0 else V (i - 1)%nat b)).
      unfold upd. rewrite T2. natcase; reflexivity.
    + intros a b Hab. unfold s'. cbn [aV]. rewrite T1. natcase; reflexivity.
    + intros a Ha. unfold s'. cbn [ad ae]. split.
      * change (upd (ad s1) i 0 a = d a). unfold upd. rewrite T2. natcase; reflexivity.
      * rewrite T3. natcase; reflexivity.
  - destruct (scale_row_spec scale i d) as (S1 & S2). cbn zeta in *.
    destruct (scale_row (K := numR) scale i d) as [d1 h1]. cbn [fst snd] in S1, S2. change (nT numR) with R in *.
    set (f := d1 (i - 1)%nat). cbn [numR nlt nopp nsqrt nsub nmul nadd ndiv].
    set (g := if Rlt_bool 0 f then - sqrt h1 else sqrt h1). set (h := h1 - f * g).
    (* the reflection vector *)
    set (u := vset (K := numR) d1 (i - 1) (f - g)).
    assert (Eu : forall k, u k = if Nat.eqb k (i - 1) then d k / scale - g else if Nat.ltb k i then d k / scale else d k).
    { intros k. change (upd d1 (i - 1) (f - g) k = if Nat.eqb k (i - 1) then d k / scale - g else if Nat.ltb k i then d k / scale else d k).
      unfold upd, f. rewrite !S1. natcase; subst; reflexivity. }
    set (e1 := @for_up (nat -> R) O i (fun j e => vset (K := numR) e j 0) (vset (K := numR) e i (scale * g))).
    assert (Ee1 : forall k, e1 k = if Nat.ltb k i then 0 else if Nat.eqb k i then scale * g else e k) by (intros k; apply zero_e_spec).
    change (for_up 0 i (fun (j : nat) (e0 : @vec numR) => vset (K := numR) e0 j 0) (vset (K := numR) e i (scale * g))) with e1.
    clearbody e1.
    destruct (apply_columns_spec i V u e1) as (A1 & A2 & A3); [intros j Hj; rewrite Ee1; natcase; reflexivity|]. cbn zeta in A1, A2, A3.
    set (s2 := for_up 0 i (fun j s => apply_column (K := numR) i j s) (mkA V u e1)) in *.
    clearbody s2.
    destruct (divide_e_spec h i (ad s2) (ae s2)) as (D1 & D2). cbn zeta in D1, D2.
    destruct (divide_e (K := numR) h i (ad s2) (ae s2)) as [e2 f2]. cbn [fst snd] in D1, D2. change (nT numR) with R in *.
    set (hh := f2 / (h + h)).
    set (e3 := @for_up (nat -> R) O i (fun j e => vset (K := numR) e j (e j - hh * ad s2 j)) e2).
    assert (Ee3 : forall k, e3 k = if Nat.ltb k i then e2 k - hh * ad s2 k else e2 k) by (intros k; apply sub_e_spec).
    change (for_up 0 i (fun (j : nat) (e0 : @vec numR) => vset (K := numR) e0 j (e0 j - hh * ad s2 j)) e2) with e3. clearbody e3.
    destruct (update_columns_spec i (aV s2) (ad s2) e3) as (B1 & B2 & B3). cbn zeta in B1, B2, B3.
    set (s3 := for_up 0 i (fun j s => update_column (K := numR) i j s) (mkA (aV s2) (ad s2) e3)) in *.
    change (for_up 0 i (fun (j : nat) (s : @arrays numR) => update_column (K := numR) i j s) {| aV := aV s2; ad := ad s2; ae := e3 |}) with s3. clearbody s3.
    set (s' := {| aV := aV s3; ad := vset (ad s3) i h; ae := ae s3 |}).
    (* facts about u and h *)
    assert (Sq : g * g = h1).
    { assert (0 <= h1) by (rewrite S2; apply sum_nonneg; intros k _; apply Rle_0_sqr).
      unfold g. destruct (Rlt_bool 0 f); [replace (- sqrt h1 * - sqrt h1) with (sqrt h1 * sqrt h1) by ring|]; now apply sqrt_sqrt. }
    assert (Hd : forall k, (k < i)%nat -> d k = scale * (u k + if Nat.eqb k (i - 1) then g else 0)).
    { intros k Hk. rewrite Eu. natcase; field; exact NZ. }
    assert (Ed1 : forall k, (k < i)%nat -> d k / scale = u k + if Nat.eqb k (i - 1) then g else 0).
    { intros k Hk. rewrite (Hd k Hk). field. exact NZ. }
    assert (Fe : f = u (i - 1)%nat + g). { unfold f. rewrite S1. natcase. rewrite Ed1 by lia. natcase. reflexivity. }
    assert (Uu : sum i (fun k => u k * u k) = 2 * h).
    { assert (X : h1 = sum i (fun k => u k * u k) + (2 * u (i - 1)%nat * g + g * g)).
      { rewrite S2. rewrite (sum_ext i _ (fun k => u k * u k + if Nat.eqb k (i - 1) then 2 * u k * g + g * g else 0)).
        - rewrite sum_plus. f_equal. rewrite (sum_single i (i - 1)%nat); [now rewrite Nat.eqb_refl|lia|]. intros k _ Hk. natcase; reflexivity.
        - intros k Hk. rewrite (Ed1 k Hk). destruct (Nat.eqb k (i - 1)); ring. }
      unfold h. rewrite Fe. lra. }
    assert (Ud : sum i (fun k => u k * d k) = scale * h).
    { rewrite (sum_ext i _ (fun k => scale * (u k * u k + if Nat.eqb k (i - 1) then u k * g else 0))).
      - rewrite sum_scal, sum_plus, Uu. f_equal. rewrite (sum_single i (i - 1)%nat); [rewrite Nat.eqb_refl; unfold h; rewrite Fe; lra|lia|].
        intros k _ Hk. natcase; reflexivity.
      - intros k Hk. rewrite (Hd k Hk). destruct (Nat.eqb k (i - 1)); ring. }
    assert (Hh : h <> 0).
    { intros Z. assert (U0 : forall k, (k < i)%nat -> u k = 0).
      { intros k Hk. assert (u k * u k = 0); [|nra]. apply (sum_zero_inv i (fun k => u k * u k) (fun k _ => Rle_0_sqr _)); [|exact Hk]. rewrite Uu, Z. ring. }
      assert (Zg : g = 0 \/ f = g). { right. rewrite Fe, (U0 (i - 1)%nat) by lia. ring. }
      assert (g = 0).
      { destruct Zg as [|Zf]; [assumption|]. unfold g in Zf |- *. destruct (Rlt_bool_spec 0 f) as [P|P].
        - pose proof (sqrt_pos h1). lra.
        - pose proof (sqrt_pos h1). lra. }
      apply NZ. unfold scale. apply sum_0. intros k Hk. rewrite (Hd k Hk), (U0 k Hk). subst g. rewrite H. destruct (Nat.eqb k (i - 1)); rewrite Rplus_0_r, Rmult_0_r; apply Rabs_R0. }
    set (w := fun b => sum i (fun k => lower V b k * u k)).
    set (t := sum i (fun k => w k * u k)).
    assert (Ee2 : forall k, (k < i)%nat -> e2 k = w k / h). { intros k Hk. rewrite D1, A3. natcase. reflexivity. }
    assert (Et : f2 = t / h).
    { rewrite D2. unfold t, Rdiv. rewrite <- sum_scal_r. apply sum_ext. intros k Hk. rewrite A2, A3. natcase. unfold w. ring. }
    assert (Eq : forall k, (k < i)%nat -> e3 k = w k / h - t / (2 * h * h) * u k).
    { intros k Hk. rewrite Ee3, A2, (Ee2 k Hk). natcase. unfold hh. rewrite Et. replace (h + h) with (2 * h) by ring. field. exact Hh. }
    assert (V'lo : forall a b, (b <= a < i)%nat -> aV s' a b = V a b - u a * w b / h - u b * w a / h + u a * u b * t / (h * h)).
    { intros a b Hab. unfold s'. cbn [aV]. rewrite B1, A1, !A2, !Eq by lia. natcase. rfield Hh. }
    assert (Eh : ad s' i = h) by (unfold s'; cbn [ad]; unfold vset; now rewrite Nat.eqb_refl).
    assert (Er : forall k, (k < i)%nat -> reflector i (aV s') k = u k).
    { intros k Hk. unfold reflector, s'. cbn [aV]. rewrite B1, A1. natcase; reflexivity. }
    change (reduced i V d e s'). unfold reduced. cbn zeta. rewrite Eh.
    assert (Ew : forall b, sum i (fun k => lower V b k * reflector i (aV s') k) = w b).
    { intros b. apply sum_ext. intros k Hk. now rewrite Er. }
    assert (Etr : sum i (fun k => sum i (fun j => lower V k j * reflector i (aV s') j) * reflector i (aV s') k) = t).
    { apply sum_ext. intros k Hk. now rewrite Ew, Er. }
    split; [|split; [|split; [|split; [|split; [|split]]]]].
    + rewrite (sum_ext i _ (fun k => u k * u k)); [exact Uu|]. intros k Hk. now rewrite Er.
    + intros a b Hab. rewrite Etr, !Ew, !Er by lia. now apply V'lo.
    + intros a Ha. rewrite Er by lia. rewrite (sum_ext i _ (fun k => u k * d k)) by (intros k Hk; now rewrite Er). rewrite Ud.
      replace (ae s' i) with (scale * g). 2:{ unfold s'. cbn [ae]. rewrite B3, Ee3, D1, A3, Ee1. natcase. reflexivity. }
      rewrite (Hd a Ha). destruct (Nat.eqb a (i - 1)); rfield Hh.
    + intros b Hb. unfold s'. cbn [aV]. rewrite B1. natcase. reflexivity.
    + intros b Hb. unfold s'. cbn [aV ad]. rewrite B1.
      change (upd (ad s3) i h b = (if Nat.eqb (i - 1) i && Nat.ltb b i then 0 else if Nat.leb b (i - 1) && Nat.ltb (i - 1) i then aV s2 (i - 1)%nat b - (ad s2 b * e3 (i - 1)%nat + e3 b * ad s2 (i - 1)%nat) else aV s2 (i - 1)%nat b)).
      unfold upd. rewrite B2. natcase. reflexivity.
    + intros a b Hab. unfold s'. cbn [aV]. rewrite B1, A1. natcase; reflexivity.
    + intros a Ha. unfold s'. cbn [ad ae]. split.
      * change (upd (ad s3) i h a = d a). unfold upd. rewrite B2, A2, Eu. natcase; reflexivity.
      * rewrite B3, Ee3, D1, A3, Ee1. natcase; reflexivity.
Qed.
