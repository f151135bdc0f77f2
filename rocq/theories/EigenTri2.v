(** * Householder2 computes an orthogonal similarity with a tridiagonal matrix *)
From Coq Require Import Reals Lra Lia Arith Bool Setoid.
From Flocq Require Import Core.
From Verif Require Import Prelude Num Cma CmaEigen MatR EigenQL EigenTri.
#[local] Open Scope R_scope.

(** ** Reflections *)
Definition Pm (u : nat -> R) (h : R) : matrix := fun a b => mid a b - u a * u b / h.
Lemma Pm_ext : forall n u u' h, (forall k, (k < n)%nat -> u k = u' k) -> meq n (Pm u h) (Pm u' h).
Proof. intros n u u' h H a b Ha Hb. unfold Pm. now rewrite (H a Ha), (H b Hb). Qed.
Lemma Pm_mtr : forall n u h, meq n (mtr (Pm u h)) (Pm u h).
Proof. intros n u h a b Ha Hb. unfold mtr, Pm, mid. rewrite Nat.eqb_sym. unfold Rdiv. ring. Qed.
Lemma mmul_Pm : forall n u h X a b, (a < n)%nat -> (b < n)%nat -> mmul n (Pm u h) X a b = X a b - u a * sum n (fun k => u k * X k b) / h.
Proof.
  intros n u h X a b Ha Hb. transitivity (mmul n mid X a b - u a * sum n (fun k => u k * X k b) / h).
  - unfold mmul. unfold Rdiv. rewrite Rmult_assoc, (Rmult_comm (sum n _)), <- Rmult_assoc, <- sum_scal, <- sum_minus.
    apply sum_ext. intros k Hk. unfold Pm, Rdiv. ring.
  - now rewrite (mmul_id_l n X a b Ha Hb).
Qed.
Lemma reflection_nonzero : forall n (u : nat -> R) h, sum n (fun k => u k * u k) = 2 * h -> (forall k, (k < n)%nat -> u k = 0) \/ h <> 0.
Proof.
  intros n u h H. destruct (Req_dec h 0) as [Z|]; [|now right]. left. intros k Hk.
  assert (u k * u k = 0); [|nra]. apply (sum_zero_inv n (fun k => u k * u k) (fun k _ => Rle_0_sqr _)); [|exact Hk]. rewrite H, Z. ring.
Qed.
Lemma Pm_involution : forall n u h, sum n (fun k => u k * u k) = 2 * h -> meq n (mmul n (Pm u h) (Pm u h)) mid.
Proof.
  intros n u h H a b Ha Hb. rewrite mmul_Pm by assumption.
  assert (S : sum n (fun k => u k * Pm u h k b) = u b - 2 * h * u b / h).
  { rewrite <- H. unfold Rdiv. rewrite (Rmult_assoc (sum n _)), <- sum_scal_r.
    rewrite (sum_ext n _ (fun k => u k * mid k b - u k * u k * (u b * / h))) by (intros k Hk; unfold Pm, Rdiv; ring).
    rewrite sum_minus. f_equal. unfold mid. rewrite (sum_single n b); [rewrite Nat.eqb_refl; ring|exact Hb|]. intros k _ Hk. apply Nat.eqb_neq in Hk. rewrite Hk. ring. }
  rewrite S. unfold Pm. destruct (reflection_nonzero n u h H) as [Z|N].
  - rewrite (Z a Ha), (Z b Hb). unfold Rdiv. ring.
  - field. exact N.
Qed.
Lemma Pm_orthogonal : forall n u h, sum n (fun k => u k * u k) = 2 * h -> orthogonal n (Pm u h).
Proof. intros n u h H. split; rewrite Pm_mtr; now apply Pm_involution. Qed.
Lemma sandwich_Pm : forall n u h M, (forall a b, (a < n)%nat -> (b < n)%nat -> M a b = M b a) ->
  let w := fun b => sum n (fun k => M b k * u k) in
  let t := sum n (fun k => w k * u k) in
  forall a b, (a < n)%nat -> (b < n)%nat ->
  sandwich n (Pm u h) M a b = M a b - u a * w b / h - u b * w a / h + u a * u b * t / (h * h).
Proof.
  intros n u h M Sym w t a b Ha Hb. unfold sandwich. rewrite mmul_Pm by assumption.
  assert (MP : forall k, (k < n)%nat -> mmul n M (mtr (Pm u h)) k b = M k b - u b * w k / h).
  { intros k Hk. transitivity (mtr (mmul n (Pm u h) (mtr M)) k b).
    - unfold mtr, mmul. apply sum_ext. intros; ring.
    - unfold mtr. rewrite mmul_Pm by assumption. f_equal. unfold w. f_equal. f_equal. apply sum_ext. intros; ring. }
  rewrite (MP a Ha). rewrite (sum_ext n _ (fun k => u k * M k b - u b / h * (w k * u k))) by (intros k Hk; rewrite (MP k Hk); unfold Rdiv; ring).
  rewrite sum_minus, sum_scal. fold t.
  replace (sum n (fun k => u k * M k b)) with (w b). 2:{ unfold w. apply sum_ext. intros k Hk. rewrite (Sym b k Hb Hk). ring. }
  unfold Rdiv. rewrite Rinv_mult. ring.
Qed.

(** ** The reduction *)
Definition rep (i : nat) (V : matrix) (e : nat -> R) : matrix := fun a b =>
  if Nat.ltb a i && Nat.ltb b i then lower V a b
  else if Nat.eqb a b then V a a else if Nat.eqb b (S a) then e b else if Nat.eqb a (S b) then e a else 0.
Lemma lower_sym : forall V a b, lower V a b = lower V b a.
Proof. intros. unfold lower. now rewrite Nat.max_comm, Nat.min_comm. Qed.
Lemma rep_sym : forall i V e a b, rep i V e a b = rep i V e b a.
Proof. intros i V e a b. unfold rep. rewrite (lower_sym V b a). natcase; subst; reflexivity. Qed.
Lemma lower_ge : forall V a b, (b <= a)%nat -> lower V a b = V a b.
Proof. intros V a b H. unfold lower. now rewrite Nat.max_l, Nat.min_r by lia. Qed.

Lemma rep_step : forall n i (V : matrix) (d e : nat -> R) s', (0 < i < n)%nat -> reduced i V d e s' -> (forall b, (b < i)%nat -> d b = V i b) ->
  meq n (rep (S i) V e) (sandwich n (Pm (reflector i (aV s')) (ad s' i)) (rep i (aV s') (ae s'))) /\
  sum n (fun k => reflector i (aV s') k * reflector i (aV s') k) = 2 * ad s' i.
Proof.
  intros n i V d e s' Hi (R1 & R2 & R3 & R4 & R5 & R6 & R7) Hd.
  set (u := reflector i (aV s')) in *. set (h := ad s' i : R) in *. change (nT numR) with R in *.
  assert (U0 : forall k, (i <= k)%nat -> u k = 0) by (intros k Hk; unfold u, reflector; natcase; reflexivity).
  assert (N2 : sum n (fun k => u k * u k) = 2 * h).
  { rewrite <- R1. apply sum_cut; [lia|]. intros k Hk. rewrite U0 by lia. ring. }
  split; [|exact N2].
  assert (K : meq n (rep i (aV s') (ae s')) (sandwich n (Pm u h) (rep (S i) V e))).
  { intros a b Ha Hb. rewrite sandwich_Pm; [|intros; apply rep_sym|assumption|assumption].
    set (w := fun b => sum i (fun k => lower V b k * u k)) in *. set (t := sum i (fun k => w k * u k)) in *.
    assert (W : forall b, sum n (fun k => rep (S i) V e b k * u k) = if Nat.ltb b i then w b else if Nat.eqb b i then sum i (fun k => u k * d k) else 0).
    { intros c. rewrite (sum_cut n i); [|lia|intros k Hk; rewrite U0 by lia; ring].
      destruct (Nat.ltb_spec c i) as [Hc|Hc]; [|destruct (Nat.eqb_spec c i) as [->|Hne]].
      - apply sum_ext. intros k Hk. unfold rep. natcase; reflexivity.
      - apply sum_ext. intros k Hk. unfold rep. natcase; rewrite lower_ge by lia; rewrite (Hd k Hk); ring.
      - apply sum_0. intros k Hk. unfold rep. natcase; ring. }
    assert (Tt : sum n (fun k => sum n (fun j => rep (S i) V e k j * u j) * u k) = t).
    { rewrite (sum_cut n i); [|lia|intros k Hk; rewrite (U0 k) by lia; ring]. apply sum_ext. intros k Hk. rewrite W. natcase; reflexivity. }
    rewrite Tt, !W.
    assert (Main : forall a b, (b <= a)%nat -> (a < n)%nat -> rep i (aV s') (ae s') a b =
        rep (S i) V e a b - u a * (if Nat.ltb b i then w b else if Nat.eqb b i then sum i (fun k => u k * d k) else 0) / h
                          - u b * (if Nat.ltb a i then w a else if Nat.eqb a i then sum i (fun k => u k * d k) else 0) / h + u a * u b * t / (h * h)).
    { clear a b Ha Hb. intros a b Hab Ha.
      destruct (Nat.lt_ge_cases a i) as [Hai|Hai].
      - unfold rep. natcase; rewrite !lower_ge by lia; rewrite (R2 a b) by lia; reflexivity.
      - rewrite (U0 a Hai). destruct (Nat.eq_dec a i) as [->|Hne].
        + destruct (Nat.lt_ge_cases b i) as [Hbi|Hbi].
          * unfold rep. natcase; rewrite !lower_ge by lia; specialize (R3 b Hbi); rewrite (Hd b Hbi) in R3; revert R3; natcase; intros R3; unfold Rdiv in *; lra.
          * assert (b = i) by lia. subst b. rewrite (U0 i) by lia. unfold rep. natcase; rewrite lower_ge by lia; rewrite R6 by lia; rring.
        + unfold rep. natcase; try rewrite (U0 b) by lia; try (rewrite R6 by lia); try (rewrite (proj2 (R7 a ltac:(lia)))); rring. }
    destruct (Nat.le_ge_cases b a) as [Hab|Hab].
    - apply Main; assumption.
    - rewrite (rep_sym i), (rep_sym (S i)), (Main b a Hab Hb). unfold Rdiv. lra. }
  rewrite K, <- sandwich_mmul, (Pm_involution n u h N2), sandwich_id. reflexivity.
Qed.

Fixpoint Qof (n : nat) (V : matrix) (d : nat -> R) (k : nat) : matrix :=
  match k with O => mid | S i => mmul n (Pm (reflector i V) (d i)) (Qof n V d i) end.
Lemma Qof_ext : forall n V V' d d' k, (forall a b, (b < k)%nat -> V a b = V' a b) -> (forall a, (a < k)%nat -> d a = d' a) ->
  meq n (Qof n V d k) (Qof n V' d' k).
Proof.
  intros n V V' d d' k. induction k as [|k IH]; intros HV Hd; [reflexivity|]. cbn [Qof]. rewrite IH.
  - apply mmul_proper; [|reflexivity]. intros a b _ _. unfold Pm, reflector. rewrite (Hd k) by lia. rewrite !HV by lia. reflexivity.
  - intros a b Hb. apply HV. lia.
  - intros a Ha. apply Hd. lia.
Qed.
Lemma Qof_outside : forall n V d k a b, (k <= n)%nat -> (a < n)%nat -> (b < n)%nat -> (k <= S a \/ k <= S b)%nat -> Qof n V d k a b = mid a b.
Proof.
  intros n V d k. induction k as [|k IH]; intros a b Hk Ha Hb H; [reflexivity|]. cbn [Qof]. rewrite mmul_Pm by assumption.
  destruct (Nat.lt_ge_cases a k) as [Hak|Hak].
  - assert (Hbk : (k <= b)%nat) by lia.
    rewrite (IH a b) by lia. rewrite sum_0; [unfold Rdiv; ring|]. intros q Hq. rewrite (IH q b) by lia. unfold reflector, mid. natcase; ring.
  - rewrite (IH a b) by lia. assert (reflector k V a = 0) as -> by (unfold reflector; natcase; reflexivity). unfold Rdiv. ring.
Qed.

Definition arr_rest (c : nat) (s s' : @arrays numR) : Prop :=
  (forall a b, (c < a \/ c < b)%nat -> aV s' a b = aV s a b) /\ (forall a, (c < a)%nat -> ad s' a = ad s a /\ ae s' a = ae s a).
Lemma reductions_spec : forall n c s, (c < n)%nat -> (forall b, (b < c)%nat -> ad s b = aV s c b) ->
  let s' := for_down 1 c (reduce (K := numR)) s in
  orthogonal n (Qof n (aV s') (ad s') (S c))
  /\ meq n (sandwich n (Qof n (aV s') (ad s') (S c)) (rep 1 (aV s') (ae s'))) (rep (S c) (aV s) (ae s))
  /\ (forall a b, (b < a <= c)%nat -> aV s' a b = 0)
  /\ arr_rest c s s'.
Proof.
  intros n c. induction c as [|c IH]; intros s Hc Hd s'.
  - cbn [for_down] in s'. subst s'.
    assert (Q1 : meq n (Qof n (aV s) (ad s) 1) mid). { intros a b Ha Hb. apply Qof_outside; lia. }
    split; [|split; [|split; [|split]]].
    + destruct (orthogonal_mid n) as [O1 O2]. split; rewrite Q1; assumption.
    + rewrite Q1. apply sandwich_id.
    + intros; lia.
    + reflexivity.
    + intros; split; reflexivity.
  - destruct s as [V d e]. cbn [aV ad ae] in *.
    cbn [for_down] in s'. change (1 + c)%nat with (S c) in s'.
    pose proof (reduce_spec (S c) V d e ltac:(lia)) as Rd. set (s1 := reduce (K := numR) (S c) (mkA V d e)) in *. clearbody s1.
    destruct (rep_step n (S c) V d e s1 ltac:(lia) Rd Hd) as (T1 & T2).
    destruct Rd as (R1 & R2 & R3 & R4 & R5 & R6 & R7).
    destruct (IH s1 ltac:(lia)) as (J1 & J2 & J3 & J4 & J5).
    { intros b Hb. rewrite (R5 b) by lia. now rewrite Nat.sub_succ, Nat.sub_0_r. }
    fold s' in J1, J2, J3, J4, J5. clearbody s'.
    assert (EP : meq n (Pm (reflector (S c) (aV s')) (ad s' (S c))) (Pm (reflector (S c) (aV s1)) (ad s1 (S c)))).
    { rewrite (proj1 (J5 (S c) ltac:(lia))). apply Pm_ext. intros k Hk. unfold reflector. rewrite J4 by lia. reflexivity. }
    assert (OP : orthogonal n (Pm (reflector (S c) (aV s')) (ad s' (S c)))).
    { destruct (Pm_orthogonal n _ _ T2) as [O1 O2]. split; rewrite EP; assumption. }
    split; [|split; [|split; [|split]]].
    + cbn [Qof]. apply orthogonal_mmul; [exact OP|exact J1].
    + change (Qof n (aV s') (ad s') (S (S c))) with (mmul n (Pm (reflector (S c) (aV s')) (ad s' (S c))) (Qof n (aV s') (ad s') (S c))).
      rewrite sandwich_mmul, J2, EP. symmetry. exact T1.
    + intros a b Hab. destruct (Nat.eq_dec a (S c)) as [->|]; [rewrite J4 by lia; apply R4; lia|]. apply J3. lia.
    + intros a b Hab. rewrite J4 by lia. apply R6. lia.
    + intros a Ha. destruct (J5 a ltac:(lia)) as [-> ->]. apply R7. lia.
Qed.

(** ** Accumulation (lines 677-703) *)
Lemma apply_reflection_spec : forall i (h : R) (W : matrix) (d : nat -> R),
  let r := apply_reflection (K := numR) i h (W, d) in
  (forall a b, fst r a b = if Nat.leb a i && Nat.leb b i then W a b - sum (S i) (fun k => W k (S i) * W k b) * (W a (S i) / h) else W a b)
  /\ (forall a, snd r a = if Nat.leb a i then W a (S i) / h else d a).
Proof.
  intros i h W d. unfold apply_reflection. cbn [fst snd]. cbn zeta.
  assert (D : forall a, @for_up (nat -> R) O (S i) (fun k d => vset (K := numR) d k (W k (S i) / h)) d a = if Nat.leb a i then W a (S i) / h else d a).
  { intros a. transitivity (if Nat.ltb a (S i) then W a (S i) / h else d a); [|natcase; reflexivity]. revert a.
    apply (for_up_ind0 _ (fun k (v : nat -> R) => forall a, v a = if Nat.ltb a k then W a (S i) / h else d a)).
    - intros a; reflexivity.
    - intros k v Hk H a. change (upd v k (W k (S i) / h) a = if Nat.ltb a (S k) then W a (S i) / h else d a). unfold upd. rewrite H. natcase; subst; reflexivity. }
  set (d1 := @for_up (nat -> R) O (S i) (fun k d => vset (K := numR) d k (W k (S i) / h)) d) in *.
  split; [|exact D].
  intros a b. transitivity (if Nat.leb a i && Nat.ltb b (S i) then W a b - sum (S i) (fun k => W k (S i) * W k b) * (W a (S i) / h) else W a b); [|natcase; reflexivity].
  revert a b. cbn [numR ndiv]. change (for_up 0 (S i) (fun (k : nat) (d0 : @vec numR) => vset (K := numR) d0 k (W k (S i) / h)) d) with d1. clearbody d1.
  apply (for_up_ind0 _ (fun j (X : matrix) => forall a b, X a b = if Nat.leb a i && Nat.ltb b j then W a b - sum (S i) (fun k => W k (S i) * W k b) * (W a (S i) / h) else W a b)).
  - intros a b. natcase; reflexivity.
  - intros j X Hj HX.
    set (g := @for_up R O (S i) (fun k g => g + X k (S i) * X k j) 0).
    assert (Eg : g = sum (S i) (fun k => W k (S i) * W k j)).
    { unfold g. rewrite (for_up_sum (S i) (fun k => X k (S i) * X k j)). apply sum_ext. intros k Hk. rewrite !HX. natcase; reflexivity. }
    change (for_up 0 (S i) (fun (k : nat) (g0 : nT numR) => @nadd numR g0 (@nmul numR (X k (S i)) (X k j))) (@nofZ numR 0%Z)) with g. rewrite Eg. clearbody g.
    set (c := sum (S i) (fun k => W k (S i) * W k j)).
    assert (L : forall a b, @for_up matrix O (S i) (fun k V => mset (K := numR) V k j (V k j - c * d1 k)) X a b
                            = if Nat.ltb a (S i) && Nat.eqb b j then X a b - c * d1 a else X a b).
    { apply (for_up_ind0 _ (fun k (Y : matrix) => forall a b, Y a b = if Nat.ltb a k && Nat.eqb b j then X a b - c * d1 a else X a b)).
      - intros a b; reflexivity.
      - intros k Y Hk HY a b. change (mupd Y k j (Y k j - c * d1 k) a b = if Nat.ltb a (S k) && Nat.eqb b j then X a b - c * d1 a else X a b).
        unfold mupd. rewrite !HY. natcase; subst; reflexivity. }
    intros a b. cbn zeta. refine (eq_trans (L a b) _). rewrite HX, D. unfold c. natcase; subst; reflexivity.
Qed.

Lemma accumulate_spec : forall n i (V : matrix) (d e : nat -> R), (S i < n)%nat ->
  let s' := accumulate (K := numR) n i (mkA V d e) in
  let W := mupd (mupd V (n - 1) i (V i i)) i i 1 in
  let h := d (S i) in
  ((forall k, (k <= i)%nat -> V k (S i) = 0) \/ h <> 0) ->
  (forall a b, aV s' a b = if Nat.leb a i && Nat.eqb b (S i) then 0
                           else if Nat.leb a i && Nat.leb b i then W a b - sum (S i) (fun k => V k (S i) * W k b) * (V a (S i) / h) else W a b)
  /\ (forall a, (i < a)%nat -> ad s' a = d a) /\ (forall a, ae s' a = e a).
Proof.
  intros n i V d e Hi s' W h Hz. unfold accumulate in s'. cbn zeta in s'. cbn [aV ad ae] in s'.
  change (mset (K := numR) (mset (K := numR) V (n - 1) i (V i i)) i i (nofZ 1)) with W in s'.
  assert (WS : forall k, (k <= i)%nat -> W k (S i) = V k (S i)). { intros k Hk. unfold W, mupd. natcase; reflexivity. }
  set (r := if negb (@neq numR (d (S i)) (nofZ 0)) then apply_reflection (K := numR) i (d (S i)) (W, d) else (W, d)) in *.
  assert (Es : s' = mkA (@for_up matrix O (S i) (fun k V => mset (K := numR) V k (S i) 0) (fst r)) (snd r) e).
  { assert (LP : forall (p : @mat numR * @vec numR) (F : @mat numR -> @vec numR -> @arrays numR), (let '(x, y) := p in F x y) = F (fst p) (snd p)) by (intros [x y] F; reflexivity).
    exact (LP r (fun x y => mkA (@for_up matrix O (S i) (fun k V => mset (K := numR) V k (S i) 0) x) y e)). }
  assert (Hr : (forall a b, fst r a b = if Nat.leb a i && Nat.leb b i then W a b - sum (S i) (fun k => V k (S i) * W k b) * (V a (S i) / h) else W a b)
               /\ (forall a, (i < a)%nat -> snd r a = d a)).
  { unfold r. cbn [numR neq nofZ]. fold h. change (nT numR) with R. destruct (Req_bool_spec h 0) as [Z|N]; cbn [negb].
    - destruct Hz as [Hz|]; [|contradiction]. split; [|reflexivity]. intros a b. cbn [fst]. natcase; try reflexivity.
      rewrite (Hz a) by assumption. unfold Rdiv. ring.
    - destruct (apply_reflection_spec i h W d) as (A1 & A2). cbn zeta in A1, A2. split.
      + intros a b. rewrite A1. natcase; try reflexivity. rewrite WS by assumption. f_equal. f_equal. apply sum_ext. intros k Hk. rewrite WS by lia. reflexivity.
      + intros a Ha. rewrite A2. natcase; reflexivity. }
  destruct Hr as [H1 H2]. clearbody r. rewrite Es. cbn [aV ad ae]. split; [|split; [exact H2|reflexivity]].
  assert (Z : forall X a b, @for_up matrix O (S i) (fun k V => mset (K := numR) V k (S i) 0) X a b = if Nat.ltb a (S i) && Nat.eqb b (S i) then 0 else X a b).
  { intros X. apply (for_up_ind0 _ (fun k (Y : matrix) => forall a b, Y a b = if Nat.ltb a k && Nat.eqb b (S i) then 0 else X a b)).
    - intros a b; reflexivity.
    - intros k Y Hk HY a b. change (mupd Y k (S i) 0 a b = if Nat.ltb a (S k) && Nat.eqb b (S i) then 0 else X a b). unfold mupd. rewrite HY. natcase; subst; reflexivity. }
  intros a b. rewrite Z, H1. natcase; reflexivity.
Qed.

Section Accumulate.
Variables (n : nat) (s2 : @arrays numR).
Hypothesis Hn : (0 < n)%nat.
Hypothesis Hlow : forall a b, (b < a <= n - 1)%nat -> aV s2 a b = 0.
Hypothesis Hrefl : forall i, (0 < i < n)%nat -> (forall k, (k < i)%nat -> aV s2 k i = 0) \/ ad s2 i <> 0.
Record acc_inv (k : nat) (s : @arrays numR) : Prop := {
  ac_block : forall a b, (a < k)%nat -> (b < k)%nat -> aV s a b = Qof n (aV s2) (ad s2) (S k) a b;
  ac_col : forall a, (a < k)%nat -> aV s a k = 0;
  ac_rows : forall a b, (k <= a < n - 1)%nat -> aV s a b = aV s2 a b;
  ac_right : forall a b, (a < k)%nat -> (k < b)%nat -> aV s a b = aV s2 a b;
  ac_last : forall b, aV s (n - 1)%nat b = if Nat.ltb b k then aV s2 b b else aV s2 (n - 1)%nat b;
  ac_d : forall a, (k <= a)%nat -> (0 < a)%nat -> ad s a = ad s2 a;
  ac_e : forall a, ae s a = ae s2 a }.

Lemma accumulate_inv : forall i s, (S i < n)%nat -> acc_inv i s -> acc_inv (S i) (accumulate n i s).
Proof using Hn Hlow Hrefl.
  intros i [V d e] Hi [B1 B2 B3 B4 B5 B6 B7]. cbn [aV ad ae] in *. change (nT numR) with R in *.
  set (h := d (S i) : R).
  assert (Eh : h = ad s2 (S i)) by (unfold h; apply B6; lia).
  assert (Ec : forall k, (k <= i)%nat -> V k (S i) = aV s2 k (S i)).
  { intros k Hk. destruct (Nat.eq_dec k i) as [->|]; [apply B3; lia|]. apply B4; lia. }
  assert (Hz : (forall k, (k <= i)%nat -> V k (S i) = 0) \/ h <> 0).
  { destruct (Hrefl (S i) ltac:(lia)) as [Z|N]; [left|right].
    - intros k Hk. rewrite Ec by assumption. apply Z. lia.
    - change (nT numR) with R in *. rewrite Eh. exact N. }
  destruct (accumulate_spec n i V d e Hi Hz) as (A1 & A2 & A3). fold h in A1. cbn zeta in A1, A2, A3.
  set (W := mupd (mupd V (n - 1) i (V i i)) i i 1) in *.
  set (s' := accumulate (K := numR) n i (mkA V d e)) in *. change (nT numR) with R in *. clearbody s'.
  assert (EW : forall a b, (a <= i)%nat -> (b <= i)%nat -> W a b = Qof n (aV s2) (ad s2) (S i) a b).
  { intros a b Ha Hb. unfold W, mupd. destruct (Nat.eqb_spec a i) as [->|Hai]; [destruct (Nat.eqb_spec b i) as [->|Hbi]|]; cbn [andb].
    - rewrite Qof_outside by lia. unfold mid. now rewrite Nat.eqb_refl.
    - replace (Nat.eqb i (n - 1)) with false by (symmetry; apply Nat.eqb_neq; lia). cbn [andb]. rewrite B3, Hlow by lia.
      rewrite Qof_outside by lia. unfold mid. natcase; reflexivity.
    - replace (Nat.eqb a (n - 1)) with false by (symmetry; apply Nat.eqb_neq; lia). cbn [andb].
      destruct (Nat.eq_dec b i) as [->|]; [|apply B1; lia]. rewrite B2 by lia. rewrite Qof_outside by lia. unfold mid. natcase; reflexivity. }
  constructor.
  - intros a b Ha Hb. rewrite A1. replace (Nat.leb a i) with true by (symmetry; apply Nat.leb_le; lia). replace (Nat.leb b i) with true by (symmetry; apply Nat.leb_le; lia).
    replace (Nat.eqb b (S i)) with false by (symmetry; apply Nat.eqb_neq; lia). cbn [andb].
    change (Qof n (aV s2) (ad s2) (S (S i))) with (mmul n (Pm (reflector (S i) (aV s2)) (ad s2 (S i))) (Qof n (aV s2) (ad s2) (S i))).
    rewrite mmul_Pm by lia. rewrite (sum_cut n (S i)) by (try lia; intros k Hk; unfold reflector; natcase; ring).
    rewrite EW by lia. change (nT numR) with R in *. rewrite <- Eh.
    assert (Er : reflector (S i) (aV s2) a = V a (S i)) by (unfold reflector; natcase; symmetry; apply Ec; lia). rewrite Er.
    rewrite (sum_ext (S i) (fun k => reflector (S i) (aV s2) k * Qof n (aV s2) (ad s2) (S i) k b) (fun k => V k (S i) * W k b)).
    + unfold Rdiv. ring.
    + intros k Hk. rewrite EW by lia. f_equal. unfold reflector. natcase. symmetry. apply Ec. lia.
  - intros a Ha. rewrite A1. natcase; reflexivity.
  - intros a b Ha. rewrite A1. unfold W, mupd. natcase; apply B3; lia.
  - intros a b Ha Hb. rewrite A1. destruct (Nat.eq_dec a i) as [->|].
    + unfold W, mupd. natcase; apply B3; lia.
    + unfold W, mupd. natcase; apply B4; lia.
  - intros b. rewrite A1. unfold W, mupd. natcase; try (rewrite B5; natcase; reflexivity). subst. apply B3. lia.
  - intros a Ha Ha'. rewrite A2 by lia. apply B6; lia.
  - intros a. rewrite A3. apply B7.
Qed.
Lemma accumulations_inv : acc_inv (n - 1) (for_up 0 (n - 1) (accumulate n) s2).
Proof using Hn Hlow Hrefl.
  apply (for_up_ind0 _ acc_inv).
  - constructor; try (intros; lia); try (intros; reflexivity).
  - intros k s Hk H. apply accumulate_inv; [lia|exact H].
Qed.
End Accumulate.

(** ** Householder2 *)
Theorem householder_spec : forall n (A : matrix) d0 e0, (0 < n)%nat -> (forall a b, A a b = A b a) ->
  let s := householder (K := numR) n (mkA A d0 e0) in
  orthogonal n (aV s) /\ meq n (sandwich n (aV s) (tri (ad s) (fun a => ae s (S a)))) A.
Proof.
  intros n A d0 e0 Hn Sym s. unfold householder in s. cbn zeta in s. cbn [aV ad ae] in s.
  set (d1 := @for_up (nat -> R) O n (fun j d => vset (K := numR) d j (A (n - 1)%nat j)) d0).
  assert (Ed1 : forall j, (j < n)%nat -> d1 j = A (n - 1)%nat j).
  { assert (X : forall j, d1 j = if Nat.ltb j n then A (n - 1)%nat j else d0 j).
    { apply (for_up_ind0 _ (fun k (v : nat -> R) => forall j, v j = if Nat.ltb j k then A (n - 1)%nat j else d0 j)).
      - intros j; reflexivity.
      - intros k v Hk H j. change (upd v k (A (n - 1)%nat k) j = if Nat.ltb j (S k) then A (n - 1)%nat j else d0 j). unfold upd. rewrite H. natcase; subst; reflexivity. }
    intros j Hj. rewrite X. natcase. reflexivity. }
  change (for_up 0 n (fun (j : nat) (d : @vec numR) => vset (K := numR) d j (A (n - 1)%nat j)) d0) with d1 in s. clearbody d1.
  destruct (reductions_spec n (n - 1) (mkA A d1 e0) ltac:(lia)) as (J1 & J2 & J3 & J4); [intros b Hb; apply Ed1; lia|]. cbn zeta in *.
  replace (S (n - 1)) with n in * by lia.
  set (s2 := for_down 1 (n - 1) (reduce (K := numR)) (mkA A d1 e0)) in *.
  assert (Hrefl : forall i, (0 < i < n)%nat -> (forall k, (k < i)%nat -> aV s2 k i = 0) \/ ad s2 i <> 0).
  { (* from the reductions *)
    assert (K : forall c s, (forall b, (b < c)%nat -> ad s b = aV s c b) -> let t := for_down 1 c (reduce (K := numR)) s in
      arr_rest c s t /\ forall i, (0 < i <= c)%nat -> (forall k, (k < i)%nat -> aV t k i = 0) \/ ad t i <> 0).
    { clear. induction c as [|c IH]; intros s Hd t.
      - split; [split; [reflexivity|intros; split; reflexivity]|intros; lia].
      - cbn [for_down] in t. change (1 + c)%nat with (S c) in t. destruct s as [V d e]. cbn [aV ad ae] in *.
        pose proof (reduce_spec (S c) V d e ltac:(lia)) as (R1 & R2 & R3 & R4 & R5 & R6 & R7). set (s1 := reduce (K := numR) (S c) (mkA V d e)) in *. clearbody s1.
        destruct (IH s1) as ((I1 & I2) & I3). { intros b Hb. rewrite (R5 b) by lia. now rewrite Nat.sub_succ, Nat.sub_0_r. }
        fold t in I1, I2, I3. clearbody t. split; [split|].
        + intros a b Hab. rewrite I1 by lia. apply R6. lia.
        + intros a Ha. destruct (I2 a ltac:(lia)) as [-> ->]. apply R7. lia.
        + intros i Hi. destruct (Nat.eq_dec i (S c)) as [->|]; [|apply I3; lia].
          rewrite (proj1 (I2 (S c) ltac:(lia))). destruct (reflection_nonzero (S c) _ _ R1) as [Z|N]; [left|right; exact N].
          intros k Hk. rewrite I1 by lia. specialize (Z k Hk). unfold reflector in Z. replace (Nat.ltb k (S c)) with true in Z by (symmetry; apply Nat.ltb_lt; lia). exact Z. }
    intros i Hi. apply (proj2 (K (n - 1)%nat (mkA A d1 e0) (fun b Hb => Ed1 b ltac:(lia)))). lia. }
  pose proof (accumulations_inv n s2 Hn J3 Hrefl) as Acc.
  set (s3 := for_up 0 (n - 1) (accumulate n) s2) in *.
  destruct Acc as [B1 B2 B3 B4 B5 B6 B7]. replace (S (n - 1)) with n in * by lia.
  set (s4 := for_up 0 n (fun j s => {| aV := mset (aV s) (n - 1) j (nofZ 0); ad := vset (ad s) j (aV s (n - 1)%nat j); ae := ae s |}) s3) in *.
  assert (E4 : (forall a b, aV s4 a b = if Nat.eqb a (n - 1) && Nat.ltb b n then 0 else aV s3 a b)
               /\ (forall a, ad s4 a = if Nat.ltb a n then aV s3 (n - 1)%nat a else ad s3 a) /\ (forall a, ae s4 a = ae s3 a)).
  { pose (P := fun k (s : @arrays numR) => (forall a b, aV s a b = if Nat.eqb a (n - 1) && Nat.ltb b k then 0 else aV s3 a b)
               /\ (forall a, ad s a = if Nat.ltb a k then aV s3 (n - 1)%nat a else ad s3 a) /\ (forall a, ae s a = ae s3 a)).
    apply (for_up_ind0 _ P).
    - split; [intros a b; natcase; reflexivity|split; [reflexivity|reflexivity]].
    - intros k [V d e] Hk (H1 & H2 & H3). cbn [aV ad ae] in *. split; [|split]; cbn [aV ad ae].
      + intros a b. change (mupd V (n - 1) k 0 a b = if Nat.eqb a (n - 1) && Nat.ltb b (S k) then 0 else aV s3 a b). unfold mupd. rewrite H1. natcase; reflexivity.
      + intros a. change (upd d k (V (n - 1)%nat k) a = if Nat.ltb a (S k) then aV s3 (n - 1)%nat a else ad s3 a). unfold upd. rewrite H1, H2. natcase; subst; reflexivity.
      + exact H3. }
  destruct E4 as (F1 & F2 & F3). clearbody s4.
  assert (EV : meq n (aV s) (Qof n (aV s2) (ad s2) n)).
  { intros a b Ha Hb. unfold s. cbn [aV].
    change (mupd (aV s4) (n - 1) (n - 1) 1 a b = Qof n (aV s2) (ad s2) n a b). unfold mupd. rewrite F1.
    destruct (Nat.eq_dec a (n - 1)) as [Ea|Na]; [|destruct (Nat.eq_dec b (n - 1)) as [Eb|Nb]].
    - rewrite Qof_outside by lia. unfold mid. natcase; reflexivity.
    - rewrite Qof_outside by lia. unfold mid. rewrite Eb. rewrite B2 by lia. natcase; reflexivity.
    - rewrite <- B1 by lia. natcase; reflexivity. }
  assert (ET : meq n (tri (ad s) (fun a => ae s (S a))) (rep 1 (aV s2) (ae s2))).
  { assert (Ed : forall a, (a < n)%nat -> ad s a = aV s2 a a).
    { intros a Ha. unfold s. cbn [ad]. rewrite F2, B5. natcase; [reflexivity|]. now replace a with (n - 1)%nat by lia. }
    assert (Ee : forall a, ae s (S a) = ae s2 (S a)).
    { intros a. unfold s. cbn [ae]. change (upd (ae s4) 0 0 (S a) = ae s2 (S a)). unfold upd. natcase. rewrite F3. apply B7. }
    intros a b Ha Hb. unfold tri, rep. destruct (Nat.eq_dec a b) as [->|Nab].
    - rewrite Nat.eqb_refl, Ed by assumption. natcase; try reflexivity; now rewrite lower_ge by lia.
    - natcase; subst; rewrite ?Ee; reflexivity. }
  split.
  - destruct J1 as [O1 O2]. split; rewrite EV; assumption.
  - rewrite EV, ET, J2. intros a b Ha Hb. unfold rep. cbn [aV ae].
    natcase; unfold lower; destruct (Nat.le_ge_cases a b); rewrite ?Nat.max_r, ?Nat.min_l, ?Nat.max_l, ?Nat.min_r by lia; try reflexivity; apply Sym.
Qed.
