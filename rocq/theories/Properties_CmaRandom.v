(** * C40: the random generator of cma_optimizer. *)
From Coq Require Import ZArith Bool Lia Reals Lra Znumtheory.
From Flocq Require Import Core BinarySingleNaN.
From Verif Require Import Prelude Flt FltFacts Num CmaRandom.
#[local] Open Scope Z_scope.

Definition M : Z := 2 ^ 31 - 1.
Definition valid_seed (s : Z) : Prop := 1 <= s <= M - 1.

(** Schrage's method computes 16807 s mod M within 32 bits, and never gives 0. *)
Theorem C40_schrage : forall s, valid_seed s -> lcg s = (16807 * s) mod M /\ valid_seed (lcg s).
Proof.
  intros s [H1 H2]. unfold lcg. rewrite Z.quot_div_nonneg by lia. pose proof (Z.div_mod s 127773 ltac:(lia)) as D. pose proof (Z.mod_pos_bound s 127773 ltac:(lia)) as B.
  set (q := s / 127773) in *. set (r := s mod 127773) in *. assert (Q : 0 <= q <= 16807) by (unfold q; split; [apply Z.div_pos; lia|apply Z.lt_succ_r, Z.div_lt_upper_bound; unfold M in *; lia]).
  replace (s - q * 127773) with r by lia.
  assert (E : 16807 * s = (16807 * r - 2836 * q) + q * M) by (unfold M; lia).
  assert (NZ : (16807 * s) mod M <> 0).
  { intros H. apply Z.mod_divide in H; [|unfold M; lia]. apply Gauss in H; [|apply Zgcd_1_rel_prime; vm_compute; reflexivity]. apply Z.divide_pos_le in H; unfold M in *; lia. }
  assert (V : (if 16807 * r - 2836 * q <? 0 then 16807 * r - 2836 * q + 2147483647 else 16807 * r - 2836 * q) = (16807 * s) mod M).
  { rewrite E, Z.mod_add by (unfold M; lia). destruct (Z.ltb_spec (16807 * r - 2836 * q) 0).
    - symmetry. rewrite <- (Z.mod_add _ 1) by (unfold M; lia). rewrite Z.mod_small; unfold M in *; lia.
    - symmetry. apply Z.mod_small. unfold M in *; lia. }
  split; [exact V|]. rewrite V. pose proof (Z.mod_pos_bound (16807 * s) M ltac:(unfold M; lia)). unfold valid_seed. lia.
Qed.
(** Every intermediate value of that computation fits in a signed 32-bit integer. *)
Definition int32 (z : Z) : Prop := - 2 ^ 31 <= z <= 2 ^ 31 - 1.
Theorem C40_no_overflow : forall s, valid_seed s ->
  let tmp := Z.quot s 127773 in
  int32 tmp /\ int32 (tmp * 127773) /\ int32 (s - tmp * 127773) /\ int32 (16807 * (s - tmp * 127773)) /\ int32 (2836 * tmp) /\
  int32 (16807 * (s - tmp * 127773) - 2836 * tmp) /\ int32 (lcg s).
Proof.
  intros s Hs. cbv zeta. pose proof (C40_schrage s Hs) as [_ V]. destruct Hs as [H1 H2]. rewrite Z.quot_div_nonneg by lia. pose proof (Z.div_mod s 127773 ltac:(lia)) as D. pose proof (Z.mod_pos_bound s 127773 ltac:(lia)) as B.
  set (q := s / 127773) in *. set (r := s mod 127773) in *. assert (Q : 0 <= q <= 16807) by (unfold q; split; [apply Z.div_pos; lia|apply Z.lt_succ_r, Z.div_lt_upper_bound; unfold M in *; lia]).
  replace (s - q * 127773) with r by lia. unfold int32, valid_seed, M in *. lia.
Qed.

(** ** Reachable generators *)
Section Reach.
Context {K : Num}.
(** Every generator: initialised from any seed, then any number of draws. *)
Inductive rnd_reach : rnd K -> Prop :=
| rr_init clock seed : 1 <= clock < 2 ^ 64 -> 0 <= seed < 2 ^ 64 -> rnd_reach (random_init clock seed)
| rr_uniform t u t' : rnd_reach t -> uniform t = Ok (u, t') -> rnd_reach t'
| rr_gauss n t z t' : rnd_reach t -> gauss n t = Ok (z, t') -> rnd_reach t'.
Definition rnd_ok (t : rnd K) : Prop := valid_seed (r_aktseed t) /\ valid_seed (r_aktrand t) /\ length (r_table t) = 32%nat /\ Forall valid_seed (r_table t).

Lemma halve_ok : forall n seed, 1 <= seed -> seed <= 2000000000 * 2 ^ Z.of_nat n -> 1 <= halve n seed <= 2000000000.
Proof.
  induction n as [|n IH]; intros seed H1 H2; cbn [halve]; [cbn in H2; lia|]. destruct (Z.ltb_spec 2000000000 seed); [|lia]. rewrite Z.quot_div_nonneg by lia.
  apply IH; [apply Z.div_le_lower_bound; lia|]. rewrite Nat2Z.inj_succ, Z.pow_succ_r in H2 by lia. apply Z.div_le_upper_bound; lia.
Qed.
Lemma list_set_Forall {A} (P : A -> Prop) l i x : Forall P l -> P x -> Forall P (list_set l i x).
Proof. intros F Hx. revert i. induction F as [|a l Ha F IH]; intros [|i]; cbn; constructor; auto. Qed.
(** Entry [i] of the table is written in iteration [i]. *)
Lemma fill_ok : forall n s table, valid_seed s -> length table = 32%nat -> (forall i, (n <= i < 32)%nat -> valid_seed (nth i table 0)) ->
  valid_seed (fst (fill n s table)) /\ length (snd (fill n s table)) = 32%nat /\ forall i, (i < 32)%nat -> valid_seed (nth i (snd (fill n s table)) 0).
Proof.
  induction n as [|n IH]; intros s table Hs HL HT; cbn [fill].
  - cbn [fst snd]. split; [exact Hs|]. split; [exact HL|]. intros i Hi. apply HT. lia.
  - apply IH; [apply C40_schrage; exact Hs|destruct (Nat.ltb n 32); [rewrite list_set_length|]; exact HL|].
    intros i Hi. destruct (Nat.ltb_spec n 32) as [Hn|Hn]; [|lia]. destruct (Nat.eq_dec i n) as [->|Hin].
    + rewrite (nth_error_nth _ _ 0 (nth_error_list_set_eq table n (lcg s) ltac:(lia))). apply C40_schrage. exact Hs.
    + assert (E : nth i (list_set table n (lcg s)) 0 = nth i table 0).
      { pose proof (nth_error_list_set_neq table n i (lcg s) ltac:(auto)) as E. destruct (nth_error table i) eqn:Et.
        - rewrite (nth_error_nth _ _ 0 E). symmetry. now apply nth_error_nth.
        - apply nth_error_None in Et. lia. }
      rewrite E. apply HT. lia.
Qed.
Lemma random_init_ok clock seed : 1 <= clock < 2 ^ 64 -> 0 <= seed < 2 ^ 64 -> rnd_ok (random_init (K := K) clock seed).
Proof.
  intros Hc Hs. unfold random_init. set (sd := if seed <? 1 then clock else seed). assert (Hsd : 1 <= sd < 2 ^ 64) by (unfold sd; destruct (Z.ltb_spec seed 1); lia).
  assert (HV : valid_seed (halve 64 sd)). { assert (H64 : sd <= 2000000000 * 2 ^ Z.of_nat 64) by (change (Z.of_nat 64) with 64; lia). pose proof (halve_ok 64 sd (proj1 Hsd) H64) as H. unfold valid_seed, M. lia. }
  pose proof (fill_ok 40 (halve 64 sd) (repeat 0 32) HV eq_refl ltac:(intros; lia)) as (F1 & F2 & F3).
  destruct (fill 40 (halve 64 sd) (repeat 0 32)) as [s table]. cbn [fst snd] in *. unfold rnd_ok. cbn [r_aktseed r_aktrand r_table]. split; [exact F1|]. split; [apply F3; lia|]. split; [exact F2|].
  apply Forall_forall. intros x Hx. apply (In_nth _ _ 0) in Hx as (i & Hi & <-). apply F3. lia.
Qed.
Lemma uniform_ok t : rnd_ok t -> exists r t', valid_seed r /\ uniform t = Ok (ndiv (nofZ r) (nofZ 2147483647), t') /\ rnd_ok t' /\ r_stored t' = r_stored t /\ r_hold t' = r_hold t /\
  r_aktseed t' = (16807 * r_aktseed t) mod M /\ r_aktrand t' = r.
Proof.
  intros (H1 & H2 & H3 & H4). pose proof (C40_schrage _ H1) as [E1 V1]. unfold uniform. destruct H2 as [A B].
  rewrite H3, Z.quot_div_nonneg by lia. assert (I : 0 <= r_aktrand t / 67108865 <= 31) by (split; [apply Z.div_pos; lia|apply Z.lt_succ_r; apply Z.div_lt_upper_bound; unfold M in *; lia]).
  destruct (Z.ltb_spec (r_aktrand t / 67108865) 0); [lia|]. destruct (Z.leb_spec (Z.of_nat 32) (r_aktrand t / 67108865)); [lia|]. cbn [orb].
  set (i := Z.to_nat (r_aktrand t / 67108865)). assert (Hi : (i < 32)%nat) by lia.
  assert (V2 : valid_seed (nth i (r_table t) 0)) by (rewrite Forall_forall in H4; apply H4, nth_In; lia).
  eexists _, _. split; [exact V2|]. split; [reflexivity|]. split; [|auto]. unfold rnd_ok. cbn [r_aktseed r_aktrand r_table]. split; [exact V1|]. split; [exact V2|]. split; [rewrite list_set_length; exact H3|now apply list_set_Forall].
Qed.
Lemma polar_ok n : forall t, rnd_ok t -> match polar n t with Ok (x1, x2, rq, t') => rnd_ok t' /\ rq = nadd (nmul x1 x1) (nmul x2 x2) /\ nle (nofZ 1) rq = false /\ nle rq (nofZ 0) = false | Throw _ => False | Undef => True end.
Proof.
  induction n as [|n IH]; intros t H; cbn [polar]; [exact I|]. destruct (uniform_ok t H) as (r1 & t1 & _ & -> & H1 & _). cbn [obind]. destruct (uniform_ok t1 H1) as (r2 & t2 & _ & -> & H2 & _). cbn [obind].
  destruct (_ || _) eqn:E; [apply IH; exact H2|]. apply orb_false_iff in E as [E1 E2]. auto.
Qed.
Lemma gauss_keeps n t z t' : rnd_ok t -> gauss n t = Ok (z, t') -> rnd_ok t'.
Proof.
  intros H. unfold gauss. destruct (r_stored t); [intros [= <- <-]; exact H|]. pose proof (polar_ok n t H) as P. destruct (polar n t) as [[[[x1 x2] rq] t1]| |]; cbn [obind]; try discriminate. intros [= <- <-]. exact (proj1 P).
Qed.
(** For every seed and after any number of draws: the state is never 0 and below M, and
    so is every one of the 32 table entries; the next draw is defined (its table index is
    in range). *)
Theorem C40_state_in_range : forall t, rnd_reach t ->
  valid_seed (r_aktseed t) /\ valid_seed (r_aktrand t) /\ length (r_table t) = 32%nat /\ Forall valid_seed (r_table t) /\
  0 <= Z.quot (r_aktrand t) 67108865 < 32 /\
  exists r t', valid_seed r /\ uniform t = Ok (ndiv (nofZ r) (nofZ 2147483647), t') /\ r_aktseed t' = (16807 * r_aktseed t) mod M.
Proof.
  intros t H. assert (HO : rnd_ok t).
  { induction H as [clock seed Hc Hs|t u t' _ IH H|n t z t' _ IH H]; [now apply random_init_ok| |eapply gauss_keeps; eauto].
    destruct (uniform_ok t IH) as (r & t1 & _ & E & H1 & _). rewrite E in H. injection H as <- <-. exact H1. }
  destruct (uniform_ok t HO) as (r & t' & V & E & _ & _ & _ & Es & _). destruct HO as (H1 & H2 & H3 & H4). split; [exact H1|]. split; [exact H2|]. split; [exact H3|]. split; [exact H4|]. split; [|exists r, t'; auto].
  destruct H2 as [A B]. rewrite Z.quot_div_nonneg by lia. split; [apply Z.div_pos; lia|apply Z.div_lt_upper_bound; unfold M in *; lia].
Qed.
End Reach.

(** ** Uniform numbers lie strictly between 0 and 1 *)
Theorem C40_uniform_open_interval : forall t u t', rnd_reach (K := numR) t -> uniform t = Ok (u, t') -> (0 < u < 1)%R.
Proof.
  intros t u t' H Hu. apply C40_state_in_range in H as (_ & _ & _ & _ & _ & r & t1 & V & E & _). rewrite E in Hu. injection Hu as <- _.
  change (0 < IZR r / IZR 2147483647 < 1)%R. destruct V as [A B]. assert (0 < IZR r)%R by (apply IZR_lt; lia). assert (IZR r < IZR 2147483647)%R by (apply IZR_lt; unfold M in *; lia).
  split; [apply Rmult_lt_0_compat; [lra|apply Rinv_0_lt_compat; lra]|]. apply Rmult_lt_reg_r with (IZR 2147483647); [lra|]. unfold Rdiv. rewrite Rmult_assoc, Rinv_l by lra. lra.
Qed.
(** *** The same for the doubles the code computes *)
Notation r64 := (Generic_fmt.round radix2 (SpecFloat.fexp prec64 emax64) (round_mode mode_NE)).
Lemma fofZ_exact z : Z.abs z <= 2 ^ 53 -> B2R (fofZ z) = IZR z /\ is_finite (fofZ z) = true.
Proof.
  intros Hz. unfold fofZ. pose proof (binary_normalize_correct prec64 emax64 _ _ mode_NE z 0 false) as H. cbv zeta in H.
  assert (E : r64 (F2R (Float radix2 z 0)) = IZR z).
  { replace (F2R (Float radix2 z 0)) with (IZR z) by (unfold F2R; cbn; ring). apply round_generic; [apply valid_rnd_round_mode|].
    apply (generic_format_FLT radix2 (-1074) 53). apply FLT_format_generic; [reflexivity|]. 
    destruct (Z.eq_dec (Z.abs z) (2 ^ 53)) as [E|N].
    - assert (z = 2 ^ 53 \/ z = - 2 ^ 53) as [->| ->] by lia; [|change (IZR (- 2 ^ 53)) with (- IZR (2 ^ 53))%R; apply generic_format_opp]; change (IZR (2 ^ 53)) with (bpow radix2 53); apply generic_format_bpow; vm_compute; congruence.
    - apply generic_format_FLT. apply (FLT_spec _ _ _ _ (Float radix2 z 0)); [unfold F2R; cbn; ring|cbn [Fnum]; change (2 ^ 53) with (radix2 ^ 53) in *; lia|cbn; lia]. }
  rewrite E in H. rewrite Rlt_bool_true in H; [destruct H as (A & B & _); auto|].
  rewrite <- abs_IZR. apply Rle_lt_trans with (IZR (2 ^ 53)); [now apply IZR_le|]. change (IZR (2 ^ 53)) with (bpow radix2 53). apply bpow_lt. reflexivity.
Qed.
Theorem C40_uniform_open_interval_doubles : forall L t u t', rnd_reach (K := numF L) t -> uniform t = Ok (u, t') -> flt fzero u = true /\ flt u (fofZ 1) = true.
Proof.
  intros L t u t' H Hu. apply C40_state_in_range in H as (_ & _ & _ & _ & _ & r & t1 & V & E & _). rewrite E in Hu.
  assert (u = fdiv (fofZ r) (fofZ 2147483647)) as -> by (injection Hu as <- _; reflexivity). clear - V. destruct V as [A B].
  destruct (fofZ_exact r) as [R1 F1]; [unfold M in *; lia|]. destruct (fofZ_exact 2147483647) as [R2 F2]; [lia|].
  pose proof (Bdiv_correct prec64 emax64 _ _ mode_NE (fofZ r) (fofZ 2147483647)) as H. rewrite R1, R2 in H. specialize (H ltac:(apply not_0_IZR; lia)).
  assert (P : (bpow radix2 (-31) <= IZR r / IZR 2147483647 <= 1 - bpow radix2 (-31))%R).
  { assert (1 <= IZR r)%R by (apply IZR_le; lia). assert (IZR r <= IZR 2147483646)%R by (apply IZR_le; unfold M in *; lia). assert (E31 : bpow radix2 (-31) = (/ 2147483648)%R) by reflexivity. rewrite E31.
    split; (apply Rmult_le_reg_r with (IZR 2147483647); [lra|]; unfold Rdiv; rewrite Rmult_assoc, Rinv_l by lra; lra). }
  assert (V31 : r64 (bpow radix2 (-31)) = bpow radix2 (-31)) by (apply round_generic; [apply valid_rnd_round_mode|apply generic_format_bpow; vm_compute; congruence]).
  assert (V1 : r64 (1 - bpow radix2 (-31))%R = (1 - bpow radix2 (-31))%R).
  { apply round_generic; [apply valid_rnd_round_mode|]. change (generic_format radix2 (FLT_exp (-1074) 53) (1 - bpow radix2 (-31))). apply generic_format_FLT. apply (FLT_spec _ _ _ _ (Float radix2 (2 ^ 31 - 1) (-31))); [unfold F2R; cbn [Fnum Fexp]; change (bpow radix2 (-31)) with (/ 2147483648)%R; cbn; lra|vm_compute; reflexivity|vm_compute; congruence]. }
  assert (RB : (bpow radix2 (-31) <= r64 (IZR r / IZR 2147483647) <= 1 - bpow radix2 (-31))%R).
  { split.
    - rewrite <- V31. apply round_le; [apply (FLT_exp_valid (-1074) 53)|apply valid_rnd_round_mode|exact (proj1 P)].
    - rewrite <- V1. apply round_le; [apply (FLT_exp_valid (-1074) 53)|apply valid_rnd_round_mode|exact (proj2 P)]. }
  assert (E31 : bpow radix2 (-31) = (/ 2147483648)%R) by reflexivity. rewrite E31 in RB.
  rewrite Rlt_bool_true in H; [|rewrite Rabs_pos_eq by lra; apply Rle_lt_trans with 1%R; [lra|]; apply (bpow_lt radix2 0 1024); reflexivity].
  destruct H as (R3 & F3 & _). rewrite F1 in F3. destruct (fofZ_exact 1) as [R4 F4]; [lia|].
  split; apply flt_B2R; auto; unfold fdiv; rewrite R3; cbn [B2R fzero]; rewrite ?R4; lra.
Qed.

(** ** Normally distributed numbers *)
(** In exact arithmetic the polar method takes the logarithm of a number strictly
    between 0 and 1 and the root of a positive one; the second number of each pair is
    returned by the next call, which draws nothing. *)
Theorem C40_gauss : forall n t z t', rnd_reach (K := numR) t -> r_stored t = false -> gauss n t = Ok (z, t') ->
  exists x1 x2 : R, let q := (x1 * x1 + x2 * x2)%R in
    (-1 < x1 < 1 /\ -1 < x2 < 1 /\ 0 < q < 1)%R /\
    z = (R_sqrt.sqrt (-2 * ln q / q) * x2)%R /\ (0 < -2 * ln q / q)%R /\
    r_stored t' = true /\ r_hold t' = (R_sqrt.sqrt (-2 * ln q / q) * x1)%R /\
    forall n' z' t'', gauss n' t' = Ok (z', t'') -> z' = (R_sqrt.sqrt (-2 * ln q / q) * x1)%R /\ r_stored t'' = false /\
      r_aktseed t'' = r_aktseed t' /\ r_aktrand t'' = r_aktrand t' /\ r_table t'' = r_table t'.
Proof.
  intros n t z t' H HS HG. unfold gauss in HG. rewrite HS in HG.
  assert (HP : forall n t, rnd_reach (K := numR) t -> match polar n t with Ok (x1, x2, rq, t') => (-1 < x1 < 1)%R /\ (-1 < x2 < 1)%R /\ rq = (x1 * x1 + x2 * x2)%R /\ (0 < rq < 1)%R | Throw _ => False | Undef => True end).
  { clear. induction n as [|n IH]; intros t H; cbn [polar]; [exact I|]. pose proof H as HR. apply C40_state_in_range in HR as (_ & _ & _ & _ & _ & r1 & t1 & _ & E1 & _).
    pose proof (C40_uniform_open_interval t _ _ H E1) as U1. pose proof (rr_uniform t _ _ H E1) as H1. rewrite E1. cbn [obind].
    pose proof H1 as HR. apply C40_state_in_range in HR as (_ & _ & _ & _ & _ & r2 & t2 & _ & E2 & _). pose proof (C40_uniform_open_interval t1 _ _ H1 E2) as U2. pose proof (rr_uniform t1 _ _ H1 E2) as H2. rewrite E2. cbn [obind].
    set (u1 := ndiv (nofZ r1) (nofZ 2147483647)) in *. set (u2 := ndiv (nofZ r2) (nofZ 2147483647)) in *.
    change (@nsub numR) with Rminus. change (@nmul numR) with Rmult. change (@nadd numR) with Rplus. change (@nle numR) with Rle_bool. change (@nofZ numR) with IZR.
    destruct (_ || _) eqn:E; [apply IH; exact H2|]. apply orb_false_iff in E as [Ea Eb]. 
    destruct (Rle_bool_spec 1 ((2 * u1 - 1) * (2 * u1 - 1) + (2 * u2 - 1) * (2 * u2 - 1))%R); [discriminate|]. destruct (Rle_bool_spec ((2 * u1 - 1) * (2 * u1 - 1) + (2 * u2 - 1) * (2 * u2 - 1))%R 0); [discriminate|].
    split; [lra|]. split; [lra|]. split; [reflexivity|lra]. }
  specialize (HP n t H). destruct (polar n t) as [[[[x1 x2] rq] t1]| |]; cbn [obind] in HG; try discriminate. destruct HP as (A & B & C & D). cbv zeta in HG.
  assert (EZ : (R_sqrt.sqrt (-2 * ln rq / rq) * x2)%R = z) by (injection HG as EZ _; exact EZ).
  assert (ET : {| r_aktseed := r_aktseed t1; r_aktrand := r_aktrand t1; r_table := r_table t1; r_stored := true; r_hold := (R_sqrt.sqrt (-2 * ln rq / rq) * x1)%R : numR |} = t') by (injection HG as _ ET; exact ET).
  exists x1, x2. cbv zeta. rewrite <- C. split; [auto|]. split; [auto|]. split.
  { apply Rmult_lt_0_compat; [|apply Rinv_0_lt_compat; lra]. assert (ln rq < 0)%R by (rewrite <- ln_1; apply ln_increasing; lra). lra. }
  rewrite <- ET. cbn [r_stored r_hold]. split; [reflexivity|]. split; [reflexivity|]. intros n' z' t'' HG'. unfold gauss in HG'. cbn [r_stored] in HG'. injection HG' as <- <-. cbn [r_stored r_hold r_aktseed r_aktrand r_table]. auto.
Qed.

(** ** Seeds *)
(** For every option value and every value of the random device the generator starts in
    range; the clock only matters for seeds that are 0 modulo 2^32. *)
Theorem C40_every_seed : forall (K : Num) clock option device, 1 <= clock < 2 ^ 64 -> rnd_reach (random_init (K := K) clock (seed_of option device)).
Proof. intros K clock option device Hc. apply rr_init; [exact Hc|]. unfold seed_of. pose proof (Z.mod_pos_bound (if option =? 0 then device else option) (2 ^ 32) ltac:(lia)). lia. Qed.
Theorem C40_seed_fixes_the_stream : forall (K : Num) option, option mod 2 ^ 32 <> 0 -> forall clock clock' device device',
  random_init (K := K) clock (seed_of option device) = random_init clock' (seed_of option device').
Proof.
  intros K option H clock clock' device device'. unfold seed_of. destruct (Z.eqb_spec option 0) as [->|N]; [exfalso; apply H; reflexivity|].
  unfold random_init. pose proof (Z.mod_pos_bound option (2 ^ 32) ltac:(lia)). destruct (Z.ltb_spec (option mod 2 ^ 32) 1); [lia|]. reflexivity.
Qed.
(** A non-zero seed that is a multiple of 2^32 still gives a stream that depends on the clock,
    and different seeds can give the same stream. *)
Theorem C40_nonzero_seed_is_reproducible_refuted : exists option clock clock', option <> 0 /\
  r_aktseed (random_init (K := numR) clock (seed_of option 0)) <> r_aktseed (random_init (K := numR) clock' (seed_of option 0)).
Proof. exists (2 ^ 32), 1, 2. split; [lia|]. vm_compute. discriminate. Qed.
Theorem C40_seeds_are_distinct_refuted : forall (K : Num) clock, exists s s', s <> s' /\ s mod 2 ^ 32 <> 0 /\ s' mod 2 ^ 32 <> 0 /\
  random_init (K := K) clock (seed_of s 0) = random_init clock (seed_of s' 0).
Proof. intros K clock. exists 2147483646, 1073741823. split; [lia|]. split; [discriminate|]. split; [discriminate|]. unfold random_init. change (halve 64 (if seed_of 2147483646 0 <? 1 then clock else seed_of 2147483646 0)) with 1073741823. reflexivity. Qed.
Example C40_nonvacuous : rnd_reach (random_init (K := numR) 1 (seed_of 123 0)) /\ r_aktseed (random_init (K := numR) 1 (seed_of 123 0)) <> 0 /\ lcg 1 = 16807 /\ lcg (M - 1) = M - 16807.
Proof. split; [apply C40_every_seed; lia|]. vm_compute. split; [discriminate|]. split; reflexivity. Qed.
