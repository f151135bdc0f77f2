(** * The options of cma_optimizer (C39, C42, C67): what each of them does. *)
From Coq Require Import ZArith Bool Lia.
From Verif Require Import Prelude Flt FltFacts Round8 FlatMap ParInfo ObjInfo Num MathTools Boundary MesF Cma CmaRandom CmaF Optimizer Driver
  Properties_CmaRandom Properties_Cma3.

(** ** The seed *)
(** With a seed that is not 0 modulo 2^32 a new cma_optimizer is a function of objective and options: neither the random device nor the clock matters. *)
Theorem C39_cma_seed : forall L info label opt device clock device' clock', (co_seed opt mod 2 ^ 32 <> 0)%Z ->
  cma_create L info label opt device clock = cma_create L info label opt device' clock'.
Proof.
  intros L info label opt device clock device' clock' H. unfold cma_create. now rewrite (C40_seed_fixes_the_stream _ _ H clock clock' device device').
Qed.
(** With seed 0 it is a function of the number the random device gives, if that is not 0. *)
Theorem C39_cma_seed_zero : forall L info label opt device clock clock', co_seed opt = 0%Z -> (device mod 2 ^ 32 <> 0)%Z ->
  cma_create L info label opt device clock = cma_create L info label {| co_lambda := co_lambda opt; co_seed := device; co_modulo := co_modulo opt |} 0 clock'.
Proof.
  intros L info label opt device clock clock' H0 H. unfold cma_create. cbn [co_lambda co_modulo co_seed]. rewrite H0.
  assert (HR : forall K : Num, random_init (K := K) clock (seed_of 0 device) = random_init clock' (seed_of device 0)).
  { intros K. rewrite <- (C40_seed_fixes_the_stream K device H clock clock' 0 0). unfold seed_of. change (0 =? 0)%Z with true. cbv iota.
    destruct (Z.eqb_spec device 0) as [->|_]; [exfalso; apply H; reflexivity|]. reflexivity. }
  now rewrite HR.
Qed.

(** ** Population size and interval between decompositions *)
(** lambda is used if it is at least 2, and else is 4 + floor( 3 log n ); half of the population is selected; a modulo that is not negative is
    used, and else is 1 / ccov / n / 10. *)
Theorem C42_options_used : forall L info label opt device clock P st, cma_create L info label opt device clock = Ok (P, st) ->
  p_N P = oi_dim info /\ p_mu P = p_lambda P / 2 /\ length (p_weights P) = p_mu P /\
  ((2 <= co_lambda opt)%Z -> p_lambda P = Z.to_nat (co_lambda opt)) /\
  ((co_lambda opt < 2)%Z -> exists k, to_int_F (fmul (fofZ 3) (lm_log (cl_libm L) (fofZ (Z.of_nat (oi_dim info))))) = Ok k /\ p_lambda P = Z.to_nat (4 + k)) /\
  (flt (co_modulo opt) (fofZ 0) = false -> p_modulo P = co_modulo opt) /\
  (flt (co_modulo opt) (fofZ 0) = true -> p_modulo P = fdiv (fdiv (fdiv (fofZ 1) (p_ccov P)) (fofZ (Z.of_nat (oi_dim info)))) (fofZ 10)).
Proof.
  intros L info label opt device clock P st H. apply cma_create_par in H as (HN & _ & HS & _). split; [exact HN|].
  unfold supplement_defaults in HS. destruct (if (co_lambda opt <? 2)%Z then _ else _) as [la| |] eqn:EL; cbn [obind] in HS; try discriminate HS.
  destruct (Z.ltb_spec (Z.quot la 2) 0) as [|Hq]; [discriminate HS|]. 
  assert (HW : length (fst (@set_weights (numF (cl_libm L)) (Z.to_nat (Z.quot la 2)))) = Z.to_nat (Z.quot la 2)).
  { unfold set_weights, raw_weights, build. cbn [fst]. rewrite !map_length. apply seq_length. }
  destruct (set_weights _) as [w m]. cbn [fst] in HW. destruct (_ || _) eqn:EO; [discriminate HS|].
  apply orb_false_iff in EO as [EO _]. apply orb_false_iff in EO as [EO1 EO2]. apply Nat.ltb_ge in EO1.
  assert (Hla : (0 <= la)%Z) by (destruct (Z.le_gt_cases 0 la) as [|N]; [assumption|]; exfalso; assert (Z.quot la 2 <= 0)%Z by (apply Z.quot_le_upper_bound; lia); lia).
  assert (HP : p_mu P = Z.to_nat (Z.quot la 2) /\ p_lambda P = Z.to_nat la /\ p_weights P = w /\
    p_modulo P = if flt (co_modulo opt) (fofZ 0) then fdiv (fdiv (fdiv (fofZ 1) (p_ccov P)) (fofZ (Z.of_nat (oi_dim info)))) (fofZ 10) else co_modulo opt).
  { apply (f_equal (fun o => match o with Ok s => s | _ => P end)) in HS. cbv beta iota in HS. rewrite <- HS. cbn [p_mu p_lambda p_weights p_modulo p_ccov]. auto. }
  destruct HP as (-> & -> & -> & ->). split; [|split; [exact HW|]].
  - rewrite Z.quot_div_nonneg by lia. rewrite Z2Nat.inj_div by lia. reflexivity.
  - split; [|split; [|split]].
    + intros H2. destruct (Z.ltb_spec (co_lambda opt) 2); [lia|]. injection EL as <-. reflexivity.
    + intros H2. destruct (Z.ltb_spec (co_lambda opt) 2); [|lia]. destruct (to_int_F _) as [k|e|] eqn:EK in EL; cbn [obind] in EL; try discriminate EL. injection EL as <-. exists k. split; [exact EK|reflexivity].
    + now intros ->.
    + now intros ->.
Qed.
(** So with the default options: 4 + floor( 3 log n ) points, decompositions once every 1 / ccov / n / 10 generations, and the same random numbers in every run. *)
Theorem C67_default_options : forall L info label device clock P st, cma_create L info label default_cma_options device clock = Ok (P, st) ->
  (exists k, to_int_F (fmul (fofZ 3) (lm_log (cl_libm L) (fofZ (Z.of_nat (oi_dim info))))) = Ok k /\ p_lambda P = Z.to_nat (4 + k)) /\
  p_modulo P = fdiv (fdiv (fdiv (fofZ 1) (p_ccov P)) (fofZ (Z.of_nat (oi_dim info)))) (fofZ 10) /\
  forall device' clock', cma_create L info label default_cma_options device' clock' = Ok (P, st).
Proof.
  intros L info label device clock P st H. pose proof (C42_options_used _ _ _ _ _ _ _ _ H) as (_ & _ & _ & _ & H1 & _ & H2). split; [apply H1; reflexivity|]. split; [apply H2; vm_compute; reflexivity|].
  intros device' clock'. rewrite <- H. apply C39_cma_seed. cbn. discriminate.
Qed.
Example C39_cma_nonvacuous : (co_seed default_cma_options mod 2 ^ 32 <> 0)%Z /\ (exists P st, ex_created = Ok (P, st)) /\
  exists P st, cma_create ex_cl Properties_Optimizer4.ex_info (fun _ => ""%string) default_cma_options 1 2 = Ok (P, st).
Proof.
  split; [cbn; discriminate|].
  assert (HE : match ex_created with Ok _ => true | _ => false end = true) by (vm_compute; reflexivity).
  assert (HF : match cma_create ex_cl Properties_Optimizer4.ex_info (fun _ => ""%string) default_cma_options 1 2 with Ok _ => true | _ => false end = true) by (vm_compute; reflexivity).
  set (a := ex_created) in *. set (b := cma_create ex_cl Properties_Optimizer4.ex_info (fun _ => ""%string) default_cma_options 1 2) in *. clearbody a b.
  split; [destruct a as [[P st]|w|]; [eauto|discriminate HE|discriminate HE]|destruct b as [[P st]|w|]; [eauto|discriminate HF|discriminate HF]].
Qed.
