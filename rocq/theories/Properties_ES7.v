(** * C47: the population size and the options of MES and EVA. *)
From Coq Require Import ZArith Bool.
From Flocq Require Import Core BinarySingleNaN.
From Verif Require Import Prelude Flt FltFacts Round8 ParInfo ObjInfo Num Boundary Mes MesF Optimizer Properties_Optimizer4 Properties_ES4 Properties_ES6.

(** The population size is the option lambda if that is more than 1 (for both optimizers); otherwise it is
    4 plus the whole part of three times the logarithm of the number of parameters. mu is the option mu or,
    if that is 0, half of lambda. *)
Theorem C47_population_size : forall L info,
  let whole x (z : Z) := f_trunc (fmul (fofZ 3) (lm_log (sl_libm L) (fofZ (Z.of_nat (oi_dim info))))) = Some z /\ x = (4 + z)%Z /\ (-2147483648 <= z <= 2147483647)%Z in
  (forall opt lambda, mes_lambda L info opt = Ok lambda <-> if (1 <? mo_lambda opt)%Z then lambda = mo_lambda opt else exists z, whole lambda z) /\
  (forall opt lambda, eva_lambda L info opt = Ok lambda <-> if (1 <? eo_lambda opt)%Z then lambda = eo_lambda opt else exists z, whole lambda z) /\
  (forall mu lambda, es_mu mu lambda = if (mu =? 0)%Z then Z.quot lambda 2 else mu).
Proof.
  intros L info whole.
  assert (G : forall ol lambda, @es_lambda (numF (sl_libm L)) to_int_F ol (oi_dim info) = Ok lambda <-> if (1 <? ol)%Z then lambda = ol else exists z, whole lambda z).
  { intros ol lambda. unfold es_lambda, whole. destruct (1 <? ol)%Z; [split; [intros H; congruence|intros ->; reflexivity]|].
    change (@nmul (numF (sl_libm L)) (@nofZ (numF (sl_libm L)) 3) (@nlog (numF (sl_libm L)) (@nofZ (numF (sl_libm L)) (Z.of_nat (oi_dim info))))) with (fmul (fofZ 3) (lm_log (sl_libm L) (fofZ (Z.of_nat (oi_dim info))))).
    set (y := fmul (fofZ 3) (lm_log (sl_libm L) (fofZ (Z.of_nat (oi_dim info))))). clearbody y. unfold to_int_F. destruct (f_trunc y) as [z|]; cbn [obind].
    - unfold fits_int. destruct (Z.leb_spec (-2147483648) z); destruct (Z.leb_spec z 2147483647); cbn [andb obind]; split; try (intros X; discriminate X).
      + intros X. exists z. split; [reflexivity|]. split; [congruence|]. split; assumption.
      + intros (z' & E & -> & _). congruence.
      + intros (z' & E & _ & H1 & H2). assert (z' = z) by congruence. lia.
      + intros (z' & E & _ & H1 & H2). assert (z' = z) by congruence. lia.
      + intros (z' & E & _ & H1 & H2). assert (z' = z) by congruence. lia.
    - split; [intros X; discriminate X|]. intros (z' & E & _). discriminate E. }
  split; [intros opt; apply G|]. split; [intros opt; apply G|]. reflexivity.
Qed.
(** The default options: sizes chosen automatically, all rates 0.2, offset and its spread 1. *)
Theorem C47_default_values :
  mo_lambda default_mes_options = 0%Z /\ mo_mu default_mes_options = 0%Z /\ eo_lambda default_eva_options = 0%Z /\ eo_mu default_eva_options = 0%Z /\
  (forall r, In r [mo_mean_sigma default_mes_options; mo_var_sigma default_mes_options; mo_mom_sigma default_mes_options;
                   eo_step_size default_eva_options; eo_var_update default_eva_options; eo_ev_update default_eva_options] -> feq r (fdiv (fofZ 2) (fofZ 10)) = true) /\
  (forall r, In r [mo_mom_offset default_mes_options; mo_mom_offset_stdev default_mes_options; eo_ev_offset default_eva_options; eo_ev_stdev default_eva_options] -> feq r (fofZ 1) = true).
Proof.
  split; [reflexivity|]. split; [reflexivity|]. split; [reflexivity|]. split; [reflexivity|]. split.
  - apply Forall_forall. repeat (constructor; [vm_compute; reflexivity|]). constructor.
  - apply Forall_forall. repeat (constructor; [vm_compute; reflexivity|]). constructor.
Qed.
Example C47_population_size_nonvacuous :
  mes_lambda ex_lib ex_info {| mo_lambda := 17; mo_mu := 5; mo_mean_sigma := fofZ 1; mo_var_sigma := fofZ 1; mo_mom_sigma := fofZ 1; mo_mom_offset := fofZ 1; mo_mom_offset_stdev := fofZ 1 |} = Ok 17%Z /\
  (exists lambda, mes_lambda ex_lib ex_info default_mes_options = Ok lambda /\ (4 <= lambda)%Z) /\ (exists lambda, eva_lambda ex_lib ex_info default_eva_options = Ok lambda /\ (4 <= lambda)%Z).
Proof.
  split; [reflexivity|]. split; eexists; (split; [vm_compute; reflexivity|vm_compute; congruence]).
Qed.
