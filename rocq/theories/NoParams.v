(** * cma_optimizer for an objective without free parameters. *)
From Coq Require Import ZArith Bool.
From Verif Require Import Prelude Flt SearchPoint ObjInfo CmaRandom CmaF.

(** cma_optimizer.cpp:1158-1195 for n = 0: cmaes_readpara_SupplementDefaults and
    cmaes_init_final are skipped (line 1184), so sp.lambda stays what cmaes_init (lines
    236-259) copied from the options, sp.seed is the seed, and nothing else is set up.
    bounded_pop (line 1189) has lambda copies of the search_point of the (no) means; int
    converted to size_t: a negative lambda is more than a vector can hold.  The result is
    the population and sp.seed. *)
Definition cma_create_no_params (info : obj_info) (opt : cma_options) (device : Z) : outcome (list search_point * Z) :=
  if (co_lambda opt <? 0)%Z then Throw "vector::resize"
  else Ok (repeat (sp_of_means info) (Z.to_nat (co_lambda opt)), seed_of (co_seed opt) device).
