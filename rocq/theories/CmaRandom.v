(** * The random numbers of cma_optimizer (cma_optimizer.cpp:19-30, 115-143, 188-221). *)
From Coq Require Import ZArith Bool.
From Verif Require Import Prelude Num.
#[local] Open Scope Z_scope.

(** cma_optimizer.cpp:134-137, 192-195: [long] division truncates *)
Definition lcg (s : Z) : Z :=
  let tmp := Z.quot s 127773 in
  let a := 16807 * (s - tmp * 127773) - 2836 * tmp in
  if a <? 0 then a + 2147483647 else a.
(** cma_optimizer.cpp:129-130; [seed > 2e9] compares exactly for the 32-bit seeds that
    occur; every iteration halves, so 64 are enough for any unsigned long *)
Fixpoint halve (n : nat) (seed : Z) : Z :=
  match n with O => seed | S k => if 2000000000 <? seed then halve k (Z.quot seed 2) else seed end.
(** cma_optimizer.cpp:1178-1182, 237, 346: [long] seed, 0 replaced by the random device,
    converted to int, to unsigned, to unsigned long *)
Definition seed_of (option device : Z) : Z := (if option =? 0 then device else option) mod 2 ^ 32.

(** cmaes_random_t; startseed is never read *)
Record rnd (K : Num) := { r_aktseed : Z; r_aktrand : Z; r_table : list Z; r_stored : bool; r_hold : K }.
Arguments r_aktseed {K}. Arguments r_aktrand {K}. Arguments r_table {K}. Arguments r_stored {K}. Arguments r_hold {K}.

(** cma_optimizer.cpp:132-140: iterations i = n-1 ... 0; entries below 32 are stored *)
Fixpoint fill (n : nat) (s : Z) (table : list Z) : Z * list Z :=
  match n with
  | O => (s, table)
  | S i => let s' := lcg s in fill i s' (if Nat.ltb i 32 then list_set table i s' else table)
  end.
Section Rnd.
Context {K : Num}.
(** cma_optimizer.cpp:115-143; [clock] is labs( 100 * time + clock ) *)
Definition random_init (clock seed : Z) : rnd K :=
  let seed := if seed <? 1 then clock else seed in
  let '(s, table) := fill 40 (halve 64 seed) (repeat 0 32) in
  {| r_aktseed := s; r_aktrand := nth 0 table 0; r_table := table; r_stored := false; r_hold := nofZ 0 |}.
(** cma_optimizer.cpp:188-200 *)
Definition uniform (t : rnd K) : outcome (K * rnd K) :=
  let s := lcg (r_aktseed t) in
  let tmp := Z.quot (r_aktrand t) 67108865 in
  if (tmp <? 0) || (Z.of_nat (length (r_table t)) <=? tmp) then Undef else
  let r := nth (Z.to_nat tmp) (r_table t) 0 in
  Ok (ndiv (nofZ r) (nofZ 2147483647),
      {| r_aktseed := s; r_aktrand := r; r_table := list_set (r_table t) (Z.to_nat tmp) s; r_stored := r_stored t; r_hold := r_hold t |}).
(** cma_optimizer.cpp:211-216: at most [n] rounds of the rejection loop *)
Fixpoint polar (n : nat) (t : rnd K) : outcome (K * K * K * rnd K) :=
  match n with
  | O => Undef
  | S k =>
    let* r := uniform t in let '(u1, t1) := r in
    let* r := uniform t1 in let '(u2, t2) := r in
    let x1 := nsub (nmul (nofZ 2) u1) (nofZ 1) in
    let x2 := nsub (nmul (nofZ 2) u2) (nofZ 1) in
    let rquad := nadd (nmul x1 x1) (nmul x2 x2) in
    if nle (nofZ 1) rquad || nle rquad (nofZ 0) then polar k t2 else Ok (x1, x2, rquad, t2)
  end.
(** cma_optimizer.cpp:202-221; a loop of more than [n] rounds gives no result here *)
Definition gauss (n : nat) (t : rnd K) : outcome (K * rnd K) :=
  if r_stored t then Ok (r_hold t, {| r_aktseed := r_aktseed t; r_aktrand := r_aktrand t; r_table := r_table t; r_stored := false; r_hold := r_hold t |})
  else
    let* r := polar n t in
    let '(x1, x2, rquad, t1) := r in
    let fac := nsqrt (ndiv (nmul (nofZ (-2)) (nlog rquad)) rquad) in
    Ok (nmul fac x2, {| r_aktseed := r_aktseed t1; r_aktrand := r_aktrand t1; r_table := r_table t1; r_stored := true; r_hold := nmul fac x1 |}).
End Rnd.
