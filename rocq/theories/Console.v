(** * console_reporter (console_reporter.h, console_reporter.cpp): the reporter that prints
    the progress of an optimization, and the messages of the stop conditions.

    The terminal is the text printed to it. *)
From Coq Require Import ZArith Bool.
From Flocq Require Import Core BinarySingleNaN.
From Verif Require Import Prelude Flt Flt32 Round8 ShowNum ParInfo ObjInfo SearchPoint Num MathTools Optimizer OptimizerFacts FileReporter.

(** ** printf( "%.*f", precision, v ) *)
(** m 2^e k as an integer, ties to even *)
Definition scaled (k : Z) (m : positive) (e : Z) : Z :=
  if (0 <=? e)%Z then (Z.pos m * 2 ^ e * k)%Z
  else let d := (2 ^ (- e))%Z in let q := (Z.pos m * k / d)%Z in let r := (Z.pos m * k mod d)%Z in
       if (2 * r <? d)%Z then q else if (d <? 2 * r)%Z then (q + 1)%Z else if Z.even q then q else (q + 1)%Z.
(** A negative precision is taken as if it were omitted: 6 decimals. *)
Definition decimals (precision : Z) : nat := if (precision <? 0)%Z then 6 else Z.to_nat precision.
(** The sign of a NaN is not modelled. *)
Definition fixed (precision : Z) (v : f64) : text :=
  let n := decimals precision in let k := (10 ^ Z.of_nat n)%Z in
  let put s z := (if s : bool then ["-"%char] else []) ++ nonneg_digits (z / k) ++ (if Nat.eqb n 0 then [] else "."%char :: pad_int n (z mod k)) in
  match v with
  | B754_zero s => put s 0%Z
  | B754_infinity s => (if s then ["-"%char] else []) ++ chars "inf"
  | B754_nan => chars "nan"
  | B754_finite s m e _ => put s (scaled k m e)
  end.
Definition carriage_return : ascii := "013"%char.

(** console_reporter.h:10,20-23 and what the library does for it: the average, the
    median, the formatting of a set of strings (xo::to_str) and the message of a user-defined condition. *)
Record console := {
  co_precision : Z;                 (* summary_precision_ *)
  co_newline_best : bool;
  co_average : list f64 -> f64;
  co_median : list f64 -> f64;
  co_set : list string -> text;
  co_custom : text }.

(** stop_condition.h:14,21,27,36,44,52,60,81; stop_condition.cpp:42-45; the error message is made in
    optimizer.cpp:217-218. *)
Definition what (C : console) (sc : stop_cond) : text :=
  match sc with
  | ScAbort => chars "Optimization canceled"
  | ScError None => []
  | ScError (Some e) =>
      chars "Errors found in " ++ chars (show_nat (ei_errors e)) ++ chars " of " ++ chars (show_nat (ei_total e)) ++ chars " evaluations (" ++
      pad_int 1 (ei_allowed e) ++ chars " allowed):" ++ newline :: co_set C (ei_messages e)
  | ScFlat _ => chars "Flat fitness"
  | ScTarget _ => chars "Target fitness reached"
  | ScMaxSteps _ => chars "Maximum number of steps reached"
  | ScMinProgress _ _ => chars "Minimum progress reached"
  | ScPredicted prediction fitness _ _ => chars "Predicted fitness " ++ fixed 6 prediction ++ chars " is worse than " ++ fixed 6 fitness
  | ScSimilarity _ _ _ _ _ => chars "Similar search point"
  | ScCustom _ _ => co_custom C
  end.

Section with_console.
Context (C : console) (E : env).
(** console_reporter.cpp:20-30 *)
Definition on_post_evaluate_population (c : core) (fits : list f64) (new_best : bool) : text :=
  chars " A=" ++ fixed (co_precision C) (co_average C fits) ++ chars " M=" ++ fixed (co_precision C) (co_median C fits) ++
  (if new_best then chars " B=" ++ fixed (co_precision C) (c_best_fit c) else []) ++
  (if co_newline_best C && new_best then [newline] else [carriage_return]).
(** One call of the reporter: what it prints.  [scs] are the stop conditions of the optimizer, [seconds] the time since on_start.
    console_reporter.cpp:32-36,38-41,43-46; on_post_evaluate_point (15-18) is never called (reporter.h:14 has no caller). *)
Definition console_call (scs : list stop_cond) (seconds : f64) (call : event * core) : text :=
  let c := snd call in
  match fst call with
  | EStart => chars "Starting optimization, dim=" ++ pad_int 1 (int_of_size (oi_dim (e_info E))) ++ [newline]
  | EPreStep => pad_int 4 (int_of_size (c_steps c)) ++ chars ": "
  | EPostEval _ fits new_best => on_post_evaluate_population c fits new_best
  | EStop k => newline :: chars "Optimization finished in " ++ fixed 2 seconds ++ chars "s: " ++
               match nth_error scs k with Some sc => what C sc | None => [] end ++ [newline]
  | _ => []
  end.
(** What is printed by a call of the optimizer that takes it from [o] to [o'], if the console is reporter
    number [r].  on_stop is the last thing a call does, so that it sees the conditions as the call leaves them (optimizer.cpp:86-94). *)
Definition printed_by (r : nat) (seconds : f64) (o o' : opt) : text :=
  concat (map (console_call (o_scs o') seconds) (skipn (length (received r (o_trace o))) (received r (o_trace o')))).
(** A sequence of calls; [clock k] is the time at call number [k]. *)
Fixpoint printed (r : nat) (clock : nat -> f64) (k : nat) (o : opt) (h : list op) : text :=
  match h with
  | [] => []
  | a :: t => let o' := exec E o a in printed_by r (clock k) o o' ++ printed r clock (S k) o' t
  end.
Definition console_output (extra : list stop_cond) (r : nat) (clock : nat -> f64) (h : list op) : text := printed r clock 0 (created E extra) h.
End with_console.
