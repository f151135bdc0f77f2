(** * file_reporter (file_reporter.h, file_reporter.cpp): the reporter that stores the
    best point of an optimization in files, and a table of all steps.

    The file system is a map from paths to contents.  Creating directories and opening,
    writing and removing files is assumed to succeed; a [std::ofstream] that goes out of scope
    has written its contents (file_reporter.cpp:61,111-112). *)
From Coq Require Import ZArith Bool.
From Flocq Require Import Core BinarySingleNaN.
From Verif Require Import Prelude Flt Flt32 Round8 ShowNum ParInfo ObjInfo SearchPoint Num MathTools Optimizer.

(** ** xo::stringf( "%04d_%.3f_%.3f.par", ... ) *)
Definition nonneg_digits (z : Z) : text :=
  if (z =? 0)%Z then ["0"%char] else show_digits (zdigits (S (Z.to_nat (Z.log2 z))) z).
(** [%0wd] of an int *)
Definition pad_int (w : nat) (z : Z) : text :=
  if (z <? 0)%Z then
    let d := nonneg_digits (- z) in "-"%char :: repeat "0"%char (w - 1 - length d) ++ d
  else let d := nonneg_digits z in repeat "0"%char (w - length d) ++ d.
(** The format [%d] is given a size_t (file_reporter.cpp:60,110): on the usual platforms
    it prints the lower 32 bits as a signed number. *)
Definition int_of_size (n : nat) : Z :=
  let z := (Z.of_nat n mod 4294967296)%Z in if (z <? 2147483648)%Z then z else (z - 4294967296)%Z.
(** [%.3f]: the exact value rounded to three decimals, ties to even.  The sign of a NaN is not modelled. *)
Definition thousandths (m : positive) (e : Z) : Z :=
  if (0 <=? e)%Z then (Z.pos m * 2 ^ e * 1000)%Z
  else let d := (2 ^ (- e))%Z in let q := (Z.pos m * 1000 / d)%Z in let r := (Z.pos m * 1000 mod d)%Z in
       if (2 * r <? d)%Z then q else if (d <? 2 * r)%Z then (q + 1)%Z else if Z.even q then q else (q + 1)%Z.
Definition fixed3 (v : f64) : text :=
  let put s z := (if s : bool then ["-"%char] else []) ++ nonneg_digits (z / 1000) ++ "."%char :: pad_int 3 (z mod 1000) in
  match v with
  | B754_zero s => put s 0%Z
  | B754_infinity s => (if s then ["-"%char] else []) ++ chars "inf"
  | B754_nan => chars "nan"
  | B754_finite s m e _ => put s (thousandths m e)
  end.

(** ** The reporter *)
Definition path : Type := text.
Definition files : Type := path -> option text.
Definition path_eqb (a b : path) : bool := if list_eq_dec Ascii.ascii_dec a b then true else false.
Definition write (fs : files) (p : path) (t : text) : files := fun q => if path_eqb q p then Some t else fs q.
Definition append (fs : files) (p : path) (t : text) : files :=
  fun q => if path_eqb q p then Some (match fs q with Some s => s | None => [] end ++ t) else fs q.
Definition erase (fs : files) (p : path) : files := fun q => if path_eqb q p then None else fs q.

(** file_reporter.h:20-24,29, and what the library does for it: the median, the
    function that the unqualified [abs] (file_reporter.cpp:125-126) names for a double, and the
    default formatting of numbers by ostreams. *)
Record fr_config := {
  fc_root : path;
  fc_min_improvement : f64;
  fc_max_steps : Z;               (* size_t *)
  fc_history : bool;              (* output_fitness_history_ *)
  fc_par_history : bool;
  fc_individuals : bool;          (* output_individual_search_points *)
  fc_median : list f64 -> f64;
  fc_abs : f64 -> f64;
  fc_show : f64 -> text;
  fc_show32 : f32 -> text;
  (* optimizer_state_labels and optimizer_state_values of the subclass, at the time with this
     number of steps *)
  fc_state : nat -> list (string * f64) }.

Record fr := {
  fr_files : files;
  fr_recent : list (path * f64);   (* recent_files, oldest first *)
  fr_last : Z;                     (* last_output_step, a size_t *)
  fr_open : bool;                  (* history_ is open *)
  fr_buffer : text }.              (* what was written to history_ since the last flush *)

Definition size_max : Z := 18446744073709551616.
(** file_reporter.cpp:16-21; [fs] is the file system at that time *)
Definition fr_init (fs : files) : fr :=
  {| fr_files := fs; fr_recent := []; fr_last := (size_max - 1)%Z; fr_open := false; fr_buffer := [] |}.

Section with_config.
Context (F : fr_config) (E : env).

Definition in_root (name : text) : path := fc_root F ++ "/"%char :: name.
Definition history_path : path := in_root (chars "history.txt").
Definition replim : f64 := flit 999999999 (-3).
(** file_reporter.cpp:105-110 *)
Definition par_name (c : core) : text :=
  pad_int 4 (int_of_size (c_steps c)) ++ "_"%char ::
  fixed3 (fclamped (fc_median F (c_cur_fits c)) (fopp replim) replim) ++ "_"%char ::
  fixed3 (fclamped (c_cur_fit c) (fopp replim) replim) ++ chars ".par".
Definition par_path (c : core) : path := in_root (par_name c).

(** file_reporter.cpp:121-130 *)
Definition improvement (a b : f64) : f64 :=
  let d := fdiv (fsub b a) (fc_abs F a) in if oi_minimize (e_info E) then fopp d else d.
Definition insignificant (a b : f64) : bool := flt (improvement a b) (fc_min_improvement F).

(** file_reporter.cpp:114-139: push, then clean up *)
Definition cleanup (fs : files) (recent : list (path * f64)) : outcome (files * list (path * f64)) :=
  match recent with
  | [a; b; c] =>
    if insignificant (snd a) (snd b) && insignificant (snd b) (snd c) then Ok (erase fs (fst b), [a; c])
    else Ok (fs, [b; c])
  | _ :: _ :: _ :: _ :: _ => Undef    (* xo_assert *)
  | _ => Ok (fs, recent)
  end.
(** file_reporter.cpp:103-142; [info] is what make_updated_objective_info() returns.  If that throws, nothing has been done. *)
Definition write_par_file (st : fr) (c : core) (info : outcome obj_info) (try_cleanup : bool) : outcome fr :=
  let* updated := info in
  let* sp := sp_of_values updated (c_cur_pt c) in
  let fs1 := write (fr_files st) (par_path c) (write_point sp) in
  let* r := if try_cleanup then cleanup fs1 (fr_recent st ++ [(par_path c, c_cur_fit c)]) else Ok (fs1, fr_recent st) in
  Ok {| fr_files := fst r; fr_recent := snd r; fr_last := (Z.of_nat (c_steps c) mod size_max)%Z;
        fr_open := fr_open st; fr_buffer := fr_buffer st |}.

(** file_reporter.cpp:31-44 *)
Definition header (c : core) : text :=
  chars "generation" ++ tab :: chars "best_fitness" ++ tab :: chars "median_fitness" ++
  (if Nat.ltb 0 (c_cap c) then tab :: chars "predicted_fitness" ++ tab :: chars "fitness_progress" else []) ++
  (if fc_par_history F then
     concat (map (fun p => tab :: chars (pi_name p)) (oi_free (e_info E))) ++ concat (map (fun l => tab :: chars (fst l)) (fc_state F (c_steps c)))
   else []) ++ [newline].
(** file_reporter.cpp:23-46 *)
Definition on_start (st : fr) (c : core) : fr :=
  if fc_history F then
    {| fr_files := write (fr_files st) history_path (header c); fr_recent := fr_recent st; fr_last := fr_last st; fr_open := true; fr_buffer := [] |}
  else st.
Definition flush (st : fr) : fr :=
  if fr_open st then
    {| fr_files := append (fr_files st) history_path (fr_buffer st); fr_recent := fr_recent st; fr_last := fr_last st; fr_open := true; fr_buffer := [] |}
  else st.
(** file_reporter.cpp:48-52 *)
Definition on_stop (st : fr) : fr := if fc_history F then flush st else st.
(** file_reporter.cpp:54-64 *)
Definition individual_path (c : core) (i : nat) : path :=
  in_root (pad_int 4 (int_of_size (c_steps c)) ++ chars "_individual" ++ pad_int 2 (int_of_size i) ++ chars ".par").
Definition on_pre_eval (st : fr) (c : core) (pop : list point) : fr :=
  if fc_individuals F then
    {| fr_files := fold_left (fun fs ip => write fs (individual_path c (fst ip)) (write_point {| sp_info := e_info E; sp_values := snd ip |}))
                             (combine (seq 0 (length pop)) pop) (fr_files st);
       fr_recent := fr_recent st; fr_last := fr_last st; fr_open := fr_open st; fr_buffer := fr_buffer st |}
  else st.
(** file_reporter.cpp:66-70: the subtraction is one of size_t *)
Definition on_post_eval (st : fr) (c : core) (info : outcome obj_info) : outcome fr :=
  if (fc_max_steps F <=? (Z.of_nat (c_steps c) - fr_last st) mod size_max)%Z then write_par_file st c info false else Ok st.
(** file_reporter.cpp:83-97.  progress() and predicted_fitness() are available because the window is not 0. *)
Definition row (c : core) : text :=
  chars (show_nat (c_steps c)) ++ tab :: fc_show F (c_cur_fit c) ++ tab :: fc_show F (fc_median F (c_cur_fits c)) ++
  (if Nat.ltb 0 (c_cap c) then
     match snd (predicted_fitness E c (c_cap c)), snd (progress E c) with
     | Ok p, Ok g => tab :: fc_show32 F p ++ tab :: fc_show32 F g
     | _, _ => []
     end
   else []) ++
  (if fc_par_history F then concat (map (fun v => tab :: fc_show F v) (c_cur_pt c)) ++ concat (map (fun l => tab :: fc_show F (snd l)) (fc_state F (c_steps c))) else []) ++
  [newline].
(** file_reporter.cpp:77-101; output to a stream that is not open is lost *)
Definition on_post_step (st : fr) (c : core) : fr :=
  if fc_history F then
    let st1 := {| fr_files := fr_files st; fr_recent := fr_recent st; fr_last := fr_last st; fr_open := fr_open st;
                  fr_buffer := if fr_open st then fr_buffer st ++ row c else fr_buffer st |} in
    if Nat.eqb (c_steps c mod 10) 9 then flush st1 else st1
  else st.

(** One call of the reporter.  [info] is what make_updated_objective_info() would return at that time. *)
Definition report (st : fr) (call : event * core) (info : outcome obj_info) : outcome fr :=
  let c := snd call in
  match fst call with
  | EStart => Ok (on_start st c)
  | EPreStep => Ok st
  | EPreEval pop => Ok (on_pre_eval st c pop)
  | ENewBest _ _ => write_par_file st c info true
  | EPostEval _ _ _ => on_post_eval st c info
  | EPostStep => Ok (on_post_step st c)
  | EStop _ => Ok (on_stop st)
  end.
(** A sequence of calls; [infos k] belongs to call number [k].  An exception of a call is
    caught by the optimizer (optimizer.h:123-133). *)
Definition report_any (st : outcome fr) (k : nat) (call : event * core) (infos : nat -> outcome obj_info) : outcome fr :=
  match st with
  | Ok s => match report s call (infos k) with Ok s' => Ok s' | Throw _ => Ok s | Undef => Undef end
  | other => other
  end.
Fixpoint report_all (st : outcome fr) (k : nat) (calls : list (event * core)) (infos : nat -> outcome obj_info) : outcome fr :=
  match calls with
  | [] => st
  | x :: t => report_all (report_any st k x infos) (S k) t infos
  end.
Definition reported (fs : files) (infos : nat -> outcome obj_info) (calls : list (event * core)) : outcome fr :=
  report_all (Ok (fr_init fs)) 0 calls infos.
End with_config.
