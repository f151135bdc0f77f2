(** * The single changes file_reporter makes to the disk (file_reporter.cpp), in their order.

    [FileReporter.report] describes the disk between the calls of the reporter; here is what a process that
    dies in the middle of a call leaves behind.  Simplifications: a file changes by being truncated, by
    receiving one more character and by being removed, and these changes reach the disk in the order in which
    they are made (a crash of the process, not of the machine); history_ writes its buffer only when it is flushed.
    At the end: calls some of whose changes fail. *)
From Coq Require Import ZArith Bool.
From Flocq Require Import Core BinarySingleNaN.
From Verif Require Import Prelude Flt Flt32 Round8 ShowNum ParInfo ObjInfo SearchPoint Num MathTools Optimizer FileReporter.

Inductive disk_op := DTruncate (p : path) | DPut (p : path) (c : ascii) | DRemove (p : path).
(** Output to a file that has been removed is lost. *)
Definition perform (fs : files) (o : disk_op) : files :=
  match o with
  | DTruncate p => write fs p []
  | DPut p c => match fs p with Some t => write fs p (t ++ [c]) | None => fs end
  | DRemove p => erase fs p
  end.
Definition performs (fs : files) (ops : list disk_op) : files := fold_left perform ops fs.
(** [std::ofstream( p ) << t] (file_reporter.cpp:30,61) *)
Definition save (p : path) (t : text) : list disk_op := DTruncate p :: map (DPut p) t.

Section with_config.
Context (F : fr_config) (E : env).
(** file_reporter.cpp:114-139: what cleaning up removes *)
Definition removal (recent : list (path * f64)) : list disk_op :=
  match recent with
  | [a; b; c] => if insignificant F E (snd a) (snd b) && insignificant F E (snd b) (snd c) then [DRemove (fst b)] else []
  | _ => []
  end.
(** file_reporter.cpp:103-142.  The stream [str] of line 111 is closed when the function returns, after the
    clean-up of lines 114-139: when that begins, only [early] characters have left its buffer. *)
Definition par_ops (early : nat) (st : fr) (c : core) (info : outcome obj_info) (try_cleanup : bool) : list disk_op :=
  match (let* updated := info in sp_of_values updated (c_cur_pt c)) with
  | Ok sp =>
    let p := par_path F c in let t := write_point sp in
    DTruncate p :: map (DPut p) (firstn early t) ++ (if try_cleanup then removal (fr_recent st ++ [(p, c_cur_fit c)]) else []) ++ map (DPut p) (skipn early t)
  | _ => []
  end.
(** file_reporter.cpp:51,99 *)
Definition flush_ops (st : fr) (more : text) : list disk_op :=
  if fr_open st then map (DPut (history_path F)) (fr_buffer st ++ more) else [].
(** The calls, as in [FileReporter.report]: file_reporter.cpp:23-46,48-52,54-64,66-70,72-75,77-101. *)
Definition disk_ops (early : nat) (st : fr) (call : event * core) (info : outcome obj_info) : list disk_op :=
  let c := snd call in
  match fst call with
  | EStart => if fc_history F then save (history_path F) (header F E c) else []
  | EPreStep => []
  | EPreEval pop => if fc_individuals F then
      concat (map (fun ip => save (individual_path F c (fst ip)) (write_point {| sp_info := e_info E; sp_values := snd ip |})) (combine (seq 0 (length pop)) pop))
    else []
  | ENewBest _ _ => par_ops early st c info true
  | EPostEval _ _ _ => if (fc_max_steps F <=? (Z.of_nat (c_steps c) - fr_last st) mod size_max)%Z then par_ops early st c info false else []
  | EPostStep => if fc_history F && Nat.eqb (c_steps c mod 10) 9 then flush_ops st (row F E c) else []
  | EStop _ => if fc_history F then flush_ops st [] else []
  end.
(** The same call when some of the changes fail: [bad j] tells if number [j] does.  The streams and xo::remove report
    failures only by their state and result, which file_reporter does not look at (file_reporter.cpp:30,61,111-112,133): what it
    remembers is the same.  (A real stream that fails once writes nothing more; that is one possible choice of [bad].) *)
Fixpoint surviving {A} (bad : nat -> bool) (l : list A) : list A :=
  match l with [] => [] | o :: t => (if bad 0 then [] else [o]) ++ surviving (fun j => bad (S j)) t end.
Definition faulty_report (early : nat) (bad : nat -> bool) (st : fr) (call : event * core) (info : outcome obj_info) : outcome fr :=
  let* st' := report F E st call info in
  Ok {| fr_files := performs (fr_files st) (surviving bad (disk_ops early st call info));
        fr_recent := fr_recent st'; fr_last := fr_last st'; fr_open := fr_open st'; fr_buffer := fr_buffer st' |}.
(** A sequence of calls, as in [FileReporter.report_all]; [fails k] belongs to call number [k]. *)
Definition faulty_any (early : nat -> nat) (fails : nat -> nat -> bool) (st : outcome fr) (k : nat) (call : event * core) (infos : nat -> outcome obj_info) : outcome fr :=
  match st with
  | Ok s => match faulty_report (early k) (fails k) s call (infos k) with Ok s' => Ok s' | Throw _ => Ok s | Undef => Undef end
  | other => other
  end.
Fixpoint faulty_all (early : nat -> nat) (fails : nat -> nat -> bool) (st : outcome fr) (k : nat) (calls : list (event * core)) (infos : nat -> outcome obj_info) : outcome fr :=
  match calls with
  | [] => st
  | x :: t => faulty_all early fails (faulty_any early fails st k x infos) (S k) t infos
  end.
Definition faulty_reported (early : nat -> nat) (fails : nat -> nat -> bool) (fs : files) (infos : nat -> outcome obj_info) (calls : list (event * core)) : outcome fr :=
  faulty_all early fails (Ok (fr_init fs)) 0 calls infos.
End with_config.
