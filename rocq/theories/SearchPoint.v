(** * search_point, static_par_set, null_objective_info as par_io stores
    (search_point.cpp, static_par_set.cpp, par_io.h:59-65). *)
From Coq Require Import ZArith Bool.
From Verif Require Import Prelude Flt Round8 ShowNum PropNode ParInfo FlatMap ObjInfo ParIO.

(** objective_info as a store (objective_info.h:23-24) *)
Definition oi_store : store obj_info := {| st_try_get := oi_try_get; st_add := oi_add |}.

(** search_point.h:43-44; info_ is a reference to the objective_info *)
Record search_point := { sp_info : obj_info; sp_values : list f64 }.

(** search_point.cpp:96-108 *)
Definition round_values (l : list f64) : list f64 := map rounded l.

(** search_point.cpp:16-23 *)
Definition sp_of_means (o : obj_info) : search_point :=
  {| sp_info := o; sp_values := round_values (map pi_mean (oi_free o)) |}.
(** search_point.cpp:25-35 *)
Definition sp_of_values (o : obj_info) (v : list f64) : outcome search_point :=
  let* _ := assert_ (Nat.eqb (oi_dim o) (length v)) in
  Ok {| sp_info := o; sp_values := round_values v |}.

(** search_point.cpp:42-49 *)
Definition sp_try_get (p : search_point) (name : string) : option f64 :=
  match find_index (sp_info p) name with
  | Some i => nth_error (sp_values p) i
  | None => try_get_locked (sp_info p) name
  end.
(** search_point.cpp:51-57 *)
Definition sp_add (p : search_point) (pi : par_info) : search_point * outcome f64 :=
  (p, Throw ("Previously undefined parameter: " ++ pi_name pi)%string).
Definition sp_store : store search_point := {| st_try_get := sp_try_get; st_add := sp_add |}.

(** search_point.cpp:89-94 *)
Definition set_values (p : search_point) (v : list f64) : outcome search_point :=
  let* _ := assert_ (Nat.eqb (length (sp_values p)) (length v)) in
  Ok {| sp_info := sp_info p; sp_values := map rounded v |}.

(** search_point.cpp:68-84, one record *)
Definition import_value (p : search_point) (r : rec) : search_point * (nat * nat) :=
  match find_index (sp_info p) (r_name r) with
  | Some i => ({| sp_info := sp_info p; sp_values := list_set (sp_values p) i (r_value r) |}, (1, 0))
  | None => (p, (0, 1))
  end.
Fixpoint import_value_list (p : search_point) (l : list rec) : search_point * (nat * nat) :=
  match l with
  | [] => (p, (0, 0))
  | r :: t =>
    let '(p1, (a1, b1)) := import_value p r in
    let '(p2, (a2, b2)) := import_value_list p1 t in
    (p2, (a1 + a2, b1 + b2))
  end.
(** search_point.cpp:59-87.  A record is used only if [good()] still holds after it
    (line 72): [eager_eof] says whether [good()] is already false when the stream
    ended exactly at the last number. *)
Definition import_values (eager_eof : bool) (p : search_point) (file : option text) : search_point * outcome (nat * nat) :=
  match file with
  | None | Some [] => (p, Throw "Could not open")
  | Some t =>
    let '(recs, _) := file_records t in
    let used := filter (fun rb => negb (eager_eof && snd rb)) recs in
    let '(p', cnt) := import_value_list p (map fst used) in
    (p', Ok cnt)
  end.

(** std::left << std::setw( w ) << name: pad with blanks on the right *)
Definition pad_right (w : nat) (t : text) : text := t ++ repeat " "%char (w - length t).
Definition tab : ascii := "009"%char.
Definition newline : ascii := "010"%char.
(** search_point.cpp:110-123, one line *)
Definition write_line (w : nat) (pi : par_info) (v : f64) : text :=
  pad_right w (chars (pi_name pi)) ++ tab :: show_num v ++ tab :: show_num (pi_mean pi) ++ tab :: show_num (pi_std pi) ++ [tab; newline].
Definition max_width (l : list par_info) : nat := fold_left (fun w p => Nat.max w (String.length (pi_name p))) l 0.
Definition write_point (p : search_point) : text :=
  let w := max_width (oi_free (sp_info p)) in
  concat (map (fun pv => write_line w (fst pv) (snd pv)) (combine (oi_free (sp_info p)) (sp_values p))).

(** ** static_par_set (static_par_set.h:9-24, static_par_set.cpp) *)
Definition par_set : Type := list (string * f64).   (* values_ *)
(** static_par_set.cpp:46-52 *)
Definition ps_try_get (m : par_set) (name : string) : option f64 := fm_get name m.
(** static_par_set.cpp:54-57 *)
Definition ps_add (m : par_set) (p : par_info) : par_set * outcome f64 := (fm_set (pi_name p) (pi_mean p) m, Ok (pi_mean p)).
Definition ps_store : store par_set := {| st_try_get := ps_try_get; st_add := ps_add |}.
Definition ps_dim (m : par_set) : nat := length m.
(** static_par_set.cpp:9-22 *)
Definition ps_load_records (m : par_set) (l : list rec) : par_set :=
  fold_left (fun m r => fm_set (r_name r) (r_value r) m) l m.
Definition ps_load (m : par_set) (file : option text) : par_set * outcome nat :=
  match file with
  | None => (m, Throw "Could not open file")
  | Some t => let m' := ps_load_records m (map fst (fst (file_records t))) in (m', Ok (ps_dim m'))
  end.
(** static_par_set.cpp:24-44 *)
Definition ps_merge_record (overwrite : bool) (mn : par_set * nat) (r : rec) : par_set * nat :=
  let '(m, n) := mn in
  if overwrite || match fm_get (r_name r) m with Some _ => false | None => true end
  then (fm_set (r_name r) (r_value r) m, S n) else (m, n).
Definition ps_merge (m : par_set) (file : option text) (overwrite : bool) : par_set * outcome nat :=
  match file with
  | None => (m, Throw "Could not open file")
  | Some t => let '(m', n) := fold_left (ps_merge_record overwrite) (map fst (fst (file_records t))) (m, 0) in (m', Ok n)
  end.

(** ** null_objective_info (par_io.h:59-65) *)
Definition null_store : store unit :=
  {| st_try_get := fun _ _ => None; st_add := fun u p => (u, Ok (pi_mean p)) |}.
