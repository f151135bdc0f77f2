(** * objective_info (objective_info.h, objective_info.cpp), without its par_io base. *)
From Coq Require Import ZArith Bool.
From Verif Require Import Prelude Flt Round8 ShowNum PropNode ParInfo FlatMap.

(** objective_info.h:68-72 *)
Record obj_info := {
  oi_free : list par_info;              (* par_infos_ *)
  oi_locked : list (string * f64);      (* locked_pars_ *)
  oi_minimize : bool;
  oi_target : f64;
  oi_name : string }.

Definition with_free (o : obj_info) (l : list par_info) : obj_info :=
  {| oi_free := l; oi_locked := oi_locked o; oi_minimize := oi_minimize o; oi_target := oi_target o; oi_name := oi_name o |}.
Definition with_locked (o : obj_info) (l : list (string * f64)) : obj_info :=
  {| oi_free := oi_free o; oi_locked := l; oi_minimize := oi_minimize o; oi_target := oi_target o; oi_name := oi_name o |}.

(** objective_info.h:19-20 *)
Definition empty_info (minimize : bool) : obj_info :=
  {| oi_free := []; oi_locked := []; oi_minimize := minimize; oi_target := fzero; oi_name := "" |}.
Definition info_of_pars (l : list par_info) (minimize : bool) : obj_info :=
  {| oi_free := l; oi_locked := []; oi_minimize := minimize; oi_target := fzero; oi_name := "" |}.

(** objective_info.h:22 *)
Definition oi_dim (o : obj_info) : nat := length (oi_free o).

(** objective_info.cpp:173-181 with xo::find_if: first position with this name *)
Fixpoint find_pos (name : string) (l : list par_info) : option nat :=
  match l with
  | [] => None
  | p :: t => if String.eqb (pi_name p) name then Some 0
              else match find_pos name t with Some i => Some (S i) | None => None end
  end.
(** objective_info.cpp:54-58 *)
Definition find_index (o : obj_info) (name : string) : option nat := find_pos name (oi_free o).
Fixpoint find_par (name : string) (l : list par_info) : option par_info :=
  match l with
  | [] => None
  | p :: t => if String.eqb (pi_name p) name then Some p else find_par name t
  end.

(** objective_info.cpp:22-28 *)
Definition try_get_locked (o : obj_info) (name : string) : option f64 := fm_get name (oi_locked o).
(** objective_info.cpp:14-20 *)
Definition oi_try_get (o : obj_info) (name : string) : option f64 :=
  match find_par name (oi_free o) with
  | Some p => Some (pi_mean p)
  | None => try_get_locked o name
  end.

(** xo::str_contains_any_of: space, tab or double quote in the name (objective_info.cpp:41) *)
Definition bad_char (c : ascii) : bool := (Ascii.eqb c " " || Ascii.eqb c "009" || Ascii.eqb c "034")%char.
Definition bad_name (s : string) : bool := existsb bad_char (list_ascii_of_string s).

(** objective_info.cpp:37-52 *)
Definition oi_add (o : obj_info) (p : par_info) : obj_info * outcome f64 :=
  if match find_par (pi_name p) (oi_free o) with Some _ => true | None => false end
  then (o, Throw ("Parameter already exists: " ++ pi_name p)%string)
  else if match fm_get (pi_name p) (oi_locked o) with Some _ => true | None => false end
  then (o, Throw ("Parameter already exists: " ++ pi_name p)%string)
  else if bad_name (pi_name p)
  then (o, Throw ("Invalid parameter name: " ++ pi_name p)%string)
  else if is_constant p
  then (with_locked o (fm_set (pi_name p) (pi_mean p) (oi_locked o)), Ok (pi_mean p))
  else (with_free o (oi_free o ++ [p]), Ok (pi_mean p)).

(** erase the first parameter with this name *)
Fixpoint erase_par (name : string) (l : list par_info) : list par_info :=
  match l with
  | [] => []
  | p :: t => if String.eqb (pi_name p) name then t else p :: erase_par name t
  end.

(** objective_info.cpp:195-216 *)
Definition lock_parameter (o : obj_info) (name : string) (value : f64) : obj_info * bool :=
  match find_par name (oi_free o) with
  | Some p =>
    (with_free (with_locked o (fm_set (pi_name p) value (oi_locked o))) (erase_par name (oi_free o)), true)
  | None =>
    match fm_get name (oi_locked o) with
    | Some _ => (with_locked o (fm_set name value (oi_locked o)), true)
    | None => (o, false)
    end
  end.

(** ** Parameter files: records "name value mean std" separated by white space. *)
Record rec := { r_name : string; r_value : f64; r_mean : f64; r_std : f64 }.

Fixpoint take_word (s : text) : text * text :=
  match s with
  | c :: t => if is_ws c then ([], s) else let '(w, r) := take_word t in (c :: w, r)
  | [] => ([], [])
  end.
(** [str >> name]: skip white space, then the characters up to the next white
    space; fails when there are none.  (xo::char_stream may also understand quoted
    names; names written by this code are never quoted.) *)
Definition read_word (s : text) : text * text := take_word (skip_ws s).

(** [str >> name >> value >> mean >> std]: once a read fails, the later ones do nothing. *)
Inductive read_result : Type :=
| RRec (r : rec) (rest : text)       (* all four reads succeeded *)
| RFail (name : string).             (* fail(); the name read so far *)
Definition read_record (s : text) : read_result :=
  let '(w, s1) := read_word s in
  match w with
  | [] => RFail ""
  | _ =>
    let n := string_of_list_ascii w in
    match read_number s1 with
    | None => RFail n
    | Some (v, s2) =>
      match read_number s2 with
      | None => RFail n
      | Some (m, s3) =>
        match read_number s3 with
        | None => RFail n
        | Some (d, s4) => RRec {| r_name := n; r_value := v; r_mean := m; r_std := d |} s4
        end
      end
    end
  end.

(** The loop [while ( str.good() ) { str >> name >> value >> mean >> std; ... }] as the
    list of complete records, each with the flag "nothing was left after it", and
    the name of a trailing incomplete record ("" if there is none).
    [good()] is false after a failed read and (eagerly for xo::char_stream, after the
    read hit the end for std::istream) when nothing is left: reading at the end only
    yields [RFail ""], which every caller ignores, so both give the same list. *)
Fixpoint read_records (fuel : nat) (s : text) : list (rec * bool) * string :=
  match fuel with
  | O => ([], ""%string)
  | S f =>
    match read_record s with
    | RFail n => ([], n)
    | RRec r [] => ([(r, true)], ""%string)
    | RRec r rest => let '(l, n) := read_records f rest in ((r, false) :: l, n)
    end
  end.
Definition file_records (s : text) : list (rec * bool) * string := read_records (S (length s)) s.

(** xo::pattern_matcher, as used: empty() and operator(). *)
Record pattern := { pat_empty : bool; pat_match : string -> bool }.
(** objective_info.cpp:79 / 125: [continue] unless included and not excluded *)
Definition selected (inc exc : pattern) (name : string) : bool :=
  negb ((negb (pat_empty inc) && negb (pat_match inc name)) || (negb (pat_empty exc) && pat_match exc name)).

(** par_options.h:23-34 *)
Record import_settings := {
  is_import_std : bool; is_use_best_as_mean : bool;
  is_std_factor : f64; is_std_offset : f64; is_value_factor : f64; is_value_offset : f64;
  is_include : pattern; is_exclude : pattern }.

(** objective_info.cpp:90-95 *)
Definition imported_mean (pis : import_settings) (r : rec) : f64 :=
  fadd (is_value_offset pis) (fmul (is_value_factor pis) (if is_use_best_as_mean pis then r_value r else r_mean r)).
Definition imported_std (pis : import_settings) (r : rec) (new_mean old_std : f64) : f64 :=
  if is_import_std pis then fadd (is_std_offset pis) (fmul (is_std_factor pis) (r_std r))
  else if fne (is_std_factor pis) (fofZ 1) then fadd (is_std_offset pis) (fmul (is_std_factor pis) (fabs new_mean))
  else old_std.
Definition import_par (pis : import_settings) (r : rec) (p : par_info) : par_info :=
  let m := imported_mean pis r in
  {| pi_name := pi_name p; pi_mean := m; pi_std := imported_std pis r m (pi_std p); pi_min := pi_min p; pi_max := pi_max p |}.
(** update the first parameter with this name *)
Fixpoint update_par (name : string) (f : par_info -> par_info) (l : list par_info) : list par_info :=
  match l with
  | [] => []
  | p :: t => if String.eqb (pi_name p) name then f p :: t else p :: update_par name f t
  end.

(** objective_info.cpp:79-102, one record: new state and (set, not_found) increments *)
Definition import_record (pis : import_settings) (o : obj_info) (r : rec) : obj_info * (nat * nat) :=
  if negb (selected (is_include pis) (is_exclude pis) (r_name r)) then (o, (0, 0))
  else if feq (r_std r) fzero then
    let '(o', b) := lock_parameter o (r_name r) (r_value r) in (o', if b then (1, 0) else (0, 1))
  else match find_par (r_name r) (oi_free o) with
       | Some _ => (with_free o (update_par (r_name r) (import_par pis r) (oi_free o)), (1, 0))
       | None => (o, (0, 1))
       end.
Fixpoint import_records pis (o : obj_info) (l : list rec) : obj_info * (nat * nat) :=
  match l with
  | [] => (o, (0, 0))
  | r :: t =>
    let '(o1, (a1, b1)) := import_record pis o r in
    let '(o2, (a2, b2)) := import_records pis o1 t in
    (o2, (a1 + a2, b1 + b2))
  end.
(** objective_info.cpp:60-106; [file] is the content, [None] when it cannot be opened.
    An incomplete last record makes it throw after the complete ones were applied. *)
Definition import_mean_std (o : obj_info) (file : option text) (pis : import_settings) : obj_info * outcome (nat * nat) :=
  match file with
  | None => (o, Throw "Error opening file")
  | Some t =>
    let '(recs, bad) := file_records t in
    let '(o', cnt) := import_records pis o (map fst recs) in
    if String.eqb bad "" then (o', Ok cnt) else (o', Throw ("Error reading parameter " ++ bad)%string)
  end.

(** objective_info.cpp:125-130 *)
Definition lock_record (inc exc : pattern) (o : obj_info) (r : rec) : obj_info * (nat * nat) :=
  if negb (selected inc exc (r_name r)) then (o, (0, 0))
  else let '(o', b) := lock_parameter o (r_name r) (r_value r) in (o', if b then (1, 0) else (0, 1)).
Fixpoint lock_records inc exc (o : obj_info) (l : list rec) : obj_info * (nat * nat) :=
  match l with
  | [] => (o, (0, 0))
  | r :: t =>
    let '(o1, (a1, b1)) := lock_record inc exc o r in
    let '(o2, (a2, b2)) := lock_records inc exc o1 t in
    (o2, (a1 + a2, b1 + b2))
  end.
(** objective_info.cpp:108-133 (xo::load_string throws when the file cannot be read) *)
Definition import_locked (o : obj_info) (file : option text) (inc exc : pattern) : obj_info * outcome (nat * nat) :=
  match file with
  | None => (o, Throw "Could not open file")
  | Some t =>
    let '(recs, bad) := file_records t in
    let '(o', cnt) := lock_records inc exc o (map fst recs) in
    if String.eqb bad "" then (o', Ok cnt) else (o', Throw ("Error reading parameter " ++ bad)%string)
  end.

Definition with_mean_std (p : par_info) (m s : f64) : par_info :=
  {| pi_name := pi_name p; pi_mean := m; pi_std := s; pi_min := pi_min p; pi_max := pi_max p |}.

(** objective_info.cpp:135-139 *)
Definition set_std_minimum (o : obj_info) (value factor : f64) : obj_info :=
  with_free o (map (fun p => with_mean_std p (pi_mean p) (fmax2 (pi_std p) (fadd (fmul factor (fabs (pi_mean p))) value))) (oi_free o)).

Fixpoint set_mean_std_list (l : list par_info) (mean std : list f64) : list par_info :=
  match l, mean, std with
  | p :: t, m :: mt, s :: st => with_mean_std p m s :: set_mean_std_list t mt st
  | _, _, _ => l
  end.
(** objective_info.cpp:141-149 *)
Definition set_mean_std (o : obj_info) (mean std : list f64) : outcome obj_info :=
  let* _ := assert_ (Nat.eqb (length mean) (oi_dim o) && Nat.eqb (length std) (oi_dim o)) in
  Ok (with_free o (set_mean_std_list (oi_free o) mean std)).

(** objective_info.cpp:151-157; reading past the end of [vec] is undefined *)
Fixpoint feasible_list (l : list par_info) (vec : list f64) : outcome bool :=
  match l, vec with
  | [], _ => Ok true
  | p :: t, v :: vt => if fgt v (pi_max p) || flt v (pi_min p) then Ok false else feasible_list t vt
  | _ :: _, [] => Undef
  end.
Definition is_feasible (o : obj_info) (vec : list f64) : outcome bool := feasible_list (oi_free o) vec.

(** objective_info.cpp:159-171 *)
Fixpoint clamp_list (l : list par_info) (vec : list f64) : outcome (list f64) :=
  match l, vec with
  | [], _ => Ok vec
  | p :: t, v :: vt =>
    let v' := if negb (fis_between v (pi_min p) (pi_max p)) then fclamped v (pi_min p) (pi_max p) else v in
    let* r := clamp_list t vt in Ok (v' :: r)
  | _ :: _, [] => Undef
  end.
Definition clamp (o : obj_info) (vec : list f64) : outcome (list f64) := clamp_list (oi_free o) vec.

(** ** Comparing fitness values *)
(** objective_info.h:34 *)
Definition is_better (o : obj_info) (a b : f64) : bool := if oi_minimize o then flt a b else fgt a b.
(** objective_info.h:36-39 *)
Definition worst_fitness (o : obj_info) : f64 := if oi_minimize o then fmaxval else flowest.
Definition best_fitness_value (o : obj_info) : f64 := if oi_minimize o then flowest else fmaxval.

(** std::min_element / std::max_element: first smallest / first largest, by [<].
    For an empty range they return [end], i.e. index 0. *)
Fixpoint min_element_from (lt : f64 -> f64 -> bool) (best : f64) (bi i : nat) (l : list f64) : nat :=
  match l with
  | [] => bi
  | x :: t => if lt x best then min_element_from lt x i (S i) t else min_element_from lt best bi (S i) t
  end.
Definition min_element (lt : f64 -> f64 -> bool) (l : list f64) : nat :=
  match l with [] => 0 | x :: t => min_element_from lt x 0 1 t end.
(** objective_info.cpp:30-35; max_element keeps the first element [b] such that no later [x] has [b < x] *)
Definition find_best_fitness (o : obj_info) (f : list f64) : nat :=
  if oi_minimize o then min_element flt f else min_element (fun x b => flt b x) f.

(** ** make_objective_info (objective_info.cpp:218-236) *)
(** xo::stringf( "%d", i ) for a size_t: decimal digits (the mismatch of [%d] and size_t
    is ignored) *)
Definition show_nat (n : nat) : string :=
  if Nat.eqb n 0 then "0"%string
  else string_of_list_ascii (show_digits (zdigits (S n) (Z.of_nat n))).

Fixpoint omap {A B} (f : A -> outcome B) (l : list A) : outcome (list B) :=
  match l with
  | [] => Ok []
  | x :: t => let* y := f x in let* r := omap f t in Ok (y :: r)
  end.
Definition make_objective_info (d : nat) (mean stdev lower upper : f64) : outcome obj_info :=
  let* l := omap (fun i => make_par_info (show_nat i) mean stdev lower upper) (seq 0 d) in
  Ok (info_of_pars l true).
Definition make_objective_info_vec (mean stdev lower upper : list f64) : outcome obj_info :=
  let d := length mean in
  let* _ := assert_ (Nat.eqb (length stdev) d && Nat.eqb (length lower) d && Nat.eqb (length upper) d) in
  let* l := omap (fun i => make_par_info (show_nat i) (nth i mean fnan) (nth i stdev fnan) (nth i lower fnan) (nth i upper fnan)) (seq 0 d) in
  Ok (info_of_pars l true).
