(** * par_info: one optimisation parameter (par_info.h, par_info.cpp). *)
From Coq Require Import ZArith Bool.
From Verif Require Import Prelude Flt Round8 ShowNum PropNode.
#[local] Open Scope Z_scope.

(** par_info.h:9-24 *)
Record par_info := { pi_name : string; pi_mean : f64; pi_std : f64; pi_min : f64; pi_max : f64 }.

(** par_info.h:14 *)
Definition is_constant (p : par_info) : bool := feq (pi_std p) fzero.
(** par_info.h:15 *)
Definition is_valid (p : par_info) : bool :=
  feq (pi_mean p) (pi_mean p) && fge (pi_std p) fzero && fle (pi_min p) (pi_max p)
  && fge (pi_mean p) (pi_min p) && fle (pi_mean p) (pi_max p).
(** par_info.h:16 *)
Definition is_within_range (p : par_info) (v : f64) : bool := fge v (pi_min p) && fle v (pi_max p).

(** par_options.h:9-10 *)
Definition default_lower : f64 := flit (-1) 12.
Definition default_upper : f64 := flit 1 12.

(** par_options.h:12-20; aliases_ is a flat_map, i.e. an association list sorted by key. *)
Record par_options := {
  auto_std_factor : f64; auto_std_offset : f64; auto_std_minimum : f64;
  opt_lower : f64; opt_upper : f64; opt_aliases : list (string * string) }.
Definition default_options : par_options :=
  {| auto_std_factor := flit 1 (-1); auto_std_offset := fzero; auto_std_minimum := flit 1 (-2);
     opt_lower := default_lower; opt_upper := default_upper; opt_aliases := [] |}.

(** par_info.cpp:10-14 *)
Definition make_par_info (name : string) (mean std min max : f64) : outcome par_info :=
  let p := {| pi_name := name; pi_mean := mean; pi_std := std; pi_min := min; pi_max := max |} in
  let* _ := error_if (negb (is_valid p)) ("Invalid parameter: " ++ name)%string in
  Ok p.

(** State of the parser loop, par_info.cpp:16-71: the members being filled in,
    the local [std_is_set] and the xo::char_stream (remaining characters, fail flag).
    xo is not in /repo; assumed: [good()] is false once a read failed or no
    characters remain ([peekc] at the end also clears it, so whether [good()] sees
    the end eagerly or only after [peekc] makes no difference to this loop),
    [peekc]/[getc] do not skip white space, [getc] at the end returns NUL and fails. *)
Record pstate := {
  ps_mean : f64; ps_std : f64; ps_min : f64; ps_max : f64; ps_set : bool;
  ps_rest : text; ps_fail : bool }.

Definition good (s : pstate) : bool :=
  negb (ps_fail s) && match ps_rest s with [] => false | _ => true end.

Definition getc (t : text) : ascii * text := match t with c :: r => (c, r) | [] => (Ascii.zero, []) end.

Definition closing (c : ascii) : ascii :=
  if Ascii.eqb c "[" then "]"%char else if Ascii.eqb c "<" then ">"%char else ")"%char.

Section reader.
(** The number reader of the stream. *)
Variable rd : text -> option (f64 * text).

(** par_info.cpp:40-70, one iteration with [c] the next character. *)
Definition parse_token (name : string) (s : pstate) (c : ascii) : outcome pstate :=
  if Ascii.eqb c "~" then
    (* lines 43-49: a failed read of std is not checked; [v] becomes or stays 0 *)
    let* _ := error_if (fne (ps_std s) fzero) "Standard deviation already set" in
    let '(_, r) := getc (ps_rest s) in
    match rd r with
    | Some (v, r') => Ok {| ps_mean := ps_mean s; ps_std := v; ps_min := ps_min s; ps_max := ps_max s;
                            ps_set := true; ps_rest := r'; ps_fail := false |}
    | None => Ok {| ps_mean := ps_mean s; ps_std := fzero; ps_min := ps_min s; ps_max := ps_max s;
                    ps_set := true; ps_rest := r; ps_fail := true |}
    end
  else if (Ascii.eqb c "[" || Ascii.eqb c "<" || Ascii.eqb c "(")%char then
    (* lines 50-61 *)
    let '(_, r) := getc (ps_rest s) in
    match rd r with
    | None => Throw "Could not read minimum value from range"
    | Some (lo, r1) =>
      let '(comma, r2) := getc r1 in
      let* _ := error_if (negb (Ascii.eqb comma ",")) "expected ','" in
      match rd r2 with
      | None => Throw "Could not read maximum value from range"
      | Some (hi, r3) =>
        let '(c2, r4) := getc r3 in
        let* _ := error_if (negb (Ascii.eqb c2 (closing c))) "opening bracket does not match closing bracket" in
        Ok {| ps_mean := ps_mean s; ps_std := ps_std s; ps_min := lo; ps_max := hi;
              ps_set := ps_set s; ps_rest := r4; ps_fail := false |}
      end
    end
  else
    (* lines 62-69 *)
    match rd (ps_rest s) with
    | None => Throw "Could not read value"
    | Some (v, r) =>
      let* _ := error_if (negb (fisnan (ps_mean s))) "mean already defined" in
      Ok {| ps_mean := v; ps_std := ps_std s; ps_min := ps_min s; ps_max := ps_max s;
            ps_set := ps_set s; ps_rest := r; ps_fail := false |}
    end.

(** par_info.cpp:38-71: while ( str.good() ) ...  Running out of fuel stands for a
    loop that does not terminate. *)
Fixpoint parse_loop (fuel : nat) (name : string) (s : pstate) : outcome pstate :=
  if good s then
    match fuel with
    | O => Undef
    | S f => let* s' := parse_token name s (fst (getc (ps_rest s))) in parse_loop f name s'
    end
  else Ok s.

(** par_info.cpp:74-92: checks and derived values. *)
Definition finish_par_info (name : string) (opt : par_options) (std_is_set : bool) (mean std min max : f64) : outcome par_info :=
  let* _ := error_if (flt mean min || fgt mean max) "mean is outside range" in
  let* _ := error_if (fge min max) "min >= max" in
  let* _ := error_if (fisnan mean && feq std fzero && feq min (opt_lower opt) && feq max (opt_upper opt)) "no parameter defined" in
  let '(mean, std) :=
    if std_is_set && fisnan mean
    then (std, fmax2 (fadd (fmul (auto_std_factor opt) (fabs std)) (auto_std_offset opt)) (auto_std_minimum opt))
    else (mean, std) in
  let '(mean, std) :=
    if fne min (opt_lower opt) && fne max (opt_upper opt)
    then ((if fisnan mean then fadd min (fdiv (fsub max min) (fofZ 2)) else mean),
          (if feq std fzero then fdiv (fsub max min) (fofZ 4) else std))
    else (mean, std) in
  make_par_info name mean std min max.

(** par_info.cpp:16-93 *)
Definition parse_par_info (name : string) (pn : prop_node) (opt : par_options) : outcome par_info :=
  if Nat.ltb 0 (pn_size pn) then
    let* mean := pn_get_any2 rd "mean" "init_mean" pn in
    let* std := pn_get_any2 rd "std" "init_std" pn in
    let* min := pn_get_def rd "min" (opt_lower opt) pn in
    let* max := pn_get_def rd "max" (opt_upper opt) pn in
    finish_par_info name opt false mean std min max
  else
    let t := chars (pn_str pn) in
    let* s := parse_loop (S (length t)) name
      {| ps_mean := fnan; ps_std := fzero; ps_min := opt_lower opt; ps_max := opt_upper opt;
         ps_set := false; ps_rest := t; ps_fail := false |} in
    finish_par_info name opt (ps_set s) (ps_mean s) (ps_std s) (ps_min s) (ps_max s).
End reader.

(** The constructor with the decimal reader. *)
Definition par_info_of_node := parse_par_info read_number.
