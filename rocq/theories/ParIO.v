(** * par_io: named access to parameters (par_io.h, par_io.cpp, par_tools.h).

    par_io is an abstract class; a concrete subclass is a state type with
    [try_get] and [add].  [add] may throw; the state after a throw is kept. *)
From Coq Require Import ZArith Bool.
From Verif Require Import Prelude Flt Round8 ShowNum PropNode ParInfo FlatMap.

(** Functions of xo whose source is not in /repo and whose exact behaviour does not
    matter for the theorems. *)
Record xo_env := {
  xo_replace_str : string -> string -> string -> string;  (* xo::replace_str( str, from, to ) *)
  xo_needs_quotes : string -> bool;                       (* xo::needs_quotes *)
  xo_query : string -> prop_node -> option prop_node;     (* prop_node::try_get_query( query ) *)
  (* the conversion of a node to vec3_< prop_node > behind prop_node::try_get< vec3_< prop_node > >:
     the nodes of x, y and z, or an exception *)
  xo_vec3 : prop_node -> outcome (prop_node * prop_node * prop_node) }.

(** A par_io subclass: the virtual functions try_get and add (par_io.h:23-24). *)
Record store (S : Type) := {
  st_try_get : S -> string -> option f64;
  st_add : S -> par_info -> S * outcome f64 }.
Arguments st_try_get {S} _ _ _.
Arguments st_add {S} _ _ _.

(** par_io.h:42-43: prefix_ is an xo::stack_string (a stack of segments, innermost
    last, whose string is their concatenation); par_options_ a stack, top first. *)
Record pario (S : Type) := { io_prefix : list string; io_opts : list par_options; io_st : S }.
Arguments io_prefix {S} _. Arguments io_opts {S} _. Arguments io_st {S} _.
Arguments Build_pario {S} _ _ _.

Definition prefix_str (segs : list string) : string := String.concat "" segs.

Definition with_st {S} (io : pario S) (s : S) : pario S := Build_pario (io_prefix io) (io_opts io) s.
Definition with_prefix {S} (io : pario S) (p : list string) : pario S := Build_pario p (io_opts io) (io_st io).
Definition with_opts {S} (io : pario S) (o : list par_options) : pario S := Build_pario (io_prefix io) o (io_st io).

(** par_io.h:18 *)
Definition new_pario {S} (s : S) : pario S := Build_pario [] [default_options] s.

Section api.
Context {S : Type} (X : xo_env) (T : store S).

(** par_io.cpp:8-18 *)
Definition io_get (io : pario S) (name : string) (mean std min max : f64) : pario S * outcome f64 :=
  let full := (prefix_str (io_prefix io) ++ name)%string in
  match st_try_get T (io_st io) full with
  | Some v => (io, Ok v)
  | None =>
    match make_par_info full mean std min max with
    | Ok p => let '(s', r) := st_add T (io_st io) p in (with_st io s', r)
    | Throw w => (io, Throw w)
    | Undef => (io, Undef)
    end
  end.

(** par_io.cpp:23-25: alias replacement, in key order *)
Definition apply_aliases (al : list (string * string)) (full : string) : string :=
  fold_left (fun s ab => xo_replace_str X s (fst ab) (snd ab)) al full.

(** par_io.cpp:36-44: the reference is looked up in the enclosing scopes, innermost
    first.  [segs] holds the innermost segment FIRST. *)
Fixpoint lookup_ref (s : S) (rsegs : list string) (ref : string) : option f64 :=
  match rsegs with
  | [] => st_try_get T s ref
  | _ :: outer =>
    match st_try_get T s (prefix_str (rev rsegs) ++ ref)%string with
    | Some v => Some v
    | None => lookup_ref s outer ref
    end
  end.

Definition starts_alpha (s : string) : bool :=
  match s with String c _ => is_alpha c | EmptyString => false end.

(** par_io.h:36-37: options() needs a non-empty stack *)
Definition io_options (io : pario S) : option par_options := hd_error (io_opts io).

Definition full_name_of (io : pario S) (opt : par_options) (name : string) : string :=
  apply_aliases (opt_aliases opt) (prefix_str (io_prefix io) ++ name)%string.

(** par_io.cpp:20-54 *)
Definition io_get_node (io : pario S) (name : string) (pn : prop_node) : pario S * outcome f64 :=
  match io_options io with
  | None => (io, Undef)
  | Some opt =>
    let full := full_name_of io opt name in
    match st_try_get T (io_st io) full with
    | Some v => (io, Ok v)
    | None =>
      if starts_alpha (pn_str pn) then
        match lookup_ref (io_st io) (rev (io_prefix io)) (pn_str pn) with
        | Some v => (io, Ok v)
        | None => (io, Throw ("Could not find parameter " ++ pn_str pn)%string)
        end
      else if xo_needs_quotes X full then (io, Throw ("Invalid parameter name: " ++ full)%string)
      else match par_info_of_node full pn opt with
           | Ok p =>
             if is_constant p then (io, Ok (pi_mean p))
             else let '(s', r) := st_add T (io_st io) p in (with_st io s', r)
           | Throw w => (io, Throw w)
           | Undef => (io, Undef)
           end
    end
  end.

(** par_io.cpp:56-61 *)
Definition io_try_get_node (io : pario S) (name : string) (parent : prop_node) (key : string) (def : f64) : pario S * outcome f64 :=
  match pn_child key parent with
  | Some pn => io_get_node io name pn
  | None => (io, Ok def)
  end.

(** ** par_tools.h *)
(** par_tools.h:22-25: the node of a parameter is the child of that name, else what the
    query of that name finds *)
Definition par_node (name : string) (pn : prop_node) : option prop_node :=
  match pn_child name pn with
  | Some c => Some c
  | None => xo_query X name pn
  end.
(** par_tools.h:19-27 *)
Definition try_get_par (io : pario S) (name : string) (pn : prop_node) (def : f64) : pario S * outcome f64 :=
  match par_node name pn with
  | Some c => io_get_node io name c
  | None => (io, Ok def)
  end.
(** par_tools.h:29-37 *)
Definition try_get_par_full (io : pario S) (name : string) (pn : prop_node) (mean std lower upper : f64) : pario S * outcome f64 :=
  match par_node name pn with
  | Some c => io_get_node io name c
  | None => io_get io name mean std lower upper
  end.
(** par_tools.h:53-65.  C++ braced initialisation evaluates left to right. *)
Definition try_get_par_pair (io : pario S) (name : string) (pn : prop_node) (def : f64 * f64) : pario S * outcome (f64 * f64) :=
  match pn_child name pn with
  | Some c =>
    if Nat.ltb (pn_size c) 2 then (io, Throw (name ++ " must have at least 2 values")%string)
    else match pn_child_at 0 c, pn_child_at 1 c with
         | Some c0, Some c1 =>
           let '(io1, r0) := io_get_node io (name ++ ".0")%string c0 in
           match r0 with
           | Ok v0 =>
             let '(io2, r1) := io_get_node io1 (name ++ ".1")%string c1 in
             (io2, let* v1 := r1 in Ok (v0, v1))
           | Throw w => (io1, Throw w)
           | Undef => (io1, Undef)
           end
         | _, _ => (io, Undef)
         end
  | None => (io, Ok def)
  end.

(** par_tools.h:39-51.  The three gets are arguments of one constructor call in
    parentheses: C++ leaves their order to the compiler.  [order] lists the components in
    the order in which they are asked for. *)
Inductive axis := AxisX | AxisY | AxisZ.
Definition axis_eqb (a b : axis) : bool :=
  match a, b with AxisX, AxisX | AxisY, AxisY | AxisZ, AxisZ => true | _, _ => false end.
Definition axis_name (name : string) (a : axis) : string :=
  match a with AxisX => name ++ ".x" | AxisY => name ++ ".y" | AxisZ => name ++ ".z" end.
Definition axis_of {A} (v : A * A * A) (a : axis) : A :=
  match v with (x, y, z) => match a with AxisX => x | AxisY => y | AxisZ => z end end.
(** the arguments: the value of each component *)
Fixpoint get_axes (io : pario S) (name : string) (nodes : prop_node * prop_node * prop_node) (order : list axis) : pario S * outcome (axis -> f64) :=
  match order with
  | [] => (io, Ok (fun _ => fzero))
  | a :: t =>
    let '(io1, r) := io_get_node io (axis_name name a) (axis_of nodes a) in
    match r with
    | Ok v =>
      let '(io2, r2) := get_axes io1 name nodes t in
      (io2, let* f := r2 in Ok (fun b => if axis_eqb b a then v else f b))
    | Throw w => (io1, Throw w)
    | Undef => (io1, Undef)
    end
  end.
Definition try_get_par_vec3 (order : list axis) (io : pario S) (name : string) (pn : prop_node) (def : f64 * f64 * f64) : pario S * outcome (f64 * f64 * f64) :=
  match pn_child name pn with
  | Some c =>
    match xo_vec3 X c with
    | Ok nodes =>
      let '(io1, r) := get_axes io name nodes order in
      (io1, let* f := r in Ok (f AxisX, f AxisY, f AxisZ))
    | Throw w => (io, Throw w)
    | Undef => (io, Undef)
    end
  | None => (io, Ok def)
  end.

(** par_tools.h:67-75: element [i] is the parameter [name.i] *)
Fixpoint try_get_par_array_from (i : nat) (io : pario S) (name : string) (show : nat -> string) (pn : prop_node) (def : list f64) : pario S * outcome (list f64) :=
  match def with
  | [] => (io, Ok [])
  | d :: t =>
    let '(io1, r) := try_get_par io (name ++ "." ++ show i)%string pn d in
    match r with
    | Ok v => let '(io2, r2) := try_get_par_array_from (Datatypes.S i) io1 name show pn t in (io2, let* l := r2 in Ok (v :: l))
    | Throw w => (io1, Throw w)
    | Undef => (io1, Undef)
    end
  end.

(** ** Scopes (par_io.h:46-57, 67-91), as structured programs.

    The result state is kept on a throw: destructors run while unwinding. *)
Inductive cmd : Type :=
| CGet (name : string) (mean std min max : f64)
| CGetNode (name : string) (pn : prop_node)
| CTryGet (name : string) (parent : prop_node) (key : string) (def : f64)
| CScope (prefix : string) (add_dot : bool) (body : list cmd)        (* scoped_prefix *)
| CSetScope (prefix : string) (body : list cmd)                      (* scoped_prefix_setter *)
| COptScope (pn : prop_node) (body : list cmd).                      (* scoped_par_options *)

Definition ends_dot (s : string) : bool :=
  match rev (list_ascii_of_string s) with c :: _ => Ascii.eqb c "." | [] => false end.
(** par_io.h:48-52 *)
Definition scope_segment (prefix : string) (add_dot : bool) : string :=
  if add_dot && negb (String.eqb prefix "") && negb (ends_dot prefix) then (prefix ++ ".")%string else prefix.

(** xo's [prop_node::try_get( double& v, key )]: the child's value if there is one;
    like every conversion it throws when the text is not a number (PropNode.v). *)
Definition read_opt (pn : prop_node) (key : string) (old : f64) : outcome f64 :=
  match pn_child key pn with
  | Some c => pn_num read_number c
  | None => Ok old
  end.
Definition with_factor (o : par_options) (v : f64) : par_options :=
  {| auto_std_factor := v; auto_std_offset := auto_std_offset o; auto_std_minimum := auto_std_minimum o;
     opt_lower := opt_lower o; opt_upper := opt_upper o; opt_aliases := opt_aliases o |}.
Definition with_offset (o : par_options) (v : f64) : par_options :=
  {| auto_std_factor := auto_std_factor o; auto_std_offset := v; auto_std_minimum := auto_std_minimum o;
     opt_lower := opt_lower o; opt_upper := opt_upper o; opt_aliases := opt_aliases o |}.
Definition with_minimum (o : par_options) (v : f64) : par_options :=
  {| auto_std_factor := auto_std_factor o; auto_std_offset := auto_std_offset o; auto_std_minimum := v;
     opt_lower := opt_lower o; opt_upper := opt_upper o; opt_aliases := opt_aliases o |}.
Definition with_aliases (o : par_options) (al : list (string * string)) : par_options :=
  {| auto_std_factor := auto_std_factor o; auto_std_offset := auto_std_offset o; auto_std_minimum := auto_std_minimum o;
     opt_lower := opt_lower o; opt_upper := opt_upper o; opt_aliases := al |}.
(** par_io.h:81-84: the options read from the node, in this order; the options so far
    and the result of the constructor body. *)
Definition scoped_options (pn : prop_node) (o : par_options) : par_options * outcome unit :=
  match read_opt pn "auto_std_factor" (auto_std_factor o) with
  | Ok v1 =>
    let o1 := with_factor o v1 in
    match read_opt pn "auto_std_offset" (auto_std_offset o1) with
    | Ok v2 =>
      let o2 := with_offset o1 v2 in
      match read_opt pn "auto_std_minimum" (auto_std_minimum o2) with
      | Ok v3 =>
        let o3 := with_minimum o2 v3 in
        (match pn_child "parameter_aliases" pn with
         | Some c => with_aliases o3 (fold_left (fun m kc => fm_set (fst kc) (pn_str (snd kc)) m) (pn_children c) [])
         | None => o3
         end, Ok tt)
      | Throw w => (o2, Throw w) | Undef => (o2, Undef)
      end
    | Throw w => (o1, Throw w) | Undef => (o1, Undef)
    end
  | Throw w => (o, Throw w) | Undef => (o, Undef)
  end.

(** par_io.h:32 with xo::stack_string::set assumed to replace the whole stack by one segment *)
Definition set_prefix (io : pario S) (s : string) : pario S := with_prefix io [s].

(** The full name a get on a node asks for: prefix + name with aliases replaced. *)
Definition node_name (io : pario S) (name : string) : option string :=
  match io_options io with Some opt => Some (full_name_of io opt name) | None => None end.

(** Execute a program: the values returned by its gets, in order, each with the full
    name that was asked for ([None] when a default was returned without asking). *)
Fixpoint exec (c : cmd) (io : pario S) {struct c} : pario S * outcome (list (option string * f64)) :=
  let run := fix run (l : list cmd) (io : pario S) {struct l} : pario S * outcome (list (option string * f64)) :=
    match l with
    | [] => (io, Ok [])
    | c :: t =>
      let '(io1, r1) := exec c io in
      match r1 with
      | Ok v1 => let '(io2, r2) := run t io1 in (io2, let* v2 := r2 in Ok (v1 ++ v2))
      | Throw w => (io1, Throw w)
      | Undef => (io1, Undef)
      end
    end in
  match c with
  | CGet n m s lo hi => let '(io', r) := io_get io n m s lo hi in (io', let* v := r in Ok [(Some (prefix_str (io_prefix io) ++ n)%string, v)])
  | CGetNode n pn => let '(io', r) := io_get_node io n pn in (io', let* v := r in Ok [(node_name io n, v)])
  | CTryGet n pn k d => let '(io', r) := io_try_get_node io n pn k d in
    (io', let* v := r in Ok [(match pn_child k pn with Some _ => node_name io n | None => None end, v)])
  | CScope p dot body =>
    let '(io1, r) := run body (with_prefix io (io_prefix io ++ [scope_segment p dot])) in
    (with_prefix io1 (removelast (io_prefix io1)), r)
  | CSetScope p body =>
    let saved := prefix_str (io_prefix io) in
    let '(io1, r) := run body (set_prefix io p) in
    (set_prefix io1 saved, r)
  | COptScope pn body =>
    match io_opts io with
    | [] => (io, Undef)
    | o :: _ =>
      let '(o', r0) := scoped_options pn o in
      let io0 := with_opts io (o' :: io_opts io) in
      match r0 with
      | Ok _ =>
        let '(io1, r) := run body io0 in
        (with_opts io1 (tl (io_opts io1)), r)
      (* par_io.h:79-85: a constructor that throws is not followed by its destructor,
         so the pushed options stay *)
      | Throw w => (io0, Throw w)
      | Undef => (io0, Undef)
      end
    end
  end.

Fixpoint exec_list (l : list cmd) (io : pario S) : pario S * outcome (list (option string * f64)) :=
  match l with
  | [] => (io, Ok [])
  | c :: t =>
    let '(io1, r1) := exec c io in
    match r1 with
    | Ok v1 => let '(io2, r2) := exec_list t io1 in (io2, let* v2 := r2 in Ok (v1 ++ v2))
    | Throw w => (io1, Throw w)
    | Undef => (io1, Undef)
    end
  end.
End api.
