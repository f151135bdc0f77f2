(** * xo::prop_node (not in /repo; the part of its interface the code uses).

    A tree: every node has a string value and an ordered list of named children.
    Assumptions on xo used throughout:
    - [size()] is the number of children, [get_str()] / [get<string>()] the value;
    - [try_get_child(key)] is the first child with that key or null;
    - [get<T>(key)] throws when the child is missing or does not convert,
      [get<T>(key,default)] falls back to the default only when it is missing;
    - [get_any<T>(keys)] is [get<T>] of the first key that is present. *)
From Verif Require Import Prelude Flt ShowNum.

Inductive prop_node : Type := PN (value : string) (children : list (string * prop_node)).

Definition pn_str (p : prop_node) : string := match p with PN v _ => v end.
Definition pn_children (p : prop_node) : list (string * prop_node) := match p with PN _ c => c end.
Definition pn_size (p : prop_node) : nat := length (pn_children p).

Fixpoint assoc_first {A} (k : string) (l : list (string * A)) : option A :=
  match l with
  | [] => None
  | (k', a) :: t => if String.eqb k' k then Some a else assoc_first k t
  end.
Definition pn_child (k : string) (p : prop_node) : option prop_node := assoc_first k (pn_children p).
Definition pn_child_at (i : nat) (p : prop_node) : option prop_node :=
  match nth_error (pn_children p) i with Some (_, c) => Some c | None => None end.

(** Conversion of a node's value to double (xo from_str<double>): the reader
    must succeed. *)
Definition pn_num (rd : text -> option (f64 * text)) (p : prop_node) : outcome f64 :=
  match rd (chars (pn_str p)) with
  | Some (v, _) => Ok v
  | None => Throw "Could not convert value"
  end.

(** prop_node::get_any< par_t >( { k1, k2 } ) *)
Definition pn_get_any2 rd (k1 k2 : string) (p : prop_node) : outcome f64 :=
  match pn_child k1 p with
  | Some c => pn_num rd c
  | None => match pn_child k2 p with
            | Some c => pn_num rd c
            | None => Throw "Could not find any key"
            end
  end.
(** prop_node::get< par_t >( key, default ) *)
Definition pn_get_def rd (k : string) (d : f64) (p : prop_node) : outcome f64 :=
  match pn_child k p with Some c => pn_num rd c | None => Ok d end.
