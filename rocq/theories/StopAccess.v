(** * Finding a stop condition of an optimizer and changing its public members. *)
From Verif Require Import Prelude Flt Optimizer.

(** The types of stop_condition.h; [KCustom] is any other *)
Inductive kind : Type := KAbort | KError | KFlat | KTarget | KMaxSteps | KMinProgress | KPredicted | KSimilarity | KCustom.
Definition kind_eqb (a b : kind) : bool :=
  match a, b with
  | KAbort, KAbort | KError, KError | KFlat, KFlat | KTarget, KTarget | KMaxSteps, KMaxSteps | KMinProgress, KMinProgress
  | KPredicted, KPredicted | KSimilarity, KSimilarity | KCustom, KCustom => true
  | _, _ => false
  end.
(** the dynamic type of a condition *)
Definition kind_of (sc : stop_cond) : kind :=
  match sc with
  | ScAbort => KAbort | ScError _ => KError | ScFlat _ => KFlat | ScTarget _ => KTarget | ScMaxSteps _ => KMaxSteps | ScMinProgress _ _ => KMinProgress
  | ScPredicted _ _ _ _ => KPredicted | ScSimilarity _ _ _ _ _ => KSimilarity | ScCustom _ _ => KCustom
  end.
(** optimizer.h:135-147: the first condition for which dynamic_cast< T* > succeeds, for a
    type T of which no other type is derived; the result is its index *)
Fixpoint find_kind (k : kind) (i : nat) (l : list stop_cond) : outcome nat :=
  match l with
  | [] => Throw "Could not find stop condition"
  | sc :: t => if kind_eqb (kind_of sc) k then Ok i else find_kind k (S i) t
  end.
Definition find_stop_condition (k : kind) (o : opt) : outcome nat := find_kind k 0 (o_scs o).
(** Assigning public data members of the i-th condition (stop_condition.h:34-92), or
    error_condition::set (line 31): it becomes [sc].  The optimizer is not told. *)
Definition change (i : nat) (sc : stop_cond) (o : opt) : opt :=
  {| o_core := o_core o; o_scs := list_set (o_scs o) i sc; o_stopped := o_stopped o; o_trace := o_trace o |}.
