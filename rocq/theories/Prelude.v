(** * Common vocabulary of the model: outcomes of C++ calls.

    A C++ call either returns ([Ok]), throws ([Throw], with the text that
    [std::exception::what] reports), or has no defined behaviour ([Undef]:
    out-of-range element access, a violated [xo_assert], an out-of-range
    float-to-int conversion, ...). *)
From Coq Require Export String Ascii.
From Coq Require Export List Arith ZArith NArith Lia Bool.
Export ListNotations.
#[global] Open Scope list_scope.

Inductive outcome (A : Type) : Type :=
| Ok (a : A)
| Throw (what : string)
| Undef.
Arguments Ok {A} _.
Arguments Throw {A} _.
Arguments Undef {A}.

Definition obind {A B} (x : outcome A) (f : A -> outcome B) : outcome B :=
  match x with Ok a => f a | Throw e => Throw e | Undef => Undef end.

Declare Scope outcome_scope.
Delimit Scope outcome_scope with outcome.
Notation "'let*' x ':=' e1 'in' e2" := (obind e1 (fun x => e2))
  (at level 200, x pattern, e1 at level 100, e2 at level 200, right associativity) : outcome_scope.
#[global] Open Scope outcome_scope.

(** [xo_error_if( cond, msg )] (xo/system/error.h): throw when [cond]. *)
Definition error_if (b : bool) (msg : string) : outcome unit :=
  if b then Throw msg else Ok tt.

(** [xo_assert( cond )]: the code after it relies on [cond]. *)
Definition assert_ (b : bool) : outcome unit := if b then Ok tt else Undef.

(** Replace the [n]-th element ([v[n] = x]); out of range leaves the list
    unchanged (callers check the index). *)
Fixpoint list_set {A} (l : list A) (n : nat) (x : A) : list A :=
  match l, n with
  | [], _ => []
  | _ :: t, O => x :: t
  | h :: t, S k => h :: list_set t k x
  end.

Lemma obind_Ok {A B} (x : outcome A) (f : A -> outcome B) b :
  obind x f = Ok b <-> exists a, x = Ok a /\ f a = Ok b.
Proof.
  destruct x; cbn; split; try discriminate; try (intros (a' & H & _); discriminate).
  - intros H; eauto.
  - intros (a' & [= <-] & H); exact H.
Qed.

Lemma list_set_length {A} (l : list A) n x : length (list_set l n x) = length l.
Proof. revert n; induction l as [|h t IH]; intros [|n]; cbn; auto. Qed.

Lemma nth_error_list_set_eq {A} (l : list A) n x :
  n < length l -> nth_error (list_set l n x) n = Some x.
Proof.
  revert n; induction l as [|h t IH]; intros [|n]; cbn; intros H; try lia; auto.
  apply IH; lia.
Qed.

Lemma nth_error_list_set_neq {A} (l : list A) n m x :
  n <> m -> nth_error (list_set l n x) m = nth_error l m.
Proof.
  revert n m; induction l as [|h t IH]; intros [|n] [|m]; cbn; intros H; auto; try congruence.
Qed.

Lemma Forall2_impl' {A B} (P Q : A -> B -> Prop) l1 l2 :
  (forall a b, P a b -> Q a b) -> Forall2 P l1 l2 -> Forall2 Q l1 l2.
Proof. intros H. induction 1; constructor; auto. Qed.

Lemma nth_error_ext' {A} (a b : list A) : length a = length b -> (forall i, i < length a -> nth_error a i = nth_error b i) -> a = b.
Proof.
  revert b. induction a as [|x a IH]; intros [|y b]; cbn [length]; try discriminate; auto.
  intros [= Hl] H. pose proof (H 0 (Nat.lt_0_succ _)) as H0. cbn in H0. injection H0 as ->. f_equal. apply IH; [exact Hl|].
  intros i Hi. apply (H (S i)). lia.
Qed.
