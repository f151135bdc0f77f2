(** * xo::flat_map< string, T > (not in /repo): an association list sorted by key,
    [m[k] = v] overwrites or inserts. *)
From Verif Require Import Prelude PropNode.

Fixpoint fm_set {A} (k : string) (v : A) (m : list (string * A)) : list (string * A) :=
  match m with
  | [] => [(k, v)]
  | (k', v') :: t =>
    match String.compare k k' with
    | Eq => (k, v) :: t
    | Lt => (k, v) :: m
    | Gt => (k', v') :: fm_set k v t
    end
  end.

(** [m.find(k)] *)
Definition fm_get {A} (k : string) (m : list (string * A)) : option A := assoc_first k m.

Definition keys {A} (m : list (string * A)) : list string := map fst m.

Lemma ascii_compare_refl c : Ascii.compare c c = Eq.
Proof. unfold Ascii.compare. apply N.compare_refl. Qed.
Lemma string_compare_refl s : String.compare s s = Eq.
Proof. induction s as [|c s IH]; cbn; [reflexivity|]. now rewrite ascii_compare_refl. Qed.

Lemma fm_get_set_eq {A} k (v : A) m : fm_get k (fm_set k v m) = Some v.
Proof.
  unfold fm_get. induction m as [|[k' v'] t IH]; cbn [fm_set assoc_first].
  - now rewrite String.eqb_refl.
  - destruct (String.compare k k') eqn:E; cbn [assoc_first]; rewrite ?String.eqb_refl; auto.
    destruct (String.eqb_spec k' k) as [->|]; auto.
    pose proof (string_compare_refl k). congruence.
Qed.

Lemma fm_get_set_neq {A} k k2 (v : A) m : k <> k2 -> fm_get k2 (fm_set k v m) = fm_get k2 m.
Proof.
  intros Hne. unfold fm_get. induction m as [|[k' v'] t IH]; cbn [fm_set assoc_first].
  - apply String.eqb_neq in Hne. now rewrite Hne.
  - destruct (String.compare k k') eqn:E; cbn [assoc_first].
    + apply String.compare_eq_iff in E as ->. apply String.eqb_neq in Hne. now rewrite Hne.
    + apply String.eqb_neq in Hne. now rewrite Hne.
    + rewrite IH. reflexivity.
Qed.

Lemma fm_get_In {A} k (m : list (string * A)) : fm_get k m <> None <-> In k (keys m).
Proof.
  unfold fm_get, keys. induction m as [|[k' v'] t IH]; cbn [assoc_first map fst In]; [intuition|].
  destruct (String.eqb_spec k' k) as [->|Hn].
  - split; [auto|discriminate].
  - rewrite IH. split; [auto|intros [->|H]; [congruence|auto]].
Qed.
Lemma fm_get_None {A} k (m : list (string * A)) : fm_get k m = None <-> ~ In k (keys m).
Proof. rewrite <- fm_get_In. destruct (fm_get k m); intuition congruence. Qed.

Lemma keys_fm_set {A} k (v : A) m k2 : In k2 (keys (fm_set k v m)) <-> k2 = k \/ In k2 (keys m).
Proof.
  rewrite <- !fm_get_In. destruct (String.eqb_spec k k2) as [->|Hn].
  - rewrite fm_get_set_eq. split; [auto|discriminate].
  - rewrite fm_get_set_neq by auto. split; [auto|intros [->|H]; [congruence|auto]].
Qed.

(** Setting an existing key keeps the size; a new key adds one. *)
Lemma fm_set_length_new {A} k (v : A) m : fm_get k m = None -> length (fm_set k v m) = S (length m).
Proof.
  unfold fm_get. induction m as [|[k' v'] t IH]; cbn [fm_set assoc_first length]; auto.
  destruct (String.eqb_spec k' k) as [->|Hn]; [discriminate|]. intros H.
  destruct (String.compare k k') eqn:E; cbn [length]; auto.
  apply String.compare_eq_iff in E. congruence.
Qed.

(** Keys strictly increasing. *)
Inductive fm_sorted {A} : list (string * A) -> Prop :=
| fms_nil : fm_sorted []
| fms_cons k v m : (forall k', In k' (keys m) -> String.compare k k' = Lt) -> fm_sorted m -> fm_sorted ((k, v) :: m).

Lemma string_compare_trans a : forall b c, String.compare a b = Lt -> String.compare b c = Lt -> String.compare a c = Lt.
Proof.
  induction a as [|x a IH]; intros [|y b] [|z c]; cbn; try discriminate; auto.
  intros H1 H2.
  destruct (Ascii.compare x y) eqn:E1; destruct (Ascii.compare y z) eqn:E2; try discriminate.
  - apply Ascii.compare_eq_iff in E1, E2. subst.
    rewrite ascii_compare_refl. eauto.
  - apply Ascii.compare_eq_iff in E1. subst. now rewrite E2.
  - apply Ascii.compare_eq_iff in E2. subst. now rewrite E1.
  - unfold Ascii.compare in *. apply N.compare_lt_iff in E1, E2.
    assert (N.compare (N_of_ascii x) (N_of_ascii z) = Lt) as -> by (apply N.compare_lt_iff; eapply N.lt_trans; eassumption). reflexivity.
Qed.

Lemma fm_set_sorted {A} k (v : A) m : fm_sorted m -> fm_sorted (fm_set k v m).
Proof.
  induction 1 as [|k' v' m Hk Hm IH]; cbn [fm_set].
  - constructor; [intros ? []|constructor].
  - destruct (String.compare k k') eqn:E.
    + apply String.compare_eq_iff in E as ->. constructor; auto.
    + constructor; [|constructor; auto]. intros k2. cbn [keys map fst In]. intros [<-|H]; auto.
      eapply string_compare_trans; eauto.
    + constructor; auto. intros k2 H. apply keys_fm_set in H as [->|H]; auto.
      rewrite String.compare_antisym, E. reflexivity.
Qed.
Lemma fm_sorted_NoDup {A} (m : list (string * A)) : fm_sorted m -> NoDup (keys m).
Proof.
  induction 1 as [|k v m Hk Hm IH]; cbn [keys map fst]; constructor; auto.
  intros H. apply Hk in H. pose proof (string_compare_refl k). congruence.
Qed.
