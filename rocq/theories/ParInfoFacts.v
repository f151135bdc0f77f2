From Coq Require Import ZArith Bool Lia.
From Flocq Require Import BinarySingleNaN.
From Verif Require Import Prelude Flt FltFacts Round8 ShowNum ShowNumFacts PropNode ParInfo.

Lemma is_valid_iff p : is_valid p = true <->
  fle fzero (pi_std p) = true /\ fle (pi_min p) (pi_mean p) = true /\ fle (pi_mean p) (pi_max p) = true.
Proof.
  unfold is_valid, fge. split.
  - intros H. repeat (apply andb_prop in H as [H ?]). auto.
  - intros (H1 & H2 & H3). rewrite H1, H2, H3.
    assert (fle (pi_min p) (pi_max p) = true) as -> by (eapply fle_trans; eassumption).
    assert (feq (pi_mean p) (pi_mean p) = true) as ->; [|reflexivity].
    apply fle_not_nan in H2 as [_ H2]. rewrite feq_key, H2, Z.eqb_refl. reflexivity.
Qed.

Lemma make_par_info_Ok n m s lo hi p : make_par_info n m s lo hi = Ok p <->
  p = {| pi_name := n; pi_mean := m; pi_std := s; pi_min := lo; pi_max := hi |} /\ is_valid p = true.
Proof.
  unfold make_par_info. destruct (is_valid _) eqn:E; cbn.
  - split; [intros [= <-]; auto|intros [-> _]; auto].
  - split; [discriminate|intros [-> H]; congruence].
Qed.

Lemma make_par_info_iff n m s lo hi :
  (make_par_info n m s lo hi = Ok {| pi_name := n; pi_mean := m; pi_std := s; pi_min := lo; pi_max := hi |} <->
   fle fzero s = true /\ fle lo m = true /\ fle m hi = true) /\
  ((exists w, make_par_info n m s lo hi = Throw w) <->
   ~ (fle fzero s = true /\ fle lo m = true /\ fle m hi = true)).
Proof.
  pose proof (is_valid_iff {| pi_name := n; pi_mean := m; pi_std := s; pi_min := lo; pi_max := hi |}) as Hv.
  cbn [pi_std pi_min pi_mean pi_max] in Hv.
  unfold make_par_info. destruct (is_valid _) eqn:E; cbn.
  - split; [tauto|]. split; [intros [w Hw]; discriminate|]. intros H. exfalso. apply H, Hv. reflexivity.
  - split.
    + split; [discriminate|]. intros H. apply Hv in H. congruence.
    + split; [|eauto]. intros _ H. apply Hv in H. congruence.
Qed.

Lemma error_if_Ok b m a : error_if b m = Ok a -> b = false.
Proof. destruct b; cbn; congruence. Qed.

Ltac oinv H :=
  repeat match type of H with
  | obind ?x _ = Ok _ => let a := fresh "a" in let E := fresh "E" in
      destruct x as [a| |] eqn:E; cbn [obind] in H; [|discriminate H|discriminate H]
  end.

Lemma finish_valid n o b m s lo hi p : finish_par_info n o b m s lo hi = Ok p ->
  pi_name p = n /\ pi_min p = lo /\ pi_max p = hi /\
  flt (pi_min p) (pi_max p) = true /\ fle (pi_min p) (pi_mean p) = true /\ fle (pi_mean p) (pi_max p) = true /\
  fle fzero (pi_std p) = true.
Proof.
  unfold finish_par_info. intros H. oinv H.
  apply error_if_Ok in E0.
  destruct (b && fisnan m) eqn:E2; destruct (fne lo (opt_lower o) && fne hi (opt_upper o)) eqn:E3;
    apply make_par_info_Ok in H as [-> Hv]; apply is_valid_iff in Hv as (V1 & V2 & V3);
    cbn [pi_min pi_max pi_mean pi_std pi_name] in *; repeat split; auto;
    clear - E0 V2 V3; unfold fge in *; fsolve.
Qed.

(** C02 for every number reader. *)
Lemma parse_valid rd n pn o p : parse_par_info rd n pn o = Ok p ->
  pi_name p = n /\
  flt (pi_min p) (pi_max p) = true /\ fle (pi_min p) (pi_mean p) = true /\ fle (pi_mean p) (pi_max p) = true /\
  fle fzero (pi_std p) = true.
Proof.
  unfold parse_par_info. destruct (Nat.ltb 0 (pn_size pn)); intros H; oinv H;
    apply finish_valid in H; tauto.
Qed.

(** ** The reader consumes characters, so the loop terminates. *)
Lemma skip_ws_length s : length (skip_ws s) <= length s.
Proof. induction s as [|c t IH]; cbn; [lia|]. destruct (is_ws c); cbn; lia. Qed.
Lemma read_digits_length s : forall acc cnt n c r, read_digits acc cnt s = (n, c, r) ->
  (c = cnt + Z.of_nat (length s) - Z.of_nat (length r))%Z /\ length r <= length s.
Proof.
  induction s as [|x t IH]; intros acc cnt n c r; cbn [read_digits].
  - intros [= <- <- <-]. cbn. lia.
  - destruct (is_digit x).
    + intros H. apply IH in H. cbn [length]. lia.
    + intros [= <- <- <-]. lia.
Qed.
Lemma read_sign_length s b r : read_sign s = (b, r) -> length r <= length s.
Proof.
  intros H. assert (r = s \/ exists c, s = c :: r) as [->|[c ->]]; [|lia|cbn; lia].
  destruct s as [|c t]; cbn in H; [left; congruence|].
  destruct c as [[] [] [] [] [] [] [] []]; inversion H; eauto.
Qed.
Lemma read_exp_length s v r : read_exp s = (v, r) -> length r <= length s.
Proof.
  destruct s as [|c t]; cbn [read_exp]; [intros [= <- <-]; lia|].
  destruct (_ || _)%bool; [|intros [= <- <-]; lia].
  destruct (read_sign t) as [sg t1] eqn:Es. apply read_sign_length in Es.
  destruct (read_digits 0 0 t1) as [[v' cnt] t2] eqn:Ed. apply read_digits_length in Ed.
  destruct (cnt =? 0)%Z; intros [= <- <-]; cbn [length]; lia.
Qed.
Lemma read_number_consumes s v r : read_number s = Some (v, r) -> length r < length s.
Proof.
  unfold read_number.
  pose proof (skip_ws_length s) as H0.
  destruct (read_sign (skip_ws s)) as [sg s1] eqn:Es. apply read_sign_length in Es.
  destruct (read_digits 0 0 s1) as [[n1 c1] s2] eqn:Ed. apply read_digits_length in Ed.
  destruct (match s2 with "."%char :: t => read_digits n1 0 t | _ => (n1, 0%Z, s2) end) as [[n2 c2] s3] eqn:Ef.
  assert (Hf : length s3 <= length s2 /\ (0 <= c2 <= Z.of_nat (length s2) - Z.of_nat (length s3))%Z).
  { destruct s2 as [|c t]; [injection Ef as <- <- <-; cbn; lia|].
    destruct c as [[] [] [] [] [] [] [] []];
      try (injection Ef as <- <- <-; lia); apply read_digits_length in Ef; cbn [length]; lia. }
  destruct (Z.eqb_spec (c1 + c2) 0); [discriminate|].
  destruct (read_exp s3) as [ex s4] eqn:Ee. apply read_exp_length in Ee.
  intros [= <- <-]. lia.
Qed.

Lemma getc_length t : length (snd (getc t)) <= length t.
Proof. destruct t; cbn; lia. Qed.

Lemma parse_token_shrinks n s c s' : ps_rest s <> [] -> parse_token read_number n s c = Ok s' ->
  ps_fail s' = true \/ length (ps_rest s') < length (ps_rest s).
Proof.
  intros Hne. unfold parse_token.
  assert (Hg : length (snd (getc (ps_rest s))) < length (ps_rest s))
    by (destruct (ps_rest s); [congruence|cbn; lia]).
  destruct (getc (ps_rest s)) as [c0 r] eqn:Eg. cbn [snd] in Hg.
  destruct (Ascii.eqb c "~").
  - intros H. oinv H. destruct (read_number r) as [[v r']|] eqn:Er; injection H as <-; cbn; [right|auto].
    apply read_number_consumes in Er. lia.
  - destruct (_ || _)%bool.
    + destruct (read_number r) as [[lo r1]|] eqn:Er; [|discriminate]. apply read_number_consumes in Er.
      pose proof (getc_length r1) as H1. destruct (getc r1) as [cm r2]. cbn [snd] in H1.
      intros H. oinv H.
      destruct (read_number r2) as [[hi r3]|] eqn:Er2; [|discriminate]. apply read_number_consumes in Er2.
      pose proof (getc_length r3) as H2. destruct (getc r3) as [c2 r4]. cbn [snd] in H2.
      oinv H. injection H as <-. cbn. right. lia.
    + destruct (read_number (ps_rest s)) as [[v r']|] eqn:Er; [|discriminate]. apply read_number_consumes in Er.
      intros H. oinv H. injection H as <-. cbn. auto.
Qed.

Definition parse n s := parse_loop read_number (S (length (ps_rest s))) n s.

Lemma parse_loop_enough f1 : forall f2 n s, length (ps_rest s) < f1 -> length (ps_rest s) < f2 ->
  parse_loop read_number f1 n s = parse_loop read_number f2 n s.
Proof.
  induction f1 as [|f1 IH]; intros [|f2] n s H1 H2; try lia.
  cbn [parse_loop]. destruct (good s) eqn:Eg; [|reflexivity].
  destruct (parse_token read_number n s _) as [s'| |] eqn:Et; cbn [obind]; auto.
  assert (Hne : ps_rest s <> []).
  { intros E. unfold good in Eg. rewrite E, andb_false_r in Eg. discriminate. }
  apply parse_token_shrinks in Et as [Hf|Hl]; auto.
  - assert (good s' = false) by (unfold good; rewrite Hf; reflexivity).
    destruct f1, f2; cbn [parse_loop]; rewrite H; reflexivity.
  - apply IH; lia.
Qed.

Lemma parse_eq n s : parse n s =
  if good s then let* s' := parse_token read_number n s (fst (getc (ps_rest s))) in parse n s' else Ok s.
Proof.
  unfold parse at 1. cbn [parse_loop]. destruct (good s) eqn:Eg; [|reflexivity].
  destruct (parse_token read_number n s _) as [s'| |] eqn:Et; cbn [obind]; auto.
  assert (Hne : ps_rest s <> []).
  { intros E. unfold good in Eg. rewrite E, andb_false_r in Eg. discriminate. }
  apply parse_token_shrinks in Et as [Hf|Hl]; auto.
  - assert (good s' = false) by (unfold good; rewrite Hf; reflexivity).
    unfold parse. destruct (length (ps_rest s)); cbn [parse_loop]; rewrite H; reflexivity.
  - apply parse_loop_enough; lia.
Qed.

Lemma parse_total n s : parse n s <> Undef.
Proof.
  remember (length (ps_rest s)) as l eqn:El.
  revert s El. induction l as [l IH] using lt_wf_ind. intros s ->.
  rewrite parse_eq. destruct (good s) eqn:Eg; [|discriminate].
  destruct (parse_token read_number n s _) as [s'| |] eqn:Et; cbn [obind]; try discriminate.
  - assert (Hne : ps_rest s <> []).
    { intros E. unfold good in Eg. rewrite E, andb_false_r in Eg. discriminate. }
    apply parse_token_shrinks in Et as [Hf|Hl]; auto.
    + rewrite parse_eq. unfold good. rewrite Hf. discriminate.
    + eapply IH; eauto.
  - exfalso. revert Et. unfold parse_token.
    repeat (match goal with
      | |- context [match ?x with _ => _ end] => destruct x
      | |- context [error_if ?b ?m] => destruct b; cbn [error_if obind]
      | _ => progress cbn [obind]
      end; try discriminate).
Qed.

Lemma make_par_info_total n m s lo hi : make_par_info n m s lo hi <> Undef.
Proof. unfold make_par_info. destruct (negb _); cbn; discriminate. Qed.
Lemma finish_total n o b m s lo hi : finish_par_info n o b m s lo hi <> Undef.
Proof.
  unfold finish_par_info.
  destruct (flt m lo || fgt m hi); cbn [error_if obind]; [discriminate|].
  destruct (fge lo hi); cbn [error_if obind]; [discriminate|].
  destruct (_ && _ && _ && _)%bool; cbn [error_if obind]; [discriminate|].
  destruct (b && fisnan m); destruct (fne lo _ && fne hi _); apply make_par_info_total.
Qed.
Lemma pn_num_total rd p : pn_num rd p <> Undef.
Proof. unfold pn_num. destruct (rd _) as [[]|]; discriminate. Qed.

(** Reading a parameter always terminates with a value or an exception. *)
Lemma par_info_of_node_total n pn o : par_info_of_node n pn o <> Undef.
Proof.
  unfold par_info_of_node, parse_par_info. destruct (Nat.ltb 0 (pn_size pn)).
  - unfold pn_get_any2, pn_get_def.
    pose proof (pn_num_total read_number) as HN.
    repeat (match goal with
      | |- context [match pn_child ?k ?p with _ => _ end] => destruct (pn_child k p)
      | |- context [pn_num read_number ?p] => let E := fresh in destruct (pn_num read_number p) eqn:E; [| |now apply HN in E]
      | _ => progress cbn [obind]
      end; try discriminate); apply finish_total.
  - match goal with |- obind (parse_loop _ _ _ ?s) _ <> _ => change (parse_loop read_number (S (length (chars (pn_str pn)))) n s) with (parse n s);
      pose proof (parse_total n s) as HP; destruct (parse n s) end; cbn [obind]; try discriminate; auto.
    apply finish_total.
Qed.

(** ** Tokens *)
Definition st_init (o : par_options) (t : text) : pstate :=
  {| ps_mean := fnan; ps_std := fzero; ps_min := opt_lower o; ps_max := opt_upper o;
     ps_set := false; ps_rest := t; ps_fail := false |}.

Lemma chars_of_text t : chars (string_of_list_ascii t) = t.
Proof. apply list_ascii_of_string_of_list_ascii. Qed.

Lemma node_text n t o : par_info_of_node n (PN (string_of_list_ascii t) []) o =
  let* s := parse n (st_init o t) in
  finish_par_info n o (ps_set s) (ps_mean s) (ps_std s) (ps_min s) (ps_max s).
Proof. unfold par_info_of_node, parse_par_info. cbn [pn_size pn_children length Nat.ltb Nat.leb pn_str]. rewrite chars_of_text. reflexivity. Qed.

Definition first_ok (c : ascii) : bool :=
  negb (Ascii.eqb c "~" || Ascii.eqb c "[" || Ascii.eqb c "<" || Ascii.eqb c "(").

Lemma show_numeral_head u rest : numeral_ok u ->
  exists c t, show_numeral u ++ rest = c :: t /\ first_ok c = true.
Proof.
  intros (Hi & Hf & Hne & Hdot & _). unfold show_numeral.
  destruct (nm_neg u); [cbn [app]; eauto|]. cbn [app].
  destruct (nm_int u) as [|d ds].
  - cbn [app] in Hne. destruct (nm_dot u); [cbn; eauto|]. rewrite (Hdot eq_refl) in Hne. congruence.
  - inversion Hi as [|? ? Hd _]; subst. apply digit_char_cases in Hd.
    cbn [show_digits map app]. eexists _, _. split; [reflexivity|].
    cbn [map In] in Hd. repeat (destruct Hd as [Hd|Hd]; [rewrite <- Hd; reflexivity|]). destruct Hd.
Qed.

Lemma parse_mean n s u rest : numeral_ok u -> ends_num rest -> ps_fail s = false ->
  ps_rest s = show_numeral u ++ rest ->
  parse n s = if fisnan (ps_mean s) then
     parse n {| ps_mean := numeral_val u; ps_std := ps_std s; ps_min := ps_min s; ps_max := ps_max s; ps_set := ps_set s;
                ps_rest := rest; ps_fail := false |}
     else Throw "mean already defined".
Proof.
  intros Hu Hr Hf Hs. rewrite parse_eq.
  destruct (show_numeral_head u rest Hu) as (c & t & Ht & Hc).
  assert (Hg : good s = true) by (unfold good; rewrite Hf, Hs, Ht; reflexivity).
  rewrite Hg. rewrite Hs, Ht. cbn [getc fst].
  unfold parse_token. unfold first_ok in Hc.
  destruct (Ascii.eqb c "~"); [discriminate|]. destruct (Ascii.eqb c "["); [discriminate|].
  destruct (Ascii.eqb c "<"); [discriminate|]. destruct (Ascii.eqb c "("); [discriminate|].
  cbn [orb]. rewrite Hs, read_numeral by assumption.
  destruct (fisnan (ps_mean s)); reflexivity.
Qed.

Lemma parse_std n s u rest : numeral_ok u -> ends_num rest -> ps_fail s = false ->
  ps_rest s = "~"%char :: show_numeral u ++ rest ->
  parse n s = if feq (ps_std s) fzero then
     parse n {| ps_mean := ps_mean s; ps_std := numeral_val u; ps_min := ps_min s; ps_max := ps_max s; ps_set := true;
                ps_rest := rest; ps_fail := false |}
     else Throw "Standard deviation already set".
Proof.
  intros Hu Hr Hf Hs. rewrite parse_eq.
  assert (Hg : good s = true) by (unfold good; rewrite Hf, Hs; reflexivity).
  rewrite Hg, Hs. cbn [getc fst]. unfold parse_token. cbn [Ascii.eqb Bool.eqb].
  rewrite Hs. cbn [getc]. unfold fne. destruct (feq (ps_std s) fzero); cbn [negb error_if obind]; [|reflexivity].
  rewrite read_numeral by assumption. reflexivity.
Qed.

Definition opening (c : ascii) : Prop := c = "["%char \/ c = "<"%char \/ c = "("%char.

Lemma ends_num_comma t : ends_num (","%char :: t).
Proof. reflexivity. Qed.
Lemma closing_ends c t : opening c -> ends_num (closing c :: t).
Proof. intros [->|[->| ->]]; reflexivity. Qed.

Lemma parse_range n s o lo hi c2 rest : opening o -> numeral_ok lo -> numeral_ok hi ->
  ps_fail s = false -> num_cont c2 = false ->
  ps_rest s = o :: show_numeral lo ++ ","%char :: show_numeral hi ++ c2 :: rest ->
  parse n s = if Ascii.eqb c2 (closing o) then
     parse n {| ps_mean := ps_mean s; ps_std := ps_std s; ps_min := numeral_val lo; ps_max := numeral_val hi; ps_set := ps_set s;
                ps_rest := rest; ps_fail := false |}
     else Throw "opening bracket does not match closing bracket".
Proof.
  intros Ho Hlo Hhi Hf Hc2 Hs. rewrite parse_eq.
  assert (Hg : good s = true) by (unfold good; rewrite Hf, Hs; reflexivity).
  rewrite Hg, Hs. cbn [getc fst]. unfold parse_token.
  assert (Hb : Ascii.eqb o "~" = false /\ (Ascii.eqb o "[" || Ascii.eqb o "<" || Ascii.eqb o "(")%bool = true)
    by (destruct Ho as [->|[->| ->]]; split; reflexivity).
  destruct Hb as [-> ->]. rewrite Hs. cbn [getc].
  rewrite read_numeral by (auto using ends_num_comma). cbn [getc Ascii.eqb Bool.eqb negb error_if obind].
  rewrite read_numeral by (auto; unfold ends_num; cbn; exact Hc2). cbn [getc].
  destruct (Ascii.eqb c2 (closing o)); reflexivity.
Qed.

Lemma parse_range_nocomma n s o lo c rest : opening o -> numeral_ok lo ->
  ps_fail s = false -> num_cont c = false -> c <> ","%char ->
  ps_rest s = o :: show_numeral lo ++ c :: rest ->
  parse n s = Throw "expected ','".
Proof.
  intros Ho Hlo Hf Hc Hne Hs. rewrite parse_eq.
  assert (Hg : good s = true) by (unfold good; rewrite Hf, Hs; reflexivity).
  rewrite Hg, Hs. cbn [getc fst]. unfold parse_token.
  assert (Hb : Ascii.eqb o "~" = false /\ (Ascii.eqb o "[" || Ascii.eqb o "<" || Ascii.eqb o "(")%bool = true)
    by (destruct Ho as [->|[->| ->]]; split; reflexivity).
  destruct Hb as [-> ->]. rewrite Hs. cbn [getc].
  rewrite read_numeral by (auto; unfold ends_num; cbn; exact Hc). cbn [getc].
  apply Ascii.eqb_neq in Hne. rewrite Hne. reflexivity.
Qed.

Lemma parse_end n s : ps_rest s = [] -> parse n s = Ok s.
Proof. intros H. rewrite parse_eq. unfold good. rewrite H, andb_false_r. reflexivity. Qed.

Lemma fnan_isnan : fisnan fnan = true. Proof. reflexivity. Qed.

Definition par_info_same (p q : par_info) : bool :=
  String.eqb (pi_name p) (pi_name q) && f64_same (pi_mean p) (pi_mean q) && f64_same (pi_std p) (pi_std q)
  && f64_same (pi_min p) (pi_min q) && f64_same (pi_max p) (pi_max q).
Lemma par_info_same_eq p q : par_info_same p q = true -> p = q.
Proof.
  unfold par_info_same. intros H. repeat (apply andb_prop in H as [H ?]).
  apply String.eqb_eq in H. repeat match goal with H : f64_same _ _ = true |- _ => apply f64_same_eq in H end.
  destruct p, q; cbn in *; congruence.
Qed.
Definition ok_par_info_same (x : outcome par_info) (q : par_info) : bool :=
  match x with Ok p => par_info_same p q | _ => false end.
Lemma ok_par_info_same_eq x q : ok_par_info_same x q = true -> x = Ok q.
Proof. destruct x; cbn; try discriminate. intros H. apply par_info_same_eq in H. congruence. Qed.
Definition throws {A} (x : outcome A) : bool := match x with Throw _ => true | _ => false end.
Lemma throws_eq {A} (x : outcome A) : throws x = true -> exists w, x = Throw w.
Proof. destruct x; cbn; try discriminate; eauto. Qed.
