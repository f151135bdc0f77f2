(** * C14-C16: stored values, text round trip, static parameter sets. *)
From Coq Require Import ZArith Reals Bool Permutation.
From Flocq Require Import Core BinarySingleNaN.
From Verif Require Import Prelude Flt FltFacts Round8 Round8Facts ShowNum ShowNumFacts PropNode ParInfo ParInfoFacts FlatMap
  ObjInfo ObjInfoFacts ParIO ParIOFacts SearchPoint.

(** ** C14 *)

(** [d] is a decimal with (at most) 8 significant digits. *)
Definition decimal8 (d : R) : Prop := exists n k : Z, (Z.abs n < 10 ^ 8)%Z /\ d = (IZR n * bpow radix10 k)%R.
(** [d] is a nearest 8-digit decimal to [x]. *)
Definition nearest_decimal8 (x d : R) : Prop := decimal8 d /\ forall d', decimal8 d' -> (Rabs (d - x) <= Rabs (d' - x))%R.
(** [w] is a nearest double to [d]. *)
Definition nearest_f64 (d : R) (w : f64) : Prop := forall u : f64, (Rabs (B2R w - d) <= Rabs (B2R u - d))%R.

Theorem C14_stored_value : forall v : f64,
  (is_finite v = true -> exists d, nearest_decimal8 (B2R v) d /\ nearest_f64 d (rounded v) /\ is_finite (rounded v) = true /\
      Bsign (rounded v) = Bsign v /\
      (* ties are to even, both in decimal and in binary *)
      B2R (rounded v) = round radix2 (FLT_exp (-1074) 53) ZnearestE (round radix10 (FLX_exp 8) ZnearestE (B2R v))) /\
  (is_finite v = false -> rounded v = fzero) /\
  (* printing with 8 digits and reading back *)
  print_and_read v = rounded v.
Proof.
  intros v. split; [|split; [apply rounded_not_finite|apply print_and_read_rounded]].
  intros Hf. destruct (rounded_correct v Hf) as (H1 & H2 & H3). exists (rnd10 (B2R v)).
  split; [|split; [|auto]].
  - split; [apply rnd10_is_dec8|]. intros d' (n & k & Hn & ->). now apply rnd10_nearest.
  - intros u. rewrite H2. apply rnd2_nearest.
Qed.
Theorem C14_projection : forall a b : f64,
  rounded (rounded a) = rounded a /\
  (is_finite a = true -> is_finite b = true -> fle a b = true -> fle (rounded a) (rounded b) = true) /\
  (is_finite a = true -> B2R a <> 0%R -> B2R (rounded a) <> 0%R) /\
  (B2R a = 0%R -> B2R (rounded a) = 0%R) /\
  (is_finite a = true -> (bpow radix2 (-1022) <= Rabs (B2R a))%R ->
     (Rabs (B2R (rounded a) - B2R a) <= / 10000000 * Rabs (B2R a))%R) /\
  (* a decimal literal with 8 digits is kept *)
  (forall n k, (Z.abs n < 10 ^ 8)%Z -> (Rabs (IZR n * bpow radix10 k) <= B2R fmaxval)%R -> rounded (flit n k) = flit n k).
Proof.
  intros a b. split; [apply rounded_idem|]. split; [apply rounded_mono|]. split; [apply rounded_nonzero|].
  split; [|split; [apply rounded_rel_error|]].
  - intros H. destruct (is_finite a) eqn:E; [|rewrite (rounded_not_finite a E); reflexivity].
    destruct (rounded_correct a E) as (_ & H2 & _). rewrite H2, H, rnd10_0, rnd2_0. reflexivity.
  - intros n k Hn Hb. apply rounded_flit; [exact Hn|].
    assert (Hd : rnd2 dmaxR = dmaxR) by (apply round_generic; [auto with typeclass_instances|apply generic_dmax]).
    rewrite rnd2_abs. eapply Rle_lt_trans; [|apply dmaxR_lt]. rewrite <- Hd. apply rnd2_le.
    eapply Rle_trans; [exact Hb|]. right. unfold dmaxR. rewrite mult_IZR. change (2 ^ 971)%Z with (Zpower radix2 971). rewrite IZR_Zpower by lia. reflexivity.
Qed.
(** What the public entry points store. *)
Theorem C14_search_point_values : forall o v p,
  sp_values (sp_of_means o) = map rounded (map pi_mean (oi_free o)) /\
  (length v = oi_dim o -> exists q, sp_of_values o v = Ok q /\ sp_values q = map rounded v /\ sp_info q = o) /\
  (* a wrong length violates the xo_assert: undefined when asserts are compiled out *)
  (length v <> oi_dim o -> sp_of_values o v = Undef) /\
  (length v = length (sp_values p) -> exists q, set_values p v = Ok q /\ sp_values q = map rounded v /\ sp_info q = sp_info p).
Proof.
  intros o v p. split; [reflexivity|]. unfold sp_of_values, set_values.
  split; [|split].
  - intros ->. rewrite Nat.eqb_refl. eexists. split; [reflexivity|]. split; reflexivity.
  - intros H. destruct (Nat.eqb_spec (oi_dim o) (length v)); [congruence|]. reflexivity.
  - intros ->. rewrite Nat.eqb_refl. eexists. split; [reflexivity|]. split; reflexivity.
Qed.
(** Sharpness: rounding can leave the range [min, max] when a bound has more than 8 digits. *)
Theorem C14_rounded_stays_within_range_refuted : exists p, is_valid p = true /\
  is_within_range p (rounded (pi_mean p)) = false.
Proof.
  exists {| pi_name := "x"; pi_mean := flit 123456789 (-9); pi_std := fofZ 1; pi_min := fofZ 0; pi_max := flit 123456789 (-9) |}.
  split; vm_compute; reflexivity.
Qed.
(** ... and cannot when the bounds are themselves 8-digit numbers (fixed points of rounding). *)
Theorem C14_rounded_stays_within_8_digit_range : forall p v, rounded (pi_min p) = pi_min p -> rounded (pi_max p) = pi_max p ->
  is_within_range p v = true -> is_within_range p (rounded v) = true.
Proof.
  intros p v H1 H2. unfold is_within_range, fge. intros H. apply andb_prop in H as [L U].
  assert (F1 : is_finite (pi_min p) = true) by (rewrite <- H1; apply rounded_finite).
  assert (F2 : is_finite (pi_max p) = true) by (rewrite <- H2; apply rounded_finite).
  assert (Fv : is_finite v = true).
  { destruct v as [s|[|]| |s m e Hb]; try reflexivity; exfalso.
    - revert L. clear - F1. destruct (pi_min p) as [s|[|]| |s m e Hb]; try discriminate.
    - revert U. clear - F2. destruct (pi_max p) as [s|[|]| |s m e Hb]; try discriminate.
    - revert L. clear. destruct (pi_min p) as [s|[|]| |s m e Hb]; discriminate. }
  apply andb_true_intro. split.
  - rewrite <- H1. now apply rounded_mono.
  - rewrite <- H2. now apply rounded_mono.
Qed.
Example C14_nonvacuous : f64_same (rounded (flit 123456785 (-9))) (flit 12345678 (-8)) || f64_same (rounded (flit 123456785 (-9))) (flit 12345679 (-8)) = true /\
  f64_same (rounded (finf true)) fzero = true /\ f64_same (rounded (flit 5 (-324))) (flit 5 (-324)) = true.
Proof. split; [vm_compute; reflexivity|]. split; vm_compute; reflexivity. Qed.

(** ** C15 *)

(** A parameter name that can be written to a parameter file: non-empty, no white space. *)
Definition file_name (n : string) : Prop := n <> ""%string /\ forallb (fun c => negb (is_ws c)) (chars n) = true.

Lemma take_word_app w rest : forallb (fun c => negb (is_ws c)) w = true -> head_is is_ws rest = true \/ rest = [] ->
  take_word (w ++ rest) = (w, rest).
Proof.
  intros Hw Hr. induction w as [|c w IH]; cbn [app take_word].
  - destruct Hr as [Hr| ->]; [|reflexivity]. destruct rest as [|c t]; [reflexivity|]. cbn in *. now rewrite Hr.
  - cbn [forallb] in Hw. apply andb_prop in Hw as [Hc Hw]. destruct (is_ws c); [discriminate|]. now rewrite (IH Hw).
Qed.
Lemma read_record_ws s t : forallb is_ws s = true -> read_record (s ++ t) = read_record t.
Proof. intros H. unfold read_record, read_word. now rewrite skip_ws_app. Qed.
Lemma ends_num_tab rest : ends_num (tab :: rest).
Proof. reflexivity. Qed.
Lemma repeat_ws n : forallb is_ws (repeat " "%char n) = true.
Proof. induction n; cbn; auto. Qed.
Definition line_rec (p : par_info) (v : f64) : rec :=
  {| r_name := pi_name p; r_value := rounded v; r_mean := rounded (pi_mean p); r_std := rounded (pi_std p) |}.
Lemma read_line w p v rest : file_name (pi_name p) -> is_finite v = true -> is_finite (pi_mean p) = true -> is_finite (pi_std p) = true ->
  read_record (write_line w p v ++ rest) = RRec (line_rec p v) (tab :: newline :: rest).
Proof.
  intros [Hne Hws] Hv Hm Hs. unfold read_record, write_line, pad_right, read_word.
  set (n := chars (pi_name p)) in *.
  assert (Hn : n <> []) by (unfold n, chars; destruct (pi_name p); [congruence|discriminate]).
  assert (Hskip : forall t, skip_ws (n ++ t) = n ++ t).
  { intros t. destruct n as [|c n']; [congruence|]. cbn [app skip_ws]. cbn [forallb] in Hws. apply andb_prop in Hws as [Hc _].
    now destruct (is_ws c). }
  rewrite <- !app_assoc, Hskip. rewrite take_word_app; [|exact Hws|].
  2:{ left. destruct (w - length n); reflexivity. }
  destruct n as [|c n'] eqn:En; [congruence|]. rewrite <- En.
  replace (string_of_list_ascii n) with (pi_name p) by (unfold n, chars; now rewrite string_of_list_ascii_of_string).
  cbn [app]. rewrite read_number_ws by apply repeat_ws.
  rewrite <- app_assoc. cbn [app].
  change (tab :: show_num v ++ ?t) with ([tab] ++ (show_num v ++ t)). rewrite read_number_ws by reflexivity.
  rewrite read_show_num; [|exact Hv|apply ends_num_tab].
  rewrite <- app_assoc. cbn [app].
  change (tab :: show_num (pi_mean p) ++ ?t) with ([tab] ++ (show_num (pi_mean p) ++ t)). rewrite read_number_ws by reflexivity.
  rewrite read_show_num; [|exact Hm|apply ends_num_tab].
  rewrite <- app_assoc. cbn [app].
  change (tab :: show_num (pi_std p) ++ ?t) with ([tab] ++ (show_num (pi_std p) ++ t)). rewrite read_number_ws by reflexivity.
  rewrite read_show_num; [|exact Hs|apply ends_num_tab]. reflexivity.
Qed.
Definition line_ok (pv : par_info * f64) : Prop :=
  file_name (pi_name (fst pv)) /\ is_finite (snd pv) = true /\ is_finite (pi_mean (fst pv)) = true /\ is_finite (pi_std (fst pv)) = true.
Lemma read_lines w l : Forall line_ok l -> forall fuel pre, forallb is_ws pre = true -> length l < fuel ->
  read_records fuel (pre ++ concat (map (fun pv => write_line w (fst pv) (snd pv)) l)) =
    (map (fun pv => (line_rec (fst pv) (snd pv), false)) l, ""%string).
Proof.
  induction 1 as [|[p v] l (H1 & H2 & H3 & H4) _ IH]; intros [|fuel] pre Hpre Hf; cbn [length] in Hf; try lia; cbn [read_records map concat fst snd] in *.
  - rewrite read_record_ws by exact Hpre. reflexivity.
  - rewrite read_record_ws by exact Hpre. rewrite read_line by assumption.
    change (tab :: newline :: concat ?t) with ([tab; newline] ++ concat t). rewrite IH by (auto; lia). reflexivity.
Qed.
Lemma write_line_length w p v : 1 <= length (write_line w p v).
Proof. unfold write_line. rewrite app_length. cbn. lia. Qed.
Lemma write_lines_length w l : length l <= length (concat (map (fun pv => write_line w (fst pv) (snd pv)) l)).
Proof.
  induction l as [|pv l IH]; cbn [map concat length]; [lia|]. rewrite app_length. pose proof (write_line_length w (fst pv) (snd pv)). lia.
Qed.
Lemma find_pos_In n l : In n (map pi_name l) <-> exists i, find_pos n l = Some i /\ i < length l.
Proof.
  induction l as [|p t IH]; cbn [map In find_pos length]; [split; [tauto|intros (i & H & _); discriminate]|].
  destruct (String.eqb_spec (pi_name p) n) as [E|E].
  - split; [intros _; exists 0; split; [reflexivity|lia]|auto].
  - rewrite IH. split.
    + intros [H|(i & -> & Hi)]; [congruence|]. exists (S i). split; [reflexivity|lia].
    + intros (i & H & Hi). right. destruct (find_pos n t) as [j|]; [|discriminate]. injection H as <-. exists j. split; [reflexivity|lia].
Qed.
Lemma find_pos_name n l i : find_pos n l = Some i -> exists p, nth_error l i = Some p /\ pi_name p = n.
Proof.
  revert i. induction l as [|p t IH]; intros i; cbn [find_pos]; [discriminate|].
  destruct (String.eqb_spec (pi_name p) n) as [E|E]; [intros [= <-]; exists p; auto|].
  destruct (find_pos n t) as [j|]; [|discriminate]. intros [= <-]. apply (IH j eq_refl).
Qed.
Lemma import_value_list_spec l : NoDup (map r_name l) -> forall q, length (sp_values q) = oi_dim (sp_info q) ->
  (forall r, In r l -> In (r_name r) (map pi_name (oi_free (sp_info q)))) ->
  exists q', import_value_list q l = (q', (length l, 0)) /\ sp_info q' = sp_info q /\ length (sp_values q') = length (sp_values q) /\
   (forall r i, In r l -> find_index (sp_info q) (r_name r) = Some i -> nth_error (sp_values q') i = Some (r_value r)) /\
   (forall i p, nth_error (oi_free (sp_info q)) i = Some p -> ~ In (pi_name p) (map r_name l) -> nth_error (sp_values q') i = nth_error (sp_values q) i).
Proof.
  induction l as [|r t IH]; intros Hnd q Hl Hin; cbn [import_value_list].
  - exists q. split; [reflexivity|]. split; [reflexivity|]. split; [reflexivity|]. split; [intros r i []|reflexivity].
  - cbn [map] in Hnd. inversion_clear Hnd as [|? ? Hr Hnd'].
    pose proof (proj1 (find_pos_In _ _) (Hin r (or_introl eq_refl))) as (i & Hi & Hlt).
    unfold import_value. unfold find_index. rewrite Hi.
    set (q1 := {| sp_info := sp_info q; sp_values := list_set (sp_values q) i (r_value r) |}).
    destruct (IH Hnd' q1) as (q' & E & E1 & E2 & E3 & E4).
    { unfold q1. cbn [sp_values sp_info]. rewrite list_set_length. exact Hl. }
    { intros r' Hr'. apply Hin. now right. }
    rewrite E. exists q'. cbn [sp_info sp_values q1] in *. split; [cbn [length]; reflexivity|]. split; [exact E1|].
    split; [rewrite E2; apply list_set_length|].
    destruct (find_pos_name _ _ _ Hi) as (pr & Hpr & Hprn).
    assert (Hir : nth_error (sp_values q') i = Some (r_value r)).
    { rewrite (E4 i pr Hpr) by (rewrite Hprn; exact Hr). apply nth_error_list_set_eq. rewrite Hl. exact Hlt. }
    split.
    + intros r' j [<-|Hr'] Hj; [|now apply E3]. assert (j = i) by congruence. subst j. exact Hir.
    + intros j p Hp Hn. cbn [map In] in Hn. rewrite (E4 j p Hp) by tauto. apply nth_error_list_set_neq. intros <-. apply Hn. left. congruence.
Qed.

Lemma combine_map_fst {A B} (l : list A) (m : list B) : length l = length m -> map fst (combine l m) = l.
Proof. revert m. induction l as [|x l IH]; intros [|y m]; cbn; try discriminate; auto. intros [= H]. now rewrite IH. Qed.
Lemma combine_nth_error {A B} (l : list A) (m : list B) i x y : nth_error l i = Some x -> nth_error m i = Some y -> nth_error (combine l m) i = Some (x, y).
Proof. revert m i. induction l as [|a l IH]; intros [|b m] [|i]; cbn; try discriminate; [now intros [= ->] [= ->]|apply IH]. Qed.

(** A point [p] whose parameters can be written: distinct white-space-free names, finite values, means and stds. *)
Definition writable (p : search_point) : Prop :=
  length (sp_values p) = oi_dim (sp_info p) /\ oi_dim (sp_info p) <> 0 /\
  NoDup (map pi_name (oi_free (sp_info p))) /\
  (forall pi, In pi (oi_free (sp_info p)) -> file_name (pi_name pi) /\ is_finite (pi_mean pi) = true /\ is_finite (pi_std pi) = true) /\
  (forall v, In v (sp_values p) -> is_finite v = true).

Theorem C15_write_import_round_trip : forall (p q : search_point) eager_eof, writable p ->
  Permutation (map pi_name (oi_free (sp_info p))) (map pi_name (oi_free (sp_info q))) ->
  length (sp_values q) = oi_dim (sp_info q) ->
  exists q', import_values eager_eof q (Some (write_point p)) = (q', Ok (oi_dim (sp_info p), 0)) /\
    sp_info q' = sp_info q /\ length (sp_values q') = length (sp_values q) /\
    (forall i pi v, nth_error (oi_free (sp_info p)) i = Some pi -> nth_error (sp_values p) i = Some v ->
       sp_try_get q' (pi_name pi) = Some (rounded v)) /\
    (* the values a search_point stores are rounded: then the values are reproduced exactly *)
    ((forall v, In v (sp_values p) -> rounded v = v) ->
       (forall pi, In pi (oi_free (sp_info p)) -> sp_try_get q' (pi_name pi) = sp_try_get p (pi_name pi)) /\
       (map pi_name (oi_free (sp_info q)) = map pi_name (oi_free (sp_info p)) -> sp_values q' = sp_values p)).
Proof.
  intros p q ee (Hl & Hd & Hnd & Hok & Hfin) Hperm Hlq.
  set (L := combine (oi_free (sp_info p)) (sp_values p)).
  assert (HLlen : length L = oi_dim (sp_info p)).
  { unfold L. rewrite combine_length, Hl. unfold oi_dim. lia. }
  assert (HLok : Forall line_ok L).
  { apply Forall_forall. intros [pi v] Hin. unfold line_ok; cbn [fst snd]. destruct (Hok pi (in_combine_l _ _ _ _ Hin)) as (? & ? & ?).
    pose proof (Hfin v (in_combine_r _ _ _ _ Hin)). auto. }
  pose proof (read_lines (max_width (oi_free (sp_info p))) L HLok (S (length (write_point p))) [] eq_refl) as Hread.
  assert (Hfuel : length L < S (length (write_point p))).
  { unfold write_point. fold L. pose proof (write_lines_length (max_width (oi_free (sp_info p))) L). lia. }
  specialize (Hread Hfuel). cbn [app] in Hread.
  set (recs := map (fun pv => line_rec (fst pv) (snd pv)) L).
  assert (Hrn : map r_name recs = map pi_name (oi_free (sp_info p))).
  { rewrite <- (combine_map_fst (oi_free (sp_info p)) (sp_values p)) by (symmetry; exact Hl). fold L.
    unfold recs. rewrite !map_map. reflexivity. }
  destruct (import_value_list_spec recs) with (q := q) as (q' & E & E1 & E2 & E3 & E4).
  { rewrite Hrn. exact Hnd. }
  { exact Hlq. }
  { intros r Hr. apply (Permutation_in _ Hperm). rewrite <- Hrn. now apply in_map. }
  assert (Himp : import_values ee q (Some (write_point p)) = (q', Ok (oi_dim (sp_info p), 0))).
  { unfold import_values. destruct (write_point p) as [|c t] eqn:Ew.
    - exfalso. unfold write_point in Ew. fold L in Ew. pose proof (write_lines_length (max_width (oi_free (sp_info p))) L) as Hc. rewrite Ew in Hc. cbn in Hc. lia.
    - rewrite <- Ew. unfold file_records. rewrite <- Ew in Hread. unfold write_point at 2. fold L. rewrite Hread.
      assert (Hfilt : map fst (filter (fun rb : rec * bool => negb (ee && snd rb)) (map (fun pv => (line_rec (fst pv) (snd pv), false)) L)) = recs).
      { unfold recs. clear. induction L as [|x t IH]; cbn [map filter]; [reflexivity|]. cbn [snd]. rewrite andb_false_r. cbn [negb map fst]. now rewrite IH. }
      rewrite Hfilt, E. unfold recs. now rewrite map_length, HLlen. }
  assert (Hget : forall i pi v, nth_error (oi_free (sp_info p)) i = Some pi -> nth_error (sp_values p) i = Some v ->
       sp_try_get q' (pi_name pi) = Some (rounded v) /\
       exists j, find_index (sp_info q) (pi_name pi) = Some j /\ nth_error (sp_values q') j = Some (rounded v)).
  { intros i pi v Hpi Hv. pose proof (combine_nth_error _ _ _ _ _ Hpi Hv) as Hc. fold L in Hc.
    assert (Hin : In (line_rec pi v) recs) by (unfold recs; apply in_map_iff; exists (pi, v); split; [reflexivity|eapply nth_error_In; eauto]).
    assert (Hq : In (pi_name pi) (map pi_name (oi_free (sp_info q)))).
    { apply (Permutation_in _ Hperm). apply in_map. eapply nth_error_In; eauto. }
    apply find_pos_In in Hq as (j & Hj & Hjl). pose proof (E3 _ j Hin Hj) as Hval. cbn [line_rec r_value] in Hval.
    split; [|exists j; split; [exact Hj|exact Hval]]. unfold sp_try_get. rewrite E1. unfold find_index. rewrite Hj. exact Hval. }
  exists q'. split; [exact Himp|]. split; [exact E1|]. split; [exact E2|]. split.
  - intros i pi v Hpi Hv. now destruct (Hget i pi v Hpi Hv).
  - intros Hr.
    assert (Hex : forall i pi, nth_error (oi_free (sp_info p)) i = Some pi -> exists v, nth_error (sp_values p) i = Some v).
    { intros i pi Hpi. destruct (nth_error (sp_values p) i) eqn:Ev; [eauto|]. apply nth_error_None in Ev.
      assert (i < length (oi_free (sp_info p))) by (apply nth_error_Some; congruence). unfold oi_dim in Hl. lia. }
    assert (Hfp : forall i pi, nth_error (oi_free (sp_info p)) i = Some pi -> find_pos (pi_name pi) (oi_free (sp_info p)) = Some i).
    { intros i pi Hpi. assert (In (pi_name pi) (map pi_name (oi_free (sp_info p)))) as Hin by (apply in_map; eapply nth_error_In; eauto).
      apply find_pos_In in Hin as (k & Hk & Hkl). rewrite Hk. f_equal. destruct (find_pos_name _ _ _ Hk) as (pk & Hpk & Hpkn).
      apply (proj1 (NoDup_nth_error (map pi_name (oi_free (sp_info p)))) Hnd); [rewrite map_length; exact Hkl|].
      rewrite (map_nth_error _ _ _ Hpk), (map_nth_error _ _ _ Hpi). now rewrite Hpkn. }
    split.
    + intros pi Hin. apply In_nth_error in Hin as (i & Hi). destruct (Hex i pi Hi) as (v & Hv). destruct (Hget i pi v Hi Hv) as [-> _].
      unfold sp_try_get, find_index. rewrite (Hfp i pi Hi), Hv. f_equal. apply Hr. eapply nth_error_In; eauto.
    + intros Hnames.
      assert (Hlen : length (sp_values q') = length (sp_values p)).
      { rewrite E2, Hlq, Hl. unfold oi_dim. rewrite <- (map_length pi_name (oi_free (sp_info q))), Hnames. apply map_length. }
      assert (Hfpq : forall n, find_pos n (oi_free (sp_info q)) = find_pos n (oi_free (sp_info p))).
      { clear - Hnames. intros n. revert Hnames. generalize (oi_free (sp_info p)) (oi_free (sp_info q)). induction l as [|a l IH]; intros [|b m]; cbn [map]; try discriminate; [reflexivity|].
        intros [= H1 H2]. cbn [find_pos]. now rewrite H1, (IH m H2). }
      apply nth_error_ext'. exact Hlen. intros i Hi.
      destruct (nth_error (oi_free (sp_info p)) i) as [pi|] eqn:Hpi; [|apply nth_error_None in Hpi; unfold oi_dim in Hl; lia].
      destruct (Hex i pi Hpi) as (v & Hv). destruct (Hget i pi v Hpi Hv) as (_ & j & Hj & Hval).
      unfold find_index in Hj. rewrite Hfpq, (Hfp i pi Hpi) in Hj. injection Hj as <-. rewrite Hval, Hv. f_equal. apply Hr. eapply nth_error_In; eauto.
Qed.
(** Sharpness: a point without parameters writes an empty file, which import_values rejects;
    and import_values itself stores the value of the file unrounded, so a further write loses digits. *)
Theorem C15_empty_point_refuted : forall p q ee, oi_free (sp_info p) = [] -> exists w, import_values ee q (Some (write_point p)) = (q, Throw w).
Proof. intros p q ee H. unfold write_point. rewrite H. cbn. eauto. Qed.
Definition xpar : par_info := {| pi_name := "x"; pi_mean := fofZ 1; pi_std := fofZ 2; pi_min := fofZ 0; pi_max := fofZ 3 |}.
Definition ypar : par_info := {| pi_name := "yy.z"; pi_mean := flit 1 (-7); pi_std := fofZ 2; pi_min := fofZ 0; pi_max := fofZ 3 |}.
Theorem C15_imported_value_unrounded_refuted : exists q t v, match import_values true q (Some t) with
  | (q', Ok (1, 0)) => sp_values q' = [v] /\ rounded v <> v | _ => False end.
Proof.
  exists (sp_of_means (info_of_pars [xpar] true)), (chars "x 0.123456789 1 2" ++ [newline]), (flit 123456789 (-9)).
  assert (H : match import_values true (sp_of_means (info_of_pars [xpar] true)) (Some (chars "x 0.123456789 1 2" ++ [newline])) with
    | (q', Ok (1, 0)) => f64s_same (sp_values q') [flit 123456789 (-9)] && negb (f64_same (rounded (flit 123456789 (-9))) (flit 123456789 (-9))) | _ => false end = true) by (vm_compute; reflexivity).
  destruct (import_values _ _ _) as [q' [[[|[|n]] [|m]]|w|]]; try discriminate.
  apply andb_prop in H as [H1 H2]. split; [now apply f64s_same_eq|]. intros E. rewrite E in H2. clear H1 E q'.
  assert (H3 : negb (f64_same (flit 123456789 (-9)) (flit 123456789 (-9))) = false) by (vm_compute; reflexivity). congruence.
Qed.
Example C15_nonvacuous : writable (sp_of_means (info_of_pars [xpar; ypar] true)) /\
  write_point (sp_of_means (info_of_pars [xpar; ypar] true)) =
    chars "x   " ++ [tab] ++ chars "1" ++ [tab] ++ chars "1" ++ [tab] ++ chars "2" ++ [tab; newline] ++
    chars "yy.z" ++ [tab] ++ chars "1e-07" ++ [tab] ++ chars "1e-07" ++ [tab] ++ chars "2" ++ [tab; newline].
Proof.
  split; [|vm_compute; reflexivity].
  split; [reflexivity|]. split; [discriminate|]. split; [|split].
  - cbn. constructor; [intros [H|[]]; discriminate|]. constructor; [intros []|constructor].
  - intros p [<-|[<-|[]]]; (split; [split; [discriminate|reflexivity]|split; vm_compute; reflexivity]).
  - intros v Hv. cbn [sp_of_means sp_values] in Hv. unfold round_values in Hv. rewrite in_map_iff in Hv. destruct Hv as (x & <- & _). apply rounded_finite.
Qed.

(** ** C16 *)

(** The calls that change a static_par_set. *)
Inductive ps_op : Type :=
| PsLoad (file : option text)
| PsMerge (file : option text) (overwrite : bool)
| PsAdd (p : par_info).
Definition ps_exec (m : par_set) (op : ps_op) : par_set :=
  match op with
  | PsLoad f => fst (ps_load m f)
  | PsMerge f ow => fst (ps_merge m f ow)
  | PsAdd p => fst (ps_add m p)
  end.
(** The records of a file, in order (none when the file cannot be opened). *)
Definition recs_of (file : option text) : list rec := match file with Some t => map fst (fst (file_records t)) | None => [] end.
(** The writes an operation attempts: name, value, "may overwrite". *)
Definition attempts (op : ps_op) : list (string * f64 * bool) :=
  match op with
  | PsLoad f => map (fun r => (r_name r, r_value r, true)) (recs_of f)
  | PsMerge f ow => map (fun r => (r_name r, r_value r, ow)) (recs_of f)
  | PsAdd p => [(pi_name p, pi_mean p, true)]
  end.
Definition names_of (l : list (string * f64 * bool)) : list string := map (fun w => fst (fst w)) l.
(** The [k]-th attempted write is allowed: it may overwrite, or nothing was written to its name before. *)
Definition allowed (l : list (string * f64 * bool)) (k : nat) (n : string) (v : f64) : Prop :=
  exists ow, nth_error l k = Some (n, v, ow) /\ (ow = true \/ ~ In n (names_of (firstn k l))).

Definition ps_write (m : par_set) (w : string * f64 * bool) : par_set :=
  let '(n, v, ow) := w in if ow || match fm_get n m with Some _ => false | None => true end then fm_set n v m else m.
Lemma ps_exec_writes m op : ps_exec m op = fold_left ps_write (attempts op) m.
Proof.
  destruct op as [[t|]|[t|] ow|p]; cbn [ps_exec attempts recs_of ps_load ps_merge fst map fold_left]; try reflexivity.
  - unfold ps_load_records. set (l := map fst (fst (file_records t))). clearbody l. revert m. induction l as [|r l IH]; intros m; cbn [map fold_left]; [reflexivity|]. now rewrite IH.
  - set (l := map fst (fst (file_records t))). clearbody l.
    assert (H : forall k, fst (fold_left (ps_merge_record ow) l (m, k)) = fold_left ps_write (map (fun r => (r_name r, r_value r, ow)) l) m).
    { revert m. induction l as [|r l IH]; intros m k; cbn [map fold_left]; [reflexivity|]. unfold ps_merge_record at 2. cbn [ps_write].
      destruct (ow || _); apply IH. }
    specialize (H 0). destruct (fold_left _ _ _). exact H.
Qed.
Lemma ps_writes_spec l n :
  (forall v, ps_try_get (fold_left ps_write l []) n = Some v <->
     exists k, allowed l k n v /\ forall k' v', k < k' -> ~ allowed l k' n v') /\
  (ps_try_get (fold_left ps_write l []) n = None <-> ~ In n (names_of l)).
Proof.
  induction l as [|[[n0 v0] ow] l IH] using rev_ind.
  - cbn. split; [|tauto]. intros v. split; [discriminate|]. intros (k & (o & H & _) & _). destruct k; discriminate.
  - rewrite fold_left_app. cbn [fold_left]. set (m := fold_left ps_write l []) in *. destruct IH as [IH1 IH2].
    assert (Hold : forall k v, k < length l -> (allowed (l ++ [(n0, v0, ow)]) k n v <-> allowed l k n v)).
    { intros k v Hk. unfold allowed. rewrite nth_error_app1 by exact Hk. rewrite firstn_app. replace (k - length l) with 0 by lia. cbn [firstn]. rewrite app_nil_r. reflexivity. }
    assert (Hlen : forall k v, allowed l k n v -> k < length l).
    { intros k v (o & H & _). apply nth_error_Some. congruence. }
    assert (Hnew : forall v, allowed (l ++ [(n0, v0, ow)]) (length l) n v <-> n = n0 /\ v = v0 /\ (ow = true \/ ~ In n (names_of l))).
    { intros v. unfold allowed. rewrite nth_error_app2, Nat.sub_diag by lia. cbn [nth_error]. rewrite firstn_app, Nat.sub_diag, firstn_all. cbn [firstn]. rewrite app_nil_r.
      split; [intros (o & [= <- <- <-] & H); auto|]. intros (-> & -> & H). exists ow. auto. }
    assert (Hbig : forall k v, length l < k -> ~ allowed (l ++ [(n0, v0, ow)]) k n v).
    { intros k v Hk (o & H & _). assert (k < length (l ++ [(n0, v0, ow)])) by (apply nth_error_Some; congruence). rewrite app_length in *. cbn in *. lia. }
    assert (Hnames : In n (names_of (l ++ [(n0, v0, ow)])) <-> In n (names_of l) \/ n = n0).
    { unfold names_of. rewrite map_app, in_app_iff. cbn. intuition. }
    unfold ps_try_get in *. cbn [ps_write].
    assert (Hskip : ~ (n = n0 /\ (ow = true \/ ~ In n (names_of l))) ->
       forall v, (exists k, allowed (l ++ [(n0, v0, ow)]) k n v /\ forall k' v', k < k' -> ~ allowed (l ++ [(n0, v0, ow)]) k' n v') <->
                 (exists k, allowed l k n v /\ forall k' v', k < k' -> ~ allowed l k' n v')).
    { intros Hno v. split.
      - intros (k & Hk & Hlast). assert (k < length l).
        { destruct (Nat.lt_trichotomy k (length l)) as [H|[->|H]]; [exact H| |exfalso; eapply Hbig; eauto]. apply Hnew in Hk. exfalso. apply Hno. tauto. }
        exists k. split; [now apply Hold|]. intros k' v' Hk' Ha. apply (Hlast k' v' Hk'). apply Hold; eauto.
      - intros (k & Hk & Hlast). exists k. split; [apply Hold; eauto|]. intros k' v' Hk' Ha.
        destruct (Nat.lt_trichotomy k' (length l)) as [H|[->|H]]; [|apply Hnew in Ha; apply Hno; tauto|eapply Hbig; eauto].
        apply (Hlast k' v' Hk'). now apply Hold. }
    destruct (ow || match fm_get n0 m with Some _ => false | None => true end) eqn:Eow.
    + destruct (String.eqb_spec n0 n) as [->|Hne].
      * rewrite fm_get_set_eq. split; [|rewrite Hnames; split; [discriminate|tauto]].
        assert (Hal : ow = true \/ ~ In n (names_of l)).
        { apply orb_prop in Eow as [->|E]; [now left|right]. apply IH2. now destruct (fm_get n m). }
        intros v. split.
        -- intros [= <-]. exists (length l). split; [now apply Hnew|]. intros k' v' Hk'. now apply Hbig.
        -- intros (k & Hk & Hlast). destruct (Nat.lt_trichotomy k (length l)) as [H|[->|H]]; [|apply Hnew in Hk; destruct Hk as (_ & -> & _); reflexivity|exfalso; eapply Hbig; eauto].
           exfalso. apply (Hlast (length l) v0 H). now apply Hnew.
      * rewrite fm_get_set_neq by exact Hne. rewrite Hnames, IH2. split; [|split; [intros H [H'|H']; [tauto|congruence]|tauto]].
        intros v. rewrite IH1. symmetry. apply Hskip. intros [H _]. congruence.
    + apply orb_false_iff in Eow as [-> E]. rewrite Hnames, IH2.
      assert (Hin0 : In n0 (names_of l) \/ n <> n0).
      { destruct (String.eqb_spec n n0) as [->|H]; [left|now right]. destruct (in_dec string_dec n0 (names_of l)) as [H|H]; [exact H|]. apply IH2 in H. rewrite H in E. discriminate. }
      split.
      * intros v. rewrite IH1. symmetry. apply Hskip. intros [-> [H|H]]; [discriminate|]. destruct Hin0; tauto.
      * split; [|tauto]. intros H [H'|H']; [tauto|]. subst. destruct Hin0; tauto.
Qed.

(** After any history of calls on an initially empty set: try_get(name) is the value of the last allowed write. *)
Theorem C16_last_allowed_write : forall (h : list ps_op) n,
  let m := fold_left ps_exec h [] in let l := concat (map attempts h) in
  (forall v, ps_try_get m n = Some v <-> exists k, allowed l k n v /\ forall k' v', k < k' -> ~ allowed l k' n v') /\
  (ps_try_get m n = None <-> ~ In n (names_of l)).
Proof.
  intros h n m l. assert (m = fold_left ps_write l []) as ->.
  { unfold m, l. clear. assert (H : forall m0, fold_left ps_exec h m0 = fold_left ps_write (concat (map attempts h)) m0); [|apply H].
    induction h as [|op h IH]; intros m0; cbn [map concat fold_left]; [reflexivity|]. now rewrite fold_left_app, <- ps_exec_writes. }
  apply ps_writes_spec.
Qed.

(** The return values: load returns the number of distinct names ever written, merge the number of records it stored:
    with overwrite all of them, without those whose name was new. *)
Definition new_records (m : par_set) (l : list rec) : list nat :=
  filter (fun k => match nth_error l k with
                   | Some r => if in_dec string_dec (r_name r) (keys m ++ map r_name (firstn k l)) then false else true
                   | None => false end) (seq 0 (length l)).
Theorem C16_return_values : forall m t,
  snd (ps_load m None) = Throw "Could not open file" /\ fst (ps_load m None) = m /\
  (forall h, m = fold_left ps_exec h [] -> exists m', ps_load m (Some t) = (m', Ok (length (keys m'))) /\ NoDup (keys m') /\
     forall n, In n (keys m') <-> In n (keys m) \/ In n (map r_name (recs_of (Some t)))) /\
  (exists m', ps_merge m (Some t) true = (m', Ok (length (recs_of (Some t))))) /\
  (exists m', ps_merge m (Some t) false = (m', Ok (length (new_records m (recs_of (Some t)))))) /\
  (forall n v, ps_try_get m n = Some v ->
      ps_try_get (fst (ps_merge m (Some t) false)) n = Some v).
Proof.
  intros m t. split; [reflexivity|]. split; [reflexivity|]. split; [|split; [|split]]; unfold ps_load, ps_merge; cbn [recs_of];
    set (l := map fst (fst (file_records t))); clearbody l.
  - intros h Hh. assert (Hnd : fm_sorted m).
    { rewrite Hh. clear. assert (H : forall m0, fm_sorted m0 -> fm_sorted (fold_left ps_exec h m0)); [|apply H; constructor].
      induction h as [|op h IH]; intros m0 H0; cbn [fold_left]; [exact H0|]. apply IH. rewrite ps_exec_writes.
      revert m0 H0. induction (attempts op) as [|[[n v] ow] l IHl]; intros m0 H0; cbn [fold_left]; [exact H0|]. apply IHl. cbn [ps_write].
      destruct (ow || _); [now apply fm_set_sorted|exact H0]. }
    clear Hh h. eexists. split; [unfold ps_dim, keys; rewrite map_length; reflexivity|].
    assert (H : forall m, fm_sorted m -> NoDup (keys (ps_load_records m l)) /\ forall n, In n (keys (ps_load_records m l)) <-> In n (keys m) \/ In n (map r_name l)).
    { clear. unfold ps_load_records. induction l as [|r l IH]; intros m Hnd; cbn [fold_left map In]; [split; [now apply fm_sorted_NoDup|tauto]|].
      destruct (IH (fm_set (r_name r) (r_value r) m)) as [I1 I2]; [now apply fm_set_sorted|]. split; [exact I1|].
      intros n. rewrite I2, keys_fm_set. intuition. }
    now apply H.
  - assert (H : forall m k, snd (fold_left (ps_merge_record true) l (m, k)) = k + length l).
    { clear. induction l as [|r l IH]; intros m k; cbn [fold_left length]; [cbn; lia|]. cbn [ps_merge_record orb]. rewrite IH. lia. }
    specialize (H m 0). destruct (fold_left _ _ _) as [m' n]. cbn [snd] in H. subst n. eauto.
  - assert (H : forall m k, snd (fold_left (ps_merge_record false) l (m, k)) = k + length (new_records m l)).
    { clear. induction l as [|r l IH]; intros m k; [cbn; lia|]. cbn [fold_left ps_merge_record orb].
      assert (Hnew : length (new_records m (r :: l)) = (if in_dec string_dec (r_name r) (keys m) then 0 else 1) +
         length (filter (fun k => match nth_error l k with Some r' => if in_dec string_dec (r_name r') (r_name r :: keys m ++ map r_name (firstn k l)) then false else true | None => false end) (seq 0 (length l)))).
      { unfold new_records. cbn [length seq filter nth_error firstn map]. rewrite app_nil_r. rewrite <- seq_shift.
        assert (Hs : forall q, length (filter (fun k => match nth_error (r :: l) k with Some r' => if in_dec string_dec (r_name r') (keys m ++ map r_name (firstn k (r :: l))) then false else true | None => false end) (map S q)) =
           length (filter (fun k => match nth_error l k with Some r' => if in_dec string_dec (r_name r') (r_name r :: keys m ++ map r_name (firstn k l)) then false else true | None => false end) q)).
        { induction q as [|i q IHq]; [reflexivity|]. cbn [map filter nth_error firstn]. destruct (nth_error l i) as [r'|]; [|exact IHq].
          destruct (in_dec string_dec (r_name r') (keys m ++ r_name r :: map r_name (firstn i l))) as [H1|H1], (in_dec string_dec (r_name r') (r_name r :: keys m ++ map r_name (firstn i l))) as [H2|H2];
            cbn [length]; rewrite ?IHq; try reflexivity; exfalso; rewrite in_app_iff in *; cbn [In] in *; rewrite in_app_iff in *; tauto. }
        destruct (in_dec string_dec (r_name r) (keys m)); cbn [length]; rewrite Hs; reflexivity. }
      rewrite Hnew. destruct (fm_get (r_name r) m) as [x|] eqn:Eg.
      - destruct (in_dec string_dec (r_name r) (keys m)) as [Hin|Hin]; [|exfalso; apply Hin; apply fm_get_In; congruence].
        rewrite IH. f_equal. cbn [Nat.add]. unfold new_records. f_equal. apply filter_ext. intros i. destruct (nth_error l i) as [r'|]; [|reflexivity].
        destruct (in_dec string_dec (r_name r') (keys m ++ _)) as [H1|H1], (in_dec string_dec (r_name r') (r_name r :: _)) as [H2|H2]; try reflexivity; exfalso; cbn [In] in *; rewrite in_app_iff in *.
        + tauto.
        + destruct H2 as [E|[E|E]]; [rewrite <- E in *; tauto|tauto|tauto].
      - destruct (in_dec string_dec (r_name r) (keys m)) as [Hin|Hin]; [exfalso; apply fm_get_In in Hin; congruence|].
        rewrite IH. cbn [Nat.add]. rewrite Nat.add_succ_r. f_equal. f_equal. unfold new_records. f_equal. apply filter_ext. intros i. destruct (nth_error l i) as [r'|]; [|reflexivity].
        destruct (in_dec string_dec (r_name r') (keys _ ++ _)) as [H1|H1], (in_dec string_dec (r_name r') (r_name r :: _)) as [H2|H2]; try reflexivity; exfalso; cbn [In] in *; rewrite in_app_iff in *; rewrite keys_fm_set in *.
        + destruct H1 as [[E|E]|E]; [symmetry in E|..]; tauto.
        + destruct H2 as [E|[E|E]]; [symmetry in E|..]; tauto. }
    specialize (H m 0). destruct (fold_left _ _ _) as [m' n]. cbn [snd] in H. subst n. eauto.
  - intros n v. unfold ps_try_get.
    assert (H : forall m k, fm_get n m = Some v -> fm_get n (fst (fold_left (ps_merge_record false) l (m, k))) = Some v).
    { clear. induction l as [|r l IH]; intros m k Hm; cbn [fold_left]; [exact Hm|]. unfold ps_merge_record at 2. cbn [orb].
      destruct (fm_get (r_name r) m) as [x|] eqn:Eg; [now apply IH|]. apply IH. rewrite fm_get_set_neq; [exact Hm|]. intros <-. congruence. }
    intros Hm. specialize (H m 0 Hm). destruct (fold_left _ _ _) as [m' k']. exact H.
Qed.
Example C16_nonvacuous :
  let f := Some (chars "a 1 0 0 b 2 0 0 a 3 0 0") in
  map (fun k => match ps_try_get (fold_left ps_exec [PsLoad f; PsMerge (Some (chars "a 7 0 0 c 8 0 0")) false] []) k with Some v => Z.of_nat 1 + fkey v | None => 0 end)%Z ["a"; "b"; "c"; "d"]%string
  = [1 + fkey (fofZ 3); 1 + fkey (fofZ 2); 1 + fkey (fofZ 8); 0]%Z /\
  snd (ps_merge (fst (ps_load [] f)) (Some (chars "a 7 0 0 c 8 0 0 c 9 0 0")) false) = Ok 1.
Proof. cbv zeta. split; vm_compute; reflexivity. Qed.
