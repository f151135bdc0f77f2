(** * Facts about the file names and the calls of file_reporter. *)
From Coq Require Import ZArith Bool Lia.
From Flocq Require Import Core BinarySingleNaN.
From Verif Require Import Prelude Flt FltFacts Flt32 Round8 ShowNum ShowNumFacts ParInfo ObjInfo SearchPoint Num MathTools Optimizer OptimizerFacts FileReporter.

(** ** File names *)
Lemma digits_show z : (0 <= z)%Z -> exists ds, nonneg_digits z = show_digits ds /\ Forall digit ds /\ dval 0 ds = z /\ ds <> [].
Proof.
  intros Hz. unfold nonneg_digits. destruct (Z.eqb_spec z 0) as [->|Hn].
  - exists [0%Z]. split; [reflexivity|]. split; [repeat constructor; unfold digit; lia|]. split; [reflexivity|discriminate].
  - assert (Hf : (0 <= z < 10 ^ Z.of_nat (S (Z.to_nat (Z.log2 z))))%Z).
    { split; [lia|]. pose proof (Z.log2_spec z ltac:(lia)) as [_ H]. pose proof (Z.log2_nonneg z).
      replace (Z.of_nat (S (Z.to_nat (Z.log2 z)))) with (Z.succ (Z.log2 z)) by lia.
      eapply Z.lt_le_trans; [exact H|]. apply Z.pow_le_mono_l. lia. }
    destruct (zdigits_spec _ z Hf) as (D1 & D2 & _ & D4). exists (zdigits (S (Z.to_nat (Z.log2 z))) z).
    split; [reflexivity|]. split; [exact D2|]. split; [exact D1|]. apply D4. lia.
Qed.
Lemma dval_zeros_app n ds : dval 0 (repeat 0%Z n ++ ds) = dval 0 ds.
Proof. unfold dval. rewrite fold_left_app. replace (fold_left _ (repeat 0%Z n) 0%Z) with 0%Z; [reflexivity|]. induction n as [|n IH]; [reflexivity|]. cbn. exact IH. Qed.
Lemma pad_show w z : (0 <= z)%Z -> exists ds, pad_int w z = show_digits ds /\ Forall digit ds /\ dval 0 ds = z /\ ds <> [].
Proof.
  intros Hz. unfold pad_int. destruct (Z.ltb_spec z 0); [lia|]. destruct (digits_show z Hz) as (ds & E1 & E2 & E3 & E4).
  cbv zeta. rewrite E1. set (k := w - length (show_digits ds)). exists (repeat 0%Z k ++ ds). split; [|split; [|split]].
  - unfold show_digits. rewrite map_app. f_equal. clearbody k. induction k as [|k IH]; [reflexivity|]. cbn. now rewrite IH.
  - apply Forall_app. split; [|exact E2]. apply Forall_forall. intros x Hx. apply repeat_spec in Hx. subst x. unfold digit. lia.
  - now rewrite dval_zeros_app.
  - intros HN. apply app_eq_nil in HN as [_ HN]. congruence.
Qed.
Lemma pad_inj w a b s t : (0 <= a)%Z -> (0 <= b)%Z -> head_is is_digit s = false -> head_is is_digit t = false ->
  pad_int w a ++ s = pad_int w b ++ t -> a = b /\ s = t.
Proof.
  intros Ha Hb Hs Ht Heq. destruct (pad_show w a Ha) as (da & A1 & A2 & A3 & _), (pad_show w b Hb) as (db & B1 & B2 & B3 & _).
  rewrite A1, B1 in Heq. pose proof (read_digits_spec da A2 0 0 s Hs) as R1. pose proof (read_digits_spec db B2 0 0 t Ht) as R2.
  rewrite Heq, R2, A3, B3 in R1. split; congruence.
Qed.
Definition small_step (c : core) : Prop := (Z.of_nat (c_steps c) < 2147483648)%Z.
Lemma int_of_small n : (Z.of_nat n < 2147483648)%Z -> int_of_size n = Z.of_nat n.
Proof. intros H. unfold int_of_size. rewrite Z.mod_small by lia. destruct (Z.ltb_spec (Z.of_nat n) 2147483648); lia. Qed.
Lemma in_root_inj F a b : in_root F a = in_root F b -> a = b.
Proof. unfold in_root. intros H. apply app_inv_head in H. congruence. Qed.
Lemma par_path_step F c d : small_step c -> small_step d -> par_path F c = par_path F d -> c_steps c = c_steps d.
Proof.
  intros Hc Hd H. apply in_root_inj in H. unfold par_name in H. rewrite !int_of_small in H by assumption.
  apply pad_inj in H as [H _]; [lia|lia|lia|reflexivity|reflexivity].
Qed.
Lemma par_path_same F c d : c_steps c = c_steps d -> c_cur_fits c = c_cur_fits d -> c_cur_fit c = c_cur_fit d -> par_path F c = par_path F d.
Proof. intros H1 H2 H3. unfold par_path, par_name. now rewrite H1, H2, H3. Qed.
Lemma pad_head w z : (0 <= z)%Z -> exists c t, pad_int w z = c :: t /\ is_digit c = true.
Proof.
  intros Hz. destruct (pad_show w z Hz) as (ds & E1 & E2 & _ & E4). rewrite E1. destruct E2 as [|d ds Hd _]; [congruence|].
  exists (digit_char d), (show_digits ds). split; [reflexivity|]. now apply digit_char_ok.
Qed.
Lemma par_not_history F c : small_step c -> par_path F c <> history_path F.
Proof.
  intros Hc H. apply in_root_inj in H. unfold par_name in H. rewrite int_of_small in H by assumption.
  destruct (pad_head 4 (Z.of_nat (c_steps c)) ltac:(lia)) as (x & t & E1 & E2). rewrite E1 in H. cbn [app chars list_ascii_of_string] in H.
  assert (x = "h"%char) by (clear - H; congruence). subst x. discriminate.
Qed.
Lemma fixed3_head v : (exists c t, fixed3 v = c :: t /\ (is_digit c = true \/ c = "-"%char)) \/ fixed3 v = chars "nan" \/ fixed3 v = chars "inf".
Proof.
  assert (P : forall (s : bool) z, (0 <= z)%Z -> exists c t, (if s then ["-"%char] else []) ++ nonneg_digits (z / 1000) ++ "."%char :: pad_int 3 (z mod 1000) = c :: t /\ (is_digit c = true \/ c = "-"%char)).
  { intros s z Hz. destruct s; [eexists _, _; split; [reflexivity|now right]|].
    destruct (digits_show (z / 1000) ltac:(apply Z.div_pos; lia)) as (ds & E1 & E2 & _ & E4). rewrite E1. destruct E2 as [|d ds Hd _]; [congruence|].
    eexists _, _. split; [reflexivity|]. left. now apply digit_char_ok. }
  destruct v as [s|s| |s m e B]; cbn [fixed3].
  - left. apply P. lia.
  - destruct s; [left; eexists _, _; split; [reflexivity|now right]|now right; right].
  - now right; left.
  - left. apply P. unfold thousandths. destruct (Z.leb_spec 0 e); [pose proof (Z.pow_nonneg 2 e); nia|].
    assert (0 <= Z.pos m * 1000 / 2 ^ (- e))%Z by (apply Z.div_pos; [lia|apply Z.pow_pos_nonneg; lia]).
    destruct (Z.ltb _ _); [lia|]. destruct (Z.ltb _ _); [lia|]. destruct (Z.even _); lia.
Qed.
Lemma par_not_individual F c d i : small_step c -> small_step d -> par_path F c <> individual_path F d i.
Proof.
  intros Hc Hd H. apply in_root_inj in H. unfold par_name in H. rewrite !int_of_small in H by assumption.
  apply pad_inj in H as [_ H]; [|lia|lia|reflexivity|reflexivity]. cbn [chars list_ascii_of_string app] in H.
  set (u := fclamped (fc_median F (c_cur_fits c)) (fopp replim) replim) in *. set (u' := fixed3 (fclamped (c_cur_fit c) (fopp replim) replim)) in *. clearbody u u'.
  destruct (fixed3_head u) as [(x & t & E1 & E2)|[E1|E1]]; rewrite E1 in H; cbn in H.
  - assert (x = "i"%char) by congruence. subst x. destruct E2; discriminate.
  - congruence.
  - congruence.
Qed.
Lemma individual_not_history F c i : small_step c -> individual_path F c i <> history_path F.
Proof.
  intros Hc H. apply in_root_inj in H. rewrite int_of_small in H by assumption.
  destruct (pad_head 4 (Z.of_nat (c_steps c)) ltac:(lia)) as (x & t & E1 & E2). rewrite E1 in H. cbn in H.
  assert (x = "h"%char) by congruence. subst x. discriminate.
Qed.

(** ** File systems *)
Lemma path_eqb_refl p : path_eqb p p = true.
Proof. unfold path_eqb. destruct (list_eq_dec _ p p); congruence. Qed.
Lemma path_eqb_neq p q : p <> q -> path_eqb p q = false.
Proof. unfold path_eqb. destruct (list_eq_dec _ p q); congruence. Qed.
Lemma write_same fs p t : write fs p t p = Some t.
Proof. unfold write. now rewrite path_eqb_refl. Qed.
Lemma write_other fs p t q : q <> p -> write fs p t q = fs q.
Proof. intros H. unfold write. now rewrite path_eqb_neq. Qed.
Lemma append_same fs p t : append fs p t p = Some (match fs p with Some s => s | None => [] end ++ t).
Proof. unfold append. now rewrite path_eqb_refl. Qed.
Lemma append_other fs p t q : q <> p -> append fs p t q = fs q.
Proof. intros H. unfold append. now rewrite path_eqb_neq. Qed.
Lemma erase_same fs p : erase fs p p = None.
Proof. unfold erase. now rewrite path_eqb_refl. Qed.
Lemma erase_other fs p q : q <> p -> erase fs p q = fs q.
Proof. intros H. unfold erase. now rewrite path_eqb_neq. Qed.

(** ** Sequences of calls *)
Lemma report_all_snoc F E infos l x : forall st k, report_all F E st k (l ++ [x]) infos = report_any F E (report_all F E st k l infos) (k + length l) x infos.
Proof.
  induction l as [|y l IH]; intros st k; cbn [app report_all length]; [now rewrite Nat.add_0_r|]. rewrite IH. f_equal. lia.
Qed.
Lemma reported_snoc F E fs infos l x : reported F E fs infos (l ++ [x]) = report_any F E (reported F E fs infos l) (length l) x infos.
Proof. unfold reported. now rewrite report_all_snoc. Qed.

(** What the calls an optimizer makes have in common, in any order the base class can make them. *)
Definition is_new_best (x : event * core) : bool := match fst x with ENewBest _ _ => true | _ => false end.
Definition is_post_eval (x : event * core) : bool := match fst x with EPostEval _ _ _ => true | _ => false end.
Definition is_post_step (x : event * core) : bool := match fst x with EPostStep => true | _ => false end.
Definition new_best_views (l : list (event * core)) : list core := map snd (filter is_new_best l).
Definition next_ok (E : env) (past : list (event * core)) (x : event * core) : Prop :=
  let v := snd x in
  match fst x with
  | EStart => c_steps v = 0 /\ (forall y, In y past -> is_post_step y = false)
  | ENewBest p f => f = c_cur_fit v /\ p = map rounded (c_cur_pt v) /\ length (c_cur_pt v) = oi_dim (e_info E) /\
      (forall y, In y past -> is_new_best y = true \/ is_post_eval y = true -> c_steps (snd y) < c_steps v)
  | EPostEval _ _ _ => length (c_cur_pt v) = oi_dim (e_info E) /\
      (forall y, In y past -> is_post_eval y = true -> c_steps (snd y) < c_steps v) /\
      (forall y, In y past -> is_new_best y = true -> c_steps (snd y) <= c_steps v /\
         (c_steps (snd y) = c_steps v -> c_cur_fits (snd y) = c_cur_fits v /\ c_cur_fit (snd y) = c_cur_fit v /\ c_cur_pt (snd y) = c_cur_pt v))
  | EPostStep => c_steps v = length (filter is_post_step past) /\ (exists w, In (EStart, w) past)
  | _ => True
  end.
Definition orderly (E : env) (l : list (event * core)) : Prop := forall a x b, l = a ++ x :: b -> next_ok E a x.
Lemma orderly_prefix E a b : orderly E (a ++ b) -> orderly E a.
Proof. intros H p x q ->. apply (H p x (q ++ b)). now rewrite <- app_assoc. Qed.
Lemma orderly_snoc E l x : orderly E (l ++ [x]) <-> orderly E l /\ next_ok E l x.
Proof.
  split.
  - intros H. split; [now apply orderly_prefix in H|]. now apply (H l x []).
  - intros [H1 H2] a y b Heq. destruct b as [|z b _] using rev_ind.
    + apply app_inj_tail in Heq as [-> ->]. exact H2.
    + replace (a ++ y :: b ++ [z]) with ((a ++ y :: b) ++ [z]) in Heq by now rewrite <- app_assoc.
      apply app_inj_tail in Heq as [-> _]. now apply (H1 a y b).
Qed.
