(** * C81: the settings of a pool. *)
From Coq Require Import ZArith Bool.
From Verif Require Import Prelude Flt ShowNum PropNode ParInfo ObjInfo Num Mes Optimizer OptimizerFacts Pool PoolFacts PoolOptions Properties_Optimizer4 Properties_ES3 Properties_Pool Properties_Pool2 Properties_Pool4.

(** [v] is what the entry [key] of the node says, or [default] if there is no such entry (the first one counts). *)
Definition said {A} (rd : text -> option A) (pn : prop_node) (key : string) (default v : A) : Prop :=
  match find (fun kc => String.eqb (fst kc) key) (pn_children pn) with
  | Some (_, c) => rd (chars (pn_str c)) = Some v
  | None => v = default
  end.
(** The entry is there but its value is not a value of the type. *)
Definition garbled {A} (rd : text -> option A) (pn : prop_node) (key : string) : Prop :=
  exists c, find (fun kc => String.eqb (fst kc) key) (pn_children pn) = Some (key, c) /\ rd (chars (pn_str c)) = None.
Definition size_keys : list string := ["prediction_window"; "prediction_start"; "prediction_look_ahead"; "active_optimizations"; "concurrent_optimizations"]%string.
Definition flag_key : string := "use_predicted_fitness_stop_condition".
Lemma child_find k pn : pn_child k pn = match find (fun kc => String.eqb (fst kc) k) (pn_children pn) with Some (_, c) => Some c | None => None end.
Proof. unfold pn_child. induction (pn_children pn) as [|(k', c) t IH]; [reflexivity|]. cbn [assoc_first find fst]. destruct (String.eqb k' k); [reflexivity|exact IH]. Qed.
Lemma get_said {A} (rd : text -> option A) pn key d v : pn_get_as rd key d pn = Ok v <-> said rd pn key d v.
Proof.
  unfold pn_get_as, said. rewrite child_find. destruct (find _ _) as [(k, c)|]; [|split; congruence].
  destruct (rd (chars (pn_str c))); split; congruence.
Qed.
Lemma get_garbled {A} (rd : text -> option A) pn key d : (exists w, pn_get_as rd key d pn = Throw w) <-> garbled rd pn key.
Proof.
  unfold pn_get_as, garbled. rewrite child_find. destruct (find _ _) as [(k, c)|] eqn:E; [|split; [intros (w & H); discriminate|intros (c & H & _); discriminate]].
  assert (k = key) as -> by (apply find_some in E as (_ & E); cbn in E; now apply String.eqb_eq). destruct (rd (chars (pn_str c))) eqn:R.
  - split; [intros (w & H); discriminate|]. intros (c' & [= ->] & H). congruence.
  - split; [intros _; eauto|]. intros _. eauto.
Qed.
Lemma get_cases {A} (rd : text -> option A) pn key d : (exists v, pn_get_as rd key d pn = Ok v) \/ (exists w, pn_get_as rd key d pn = Throw w).
Proof. unfold pn_get_as. destruct (pn_child key pn) as [c|]; [|eauto]. destruct (rd _); eauto. Qed.

Section settings.
Variables (rd_size : text -> option nat) (rd_bool : text -> option bool) (E : env) (sort : sorter).
Notation settings := (pool_settings rd_size rd_bool E sort).

(** A pool can be constructed with the settings [PE] if and only if each is what its entry says, or its default:
    a window of 100 steps, prediction after as many steps as the window and for as many steps ahead, no
    predicted fitness condition, 6 active members and 3 at a time. *)
Theorem C81_settings : forall pn PE,
  pool_settings rd_size rd_bool E sort pn = Ok PE <->
  (pe_env PE = E /\ pe_sort PE = sort /\
   said rd_size pn "prediction_window" 100 (pe_window PE) /\
   said rd_size pn "prediction_start" (pe_window PE) (pe_start PE) /\
   said rd_size pn "prediction_look_ahead" (pe_window PE) (pe_look PE) /\
   said rd_bool pn "use_predicted_fitness_stop_condition" false (pe_use_predicted PE) /\
   said rd_size pn "active_optimizations" 6 (pe_active PE) /\
   said rd_size pn "concurrent_optimizations" 3 (pe_concurrent PE)).
Proof.
  intros pn PE. rewrite <- !get_said. unfold pool_settings. split.
  - intros H. apply obind_Ok in H as (w & Hw & H). apply obind_Ok in H as (s & Hs & H). apply obind_Ok in H as (l & Hl & H). apply obind_Ok in H as (u & Hu & H).
    apply obind_Ok in H as (a & Ha & H). apply obind_Ok in H as (c & Hc & H). assert (PE = {| pe_env := E; pe_window := w; pe_start := s; pe_look := l; pe_use_predicted := u; pe_active := a; pe_concurrent := c; pe_sort := sort |}) as -> by congruence.
    cbn [pe_env pe_window pe_start pe_look pe_use_predicted pe_active pe_concurrent pe_sort]. auto 10.
  - destruct PE as [e w s l u a c so]. cbn [pe_env pe_window pe_start pe_look pe_use_predicted pe_active pe_concurrent pe_sort]. intros (<- & <- & H1 & H2 & H3 & H4 & H5 & H6). rewrite H1. cbn [obind]. rewrite H2. cbn [obind]. rewrite H3. cbn [obind]. rewrite H4. cbn [obind]. rewrite H5. cbn [obind]. rewrite H6. reflexivity.
Qed.
(** It cannot if and only if some entry is there whose value cannot be converted. *)
Theorem C81_garbled : forall pn,
  ((exists w, pool_settings rd_size rd_bool E sort pn = Throw w) <-> (Exists (garbled rd_size pn) size_keys \/ garbled rd_bool pn flag_key)) /\
  pool_settings rd_size rd_bool E sort pn <> Undef.
Proof.
  intros pn.
  assert (K : (exists w, settings pn = Throw w) <-> (garbled rd_size pn "prediction_window" \/ garbled rd_size pn "prediction_start" \/ garbled rd_size pn "prediction_look_ahead" \/
     garbled rd_bool pn flag_key \/ garbled rd_size pn "active_optimizations" \/ garbled rd_size pn "concurrent_optimizations")).
  { assert (NO : forall (A : Type) (rd : text -> option A) key d v, pn_get_as rd key d pn = Ok v -> ~ garbled rd pn key).
    { intros A rd key d v Hv HG. apply (get_garbled rd pn key d) in HG as (w & HG). congruence. }
    assert (YES : forall (A : Type) (rd : text -> option A) key d w, pn_get_as rd key d pn = Throw w -> garbled rd pn key).
    { intros A rd key d w Hw. apply (get_garbled rd pn key d). eauto. }
    unfold pool_settings.
    destruct (get_cases rd_size pn "prediction_window" 100) as [(w & Hw)|(x & Hx)]; [|rewrite Hx; cbn [obind]; split; [intros _; left; eauto|intros _; eauto]]. pose proof (NO _ _ _ _ _ Hw) as N1. rewrite Hw. cbn [obind].
    destruct (get_cases rd_size pn "prediction_start" w) as [(s & Hs)|(x & Hx)]; [|rewrite Hx; cbn [obind]; split; [intros _; right; left; eauto|intros _; eauto]]. pose proof (NO _ _ _ _ _ Hs) as N2. rewrite Hs. cbn [obind].
    destruct (get_cases rd_size pn "prediction_look_ahead" w) as [(l & Hl)|(x & Hx)]; [|rewrite Hx; cbn [obind]; split; [intros _; right; right; left; eauto|intros _; eauto]]. pose proof (NO _ _ _ _ _ Hl) as N3. rewrite Hl. cbn [obind].
    destruct (get_cases rd_bool pn flag_key false) as [(u & Hu)|(x & Hx)]; unfold flag_key in *; [|rewrite Hx; cbn [obind]; split; [intros _; right; right; right; left; eauto|intros _; eauto]]. pose proof (NO _ _ _ _ _ Hu) as N4. rewrite Hu. cbn [obind].
    destruct (get_cases rd_size pn "active_optimizations" 6) as [(a & Ha)|(x & Hx)]; [|rewrite Hx; cbn [obind]; split; [intros _; right; right; right; right; left; eauto|intros _; eauto]]. pose proof (NO _ _ _ _ _ Ha) as N5. rewrite Ha. cbn [obind].
    destruct (get_cases rd_size pn "concurrent_optimizations" 3) as [(c & Hc)|(x & Hx)]; [|rewrite Hx; cbn [obind]; split; [intros _; right; right; right; right; right; eauto|intros _; eauto]]. pose proof (NO _ _ _ _ _ Hc) as N6. rewrite Hc. cbn [obind].
    split; [intros (w0 & HH); discriminate HH|]. tauto. }
  split.
  - rewrite K. unfold size_keys. rewrite !Exists_cons, Exists_nil. tauto.
  - unfold pool_settings.
    destruct (get_cases rd_size pn "prediction_window" 100) as [(w & ->)|(x & ->)]; [|discriminate]. cbn [obind].
    destruct (get_cases rd_size pn "prediction_start" w) as [(s & ->)|(x & ->)]; [|discriminate]. cbn [obind].
    destruct (get_cases rd_size pn "prediction_look_ahead" w) as [(l & ->)|(x & ->)]; [|discriminate]. cbn [obind].
    destruct (get_cases rd_bool pn "use_predicted_fitness_stop_condition" false) as [(u & ->)|(x & ->)]; [|discriminate]. cbn [obind].
    destruct (get_cases rd_size pn "active_optimizations" 6) as [(a & ->)|(x & ->)]; [|discriminate]. cbn [obind].
    destruct (get_cases rd_size pn "concurrent_optimizations" 3) as [(c & ->)|(x & ->)]; discriminate.
Qed.
(** Nothing else in the node matters: not other entries, not the order of the entries, not a second entry with the same key. *)
Theorem C81_only_these_entries : forall pn qn,
  (forall key, In key (flag_key :: size_keys) -> option_map (fun kc => pn_str (snd kc)) (find (fun kc => String.eqb (fst kc) key) (pn_children pn)) =
     option_map (fun kc => pn_str (snd kc)) (find (fun kc => String.eqb (fst kc) key) (pn_children qn))) ->
  pool_settings rd_size rd_bool E sort pn = pool_settings rd_size rd_bool E sort qn.
Proof.
  intros pn qn H.
  assert (G : forall (A : Type) (rd : text -> option A) key d, In key (flag_key :: size_keys) -> pn_get_as rd key d pn = pn_get_as rd key d qn).
  { intros A rd key d Hk. specialize (H key Hk). unfold pn_get_as. rewrite !child_find. destruct (find _ (pn_children pn)) as [(k1, c1)|]; destruct (find _ (pn_children qn)) as [(k2, c2)|]; cbn [option_map snd] in H; try discriminate H; [|reflexivity].
    assert (pn_str c1 = pn_str c2) as -> by congruence. reflexivity. }
  unfold pool_settings, flag_key, size_keys in *. rewrite (G _ rd_size "prediction_window"%string 100) by (cbn; auto).
  destruct (pn_get_as rd_size "prediction_window" 100 qn) as [w|e|]; cbn [obind]; try reflexivity.
  rewrite (G _ rd_size "prediction_start"%string w), (G _ rd_size "prediction_look_ahead"%string w), (G _ rd_bool "use_predicted_fitness_stop_condition"%string false),
    (G _ rd_size "active_optimizations"%string 6), (G _ rd_size "concurrent_optimizations"%string 3) by (cbn; auto 10). reflexivity.
Qed.
(** What the settings do when a member joins: its fitness tracking window becomes the prediction window, and it gets
    a predicted fitness condition - with the pool's worst fitness, look-ahead and start - exactly if that is asked for. Nothing else of it changes. *)
Theorem C81_joining : forall pn PE P m, pool_settings rd_size rd_bool E sort pn = Ok PE ->
  exists m', po_members (push_back PE P m) = po_members P ++ [m'] /\ m_env m' = m_env m /\
    o_stopped (m_opt m') = o_stopped (m_opt m) /\ o_trace (m_opt m') = o_trace (m_opt m) /\
    o_scs (m_opt m') = o_scs (m_opt m) ++ (if pe_use_predicted PE then [ScPredicted fzero (worst_fitness (e_info E)) (pe_look PE) (pe_start PE)] else []) /\
    c_steps (o_core (m_opt m')) = c_steps (o_core (m_opt m)) /\ c_best_fit (o_core (m_opt m')) = c_best_fit (o_core (m_opt m)) /\ c_hist (o_core (m_opt m')) = c_hist (o_core (m_opt m)) /\
    c_cap (o_core (m_opt m')) = (if pe_use_predicted PE then Nat.max (pe_window PE) (pe_start PE) else pe_window PE).
Proof.
  intros pn PE P m H. apply C81_settings in H as (HE & _). unfold push_back. cbn [with_members po_members]. eexists. split; [reflexivity|].
  rewrite HE. destruct (pe_use_predicted PE).
  - cbn [m_with m_window m_opt m_env add_stop_condition o_core o_stopped o_trace o_scs with_core with_cap c_cap min_window].
    split; [reflexivity|]. split; [reflexivity|]. split; [reflexivity|]. split; [reflexivity|].
    destruct (Nat.ltb_spec (pe_window PE) (pe_start PE)); cbn [with_cap c_steps c_best_fit c_hist c_cap];
      (split; [reflexivity|]; split; [reflexivity|]; split; [reflexivity|]; lia).
  - rewrite app_nil_r. split; [reflexivity|]. split; [reflexivity|]. split; [reflexivity|]. split; [reflexivity|]. split; [reflexivity|]. split; [reflexivity|]. split; reflexivity.
Qed.
(** A step of a pool starts no more members than the entry concurrent_optimizations says, 3 without it. *)
Theorem C81_concurrency : forall pn PE ms conds ops L0 P inp P' r n, pool_settings rd_size rd_bool E sort pn = Ok PE -> said rd_size pn "concurrent_optimizations" 3 n ->
  sorts sort -> Forall (joinable PE) ms -> oi_dim (e_info E) <> 0 ->
  history PE (pool_of PE ms conds) ops L0 P -> pool_step PE P inp = (P', r) -> r <> Undef -> length (launches PE P) <= n.
Proof.
  intros pn PE ms conds ops L0 P inp P' r n H Hn HS HJ HD HH HP HR. apply C81_settings in H as (<- & <- & _ & _ & _ & _ & _ & Hc).
  destruct (C50_step_shape PE ms conds ops L0 P inp P' r HS HJ HD HH HP HR) as (_ & HL & _).
  assert (n = pe_concurrent PE) as ->; [|exact HL]. unfold said in *. destruct (find _ _) as [(k, c)|]; congruence.
Qed.
End settings.

(** Numbers in decimal, 0 and 1 for the flag. *)
Definition dec_size (t : text) : option nat := match read_digits 0 0 t with (v, Zpos _, []) => Some (Z.to_nat v) | _ => None end.
Definition bit (t : text) : option bool := match t with ["1"%char] => Some true | ["0"%char] => Some false | _ => None end.
Example C81_nonvacuous : let node l := PN "" (map (fun kv => (fst kv, PN (snd kv) [])) l) in
  (exists PE, pool_settings dec_size bit (ex_env []) isort (node [("prediction_window", "20"); ("colour", "blue"); ("prediction_start", "5"); ("prediction_window", "7"); ("use_predicted_fitness_stop_condition", "1")]%string) = Ok PE /\
    pe_window PE = 20 /\ pe_start PE = 5 /\ pe_look PE = 20 /\ pe_use_predicted PE = true /\ pe_active PE = 6 /\ pe_concurrent PE = 3) /\
  (exists w, pool_settings dec_size bit (ex_env []) isort (node [("active_optimizations", "many")]%string) = Throw w).
Proof.
  cbv zeta. split.
  - eexists. split; [reflexivity|]. split; [reflexivity|]. split; [reflexivity|]. split; [reflexivity|]. split; [reflexivity|]. split; reflexivity.
  - eexists. reflexivity.
Qed.
