(** * C71: what a name means - scopes, dots, aliases and options; and more of C03 (nodes with children) and C11 (files) *)
From Coq Require Import ZArith Bool Lia Ascii String List.
From Verif Require Import Prelude Flt FltFacts Round8 ShowNum ShowNumFacts PropNode ParInfo ParInfoFacts FlatMap
  ObjInfo ObjInfoFacts ParIO ParIOFacts SearchPoint Properties_ParInfo Properties_Params.
From Verif Require Properties_SearchPoint.
Import ListNotations.

(** ** C03: a parameter given by children *)
(** The child [key] of the node holds the number [v]. *)
Definition holds (pn : prop_node) (key : string) (v : f64) : Prop :=
  exists c u, pn_child key pn = Some c /\ numeral_ok u /\ chars (pn_str c) = show_numeral u /\ v = numeral_val u.
Definition holds_first (pn : prop_node) (key other : string) (v : f64) : Prop :=
  holds pn key v \/ (pn_child key pn = None /\ holds pn other v).
Definition holds_or (pn : prop_node) (key : string) (default v : f64) : Prop :=
  holds pn key v \/ (pn_child key pn = None /\ v = default).
(** The child [key] is there and its text is not a number. *)
Definition unreadable (pn : prop_node) (key : string) : Prop :=
  exists c, pn_child key pn = Some c /\ read_number (chars (pn_str c)) = None.

Lemma read_numeral_all u : numeral_ok u -> read_number (show_numeral u) = Some (numeral_val u, []).
Proof. intros H. rewrite <- (app_nil_r (show_numeral u)). apply read_numeral; [exact H|reflexivity]. Qed.
Lemma pn_num_ok c u : numeral_ok u -> chars (pn_str c) = show_numeral u -> pn_num read_number c = Ok (numeral_val u).
Proof. intros H E. unfold pn_num. rewrite E, read_numeral_all by exact H. reflexivity. Qed.
Lemma holds_first_get pn k1 k2 v : holds_first pn k1 k2 v -> pn_get_any2 read_number k1 k2 pn = Ok v.
Proof.
  unfold pn_get_any2. intros [(c & u & H1 & H2 & H3 & ->)|(H0 & c & u & H1 & H2 & H3 & ->)].
  - rewrite H1. now apply pn_num_ok.
  - rewrite H0, H1. now apply pn_num_ok.
Qed.
Lemma holds_or_get pn k d v : holds_or pn k d v -> pn_get_def read_number k d pn = Ok v.
Proof.
  unfold pn_get_def. intros [(c & u & H1 & H2 & H3 & ->)|(H0 & ->)].
  - rewrite H1. now apply pn_num_ok.
  - now rewrite H0.
Qed.
Lemma holds_size pn k v : holds pn k v -> Nat.ltb 0 (pn_size pn) = true.
Proof. intros (c & u & H & _). unfold pn_child, pn_size in *. destruct (pn_children pn); [discriminate|reflexivity]. Qed.
Lemma holds_first_size pn k k2 v : holds_first pn k k2 v -> Nat.ltb 0 (pn_size pn) = true.
Proof. intros [H|(_ & H)]; exact (holds_size _ _ _ H). Qed.
Lemma holds_nan pn k v : holds pn k v -> fisnan v = false.
Proof. intros (c & u & _ & _ & _ & ->). apply val_not_nan. Qed.
Lemma holds_first_nan pn k k2 v : holds_first pn k k2 v -> fisnan v = false.
Proof. intros [H|(_ & H)]; exact (holds_nan _ _ _ H). Qed.

(** mean (or init_mean) and std (or init_std) have to be there, min and max are optional; a positive std is taken as
    it is; 0 means a constant, unless both bounds differ from those of the options: then it is a quarter of the range. *)
Theorem C03_node_with_children : forall name opt pn m s lo hi,
  holds_first pn "mean" "init_mean" m -> holds_first pn "std" "init_std" s ->
  holds_or pn "min" (opt_lower opt) lo -> holds_or pn "max" (opt_upper opt) hi ->
  flt lo hi = true -> fle lo m = true -> fle m hi = true ->
  (flt fzero s = true -> par_info_of_node name pn opt = Ok (mk name m s lo hi)) /\
  (feq s fzero = true -> feq lo (opt_lower opt) = true \/ feq hi (opt_upper opt) = true -> par_info_of_node name pn opt = Ok (mk name m s lo hi)) /\
  (feq s fzero = true -> feq lo (opt_lower opt) = false -> feq hi (opt_upper opt) = false ->
     par_info_of_node name pn opt = make_par_info name m (fdiv (fsub hi lo) (fofZ 4)) lo hi) /\
  (flt s fzero = true -> exists w, par_info_of_node name pn opt = Throw w).
Proof.
  intros n opt pn m s lo hi Hm Hs Hlo Hhi V V1 V2.
  assert (E : par_info_of_node n pn opt = finish_par_info n opt false m s lo hi).
  { unfold par_info_of_node, parse_par_info. rewrite (holds_first_size _ _ _ _ Hm), (holds_first_get _ _ _ _ Hm). cbn [obind].
    rewrite (holds_first_get _ _ _ _ Hs). cbn [obind]. rewrite (holds_or_get _ _ _ _ Hlo). cbn [obind]. rewrite (holds_or_get _ _ _ _ Hhi). reflexivity. }
  rewrite E. unfold finish_par_info.
  assert (flt m lo = false) as -> by (clear - V1; fsolve).
  assert (fgt m hi = false) as -> by (clear - V2; fsolve).
  assert (fge lo hi = false) as -> by (clear - V; fsolve).
  pose proof (holds_first_nan _ _ _ _ Hm) as HN. rewrite HN. cbn [orb andb error_if obind]. unfold fne.
  split; [|split; [|split]].
  - intros Vs. rewrite (flt_feq_false _ _ Vs).
    assert (X : make_par_info n m s lo hi = Ok (mk n m s lo hi)).
    { apply make_par_info_Ok. split; [reflexivity|]. apply is_valid_iff. cbn [mk pi_std pi_mean pi_min pi_max]. split; [clear - Vs; fsolve|]. auto. }
    destruct (_ && _); rewrite ?HN; exact X.
  - intros Vs B. assert (negb (feq lo (opt_lower opt)) && negb (feq hi (opt_upper opt)) = false) as ->.
    { destruct B as [-> | ->]; [reflexivity|apply andb_false_r]. }
    apply make_par_info_Ok. split; [reflexivity|]. apply is_valid_iff. cbn [mk pi_std pi_mean pi_min pi_max]. split; [clear - Vs; fsolve|]. auto.
  - intros Vs B1 B2. rewrite B1, B2, Vs, HN. reflexivity.
  - intros Vs. assert (feq s fzero = false) as -> by (clear - Vs; fsolve).
    assert (X : exists w, make_par_info n m s lo hi = Throw w).
    { apply (proj1 (proj2 (C01_par_info_admits_exactly_valid n m s lo hi))). intros (H & _). clear - Vs H. fsolve. }
    destruct (_ && _); rewrite ?HN; exact X.
Qed.
(** A missing or unreadable mean or std, and unreadable bounds, are errors. *)
Theorem C03_node_errors : forall name opt pn, pn_children pn <> [] ->
  (pn_child "mean" pn = None /\ pn_child "init_mean" pn = None) \/ (pn_child "std" pn = None /\ pn_child "init_std" pn = None) \/
  unreadable pn "mean" \/ unreadable pn "std" \/ unreadable pn "min" \/ unreadable pn "max" ->
  exists w, par_info_of_node name pn opt = Throw w.
Proof.
  intros n opt pn Hc H. unfold par_info_of_node, parse_par_info.
  assert (Nat.ltb 0 (pn_size pn) = true) as -> by (unfold pn_size; destruct (pn_children pn); [congruence|reflexivity]).
  assert (A : forall k1 k2, (pn_child k1 pn = None /\ pn_child k2 pn = None) \/ unreadable pn k1 -> exists w, pn_get_any2 read_number k1 k2 pn = Throw w).
  { intros k1 k2 [[H1 H2]|(c & H1 & H2)]; unfold pn_get_any2, pn_num; [rewrite H1, H2; eauto|rewrite H1, H2; eauto]. }
  assert (A' : forall k1 k2, pn_get_any2 read_number k1 k2 pn <> Undef).
  { intros k1 k2. unfold pn_get_any2, pn_num. destruct (pn_child k1 pn); [destruct (read_number _) as [[]|]; discriminate|].
    destruct (pn_child k2 pn); [destruct (read_number _) as [[]|]; discriminate|discriminate]. }
  assert (D : forall k d, unreadable pn k -> exists w, pn_get_def read_number k d pn = Throw w).
  { intros k d (c & H1 & H2). unfold pn_get_def, pn_num. rewrite H1, H2. eauto. }
  assert (D' : forall k d, pn_get_def read_number k d pn <> Undef).
  { intros k d. unfold pn_get_def, pn_num. destruct (pn_child k pn); [destruct (read_number _) as [[]|]; discriminate|discriminate]. }
  specialize (A "mean"%string "init_mean"%string) as Am. specialize (A "std"%string "init_std"%string) as As.
  specialize (D "min"%string (opt_lower opt)) as Dl. specialize (D "max"%string (opt_upper opt)) as Dh.
  specialize (A' "mean"%string "init_mean"%string) as Am'. specialize (A' "std"%string "init_std"%string) as As'.
  specialize (D' "min"%string (opt_lower opt)) as Dl'. specialize (D' "max"%string (opt_upper opt)) as Dh'. clear A A' D D'.
  destruct (pn_get_any2 read_number "mean" "init_mean" pn) as [m|w|]; cbn [obind]; [|eauto|congruence].
  destruct (pn_get_any2 read_number "std" "init_std" pn) as [s|w|]; cbn [obind]; [|eauto|congruence].
  destruct (pn_get_def read_number "min" (opt_lower opt) pn) as [lo|w|]; cbn [obind]; [|eauto|congruence].
  destruct (pn_get_def read_number "max" (opt_upper opt) pn) as [hi|w|]; cbn [obind]; [|eauto|congruence].
  exfalso. destruct H as [H|[H|[H|[H|[H|H]]]]].
  - destruct Am as (w & E); [tauto|discriminate].
  - destruct As as (w & E); [tauto|discriminate].
  - destruct Am as (w & E); [tauto|discriminate].
  - destruct As as (w & E); [tauto|discriminate].
  - destruct Dl as (w & E); [tauto|discriminate].
  - destruct Dh as (w & E); [tauto|discriminate].
Qed.

Example C03_node_nonvacuous :
  let pn := PN "" [("mean", PN "1.5" []); ("init_std", PN "0.25" []); ("max", PN "4" [])]%string in
  (exists m s hi, holds_first pn "mean" "init_mean" m /\ holds_first pn "std" "init_std" s /\ holds_or pn "min" (opt_lower default_options) (opt_lower default_options) /\
    holds_or pn "max" (opt_upper default_options) hi /\ flt (opt_lower default_options) hi = true /\ fle (opt_lower default_options) m = true /\ fle m hi = true /\ flt fzero s = true) /\
  unreadable (PN "" [("mean", PN "abc" [])]%string) "mean".
Proof.
  cbv zeta. split.
  - exists (numeral_val {| nm_neg := false; nm_int := [1%Z]; nm_frac := [5%Z]; nm_dot := true; nm_exp := None |}),
      (numeral_val {| nm_neg := false; nm_int := [0%Z]; nm_frac := [2%Z; 5%Z]; nm_dot := true; nm_exp := None |}),
      (numeral_val {| nm_neg := false; nm_int := [4%Z]; nm_frac := []; nm_dot := false; nm_exp := None |}).
    assert (OK : forall u, nm_int u <> [] -> Forall digit (nm_int u) -> Forall digit (nm_frac u) -> (nm_dot u = false -> nm_frac u = []) -> nm_exp u = None -> numeral_ok u).
    { intros u H1 H2 H3 H4 H5. unfold numeral_ok. rewrite H5. split; [exact H2|]. split; [exact H3|]. split; [|auto]. destruct (nm_int u); [congruence|discriminate]. }
    assert (D : forall d, (0 <= d <= 9)%Z -> digit d) by (intros d Hd; exact Hd).
    split; [left; eexists; eexists; split; [reflexivity|split; [|split; [|reflexivity]]]; [apply OK; cbn; [discriminate|repeat constructor; apply D; lia|repeat constructor; apply D; lia|discriminate|reflexivity]|reflexivity]|].
    split; [right; split; [reflexivity|]; eexists; eexists; split; [reflexivity|split; [|split; [|reflexivity]]]; [apply OK; cbn; [discriminate|repeat constructor; apply D; lia|repeat constructor; apply D; lia|discriminate|reflexivity]|reflexivity]|].
    split; [right; split; reflexivity|].
    split; [left; eexists; eexists; split; [reflexivity|split; [|split; [|reflexivity]]]; [apply OK; cbn; [discriminate|repeat constructor; apply D; lia|constructor|reflexivity|reflexivity]|reflexivity]|].
    split; [vm_compute; reflexivity|]. split; [vm_compute; reflexivity|]. split; [vm_compute; reflexivity|]. vm_compute; reflexivity.
  - eexists. split; [reflexivity|]. vm_compute. reflexivity.
Qed.

(** ** C71 *)
(** [c] inside scoped_prefix scopes (with add_dot), the first one outermost. *)
Definition within (ps : list string) (c : cmd) : cmd := fold_right (fun p c => CScope p true [c]) c ps.
(** A scope name to which a dot is added. *)
Definition plain (p : string) : Prop := p <> ""%string /\ forall q, p <> (q ++ ".")%string.
(** A node whose value starts with a letter (A-Z, a-z) refers to another parameter (C09). *)
Definition reference (pn : prop_node) : Prop :=
  exists c rest, pn_str pn = String c rest /\ (65 <= nat_of_ascii c <= 90 \/ 97 <= nat_of_ascii c <= 122)%nat.
(** The commands that ask for one parameter, and the same with the name replaced. *)
Inductive asks_for : (string -> cmd) -> Prop :=
| asks_get m s lo hi : asks_for (fun n => CGet n m s lo hi)
| asks_node pn : ~ reference pn -> asks_for (fun n => CGetNode n pn)
| asks_try pn key d : (forall c, pn_child key pn = Some c -> ~ reference c) -> asks_for (fun n => CTryGet n pn key d).

Lemma reference_alpha pn : starts_alpha (pn_str pn) = true <-> reference pn.
Proof.
  unfold reference, starts_alpha, is_alpha. destruct (pn_str pn) as [|c r]; [split; [discriminate|intros (c & r & H & _); discriminate]|]. cbv zeta.
  rewrite orb_true_iff, !andb_true_iff, !Nat.leb_le. split; [intros H; exists c, r; split; [reflexivity|lia]|intros (c' & r' & [= <- <-] & H); lia].
Qed.
Lemma not_reference pn : ~ reference pn -> starts_alpha (pn_str pn) = false.
Proof. intros H. apply not_true_is_false. now rewrite reference_alpha. Qed.
Lemma string_app_nil (s : string) : (s ++ "")%string = s.
Proof. induction s as [|c s IH]; cbn; [reflexivity|]. now rewrite IH. Qed.
Lemma string_app_assoc (a b c : string) : ((a ++ b) ++ c)%string = (a ++ (b ++ c))%string.
Proof. induction a as [|x a IH]; cbn; [reflexivity|]. now rewrite IH. Qed.
Lemma prefix_str_snoc l p : prefix_str (l ++ [p]) = (prefix_str l ++ p)%string.
Proof.
  unfold prefix_str. induction l as [|x l IH]; cbn [app String.concat]; [now destruct p|].
  destruct l as [|y l]; cbn [app] in *; [reflexivity|].
  change (String.concat "" (x :: (y :: l) ++ [p])) with (x ++ "" ++ String.concat "" ((y :: l) ++ [p]))%string. rewrite IH. cbn [app].
  change (String.concat "" (x :: y :: l)) with (x ++ "" ++ String.concat "" (y :: l))%string. cbn [append]. now rewrite string_app_assoc.
Qed.
Lemma chars_app a b : chars (a ++ b) = chars a ++ chars b.
Proof. unfold chars. induction a as [|c a IH]; cbn; [reflexivity|]. now rewrite IH. Qed.
Lemma ends_dot_spec p : ends_dot p = true <-> exists q, p = (q ++ ".")%string.
Proof.
  unfold ends_dot. fold (chars p). split.
  - destruct (rev (chars p)) as [|c r] eqn:E; [discriminate|]. intros H. apply Ascii.eqb_eq in H as ->. exists (string_of_list_ascii (rev r)).
    rewrite <- (string_of_list_ascii_of_string p). fold (chars p). rewrite <- (rev_involutive (chars p)), E. cbn [rev].
    generalize (rev r). induction l as [|c l IH]; cbn; [reflexivity|]. now rewrite IH.
  - intros (q & ->). rewrite chars_app, rev_app_distr. reflexivity.
Qed.
Lemma plain_segment p : plain p -> scope_segment p true = (p ++ ".")%string.
Proof.
  intros [H1 H2]. unfold scope_segment. apply String.eqb_neq in H1. rewrite H1. cbn [andb negb].
  destruct (ends_dot p) eqn:E; [|reflexivity]. apply ends_dot_spec in E as (q & E). destruct (H2 q E).
Qed.
Section any_store.
Context {S : Type} (X : xo_env) (T : store S).
(** Only the string of the prefix matters for a command that is not a reference. *)
Lemma asks_prefix f : asks_for f -> forall io segs n a b,
  (prefix_str (io_prefix io) ++ a)%string = (prefix_str segs ++ b)%string -> a = n ->
  exec X T (f b) (with_prefix io segs) = (with_prefix (fst (exec X T (f n) io)) segs, snd (exec X T (f n) io)).
Proof.
  intros Hf io segs n a b E ->. destruct Hf as [m s lo hi|pn HA|pn key d HA]; cbn [exec]; [|apply not_reference in HA|].
  - unfold io_get. cbn [io_prefix with_prefix io_st]. rewrite <- E. destruct (st_try_get T (io_st io) _); [reflexivity|].
    destruct (make_par_info _ _ _ _ _) as [p|w|]; [|reflexivity|reflexivity]. destruct (st_add T (io_st io) p) as [s' r]. reflexivity.
  - assert (N : node_name X (with_prefix io segs) b = node_name X io n).
    { unfold node_name, io_options. cbn [io_opts with_prefix]. destruct (hd_error (io_opts io)); [|reflexivity]. unfold full_name_of. cbn [io_prefix with_prefix]. now rewrite <- E. }
    rewrite N. unfold io_get_node, io_options. cbn [io_opts with_prefix io_st]. destruct (hd_error (io_opts io)) as [opt|]; [|reflexivity].
    assert (F : full_name_of X (with_prefix io segs) opt b = full_name_of X io opt n) by (unfold full_name_of; cbn [io_prefix with_prefix]; now rewrite <- E).
    fold (with_prefix io segs). rewrite F, HA. cbn [io_st with_prefix]. destruct (st_try_get T (io_st io) _); [reflexivity|]. destruct (xo_needs_quotes X _); [reflexivity|].
    destruct (par_info_of_node _ pn opt) as [p|w|]; [|reflexivity|reflexivity]. destruct (is_constant p); [reflexivity|]. destruct (st_add T (io_st io) p) as [s' r]. reflexivity.
  - unfold io_try_get_node. destruct (pn_child key pn) as [c|] eqn:Ec; [|reflexivity]. specialize (HA c eq_refl). apply not_reference in HA.
    assert (N : node_name X (with_prefix io segs) b = node_name X io n).
    { unfold node_name, io_options. cbn [io_opts with_prefix]. destruct (hd_error (io_opts io)); [|reflexivity]. unfold full_name_of. cbn [io_prefix with_prefix]. now rewrite <- E. }
    rewrite N. unfold io_get_node, io_options. cbn [io_opts with_prefix io_st]. destruct (hd_error (io_opts io)) as [opt|]; [|reflexivity].
    assert (F : full_name_of X (with_prefix io segs) opt b = full_name_of X io opt n) by (unfold full_name_of; cbn [io_prefix with_prefix]; now rewrite <- E).
    fold (with_prefix io segs). rewrite F, HA. cbn [io_st with_prefix]. destruct (st_try_get T (io_st io) _); [reflexivity|]. destruct (xo_needs_quotes X _); [reflexivity|].
    destruct (par_info_of_node _ c opt) as [p|w|]; [|reflexivity|reflexivity]. destruct (is_constant p); [reflexivity|]. destruct (st_add T (io_st io) p) as [s' r]. reflexivity.
Qed.
Lemma exec_one c io : exec_list X T [c] io = (fst (exec X T c io), match snd (exec X T c io) with Ok v => Ok (v ++ []) | Throw w => Throw w | Undef => Undef end).
Proof. cbn [exec_list]. destruct (exec X T c io) as [io1 [v|w|]]; reflexivity. Qed.
Lemma asks_frame f : asks_for f -> forall io n, io_prefix (fst (exec X T (f n) io)) = io_prefix io.
Proof.
  intros Hf io n. pose proof (exec_frame X T (f n) io) as [_ H]. apply H. destruct Hf; reflexivity.
Qed.
Lemma scope_ask f p dot : asks_for f -> forall io n,
  exec X T (CScope p dot [f n]) io = exec X T (f (scope_segment p dot ++ n)%string) io.
Proof.
  intros Hf io n. rewrite exec_scope, exec_one.
  rewrite (asks_prefix f Hf io (io_prefix io ++ [scope_segment p dot]) (scope_segment p dot ++ n)%string (scope_segment p dot ++ n)%string n) by (first [reflexivity|rewrite prefix_str_snoc, string_app_assoc; reflexivity]).
  cbn [fst snd]. pose proof (asks_frame f Hf io (scope_segment p dot ++ n)%string) as HP.
  destruct (exec X T (f (scope_segment p dot ++ n)%string) io) as [io1 r]. cbn [fst snd io_prefix with_prefix] in *. rewrite removelast_last, <- HP. destruct io1 as [pr os st], r as [v|w|]; cbn; rewrite ?app_nil_r; reflexivity.
Qed.
End any_store.

(** In scopes p1, ..., pk the parameter n is the parameter p1.p2.....pk.n. *)
Theorem C71_scoped_name : forall S X (T : store S) ps f n io, asks_for f -> Forall plain ps ->
  exec X T (within ps (f n)) io = exec X T (f (String.concat "." (ps ++ [n]))) io.
Proof.
  intros S X T ps f n io Hf HP. revert io. induction HP as [|p ps Hp _ IH]; intros io; [reflexivity|].
  change (within (p :: ps) (f n)) with (CScope p true [within ps (f n)]).
  assert (E : exec X T (CScope p true [within ps (f n)]) io = exec X T (CScope p true [f (String.concat "." (ps ++ [n]))]) io).
  { rewrite !exec_scope, !exec_one, IH. reflexivity. }
  rewrite E, (scope_ask X T f p true Hf), (plain_segment p Hp). f_equal. f_equal. cbn [app String.concat].
  destruct (ps ++ [n]) as [|q t] eqn:Eq; [destruct ps; discriminate|]. change (String.concat "." (p :: q :: t)) with (p ++ "." ++ String.concat "." (q :: t))%string. apply string_app_assoc.
Qed.
(** The dot is only added where it is missing, and only on request. *)
Theorem C71_dots : forall S X (T : store S) f p n body io, asks_for f ->
  (plain p -> exec X T (CScope (p ++ ".") true body) io = exec X T (CScope p true body) io) /\
  exec X T (CScope p false [f n]) io = exec X T (f (p ++ n)%string) io /\
  exec X T (CScope "" true [f n]) io = exec X T (f n) io.
Proof.
  intros S X T f p n body io Hf. split; [|split].
  - intros Hp. rewrite !exec_scope. rewrite (plain_segment p Hp).
    assert (scope_segment (p ++ ".") true = (p ++ ".")%string) as ->; [|reflexivity].
    unfold scope_segment. rewrite (proj2 (ends_dot_spec (p ++ ".")) (ex_intro _ p eq_refl)). cbn [negb]. now rewrite andb_false_r.
  - rewrite (scope_ask X T f p false Hf). reflexivity.
  - rewrite (scope_ask X T f "" true Hf). reflexivity.
Qed.

(** *** Options *)
Definition opt_within (pns : list prop_node) (c : cmd) : cmd := fold_right (fun pn c => COptScope pn [c]) c pns.
(** The value of an option inside scoped_par_options scopes, read from the outermost one inwards: a node that has the
    option overrides what was set outside, a node that has not keeps it. *)
Inductive setting (key : string) : f64 -> list prop_node -> f64 -> Prop :=
| set_end v : setting key v [] v
| set_here v pn inner w u : holds pn key w -> setting key w inner u -> setting key v (pn :: inner) u
| set_outer v pn inner u : pn_child key pn = None -> setting key v inner u -> setting key v (pn :: inner) u.
Definition no_aliases (pn : prop_node) : Prop := pn_child "parameter_aliases" pn = None.
(** The table of aliases a node defines: one entry per key, sorted by key, the last child with that key. *)
Definition alias_table (children : list (string * prop_node)) (al : list (string * string)) : Prop :=
  fm_sorted al /\
  forall k, fm_get k al = match find (fun kc => String.eqb (fst kc) k) (rev children) with Some (_, c) => Some (pn_str c) | None => None end.
(** Replacing the aliases one after the other. *)
Inductive renamed (replace : string -> string -> string -> string) : list (string * string) -> string -> string -> Prop :=
| renamed_end s : renamed replace [] s s
| renamed_next k v al s r : renamed replace al (replace s k v) r -> renamed replace ((k, v) :: al) s r.

Lemma read_opt_ok pn k old v : holds_or pn k old v -> read_opt pn k old = Ok v.
Proof. intros H. apply holds_or_get in H. exact H. Qed.
Lemma setting_cons k d pn inner v : setting k d (pn :: inner) v -> exists w, holds_or pn k d w /\ setting k w inner v.
Proof. intros H. inversion H; subst; [exists w; split; [left; assumption|assumption]|exists d; split; [right; auto|assumption]]. Qed.
Lemma scoped_options_ok pn o f off mi :
  holds_or pn "auto_std_factor" (auto_std_factor o) f -> holds_or pn "auto_std_offset" (auto_std_offset o) off -> holds_or pn "auto_std_minimum" (auto_std_minimum o) mi ->
  exists al, scoped_options pn o = ({| auto_std_factor := f; auto_std_offset := off; auto_std_minimum := mi; opt_lower := opt_lower o; opt_upper := opt_upper o; opt_aliases := al |}, Ok tt) /\
    al = match pn_child "parameter_aliases" pn with Some c => fold_left (fun m kc => fm_set (fst kc) (pn_str (snd kc)) m) (pn_children c) [] | None => opt_aliases o end.
Proof.
  intros H1 H2 H3. eexists. split; [|reflexivity]. unfold scoped_options. rewrite (read_opt_ok _ _ _ _ H1). cbn [with_factor auto_std_offset].
  rewrite (read_opt_ok _ _ _ _ H2). cbn [with_offset with_factor auto_std_minimum auto_std_offset]. rewrite (read_opt_ok _ _ _ _ H3).
  destruct (pn_child "parameter_aliases" pn); reflexivity.
Qed.
Lemma optscope_ok {S} X (T : store S) c pn io o o' os : io_opts io = o :: os -> scoped_options pn o = (o', Ok tt) ->
  exec X T (COptScope pn [c]) io = let r := exec X T c (with_opts io (o' :: o :: os)) in
    (with_opts (fst r) (tl (io_opts (fst r))), match snd r with Ok v => Ok (v ++ []) | Throw w => Throw w | Undef => Undef end).
Proof. intros Ho Hs. rewrite exec_optscope, Ho, Hs. cbv beta iota zeta. rewrite exec_one. reflexivity. Qed.
Lemma find_snoc k (l : list (string * prop_node)) x : find (fun kc => String.eqb (fst kc) k) (rev (l ++ [x])) = if String.eqb (fst x) k then Some x else find (fun kc => String.eqb (fst kc) k) (rev l).
Proof. rewrite rev_app_distr. reflexivity. Qed.
Lemma table_of_children l : alias_table l (fold_left (fun m kc => fm_set (fst kc) (pn_str (snd kc)) m) l []).
Proof.
  induction l as [|[k c] l [IH1 IH2]] using rev_ind; [split; [constructor|reflexivity]|]. rewrite fold_left_app. cbn [fold_left fst snd]. split; [apply fm_set_sorted; exact IH1|].
  intros k'. rewrite find_snoc. cbn [fst]. destruct (String.eqb_spec k k') as [->|Hn]; [apply fm_get_set_eq|]. rewrite fm_get_set_neq by exact Hn. apply IH2.
Qed.
Lemma fm_get_cons {A} k k' (v : A) m : fm_get k ((k', v) :: m) = if String.eqb k' k then Some v else fm_get k m.
Proof. reflexivity. Qed.
Lemma compare_lt_neq a b : String.compare a b = Lt -> a <> b.
Proof. intros H ->. rewrite string_compare_refl in H. discriminate. Qed.
Lemma fm_ext {A} (m : list (string * A)) : fm_sorted m -> forall m', fm_sorted m' -> (forall k, fm_get k m = fm_get k m') -> m = m'.
Proof.
  induction 1 as [|k v m Hk _ IH]; intros m' HS HE.
  - destruct HS as [|k v m' _ _]; [reflexivity|]. specialize (HE k). rewrite fm_get_cons, String.eqb_refl in HE. discriminate.
  - destruct HS as [|k' v' m' Hk' HS']; [specialize (HE k); rewrite fm_get_cons, String.eqb_refl in HE; discriminate|].
    assert (E : k = k').
    { destruct (String.eqb_spec k k') as [E|E]; [exact E|exfalso].
      assert (A1 : In k (keys m')). { apply fm_get_In. specialize (HE k). rewrite !fm_get_cons, String.eqb_refl in HE. destruct (String.eqb_spec k' k); [congruence|]. rewrite <- HE. discriminate. }
      assert (A2 : In k' (keys m)). { apply fm_get_In. specialize (HE k'). rewrite !fm_get_cons, String.eqb_refl in HE. destruct (String.eqb_spec k k'); [congruence|]. rewrite HE. discriminate. }
      pose proof (string_compare_trans _ _ _ (Hk _ A2) (Hk' _ A1)) as C. rewrite string_compare_refl in C. discriminate. }
    subst k'. assert (v = v') as ->. { specialize (HE k). rewrite !fm_get_cons, String.eqb_refl in HE. congruence. }
    f_equal. apply IH; [exact HS'|]. intros q. specialize (HE q). rewrite !fm_get_cons in HE. destruct (String.eqb_spec k q) as [Eq|]; [subst q|exact HE].
    assert (N : forall m0 : list (string * A), (forall k', In k' (keys m0) -> String.compare k k' = Lt) -> fm_get k m0 = None).
    { intros m0 H0. apply fm_get_None. intros HI. apply (compare_lt_neq k k (H0 k HI)). reflexivity. }
    rewrite (N m Hk), (N m' Hk'). reflexivity.
Qed.
Lemma renamed_fold X al s r : renamed (xo_replace_str X) al s r -> apply_aliases X al s = r.
Proof. unfold apply_aliases. induction 1 as [|k v al s r _ IH]; [reflexivity|exact IH]. Qed.

(** [~v] inside option scopes is the parameter with mean v and the standard deviation max (factor |v| + offset, minimum),
    each of the three numbers taken from the innermost scope that sets it. *)
Theorem C71_options : forall S X (T : store S) pns io o os name u f off mi,
  io_opts io = o :: os -> opt_aliases o = [] -> Forall no_aliases pns ->
  setting "auto_std_factor" (auto_std_factor o) pns f -> setting "auto_std_offset" (auto_std_offset o) pns off -> setting "auto_std_minimum" (auto_std_minimum o) pns mi ->
  numeral_ok u -> feq (numeral_val u) fzero = false -> flt (opt_lower o) (opt_upper o) = true ->
  let std := fmax2 (fadd (fmul f (fabs (numeral_val u))) off) mi in
  feq std fzero = false -> xo_needs_quotes X (prefix_str (io_prefix io) ++ name) = false ->
  exec X T (opt_within pns (CGetNode name (text_node ("~"%char :: show_numeral u)))) io = exec X T (CGet name (numeral_val u) std (opt_lower o) (opt_upper o)) io.
Proof.
  intros S X T pns io o os name u f off mi Ho Ha Hn Sf So Sm Hu Hz HB std Hs HQ. revert o os io f off mi Ho Ha Sf So Sm HB std Hs HQ.
  induction Hn as [|pn pns Hn _ IH]; intros o os io f off mi Ho Ha Sf So Sm HB std Hs HQ; cbn [opt_within fold_right].
  - inversion Sf; subst f. inversion So; subst off. inversion Sm; subst mi. cbn [exec]. unfold node_name, io_get_node, io_get, io_options. rewrite Ho. cbn [hd_error]. unfold full_name_of. rewrite Ha. unfold apply_aliases. cbn [fold_left].
    assert (L : starts_alpha (pn_str (text_node ("~"%char :: show_numeral u))) = false) by reflexivity. rewrite L, HQ, C03_tilde_only by assumption. fold std.
    destruct (st_try_get T (io_st io) _); [reflexivity|]. destruct (make_par_info _ _ _ _ _) as [p|w|] eqn:EP; [|reflexivity|reflexivity].
    apply make_par_info_Ok in EP as [-> _]. unfold is_constant. cbn [pi_std]. rewrite Hs. reflexivity.
  - apply setting_cons in Sf as (f' & F1 & F2), So as (off' & O1 & O2), Sm as (mi' & M1 & M2). destruct (scoped_options_ok pn o f' off' mi' F1 O1 M1) as (al & E & Eal).
    rewrite Hn in Eal. subst al. rewrite (optscope_ok X T _ pn io o _ os Ho E). cbv zeta. fold (opt_within pns (CGetNode name (text_node ("~"%char :: show_numeral u)))).
    rewrite (IH _ (o :: os) (with_opts io (_ :: o :: os)) f off mi) with (1 := eq_refl); [|exact Ha|exact F2|exact O2|exact M2|exact HB|exact Hs|exact HQ].
    cbn [opt_lower opt_upper exec]. fold std. unfold io_get. cbn [with_opts io_prefix io_st io_opts].
    destruct (st_try_get T (io_st io) _); [cbn; rewrite <- Ho; destruct io; reflexivity|].
    destruct (make_par_info _ _ _ _ _) as [p|w|]; [|cbn; rewrite <- Ho; destruct io; reflexivity|cbn; rewrite <- Ho; destruct io; reflexivity].
    destruct (st_add T (io_st io) p) as [s' [v|w|]]; cbn; rewrite <- Ho; destruct io; reflexivity.
Qed.

(** The name asked for in a scoped_par_options scope is prefix + name with the aliases replaced: those of the scope's own
    node if it has any, else those from outside. *)
Theorem C71_aliases : forall S X (T : store S) pn io o os al name r,
  io_opts io = o :: os ->
  (exists f off mi, holds_or pn "auto_std_factor" (auto_std_factor o) f /\ holds_or pn "auto_std_offset" (auto_std_offset o) off /\ holds_or pn "auto_std_minimum" (auto_std_minimum o) mi) ->
  (exists c, pn_child "parameter_aliases" pn = Some c /\ alias_table (pn_children c) al) \/ (no_aliases pn /\ al = opt_aliases o) ->
  renamed (xo_replace_str X) al (prefix_str (io_prefix io) ++ name) r ->
  (* the parameter r exists: its value *)
  (forall n v, st_try_get T (io_st io) r = Some v -> exec X T (COptScope pn [CGetNode name n]) io = (io, Ok [(Some r, v)])) /\
  (* it does not: a new parameter r *)
  (forall m s, st_try_get T (io_st io) r = None -> xo_needs_quotes X r = false -> numeral_ok m -> numeral_ok s ->
    flt (opt_lower o) (opt_upper o) = true -> flt fzero (numeral_val s) = true -> fle (opt_lower o) (numeral_val m) = true -> fle (numeral_val m) (opt_upper o) = true ->
    exec X T (COptScope pn [CGetNode name (text_node (show_numeral m ++ "~"%char :: show_numeral s))]) io =
      let '(st', res) := st_add T (io_st io) (mk r (numeral_val m) (numeral_val s) (opt_lower o) (opt_upper o)) in
      (with_st io st', match res with Ok v => Ok [(Some r, v)] | Throw w => Throw w | Undef => Undef end)).
Proof.
  intros S X T pn io o os al name r Ho (f & off & mi & F & O & M) HA HR. destruct (scoped_options_ok pn o f off mi F O M) as (al' & E & Eal).
  assert (al' = al) as ->.
  { subst al'. destruct HA as [(c & -> & T1 & T2)|(N & ->)]; [|now rewrite N]. destruct (table_of_children (pn_children c)) as [U1 U2]. apply (fm_ext _ U1 _ T1). intros k. now rewrite U2, T2. }
  clear Eal HA. apply renamed_fold in HR.
  assert (FN : forall o2, opt_aliases o2 = al -> full_name_of X (with_opts io (o2 :: o :: os)) o2 name = r) by (intros o2 <-; exact HR).
  split.
  - intros n v Hv. rewrite (optscope_ok X T _ pn io o _ os Ho E). cbv zeta. set (o2 := {| auto_std_factor := f |}) in *. specialize (FN o2 eq_refl). clearbody o2.
    cbn [exec]. unfold node_name, io_get_node, io_options. cbn [with_opts io_opts hd_error]. fold (with_opts io (o2 :: o :: os)). rewrite FN. cbn [with_opts io_st]. rewrite Hv. cbn. rewrite <- Ho. destruct io; reflexivity.
  - intros m s Hv HQ Hm Hs HB Vs V1 V2. rewrite (optscope_ok X T _ pn io o _ os Ho E). cbv zeta. set (o2 := {| auto_std_factor := f |}) in *.
    assert (PI : par_info_of_node r (text_node (show_numeral m ++ "~"%char :: show_numeral s)) o2 = Ok (mk r (numeral_val m) (numeral_val s) (opt_lower o) (opt_upper o))).
    { apply (C03_mean_std r o2 m s Hm Hs); [exact HB|clear - Vs; fsolve|exact V1|exact V2]. }
    specialize (FN o2 eq_refl). clearbody o2.
    assert (L : starts_alpha (pn_str (text_node (show_numeral m ++ "~"%char :: show_numeral s))) = false).
    { apply not_reference. unfold reference, text_node. cbn [pn_str]. intros (c & rest & Hc & HL).
      assert (Hh : exists t, show_numeral m = c :: t \/ c = "~"%char).
      { destruct (show_numeral m) as [|c' t]; cbn [app string_of_list_ascii] in Hc; injection Hc as Hc _; [exists []; right; symmetry; exact Hc|exists t; left; rewrite Hc; reflexivity]. }
      destruct Hh as (t & [Hh| ->]); [|cbv in HL; lia]. clear - Hh HL Hm. destruct Hm as (D1 & D2 & D3 & D4 & _). unfold show_numeral in Hh. destruct (nm_neg m); [cbn [app] in Hh; injection Hh as <- _; cbv in HL; lia|]. cbn [app] in Hh.
      destruct (nm_int m) as [|d l]; cbn [show_digits map app] in Hh.
      - destruct (nm_dot m); [cbn [app] in Hh; injection Hh as <- _; cbv in HL; lia|]. specialize (D4 eq_refl). rewrite D4 in D3. exact (D3 eq_refl).
      - injection Hh as <- _. inversion_clear D1 as [|? ? Hd _]. apply digit_char_ok in Hd as [Hd _]. unfold is_digit in Hd. apply andb_prop in Hd as [Hd1 Hd2]. apply Nat.leb_le in Hd1, Hd2. lia. }
    cbn [exec]. unfold node_name, io_get_node, io_options. cbn [with_opts io_opts hd_error]. fold (with_opts io (o2 :: o :: os)). rewrite FN. cbn [with_opts io_st]. rewrite Hv, L, HQ, PI.
    unfold is_constant. cbn [mk pi_std]. rewrite (flt_feq_false _ _ Vs). destruct (st_add T (io_st io) _) as [st' [v|w|]]; cbn; rewrite <- Ho; destruct io; reflexivity.
Qed.

Lemma holds_intro pn key c u : pn_child key pn = Some c -> numeral_ok u -> chars (pn_str c) = show_numeral u -> holds pn key (numeral_val u).
Proof. intros H1 H2 H3. exists c, u. auto. Qed.
Example C71_nonvacuous :
  plain "leg" /\ plain "knee" /\
  map pi_name (oi_free (io_st (fst (exec X0 oi_store (within ["leg"; "knee"]%string (CGet "x" (fofZ 1) (fofZ 1) (fofZ 0) (fofZ 2))) (new_pario (empty_info true)))))) = ["leg.knee.x"%string] /\
  (let pns := [PN "" [("auto_std_factor", PN "0.5" []); ("auto_std_offset", PN "3" [])]; PN "" [("auto_std_offset", PN "1" [])]]%string in
   let io := new_pario (empty_info true) in
   (exists f off mi, setting "auto_std_factor" (auto_std_factor default_options) pns f /\ setting "auto_std_offset" (auto_std_offset default_options) pns off /\
     setting "auto_std_minimum" (auto_std_minimum default_options) pns mi /\ f64_same f (flit 5 (-1)) = true /\ f64_same off (fofZ 1) = true) /\
   match oi_free (io_st (fst (exec X0 oi_store (opt_within pns (CGetNode "x" (PN "~4" []))) io))) with [p] => f64_same (pi_std p) (fofZ 3) = true | _ => False end) /\
  (let pn := PN "" [("parameter_aliases", PN "" [("right", PN "side" []); ("left", PN "side" [])])]%string in
   alias_table (pn_children (PN "" [("right", PN "side" []); ("left", PN "side" [])]%string)) [("left", "side"); ("right", "side")]%string /\
   renamed (xo_replace_str X0) [("left", "side"); ("right", "side")]%string "left" "side" /\
   map pi_name (oi_free (io_st (fst (exec X0 oi_store (COptScope pn [CGetNode "left" (PN "1~2" [])]) (new_pario (empty_info true)))))) = ["side"%string]).
Proof.
  assert (P : forall p, p <> ""%string -> ends_dot p = false -> plain p).
  { intros p H1 H2. split; [exact H1|]. intros q E. assert (X : ends_dot p = true) by (apply ends_dot_spec; exists q; exact E). congruence. }
  split; [apply P; [discriminate|reflexivity]|]. split; [apply P; [discriminate|reflexivity]|]. split; [vm_compute; reflexivity|]. split.
  - cbv zeta. split; [|vm_compute; reflexivity].
    assert (OK : forall d, digit d -> numeral_ok {| nm_neg := false; nm_int := [d]; nm_frac := []; nm_dot := false; nm_exp := None |}).
    { intros d Hd. split; [constructor; [exact Hd|constructor]|]. split; [constructor|]. split; [discriminate|]. split; [reflexivity|exact I]. }
    exists (numeral_val {| nm_neg := false; nm_int := [0%Z]; nm_frac := [5%Z]; nm_dot := true; nm_exp := None |}), (numeral_val {| nm_neg := false; nm_int := [1%Z]; nm_frac := []; nm_dot := false; nm_exp := None |}), (auto_std_minimum default_options).
    split; [|split; [|split; [|split; [vm_compute; reflexivity|vm_compute; reflexivity]]]].
    + eapply set_here; [|apply set_outer; [reflexivity|constructor]]. eapply holds_intro; [reflexivity| |reflexivity].
      split; [constructor; [unfold digit; cbn; lia|constructor]|]. split; [constructor; [unfold digit; cbn; lia|constructor]|]. split; [discriminate|]. split; [discriminate|exact I].
    + eapply (set_here _ _ _ _ (numeral_val {| nm_neg := false; nm_int := [3%Z]; nm_frac := []; nm_dot := false; nm_exp := None |})).
      * eapply holds_intro; [reflexivity| |reflexivity]. apply OK. unfold digit; cbn; lia.
      * eapply set_here; [|constructor]. eapply holds_intro; [reflexivity| |reflexivity]. apply OK. unfold digit; cbn; lia.
    + apply set_outer; [reflexivity|]. apply set_outer; [reflexivity|]. constructor.
  - cbv zeta. split; [|split; [|vm_compute; reflexivity]].
    + split; [constructor; [intros k' [<-|[]]; reflexivity|constructor; [intros k' []|constructor]]|]. intros k. cbn [fm_get assoc_first rev app find fst].
      unfold fm_get. cbn [assoc_first pn_children rev app find fst pn_str]. destruct (String.eqb "left" k); [reflexivity|]. destruct (String.eqb "right" k); reflexivity.
    + constructor. constructor. constructor.
Qed.

(** ** C11: the files import_mean_std and import_locked read *)
Definition blank (t : text) : Prop := forallb is_ws t = true.
Definition word (w : text) : Prop := w <> [] /\ forallb (fun c => negb (is_ws c)) w = true.
(** White space or the end. *)
Definition ends_word (t : text) : Prop := t = [] \/ exists c r, t = c :: r /\ is_ws c = true.
(** name value mean std, separated by white space *)
Inductive record_text : rec -> text -> Prop :=
| record_text_intro b0 w b1 u1 b2 u2 b3 u3 :
    blank b0 -> word w -> blank b1 -> blank b2 -> blank b3 -> b1 <> [] -> b2 <> [] -> b3 <> [] -> numeral_ok u1 -> numeral_ok u2 -> numeral_ok u3 ->
    record_text {| r_name := string_of_list_ascii w; r_value := numeral_val u1; r_mean := numeral_val u2; r_std := numeral_val u3 |}
      (b0 ++ w ++ b1 ++ show_numeral u1 ++ b2 ++ show_numeral u2 ++ b3 ++ show_numeral u3).
(** A text that starts with fewer than [k] numbers. *)
Inductive fewer : nat -> text -> Prop :=
| fewer_none k t : read_number t = None -> fewer (S k) t
| fewer_more k b u t : blank b -> numeral_ok u -> ends_num t -> fewer k t -> fewer (S k) (b ++ show_numeral u ++ t).
(** The records of a file, and the name of the incomplete record it ends with (empty if there is none). *)
Inductive file_text : list rec -> string -> text -> Prop :=
| file_end b : blank b -> file_text [] "" b
| file_broken b w t : blank b -> word w -> ends_word t -> fewer 3 t -> file_text [] (string_of_list_ascii w) (b ++ w ++ t)
| file_record r t recs bad rest : record_text r t -> ends_word rest -> file_text recs bad rest -> file_text (r :: recs) bad (t ++ rest).

(** The white space that separates words and numbers: blank, tab, newline, vertical tab, form feed and carriage return (so files
    with the line ends of any system are read alike). *)
Theorem C11_white_space : forall c, is_ws c = true <-> In c (map ascii_of_nat [32; 9; 10; 11; 12; 13])%nat.
Proof.
  intros c. cbn [map In]. split.
  - destruct c as [b0 b1 b2 b3 b4 b5 b6 b7]. destruct b0, b1, b2, b3, b4, b5, b6, b7; cbn; intros H; first [discriminate H|tauto].
  - intros [<-|[<-|[<-|[<-|[<-|[<-|[]]]]]]]; reflexivity.
Qed.
Lemma ws_ends_num c t : is_ws c = true -> ends_num (c :: t).
Proof. unfold ends_num, head_is. destruct c as [b0 b1 b2 b3 b4 b5 b6 b7]. destruct b0, b1, b2, b3, b4, b5, b6, b7; cbn; intros H; first [reflexivity|discriminate]. Qed.
Lemma ends_word_num t : ends_word t -> ends_num t.
Proof. intros [->|(c & r & -> & H)]; [reflexivity|now apply ws_ends_num]. Qed.
Lemma blank_ends_word b t : blank b -> b <> [] -> ends_word (b ++ t).
Proof. intros H N. destruct b as [|c b]; [congruence|]. right. exists c, (b ++ t). split; [reflexivity|]. unfold blank in H. cbn [forallb] in H. now apply andb_prop in H. Qed.
Lemma ends_word_head t : ends_word t -> head_is is_ws t = true \/ t = [].
Proof. intros [->|(c & r & -> & H)]; [now right|left; exact H]. Qed.
Lemma read_word_text b w t : blank b -> word w -> ends_word t -> read_word (b ++ w ++ t) = (w, t).
Proof.
  intros Hb [N Hw] Ht. unfold read_word. rewrite skip_ws_app by exact Hb.
  assert (skip_ws (w ++ t) = w ++ t) as ->. { destruct w as [|c w]; [congruence|]. cbn [app skip_ws forallb] in *. apply andb_prop in Hw as [Hc _]. now destruct (is_ws c). }
  apply Properties_SearchPoint.take_word_app; [exact Hw|now apply ends_word_head].
Qed.
Lemma read_number_text b u t : blank b -> numeral_ok u -> ends_num t -> read_number (b ++ show_numeral u ++ t) = Some (numeral_val u, t).
Proof. intros Hb Hu Ht. rewrite read_number_ws by exact Hb. now apply read_numeral. Qed.
Lemma read_record_text r t rest : record_text r t -> ends_word rest -> read_record (t ++ rest) = RRec r rest.
Proof.
  intros H He. destruct H as [b0 w b1 u1 b2 u2 b3 u3 B0 W B1 B2 B3 N1 N2 N3 O1 O2 O3].
  assert (E : (b0 ++ w ++ b1 ++ show_numeral u1 ++ b2 ++ show_numeral u2 ++ b3 ++ show_numeral u3) ++ rest =
              b0 ++ w ++ (b1 ++ show_numeral u1 ++ (b2 ++ show_numeral u2 ++ (b3 ++ show_numeral u3 ++ rest)))) by (rewrite <- !app_assoc; reflexivity).
  etransitivity; [apply (f_equal read_record E)|]. clear E. unfold read_record. rewrite read_word_text; [|exact B0|exact W|now apply blank_ends_word].
  destruct W as [W _]. destruct w as [|c w]; [congruence|].
  rewrite read_number_text; [|exact B1|exact O1|apply ends_word_num; now apply blank_ends_word].
  rewrite read_number_text; [|exact B2|exact O2|apply ends_word_num; now apply blank_ends_word].
  rewrite read_number_text; [|exact B3|exact O3|apply ends_word_num; exact He]. reflexivity.
Qed.
Lemma fewer_S k t : fewer (S k) t -> read_number t = None \/ exists v t', read_number t = Some (v, t') /\ fewer k t'.
Proof. intros H. inversion H as [? ? E|? b u t' Hb Hu He Hf]; subst; [now left|right]. exists (numeral_val u), t'. split; [now apply read_number_text|exact Hf]. Qed.
Lemma read_record_broken b w t : blank b -> word w -> ends_word t -> fewer 3 t -> read_record (b ++ w ++ t) = RFail (string_of_list_ascii w).
Proof.
  intros Hb W He Hf. unfold read_record. rewrite read_word_text by assumption. destruct W as [W _]. destruct w as [|c w]; [congruence|].
  apply fewer_S in Hf as [->|(v & t1 & -> & Hf)]; [reflexivity|]. apply fewer_S in Hf as [->|(v2 & t2 & -> & Hf)]; [reflexivity|].
  apply fewer_S in Hf as [->|(v3 & t3 & _ & Hf)]; [reflexivity|]. inversion Hf.
Qed.
Lemma read_record_blank b : blank b -> read_record b = RFail "".
Proof. intros H. rewrite <- (app_nil_r b). rewrite Properties_SearchPoint.read_record_ws by exact H. reflexivity. Qed.
Lemma record_text_length r t : record_text r t -> (1 <= length t)%nat.
Proof. intros [b0 w]. destruct H0 as [N _]. rewrite !app_length. destruct w; [congruence|]. cbn [length]. lia. Qed.
Lemma file_text_nil recs bad : file_text recs bad [] -> recs = [] /\ bad = ""%string.
Proof.
  intros H. remember (@nil ascii) as t0 eqn:E in H. destruct H as [b Hb|b w t Hb [W _] _ _|r t recs' bad' rest Hr _ _]; [auto| |].
  - apply app_eq_nil in E as [_ E]. apply app_eq_nil in E as [E _]. congruence.
  - apply record_text_length in Hr. apply app_eq_nil in E as [-> _]. cbn in Hr. lia.
Qed.
Lemma read_file_text recs bad t : file_text recs bad t -> forall fuel, (length t < fuel)%nat -> map fst (fst (read_records fuel t)) = recs /\ snd (read_records fuel t) = bad.
Proof.
  induction 1 as [b Hb|b w t Hb W He Hf|r t recs bad rest Hr He Hrest IH]; intros [|fuel] HL; try lia; cbn [read_records].
  - rewrite read_record_blank by exact Hb. auto.
  - rewrite read_record_broken by assumption. auto.
  - rewrite (read_record_text r t rest Hr He). apply record_text_length in Hr. rewrite app_length in HL. destruct rest as [|c rest].
    + apply file_text_nil in Hrest as [-> ->]. auto.
    + destruct (IH fuel ltac:(lia)) as [I1 I2]. destruct (read_records fuel (c :: rest)) as [l n]. cbn [fst snd map] in *. split; [now rewrite I1|exact I2].
Qed.
Theorem C11_file_format : forall recs bad t, file_text recs bad t ->
  map fst (fst (file_records t)) = recs /\ snd (file_records t) = bad.
Proof. intros recs bad t H. apply read_file_text; [exact H|lia]. Qed.
(** An incomplete record is an error, and it is the only one: the message names it. *)
Theorem C11_incomplete_record : forall recs bad t o pis, file_text recs bad t ->
  ((exists w, snd (import_mean_std o (Some t) pis) = Throw w) <-> bad <> ""%string) /\
  (bad <> ""%string -> snd (import_mean_std o (Some t) pis) = Throw ("Error reading parameter " ++ bad)%string).
Proof.
  intros recs bad t o pis H. apply C11_file_format in H as [_ H]. unfold import_mean_std. destruct (file_records t) as [l n]. cbn [snd] in H. subst n.
  destruct (import_records pis o (map fst l)) as [o' ab]. destruct (String.eqb_spec bad "") as [->|E].
  - split; [|congruence]. split; [intros (w & Hw)|congruence]. destruct ab. discriminate.
  - split; [|auto]. destruct ab. split; [auto|]. intros _. eexists. reflexivity.
Qed.
Example C11_file_nonvacuous : exists recs, file_text recs "z" (chars "x 1 2 3
 y 4 5 6 z 7 abc") /\ length recs = 2%nat.
Proof.
  assert (OK : forall d, digit d -> numeral_ok {| nm_neg := false; nm_int := [d]; nm_frac := []; nm_dot := false; nm_exp := None |}).
  { intros d Hd. split; [constructor; [exact Hd|constructor]|]. split; [constructor|]. split; [discriminate|]. split; [reflexivity|exact I]. }
  set (N := fun d => {| nm_neg := false; nm_int := [d]; nm_frac := []; nm_dot := false; nm_exp := None |}).
  eexists. split.
  - change (chars "x 1 2 3
 y 4 5 6 z 7 abc") with (([] ++ chars "x" ++ chars " " ++ show_numeral (N 1%Z) ++ chars " " ++ show_numeral (N 2%Z) ++ chars " " ++ show_numeral (N 3%Z)) ++
      ((["010"; " "]%char ++ chars "y" ++ chars " " ++ show_numeral (N 4%Z) ++ chars " " ++ show_numeral (N 5%Z) ++ chars " " ++ show_numeral (N 6%Z)) ++
       (chars " " ++ chars "z" ++ (chars " " ++ show_numeral (N 7%Z) ++ chars " abc")))).
    apply file_record; [|right; eexists; eexists; split; reflexivity|apply file_record; [|right; eexists; eexists; split; reflexivity|]].
    + apply record_text_intro; try reflexivity; try discriminate; try (apply OK; unfold digit; lia). split; [discriminate|reflexivity].
    + apply record_text_intro; try reflexivity; try discriminate; try (apply OK; unfold digit; lia). split; [discriminate|reflexivity].
    + apply (file_broken (chars " ") (chars "z")); [reflexivity|split; [discriminate|reflexivity]|right; eexists; eexists; split; reflexivity|].
      apply fewer_more; [reflexivity|apply OK; unfold digit; lia|reflexivity|]. apply fewer_none. vm_compute. reflexivity.
  - reflexivity.
Qed.

(** ** C15: importing the values of any file *)
Definition naming (n : string) (recs : list rec) : list rec := filter (fun r => String.eqb (r_name r) n) recs.
Definition is_free (o : obj_info) (n : string) : bool := match find_index o n with Some _ => true | None => false end.
Lemma numeral_no_ws u : numeral_ok u -> forallb (fun c => negb (is_ws c)) (show_numeral u) = true.
Proof.
  intros (D1 & D2 & _ & _ & D5). unfold show_numeral.
  assert (DD : forall ds, Forall digit ds -> forallb (fun c => negb (is_ws c)) (show_digits ds) = true).
  { intros ds. induction 1 as [|d ds Hd _ IH]; [reflexivity|]. cbn [show_digits map forallb]. fold (show_digits ds). rewrite IH.
    apply digit_char_ok in Hd as [Hd _]. set (c := digit_char d) in *. clearbody c. clear - Hd.
    destruct c as [b0 b1 b2 b3 b4 b5 b6 b7]. destruct b0, b1, b2, b3, b4, b5, b6, b7; cbn in Hd |- *; first [reflexivity|discriminate]. }
  rewrite !forallb_app, (DD _ D1). destruct (nm_neg u), (nm_dot u), (nm_exp u) as [[[] ds]|]; cbn [forallb app negb is_ws andb]; rewrite ?(DD _ D2); try (destruct D5 as [D5 _]; rewrite (DD _ D5)); reflexivity.
Qed.
Lemma numeral_last u a t : numeral_ok u -> a ++ show_numeral u = t ++ [newline] -> False.
Proof.
  intros Hu H. pose proof (numeral_no_ws u Hu) as F. assert (N : show_numeral u <> []).
  { intros E. pose proof (read_numeral_all u Hu) as R. rewrite E in R. discriminate. }
  destruct (exists_last N) as (l & c & E). rewrite E in H, F. rewrite app_assoc in H. apply app_inj_tail in H as [_ ->]. rewrite forallb_app in F. apply andb_prop in F as [_ F]. discriminate.
Qed.
Lemma read_file_flags recs bad t : file_text recs bad t -> forall t', t = t' ++ [newline] -> forall fuel, (length t < fuel)%nat -> Forall (fun rb => snd rb = false) (fst (read_records fuel t)).
Proof.
  induction 1 as [b Hb|b w t Hb W He Hf|r t recs bad rest Hr He Hrest IH]; intros t' Ht [|fuel] HL; try lia; cbn [read_records].
  - rewrite read_record_blank by exact Hb. constructor.
  - rewrite read_record_broken by assumption. constructor.
  - rewrite (read_record_text r t rest Hr He). pose proof (record_text_length r t Hr) as HL1. rewrite app_length in HL. destruct rest as [|c rest].
    + exfalso. rewrite app_nil_r in Ht. destruct Hr as [b0 w b1 u1 b2 u2 b3 u3 B0 W B1 B2 B3 N1 N2 N3 O1 O2 O3].
      apply (numeral_last u3 (b0 ++ w ++ b1 ++ show_numeral u1 ++ b2 ++ show_numeral u2 ++ b3) t' O3). rewrite <- Ht, <- !app_assoc. reflexivity.
    + assert (exists t2, c :: rest = t2 ++ [newline]) as (t2 & E2).
      { destruct (@exists_last _ (c :: rest) ltac:(discriminate)) as (l & x & E). exists l. rewrite E in Ht |- *. rewrite app_assoc in Ht. apply app_inj_tail in Ht as [_ ->]. reflexivity. }
      specialize (IH t2 E2 fuel ltac:(lia)). destruct (read_records fuel (c :: rest)) as [l n]. cbn [fst] in *. constructor; [reflexivity|exact IH].
Qed.
Lemma import_list_spec recs : forall q, length (sp_values q) = oi_dim (sp_info q) ->
  exists q', import_value_list q recs = (q', (length (filter (fun r => is_free (sp_info q) (r_name r)) recs), length (filter (fun r => negb (is_free (sp_info q) (r_name r))) recs))) /\
    sp_info q' = sp_info q /\ length (sp_values q') = length (sp_values q) /\
    (forall n r, is_free (sp_info q) n = true -> last (map Some (naming n recs)) None = Some r -> sp_try_get q' n = Some (r_value r)) /\
    (forall n, naming n recs = [] \/ is_free (sp_info q) n = false -> sp_try_get q' n = sp_try_get q n).
Proof.
  induction recs as [|r recs IH]; intros q Hq; cbn [import_value_list].
  - exists q. split; [reflexivity|]. split; [reflexivity|]. split; [reflexivity|]. split; [discriminate|reflexivity].
  - unfold import_value. destruct (find_index (sp_info q) (r_name r)) as [i|] eqn:Ei.
    + set (q1 := {| sp_info := sp_info q; sp_values := list_set (sp_values q) i (r_value r) |}).
      assert (L1 : length (sp_values q1) = length (sp_values q)) by (cbn; apply list_set_length).
      destruct (IH q1) as (q' & E & I1 & I2 & I3 & I4); [rewrite L1; exact Hq|]. change (sp_info q1) with (sp_info q) in *. exists q'. rewrite E. cbn [fst snd filter]. assert (IF : is_free (sp_info q) (r_name r) = true) by (unfold is_free; now rewrite Ei). rewrite IF. cbn [negb length].
      split; [reflexivity|]. split; [exact I1|]. split; [rewrite I2; exact L1|].
      assert (TG : forall n, sp_try_get q1 n = if String.eqb (r_name r) n then Some (r_value r) else sp_try_get q n).
      { intros n. unfold sp_try_get. cbn [q1 sp_info sp_values]. destruct (String.eqb_spec (r_name r) n) as [<-|Hn].
        - rewrite Ei. apply nth_error_list_set_eq. rewrite Hq. unfold find_index in Ei. clear - Ei. unfold oi_dim. destruct (proj1 (Properties_SearchPoint.find_pos_In (r_name r) (oi_free (sp_info q)))) as (j & Hj & HL).
          + apply Properties_SearchPoint.find_pos_name in Ei as (p & Hp & <-). apply in_map. exact (nth_error_In _ _ Hp).
          + assert (j = i) by congruence. subst. exact HL.
        - destruct (find_index (sp_info q) n) as [j|] eqn:Ej; [|reflexivity]. apply nth_error_list_set_neq. intros <-. apply Hn. unfold find_index in *.
          apply Properties_SearchPoint.find_pos_name in Ei as (p & Hp & <-). apply Properties_SearchPoint.find_pos_name in Ej as (p' & Hp' & <-). congruence. }
      split.
      * intros n r0 Hf HL. unfold naming in HL. cbn [filter] in HL. destruct (String.eqb_spec (r_name r) n) as [En|En]; [|exact (I3 n r0 Hf HL)]. fold (naming n recs) in HL.
        destruct (naming n recs) as [|x l] eqn:EN.
        -- cbn in HL. injection HL as <-. rewrite I4 by (left; exact EN). rewrite TG, En, String.eqb_refl. reflexivity.
        -- apply I3; [exact Hf|]. rewrite EN. exact HL.
      * intros n [HN|HN]; [|].
        -- unfold naming in HN. cbn [filter] in HN. destruct (String.eqb_spec (r_name r) n) as [En|En]; [discriminate|]. rewrite I4 by (left; exact HN). rewrite TG. destruct (String.eqb_spec (r_name r) n); [congruence|reflexivity].
        -- rewrite I4 by (right; exact HN). rewrite TG. destruct (String.eqb_spec (r_name r) n) as [<-|]; [|reflexivity]. unfold is_free in HN. rewrite Ei in HN. discriminate.
    + destruct (IH q Hq) as (q' & E & I1 & I2 & I3 & I4). exists q'. rewrite E. cbn [filter]. assert (IF : is_free (sp_info q) (r_name r) = false) by (unfold is_free; now rewrite Ei). rewrite IF. cbn [negb length].
      split; [reflexivity|]. split; [exact I1|]. split; [exact I2|]. split.
      * intros n r0 Hf HL. unfold naming in HL. cbn [filter] in HL. destruct (String.eqb_spec (r_name r) n) as [<-|En]; [unfold is_free in Hf; rewrite Ei in Hf; discriminate|]. exact (I3 n r0 Hf HL).
      * intros n [HN|HN]; [|apply I4; right; exact HN]. unfold naming in HN. cbn [filter] in HN. destruct (String.eqb_spec (r_name r) n) as [En|En]; [discriminate|]. apply I4. left. exact HN.
Qed.
(** Every free parameter takes the value of the last record that names it, the others keep theirs; the result is how many
    records named a free parameter and how many did not.  (The last line has to end with a newline, or the stream's
    good() has to notice the end of the file only when it tries to read past it.) *)
Theorem C15_import_any_file : forall recs bad t eager_eof q, file_text recs bad t -> t <> [] -> length (sp_values q) = oi_dim (sp_info q) ->
  eager_eof = false \/ (exists t', t = t' ++ [newline]) ->
  exists q' n m, import_values eager_eof q (Some t) = (q', Ok (n, m)) /\ sp_info q' = sp_info q /\ length (sp_values q') = length (sp_values q) /\
    n = length (filter (fun r => is_free (sp_info q) (r_name r)) recs) /\ (n + m = length recs)%nat /\
    (forall x r, is_free (sp_info q) x = true -> last (map Some (naming x recs)) None = Some r -> sp_try_get q' x = Some (r_value r)) /\
    (forall x, naming x recs = [] \/ is_free (sp_info q) x = false -> sp_try_get q' x = sp_try_get q x).
Proof.
  intros recs bad t ee q HF HN Hq He. destruct (import_list_spec recs q Hq) as (q' & E & I1 & I2 & I3 & I4). exists q', (length (filter (fun r => is_free (sp_info q) (r_name r)) recs)), (length (filter (fun r => negb (is_free (sp_info q) (r_name r))) recs)).
  split; [|split; [exact I1|split; [exact I2|split; [reflexivity|split; [|split; [exact I3|exact I4]]]]]].
  - unfold import_values. destruct t as [|c t]; [congruence|]. pose proof (C11_file_format recs bad (c :: t) HF) as [F1 _].
    assert (FL : filter (fun rb => negb (ee && snd rb)) (fst (file_records (c :: t))) = fst (file_records (c :: t))).
    { apply forallb_filter_id. destruct He as [->|(t' & Ht)]; [apply forallb_forall; reflexivity|]. apply forallb_forall. intros rb Hrb.
      pose proof (read_file_flags recs bad (c :: t) HF t' Ht (S (length (c :: t))) ltac:(lia)) as Fl. rewrite Forall_forall in Fl. rewrite (Fl rb Hrb). now rewrite andb_false_r. }
    destruct (file_records (c :: t)) as [l n]. cbn [fst] in *. rewrite FL, F1, E. reflexivity.
  - clear. induction recs as [|r recs IH]; [reflexivity|]. cbn [filter]. destruct (is_free (sp_info q) (r_name r)); cbn [negb length]; lia.
Qed.
(** The written file is a table: the names are filled up with blanks to the length of the longest one. *)
Theorem C15_columns : forall p, exists W,
  (forall pi, In pi (oi_free (sp_info p)) -> (length (chars (pi_name pi)) <= W)%nat) /\
  (oi_free (sp_info p) <> [] -> exists pi, In pi (oi_free (sp_info p)) /\ length (chars (pi_name pi)) = W) /\
  write_point p = concat (map (fun pv => chars (pi_name (fst pv)) ++ repeat " "%char (W - length (chars (pi_name (fst pv)))) ++ [tab] ++ show_num (snd pv) ++ [tab] ++
    show_num (pi_mean (fst pv)) ++ [tab] ++ show_num (pi_std (fst pv)) ++ [tab; newline]) (combine (oi_free (sp_info p)) (sp_values p))).
Proof.
  intros p. exists (max_width (oi_free (sp_info p))). unfold max_width. set (l := oi_free (sp_info p)).
  assert (LS : forall s, length (chars s) = String.length s) by (induction s as [|c s IH]; [reflexivity|cbn; now rewrite <- IH]).
  assert (M : forall l w, (w <= fold_left (fun w p => Nat.max w (String.length (pi_name p))) l w)%nat /\ (forall pi, In pi l -> (String.length (pi_name pi) <= fold_left (fun w p => Nat.max w (String.length (pi_name p))) l w)%nat) /\
    (fold_left (fun w p => Nat.max w (String.length (pi_name p))) l w = w \/ exists pi, In pi l /\ String.length (pi_name pi) = fold_left (fun w p => Nat.max w (String.length (pi_name p))) l w)).
  { clear. induction l as [|x l IH]; intros w; cbn [fold_left]; [split; [lia|split; [intros pi []|auto]]|]. destruct (IH (Nat.max w (String.length (pi_name x)))) as (A & B & C). split; [lia|]. split.
    - intros pi [<-|H]; [lia|now apply B].
    - destruct C as [C|(pi & C1 & C2)]; [|right; exists pi; split; [now right|exact C2]]. destruct (Nat.max_spec w (String.length (pi_name x))) as [[_ E]|[_ E]]; [right; exists x; split; [now left|]|left]; rewrite C, E; reflexivity. }
  destruct (M l 0%nat) as (_ & B & C). split; [intros pi H; rewrite LS; now apply B|]. split.
  - intros H. destruct C as [C|(pi & C1 & C2)]; [|exists pi; rewrite LS; auto]. destruct l as [|x t]; [congruence|]. exists x. split; [now left|]. rewrite LS. pose proof (B x (or_introl eq_refl)). lia.
  - unfold write_point. f_equal. apply map_ext. intros [pi v]. unfold write_line, pad_right, max_width. cbn [fst snd]. fold l. rewrite <- !app_assoc. reflexivity.
Qed.
(** ** C07: a parameter a search point does not know is an error, unless it is a constant. *)
Theorem C07_unknown_parameter : forall X (io : pario search_point),
  (forall name m s lo hi, sp_try_get (io_st io) (prefix_str (io_prefix io) ++ name) = None ->
     exists w, io_get sp_store io name m s lo hi = (io, Throw w)) /\
  (forall name o pn, io_options io = Some o -> ~ reference pn ->
     sp_try_get (io_st io) (apply_aliases X (opt_aliases o) (prefix_str (io_prefix io) ++ name)) = None ->
     match par_info_of_node (apply_aliases X (opt_aliases o) (prefix_str (io_prefix io) ++ name)) pn o with
     | Ok p => feq (pi_std p) fzero = false | _ => True end ->
     exists w, io_get_node X sp_store io name pn = (io, Throw w)).
Proof.
  intros X io. assert (WS : with_st io (io_st io) = io) by (destruct io; reflexivity). split.
  - intros n m s lo hi H. unfold io_get. cbn [sp_store st_try_get st_add]. rewrite H. pose proof (C01_par_info_admits_exactly_valid (prefix_str (io_prefix io) ++ n) m s lo hi) as (C1 & C2 & _).
    unfold make_par_info, error_if in *. destruct (negb _); cbn [obind]; [eauto|]. cbn [sp_add]. rewrite WS. eauto.
  - intros n o pn Ho HR H HC. unfold io_get_node. rewrite Ho. unfold full_name_of. cbn [sp_store st_try_get st_add]. rewrite H, (not_reference _ HR).
    destruct (xo_needs_quotes X _); [eauto|]. pose proof (C02_parsing_terminates (apply_aliases X (opt_aliases o) (prefix_str (io_prefix io) ++ n)) pn o) as NU.
    destruct (par_info_of_node _ pn o) as [p|w|]; [|eauto|congruence]. unfold is_constant. rewrite HC. cbn [sp_add]. rewrite WS. eauto.
Qed.

Print Assumptions C03_node_with_children.
Print Assumptions C03_node_errors.
Print Assumptions C71_scoped_name.
Print Assumptions C71_dots.
Print Assumptions C71_options.
Print Assumptions C71_aliases.
Print Assumptions C11_file_format.
Print Assumptions C11_incomplete_record.
Print Assumptions C15_import_any_file.
Print Assumptions C15_columns.
Print Assumptions C07_unknown_parameter.
Print Assumptions C11_white_space.
