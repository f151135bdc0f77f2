From Coq Require Import ZArith Bool Reals Lra Lia.
From Coq.Floats Require Import SpecFloat.
From Flocq Require Import Core BinarySingleNaN.
From Verif Require Import Prelude Flt FltFacts Round8 Round8Facts ShowNum.
#[local] Open Scope Z_scope.

Definition digit (d : Z) : Prop := 0 <= d <= 9.
Definition dval (acc : Z) (ds : list Z) : Z := fold_left (fun a d => 10 * a + d) ds acc.

Lemma digit_char_ok d : digit d -> is_digit (digit_char d) = true /\ digit_val (digit_char d) = d.
Proof.
  intros H. assert (d = 0 \/ d = 1 \/ d = 2 \/ d = 3 \/ d = 4 \/ d = 5 \/ d = 6 \/ d = 7 \/ d = 8 \/ d = 9) as Hd
    by (unfold digit in H; lia).
  destruct Hd as [->|[->|[->|[->|[->|[->|[->|[->|[->| ->]]]]]]]]]; split; reflexivity.
Qed.

(** The next character, if any, satisfies [p]. *)
Definition head_is (p : ascii -> bool) (s : text) : bool :=
  match s with c :: _ => p c | [] => false end.

Lemma read_digits_spec ds : Forall digit ds -> forall acc cnt rest, head_is is_digit rest = false ->
  read_digits acc cnt (show_digits ds ++ rest) = (dval acc ds, cnt + Z.of_nat (length ds), rest).
Proof.
  induction 1 as [|d ds Hd _ IH]; intros acc cnt rest Hr.
  - cbn [show_digits map app dval fold_left length]. rewrite Z.add_0_r.
    destruct rest as [|c t]; [reflexivity|]. cbn [head_is] in Hr. cbn [read_digits]. now rewrite Hr.
  - destruct (digit_char_ok d Hd) as [H1 H2].
    cbn [show_digits map app read_digits]. rewrite H1, H2. fold (show_digits ds). rewrite IH by exact Hr.
    f_equal. f_equal. cbn [length]. lia.
Qed.

Lemma dval_shift acc ds : dval acc ds = acc * 10 ^ Z.of_nat (length ds) + dval 0 ds.
Proof.
  revert acc. induction ds as [|d ds IH]; intros acc; cbn [dval fold_left length].
  - cbn. lia.
  - fold (dval (10 * acc + d) ds). fold (dval (10 * 0 + d) ds). rewrite IH, (IH (10 * 0 + d)).
    rewrite Nat2Z.inj_succ, Z.pow_succ_r by lia. ring.
Qed.
Lemma dval_app acc a b : dval acc (a ++ b) = dval (dval acc a) b.
Proof. unfold dval. apply fold_left_app. Qed.
Lemma dval_zeros acc n : dval acc (repeat 0 n) = acc * 10 ^ Z.of_nat n.
Proof.
  revert acc. induction n as [|n IH]; intros acc; [cbn; lia|].
  cbn [repeat dval fold_left]. fold (dval (10 * acc + 0) (repeat 0 n)). rewrite IH.
  rewrite Nat2Z.inj_succ, Z.pow_succ_r by lia. ring.
Qed.
Lemma zeros_digits n : zeros n = show_digits (repeat 0 (Z.to_nat n)).
Proof.
  unfold zeros, show_digits. induction (Z.to_nat n) as [|m IH]; cbn [repeat map]; [reflexivity|].
  rewrite IH. reflexivity.
Qed.
Lemma digit_repeat0 n : Forall digit (repeat 0 n).
Proof. induction n; cbn [repeat]; constructor; auto. unfold digit; lia. Qed.

Lemma zdigits_spec fuel : forall n, 0 <= n < 10 ^ Z.of_nat fuel ->
  dval 0 (zdigits fuel n) = n /\ Forall digit (zdigits fuel n) /\ (length (zdigits fuel n) <= fuel)%nat /\ (0 < n -> zdigits fuel n <> []).
Proof.
  induction fuel as [|f IH]; intros n Hn.
  - cbn in Hn. assert (n = 0) by lia. subst. cbn. repeat split; auto; lia.
  - cbn [zdigits]. destruct (Z.leb_spec n 0) as [H0|H0].
    + assert (n = 0) by lia. subst. cbn. repeat split; auto; lia.
    + rewrite Nat2Z.inj_succ, Z.pow_succ_r in Hn by lia.
      assert (Hd : 0 <= n / 10 < 10 ^ Z.of_nat f).
      { split; [apply Z.div_pos; lia|apply Z.div_lt_upper_bound; lia]. }
      destruct (IH _ Hd) as (I1 & I2 & I3 & _).
      repeat split.
      * rewrite dval_app, I1. cbn [dval fold_left]. pose proof (Z.div_mod n 10). lia.
      * apply Forall_app. split; auto. constructor; auto. pose proof (Z.mod_pos_bound n 10). unfold digit. lia.
      * rewrite app_length. cbn [length]. lia.
      * intros _ E. now destruct (zdigits f (n / 10)).
Qed.

Lemma strip_zeros_spec fuel : forall n k, 0 < n ->
  let '(n', k') := strip_zeros fuel n k in
  0 < n' <= n /\ F2R (Float radix10 n' k') = F2R (Float radix10 n k) /\ k <= k'.
Proof.
  induction fuel as [|f IH]; intros n k Hn; cbn [strip_zeros].
  - repeat split; try lia; reflexivity.
  - destruct (Z.eqb_spec (n mod 10) 0) as [H0|H0]; [|repeat split; try lia; reflexivity].
    assert (Hd : n = 10 * (n / 10)) by (pose proof (Z.div_mod n 10); lia).
    assert (Hp : 0 < n / 10) by lia.
    specialize (IH (n / 10) (k + 1) Hp). destruct (strip_zeros f (n / 10) (k + 1)) as [n' k'].
    destruct IH as (H1 & H2 & H3). repeat split; try lia.
    rewrite H2. rewrite Hd at 2. unfold F2R; cbn [Fnum Fexp].
    rewrite mult_IZR, bpow_plus. cbn [bpow]. change (IZR (Z.pow_pos radix10 1)) with 10%R. ring.
Qed.

Lemma dec_to_f64_ext s n k n' k' : 0 < n -> 0 < n' ->
  F2R (Float radix10 n k) = F2R (Float radix10 n' k') ->
  (Rabs (rnd2 (F2R (Float radix10 n k))) < bpow radix2 1024)%R ->
  dec_to_f64 s n k = dec_to_f64 s n' k'.
Proof.
  intros Hn Hn' He Ho.
  destruct (dec_to_f64_correct s n k Hn Ho) as (A1 & A2 & A3).
  rewrite He in Ho. destruct (dec_to_f64_correct s n' k' Hn' Ho) as (B1 & B2 & B3).
  apply f64_ext; auto; [rewrite A2, B2, He; reflexivity|congruence].
Qed.

(** Characters that end a numeral. *)
Definition num_cont (c : ascii) : bool :=
  is_digit c || Ascii.eqb c "." || Ascii.eqb c "e" || Ascii.eqb c "E".
Definition ends_num (rest : text) : Prop := head_is num_cont rest = false.

Lemma ends_num_digit rest : ends_num rest -> head_is is_digit rest = false.
Proof.
  destruct rest as [|c t]; [reflexivity|]. unfold ends_num; cbn [head_is]. unfold num_cont.
  now destruct (is_digit c).
Qed.
Lemma ends_num_exp rest : ends_num rest -> read_exp rest = (0, rest).
Proof.
  destruct rest as [|c t]; [reflexivity|]. unfold ends_num; cbn [head_is]. unfold num_cont.
  intros H. apply orb_false_iff in H as [H H3]. apply orb_false_iff in H as [H H2].
  cbn [read_exp]. rewrite H2, H3. reflexivity.
Qed.
Lemma ends_num_dot rest {A} (f : text -> A) (x : A) : ends_num rest ->
  match rest with "."%char :: t => f t | _ => x end = x.
Proof.
  destruct rest as [|c t]; [reflexivity|]. unfold ends_num; cbn [head_is]. unfold num_cont.
  intros H. apply orb_false_iff in H as [H _]. apply orb_false_iff in H as [H _].
  apply orb_false_iff in H as [_ H].
  destruct c as [[] [] [] [] [] [] [] []]; try reflexivity. discriminate.
Qed.

(** ** Structured decimal numerals: every text the reader accepts as one numeral. *)
Record numeral := { nm_neg : bool; nm_int : list Z; nm_frac : list Z; nm_dot : bool; nm_exp : option (bool * list Z) }.
Definition numeral_ok (u : numeral) : Prop :=
  Forall digit (nm_int u) /\ Forall digit (nm_frac u) /\
  nm_int u ++ nm_frac u <> [] /\ (nm_dot u = false -> nm_frac u = []) /\
  match nm_exp u with Some (_, ds) => Forall digit ds /\ ds <> [] | None => True end.
Definition show_numeral (u : numeral) : text :=
  (if nm_neg u then ["-"%char] else []) ++ show_digits (nm_int u) ++
  (if nm_dot u then "."%char :: show_digits (nm_frac u) else []) ++
  (match nm_exp u with
   | Some (sg, ds) => "e"%char :: (if sg then "-"%char else "+"%char) :: show_digits ds
   | None => [] end).
Definition numeral_mant (u : numeral) : Z := dval 0 (nm_int u ++ nm_frac u).
Definition numeral_exp (u : numeral) : Z :=
  match nm_exp u with Some (sg, ds) => (if sg then - dval 0 ds else dval 0 ds) | None => 0 end
  - Z.of_nat (length (nm_frac u)).
Definition numeral_val (u : numeral) : f64 := dec_to_f64 (nm_neg u) (numeral_mant u) (numeral_exp u).

Lemma read_exp_spec (sg : bool) ds rest : Forall digit ds -> ds <> [] -> head_is is_digit rest = false ->
  read_exp ("e"%char :: (if sg then "-"%char else "+"%char) :: show_digits ds ++ rest)
  = ((if sg then - dval 0 ds else dval 0 ds), rest).
Proof.
  intros Hd Hne Hr. cbn [read_exp].
  assert (Hs : read_sign ((if sg then "-"%char else "+"%char) :: show_digits ds ++ rest) = (sg, show_digits ds ++ rest))
    by now destruct sg.
  rewrite Hs. change (Ascii.eqb "e" "e" || Ascii.eqb "e" "E")%char with true. cbn iota beta.
  rewrite read_digits_spec by assumption.
  destruct (Z.eqb_spec (0 + Z.of_nat (length ds)) 0) as [H0|H0]; [|reflexivity].
  destruct ds; [congruence|]. cbn [length] in H0. lia.
Qed.

Lemma read_sign_none s : head_is (fun c => Ascii.eqb c "-" || Ascii.eqb c "+")%char s = false ->
  read_sign s = (false, s).
Proof.
  destruct s as [|c t]; [reflexivity|]. cbn [head_is].
  destruct c as [[] [] [] [] [] [] [] []]; try reflexivity; discriminate.
Qed.

Lemma digit_char_cases d : digit d ->
  In (digit_char d) (map digit_char [0;1;2;3;4;5;6;7;8;9]).
Proof.
  intros H. apply in_map. unfold digit in H. cbn [In]. lia.
Qed.

Lemma read_numeral u rest : numeral_ok u -> ends_num rest ->
  read_number (show_numeral u ++ rest) = Some (numeral_val u, rest).
Proof.
  intros (Hi & Hf & Hne & Hdot & Hex) Hrest.
  set (tail := (match nm_exp u with
     | Some (sg, ds) => "e"%char :: (if sg then "-"%char else "+"%char) :: show_digits ds
     | None => [] end) ++ rest).
  set (mid := (if nm_dot u then "."%char :: show_digits (nm_frac u) else []) ++ tail).
  assert (Htxt : show_numeral u ++ rest = (if nm_neg u then ["-"%char] else []) ++ show_digits (nm_int u) ++ mid).
  { unfold show_numeral, mid, tail. rewrite !app_assoc. reflexivity. }
  assert (Htail_d : head_is is_digit tail = false).
  { unfold tail. destruct (nm_exp u) as [[sg ds]|]; [reflexivity|]. now apply ends_num_digit. }
  assert (Htail_e : read_exp tail = (match nm_exp u with Some (sg, ds) => (if sg then - dval 0 ds else dval 0 ds) | None => 0 end, rest)).
  { unfold tail. destruct (nm_exp u) as [[sg ds]|].
    - apply read_exp_spec; try apply Hex. now apply ends_num_digit.
    - now apply ends_num_exp. }
  assert (Hmid_d : head_is is_digit mid = false).
  { unfold mid. destruct (nm_dot u); [reflexivity|exact Htail_d]. }
  assert (Hfrac : forall n1, match mid with "."%char :: t => read_digits n1 0 t | _ => (n1, 0, mid) end
             = (dval n1 (nm_frac u), Z.of_nat (length (nm_frac u)), tail)).
  { intros n1. unfold mid. destruct (nm_dot u) eqn:Ed.
    - cbn [app]. rewrite read_digits_spec by assumption. reflexivity.
    - rewrite (Hdot eq_refl). cbn [app length dval fold_left]. cbn [Z.of_nat].
      unfold tail. destruct (nm_exp u) as [[sg ds]|]; [reflexivity|].
      cbn [app]. apply (ends_num_dot rest (fun t => read_digits n1 0 t)). exact Hrest. }
  assert (Hskip : skip_ws (show_numeral u ++ rest) = show_numeral u ++ rest /\
                  read_sign (show_numeral u ++ rest) = (nm_neg u, show_digits (nm_int u) ++ mid)).
  { rewrite Htxt. destruct (nm_neg u); [split; reflexivity|]. cbn [app].
    destruct (nm_int u) as [|d ds] eqn:Ei.
    - cbn [show_digits map app]. unfold mid. destruct (nm_dot u) eqn:Ed; [split; reflexivity|].
      rewrite (Hdot eq_refl) in Hne. cbn in Hne. congruence.
    - inversion Hi as [|? ? Hd _]; subst. apply digit_char_cases in Hd.
      cbn [show_digits map app].
      cbn [map In] in Hd. repeat (destruct Hd as [Hd|Hd]; [rewrite <- Hd; split; reflexivity|]). destruct Hd. }
  destruct Hskip as [Hs1 Hs2].
  unfold read_number. rewrite Hs1, Hs2, read_digits_spec by assumption.
  rewrite Hfrac.
  destruct (Z.eqb_spec (0 + Z.of_nat (length (nm_int u)) + Z.of_nat (length (nm_frac u))) 0) as [H0|H0].
  { exfalso. apply Hne. destruct (nm_int u), (nm_frac u); cbn [length] in H0; try lia. reflexivity. }
  rewrite Htail_e. unfold numeral_val, numeral_mant, numeral_exp. rewrite dval_app. reflexivity.
Qed.

(** ** The printed form is a numeral denoting the rounded value. *)
Lemma show_exp_numeral x : -1000 < x < 1000 ->
  exists (sg : bool) ds, Forall digit ds /\ ds <> [] /\
   show_exp x = "e"%char :: (if sg then "-"%char else "+"%char) :: show_digits ds /\
   (if sg : bool then - dval 0 ds else dval 0 ds) = x.
Proof.
  intros Hx. unfold show_exp.
  assert (Habs : 0 <= Z.abs x < 1000) by lia.
  destruct (Z.ltb_spec (Z.abs x) 10) as [Ha|Ha].
  - destruct (Z.eqb_spec (Z.abs x) 0) as [Hz|Hz].
    + assert (x = 0) by lia. subst x. exists false, [0; 0]. repeat split; try congruence.
      repeat constructor; unfold digit; lia.
    + destruct (zdigits_spec 3 (Z.abs x)) as (D1 & D2 & _ & D4); [lia|].
      exists (x <? 0), (0 :: zdigits 3 (Z.abs x)). repeat split.
      * constructor; [unfold digit; lia|exact D2].
      * congruence.
      * cbn [dval fold_left]. fold (dval (10 * 0 + 0) (zdigits 3 (Z.abs x))). rewrite Z.mul_0_r, Z.add_0_l, D1.
        destruct (Z.ltb_spec x 0); lia.
  - destruct (zdigits_spec 4 (Z.abs x)) as (D1 & D2 & _ & D4); [lia|].
    exists (x <? 0), (zdigits 4 (Z.abs x)). repeat split; auto.
    + apply D4; lia.
    + rewrite D1. destruct (Z.ltb_spec x 0); lia.
Qed.

Lemma show_dec8_numeral n k : 0 < n < 10 ^ 12 -> -500 < k < 500 ->
  exists u, numeral_ok u /\ nm_neg u = false /\ show_dec8 n k = show_numeral u /\
   0 < numeral_mant u /\ F2R (Float radix10 (numeral_mant u) (numeral_exp u)) = F2R (Float radix10 n k).
Proof.
  intros Hn Hk. unfold show_dec8.
  pose proof (strip_zeros_spec 12 n k ltac:(lia)) as Hs.
  assert (Hk12 : forall f n k, snd (strip_zeros f n k) <= k + Z.of_nat f).
  { induction f as [|f IH]; intros; cbn [strip_zeros]; [cbn; lia|].
    destruct (_ =? 0); cbn [snd]; [specialize (IH (n0 / 10) (k0 + 1))|]; lia. }
  specialize (Hk12 12%nat n k).
  destruct (strip_zeros 12 n k) as [n' k']. destruct Hs as (Hn' & HF & Hkk). cbn [snd] in Hk12.
  destruct (zdigits_spec 12 n') as (D1 & D2 & D3 & D4); [lia|].
  specialize (D4 ltac:(lia)).
  set (ds := zdigits 12 n') in *. clearbody ds.
  set (l := Z.of_nat (length ds)).
  assert (Hl : 1 <= l <= 12) by (unfold l; destruct ds; [congruence|]; cbn [length] in *; lia).
  set (x := k' + l - 1).
  rewrite <- HF, <- D1. rewrite <- D1 in Hn'. clear HF Hn D1.
  destruct ((-4 <=? x) && (x <? 8)) eqn:Hfix.
  - apply andb_prop in Hfix as [Hx1 Hx2]. apply Z.leb_le in Hx1. apply Z.ltb_lt in Hx2.
    destruct (Z.ltb_spec x 0) as [Hx0|Hx0].
    + exists {| nm_neg := false; nm_int := [0]; nm_frac := repeat 0 (Z.to_nat (- x - 1)) ++ ds; nm_dot := true; nm_exp := None |}.
      assert (Hm : dval 0 (repeat 0 (Z.to_nat (- x - 1)) ++ ds) = dval 0 ds).
      { rewrite dval_app, dval_zeros. reflexivity. }
      repeat split; cbn [nm_neg nm_int nm_frac nm_dot nm_exp]; try congruence; try discriminate.
      * repeat constructor; unfold digit; lia.
      * apply Forall_app; split; [apply digit_repeat0|exact D2].
      * unfold show_numeral; cbn [nm_neg nm_int nm_frac nm_dot nm_exp app]. rewrite app_nil_r.
        rewrite zeros_digits. unfold show_digits. rewrite map_app. reflexivity.
      * unfold numeral_mant; cbn [nm_int nm_frac]. rewrite dval_app. cbn [dval fold_left]. fold (dval (10 * 0 + 0) (repeat 0 (Z.to_nat (- x - 1)) ++ ds)). rewrite Z.mul_0_r, Z.add_0_l, Hm. lia.
      * unfold numeral_mant, numeral_exp; cbn [nm_int nm_frac nm_exp]. f_equal. f_equal.
        -- rewrite dval_app. cbn [dval fold_left]. fold (dval (10 * 0 + 0) (repeat 0 (Z.to_nat (- x - 1)) ++ ds)). now rewrite Z.mul_0_r, Z.add_0_l, Hm.
        -- rewrite app_length, repeat_length. unfold x, l in *. lia.
    + destruct (Z.leb_spec l (x + 1)) as [Hlx|Hlx].
      * exists {| nm_neg := false; nm_int := ds ++ repeat 0 (Z.to_nat (x + 1 - l)); nm_frac := []; nm_dot := false; nm_exp := None |}.
        assert (Hm : dval 0 ((ds ++ repeat 0 (Z.to_nat (x + 1 - l))) ++ []) = dval 0 ds * 10 ^ k').
        { rewrite app_nil_r, dval_app, dval_zeros. rewrite Z2Nat.id by lia. f_equal. f_equal. unfold x; lia. }
        assert (Hk0 : 0 <= k') by (unfold x in *; lia).
        repeat split; cbn [nm_neg nm_int nm_frac nm_dot nm_exp]; try congruence; try discriminate.
        -- apply Forall_app; split; [exact D2|apply digit_repeat0].
        -- constructor.
        -- destruct ds; [congruence|discriminate].
        -- unfold show_numeral; cbn [nm_neg nm_int nm_frac nm_dot nm_exp app]. rewrite app_nil_r.
           rewrite zeros_digits. unfold show_digits. rewrite map_app. reflexivity.
        -- unfold numeral_mant; cbn [nm_int nm_frac]. rewrite Hm. assert (0 < 10 ^ k') by (apply Z.pow_pos_nonneg; lia). nia.
        -- unfold numeral_mant, numeral_exp; cbn [nm_int nm_frac nm_exp length]. rewrite Hm.
           unfold F2R; cbn [Fnum Fexp]. change (0 - Z.of_nat 0) with 0. cbn [bpow].
           rewrite mult_IZR. change (10 ^ k') with (Zpower radix10 k'). rewrite IZR_Zpower by lia. ring.
      * exists {| nm_neg := false; nm_int := firstn (Z.to_nat (x + 1)) ds; nm_frac := skipn (Z.to_nat (x + 1)) ds; nm_dot := true; nm_exp := None |}.
        repeat split; cbn [nm_neg nm_int nm_frac nm_dot nm_exp]; try congruence; try discriminate.
        -- rewrite <- (firstn_skipn (Z.to_nat (x + 1)) ds) in D2. now apply Forall_app in D2.
        -- rewrite <- (firstn_skipn (Z.to_nat (x + 1)) ds) in D2. now apply Forall_app in D2.
        -- now rewrite firstn_skipn.
        -- unfold show_numeral; cbn [nm_neg nm_int nm_frac nm_dot nm_exp app]. now rewrite app_nil_r.
        -- unfold numeral_mant; cbn [nm_int nm_frac]. rewrite firstn_skipn. lia.
        -- unfold numeral_mant, numeral_exp; cbn [nm_int nm_frac nm_exp]. rewrite firstn_skipn. f_equal. f_equal.
           rewrite skipn_length. unfold x, l in *. lia.
  - destruct (show_exp_numeral x) as (sg & es & E1 & E2 & E3 & E4); [unfold x; lia|].
    destruct ds as [|d r]; [congruence|].
    inversion D2 as [|? ? Hd Hr]; subst.
    destruct r as [|d2 r].
    + exists {| nm_neg := false; nm_int := [d]; nm_frac := []; nm_dot := false; nm_exp := Some (sg, es) |}.
      repeat split; cbn [nm_neg nm_int nm_frac nm_dot nm_exp]; try congruence; try discriminate; auto.
      * unfold show_numeral; cbn [nm_neg nm_int nm_frac nm_dot nm_exp app show_digits map]. now rewrite E3.
      * unfold numeral_mant; cbn [nm_int nm_frac app]. lia.
      * unfold numeral_mant, numeral_exp; cbn [nm_int nm_frac nm_exp length app]. f_equal. f_equal.
        rewrite E4. unfold x, l. cbn [length]. lia.
    + exists {| nm_neg := false; nm_int := [d]; nm_frac := d2 :: r; nm_dot := true; nm_exp := Some (sg, es) |}.
      repeat split; cbn [nm_neg nm_int nm_frac nm_dot nm_exp]; try congruence; try discriminate; auto.
      * unfold show_numeral; cbn [nm_neg nm_int nm_frac nm_dot nm_exp app show_digits map]. now rewrite E3.
      * unfold numeral_mant; cbn [nm_int nm_frac app]. lia.
      * unfold numeral_mant, numeral_exp; cbn [nm_int nm_frac nm_exp app]. f_equal. f_equal.
        rewrite E4. unfold x, l. cbn [length]. lia.
Qed.

Lemma dec8_pos_range m e : (bpow radix2 (-1074) <= IZR (Z.pos m) * bpow radix2 e < bpow radix2 1024)%R ->
  let '(n, k) := dec8_pos m e in n <= 10 ^ 8 /\ -450 < k < 450.
Proof.
  intros Hx0. unfold dec8_pos.
  pose proof (scale_frac_correct radix2 (Z.pos m) e eq_refl) as Hs.
  change (radix_val radix2) with 2 in Hs.
  destruct (scale_frac 2 (Z.pos m) e) as [num den]. destruct Hs as (Hn & Hd & Hq).
  assert (Hnr : (0 < F2R (Float radix10 num 0))%R) by (rewrite F2R_0e; now apply IZR_lt).
  assert (Hdr : (0 < F2R (Float radix10 den 0))%R) by (rewrite F2R_0e; now apply IZR_lt).
  pose proof (Calc.Div.Fdiv_correct (FLX_exp 8) _ _ Hnr Hdr) as HF.
  destruct (Calc.Div.Fdiv (FLX_exp 8) (Float radix10 num 0) (Float radix10 den 0)) as [[m1 e1] l1].
  destruct HF as [He HI]. rewrite !F2R_0e, Hq in HI, He.
  set (x := (IZR (Z.pos m) * bpow radix2 e)%R) in *.
  assert (Hx : (0 < x)%R).
  { apply Rmult_lt_0_compat; [now apply IZR_lt|apply bpow_gt_0]. }
  pose proof (Calc.Round.truncate_correct_partial' radix10 (FLX_exp 8) x m1 e1 l1 Hx HI He) as HT.
  destruct (Calc.Round.truncate radix10 (FLX_exp 8) (m1, e1, l1)) as [[m2 e2] l2].
  destruct HT as [HI2 He2].
  assert (Hmag : -400 < mag radix10 x <= 400).
  { split.
    - apply mag_gt_bpow. rewrite Rabs_pos_eq by lra. apply Rle_trans with (2 := proj1 Hx0).
      change (bpow radix10 (-400)) with (/ IZR (Z.pow_pos 10 400))%R.
      change (bpow radix2 (-1074)) with (/ IZR (Z.pow_pos 2 1074))%R.
      apply Rinv_le; [apply IZR_lt; reflexivity|apply IZR_le; vm_compute; discriminate].
    - apply mag_le_bpow; [lra|]. rewrite Rabs_pos_eq by lra. apply Rlt_le_trans with (1 := proj2 Hx0).
      change (bpow radix10 400) with (IZR (Z.pow_pos 10 400)). change (bpow radix2 1024) with (IZR (Z.pow_pos 2 1024)).
      apply IZR_le; vm_compute; discriminate. }
  unfold cexp, FLX_exp in He2.
  assert (Hm2 : m2 < 10 ^ 8).
  { apply Calc.Bracket.inbetween_float_bounds in HI2 as [Hlo _].
    apply lt_IZR. apply Rmult_lt_reg_r with (bpow radix10 e2); [apply bpow_gt_0|].
    apply Rle_lt_trans with (1 := Hlo).
    change (10 ^ 8) with (Zpower radix10 8). rewrite IZR_Zpower by lia. rewrite <- bpow_plus.
    rewrite He2. replace (8 + (mag radix10 x - 8)) with (mag radix10 x : Z) by lia.
    pose proof (bpow_mag_gt radix10 x) as Hg. rewrite Rabs_pos_eq in Hg by lra. exact Hg. }
  split; [|lia].
  unfold Calc.Round.cond_incr. destruct (Calc.Round.round_N _ _); lia.
Qed.

(** What [operator<<] prints for a finite value is one numeral, and reading it
    gives [rounded]. *)
Theorem read_show_num v rest : is_finite v = true -> ends_num rest ->
  read_number (show_num v ++ rest) = Some (rounded v, rest).
Proof.
  intros Hf Hr. destruct v as [s|s| |s m e Hb]; try discriminate.
  - cbn [show_num rounded].
    set (u := {| nm_neg := s; nm_int := [0]; nm_frac := []; nm_dot := false; nm_exp := None |}).
    replace ((if s then ["-"%char] else []) ++ ["0"%char]) with (show_numeral u) by now destruct s.
    rewrite read_numeral by
      (try exact Hr; repeat split; cbn; try congruence; try (repeat constructor; unfold digit; lia)).
    unfold numeral_val. cbn. reflexivity.
  - cbn [show_num rounded].
    set (x := (IZR (Z.pos m) * bpow radix2 e)%R).
    assert (Hpos : (0 < x)%R) by (apply Rmult_lt_0_compat; [now apply IZR_lt|apply bpow_gt_0]).
    assert (Hxv : B2R (B754_finite s m e Hb : f64) = (if s then - x else x)%R).
    { cbn [B2R]. unfold F2R, x; cbn [Fnum Fexp]. destruct s; cbn [cond_Zopp]; rewrite ?opp_IZR; ring. }
    assert (Hax : (Rabs x <= dmaxR)%R).
    { pose proof (B2R_le_dmax (B754_finite s m e Hb)) as H. rewrite Hxv in H. destruct s; rewrite ?Rabs_Ropp in H; exact H. }
    assert (Hrange : (bpow radix2 (-1074) <= x < bpow radix2 1024)%R).
    { split.
      - apply Rle_trans with (bpow radix2 e).
        + apply bpow_le. destruct (bounded_emin _ _ Hb) as (He & _ & _). lia.
        + unfold x. rewrite <- (Rmult_1_l (bpow radix2 e)) at 1. apply Rmult_le_compat_r; [apply bpow_ge_0|].
          apply IZR_le. lia.
      - pose proof dmaxR_lt. rewrite Rabs_pos_eq in Hax by lra. lra. }
    pose proof (dec8_pos_range m e Hrange) as Hkr. pose proof (dec8_pos_correct m e) as Hd.
    fold x in Hd. destruct (dec8_pos m e) as [n k]. destruct Hd as [Hd Hn].
    assert (Hn0 : 0 < n).
    { destruct (Z.eq_dec n 0) as [->|]; [|lia].
      exfalso. rewrite F2R_0 in Hd.
      assert (x <> 0)%R by lra.
      assert (rnd10 x <> 0)%R; [|congruence].
      apply round_neq_0_negligible_exp; auto with typeclass_instances.
      apply negligible_exp_FLX. reflexivity. }
    destruct (show_dec8_numeral n k ltac:(lia) ltac:(lia)) as (u & U1 & U2 & U3 & U4 & U5).
    set (u' := {| nm_neg := s; nm_int := nm_int u; nm_frac := nm_frac u; nm_dot := nm_dot u; nm_exp := nm_exp u |}).
    assert (Ht : (if s then ["-"%char] else []) ++ show_dec8 n k = show_numeral u').
    { rewrite U3. unfold show_numeral, u'; cbn [nm_neg nm_int nm_frac nm_dot nm_exp]. rewrite U2. reflexivity. }
    rewrite Ht, read_numeral by (try exact Hr; exact U1).
    f_equal. f_equal. unfold numeral_val. cbn [nm_neg u'].
    change (numeral_mant u') with (numeral_mant u). change (numeral_exp u') with (numeral_exp u).
    apply dec_to_f64_ext; auto. rewrite U5, Hd. now apply rnd2_rnd10_bound.
Qed.

(** search_point.cpp:102-108 is [rounded], including NaN and infinities. *)
Theorem print_and_read_rounded v : print_and_read v = rounded v.
Proof.
  destruct (is_finite v) eqn:E.
  - unfold print_and_read. rewrite <- (app_nil_r (show_num v)).
    rewrite read_show_num by (auto; reflexivity). reflexivity.
  - destruct v as [s|[]| |s m e Hb]; try discriminate; reflexivity.
Qed.

Lemma skip_ws_app s t : forallb is_ws s = true -> skip_ws (s ++ t) = skip_ws t.
Proof.
  induction s as [|c s IH]; cbn [forallb app skip_ws]; [reflexivity|].
  intros H. apply andb_prop in H as [H1 H2]. rewrite H1. auto.
Qed.
Lemma read_number_ws s t : forallb is_ws s = true -> read_number (s ++ t) = read_number t.
Proof. intros H. unfold read_number. now rewrite skip_ws_app. Qed.
