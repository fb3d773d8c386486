(** C84: what a validation error says about the bytes; C85: single code points. *)
From Coq Require Import Lia String Ascii.
From Verif Require Import Base BaseLemmas Wtf8Spec Wtf8Model Wtf8Proofs Wtf8Proofs2 Wtf8Proofs3 PointModel StrProps.

(** * C84 *)
Lemma from_err s j e : from_bytes s = Err (EWtf8 j e) <-> validate_wtf8 s = Err (EWtf8 j e).
Proof. unfold from_bytes. destruct (validate_wtf8 s) as [[]| |]; cbn; split; congruence. Qed.

(** ** No length *)
Lemma vstep_none h l d : vstep h l = VErr d None -> d = 0 /\ 1 <= len l <= 3.
Proof.
  intros H. destruct l as [|b l1]; [discriminate|]. unfold vstep in H.
  vstep_cases H; injection H as <-; (split; [reflexivity|]); rewrite ?len_cons; change (len (@nil Z)) with 0; lia.
Qed.
(** The input ends too early: the last one to three bytes are not part of the
    valid prefix. *)
Theorem C84_none : forall s j, from_bytes s = Err (EWtf8 j None) -> 1 <= len s - j <= 3.
Proof.
  intros s j H. apply from_err in H.
  destruct (validate_err_split _ _ _ _ _ _ (le_n _) H) as (p & q & h' & d & -> & _ & _ & Hv & Hj & _).
  destruct (vstep_none _ _ _ Hv) as [-> Hq]. rewrite len_app. lia.
Qed.
Example C84_none_ex : from_bytes [0x41; 0xF0; 0x9F; 0x98] = Err (EWtf8 1 None).
Proof. reflexivity. Qed.
Print Assumptions C84_none.

(** ... and with more bytes it is a string, unless a sequence of four bytes was
    begun, *)
Lemma vstep_complete h b l : vstep h (b :: l) = VErr 0 None -> b < 0xF0 -> exists t, exists h', vstep h ((b :: l) ++ t) = VOk (List.length ((b :: l) ++ t)) h'.
Proof.
  intros H Hb. unfold vstep in H. cbn [app].
  destruct (between 0 127 b) eqn:E0; [discriminate|].
  destruct (between 194 223 b) eqn:E1.
  { destruct l as [|n l2]; [|vstep_cases H]. exists [0x80], false. cbn [app vstep]. rewrite E0, E1. reflexivity. }
  destruct ((b =? 224) || (between 225 236 b || between 238 239 b)) eqn:E2.
  { destruct l as [|n l2].
    - exists [0xA0; 0x80], false. cbn [app vstep]. rewrite E0, E1, E2. destruct (b =? 224); reflexivity.
    - destruct (negb _) eqn:E3; [discriminate|]. destruct l2 as [|n1 l3]; [|vstep_cases H].
      exists [0x80], false. cbn [app vstep]. rewrite E0, E1, E2, E3. reflexivity. }
  destruct (b =? 237) eqn:E3.
  { destruct l as [|n l2].
    - exists [0x80; 0x80], false. cbn [app vstep]. rewrite E0, E1, E2, E3. reflexivity.
    - destruct (between 160 175 n) eqn:E4.
      + destruct l2 as [|n1 l3]; [|discriminate]. exists [0x80], true. cbn [app vstep]. rewrite E0, E1, E2, E3, E4. reflexivity.
      + destruct (between 176 191 n && h) eqn:E5; [discriminate|]. destruct (between 128 159 n || between 176 191 n) eqn:E6; [|discriminate].
        destruct l2 as [|n1 l3]; [|vstep_cases H]. exists [0x80], false. cbn [app vstep]. rewrite E0, E1, E2, E3, E4, E5, E6. reflexivity. }
  destruct (between 240 244 b) eqn:E4; [unfold between in E4; lia|discriminate].
Qed.
Theorem C84_more_partial : forall s j b r, from_bytes s = Err (EWtf8 j None) -> skipn (Z.to_nat j) s = b :: r -> b < 0xF0 ->
  exists t, from_bytes (s ++ t) = Ok (s ++ t).
Proof.
  intros s j b r H Hs Hb. apply from_err in H.
  destruct (validate_err_split _ _ _ _ _ _ (le_n _) H) as (p & q & h' & d & -> & _ & Hr & Hv & Hj & _).
  destruct (vstep_none _ _ _ Hv) as [-> Hq]. replace (Z.to_nat j) with (List.length p) in Hs by (unfold len in *; lia).
  rewrite skipn_len_app in Hs. subst q. destruct (vstep_complete _ _ _ Hv Hb) as (t & h2 & Ht). exists t.
  unfold from_bytes, validate_wtf8. rewrite <- app_assoc, Hr, validate_step, Ht, skipn_all. reflexivity.
Qed.
Example C84_more_ex : from_bytes [0x41; 0xE2; 0x82] = Err (EWtf8 1 None).
Proof. reflexivity. Qed.
Print Assumptions C84_more_partial.
(** where the bytes are looked at only when all four are there. *)
Theorem C84_more_refuted : from_bytes [0xF0; 0x41] = Err (EWtf8 0 None) /\ forall t, is_ok (from_bytes ([0xF0; 0x41] ++ t)) = false.
Proof. split; [reflexivity|]. intros [|a [|b t]]; reflexivity. Qed.
Print Assumptions C84_more_refuted.

(** ** With a length *)
Lemma vstep_some h l d n t : vstep h l = VErr d (Some n) -> vstep h (l ++ t) = VErr d (Some n).
Proof.
  intros H. destruct l as [|b l1]; [discriminate|]. unfold vstep in H.
  vstep_cases H; injection H as <- <-; cbn [app vstep];
  repeat match goal with E : ?x = _ |- context [?x] => rewrite E end; reflexivity.
Qed.
(** It is an error whatever follows. *)
Theorem C84_final : forall s j n t, from_bytes s = Err (EWtf8 j (Some n)) -> from_bytes (s ++ t) = Err (EWtf8 j (Some n)).
Proof.
  intros s j n t H. apply from_err in H. apply from_err.
  destruct (validate_err_split _ _ _ _ _ _ (le_n _) H) as (p & q & h' & d & -> & _ & Hr & Hv & Hj & _).
  unfold validate_wtf8. rewrite <- app_assoc, Hr, validate_step, (vstep_some _ _ _ _ t Hv). congruence.
Qed.
Example C84_final_ex : from_bytes [0x41; 0xED; 0xA0; 0x80; 0xED; 0xB0; 0x80] = Err (EWtf8 1 (Some 6)).
Proof. reflexivity. Qed.
Print Assumptions C84_final.

(** The bytes it is about are in the input, except that one may be missing where
    the error shows in the second byte of three. *)
Lemma vstep_within h l d n : vstep h l = VErr d (Some n) -> 1 <= n /\
  (n <= len l + d \/ (len l = 2 /\ n = 3 + d)).
Proof.
  intros H. destruct l as [|b l1]; [discriminate|]. unfold vstep in H.
  destruct (between 0 127 b); [discriminate|]. destruct (between 194 223 b).
  { destruct l1 as [|n0 l2]; [discriminate|]. destruct (tail_byte n0); [discriminate|]. injection H as <- <-. rewrite !len_cons. pose proof (len_nonneg l2). lia. }
  destruct ((b =? 224) || (between 225 236 b || between 238 239 b)).
  { destruct l1 as [|n0 l2]; [discriminate|]. rewrite !len_cons. pose proof (len_nonneg l2). destruct (negb _); [injection H as <- <-; lia|].
    destruct l2 as [|n1 l3]; [discriminate|]. rewrite !len_cons in *. pose proof (len_nonneg l3). destruct (tail_byte n1); [discriminate|]. injection H as <- <-. lia. }
  destruct (b =? 237).
  { destruct l1 as [|n0 l2]; [discriminate|]. rewrite !len_cons. pose proof (len_nonneg l2). destruct (between 160 175 n0).
    { destruct l2; discriminate. }
    destruct (between 176 191 n0 && h); [injection H as <- <-; lia|].
    destruct (between 128 159 n0 || between 176 191 n0); [|injection H as <- <-; lia].
    destruct l2 as [|n1 l3]; [discriminate|]. rewrite !len_cons in *. pose proof (len_nonneg l3). destruct (tail_byte n1); [discriminate|]. injection H as <- <-. lia. }
  destruct (between 240 244 b).
  - destruct l1 as [|n0 [|n1 [|n2 l4]]]; try discriminate. rewrite !len_cons. pose proof (len_nonneg l4).
    match type of H with (if ?c then _ else _) = _ => destruct c end; [discriminate|]. injection H as <- <-. lia.
  - injection H as <- <-. rewrite len_cons. pose proof (len_nonneg l1). lia.
Qed.
Theorem C84_within_partial : forall s j n, from_bytes s = Err (EWtf8 j (Some n)) ->
  1 <= n /\ j + n <= len s + 1 /\ (len s < j + n -> n = 3 \/ n = 6).
Proof.
  intros s j n H. apply from_err in H.
  destruct (validate_err_split _ _ _ _ _ _ (le_n _) H) as (p & q & h' & d & -> & _ & _ & Hv & Hj & _).
  pose proof (vstep_err_back _ _ _ _ Hv) as Hd. destruct (vstep_within _ _ _ _ Hv) as (H1 & H2). rewrite len_app.
  split; [exact H1|]. destruct Hd as [->|(-> & E & _)]; [|injection E as ->]; lia.
Qed.
Example C84_within_ex : from_bytes [0x41; 0xE2; 0x28; 0xA1] = Err (EWtf8 1 (Some 3)).
Proof. reflexivity. Qed.
Print Assumptions C84_within_partial.

(** That does happen; and the length counts characters that are no part of the
    broken sequence, which are lost if reading goes on behind it. *)
Theorem C84_within_refuted : (forall n, n < 0xA0 -> exists k, from_bytes [0xE0; n] = Err (EWtf8 0 (Some k)) /\ len [0xE0; n] < k) /\
  (forall b x, 0xC2 <= b <= 0xDF -> 0 <= x <= 0x7F -> from_bytes [b; x] = Err (EWtf8 0 (Some 2)) /\ from_bytes [x] = Ok [x]).
Proof.
  split.
  - intros n Hn. exists 3. split; [|reflexivity]. unfold from_bytes, validate_wtf8. cbn [validate_from].
    change (between 0 127 224) with false. change (between 194 223 224) with false. change (224 =? 224) with true. cbn iota.
    unfold between. replace (160 <=? n) with false by lia. reflexivity.
  - intros b x Hb Hx. unfold from_bytes, validate_wtf8. cbn [validate_from]. unfold tail_byte, between.
    replace (b <=? 127) with false by lia. rewrite andb_false_r. replace (194 <=? b) with true by lia. replace (b <=? 223) with true by lia.
    replace (128 <=? x) with false by lia. replace (0 <=? x) with true by lia. replace (x <=? 127) with true by lia. split; reflexivity.
Qed.
Print Assumptions C84_within_refuted.

(** * C85 *)
Definition scalar (c : Z) : Prop := is_cp c /\ ~ is_surrogate c.
Theorem C85_from_u32 : forall v c, 0 <= v < 2 ^ 32 -> from_u32 v = Some c <-> c = v /\ is_cp v.
Proof.
  intros v c Hv. unfold from_u32, is_cp. destruct (Z.leb_spec 0 v), (Z.leb_spec v 0x10FFFF); cbn [andb]; split; intros H1;
  try discriminate; try lia; [injection H1 as <-; lia|destruct H1 as [-> _]; reflexivity].
Qed.
Example C85_from_u32_ex : from_u32 0xD800 = Some 0xD800 /\ from_u32 0x110000 = None.
Proof. split; reflexivity. Qed.
Print Assumptions C85_from_u32.

(** The characters are the code points that are not surrogates. *)
Theorem C85_chars : (forall c x, is_cp c -> to_char c = Some x -> scalar x /\ from_char x = c /\ eq_char c x = true) /\
  (forall x, scalar x -> to_char (from_char x) = Some x) /\
  (forall c, is_cp c -> to_char c = None <-> is_surrogate c) /\
  (forall c x, eq_char c x = true <-> c = from_char x).
Proof.
  unfold to_char, from_char, eq_char, scalar, is_surrogate, is_cp. split; [|split; [|split]].
  - intros c x Hc H. destruct (Z.leb_spec 0xD800 c), (Z.leb_spec c 0xDFFF); cbn [andb] in H; try discriminate; injection H as <-; rewrite Z.eqb_refl; lia.
  - intros x [Hx Hs]. destruct (Z.leb_spec 0xD800 x), (Z.leb_spec x 0xDFFF); cbn [andb]; try reflexivity. lia.
  - intros c Hc. destruct (Z.leb_spec 0xD800 c), (Z.leb_spec c 0xDFFF); cbn [andb]; split; intros H1; try discriminate; try lia; reflexivity.
  - intros c x. apply Z.eqb_eq.
Qed.
Example C85_chars_ex : to_char 0x1F600 = Some 0x1F600 /\ to_char 0xDABC = None.
Proof. split; reflexivity. Qed.
Print Assumptions C85_chars.
(** The lossy conversion gives a character, that of the lossy conversion of
    strings. *)
Theorem C85_lossy : forall c, is_cp c -> scalar (to_char_lossy c) /\ to_char_lossy c = replace_surrogate c.
Proof.
  intros c Hc. unfold to_char_lossy, to_char, scalar, is_surrogate, replace_surrogate, is_cp in *.
  destruct (Z.leb_spec 0xD800 c), (Z.leb_spec c 0xDFFF); cbn [andb]; lia.
Qed.
Example C85_lossy_ex : to_char_lossy 0xDABC = 0xFFFD /\ to_char_lossy 0x1F600 = 0x1F600.
Proof. split; reflexivity. Qed.
Print Assumptions C85_lossy.

(** Formatting: [U+] and four to six digits, no zero in front of more than four,
    that stand for the code point. *)
Definition digits_value (ds : list Z) : Z := fold_left (fun a d => 16 * a + d) ds 0.
Definition digit_text (ds : list Z) : list Z := map (fun d => nth (Z.to_nat d) (txt "0123456789ABCDEF") 0) ds.
Lemma upper_ok d : 0 <= d < 16 -> upper_digit d = nth (Z.to_nat d) (txt "0123456789ABCDEF") 0.
Proof.
  intros H. assert (In d [0;1;2;3;4;5;6;7;8;9;10;11;12;13;14;15]) as HI by (cbn; lia).
  cbn in HI. repeat (destruct HI as [<-|HI]; [reflexivity|]). destruct HI.
Qed.
Lemma upper_rev_ok n : forall x, 0 <= x < 16 ^ Z.of_nat n -> exists ds, upper_rev n x = digit_text (rev ds) /\ digits_value ds = x /\
  Forall (fun d => 0 <= d < 16) ds /\ (1 <= n -> 1 <= List.length ds <= n)%nat /\ ((2 <= List.length ds)%nat -> hd 0 ds <> 0).
Proof.
  induction n as [|n IH]; intros x Hx.
  - exists []. cbn in *. repeat split; auto; lia.
  - cbn [upper_rev]. assert (H16 : 16 ^ Z.of_nat (S n) = 16 * 16 ^ Z.of_nat n) by (rewrite Nat2Z.inj_succ, Z.pow_succ_r; lia).
    rewrite (upper_ok (x mod 16)) by lia. destruct (x / 16 =? 0) eqn:E.
    + exists [x mod 16]. cbn. split; [reflexivity|]. repeat split; try lia. repeat constructor; lia.
    + destruct (IH (x / 16)) as (ds & H1 & H2 & H3 & H4 & H5); [lia|]. exists (ds ++ [x mod 16]). split; [|split; [|split; [|split]]].
      * rewrite rev_app_distr. cbn. rewrite H1. reflexivity.
      * unfold digits_value in *. rewrite fold_left_app. cbn [fold_left]. rewrite H2. lia.
      * apply Forall_app. split; auto. repeat constructor; lia.
      * rewrite app_length. cbn. destruct n as [|n]; [cbn in Hx; lia|]. lia.
      * intros _. destruct ds as [|d ds]; [unfold digits_value in H2; cbn in H2; lia|]. cbn [hd app].
        destruct ds as [|d' ds]; [|apply H5; cbn; lia]. unfold digits_value in H2. cbn in H2. lia.
Qed.
Lemma digits_bound ds : Forall (fun d => 0 <= d < 16) ds -> 0 <= digits_value ds < 16 ^ len ds /\ (hd 0 ds <> 0 -> 16 ^ (len ds - 1) <= digits_value ds).
Proof.
  unfold digits_value. induction ds as [|d ds IH] using rev_ind; intros H; [cbn; lia|]. apply Forall_app in H as [H Hd].
  specialize (IH H) as [IH1 IH2]. inversion Hd as [|? ? Hd1 _]; subst. rewrite fold_left_app. cbn [fold_left]. rewrite len_app. change (len [d]) with 1.
  pose proof (len_nonneg ds). rewrite Z.pow_add_r by lia. split; [lia|]. intros Hh. replace (len ds + 1 - 1) with (len ds) by lia.
  destruct ds as [|d0 ds]; [cbn in Hh |- *; lia|]. cbn [hd app] in Hh. specialize (IH2 Hh).
  replace (len (d0 :: ds)) with (len (d0 :: ds) - 1 + 1) at 1 by lia. rewrite Z.pow_add_r by (rewrite ?len_cons in *; pose proof (len_nonneg ds); lia). lia.
Qed.
Lemma zeros_value k ds : digits_value (repeat 0 k ++ ds) = digits_value ds.
Proof. unfold digits_value. rewrite fold_left_app. f_equal. induction k; auto. Qed.
Theorem C85_debug : forall c, is_cp c -> exists ds, debug_point c = txt "U+" ++ digit_text ds /\ Forall (fun d => 0 <= d < 16) ds /\
  digits_value ds = c /\ (4 <= List.length ds <= 6)%nat /\ ((5 <= List.length ds)%nat -> hd 0 ds <> 0).
Proof.
  intros c Hc. unfold is_cp in Hc. destruct (upper_rev_ok 16 c) as (ds & H1 & H2 & H3 & H4 & H5); [cbn; lia|]. specialize (H4 ltac:(lia)).
  destruct (digits_bound ds H3) as [_ HB]. assert (HL : (List.length ds <= 6)%nat).
  { destruct (Nat.le_gt_cases (List.length ds) 6) as [|Hg]; auto. exfalso. specialize (HB (H5 ltac:(lia))).
    assert (16 ^ 6 <= 16 ^ (len ds - 1)) by (apply Z.pow_le_mono_r; unfold len; lia). change (16 ^ 6) with 16777216 in *. lia. }
  exists (repeat 0 (4 - List.length ds) ++ ds). split; [|split; [|split; [|split]]].
  - unfold debug_point, zero_fill, upper_hex. rewrite H1. unfold digit_text at 1 2. rewrite map_rev, rev_involutive, map_length.
    unfold digit_text. rewrite map_app. f_equal. f_equal. clear. induction (4 - List.length ds)%nat as [|k IH]; cbn; [reflexivity|]. f_equal. exact IH.
  - apply Forall_app. split; auto. clear. induction (4 - List.length ds)%nat; cbn; constructor; auto; lia.
  - rewrite zeros_value. exact H2.
  - rewrite app_length, repeat_length. lia.
  - rewrite app_length, repeat_length. intros Hl. replace (4 - List.length ds)%nat with 0%nat by lia. apply H5. lia.
Qed.
Example C85_debug_ex : debug_point 0x1F4A9 = txt "U+1F4A9" /\ debug_point 0xE9 = txt "U+00E9".
Proof. split; reflexivity. Qed.
Print Assumptions C85_debug.
