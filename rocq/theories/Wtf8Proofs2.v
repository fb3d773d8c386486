(** Proofs about concatenation, lossy conversion and slicing. *)
From Verif Require Import Base BaseLemmas Wtf8Spec Wtf8Model Wtf8Proofs.

Lemma skipn_len_app {A} (a b : list A) : skipn (length a) (a ++ b) = b.
Proof. rewrite skipn_app, skipn_all, Nat.sub_diag. reflexivity. Qed.
Lemma firstn_len_app {A} (a b : list A) : firstn (length a) (a ++ b) = a.
Proof. rewrite firstn_app, firstn_all, Nat.sub_diag. cbn. apply app_nil_r. Qed.

Lemma decode_surrogate_spec c : is_surrogate c ->
  decode_surrogate (0x80 + c / 64 mod 64) (0x80 + c mod 64) = c.
Proof.
  unfold is_surrogate, decode_surrogate. intros Hc. bits0.
  rewrite <- Z.lor_assoc.
  rewrite (lor_add' ((128 + c / 64 mod 64) mod 64 * 64) _ 6) by (pow2; lia).
  (* 0xD800 and the shifted byte share bit 11 *)
  set (x := (128 + c / 64 mod 64) mod 64 * 64 + (128 + c mod 64) mod 64).
  assert (Hx : x = c - 0xD000) by (subst x; lia).
  rewrite Hx. clear x Hx.
  replace (c - 0xD000) with (0x800 + (c - 0xD800)) by lia.
  rewrite <- (lor_add' 0x800 (c - 0xD800) 11) by (change (2 ^ 11) with 2048; lia).
  rewrite Z.lor_assoc. change (Z.lor 0xD800 0x800) with 0xD800.
  rewrite (lor_add' _ _ 11) by (change (2 ^ 11) with 2048; lia). lia.
Qed.

Lemma decode_pair_spec a b : is_lead a -> is_trail b ->
  decode_surrogate_pair a b = 0x10000 + (a - 0xD800) * 1024 + (b - 0xDC00).
Proof.
  unfold is_lead, is_trail, decode_surrogate_pair. intros. bits0.
  rewrite (lor_add' _ _ 10); pow2; lia.
Qed.

(** Shape of encoded text at its end. *)
Definition no_ed_end (s : list Z) : Prop :=
  forall p b2, s = p ++ [0xED; b2] -> between 0xA0 0xAF b2 = false.

Lemma app_last2 {A} (p q : list A) a b x y :
  p ++ [a; b] = q ++ [x; y] -> a = x /\ b = y /\ p = q.
Proof.
  intros H. change [a; b] with ([a] ++ [b]) in H. change [x; y] with ([x] ++ [y]) in H.
  rewrite !app_assoc in H. apply app_inj_tail in H as [H ->].
  apply app_inj_tail in H as [-> ->]. auto.
Qed.

Lemma flat_map_last_inv {A B} (f : A -> list B) l x :
  flat_map f (l ++ [x]) = flat_map f l ++ f x.
Proof. rewrite flat_map_app. cbn. rewrite app_nil_r. reflexivity. Qed.

Lemma no_ed_end_utf8 cps : Forall is_cp cps -> no_ed_end (flat_map utf8 cps).
Proof.
  intros H p b2 E. destruct cps as [|c cps] using rev_ind.
  { destruct p as [|? [|? ?]]; discriminate. }
  clear IHcps. apply Forall_app in H as [Hcs Hc]. inversion Hc as [|? ? Hc1 _]; subst.
  rewrite flat_map_last_inv in E. unfold utf8 in E at 2. unfold is_cp in Hc1.
  unfold between.
  destruct (c <? 0x80) eqn:E1.
  { change [0xED; b2] with ([0xED] ++ [b2]) in E. rewrite app_assoc in E.
    apply app_inj_tail in E as [_ ->]. lia. }
  destruct (c <? 0x800) eqn:E2.
  { apply app_last2 in E as (E & <- & _). lia. }
  destruct (c <? 0x10000) eqn:E3.
  { change [?a; ?b; ?d] with ([a] ++ [b; d]) in E. rewrite app_assoc in E.
    apply app_last2 in E as (E & <- & _). lia. }
  change [?a; ?b; ?d; ?e] with ([a; b] ++ [d; e]) in E. rewrite app_assoc in E.
  apply app_last2 in E as (E & <- & _). lia.
Qed.

Lemma final_lead_last cps c : Forall is_cp cps -> is_cp c ->
  final_lead_surrogate (flat_map utf8 cps ++ utf8 c) =
  if between 0xD800 0xDBFF c then Some c else None.
Proof.
  intros Hcs Hc. unfold final_lead_surrogate. rewrite rev_app_distr.
  unfold utf8 at 1. unfold is_cp in Hc.
  destruct (c <? 0x80) eqn:E1.
  { assert (between 0xD800 0xDBFF c = false) as -> by (unfold between; lia).
    cbn [rev app]. destruct (rev (flat_map utf8 cps)) as [|b2 [|b1 t]] eqn:E; auto.
    destruct (b1 =? 0xED) eqn:Eb; cbn [andb]; auto.
    apply (f_equal (@rev Z)) in E. rewrite rev_involutive in E. cbn in E.
    rewrite <- app_assoc in E. cbn in E. assert (b1 = 0xED) by lia. subst b1.
    rewrite (no_ed_end_utf8 _ Hcs _ _ E). reflexivity. }
  destruct (c <? 0x800) eqn:E2.
  { assert (between 0xD800 0xDBFF c = false) as -> by (unfold between; lia).
    cbn [rev app]. destruct (rev (flat_map utf8 cps)) as [|b1 t] eqn:E; auto.
    assert (between 0xA0 0xAF (192 + c / 64) = false) as -> by (unfold between; lia).
    rewrite andb_false_r. reflexivity. }
  destruct (c <? 0x10000) eqn:E3.
  { cbn [rev app].
    destruct (between 0xD800 0xDBFF c) eqn:Eb; unfold between in *.
    - rewrite decode_surrogate_spec by (unfold is_surrogate; lia).
      assert ((224 + c / 4096 =? 237) &&
              ((160 <=? 128 + c / 64 mod 64) && (128 + c / 64 mod 64 <=? 175)) = true)
        as -> by lia. reflexivity.
    - assert ((224 + c / 4096 =? 237) &&
              ((160 <=? 128 + c / 64 mod 64) && (128 + c / 64 mod 64 <=? 175)) = false)
        as -> by lia. reflexivity. }
  cbn [rev app]. assert (128 + c / 4096 mod 64 =? 237 = false) as -> by lia.
  assert (between 0xD800 0xDBFF c = false) as -> by (unfold between; lia). reflexivity.
Qed.

Lemma final_lead_nil : final_lead_surrogate [] = None.
Proof. reflexivity. Qed.

Lemma utf8_3 c : 0x800 <= c < 0x10000 -> length (utf8 c) = 3%nat.
Proof.
  intros. unfold utf8.
  assert (c <? 0x80 = false) as -> by lia. assert (c <? 0x800 = false) as -> by lia.
  assert (c <? 0x10000 = true) as -> by lia. reflexivity.
Qed.

Lemma firstn_drop3 cps c : 0x800 <= c < 0x10000 ->
  firstn (length (flat_map utf8 cps ++ utf8 c) - 3) (flat_map utf8 cps ++ utf8 c)
  = flat_map utf8 cps.
Proof.
  intros. rewrite app_length, utf8_3 by auto.
  replace (length (flat_map utf8 cps) + 3 - 3)%nat with (length (flat_map utf8 cps)) by lia.
  rewrite firstn_app, Nat.sub_diag, firstn_all. cbn. apply app_nil_r.
Qed.

Lemma no_pair_app_last cps c :
  no_pair (cps ++ [c]) <->
  no_pair cps /\ (forall d cps', cps = cps' ++ [d] -> ~ (is_lead d /\ is_trail c)).
Proof.
  induction cps as [|a cps IH].
  - cbn. split; [|auto]. intros _. split; [auto|]. intros d [|? ?]; discriminate.
  - cbn [app no_pair]. rewrite IH. destruct cps as [|b cps]; cbn [app].
    + cbn. split.
      * intros (H & _). repeat split; auto.
        intros d [|? [|? ?]] E; inversion E; subst; auto.
      * intros (_ & H). split; [apply (H a []); auto|]. split; auto.
        intros d [|? ?]; discriminate.
    + split.
      * intros (H1 & H2 & H3). split; [split; assumption|].
        intros d cps' E. destruct cps' as [|x cps']; [discriminate|].
        cbn in E. inversion E; subst. eapply H3; eauto.
      * intros ((H1 & H2) & H3). split; [assumption|split; [assumption|]].
        intros d cps' E. apply (H3 d (a :: cps')). cbn. congruence.
Qed.

Lemma no_pair_app_l a b : no_pair (a ++ b) -> no_pair a.
Proof.
  induction a as [|x a IH]; cbn; auto. destruct a as [|y a]; cbn in *; [tauto|].
  intros [H1 H2]. split; auto.
Qed.
Lemma no_pair_app_r a b : no_pair (a ++ b) -> no_pair b.
Proof. induction a as [|x a IH]; cbn; auto. intros [_ H]. auto. Qed.

Lemma no_pair_app a b : no_pair a -> no_pair b ->
  (forall x a' y b', a = a' ++ [x] -> b = y :: b' -> ~ (is_lead x /\ is_trail y)) ->
  no_pair (a ++ b).
Proof.
  intros Ha Hb Hm. induction a as [|x a IH]; cbn; auto.
  destruct a as [|y a].
  - cbn. split; auto. destruct b as [|y b]; auto. apply (Hm x [] y b); auto.
  - cbn [app no_pair] in *. destruct Ha as [H1 H2]. split; auto.
    apply IH; auto. intros x' a' y' b' E ->. apply (Hm x' (x :: a') y' b'); cbn; congruence.
Qed.

Lemma wtf8_cps_app_l a b : wtf8_cps (a ++ b) -> wtf8_cps a.
Proof. intros [H1 H2]. apply Forall_app in H1. split; [tauto|]. eapply no_pair_app_l; eauto. Qed.
Lemma wtf8_cps_app_r a b : wtf8_cps (a ++ b) -> wtf8_cps b.
Proof. intros [H1 H2]. apply Forall_app in H1. split; [tauto|]. eapply no_pair_app_r; eauto. Qed.

Lemma pair_not_surrogate a b : is_lead a -> is_trail b ->
  0x10000 <= decode_surrogate_pair a b <= 0x10FFFF.
Proof. intros. rewrite decode_pair_spec by auto. unfold is_lead, is_trail in *. lia. Qed.

Lemma utf16_pair a b : is_lead a -> is_trail b ->
  utf16 (decode_surrogate_pair a b) = [a; b].
Proof.
  intros Ha Hb. pose proof (pair_not_surrogate _ _ Ha Hb).
  unfold utf16. assert (decode_surrogate_pair a b <? 65536 = false) as -> by lia.
  rewrite decode_pair_spec by auto. unfold is_lead, is_trail in *. list_eq.
Qed.

Lemma utf16_bmp c : 0 <= c < 0x10000 -> utf16 c = [c].
Proof. intros. unfold utf16. assert (c <? 65536 = true) as -> by lia. reflexivity. Qed.

Lemma push_spec cps c : wtf8_cps cps -> is_cp c ->
  exists cps', wtf8_cps cps' /\ push (flat_map utf8 cps) c = flat_map utf8 cps'
    /\ flat_map utf16 cps' = flat_map utf16 cps ++ utf16 c.
Proof.
  intros [Hcs Hnp] Hc. unfold push.
  assert (Hdefault : (forall d cps', cps = cps' ++ [d] -> ~ (is_lead d /\ is_trail c)) ->
    exists cps', wtf8_cps cps' /\
      push_code_point_unchecked (flat_map utf8 cps) c = flat_map utf8 cps' /\
      flat_map utf16 cps' = flat_map utf16 cps ++ utf16 c).
  { intros Hd. exists (cps ++ [c]). repeat split.
    - apply Forall_app. split; auto.
    - apply no_pair_app_last. auto.
    - rewrite flat_map_last_inv. unfold push_code_point_unchecked.
      rewrite encode_utf8_raw_spec by auto. reflexivity.
    - apply flat_map_last_inv. }
  destruct (between 0xDC00 0xDFFF c) eqn:Et.
  2:{ apply Hdefault. unfold between, is_trail in *. intros. lia. }
  destruct cps as [|d cps] using rev_ind.
  { cbn [flat_map]. rewrite final_lead_nil. apply Hdefault. intros d [|? ?]; discriminate. }
  clear IHcps. apply Forall_app in Hcs as [Hcs Hd]. inversion Hd as [|? ? Hd1 _]; subst.
  rewrite flat_map_last_inv in *. rewrite final_lead_last by auto.
  destruct (between 0xD800 0xDBFF d) eqn:El.
  2:{ apply Hdefault. intros d' cps' E. apply app_inj_tail in E as [_ <-].
      unfold between, is_lead in *. intros [? ?]. lia. }
  assert (Hl : is_lead d) by (unfold between, is_lead in *; lia).
  assert (Ht : is_trail c) by (unfold between, is_trail in *; lia).
  pose proof (pair_not_surrogate _ _ Hl Ht) as Hp.
  rewrite firstn_drop3 by (unfold is_lead in Hl; lia).
  exists (cps ++ [decode_surrogate_pair d c]). repeat split.
  - apply Forall_app. split; auto. constructor; auto. unfold is_cp. lia.
  - apply no_pair_app_last. split.
    + apply no_pair_app_l in Hnp. auto.
    + intros. unfold is_trail in *. lia.
  - rewrite flat_map_last_inv. unfold push_char, push_code_point_unchecked.
    rewrite encode_utf8_raw_spec by (unfold is_cp; lia). reflexivity.
  - rewrite !flat_map_last_inv. rewrite utf16_pair by auto.
    rewrite <- app_assoc. f_equal. rewrite !utf16_bmp by (unfold is_lead, is_trail in *; lia).
    reflexivity.
Qed.

Lemma initial_trail_spec c l : is_cp c ->
  initial_trail_surrogate (utf8 c ++ l) =
  if between 0xDC00 0xDFFF c then Some c else None.
Proof.
  intros Hc. unfold initial_trail_surrogate, utf8, is_cp, between in *.
  destruct (c <? 0x80) eqn:E1.
  { cbn [app]. assert ((0xDC00 <=? c) && (c <=? 0xDFFF) = false) as -> by lia.
    destruct l as [|? [|? ?]]; auto. assert (c =? 237 = false) as -> by lia. reflexivity. }
  destruct (c <? 0x800) eqn:E2.
  { cbn [app]. assert ((0xDC00 <=? c) && (c <=? 0xDFFF) = false) as -> by lia.
    destruct l as [|? ?]; auto. assert (192 + c / 64 =? 237 = false) as -> by lia. reflexivity. }
  destruct (c <? 0x10000) eqn:E3.
  { cbn [app]. destruct ((0xDC00 <=? c) && (c <=? 0xDFFF)) eqn:Eb.
    - rewrite decode_surrogate_spec by (unfold is_surrogate; lia).
      assert ((224 + c / 4096 =? 237) &&
              ((176 <=? 128 + c / 64 mod 64) && (128 + c / 64 mod 64 <=? 191)) = true)
        as -> by lia. reflexivity.
    - assert ((224 + c / 4096 =? 237) &&
              ((176 <=? 128 + c / 64 mod 64) && (128 + c / 64 mod 64 <=? 191)) = false)
        as -> by lia. reflexivity. }
  cbn [app]. assert (240 + c / 262144 =? 237 = false) as -> by lia.
  assert ((0xDC00 <=? c) && (c <=? 0xDFFF) = false) as -> by lia. reflexivity.
Qed.

Lemma push_wtf8_spec a b : wtf8_cps a -> wtf8_cps b ->
  exists r, wtf8_cps r /\ push_wtf8 (flat_map utf8 a) (flat_map utf8 b) = flat_map utf8 r
    /\ flat_map utf16 r = flat_map utf16 a ++ flat_map utf16 b.
Proof.
  intros [Ha Hna] [Hb Hnb]. unfold push_wtf8.
  assert (Hdefault : (forall x a' y b', a = a' ++ [x] -> b = y :: b' ->
                         ~ (is_lead x /\ is_trail y)) ->
    exists r, wtf8_cps r /\ flat_map utf8 a ++ flat_map utf8 b = flat_map utf8 r
     /\ flat_map utf16 r = flat_map utf16 a ++ flat_map utf16 b).
  { intros H. exists (a ++ b). repeat split.
    - apply Forall_app; auto.
    - apply no_pair_app; auto.
    - symmetry; apply flat_map_app.
    - apply flat_map_app. }
  destruct a as [|x a] using rev_ind.
  { cbn [flat_map]. rewrite final_lead_nil. apply Hdefault. intros ? [|? ?]; discriminate. }
  clear IHa. apply Forall_app in Ha as [Ha Hx]. inversion Hx as [|? ? Hx1 _]; subst.
  rewrite flat_map_last_inv in *. rewrite final_lead_last by auto.
  destruct (between 0xD800 0xDBFF x) eqn:El.
  2:{ apply Hdefault. intros x' a' y b' E _. apply app_inj_tail in E as [_ <-].
      unfold between, is_lead in *. intros [? ?]. lia. }
  destruct b as [|y b].
  { cbn [flat_map initial_trail_surrogate]. apply Hdefault. discriminate. }
  inversion Hb as [|? ? Hy Hb1]; subst. cbn [flat_map] in *.
  rewrite initial_trail_spec by auto.
  destruct (between 0xDC00 0xDFFF y) eqn:Et.
  2:{ apply Hdefault. intros x' a' y' b' _ [= <- <-].
      unfold between, is_trail in *. intros [? ?]. lia. }
  assert (Hl : is_lead x) by (unfold between, is_lead in *; lia).
  assert (Ht : is_trail y) by (unfold between, is_trail in *; lia).
  pose proof (pair_not_surrogate _ _ Hl Ht) as Hp.
  rewrite firstn_drop3 by (unfold is_lead in Hl; lia).
  replace 3%nat with (length (utf8 y)) by (apply utf8_3; unfold is_trail in Ht; lia).
  rewrite skipn_len_app.
  exists (a ++ decode_surrogate_pair x y :: b). repeat split.
  - apply Forall_app. split; auto. constructor; auto. unfold is_cp. lia.
  - apply no_pair_app.
    + apply no_pair_app_l in Hna; auto.
    + cbn [no_pair] in *. destruct Hnb as [Hnb1 Hnb]. split; auto.
      destruct b; auto. unfold is_lead in *. lia.
    + intros x' a' y' b' _ [= <- <-]. unfold is_trail. lia.
  - rewrite flat_map_app. cbn [flat_map]. unfold push_char, push_code_point_unchecked.
    rewrite encode_utf8_raw_spec by (unfold is_cp; lia).
    rewrite <- app_assoc. reflexivity.
  - rewrite !flat_map_app. cbn [flat_map]. rewrite utf16_pair by auto.
    rewrite <- !app_assoc. f_equal.
    rewrite !utf16_bmp by (unfold is_lead, is_trail in *; lia). reflexivity.
Qed.

(** Lossy conversion. *)
Lemma next_surrogate_step pos c l : is_cp c ->
  next_surrogate_from pos (utf8 c ++ l) =
  if between 0xD800 0xDFFF c then Some (pos, c)
  else next_surrogate_from (pos + length (utf8 c)) l.
Proof.
  intros Hc. unfold utf8, is_cp, between in *.
  destruct (c <? 0x80) eqn:E1.
  { cbn [app next_surrogate_from length]. rewrite E1.
    assert ((0xD800 <=? c) && (c <=? 0xDFFF) = false) as -> by lia. reflexivity. }
  destruct (c <? 0x800) eqn:E2.
  { cbn [app next_surrogate_from length].
    assert (192 + c / 64 <? 128 = false) as -> by lia.
    assert (192 + c / 64 <? 224 = true) as -> by lia.
    assert ((0xD800 <=? c) && (c <=? 0xDFFF) = false) as -> by lia. reflexivity. }
  destruct (c <? 0x10000) eqn:E3.
  { cbn [app next_surrogate_from length].
    assert (224 + c / 4096 <? 128 = false) as -> by lia.
    assert (224 + c / 4096 <? 224 = false) as -> by lia.
    destruct ((0xD800 <=? c) && (c <=? 0xDFFF)) eqn:Es.
    - assert (224 + c / 4096 =? 237 = true) as -> by lia.
      assert (160 <=? 128 + c / 64 mod 64 = true) as -> by lia.
      rewrite decode_surrogate_spec by (unfold is_surrogate; lia). reflexivity.
    - destruct (224 + c / 4096 =? 237) eqn:Eed.
      + assert (160 <=? 128 + c / 64 mod 64 = false) as -> by lia. reflexivity.
      + assert (224 + c / 4096 <? 240 = true) as -> by lia. reflexivity. }
  cbn [app next_surrogate_from length].
  assert (240 + c / 262144 <? 128 = false) as -> by lia.
  assert (240 + c / 262144 <? 224 = false) as -> by lia.
  assert (240 + c / 262144 =? 237 = false) as -> by lia.
  assert (240 + c / 262144 <? 240 = false) as -> by lia.
  assert ((0xD800 <=? c) && (c <=? 0xDFFF) = false) as -> by lia. reflexivity.
Qed.

Lemma next_surrogate_split pos cps : Forall is_cp cps ->
  (Forall (fun c => ~ is_surrogate c) cps /\ next_surrogate_from pos (flat_map utf8 cps) = None)
  \/ exists a c b, cps = a ++ c :: b /\ Forall (fun c => ~ is_surrogate c) a /\ is_surrogate c
     /\ next_surrogate_from pos (flat_map utf8 cps)
        = Some ((pos + length (flat_map utf8 a))%nat, c).
Proof.
  intros H. revert pos. induction H as [|c cps Hc _ IH]; intros pos.
  { left. split; auto. }
  cbn [flat_map]. rewrite next_surrogate_step by auto.
  destruct (between 0xD800 0xDFFF c) eqn:E.
  - right. exists [], c, cps. cbn. repeat split; auto.
    + unfold is_surrogate, between in *. lia.
    + unfold is_surrogate, between in *. lia.
    + f_equal. f_equal. lia.
  - assert (~ is_surrogate c) by (unfold is_surrogate, between in *; lia).
    destruct (IH (pos + length (utf8 c))%nat) as [[H1 H2]|(a & d & b & -> & Ha & Hd & H2)].
    + left. split; auto.
    + right. exists (c :: a), d, b. cbn. repeat split; auto.
      * unfold is_surrogate in Hd. lia.
      * unfold is_surrogate in Hd. lia.
      * rewrite H2. rewrite app_length. f_equal. f_equal. lia.
Qed.

Lemma as_str_spec cps : Forall is_cp cps ->
  (Forall (fun c => ~ is_surrogate c) cps /\ as_str (flat_map utf8 cps) = Ok (Some (flat_map utf8 cps)))
  \/ (Exists is_surrogate cps /\ as_str (flat_map utf8 cps) = Ok None).
Proof.
  intros H. unfold as_str, next_surrogate. cbn [Nat.leb skipn].
  destruct (next_surrogate_split 0 cps H) as [[H1 H2]|(a & d & b & -> & Ha & Hd & H2)];
    cbn [bind]; rewrite H2; [left|right]; split; auto.
  apply Exists_app. right. left. auto.
Qed.

Lemma replace_id a : Forall (fun c => ~ is_surrogate c) a -> map replace_surrogate a = a.
Proof.
  induction 1 as [|c a Hc _ IH]; cbn; auto. unfold is_surrogate in Hc. unfold replace_surrogate at 1.
  assert ((55296 <=? c) && (c <=? 57343) = false) as -> by lia. congruence.
Qed.

Lemma replace_surr c : is_surrogate c -> utf8 (replace_surrogate c) = replacement.
Proof.
  unfold is_surrogate, replace_surrogate. intros.
  assert ((55296 <=? c) && (c <=? 57343) = true) as -> by lia. reflexivity.
Qed.


Lemma slice_mid (a b c : list Z) : slice (a ++ b ++ c) (length a) (length a + length b) = b.
Proof.
  unfold slice. rewrite skipn_len_app.
  replace (length a + length b - length a)%nat with (length b) by lia.
  apply firstn_len_app.
Qed.

Lemma surr_len c : is_surrogate c -> length (utf8 c) = 3%nat.
Proof. unfold is_surrogate. intros. apply utf8_3. lia. Qed.

Lemma lossy_loop_spec fuel : forall pre cps out,
  Forall is_cp cps -> (length cps <= fuel)%nat ->
  to_string_lossy_loop fuel (pre ++ flat_map utf8 cps) out (length pre)
  = Ok (out ++ flat_map utf8 (map replace_surrogate cps)).
Proof.
  induction fuel as [|fuel IH]; intros pre cps out Hcs Hf.
  { destruct cps; [|cbn in Hf; lia]. cbn [to_string_lossy_loop flat_map map].
    unfold next_surrogate. rewrite app_nil_r.
    assert (length pre <=? length pre = true)%nat as -> by (apply Nat.leb_le; lia).
    rewrite skipn_all. reflexivity. }
  cbn [to_string_lossy_loop]. unfold next_surrogate.
  assert (length pre <=? length (pre ++ flat_map utf8 cps) = true)%nat as ->
    by (apply Nat.leb_le; rewrite app_length; lia).
  rewrite skipn_len_app. cbn [bind].
  destruct (next_surrogate_split (length pre) cps Hcs) as [[H1 H2]|(a & d & b & -> & Ha & Hd & H2)];
    rewrite H2.
  { rewrite replace_id by auto. reflexivity. }
  apply Forall_app in Hcs as [Hca Hcb]. inversion Hcb as [|? ? Hcd Hcb']; subst.
  rewrite flat_map_app. cbn [flat_map]. rewrite slice_mid.
  replace (length pre + length (flat_map utf8 a) + 3)%nat
    with (length (pre ++ flat_map utf8 a ++ utf8 d))
    by (rewrite !app_length, surr_len by auto; lia).
  replace (pre ++ flat_map utf8 a ++ utf8 d ++ flat_map utf8 b)
    with ((pre ++ flat_map utf8 a ++ utf8 d) ++ flat_map utf8 b)
    by (rewrite <- !app_assoc; reflexivity).
  rewrite IH; auto.
  2:{ rewrite app_length in Hf. cbn in Hf. lia. }
  f_equal. rewrite map_app, flat_map_app. cbn [map flat_map].
  rewrite (replace_surr d), (replace_id a) by auto. rewrite <- !app_assoc. reflexivity.
Qed.

Lemma cps_le_bytes cps : (length cps <= length (flat_map utf8 cps))%nat.
Proof.
  induction cps as [|c cps IH]; cbn; auto. rewrite app_length.
  pose proof (utf8_length c). lia.
Qed.

Lemma to_string_lossy_spec cps : Forall is_cp cps ->
  to_string_lossy (flat_map utf8 cps) = Ok (flat_map utf8 (map replace_surrogate cps)).
Proof.
  intros Hcs. unfold to_string_lossy, next_surrogate. cbn [Nat.leb skipn bind].
  destruct (next_surrogate_split 0 cps Hcs) as [[H1 H2]|(a & d & b & -> & Ha & Hd & H2)];
    rewrite H2.
  { rewrite replace_id by auto. reflexivity. }
  apply Forall_app in Hcs as [Hca Hcb]. inversion Hcb as [|? ? Hcd Hcb']; subst.
  rewrite flat_map_app. cbn [flat_map Nat.add]. rewrite firstn_len_app.
  replace (length (flat_map utf8 a) + 3)%nat with (length (flat_map utf8 a ++ utf8 d))
    by (rewrite !app_length, surr_len by auto; lia).
  rewrite app_assoc. rewrite lossy_loop_spec; auto.
  - f_equal. rewrite map_app, flat_map_app. cbn [map flat_map].
    rewrite (replace_surr d), (replace_id a) by auto. rewrite <- !app_assoc. reflexivity.
  - rewrite !app_length. pose proof (cps_le_bytes b). lia.
Qed.

Lemma into_string_lossy_loop_spec fuel : forall pre cps,
  Forall is_cp cps -> (length cps <= fuel)%nat ->
  into_string_lossy_fuel fuel (pre ++ flat_map utf8 cps) (length pre)
  = Ok (pre ++ flat_map utf8 (map replace_surrogate cps)).
Proof.
  induction fuel as [|fuel IH]; intros pre cps Hcs Hf.
  { destruct cps; [|cbn in Hf; lia]. cbn [into_string_lossy_fuel flat_map map].
    unfold next_surrogate. rewrite app_nil_r.
    assert (length pre <=? length pre = true)%nat as -> by (apply Nat.leb_le; lia).
    rewrite skipn_all. reflexivity. }
  cbn [into_string_lossy_fuel]. unfold next_surrogate.
  assert (length pre <=? length (pre ++ flat_map utf8 cps) = true)%nat as ->
    by (apply Nat.leb_le; rewrite app_length; lia).
  rewrite skipn_len_app. cbn [bind].
  destruct (next_surrogate_split (length pre) cps Hcs) as [[H1 H2]|(a & d & b & -> & Ha & Hd & H2)];
    rewrite H2.
  { rewrite replace_id by auto. reflexivity. }
  apply Forall_app in Hcs as [Hca Hcb]. inversion Hcb as [|? ? Hcd Hcb']; subst.
  rewrite flat_map_app. cbn [flat_map].
  match goal with |- context [Nat.leb ?x ?y] =>
    assert (Nat.leb x y = true) as -> end.
  { apply Nat.leb_le. rewrite !app_length, surr_len by auto. lia. }
  unfold overwrite.
  replace (firstn (length pre + length (flat_map utf8 a))
             (pre ++ flat_map utf8 a ++ utf8 d ++ flat_map utf8 b))
    with (pre ++ flat_map utf8 a).
  2:{ rewrite <- app_length, app_assoc. symmetry. apply firstn_len_app. }
  replace (skipn (length pre + length (flat_map utf8 a) + 3)
             (pre ++ flat_map utf8 a ++ utf8 d ++ flat_map utf8 b))
    with (flat_map utf8 b).
  2:{ replace (length pre + length (flat_map utf8 a) + 3)%nat
        with (length ((pre ++ flat_map utf8 a) ++ utf8 d))
        by (rewrite !app_length, surr_len by auto; lia).
      rewrite app_assoc, (app_assoc (pre ++ flat_map utf8 a)). symmetry. apply skipn_len_app. }
  replace (length pre + length (flat_map utf8 a) + 3)%nat
    with (length ((pre ++ flat_map utf8 a) ++ replacement))
    by (rewrite !app_length; cbn; lia).
  rewrite (app_assoc (pre ++ flat_map utf8 a)).
  rewrite IH; auto.
  2:{ rewrite app_length in Hf. cbn in Hf. lia. }
  f_equal. rewrite map_app, flat_map_app. cbn [map flat_map].
  rewrite (replace_surr d), (replace_id a) by auto. rewrite <- !app_assoc. reflexivity.
Qed.

Lemma into_string_lossy_spec cps : Forall is_cp cps ->
  into_string_lossy (flat_map utf8 cps) = Ok (flat_map utf8 (map replace_surrogate cps)).
Proof.
  intros. unfold into_string_lossy.
  apply (into_string_lossy_loop_spec _ [] cps); auto. apply cps_le_bytes.
Qed.

(** Boundaries. *)
Lemma utf8_head_not_cont c b t : is_cp c -> utf8 c = b :: t ->
  (128 <=? b) && (b <? 192) = false /\ Forall (fun x => (128 <=? x) && (x <? 192) = true) t.
Proof.
  unfold is_cp, utf8. intros Hc.
  destruct (c <? 0x80) eqn:E1; [|destruct (c <? 0x800) eqn:E2;
    [|destruct (c <? 0x10000) eqn:E3]];
    intros [= <- <-]; (split; [lia|repeat first [apply Forall_nil|apply Forall_cons]; lia]).
Qed.

Lemma nth_error_mid {A} (a b : list A) i : (length a <= i)%nat ->
  nth_error (a ++ b) i = nth_error b (i - length a).
Proof. intros. apply nth_error_app2. lia. Qed.

Lemma boundary_iff cps i : Forall is_cp cps ->
  is_code_point_boundary (flat_map utf8 cps) i = true <->
  exists a b, cps = a ++ b /\ i = length (flat_map utf8 a).
Proof.
  intros Hcs. split.
  - unfold is_code_point_boundary. revert i.
    induction Hcs as [|c cps Hc Hcs IH]; intros i H.
    { cbn in H. destruct i; cbn in H; [|discriminate]. exists [], []. auto. }
    destruct (Nat.eqb_spec i (length (flat_map utf8 (c :: cps)))) as [Hi|Hne].
    { exists (c :: cps), []. rewrite app_nil_r. auto. }
    destruct i as [|i'].
    { exists [], (c :: cps). auto. }
    destruct (utf8_nonempty c) as (b & t & Ec).
    destruct (utf8_head_not_cont c b t Hc Ec) as [_ Ht].
    cbn [flat_map] in *. rewrite app_length in Hne.
    destruct (Nat.leb_spec (length (utf8 c)) (S i')) as [Hle|Hlt].
    + rewrite nth_error_mid in H by lia.
      destruct (IH (S i' - length (utf8 c))%nat) as (a & b' & -> & Hi).
      { destruct (Nat.eqb_spec (S i' - length (utf8 c)) (length (flat_map utf8 cps))); auto. }
      exists (c :: a), b'. split; auto. cbn. rewrite app_length. lia.
    + exfalso. rewrite nth_error_app1 in H by lia. rewrite Ec in H, Hlt.
      cbn [nth_error] in H. cbn in Hlt.
      destruct (nth_error t i') as [x|] eqn:En.
      * apply nth_error_In in En. rewrite Forall_forall in Ht. rewrite (Ht x En) in H. discriminate.
      * apply nth_error_None in En. lia.
  - intros (a & b & -> & ->). unfold is_code_point_boundary.
    destruct (Nat.eqb_spec (length (flat_map utf8 a)) (length (flat_map utf8 (a ++ b)))); auto.
    rewrite flat_map_app. rewrite nth_error_mid by lia. rewrite Nat.sub_diag.
    destruct b as [|c b].
    { exfalso. apply n. rewrite app_nil_r. auto. }
    apply Forall_app in Hcs as [_ Hb]. inversion Hb; subst.
    destruct (utf8_nonempty c) as (x & t & Ec).
    destruct (utf8_head_not_cont c x t) as [Hx _]; auto.
    cbn. rewrite Ec. cbn. rewrite Hx. reflexivity.
Qed.

Lemma app_split_le {A} (f : A -> list Z) (a b a' b' : list A) :
  (forall x, 1 <= length (f x))%nat ->
  a ++ b = a' ++ b' -> (length (flat_map f a) <= length (flat_map f a'))%nat ->
  exists m, a' = a ++ m /\ b = m ++ b'.
Proof.
  intros Hf. revert a'. induction a as [|x a IH]; intros a' E Hl.
  { exists a'. auto. }
  destruct a' as [|y a'].
  { cbn in Hl. rewrite app_length in Hl. specialize (Hf x). lia. }
  cbn in E. inversion E; subst. cbn in Hl. rewrite !app_length in Hl.
  destruct (IH a') as (m & -> & ->); auto; try lia. exists m. auto.
Qed.

Lemma index_range_spec cps i j : Forall is_cp cps ->
  (exists x y z, cps = x ++ y ++ z /\ i = length (flat_map utf8 x) /\
     j = (i + length (flat_map utf8 y))%nat /\
     index_range (flat_map utf8 cps) i j = Ok (flat_map utf8 y))
  \/ (index_range (flat_map utf8 cps) i j = Panic PIndex /\
      ~ exists x y z, cps = x ++ y ++ z /\ i = length (flat_map utf8 x) /\
        j = (i + length (flat_map utf8 y))%nat).
Proof.
  intros H. unfold index_range.
  destruct ((i <=? j)%nat && is_code_point_boundary (flat_map utf8 cps) i
            && is_code_point_boundary (flat_map utf8 cps) j) eqn:E.
  - left. apply andb_prop in E as [E E3]. apply andb_prop in E as [E1 E2].
    apply Nat.leb_le in E1. apply (boundary_iff cps i H) in E2 as (a & b & -> & ->).
    apply (boundary_iff (a ++ b) j H) in E3 as (a' & b' & E & ->).
    destruct (app_split_le utf8 a b a' b') as (m & -> & ->); auto.
    { intros x. pose proof (utf8_length x). lia. }
    exists a, m, b'. repeat split; auto.
    + rewrite flat_map_app, app_length. auto.
    + rewrite !flat_map_app, app_length. rewrite slice_mid. reflexivity.
  - right. split; auto. intros (x & y & z & -> & -> & ->).
    assert (is_code_point_boundary (flat_map utf8 (x ++ y ++ z)) (length (flat_map utf8 x)) = true) as E1.
    { apply boundary_iff; eauto. }
    assert (is_code_point_boundary (flat_map utf8 (x ++ y ++ z))
              (length (flat_map utf8 x) + length (flat_map utf8 y)) = true) as E2.
    { apply boundary_iff; auto. exists (x ++ y), z. rewrite app_assoc. split; auto.
      rewrite flat_map_app, app_length. auto. }
    rewrite E1, E2 in E.
    assert ((length (flat_map utf8 x) <=? length (flat_map utf8 x) + length (flat_map utf8 y))%nat
            = true) as E3 by (apply Nat.leb_le; lia).
    rewrite E3 in E. discriminate.
Qed.

Lemma truncate_spec cps i : Forall is_cp cps ->
  (exists x y, cps = x ++ y /\ i = length (flat_map utf8 x) /\
     truncate (flat_map utf8 cps) i = Ok (flat_map utf8 x))
  \/ (truncate (flat_map utf8 cps) i = Panic PAssert /\
      ~ exists x y, cps = x ++ y /\ i = length (flat_map utf8 x)).
Proof.
  intros H. unfold truncate.
  destruct (is_code_point_boundary (flat_map utf8 cps) i) eqn:E.
  - left. apply (boundary_iff cps i H) in E as (a & b & -> & ->).
    exists a, b. repeat split; auto. rewrite flat_map_app, firstn_len_app. reflexivity.
  - right. split; auto. intros (x & y & Hxy).
    assert (is_code_point_boundary (flat_map utf8 cps) i = true); [|congruence].
    apply boundary_iff; eauto.
Qed.
