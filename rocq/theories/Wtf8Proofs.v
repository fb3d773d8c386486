(** Proofs about the WTF-8 model. *)
From Verif Require Import Base BaseLemmas Wtf8Spec Wtf8Model.

Ltac split_ifs :=
  repeat match goal with
  | |- context [if ?b then _ else _] => destruct b eqn:?
  | H : context [if ?b then _ else _] |- _ => destruct b eqn:?
  end.

Ltac list_eq :=
  repeat match goal with
  | |- _ :: _ = _ :: _ => apply f_equal2
  | |- Ok _ = Ok _ => apply f_equal
  | |- Some _ = Some _ => apply f_equal
  | |- (_, _) = (_, _) => apply f_equal2
  end; try reflexivity; try lia.

Ltac pow2 :=
  change (2 ^ 3) with 8 in *; change (2 ^ 4) with 16 in *; change (2 ^ 5) with 32 in *;
  change (2 ^ 6) with 64 in *; change (2 ^ 8) with 256 in *; change (2 ^ 10) with 1024 in *;
  change (2 ^ 12) with 4096 in *; change (2 ^ 16) with 65536 in *;
  change (2 ^ 18) with 262144 in *.

Ltac bits0 :=
  repeat (rewrite Z.shiftr_div_pow2 by lia); repeat (rewrite Z.shiftl_mul_pow2 by lia);
  repeat (rewrite (land_mod _ 3 0x7) by (reflexivity || lia));
  repeat (rewrite (land_mod _ 4 0xF) by (reflexivity || lia));
  repeat (rewrite (land_mod _ 5 0x1F) by (reflexivity || lia));
  repeat (rewrite (land_mod _ 6 0x3F) by (reflexivity || lia));
  repeat (rewrite (land_mod _ 8 0xFF) by (reflexivity || lia));
  repeat (rewrite (land_mod _ 10 0x3FF) by (reflexivity || lia));
  repeat (rewrite (land_mod _ 16 0xFFFF) by (reflexivity || lia));
  pow2.

Lemma encode_utf8_raw_spec c : is_cp c -> encode_utf8_raw c = utf8 c.
Proof.
  unfold is_cp, encode_utf8_raw, utf8, len_utf8. intros Hc. bits0.
  destruct (c <? 0x80) eqn:E1; cbn [Z.eqb Pos.eqb]; [reflexivity|].
  destruct (c <? 0x800) eqn:E2; cbn [Z.eqb Pos.eqb].
  { rewrite (lor_add _ 0xC0 5) by (pow2; (reflexivity || lia)).
    rewrite (lor_add _ 0x80 6) by (pow2; (reflexivity || lia)).
    list_eq. }
  destruct (c <? 0x10000) eqn:E3; cbn [Z.eqb Pos.eqb].
  { rewrite (lor_add _ 0xE0 4) by (pow2; (reflexivity || lia)).
    rewrite !(lor_add _ 0x80 6) by (pow2; (reflexivity || lia)).
    list_eq. }
  rewrite (lor_add _ 0xF0 3) by (pow2; (reflexivity || lia)).
  rewrite !(lor_add _ 0x80 6) by (pow2; (reflexivity || lia)).
  list_eq.
Qed.

Lemma encode_utf16_raw_spec c : is_cp c -> encode_utf16_raw c = utf16 c.
Proof.
  unfold is_cp, encode_utf16_raw, utf16. intros Hc. bits0.
  destruct (c <? 0x10000) eqn:E1.
  { rewrite Z.mod_small by lia. rewrite Z.eqb_refl. reflexivity. }
  assert (c mod 65536 =? c = false) as -> by lia.
  rewrite (lor_add' 0xD800 _ 10) by (pow2; (reflexivity || lia)).
  rewrite (lor_add' 0xDC00 _ 10) by (pow2; (reflexivity || lia)).
  list_eq.
Qed.

Lemma utf8_acc ch b : utf8_acc_cont_byte ch b = ch * 64 + b mod 64.
Proof.
  unfold utf8_acc_cont_byte. bits0.
  rewrite (lor_add' _ _ 6); pow2; lia.
Qed.

Lemma utf8_first b : utf8_first_byte b 2 = b mod 32.
Proof. unfold utf8_first_byte. change (Z.shiftr 0x7F 2) with 0x1F. bits0. reflexivity. Qed.

Lemma next_code_point_utf8 c l :
  is_cp c -> next_code_point (utf8 c ++ l) = Ok (Some (c, l)).
Proof.
  unfold is_cp, utf8. intros Hc.
  destruct (c <? 0x80) eqn:E1.
  { cbn. assert (c <? 128 = true) as -> by lia. reflexivity. }
  destruct (c <? 0x800) eqn:E2.
  { cbn [app next_code_point].
    assert (192 + c / 64 <? 128 = false) as -> by lia.
    assert (0xE0 <=? 192 + c / 64 = false) as -> by lia.
    rewrite utf8_acc, utf8_first. list_eq. }
  destruct (c <? 0x10000) eqn:E3.
  { cbn [app next_code_point].
    assert (0xE0 + c / 4096 <? 128 = false) as -> by lia.
    assert (0xE0 <=? 0xE0 + c / 4096 = true) as -> by lia.
    assert (0xF0 <=? 0xE0 + c / 4096 = false) as -> by lia.
    rewrite !utf8_acc, utf8_first. bits0.
    set (q := c / 64). set (p := c / 4096).
    rewrite (lor_add' _ _ 12); pow2; try lia.
    subst q p; list_eq. }
  cbn [app next_code_point].
  assert (0xF0 + c / 262144 <? 128 = false) as -> by lia.
  assert (0xE0 <=? 0xF0 + c / 262144 = true) as -> by lia.
  assert (0xF0 <=? 0xF0 + c / 262144 = true) as -> by lia.
  rewrite !utf8_acc, utf8_first. bits0.
  assert (Hb : 0 <= ((128 + c / 4096 mod 64) mod 64 * 64 + (128 + c / 64 mod 64) mod 64) * 64 +
              (128 + c mod 64) mod 64 < 262144) by lia.
  rewrite (lor_add' _ _ 18); pow2; try lia.
  list_eq.
Qed.

Lemma utf8_nonempty c : exists b t, utf8 c = b :: t.
Proof. unfold utf8. split_ifs; eauto. Qed.

Lemma utf8_length c : (1 <= length (utf8 c) <= 4)%nat.
Proof. unfold utf8. split_ifs; cbn; lia. Qed.

Lemma next_code_point_length l c l' :
  next_code_point l = Ok (Some (c, l')) -> (length l' < length l)%nat.
Proof.
  unfold next_code_point. intros H.
  destruct l as [|x l1]; try discriminate.
  destruct (x <? 128). { inversion H; subst; cbn; lia. }
  destruct l1 as [|y l2]; try discriminate.
  destruct (0xE0 <=? x).
  2:{ inversion H; subst; cbn; lia. }
  destruct l2 as [|z l3]; try discriminate.
  destruct (0xF0 <=? x).
  2:{ inversion H; subst; cbn; lia. }
  destruct l3 as [|w l4]; try discriminate. inversion H; subst; cbn; lia.
Qed.

Lemma codepoints_fuel_utf8 cps : Forall is_cp cps ->
  forall n, (length (flat_map utf8 cps) <= n)%nat ->
  codepoints_fuel n (flat_map utf8 cps) = Ok cps.
Proof.
  induction 1 as [|c cps Hc Hcps IH]; intros n Hn.
  { destruct n; reflexivity. }
  cbn [flat_map] in *. rewrite app_length in Hn.
  pose proof (utf8_length c).
  destruct n as [|n]; [lia|].
  cbn [codepoints_fuel]. rewrite next_code_point_utf8 by auto.
  rewrite IH by lia. reflexivity.
Qed.

Lemma codepoints_utf8 cps : Forall is_cp cps -> codepoints (flat_map utf8 cps) = Ok cps.
Proof. intros. apply codepoints_fuel_utf8; auto. Qed.

(** Injectivity of the encoding. *)
Lemma utf8_inj cps cps' : Forall is_cp cps -> Forall is_cp cps' ->
  flat_map utf8 cps = flat_map utf8 cps' -> cps = cps'.
Proof.
  intros H H' E. apply codepoints_utf8 in H. apply codepoints_utf8 in H'. congruence.
Qed.

(** Termination of [codepoints] on arbitrary bytes: fuel is never exhausted. *)
Lemma codepoints_fuel_enough n l : (length l <= n)%nat -> codepoints_fuel n l <> Panic PFuel.
Proof.
  revert l. induction n as [|n IH]; intros l Hl; cbn [codepoints_fuel].
  - destruct l; [cbn; discriminate|cbn in Hl; lia].
  - destruct (next_code_point l) as [[[c l']|]|e|p] eqn:E; try discriminate.
    + apply next_code_point_length in E.
      specialize (IH l' ltac:(lia)). destruct (codepoints_fuel n l'); cbn; congruence.
    + unfold next_code_point in E.
      destruct l as [|x l1]; try discriminate.
      destruct (x <? 128); try discriminate.
      destruct l1 as [|y l2]; try congruence.
      destruct (0xE0 <=? x); try discriminate.
      destruct l2 as [|z l3]; try congruence.
      destruct (0xF0 <=? x); try discriminate.
      destruct l3 as [|w l4]; try congruence.
Qed.

(** UTF-16. *)
Lemma utf16_length c : (1 <= length (utf16 c) <= 2)%nat.
Proof. unfold utf16. split_ifs; cbn; lia. Qed.

Lemma utf16_le_utf8 c : (length (utf16 c) <= 2 * length (utf8 c))%nat.
Proof. pose proof (utf16_length c). pose proof (utf8_length c). lia. Qed.

Lemma encode_wide_fuel_utf8 cps : Forall is_cp cps ->
  forall n, (length (flat_map utf16 cps) <= n)%nat ->
  encode_wide_fuel n (flat_map utf8 cps, 0) = Ok (flat_map utf16 cps).
Proof.
  induction 1 as [|c cps Hc Hcps IH]; intros n Hn.
  { destruct n; reflexivity. }
  cbn [flat_map] in *. rewrite app_length in Hn.
  pose proof (utf16_length c).
  destruct n as [|n]; [lia|].
  cbn [encode_wide_fuel]. unfold encode_wide_next at 1.
  change (negb (0 =? 0)) with false. cbv iota.
  rewrite next_code_point_utf8 by auto. cbn [bind].
  rewrite encode_utf16_raw_spec by auto.
  unfold utf16 in *. unfold is_cp in *.
  destruct (c <? 0x10000).
  - cbn [length app] in *. cbn [bind]. rewrite IH by lia. reflexivity.
  - cbn [length app] in *. cbn [bind].
    destruct n as [|n]; [lia|].
    cbn [encode_wide_fuel]. unfold encode_wide_next at 1.
    assert (negb (56320 + (c - 65536) mod 1024 =? 0) = true) as -> by lia.
    cbn [bind]. rewrite IH by lia. reflexivity.
Qed.

Lemma encode_wide_utf8 cps : Forall is_cp cps ->
  encode_wide (flat_map utf8 cps) = Ok (flat_map utf16 cps).
Proof.
  intros H. unfold encode_wide. apply encode_wide_fuel_utf8; auto.
  clear H. induction cps as [|c cps IH]; cbn [flat_map]; [cbn; lia|].
  rewrite !app_length. pose proof (utf16_le_utf8 c). lia.
Qed.

(** Decoding UTF-16. *)
Definition item_cp (x : Z + Z) : Z := match x with inl c => c | inr c => c end.

Lemma from_wide_fold items acc :
  fold_left (fun s item =>
               match item with
               | inl ch => push_char s ch
               | inr sg => push_code_point_unchecked s sg
               end) items acc = acc ++ flat_map encode_utf8_raw (map item_cp items).
Proof.
  revert acc. induction items as [|x items IH]; intros acc; cbn.
  - rewrite app_nil_r. reflexivity.
  - rewrite IH. destruct x; cbn; unfold push_char, push_code_point_unchecked;
      rewrite <- app_assoc; reflexivity.
Qed.

Lemma pair_arith u u2 : 0xD800 <= u <= 0xDBFF -> 0xDC00 <= u2 <= 0xDFFF ->
  Z.lor (Z.shiftl (Z.land u 0x3FF) 10) (Z.land u2 0x3FF) + 0x10000
  = 0x10000 + (u - 0xD800) * 1024 + (u2 - 0xDC00).
Proof.
  intros. bits0. rewrite (lor_add' _ _ 10); pow2; lia.
Qed.

Lemma decode_utf16_props v : Forall u16 v ->
  let cps := map item_cp (decode_utf16 v) in
  Forall is_cp cps /\ flat_map utf16 cps = v /\ no_pair cps
  /\ (forall c t, cps = c :: t ->
        exists u v', v = u :: v' /\ (is_trail c -> is_trail u)).
Proof.
  remember (length v) as n eqn:Hn.
  assert (Hle : (length v <= n)%nat) by lia. clear Hn.
  revert v Hle. induction n as [|n IH]; intros v Hle Hv.
  { destruct v; [|cbn in Hle; lia]. cbn. repeat split; auto; intros; discriminate. }
  destruct v as [|u v1]; cbn [decode_utf16].
  { cbn. repeat split; auto; intros; discriminate. }
  inversion Hv as [|? ? Hu Hv1]; subst. unfold u16 in Hu. cbn [length] in Hle.
  unfold between.
  destruct (negb ((0xD800 <=? u) && (u <=? 0xDFFF))) eqn:E1.
  { destruct (IH v1 ltac:(lia) Hv1) as (Hc & Hf & Hp & Hh).
    cbn [map item_cp]. repeat split.
    - constructor; auto. unfold is_cp. lia.
    - cbn [flat_map]. rewrite Hf. unfold utf16.
      assert (u <? 65536 = true) as -> by lia. reflexivity.
    - destruct (map item_cp (decode_utf16 v1)) eqn:E; auto. unfold is_lead. lia.
    - exact Hp.
    - intros c t [= <- <-]. eauto. }
  destruct (0xDC00 <=? u) eqn:E2.
  { destruct (IH v1 ltac:(lia) Hv1) as (Hc & Hf & Hp & Hh).
    cbn [map item_cp]. repeat split.
    - constructor; auto. unfold is_cp. lia.
    - cbn [flat_map]. rewrite Hf. unfold utf16.
      assert (u <? 65536 = true) as -> by lia. reflexivity.
    - destruct (map item_cp (decode_utf16 v1)) eqn:E; auto. unfold is_lead. lia.
    - exact Hp.
    - intros c t [= <- <-]. eauto. }
  destruct v1 as [|u2 v2].
  { cbn. repeat split; auto.
    - constructor; auto. unfold is_cp. lia.
    - unfold utf16. assert (u <? 65536 = true) as -> by lia. reflexivity.
    - intros c t [= <- <-]. eauto. }
  inversion Hv1 as [|? ? Hu2 Hv2]; subst. unfold u16 in Hu2. cbn [length] in Hle.
  destruct (negb ((0xDC00 <=? u2) && (u2 <=? 0xDFFF))) eqn:E3.
  { destruct (IH (u2 :: v2) ltac:(cbn; lia) Hv1) as (Hc & Hf & Hp & Hh).
    cbn [map item_cp]. repeat split.
    - constructor; auto. unfold is_cp. lia.
    - cbn [flat_map]. cbn zeta in Hf. rewrite Hf. unfold utf16.
      assert (u <? 65536 = true) as -> by lia. reflexivity.
    - destruct (map item_cp (decode_utf16 (u2 :: v2))) as [|c t] eqn:E; auto.
      intros [_ Ht]. destruct (Hh c t eq_refl) as (u' & v' & [= <- <-] & Himp).
      apply Himp in Ht. unfold is_trail in Ht. lia.
    - exact Hp.
    - intros c t [= <- <-]. eauto. }
  destruct (IH v2 ltac:(lia) Hv2) as (Hc & Hf & Hp & Hh).
  cbn [map item_cp]. rewrite pair_arith by lia.
  set (w := 0x10000 + (u - 0xD800) * 1024 + (u2 - 0xDC00)).
  assert (Hw : 0x10000 <= w <= 0x10FFFF) by (subst w; lia).
  repeat split.
  - constructor; auto. unfold is_cp. lia.
  - cbn [flat_map]. rewrite Hf. unfold utf16.
    assert (w <? 65536 = false) as -> by lia. subst w. cbn [app].
    list_eq.
  - destruct (map item_cp (decode_utf16 v2)) eqn:E; auto. unfold is_lead. lia.
  - exact Hp.
  - intros c t [= <- <-]. exists u. eexists; split; eauto. unfold is_trail. lia.
Qed.

Lemma from_wide_spec v : Forall u16 v ->
  let cps := map item_cp (decode_utf16 v) in
  from_wide v = flat_map utf8 cps.
Proof.
  intros Hv cps. unfold from_wide. rewrite from_wide_fold. cbn [app].
  destruct (decode_utf16_props v Hv) as (Hc & _). fold cps in Hc. fold cps.
  induction Hc as [|c l Hx Hl IH]; cbn; auto.
  rewrite encode_utf8_raw_spec by auto. congruence.
Qed.

(** UTF-16 units determine representable code point sequences. *)
Lemma utf16_first c : is_cp c ->
  exists u t, utf16 c = u :: t /\
   (t = [] /\ u = c /\ c < 0x10000 \/
    exists u2, t = [u2] /\ is_lead u /\ is_trail u2 /\
      c = 0x10000 + (u - 0xD800) * 1024 + (u2 - 0xDC00)).
Proof.
  unfold is_cp, utf16. intros Hc. destruct (c <? 0x10000) eqn:E.
  - exists c, []. split; auto. left. repeat split; auto. lia.
  - do 2 eexists. split; [reflexivity|]. right.
    eexists. repeat split; unfold is_lead, is_trail; lia.
Qed.

Lemma utf16_inj : forall cps cps', wtf8_cps cps -> wtf8_cps cps' ->
  flat_map utf16 cps = flat_map utf16 cps' -> cps = cps'.
Proof.
  induction cps as [|c cps IH]; intros [|c' cps'] (Hf & Hp) (Hf' & Hp') E.
  - reflexivity.
  - cbn in E. destruct (utf16_first c') as (u & t & Eu & _); [inversion Hf'; auto|].
    rewrite Eu in E. discriminate.
  - cbn in E. destruct (utf16_first c) as (u & t & Eu & _); [inversion Hf; auto|].
    rewrite Eu in E. discriminate.
  - inversion Hf as [|? ? Hc Hcs]; inversion Hf' as [|? ? Hc' Hcs']; subst.
    cbn [no_pair] in Hp, Hp'. destruct Hp as [Hp1 Hp], Hp' as [Hp1' Hp'].
    destruct (utf16_first c Hc) as (u & t & Eu & [(-> & -> & Hlt)|(u2 & -> & Hl & Ht & Hx)]);
    destruct (utf16_first c' Hc') as (u' & t' & Eu' & [(-> & -> & Hlt')|(u2' & -> & Hl' & Ht' & Hx')]);
    cbn in E; rewrite Eu, Eu' in E; cbn in E.
    + inversion E; subst. f_equal. apply IH; auto; split; auto.
    + inversion E as [[E1 E2]]; subst u'.
      destruct cps as [|d cps]; [discriminate|].
      inversion Hcs as [|? ? Hd ?]; subst.
      destruct (utf16_first d Hd) as (v & s & Ev & _). cbn in E2. rewrite Ev in E2.
      cbn in E2. inversion E2; subst v.
      exfalso. apply Hp1. split; auto.
      destruct (utf16_first d Hd) as (v & s' & Ev' & [(-> & -> & _)|(u3 & -> & Hl3 & _)]);
        rewrite Ev in Ev'; inversion Ev'; subst; auto.
      unfold is_lead, is_trail in *. lia.
    + inversion E as [[E1 E2]]; subst u.
      destruct cps' as [|d cps']; [discriminate|].
      inversion Hcs' as [|? ? Hd ?]; subst.
      destruct (utf16_first d Hd) as (v & s & Ev & _). cbn in E2. rewrite Ev in E2.
      cbn in E2. inversion E2; subst v.
      exfalso. apply Hp1'. split; auto.
      destruct (utf16_first d Hd) as (v & s' & Ev' & [(-> & -> & _)|(u3 & -> & Hl3 & _)]);
        rewrite Ev in Ev'; inversion Ev'; subst; auto.
      unfold is_lead, is_trail in *. lia.
    + inversion E; subst. f_equal. apply IH; auto; split; auto.
Qed.

Lemma utf16_u16 cps : Forall is_cp cps -> Forall u16 (flat_map utf16 cps).
Proof.
  induction 1 as [|c cps Hc _ IH]; cbn; [constructor|].
  apply Forall_app. split; auto. unfold utf16, is_cp in *.
  destruct (c <? 0x10000) eqn:E; repeat constructor; unfold u16; lia.
Qed.

Lemma from_wide_utf16 cps : wtf8_cps cps ->
  from_wide (flat_map utf16 cps) = flat_map utf8 cps.
Proof.
  intros Hw. pose proof Hw as [Hc Hp].
  pose proof (utf16_u16 _ Hc) as Hu.
  rewrite from_wide_spec by auto.
  destruct (decode_utf16_props _ Hu) as (H1 & H2 & H3 & _). cbn zeta in *.
  f_equal. apply utf16_inj; auto. split; auto.
Qed.
