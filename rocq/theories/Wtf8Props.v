(** Properties C01-C12, C68: strings.  Each theorem is followed by a concrete
    case that meets its hypotheses and by [Print Assumptions]. *)
From Verif Require Import Base BaseLemmas Wtf8Spec Wtf8Model MutfModel.
From Verif Require Import Wtf8Proofs Wtf8Proofs2 Wtf8Proofs3 MutfProofs.

(** A string with NUL, ASCII, 2-, 3- and 4-byte characters, a lone trail and a
    lone lead surrogate. *)
Definition ex_cps : list Z := [0; 0x41; 0xE9; 0xDC00; 0x20AC; 0x1F600; 0xD83D].
Lemma ex_cps_wf : wtf8_cps ex_cps.
Proof.
  split; [repeat constructor; unfold is_cp; lia|].
  cbn. unfold is_lead, is_trail. lia.
Qed.
Definition ex_str : list Z := flat_map utf8 ex_cps.
Lemma ex_str_wf : wf_wtf8 ex_str.
Proof. exists ex_cps. split; [apply ex_cps_wf|reflexivity]. Qed.

(** C01 *)
Theorem C01_mutf8_roundtrip : forall s, wf_wtf8 s ->
  exists b, string_to_modified_utf8 s = Ok b /\ modified_utf8_to_string b = Ok s.
Proof.
  intros s (cps & Hc & ->). exists (mutf8_of (flat_map utf16 cps)).
  split; [apply string_to_mutf8_spec, Hc|apply mutf_decode_spec, Hc].
Qed.
Example C01_ex : wf_wtf8 ex_str /\
  string_to_modified_utf8 ex_str =
    Ok [0xC0; 0x80; 0x41; 0xC3; 0xA9; 0xED; 0xB0; 0x80; 0xE2; 0x82; 0xAC;
        0xED; 0xA0; 0xBD; 0xED; 0xB8; 0x80; 0xED; 0xA0; 0xBD].
Proof. split; [apply ex_str_wf|vm_compute; reflexivity]. Qed.
Print Assumptions C01_mutf8_roundtrip.

(** C02 *)
Theorem C02_mutf8_encoder_format : forall s cps, wtf8_of cps s ->
  string_to_modified_utf8 s = Ok (mutf8_of (flat_map utf16 cps)) /\
  Forall (fun b => b <> 0 /\ b < 0xF0) (mutf8_of (flat_map utf16 cps)).
Proof.
  intros s cps [Hc ->]. split; [apply string_to_mutf8_spec, Hc|].
  eapply Forall_impl; [|apply mutf8_of_range].
  - intros b Hb. cbn in Hb. lia.
  - apply utf16_u16, Hc.
Qed.
Example C02_ex : wtf8_of ex_cps ex_str. Proof. split; [apply ex_cps_wf|reflexivity]. Qed.
Print Assumptions C02_mutf8_encoder_format.

(** C03: [us] is an arbitrary Java string. *)
Theorem C03_mutf8_decoder_agrees : forall us, Forall u16 us ->
  exists s, modified_utf8_to_string (mutf8_of us) = Ok s /\ wf_wtf8 s /\
    encode_wide s = Ok us /\ string_to_modified_utf8 s = Ok (mutf8_of us).
Proof.
  intros us Hu. destruct (decode_utf16_props us Hu) as (Hc & Hus & Hn & _).
  set (cps := map item_cp (decode_utf16 us)) in *.
  exists (flat_map utf8 cps). assert (Hw : wtf8_cps cps) by (split; auto).
  rewrite <- Hus. split; [apply mutf_decode_spec; auto|].
  split; [exists cps; split; auto|]. split; [apply encode_wide_utf8; auto|].
  apply string_to_mutf8_spec; auto.
Qed.
Example C03_ex : Forall u16 [0; 0xDC00; 0xD83D; 0xDE00; 0xD800].
Proof. repeat constructor; unfold u16; lia. Qed.
Print Assumptions C03_mutf8_decoder_agrees.

(** C04: the full statement is false. *)
Lemma valid_mutf8_range b : valid_mutf8 b -> Forall (fun b => 1 <= b <= 0xEF) b.
Proof. intros (us & Hu & ->). apply mutf8_of_range; auto. Qed.

Theorem C04_mutf8_decoder_strict_refuted :
  (* a raw zero byte *)
  (modified_utf8_to_string [0x00] = Ok [0x00] /\ ~ valid_mutf8 [0x00]) /\
  (* the four-byte UTF-8 form *)
  (modified_utf8_to_string [0xF0; 0x90; 0x80; 0x80] = Ok [0xF0; 0x90; 0x80; 0x80] /\
   ~ valid_mutf8 [0xF0; 0x90; 0x80; 0x80]) /\
  (* surrogate halves whose last byte is no continuation byte; the result is
     re-encoded to different bytes *)
  (modified_utf8_to_string [0xED; 0xA0; 0x41; 0xED; 0xB0; 0x42] = Ok [0xF0; 0x90; 0x90; 0x82] /\
   string_to_modified_utf8 [0xF0; 0x90; 0x90; 0x82] = Ok [0xED; 0xA0; 0x81; 0xED; 0xB0; 0x82]).
Proof.
  repeat split; try (vm_compute; reflexivity); intros H; apply valid_mutf8_range in H;
    inversion H; lia.
Qed.
Print Assumptions C04_mutf8_decoder_strict_refuted.

(** What remains true: outside these three leniencies the decoder is strict. *)
Theorem C04_mutf8_decoder_strict_partial : forall b s, bytes b ->
  Forall (fun x => x <> 0 /\ x < 0xF0) b ->
  (forall p n x r, b = p ++ 0xED :: n :: x :: r -> 0xA0 <= n <= 0xBF -> 0x80 <= x <= 0xBF) ->
  modified_utf8_to_string b = Ok s ->
  valid_mutf8 b /\ wf_wtf8 s /\ string_to_modified_utf8 s = Ok b.
Proof.
  intros b s Hb Hr Hs H.
  destruct (mutf_decode_strict b s) as (cps & [Hc ->] & ->); auto.
  { unfold bytes in Hb. rewrite Forall_forall in *. intros x Hx. specialize (Hr x Hx). specialize (Hb x Hx).
    unfold u8 in Hb. cbn in Hr. lia. }
  split; [|split].
  - exists (flat_map utf16 cps). split; auto.
    apply utf16_u16, Hc.
  - exists cps. split; auto.
  - apply string_to_mutf8_spec, Hc.
Qed.
Example C04_ex : let b := [0xC0; 0x80; 0xED; 0xA0; 0xBD; 0xED; 0xB8; 0x80] in
  Forall (fun x => x <> 0 /\ x < 0xF0) b /\ modified_utf8_to_string b = Ok [0; 0xF0; 0x9F; 0x98; 0x80].
Proof. split; [repeat constructor; lia|vm_compute; reflexivity]. Qed.
Print Assumptions C04_mutf8_decoder_strict_partial.

Theorem C04_mutf8_decoder_never_panics : forall b, bytes b ->
  is_panic (modified_utf8_to_string b) = false.
Proof. exact mutf_decode_no_panic. Qed.
Print Assumptions C04_mutf8_decoder_never_panics.

(** C05 *)
Theorem C05_validator_complete : forall s, wf_wtf8 s -> from_bytes s = Ok s.
Proof. intros s (cps & Hc & ->). apply from_bytes_ok; auto. Qed.
Example C05_ex : wf_wtf8 ex_str. Proof. apply ex_str_wf. Qed.
Print Assumptions C05_validator_complete.

(** C06 *)
Theorem C06_validator_sound_refuted :
  from_bytes [0xED; 0xA0; 0x41] = Ok [0xED; 0xA0; 0x41] /\ ~ wf_wtf8 [0xED; 0xA0; 0x41].
Proof.
  split; [vm_compute; reflexivity|]. intros (cps & [Hc _] & E).
  destruct cps as [|c cps]; [discriminate|]. inversion Hc; subst. cbn [flat_map] in E.
  unfold utf8, is_cp in *.
  destruct (c <? 128) eqn:E1; [inversion E; lia|].
  destruct (c <? 2048) eqn:E2; [inversion E; lia|].
  destruct (c <? 65536) eqn:E3; inversion E; lia.
Qed.
Print Assumptions C06_validator_sound_refuted.

(** ... but the third byte of an encoded lead surrogate is the only hole. *)
Theorem C06_validator_sound_partial : forall s, bytes s ->
  (forall p n x r, s = p ++ 0xED :: n :: x :: r -> 0xA0 <= n <= 0xAF -> 0x80 <= x <= 0xBF) ->
  from_bytes s = Ok s -> wf_wtf8 s.
Proof.
  intros s Hb Hs H. unfold from_bytes in H. inv_bind H. destruct v.
  destruct (validate_sound_aux _ _ _ _ (le_n _) Hb Hs E) as (cps & Hc & -> & _).
  exists cps. split; auto.
Qed.
Example C06_ex : from_bytes [0xED; 0xA0; 0x80; 0x41] = Ok [0xED; 0xA0; 0x80; 0x41].
Proof. reflexivity. Qed.
Print Assumptions C06_validator_sound_partial.

(** The validator returns either Ok with the input or a Wtf8Error. *)
Theorem C06_validator_total : forall s,
  from_bytes s = Ok s \/ exists j e, from_bytes s = Err (EWtf8 j e).
Proof.
  intros s. unfold from_bytes, validate_wtf8.
  destruct (validate_only_wtf8_err _ 0 false s (le_n _)) as [->|(j & e & ->)]; cbn; eauto.
Qed.
Print Assumptions C06_validator_total.

(** C07 *)
Theorem C07_valid_up_to_prefix : forall s j e, from_bytes s = Err (EWtf8 j e) ->
  0 <= j < len s /\
  from_bytes (firstn (Z.to_nat j) s) = Ok (firstn (Z.to_nat j) s).
Proof.
  intros s j e H. unfold from_bytes in *.
  destruct (validate_wtf8 s) as [[]| |] eqn:E; try discriminate. cbn in H. inversion H; subst.
  destruct (valid_up_to_prefix _ _ _ E) as [Hj ->]. auto.
Qed.
Example C07_ex : from_bytes [0x41; 0xED; 0xA0; 0x80; 0xC3] = Err (EWtf8 4 None).
Proof. reflexivity. Qed.
Print Assumptions C07_valid_up_to_prefix.

(** Maximality holds except for an encoded surrogate pair (error length 6). *)
Theorem C07_valid_up_to_max_partial : forall s j e k, from_bytes s = Err (EWtf8 j e) ->
  e <> Some 6 -> j < Z.of_nat k -> is_ok (from_bytes (firstn k s)) = false.
Proof.
  intros s j e k H He Hk. unfold from_bytes in *.
  destruct (validate_wtf8 s) as [[]| |] eqn:E; try discriminate. cbn in H. inversion H; subst.
  pose proof (valid_up_to_max _ _ _ _ E He Hk) as Hm.
  destruct (validate_wtf8 (firstn k s)) as [[]| |]; auto. congruence.
Qed.
Example C07_max_ex : from_bytes [0x41; 0xED; 0x28; 0x41; 0x42] = Err (EWtf8 1 (Some 3)) /\
  is_ok (from_bytes (firstn 4 [0x41; 0xED; 0x28; 0x41; 0x42])) = false.
Proof. split; reflexivity. Qed.
Print Assumptions C07_valid_up_to_max_partial.

Theorem C07_valid_up_to_max_refuted :
  from_bytes [0xED; 0xA0; 0x80; 0xED; 0xB0; 0x80] = Err (EWtf8 0 (Some 6)) /\
  from_bytes (firstn 3 [0xED; 0xA0; 0x80; 0xED; 0xB0; 0x80]) = Ok [0xED; 0xA0; 0x80].
Proof. split; reflexivity. Qed.
Print Assumptions C07_valid_up_to_max_refuted.

(** C08 *)
Theorem C08_wide_lossless : forall v, Forall u16 v ->
  wf_wtf8 (from_wide v) /\ encode_wide (from_wide v) = Ok v.
Proof.
  intros v Hv. rewrite (from_wide_spec v Hv).
  destruct (decode_utf16_props v Hv) as (Hc & Hus & Hn & _). split.
  - eexists. split; [split|]; eauto.
  - rewrite encode_wide_utf8 by auto. rewrite Hus. reflexivity.
Qed.
Example C08_ex : Forall u16 [0xDC00; 0xD83D; 0xDE00; 0xD800; 0x41].
Proof. repeat constructor; unfold u16; lia. Qed.
Print Assumptions C08_wide_lossless.

Theorem C08_wide_back : forall s, wf_wtf8 s ->
  exists v, Forall u16 v /\ encode_wide s = Ok v /\ from_wide v = s.
Proof.
  intros s (cps & Hc & ->). exists (flat_map utf16 cps). split; [|split].
  - apply utf16_u16, Hc.
  - apply encode_wide_utf8, Hc.
  - apply from_wide_utf16; auto.
Qed.
Example C08_back_ex : wtf8_of ex_cps ex_str /\
  encode_wide ex_str = Ok [0; 0x41; 0xE9; 0xDC00; 0x20AC; 0xD83D; 0xDE00; 0xD83D] /\
  from_wide [0; 0x41; 0xE9; 0xDC00; 0x20AC; 0xD83D; 0xDE00; 0xD83D] = ex_str.
Proof. split; [apply C02_ex|split; reflexivity]. Qed.
Print Assumptions C08_wide_back.

(** The units are the standard's: the UTF-16 code units of the code points. *)
Theorem C08_wide_units : forall s cps, wtf8_of cps s -> encode_wide s = Ok (flat_map utf16 cps).
Proof. intros s cps [Hc ->]. apply encode_wide_utf8, Hc. Qed.
Print Assumptions C08_wide_units.

(** C09 *)
Theorem C09_push : forall s c cps, wtf8_of cps s -> is_cp c ->
  exists cps', wtf8_of cps' (push s c) /\ flat_map utf16 cps' = flat_map utf16 cps ++ utf16 c.
Proof.
  intros s c cps [Hc ->] H. destruct (push_spec cps c Hc H) as (cps' & ? & -> & ?).
  exists cps'. split; [split|]; auto.
Qed.
Print Assumptions C09_push.

Theorem C09_push_char : forall s c cps, wtf8_of cps s -> is_cp c -> ~ is_surrogate c ->
  wtf8_of (cps ++ [c]) (push_char s c).
Proof.
  intros s c cps [[Hc Hn] ->] H Hs. split; [split|].
  - apply Forall_app. auto.
  - apply no_pair_app; auto; [cbn; auto|]. intros x a' y b' _ [= <- _].
    unfold is_surrogate, is_trail in *. lia.
  - unfold push_char, push_code_point_unchecked. rewrite encode_utf8_raw_spec by auto.
    rewrite flat_map_app. cbn. rewrite app_nil_r. reflexivity.
Qed.
Print Assumptions C09_push_char.

Theorem C09_push_wtf8 : forall a b ca cb, wtf8_of ca a -> wtf8_of cb b ->
  exists r, wtf8_of r (push_wtf8 a b) /\ flat_map utf16 r = flat_map utf16 ca ++ flat_map utf16 cb.
Proof.
  intros a b ca cb [Ha ->] [Hb ->]. destruct (push_wtf8_spec ca cb Ha Hb) as (r & ? & -> & ?).
  exists r. split; [split|]; auto.
Qed.
Example C09_ex : (* lead + trail join into U+1F600 *)
  push_wtf8 [0x41; 0xED; 0xA0; 0xBD] [0xED; 0xB8; 0x80; 0x42] = [0x41; 0xF0; 0x9F; 0x98; 0x80; 0x42]
  /\ wtf8_of [0x41; 0xD83D] [0x41; 0xED; 0xA0; 0xBD] /\ wtf8_of [0xDE00; 0x42] [0xED; 0xB8; 0x80; 0x42].
Proof.
  repeat split; try reflexivity; try (repeat constructor; unfold is_cp; lia);
    cbn; unfold is_lead, is_trail; lia.
Qed.
Print Assumptions C09_push_wtf8.

(** C10 *)
Theorem C10_as_str : forall s cps, wtf8_of cps s ->
  (as_str s = Ok (Some s) <-> Forall (fun c => ~ is_surrogate c) cps) /\
  (as_str s = Ok None <-> Exists is_surrogate cps).
Proof.
  intros s cps [[Hc _] ->]. destruct (as_str_spec cps Hc) as [[H ->]|[H ->]].
  - split; split; intros; auto; try discriminate.
    rewrite Forall_forall in H. apply Exists_exists in H0 as (x & Hx & Hs). exfalso. eapply H; eauto.
  - split; split; intros; auto; try discriminate.
    rewrite Forall_forall in H0. apply Exists_exists in H as (x & Hx & Hs). exfalso. eapply H0; eauto.
Qed.
Print Assumptions C10_as_str.

Theorem C10_lossy : forall s cps, wtf8_of cps s ->
  let t := flat_map utf8 (map replace_surrogate cps) in
  to_string_lossy s = Ok t /\ into_string_lossy s = Ok t /\ length t = length s.
Proof.
  intros s cps [[Hc _] ->] t. split; [apply to_string_lossy_spec; auto|].
  split; [apply into_string_lossy_spec; auto|]. subst t.
  induction Hc as [|c cps H _ IH]; cbn; auto. rewrite !app_length, IH. f_equal.
  unfold replace_surrogate. destruct ((55296 <=? c) && (c <=? 57343)) eqn:E; auto.
  unfold utf8. assert (c <? 128 = false) as -> by lia. assert (c <? 2048 = false) as -> by lia.
  assert (c <? 65536 = true) as -> by lia. reflexivity.
Qed.
Example C10_ex : wtf8_of ex_cps ex_str /\ Exists is_surrogate ex_cps.
Proof.
  split; [split; [apply ex_cps_wf|reflexivity]|].
  apply Exists_exists. exists 0xDC00. split; [cbn; auto|unfold is_surrogate; lia].
Qed.
Print Assumptions C10_lossy.

(** C11 *)
Theorem C11_codepoints : forall s cps, wtf8_of cps s ->
  codepoints s = Ok cps /\ from_cps cps = s.
Proof.
  intros s cps [Hc ->]. split; [apply codepoints_utf8, Hc|].
  unfold from_cps, extend_cps.
  assert (Hgen : forall b a, wtf8_cps (a ++ b) ->
            fold_left push b (flat_map utf8 a) = flat_map utf8 (a ++ b)).
  { induction b as [|c b IH]; intros a Hab; [rewrite app_nil_r; reflexivity|].
    replace (a ++ c :: b) with ((a ++ [c]) ++ b) in * by (rewrite <- app_assoc; reflexivity).
    cbn [fold_left].
    assert (Hac : wtf8_cps (a ++ [c])) by (eapply wtf8_cps_app_l; eauto).
    assert (Ha : wtf8_cps a) by (eapply wtf8_cps_app_l; eauto).
    assert (Hcc : is_cp c) by (destruct Hac as [Hac _]; apply Forall_app in Hac as [_ Hac]; inversion Hac; auto).
    destruct (push_spec a c Ha Hcc) as (r & Hr & Ep & Er). rewrite Ep.
    replace r with (a ++ [c]); [apply IH; auto|].
    apply utf16_inj; auto. rewrite Er, flat_map_app. cbn. rewrite app_nil_r. reflexivity. }
  apply (Hgen cps []). auto.
Qed.
Example C11_ex : codepoints ex_str = Ok ex_cps. Proof. reflexivity. Qed.
Print Assumptions C11_codepoints.

(** Collecting arbitrary code points (surrogates join). *)
Theorem C11_collect : forall cs, Forall is_cp cs ->
  exists cps, wtf8_of cps (from_cps cs) /\ flat_map utf16 cps = flat_map utf16 cs.
Proof.
  intros cs Hcs. unfold from_cps, extend_cps.
  assert (Hgen : forall cs a, Forall is_cp cs -> wtf8_cps a ->
            exists cps, wtf8_of cps (fold_left push cs (flat_map utf8 a)) /\
              flat_map utf16 cps = flat_map utf16 a ++ flat_map utf16 cs).
  { clear. induction cs as [|c cs IH]; intros a Hcs Ha.
    - exists a. rewrite app_nil_r. split; [split; auto|reflexivity].
    - inversion Hcs; subst. cbn [fold_left].
      destruct (push_spec a c Ha H1) as (r & Hr & -> & Er).
      destruct (IH r H2 Hr) as (cps & Hw & E). exists cps. split; auto.
      rewrite E, Er. cbn. rewrite <- app_assoc. reflexivity. }
  destruct (Hgen cs [] Hcs) as (cps & Hw & E); [split; cbn; auto|]. eauto.
Qed.
Example C11_collect_ex : from_cps [0xD83D; 0xDE00] = [0xF0; 0x9F; 0x98; 0x80]. Proof. reflexivity. Qed.
Print Assumptions C11_collect.

(** C12 *)
Theorem C12_index_range : forall s cps i j, wtf8_of cps s ->
  (forall t, index_range s i j = Ok t <->
     exists x y z, cps = x ++ y ++ z /\ i = length (flat_map utf8 x) /\
       j = (i + length (flat_map utf8 y))%nat /\ t = flat_map utf8 y) /\
  (forall t, index_range s i j = Ok t -> wf_wtf8 t).
Proof.
  intros s cps i j [Hc ->].
  assert (H1 : forall t, index_range (flat_map utf8 cps) i j = Ok t <->
     exists x y z, cps = x ++ y ++ z /\ i = length (flat_map utf8 x) /\
       j = (i + length (flat_map utf8 y))%nat /\ t = flat_map utf8 y).
  { intros t. destruct (index_range_spec cps i j (proj1 Hc)) as
      [(x & y & z & E & Hi & Hj & Ei)|[Ei Hn]].
    - rewrite Ei. split.
      + intros [= <-]. eauto 10.
      + intros (x' & y' & z' & E' & Hi' & Hj' & ->). f_equal.
        assert (x' = x).
        { clear - E E' Hi Hi' Hc. subst cps i.
          assert (Ha : flat_map utf8 x' = flat_map utf8 x).
          { apply (f_equal (flat_map utf8)) in E'. rewrite !flat_map_app in E'.
            apply (f_equal (firstn (length (flat_map utf8 x)))) in E'.
            rewrite firstn_len_app in E'. rewrite Hi', firstn_len_app in E'. auto. }
          apply utf8_inj in Ha; auto.
          - destruct Hc as [Hc _]. rewrite E' in Hc. apply Forall_app in Hc. tauto.
          - destruct Hc as [Hc _]. apply Forall_app in Hc. tauto. }
        subst x'. subst cps. apply app_inv_head in E'.
        assert (Hly : length (flat_map utf8 y') = length (flat_map utf8 y)) by lia.
        apply (f_equal (flat_map utf8)) in E'. rewrite !flat_map_app in E'.
        apply (f_equal (firstn (length (flat_map utf8 y)))) in E'.
        rewrite firstn_len_app in E'. rewrite <- Hly, firstn_len_app in E'. auto.
    - rewrite Ei. split; [discriminate|]. intros (x & y & z & E & Hi & Hj & _). exfalso.
      apply Hn. eauto 10. }
  split; [exact H1|]. intros t Ht. apply H1 in Ht as (x & y & z & -> & _ & _ & ->).
  exists y. split; auto. eapply wtf8_cps_app_l. eapply wtf8_cps_app_r. exact Hc.
Qed.
Example C12_ex : index_range ex_str 2 7 = Ok [0xC3; 0xA9; 0xED; 0xB0; 0x80]
  /\ index_range ex_str 2 6 = Panic PIndex /\ index_range ex_str 4 2 = Panic PIndex.
Proof. repeat split; reflexivity. Qed.
Print Assumptions C12_index_range.

(** [s[a..]] and [s[..b]] are the ranges up to the end and from the start. *)
Theorem C12_index_from_to : forall s cps i, wtf8_of cps s ->
  (forall t, index_from s i = Ok t <-> index_range s i (length s) = Ok t) /\
  (forall t, index_to s i = Ok t <-> index_range s 0 i = Ok t).
Proof.
  intros s cps i [[Hc _] ->].
  assert (He : is_code_point_boundary (flat_map utf8 cps) (length (flat_map utf8 cps)) = true).
  { unfold is_code_point_boundary. rewrite Nat.eqb_refl. reflexivity. }
  assert (H0 : is_code_point_boundary (flat_map utf8 cps) 0 = true).
  { apply boundary_iff; auto. exists [], cps. auto. }
  unfold index_from, index_to, index_range. rewrite He, H0. split; intros t.
  - rewrite andb_true_r.
    destruct (is_code_point_boundary (flat_map utf8 cps) i) eqn:E.
    + rewrite andb_true_r. apply boundary_iff in E as (a & b & -> & ->); auto.
      assert ((length (flat_map utf8 a) <=? length (flat_map utf8 (a ++ b)))%nat = true) as ->.
      { apply Nat.leb_le. rewrite flat_map_app, app_length. lia. }
      tauto.
    + rewrite andb_false_r. split; discriminate.
  - cbn [Nat.leb andb].
    destruct (is_code_point_boundary (flat_map utf8 cps) i); split; auto; discriminate.
Qed.
Example C12_ends_ex : wtf8_of [0x41; 0xE9; 0x42] [0x41; 0xC3; 0xA9; 0x42] /\
  index_from [0x41; 0xC3; 0xA9; 0x42] 1 = Ok [0xC3; 0xA9; 0x42] /\ index_from [0x41; 0xC3; 0xA9; 0x42] 4 = Ok [] /\
  index_to [0x41; 0xC3; 0xA9; 0x42] 3 = Ok [0x41; 0xC3; 0xA9] /\ is_ok (index_to [0x41; 0xC3; 0xA9; 0x42] 2) = false.
Proof. split; [split; [split; [repeat constructor; unfold is_cp; lia|cbn; unfold is_lead, is_trail; lia]|reflexivity]|repeat split; reflexivity]. Qed.
Print Assumptions C12_index_from_to.

Theorem C12_truncate : forall s cps i, wtf8_of cps s ->
  (exists x y, cps = x ++ y /\ i = length (flat_map utf8 x) /\
     truncate s i = Ok (flat_map utf8 x) /\ wf_wtf8 (flat_map utf8 x))
  \/ (truncate s i = Panic PAssert /\
      ~ exists x y, cps = x ++ y /\ i = length (flat_map utf8 x)).
Proof.
  intros s cps i [Hc ->]. destruct (truncate_spec cps i (proj1 Hc)) as [(x & y & E & Hi & Ht)|[Ht Hn]].
  - left. exists x, y. repeat split; auto. exists x. split; auto. subst cps. eapply wtf8_cps_app_l; eauto.
  - right. auto.
Qed.
Example C12_truncate_ex : truncate [0x41; 0xC3; 0xA9; 0x42] 3 = Ok [0x41; 0xC3; 0xA9] /\
  truncate [0x41; 0xC3; 0xA9; 0x42] 2 = Panic PAssert.
Proof. split; reflexivity. Qed.
Print Assumptions C12_truncate.

(** C68: ASCII case conversion maps exactly the ASCII letters. *)
Definition lower_cp (c : Z) : Z := if (65 <=? c) && (c <=? 90) then c + 32 else c.
Definition upper_cp (c : Z) : Z := if (97 <=? c) && (c <=? 122) then c - 32 else c.

Lemma map_utf8_high (f : Z -> Z) (g : Z -> Z) c :
  (forall b, 0x80 <= b -> f b = b) -> (forall b, f b = g b) -> (0 <= c < 0x80 -> 0 <= g c < 0x80) ->
  is_cp c -> map f (utf8 c) = utf8 (g c).
Proof.
  intros Hf Hg Hr Hc. unfold is_cp in Hc. destruct (c <? 128) eqn:E.
  - unfold utf8. rewrite E. assert (g c <? 128 = true) as -> by lia. cbn. rewrite Hg. reflexivity.
  - rewrite <- Hg, (Hf c) by lia. unfold utf8. rewrite E.
    destruct (c <? 2048) eqn:E2; [|destruct (c <? 65536) eqn:E3]; cbn [map]; rewrite !Hf by lia; auto.
Qed.

Theorem C68_ascii_case : forall s cps, wtf8_of cps s ->
  wtf8_of (map lower_cp cps) (to_ascii_lowercase s) /\
  wtf8_of (map upper_cp cps) (to_ascii_uppercase s).
Proof.
  intros s cps [[Hc Hn] ->].
  assert (Hgen : forall f g, (forall b, 0x80 <= b -> f b = b) -> (forall b, f b = g b) ->
     (forall c, 0 <= c < 0x80 -> 0 <= g c < 0x80) ->
     wtf8_of (map g cps) (map f (flat_map utf8 cps))).
  { intros f g Hf Hg Hr. split; [split|].
    - clear Hn. induction Hc as [|c cps H _ IH]; cbn; constructor; auto. unfold is_cp in *.
      destruct (Z.ltb_spec c 128); [specialize (Hr c); lia|]. rewrite <- Hg, Hf by lia. lia.
    - assert (Hs : forall c, 0 <= c -> (is_lead (g c) -> is_lead c) /\ (is_trail (g c) -> is_trail c)).
      { intros c H0. unfold is_lead, is_trail. destruct (Z.ltb_spec c 128).
        - specialize (Hr c). lia.
        - rewrite <- Hg, Hf by lia. tauto. }
      induction Hc as [|c cps H Hc IH]; cbn; auto. destruct Hn as [Hn1 Hn]. split; auto.
      destruct cps as [|d cps]; cbn; auto. inversion Hc; subst. unfold is_cp in *.
      destruct (Hs c), (Hs d); try lia. tauto.
    - clear Hn. induction Hc as [|c cps H _ IH]; cbn; auto. rewrite map_app, IH.
      rewrite (map_utf8_high f g); auto. }
  split; apply Hgen; intros; unfold ascii_lower, ascii_upper, lower_cp, upper_cp, between; auto;
    split_ifs; lia.
Qed.
Example C68_ex : to_ascii_uppercase [0x61; 0xC3; 0xA9; 0x7A] = [0x41; 0xC3; 0xA9; 0x5A].
Proof. reflexivity. Qed.
Print Assumptions C68_ascii_case.
