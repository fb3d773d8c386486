(** Properties C13-C17, C19: numbers, floats, flags, versions, vectors, strings. *)
From Verif Require Import Base BaseLemmas Wtf8Spec Wtf8Model MutfModel PrimModel PrimSpec.
From Verif Require Import Wtf8Proofs MutfProofs PrimProofs.

Lemma be_value_from_be l : from_be l = be_value l.
Proof. induction l as [|b l IH]; [reflexivity|]. rewrite from_be_cons, IH. reflexivity. Qed.

(** C13; [n] = 1, 2, 4, 8, 16 gives u8..u128 (and f32, f64 by bit pattern). *)
Theorem C13_unsigned : forall n x, 0 <= x < 256 ^ Z.of_nat n ->
  exists bs, wr_n n x = Ok bs /\ length bs = n /\ bytes bs /\ be_value bs = x /\
    forall rest, rd_u n (bs ++ rest) = Ok (x, rest).
Proof.
  intros n x Hx. exists (be n x). split; [reflexivity|]. split; [apply be_length|].
  split; [apply be_bytes|]. split.
  - rewrite <- be_value_from_be, from_be_be, Z.mod_small; auto.
  - intros. apply rd_u_be; auto.
Qed.
Example C13_unsigned_ex : wr_n 4 0xCAFEBABE = Ok [0xCA; 0xFE; 0xBA; 0xBE]. Proof. reflexivity. Qed.
Print Assumptions C13_unsigned.

Theorem C13_signed : forall n x, (0 < n)%nat ->
  - 2 ^ (8 * Z.of_nat n - 1) <= x < 2 ^ (8 * Z.of_nat n - 1) ->
  exists bs, wr_n n x = Ok bs /\ length bs = n /\ bytes bs /\
    be_value bs = (if x <? 0 then x + 2 ^ (8 * Z.of_nat n) else x) /\
    forall rest, rd_s n (bs ++ rest) = Ok (x, rest).
Proof.
  intros n x Hn Hx. exists (be n x). split; [reflexivity|]. split; [apply be_length|].
  split; [apply be_bytes|]. split.
  - rewrite <- be_value_from_be, from_be_be, <- pow256.
    assert (Hp : 2 ^ (8 * Z.of_nat n) = 2 * 2 ^ (8 * Z.of_nat n - 1)).
    { replace (8 * Z.of_nat n) with (8 * Z.of_nat n - 1 + 1) at 1 by lia.
      rewrite Z.pow_add_r by lia. lia. }
    destruct (x <? 0) eqn:E.
    + rewrite <- (Z.mod_add x 1) by lia. rewrite Z.mod_small; lia.
    + rewrite Z.mod_small; lia.
  - intros. apply rd_s_be; auto.
Qed.
Example C13_signed_ex : wr_n 2 (-2) = Ok [0xFF; 0xFE] /\ rd_s 2 [0xFF; 0xFE; 7] = Ok (-2, [7]).
Proof. split; reflexivity. Qed.
Print Assumptions C13_signed.

Theorem C13_short_input : forall n l, (length l < n)%nat ->
  rd_u n l = Err EIo /\ rd_s n l = Err EIo.
Proof.
  intros n l H. unfold rd_u, rd_s. rewrite take_short by (unfold len; lia). auto.
Qed.
Example C13_short_ex : rd_u 4 [1; 2; 3] = Err EIo. Proof. reflexivity. Qed.
Print Assumptions C13_short_input.

(** Reading looks at exactly [n] bytes and determines them. *)
Theorem C13_read_determines : forall n l x r, bytes l -> rd_u n l = Ok (x, r) ->
  l = be n x ++ r.
Proof. intros n l x r Hb H. apply (rd_u_ok n l x r Hb H). Qed.
Example C13_determines_ex : bytes [0xCA; 0xFE; 7] /\ rd_u 2 [0xCA; 0xFE; 7] = Ok (0xCAFE, [7]) /\ [0xCA; 0xFE; 7] = be 2 0xCAFE ++ [7].
Proof. split; [repeat constructor; unfold u8; lia|split; reflexivity]. Qed.
Print Assumptions C13_read_determines.

(** C14, for w = 32 and w = 64 (any width in fact). *)
Theorem C14_total_eq_bits : forall w a b, 0 < w -> 0 <= a < 2 ^ w -> 0 <= b < 2 ^ w ->
  (total_eq w a b = true <-> a = b) /\
  (total_eq w a b = true <-> total_hash_input a = total_hash_input b).
Proof.
  intros w a b Hw Ha Hb.
  assert (H : total_eq w a b = true <-> a = b).
  { unfold total_eq, total_cmp. rewrite !total_key_spec by auto.
    assert (Hp : 2 ^ w = 2 * 2 ^ (w - 1)).
    { replace w with (w - 1 + 1) at 1 by lia. rewrite Z.pow_add_r by lia. lia. }
    split.
    - destruct (Z.compare_spec (if a <? 2 ^ (w - 1) then a else 2 ^ (w - 1) - 1 - a)
        (if b <? 2 ^ (w - 1) then b else 2 ^ (w - 1) - 1 - b)) as [E| |]; try discriminate.
      intros _. destruct (a <? 2 ^ (w - 1)) eqn:E1, (b <? 2 ^ (w - 1)) eqn:E2; lia.
    - intros ->. rewrite Z.compare_refl. reflexivity. }
  split; exact H.
Qed.
Example C14_ex : (* two NaN payloads differ, -0.0 differs from 0.0 *)
  total_eq 32 0x7FC00000 0x7FC00001 = false /\ total_eq 32 0x80000000 0 = false /\
  total_eq 32 0x7FC00001 0x7FC00001 = true.
Proof. repeat split; reflexivity. Qed.
Print Assumptions C14_total_eq_bits.

Theorem C14_total_order : forall w a b, 0 < w -> 0 <= a < 2 ^ w -> 0 <= b < 2 ^ w ->
  (total_cmp w a b <> Gt <-> ieee_le w a b) /\
  total_cmp w b a = CompOpp (total_cmp w a b).
Proof.
  intros w a b Hw Ha Hb. unfold total_cmp, ieee_le. rewrite !total_key_spec by auto.
  assert (Hp : 2 ^ w = 2 * 2 ^ (w - 1)).
  { replace w with (w - 1 + 1) at 1 by lia. rewrite Z.pow_add_r by lia. lia. }
  split; [|apply Z.compare_antisym]. rewrite Z.compare_le_iff.
  destruct (a <? 2 ^ (w - 1)) eqn:E1, (b <? 2 ^ (w - 1)) eqn:E2; lia.
Qed.
Example C14_order_ex : (* -0.0 comes before 0.0, -2.0 before -1.0, 1.0 before NaN *)
  total_cmp 32 0x80000000 0 = Lt /\ total_cmp 32 0xC0000000 0xBF800000 = Lt /\ total_cmp 32 0x3F800000 0x7FC00000 = Lt.
Proof. repeat split; reflexivity. Qed.
Print Assumptions C14_total_order.

Theorem C14_total_trans : forall w a b c, 0 < w ->
  0 <= a < 2 ^ w -> 0 <= b < 2 ^ w -> 0 <= c < 2 ^ w ->
  total_cmp w a b <> Gt -> total_cmp w b c <> Gt -> total_cmp w a c <> Gt.
Proof. intros w a b c _ _ _ _. unfold total_cmp. rewrite !Z.compare_le_iff. lia. Qed.
Print Assumptions C14_total_trans.

(** C15 *)
Lemma flag_bits_spec t i : 0 <= i ->
  Z.testbit (flag_all t) i = existsb (Z.eqb i) (jvms_flag_bits t).
Proof.
  intros Hi. destruct (Z.ltb_spec i 16).
  - assert (H0 : i = 0 \/ i = 1 \/ i = 2 \/ i = 3 \/ i = 4 \/ i = 5 \/ i = 6 \/ i = 7 \/ i = 8
      \/ i = 9 \/ i = 10 \/ i = 11 \/ i = 12 \/ i = 13 \/ i = 14 \/ i = 15) by lia.
    repeat (destruct H0 as [->|H0]; [destruct t; reflexivity|]). subst. destruct t; reflexivity.
  - assert (Hf : 0 <= flag_all t < 2 ^ 16) by (destruct t; vm_compute; intuition discriminate).
    rewrite <- (Z.mod_small _ _ Hf), Z.mod_pow2_bits_high by lia. symmetry.
    destruct (existsb (Z.eqb i) (jvms_flag_bits t)) eqn:E; auto. exfalso.
    apply existsb_exists in E as (x & Hx & Ex). apply Z.eqb_eq in Ex. subst x.
    destruct t; cbn in Hx; lia.
Qed.

Theorem C15_flags_read : forall t x rest, u16 x ->
  exists y, rd_flags t (be 2 x ++ rest) = Ok (y, rest) /\ u16 y /\
    (forall i, 0 <= i -> (Z.testbit y i = true <-> Z.testbit x i = true /\ In i (jvms_flag_bits t))) /\
    wr_flags y = Ok (be 2 y).
Proof.
  intros t x rest Hx. exists (from_bits_truncate t x). unfold rd_flags.
  rewrite rd_u16_be by auto. split; [reflexivity|]. unfold from_bits_truncate.
  split; [|split].
  - unfold u16 in *. assert (0 <= flag_all t) by (destruct t; vm_compute; discriminate).
    split; [apply Z.land_nonneg; lia|].
    apply (Z.le_lt_trans _ x); [|lia].
    assert (Hs : x = Z.land x (flag_all t) + Z.ldiff x (flag_all t)).
    { assert (Hn : Z.land (Z.land x (flag_all t)) (Z.ldiff x (flag_all t)) = 0).
      { apply Z.bits_inj'. intros n Hn. rewrite !Z.land_spec, Z.ldiff_spec, Z.bits_0.
        destruct (Z.testbit x n), (Z.testbit (flag_all t) n); reflexivity. }
      rewrite Z.add_nocarry_lxor by auto. apply Z.bits_inj'. intros n Hn'.
      rewrite Z.lxor_spec, Z.land_spec, Z.ldiff_spec.
      destruct (Z.testbit x n), (Z.testbit (flag_all t) n); reflexivity. }
    assert (0 <= Z.ldiff x (flag_all t)) by (apply Z.ldiff_nonneg; lia). lia.
  - intros i Hi. rewrite Z.land_spec, flag_bits_spec by auto. rewrite andb_true_iff.
    split; intros [H1 H2]; split; auto.
    + apply existsb_exists in H2 as (y & Hy & E). apply Z.eqb_eq in E. subst. auto.
    + apply existsb_exists. exists i. split; auto. apply Z.eqb_refl.
  - reflexivity.
Qed.
Example C15_ex : rd_flags ClassFlags [0xFF; 0xFF] = Ok (0xF631, []). Proof. reflexivity. Qed.
Print Assumptions C15_flags_read.

Theorem C15_flags_roundtrip : forall t x, flags_of t x ->
  exists bs, wr_flags x = Ok bs /\ forall rest, rd_flags t (bs ++ rest) = Ok (x, rest).
Proof.
  intros t x [Hx Hm]. exists (be 2 x). split; [reflexivity|]. intros rest. unfold rd_flags.
  rewrite rd_u16_be by auto. cbn [bind]. unfold from_bits_truncate. rewrite Hm. reflexivity.
Qed.
Example C15_rt_ex : flags_of MethodFlags 0x0009. Proof. split; [unfold u16; lia|reflexivity]. Qed.
Print Assumptions C15_flags_roundtrip.

(** C16 *)
Theorem C16_version_write : forall v, u16 (minor v) ->
  wr_version v = Ok (be 2 (minor v) ++ be 2 (major_tag (maj v))) /\
  45 <= major_tag (maj v) <= 59.
Proof. intros v Hv. split; [reflexivity|]. destruct (maj v); cbn; lia. Qed.
Print Assumptions C16_version_write.

Theorem C16_version_read : forall mi ma rest, u16 mi -> u16 ma ->
  (45 <= ma <= 59 -> exists v, rd_version (be 2 mi ++ be 2 ma ++ rest) = Ok (v, rest) /\
      minor v = mi /\ major_tag (maj v) = ma /\ wr_version v = Ok (be 2 mi ++ be 2 ma)) /\
  (~ 45 <= ma <= 59 -> rd_version (be 2 mi ++ be 2 ma ++ rest) = Err EInvalid).
Proof.
  intros mi ma rest Hmi Hma. unfold rd_version, rd_major.
  rewrite rd_u16_be by auto. cbn [bind]. rewrite rd_u16_be by auto. cbn [bind]. split.
  - intros Hr.
    assert (H0 : ma = 45 \/ ma = 46 \/ ma = 47 \/ ma = 48 \/ ma = 49 \/ ma = 50 \/ ma = 51
      \/ ma = 52 \/ ma = 53 \/ ma = 54 \/ ma = 55 \/ ma = 56 \/ ma = 57 \/ ma = 58 \/ ma = 59) by lia.
    repeat (destruct H0 as [->|H0]; [eexists; cbn [bind Z.eqb Pos.eqb]; repeat split; reflexivity|]).
    subst. eexists. repeat split; reflexivity.
  - intros Hr. repeat match goal with |- context [ma =? ?k] =>
      assert (ma =? k = false) as -> by lia end. reflexivity.
Qed.
Example C16_ex : rd_version [0; 0; 0; 52; 9] = Ok ({| minor := 0; maj := J8 |}, [9]).
Proof. reflexivity. Qed.
Print Assumptions C16_version_read.

(** C17: for any element codec that round-trips on [P]. *)
Theorem C17_vec_exact_or_error : forall (A : Type) (k : nat) (r : rd A) (w : wr A) (P : A -> Prop) xs,
  (forall a bs rest, P a -> w a = Ok bs -> r (bs ++ rest) = Ok (a, rest)) ->
  Forall P xs ->
  (len xs < 256 ^ Z.of_nat k -> forall bs, wr_vec k w xs = Ok bs ->
     (exists ws, mapM w xs = Ok ws /\ bs = be k (len xs) ++ concat ws) /\
     forall rest, rd_vec k r (bs ++ rest) = Ok (xs, rest)) /\
  (256 ^ Z.of_nat k <= len xs -> wr_vec k w xs = Err EInvalid).
Proof.
  intros A k r w P xs Hc HP. unfold wr_vec. split.
  - intros Hl bs. assert (len xs <? 256 ^ Z.of_nat k = true) as -> by lia. intros H.
    inv_bind H. inversion H; subst. split; [eauto|]. intros rest. unfold rd_vec.
    rewrite <- app_assoc, rd_u_be by (pose proof (len_nonneg xs); lia). cbn [bind].
    unfold len. rewrite Nat2Z.id. eapply rd_times_mapM; eauto.
  - intros Hl. assert (len xs <? 256 ^ Z.of_nat k = false) as -> by lia. reflexivity.
Qed.
Example C17_ex : wr_vec 2 (wr_n 1) [7; 8; 9] = Ok [0; 3; 7; 8; 9] /\
  (forall a bs rest, u8 a -> wr_n 1 a = Ok bs -> rd_u8 (bs ++ rest) = Ok (a, rest)) /\
  wr_vec 1 (wr_n 1) (repeat 0 256) = Err EInvalid.
Proof.
  split; [reflexivity|]. split; [|reflexivity].
  intros a bs rest Ha [= <-]. change ([(a / 256 ^ 0) mod 256] ++ rest) with (be 1 a ++ rest).
  apply rd_u8_be; auto.
Qed.
Print Assumptions C17_vec_exact_or_error.

(** C19 *)
Theorem C19_string_prefix_partial : forall s cps, wtf8_of cps s ->
  let enc := mutf8_of (flat_map utf16 cps) in
  len enc < 65536 ->
  wr_string s = Ok (be 2 (len enc) ++ enc) /\
  forall rest, rd_string (be 2 (len enc) ++ enc ++ rest) = Ok (s, rest).
Proof.
  intros s cps [Hc ->] enc Hl. unfold wr_string. rewrite string_to_mutf8_spec by apply Hc.
  split; [reflexivity|]. intros rest. unfold rd_string.
  rewrite rd_u16_be by (unfold u16; pose proof (len_nonneg enc); lia). cbn [bind].
  rewrite take_app. cbn [bind]. unfold enc. rewrite mutf_decode_spec by auto. reflexivity.
Qed.
Example C19_ex : wtf8_of [0x68; 0; 0x69] [0x68; 0; 0x69] /\
  wr_string [0x68; 0; 0x69] = Ok [0; 4; 0x68; 0xC0; 0x80; 0x69].
Proof.
  split; [|reflexivity]. split; [|reflexivity]. split.
  - repeat constructor; unfold is_cp; lia.
  - cbn. unfold is_lead, is_trail. lia.
Qed.
Print Assumptions C19_string_prefix_partial.

(** Longer strings are not rejected: the bytes written do not read back. *)
Theorem C19_string_prefix_refuted :
  (forall s cps, wtf8_of cps s -> 65535 < len (mutf8_of (flat_map utf16 cps)) ->
     exists bs, wr_string s = Ok bs /\ rd_string bs <> Ok (s, [])) /\
  (exists s cps, wtf8_of cps s /\ 65535 < len (mutf8_of (flat_map utf16 cps))).
Proof.
  split.
  - intros s cps [Hc ->] Hl. unfold wr_string. rewrite string_to_mutf8_spec by apply Hc.
    set (enc := mutf8_of (flat_map utf16 cps)) in *. eexists. split; [reflexivity|].
    unfold rd_string. rewrite <- (be_mod 2 (len enc)). change (256 ^ Z.of_nat 2) with 65536.
    rewrite rd_u16_be by (unfold u16; lia). cbn [bind].
    destruct (take (len enc mod 65536) enc) as [[b r]| |] eqn:E; cbn [bind]; try discriminate.
    apply take_ok in E as [Ee El].
    destruct (modified_utf8_to_string b) as [x| |]; cbn [bind]; try discriminate.
    intros [= -> ->]. rewrite app_nil_r in Ee. subst b. lia.
  - exists (repeat 0x61 (Z.to_nat 65536)), (repeat 0x61 (Z.to_nat 65536)). split; [split; [split|]|].
    + apply Forall_forall. intros x Hx. apply repeat_spec in Hx. subst. unfold is_cp. lia.
    + generalize (Z.to_nat 65536). induction n as [|n IH]; cbn; auto. split; auto.
      destruct n; cbn; auto. unfold is_lead. lia.
    + generalize (Z.to_nat 65536). induction n as [|n IH]; cbn; congruence.
    + unfold mutf8_of.
      assert (H : forall n, len (flat_map mutf8_unit (flat_map utf16 (repeat 0x61 n))) = Z.of_nat n).
      { induction n as [|n IH]; [reflexivity|]. cbn [repeat flat_map].
        change (utf16 97) with [97]. cbn [app flat_map]. change (mutf8_unit 97) with [97].
        cbn [app]. rewrite len_cons, IH. lia. }
      rewrite H. lia.
Qed.
Print Assumptions C19_string_prefix_refuted.
