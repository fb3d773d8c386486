(** Proofs about the modified UTF-8 codec. *)
From Verif Require Import Base BaseLemmas Wtf8Spec Wtf8Model MutfModel.
From Verif Require Import Wtf8Proofs Wtf8Proofs2 Wtf8Proofs3.

Definition mutf_cp (c : Z) : list Z := mutf8_of (utf16 c).

Lemma mutf8_of_utf16 cps : mutf8_of (flat_map utf16 cps) = flat_map mutf_cp cps.
Proof.
  unfold mutf8_of, mutf_cp. induction cps as [|c cps IH]; cbn; auto.
  rewrite flat_map_app, IH. reflexivity.
Qed.

(** Closed form of the spec encoding of a code point. *)
Definition mutf_form (c : Z) : list Z :=
  if (1 <=? c) && (c <=? 0x7F) then [c]
  else if c <=? 0x7FF then [0xC0 + c / 64; 0x80 + c mod 64]
  else if c <? 0x10000 then [0xE0 + c / 4096; 0x80 + c / 64 mod 64; 0x80 + c mod 64]
  else
    [0xED; 0xA0 + (c - 0x10000) / 65536; 0x80 + (c - 0x10000) / 1024 mod 64;
     0xED; 0xB0 + (c - 0x10000) / 64 mod 16; 0x80 + c mod 64].

Lemma mutf_cp_form c : is_cp c -> mutf_cp c = mutf_form c.
Proof.
  unfold mutf_cp, mutf8_of, utf16, mutf_form, is_cp. intros Hc.
  destruct (c <? 0x10000) eqn:E.
  - cbn [flat_map]. unfold mutf8_unit.
    destruct ((1 <=? c) && (c <=? 127)); [reflexivity|].
    destruct (c <=? 2047); reflexivity.
  - cbn [flat_map app]. unfold mutf8_unit.
    set (u := 55296 + (c - 65536) / 1024). set (v := 56320 + (c - 65536) mod 1024).
    assert ((1 <=? u) && (u <=? 127) = false) as -> by lia.
    assert (u <=? 2047 = false) as -> by lia.
    assert ((1 <=? v) && (v <=? 127) = false) as -> by lia.
    assert (v <=? 2047 = false) as -> by lia.
    assert ((1 <=? c) && (c <=? 127) = false) as -> by lia.
    assert (c <=? 2047 = false) as -> by lia.
    cbn [app]. subst u v. list_eq.
Qed.

Lemma mutf_push_spec c : is_cp c -> mutf_push c = mutf_cp c.
Proof.
  intros Hc. rewrite mutf_cp_form by auto. unfold mutf_push, mutf_form, is_cp, between in *.
  bits0.
  destruct ((1 <=? c) && (c <=? 127)) eqn:E1.
  { list_eq. }
  assert (((c =? 0) || ((128 <=? c) && (c <=? 2047))) = (c <=? 2047)) as -> by lia.
  destruct (c <=? 2047) eqn:E2.
  { rewrite (lor_add _ 0xC0 5) by (pow2; (reflexivity || lia)).
    rewrite (lor_add _ 0x80 6) by (pow2; (reflexivity || lia)). list_eq. }
  assert ((2048 <=? c) && (c <=? 65535) = (c <? 65536)) as -> by lia.
  destruct (c <? 65536) eqn:E3.
  { rewrite (lor_add _ 0xE0 4) by (pow2; (reflexivity || lia)).
    rewrite !(lor_add _ 0x80 6) by (pow2; (reflexivity || lia)). list_eq. }
  rewrite (lor_add _ 0xA0 4) by (pow2; (reflexivity || lia)).
  rewrite (lor_add' 0x80 _ 6) by (pow2; (reflexivity || lia)).
  rewrite (lor_add _ 0xB0 4) by (pow2; (reflexivity || lia)).
  rewrite (lor_add _ 0x80 6) by (pow2; (reflexivity || lia)). list_eq.
Qed.

Lemma string_to_mutf8_spec cps : Forall is_cp cps ->
  string_to_modified_utf8 (flat_map utf8 cps) = Ok (mutf8_of (flat_map utf16 cps)).
Proof.
  intros H. unfold string_to_modified_utf8. rewrite codepoints_utf8 by auto. cbn [bind].
  rewrite mutf8_of_utf16. f_equal.
  induction H as [|c cps Hc _ IH]; cbn; auto. rewrite mutf_push_spec by auto. congruence.
Qed.

(** No zero byte and no byte above 0xEF in valid modified UTF-8. *)
Lemma mutf8_unit_range u : u16 u -> Forall (fun b => 1 <= b <= 0xEF) (mutf8_unit u).
Proof.
  unfold u16, mutf8_unit. intros Hu.
  destruct ((1 <=? u) && (u <=? 127)) eqn:E1; [repeat constructor; lia|].
  destruct (u <=? 2047) eqn:E2; repeat constructor; lia.
Qed.

Lemma mutf8_of_range us : Forall u16 us -> Forall (fun b => 1 <= b <= 0xEF) (mutf8_of us).
Proof.
  unfold mutf8_of. induction 1; cbn; [constructor|]. apply Forall_app. split; auto.
  apply mutf8_unit_range; auto.
Qed.

(** First pass. *)
Definition needs_mod (c : Z) : bool := (c =? 0) || (0x10000 <=? c).

Lemma pass1_plain i h b l : b <> 0xC0 -> b <> 0xED ->
  mutf_pass1 i h (b :: l) = mutf_pass1 (i + 1) false l.
Proof.
  intros H1 H2. cbn [mutf_pass1].
  assert (b =? 192 = false) as -> by lia. assert (b =? 237 = false) as -> by lia. reflexivity.
Qed.

Lemma pass1_step i h c l : is_cp c -> (h = true -> ~ is_trail c) ->
  exists i', mutf_pass1 i h (mutf_cp c ++ l) =
    if needs_mod c then Ok true else mutf_pass1 i' (between 0xD800 0xDBFF c) l.
Proof.
  intros Hc Hh. rewrite mutf_cp_form by auto.
  unfold mutf_form, needs_mod, is_cp, is_trail in *.
  destruct ((1 <=? c) && (c <=? 127)) eqn:E1.
  { cbn [app]. rewrite pass1_plain by lia.
    assert ((c =? 0) || (65536 <=? c) = false) as -> by lia.
    assert (between 0xD800 0xDBFF c = false) as -> by (unfold between; lia). eauto. }
  destruct (c <=? 2047) eqn:E2.
  { cbn [app]. destruct (c =? 0) eqn:E0.
    - assert (c = 0) by lia. subst c. cbn. eauto.
    - rewrite !pass1_plain by lia.
      assert ((65536 <=? c) = false) as -> by lia. cbn [orb].
      assert (between 0xD800 0xDBFF c = false) as -> by (unfold between; lia). eauto. }
  destruct (c <? 65536) eqn:E3.
  { assert ((c =? 0) || (65536 <=? c) = false) as -> by lia. cbn [app].
    destruct (Z.eq_dec (224 + c / 4096) 237) as [Hed|Hned].
    - rewrite Hed. cbn [mutf_pass1].
      change (237 =? 192) with false. change (237 =? 237) with true. cbv iota.
      unfold between.
      assert ((160 <=? 128 + c / 64 mod 64) && (128 + c / 64 mod 64 <=? 175)
              = (55296 <=? c) && (c <=? 56319)) as -> by lia.
      destruct ((55296 <=? c) && (c <=? 56319)) eqn:E4; [eauto|].
      assert (Hn1 : (128 + c mod 64 =? 192) = false) by lia.
      assert (Hn2 : (128 + c mod 64 =? 237) = false) by lia.
      rewrite Hn1, Hn2.
      destruct ((176 <=? 128 + c / 64 mod 64) && (128 + c / 64 mod 64 <=? 191)) eqn:E5; [|eauto].
      destruct h; [exfalso; apply Hh; auto; lia|eauto].
    - rewrite !pass1_plain by lia.
      assert (between 0xD800 0xDBFF c = false) as -> by (unfold between; lia). eauto. }
  assert ((c =? 0) || (65536 <=? c) = true) as -> by lia.
  cbn [app mutf_pass1]. change (237 =? 192) with false. change (237 =? 237) with true. cbv iota.
  unfold between.
  assert ((160 <=? 160 + (c - 65536) / 65536) && (160 + (c - 65536) / 65536 <=? 175) = true)
    as -> by lia.
  assert ((160 <=? 176 + (c - 65536) / 64 mod 16) && (176 + (c - 65536) / 64 mod 16 <=? 175) = false)
    as -> by lia.
  assert ((176 <=? 176 + (c - 65536) / 64 mod 16) && (176 + (c - 65536) / 64 mod 16 <=? 191) = true)
    as -> by lia.
  eauto.
Qed.

Lemma pass1_spec cps : forall i h, wtf8_cps cps ->
  (h = true -> forall c t, cps = c :: t -> ~ is_trail c) ->
  mutf_pass1 i h (flat_map mutf_cp cps) = Ok (existsb needs_mod cps).
Proof.
  induction cps as [|c cps IH]; intros i h [Hc Hn] Hh; [reflexivity|].
  inversion Hc; subst. cbn [no_pair] in Hn. destruct Hn as [Hn1 Hn].
  cbn [flat_map existsb]. destruct (pass1_step i h c (flat_map mutf_cp cps)) as (i' & ->); eauto.
  destruct (needs_mod c); [reflexivity|]. cbn [orb]. apply IH; [split; auto|].
  intros Hl c' t ->. unfold between, is_lead in *. intros Ht. apply Hn1. split; auto. lia.
Qed.

(** Second pass. *)
Lemma pass2_keep b l : b <> 0xC0 -> b <> 0xED ->
  mutf_pass2 (b :: l) = (r <- mutf_pass2 l ;; Ok (b :: r)).
Proof.
  intros H1 H2. cbn [mutf_pass2].
  assert (b =? 192 = false) as -> by lia. assert (b =? 237 = false) as -> by lia. reflexivity.
Qed.

Definition no_trail_head (l : list Z) : Prop :=
  match l with n2 :: n3 :: _ => n2 = 0xED -> between 0xB0 0xBF n3 = false | _ => True end.

Lemma pass2_ed_keep n l : (between 0xA0 0xAF n = false \/
    match l with _ :: l' => no_trail_head l' | [] => True end) ->
  mutf_pass2 (0xED :: n :: l) = (r <- mutf_pass2 (n :: l) ;; Ok (0xED :: r)).
Proof.
  intros H. remember (n :: l) as l1 eqn:E. cbn [mutf_pass2].
  change (237 =? 192) with false. change (237 =? 237) with true. cbv iota. subst l1.
  destruct l as [|n1 [|n2 [|n3 [|n4 l6]]]]; try reflexivity.
  assert (between 160 175 n && (n2 =? 237) && between 176 191 n3 = false) as ->; [|reflexivity].
  destruct H as [->|H]; [reflexivity|]. cbn [no_trail_head] in H.
  destruct (n2 =? 237) eqn:E; [|rewrite andb_false_r; reflexivity].
  rewrite H by lia. apply andb_false_r.
Qed.

Lemma mutf_cp_no_trail_head c l : is_cp c -> ~ is_trail c -> no_trail_head (mutf_cp c ++ l).
Proof.
  intros Hc Ht. rewrite mutf_cp_form by auto. unfold mutf_form, no_trail_head, is_cp, is_trail in *.
  destruct ((1 <=? c) && (c <=? 127)) eqn:E1.
  { cbn [app]. destruct l; auto. lia. }
  destruct (c <=? 2047) eqn:E2; cbn [app]; [lia|].
  destruct (c <? 65536) eqn:E3; cbn [app]; unfold between; lia.
Qed.

Lemma bind_cons_ok (r : res (list Z)) o b :
  r = Ok o -> (x <- r ;; Ok (b :: x)) = Ok (b :: o).
Proof. intros ->. reflexivity. Qed.

Lemma pass2_step c l o : is_cp c -> (is_lead c -> no_trail_head l) ->
  mutf_pass2 l = Ok o -> mutf_pass2 (mutf_cp c ++ l) = Ok (utf8 c ++ o).
Proof.
  intros Hc Hl Ho. rewrite mutf_cp_form by auto. unfold mutf_form, utf8, is_cp, is_lead in *.
  destruct ((1 <=? c) && (c <=? 127)) eqn:E1.
  { assert (c <? 128 = true) as -> by lia. cbn [app]. rewrite pass2_keep by lia.
    apply bind_cons_ok. auto. }
  destruct (c <=? 2047) eqn:E2.
  { cbn [app]. destruct (Z.eq_dec c 0) as [->|Hn].
    - cbn. rewrite Ho. reflexivity.
    - assert (c <? 128 = false) as -> by lia. assert (c <? 2048 = true) as -> by lia.
      cbn [app]. rewrite !pass2_keep by lia. rewrite Ho. reflexivity. }
  assert (c <? 128 = false) as -> by lia. assert (c <? 2048 = false) as -> by lia.
  destruct (c <? 65536) eqn:E3.
  { cbn [app].
    destruct (Z.eq_dec (224 + c / 4096) 237) as [Hed|Hned].
    - rewrite Hed. rewrite pass2_ed_keep.
      + rewrite !pass2_keep by lia. rewrite Ho. reflexivity.
      + destruct (between 160 175 (128 + c / 64 mod 64)) eqn:E4; [right|left; auto].
        apply Hl. unfold between in E4. lia.
    - rewrite !pass2_keep by lia. rewrite Ho. reflexivity. }
  cbn [app mutf_pass2]. change (237 =? 192) with false. change (237 =? 237) with true. cbv iota.
  unfold between. cbn [andb].
  set (q := (c - 65536) / 65536).
  assert ((160 <=? 160 + q) && (160 + q <=? 175) = true) as -> by lia.
  assert ((176 <=? 176 + (c - 65536) / 64 mod 16) && (176 + (c - 65536) / 64 mod 16 <=? 191) = true)
    as -> by lia.
  cbn [andb]. bits0.
  assert (Hch : 65536 + (160 + q) mod 16 * 65536
    + (128 + (c - 65536) / 1024 mod 64) mod 64 * 1024
    + (176 + (c - 65536) / 64 mod 16) mod 16 * 64
    + (128 + c mod 64) mod 64 = c) by (subst q; lia).
  rewrite Hch. unfold char_from_u32, between.
  assert ((0 <=? c) && (c <=? 1114111) && negb ((55296 <=? c) && (c <=? 57343)) = true)
    as -> by lia.
  rewrite Ho. cbn [bind]. rewrite encode_utf8_raw_spec by (unfold is_cp; lia).
  unfold utf8. assert (c <? 128 = false) as -> by lia.
  assert (c <? 2048 = false) as -> by lia. rewrite E3. reflexivity.
Qed.

Lemma no_pair_head_trail c cps : no_pair (c :: cps) -> Forall is_cp cps -> is_lead c ->
  no_trail_head (flat_map mutf_cp cps).
Proof.
  intros [H _] Hc Hl. destruct cps as [|d cps]; cbn; auto.
  inversion Hc; subst. apply mutf_cp_no_trail_head; auto.
Qed.

Lemma pass2_spec cps : wtf8_cps cps ->
  mutf_pass2 (flat_map mutf_cp cps) = Ok (flat_map utf8 cps).
Proof.
  induction cps as [|c cps IH]; intros [Hc Hn]; [reflexivity|].
  inversion Hc; subst. cbn [flat_map]. apply pass2_step; auto.
  - intros Hl. eapply no_pair_head_trail; eauto.
  - apply IH. split; auto. apply Hn.
Qed.

Lemma no_mod_same cps : Forall is_cp cps -> existsb needs_mod cps = false ->
  flat_map mutf_cp cps = flat_map utf8 cps.
Proof.
  induction 1 as [|c cps Hc _ IH]; cbn; auto. intros H.
  apply orb_false_elim in H as [H1 H2]. rewrite IH by auto. f_equal.
  rewrite mutf_cp_form by auto. unfold mutf_form, utf8, needs_mod, is_cp in *.
  assert ((1 <=? c) && (c <=? 127) = (c <? 128)) as -> by lia.
  assert ((c <=? 2047) = (c <? 2048)) as -> by lia.
  destruct (c <? 128); auto. destruct (c <? 2048); auto.
  assert (c <? 65536 = true) as -> by lia. reflexivity.
Qed.

Lemma from_bytes_ok cps : wtf8_cps cps -> from_bytes (flat_map utf8 cps) = Ok (flat_map utf8 cps).
Proof.
  intros H. unfold from_bytes, validate_wtf8. rewrite validate_encoded; auto. discriminate.
Qed.

Lemma mutf_decode_spec cps : wtf8_cps cps ->
  modified_utf8_to_string (mutf8_of (flat_map utf16 cps)) = Ok (flat_map utf8 cps).
Proof.
  intros H. rewrite mutf8_of_utf16. unfold modified_utf8_to_string.
  rewrite pass1_spec by (auto; discriminate). cbn [bind].
  destruct (existsb needs_mod cps) eqn:E.
  - rewrite pass2_spec by auto. cbn [bind]. apply from_bytes_ok; auto.
  - rewrite no_mod_same by (auto; apply H). apply from_bytes_ok; auto.
Qed.

(** The decoder never panics. *)
Lemma pass1_no_panic n : forall i h l, (length l <= n)%nat -> is_panic (mutf_pass1 i h l) = false.
Proof.
  induction n as [|n IH]; intros i h l Hn.
  { destruct l; [reflexivity|cbn in Hn; lia]. }
  destruct l as [|b l1]; [reflexivity|]. cbn [mutf_pass1]. cbn in Hn.
  destruct (b =? 192).
  { destruct l1 as [|n0 l2]; [reflexivity|]. destruct (n0 =? 128); [reflexivity|].
    apply IH. cbn in Hn. lia. }
  destruct (b =? 237).
  { destruct l1 as [|n0 l2]; [reflexivity|]. cbn in Hn.
    destruct (between 160 175 n0).
    - destruct l2; [reflexivity|]. apply IH. cbn in Hn. lia.
    - destruct (between 176 191 n0); [destruct h; [reflexivity|]|]; apply IH; lia. }
  apply IH. lia.
Qed.

Lemma keep_no_panic b (x : res (list Z)) :
  is_panic x = false -> is_panic (r <- x ;; Ok (b :: r)) = false.
Proof. destruct x; auto. Qed.

Lemma pass2_no_panic n : forall l, (length l <= n)%nat -> bytes l ->
  exists o, mutf_pass2 l = Ok o.
Proof.
  induction n as [|n IH]; intros l Hn Hb.
  { destruct l; [cbn; eauto|cbn in Hn; lia]. }
  destruct l as [|b l1]; [cbn; eauto|]. cbn in Hn. inversion Hb as [|? ? Hb0 Hb1]; subst.
  destruct (IH l1 ltac:(lia) Hb1) as (o & Ho). cbn [mutf_pass2].
  destruct (b =? 192).
  { destruct l1 as [|n0 l2]; [rewrite Ho; cbn; eauto|]. destruct (n0 =? 128).
    - destruct (IH l2) as (o' & ->); [cbn in Hn; lia|inversion Hb1; auto|]. cbn; eauto.
    - rewrite Ho; cbn; eauto. }
  destruct (b =? 237).
  2:{ rewrite Ho; cbn; eauto. }
  destruct l1 as [|n0 [|n1 [|n2 [|n3 [|n4 l6]]]]];
    try (rewrite Ho; cbn; eauto; fail).
  destruct (between 160 175 n0 && (n2 =? 237) && between 176 191 n3).
  2:{ rewrite Ho; cbn; eauto. }
  destruct (IH l6) as (o' & ->).
  { cbn in Hn. lia. }
  { repeat match goal with H : bytes (_ :: _) |- _ => inversion H; clear H; subst
                         | H : Forall u8 (_ :: _) |- _ => inversion H; clear H; subst end. auto. }
  bits0. unfold char_from_u32, between.
  set (c := 65536 + n0 mod 16 * 65536 + n1 mod 64 * 1024 + n3 mod 16 * 64 + n4 mod 64).
  assert ((0 <=? c) && (c <=? 1114111) && negb ((55296 <=? c) && (c <=? 57343)) = true)
    as -> by (subst c; lia).
  cbn. eauto.
Qed.

Lemma from_bytes_no_panic l : is_panic (from_bytes l) = false.
Proof.
  unfold from_bytes, validate_wtf8.
  destruct (validate_only_wtf8_err _ 0 false l (le_n _)) as [->|(j & e & ->)]; reflexivity.
Qed.

Lemma mutf_decode_no_panic l : bytes l -> is_panic (modified_utf8_to_string l) = false.
Proof.
  intros Hb. unfold modified_utf8_to_string.
  pose proof (pass1_no_panic _ 0 false l (le_n _)) as H.
  destruct (mutf_pass1 0 false l) as [[|]| |]; cbn [bind]; auto.
  - destruct (pass2_no_panic _ l (le_n _) Hb) as (o & ->). cbn [bind]. apply from_bytes_no_panic.
  - apply from_bytes_no_panic.
Qed.

(** Strictness away from three leniencies. *)
Definition surrogate_tails (l : list Z) : Prop :=
  forall p n x r, l = p ++ 0xED :: n :: x :: r -> 0xA0 <= n <= 0xBF -> 0x80 <= x <= 0xBF.

Lemma surrogate_tails_app_r a b : surrogate_tails (a ++ b) -> surrogate_tails b.
Proof.
  intros H p n x r -> Hn. eapply (H (a ++ p)); eauto. rewrite <- app_assoc. reflexivity.
Qed.
Lemma surrogate_tails_cons a b : surrogate_tails (a :: b) -> surrogate_tails b.
Proof. apply (surrogate_tails_app_r [a]). Qed.

(** What the second pass may have seen, from its output. *)
Lemma pass2_inv l x o : bytes l -> Forall (fun b => 1 <= b <= 0xEF) l ->
  mutf_pass2 l = Ok (x :: o) ->
  (x <> 0 /\ x < 0xF0 /\ exists l1, l = x :: l1 /\ mutf_pass2 l1 = Ok o)
  \/ (x = 0 /\ exists l2, l = 0xC0 :: 0x80 :: l2 /\ mutf_pass2 l2 = Ok o)
  \/ (exists n n1 n3 n4 l6 c o', l = 0xED :: n :: n1 :: 0xED :: n3 :: n4 :: l6 /\
       0xA0 <= n <= 0xAF /\ 0xB0 <= n3 <= 0xBF /\
       c = 0x10000 + (n - 0xA0) * 65536 + n1 mod 64 * 1024 + (n3 - 0xB0) * 64 + n4 mod 64 /\
       x :: o = utf8 c ++ o' /\ mutf_pass2 l6 = Ok o').
Proof.
  intros Hb Hr H. destruct l as [|b l1]; [discriminate|].
  inversion Hr as [|? ? Hr0 Hr1]; subst.
  assert (Hkeep : (r <- mutf_pass2 l1 ;; Ok (b :: r)) = Ok (x :: o) ->
     (x <> 0 /\ x < 0xF0 /\ exists l1', b :: l1 = x :: l1' /\ mutf_pass2 l1' = Ok o)).
  { intros Hk. inv_bind Hk. inversion Hk; subst. repeat split; try lia. eauto. }
  cbn [mutf_pass2] in H.
  destruct (b =? 192) eqn:E1.
  { destruct l1 as [|n0 l2]; [left; auto|]. destruct (n0 =? 128) eqn:E2; [|left; auto].
    right; left. inv_bind H. inversion H; subst. split; auto.
    assert (b = 192) by lia. assert (n0 = 128) by lia. subst. eauto. }
  destruct (b =? 237) eqn:E2; [|left; auto].
  assert (b = 237) by lia. subst b.
  destruct l1 as [|n0 [|n1 [|n2 [|n3 [|n4 l6]]]]]; try (left; auto; fail).
  destruct (between 160 175 n0 && (n2 =? 237) && between 176 191 n3) eqn:E3; [|left; auto].
  right; right. clear Hkeep. unfold between in E3.
  assert (n2 = 237) by lia. subst n2.
  revert H. bits0. unfold char_from_u32, between.
  set (c := 65536 + n0 mod 16 * 65536 + n1 mod 64 * 1024 + n3 mod 16 * 64 + n4 mod 64).
  assert (Hc : 65536 <= c <= 1114111) by (subst c; lia).
  assert ((0 <=? c) && (c <=? 1114111) && negb ((55296 <=? c) && (c <=? 57343)) = true)
    as -> by lia.
  intros H. inv_bind H.
  rewrite encode_utf8_raw_spec in H by (unfold is_cp; lia).
  exists n0, n1, n3, n4, l6, c, v. repeat split; auto; try lia.
  injection H as H. rewrite <- H. unfold utf8.
  assert (c <? 128 = false) as -> by lia. assert (c <? 2048 = false) as -> by lia.
  assert (c <? 65536 = false) as -> by lia. reflexivity.
Qed.

Lemma pass2_nil_inv l : bytes l -> mutf_pass2 l = Ok [] -> l = [].
Proof.
  intros Hb H. destruct l as [|b l1]; auto. exfalso.
  assert (Hkeep : (r <- mutf_pass2 l1 ;; Ok (b :: r)) = Ok [] -> False).
  { intros Hk. inv_bind Hk. discriminate. }
  cbn [mutf_pass2] in H.
  destruct (b =? 192).
  { destruct l1 as [|n0 l2]; auto. destruct (n0 =? 128); auto. inv_bind H. discriminate. }
  destruct (b =? 237); auto.
  destruct l1 as [|n0 [|n1 [|n2 [|n3 [|n4 l6]]]]]; auto.
  destruct (between 160 175 n0 && (n2 =? 237) && between 176 191 n3); auto.
  destruct (char_from_u32 _) eqn:E; [|discriminate].
  inv_bind H. unfold encode_utf8_raw in H. destruct (len_utf8 z =? 1); [discriminate|].
  destruct (len_utf8 z =? 2); [discriminate|]. destruct (len_utf8 z =? 3); discriminate.
Qed.

Lemma pass2_bytes_out n : forall l o, (length l <= n)%nat -> bytes l ->
  mutf_pass2 l = Ok o -> bytes o.
Proof.
  induction n as [|n IH]; intros l o Hn Hb H.
  { destruct l; [inversion H; constructor|cbn in Hn; lia]. }
  destruct l as [|b l1]; [inversion H; constructor|]. cbn in Hn.
  inversion Hb as [|? ? Hb0 Hb1]; subst.
  assert (Hkeep : (r <- mutf_pass2 l1 ;; Ok (b :: r)) = Ok o -> bytes o).
  { intros Hk. inv_bind Hk. inversion Hk; subst. constructor; auto. eapply IH; eauto. lia. }
  cbn [mutf_pass2] in H.
  destruct (b =? 192).
  { destruct l1 as [|n0 l2]; auto. destruct (n0 =? 128); auto. inv_bind H. inversion H; subst.
    constructor; [unfold u8; lia|]. eapply (IH l2); eauto; [cbn in Hn; lia|inversion Hb1; auto]. }
  destruct (b =? 237); auto.
  destruct l1 as [|n0 [|n1 [|n2 [|n3 [|n4 l6]]]]]; auto.
  destruct (between 160 175 n0 && (n2 =? 237) && between 176 191 n3); auto.
  destruct (char_from_u32 _) eqn:E; [|discriminate].
  inv_bind H. inversion H; subst. clear H.
  assert (bytes v).
  { eapply (IH l6); eauto; [cbn in Hn; lia|].
    repeat match goal with H : bytes (_ :: _) |- _ => inversion H; clear H; subst
                         | H : Forall u8 (_ :: _) |- _ => inversion H; clear H; subst end. auto. }
  assert (Hz : is_cp z).
  { unfold char_from_u32 in E. destruct ((0 <=? _) && _ && _) eqn:Ez in E; [|discriminate].
    inversion E; subst. unfold is_cp. lia. }
  rewrite encode_utf8_raw_spec by auto. apply Forall_app. split; auto.
  unfold pad4. unfold is_cp, utf8 in *.
  split_ifs; cbn [app firstn]; repeat first [apply Forall_cons|apply Forall_nil]; unfold u8; lia.
Qed.

(** Recovering the units from the second pass. *)
Lemma pass2_sound n : forall l o i h, (length l <= n)%nat -> bytes l ->
  Forall (fun b => 1 <= b <= 0xEF) l -> surrogate_tails l ->
  mutf_pass2 l = Ok o -> validate_from i h o = Ok tt ->
  exists cps, wtf8_cps cps /\ o = flat_map utf8 cps /\ l = flat_map mutf_cp cps /\
    (h = true -> forall c t, cps = c :: t -> ~ is_trail c).
Proof.
  induction n as [|n IH]; intros l o i h Hn Hb Hr Hs Ho Hv.
  { destruct l; [|cbn in Hn; lia]. inversion Ho; subst. exists [].
    repeat split; auto; try constructor. discriminate. }
  destruct o as [|x o].
  { apply pass2_nil_inv in Ho; auto. subst. exists [].
    repeat split; auto; try constructor. discriminate. }
  assert (Hob : bytes (x :: o)) by (eapply pass2_bytes_out; eauto).
  rewrite validate_step in Hv.
  destruct (vstep h (x :: o)) as [|k h'|d e] eqn:E; try discriminate.
  { exfalso. clear - E. unfold vstep in E. vstep_cases E. }
  (* split off the head chunk *)
  assert (Hgen : forall c l', l = mutf_cp c ++ l' -> is_cp c ->
            (exists o', x :: o = utf8 c ++ o' /\ mutf_pass2 l' = Ok o') ->
            (h = true -> ~ is_trail c) ->
            h' = between 0xD800 0xDBFF c -> k = length (utf8 c) ->
            (length l' < length l)%nat ->
            exists cps, wtf8_cps cps /\ x :: o = flat_map utf8 cps /\ l = flat_map mutf_cp cps /\
              (h = true -> forall c t, cps = c :: t -> ~ is_trail c)).
  { intros c l' Hl Hc (o' & Hx & Ho') Hh Hh' -> Hlt. rewrite Hx in Hv. rewrite skipn_len_app in Hv.
    destruct (IH l' o' (i + Z.of_nat (length (utf8 c))) h') as (cps & [Hcs Hnp] & -> & -> & Hh2); auto.
    - lia.
    - rewrite Hl in Hb. eapply bytes_app_r; eauto.
    - rewrite Hl in Hr. apply Forall_app in Hr. tauto.
    - rewrite Hl in Hs. eapply surrogate_tails_app_r; eauto.
    - exists (c :: cps). split; [split|split; [|split]].
      + constructor; auto.
      + cbn. split; auto. destruct cps as [|c' t]; auto. intros [Hle Ht].
        apply (Hh2 ltac:(subst h'; unfold between, is_lead in *; lia) c' t eq_refl Ht).
      + cbn. auto.
      + cbn. auto.
      + intros Hht c0 t [= <- <-]. auto. }
  destruct (pass2_inv _ _ _ Hb Hr Ho)
    as [(Hx0 & Hxf & l1 & -> & Ho1)|[(-> & l2 & -> & Ho1)|
        (n0 & n1 & n3 & n4 & l6 & c & o' & -> & Hn0 & Hn3 & Hc & Hxo & Ho1)]].
  - (* plain chunk *)
    assert (Hlt : lead_tail_head (x :: o)).
    { intros m y r [= -> ->] Hm.
      inversion Hb; inversion Hr; subst.
      destruct (pass2_inv l1 m (y :: r)) as [(_ & _ & l2 & -> & Ho2)|[(-> & _)|(a & b & c & d & l6 & e & o' & -> & Ha & Hd3 & He & Hmo & _)]]; auto; try lia.
      - inversion H2; inversion H6; subst.
        destruct (pass2_inv l2 y r) as [(_ & _ & l3 & -> & _)|[(-> & l3 & -> & _)|(a & b & c & d & l6 & e & o' & -> & Ha & Hd3 & He & Hmo & _)]]; auto.
        + eapply (Hs [] m y l3); auto. lia.
        + exfalso. specialize (Hs [] m 192 (128 :: l3) eq_refl). lia.
        + exfalso. specialize (Hs [] m 237 (a :: b :: 237 :: c :: d :: l6) eq_refl). lia.
      - exfalso. unfold utf8 in Hmo.
        assert (e <? 128 = false) as Q1 by lia. assert (e <? 2048 = false) as Q2 by lia.
        assert (e <? 65536 = false) as Q3 by lia. rewrite Q1, Q2, Q3 in Hmo.
        inversion Hmo. lia. }
    destruct (vstep_decode _ _ _ _ Hob Hlt E) as (c & Hc & Hf & Hh' & Hh).
    assert (Hk : k = length (utf8 c)).
    { rewrite <- Hf, firstn_length. destruct (vstep_ok _ _ _ _ E) as (_ & Hkl & _). lia. }
    assert (Hxo : x :: o = utf8 c ++ skipn k (x :: o)).
    { rewrite <- Hf. symmetry. apply firstn_skipn. }
    inversion Hb as [|? ? Hb0 Hb1]; inversion Hr as [|? ? Hr0 Hr1]; subst.
    (* the remaining bytes of the chunk are kept bytes *)
    assert (Htail : forall t l1 o1, Forall (fun y => (128 <=? y) && (y <? 192) = true) t ->
       Forall (fun b => 1 <= b <= 0xEF) l1 -> bytes l1 ->
       mutf_pass2 l1 = Ok (t ++ o1) -> exists l2, l1 = t ++ l2 /\ mutf_pass2 l2 = Ok o1).
    { clear. induction t as [|y t IHt]; intros l1 o1 Ht Hr Hb H; [exists l1; auto|].
      inversion Ht; subst. cbn [app] in H.
      destruct (pass2_inv l1 y (t ++ o1)) as [(_ & _ & l2 & -> & Ho2)|[(-> & _)|(a & b & c & d & l6 & e & o' & -> & Ha & Hd3 & He & Hmo & _)]]; auto; try lia.
      - inversion Hr; inversion Hb; subst. destruct (IHt l2 o1) as (l3 & -> & ?); auto. exists l3. split; auto.
      - exfalso. unfold utf8 in Hmo.
        assert (e <? 128 = false) as Q1 by lia. assert (e <? 2048 = false) as Q2 by lia.
        assert (e <? 65536 = false) as Q3 by lia. rewrite Q1, Q2, Q3 in Hmo.
        inversion Hmo. lia. }
    destruct (utf8_nonempty c) as (b0 & t0 & Ec).
    destruct (utf8_head_not_cont c b0 t0 Hc Ec) as [_ Ht0].
    rewrite Ec in Hxo. cbn [app] in Hxo. injection Hxo as Hb0x Hxo. subst b0.
    rewrite Hxo in Ho1. destruct (Htail _ _ _ Ht0 Hr1 Hb1 Ho1) as (l2 & -> & Ho2).
    apply (Hgen c l2); auto.
    + replace (mutf_cp c) with (utf8 c); [rewrite Ec; reflexivity|].
      rewrite mutf_cp_form by auto. unfold mutf_form, utf8 in *. unfold is_cp in Hc.
      assert ((1 <=? c) && (c <=? 127) = (c <? 128)) as Q.
      { destruct (c <? 128) eqn:Q; [|lia]. injection Ec as <- <-. lia. }
      rewrite Q. destruct (c <? 128) eqn:Q1; auto.
      assert ((c <=? 2047) = (c <? 2048)) as -> by lia. destruct (c <? 2048); auto.
      destruct (c <? 65536) eqn:Q3; auto. exfalso. injection Ec as <- <-. lia.
    + exists (skipn (length (utf8 c)) (x :: o)). split; [|try rewrite Ec in *; assumption]. rewrite Ec. cbn [app]. f_equal. try rewrite Ec in *. assumption.
    + cbn. rewrite app_length. lia.
  - (* NUL *)
    apply (Hgen 0 l2); auto.
    + unfold is_cp. lia.
    + exists o. auto.
    + intros _. unfold is_trail. lia.
    + cbn in E. inversion E. reflexivity.
    + cbn in E. inversion E. reflexivity.
    + cbn. lia.
  - (* surrogate pair *)
    assert (H1 : 0x80 <= n1 <= 0xBF).
    { eapply (Hs [] n0 n1); [reflexivity|]. lia. }
    assert (H4 : 0x80 <= n4 <= 0xBF).
    { eapply (Hs [237; n0; n1] n3 n4); [reflexivity|]. lia. }
    assert (Hcp : is_cp c) by (unfold is_cp; lia).
    rewrite Hxo in E. rewrite vstep_encoded in E; auto.
    2:{ intros _. unfold is_trail. lia. }
    inversion E; subst k h'.
    apply (Hgen c l6); auto.
    + rewrite mutf_cp_form by auto. unfold mutf_form.
      assert ((1 <=? c) && (c <=? 127) = false) as -> by lia.
      assert (c <=? 2047 = false) as -> by lia. assert (c <? 65536 = false) as -> by lia.
      cbn [app]. list_eq.
    + eauto.
    + intros _. unfold is_trail. lia.
    + cbn. lia.
Qed.

Lemma mutf_decode_strict l s : bytes l -> Forall (fun b => 1 <= b <= 0xEF) l -> surrogate_tails l ->
  modified_utf8_to_string l = Ok s ->
  exists cps, wtf8_of cps s /\ l = mutf8_of (flat_map utf16 cps).
Proof.
  intros Hb Hr Hs H. unfold modified_utf8_to_string in H. inv_bind H. destruct v.
  - inv_bind H. unfold from_bytes in H. inv_bind H. inversion H; subst. destruct v0.
    destruct (pass2_sound _ _ _ _ _ (le_n _) Hb Hr Hs E0 E1) as (cps & Hc & -> & -> & _).
    exists cps. split; [split; auto|]. rewrite mutf8_of_utf16. reflexivity.
  - unfold from_bytes in H. inv_bind H. inversion H; subst. destruct v.
    assert (Hlt : lead_tails s).
    { intros p n x r -> Hn. eapply Hs; eauto. lia. }
    destruct (validate_sound_aux _ _ _ _ (le_n _) Hb Hlt E0) as (cps & [Hc Hn] & -> & _).
    exists cps. split; [split; auto; split; auto|]. rewrite mutf8_of_utf16.
    symmetry. apply no_mod_same; auto.
    clear - Hr Hc. induction Hc as [|c cps Hc0 _ IH]; cbn; auto.
    cbn in Hr. apply Forall_app in Hr as [Hr1 Hr2]. rewrite IH by auto.
    rewrite orb_false_r. unfold needs_mod, utf8, is_cp in *.
    destruct (c <? 128) eqn:Q1; [inversion Hr1; subst; lia|].
    destruct (c <? 2048) eqn:Q2; [lia|]. destruct (c <? 65536) eqn:Q3; [lia|].
    inversion Hr1; subst. lia.
Qed.
