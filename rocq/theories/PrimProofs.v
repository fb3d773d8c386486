(** Lemmas about the primitive codecs. *)
From Verif Require Import Base BaseLemmas Wtf8Spec Wtf8Model MutfModel PrimModel.
From Verif Require Import Wtf8Proofs MutfProofs.

Lemma take_app a l : take (len a) (a ++ l) = Ok (a, l).
Proof.
  induction a as [|x a IH]; cbn [take app].
  - destruct l; reflexivity.
  - rewrite len_cons. assert (len a + 1 <=? 0 = false) as -> by (pose proof (len_nonneg a); lia).
    replace (len a + 1 - 1) with (len a) by lia. rewrite IH. reflexivity.
Qed.
Lemma take_app' n a l : n = len a -> take n (a ++ l) = Ok (a, l).
Proof. intros ->. apply take_app. Qed.

Lemma take_ok n l a r : take n l = Ok (a, r) -> l = a ++ r /\ len a = Z.max 0 n.
Proof.
  revert n a r. induction l as [|b l IH]; intros n a r; cbn [take]; destruct (n <=? 0) eqn:E.
  - intros [= <- <-]. split; auto. rewrite len_nil. lia.
  - discriminate.
  - intros [= <- <-]. split; auto. rewrite len_nil. lia.
  - intros H. inv_bind H. destruct v as [a' r']. inversion H; subst. apply IH in E0 as [-> Hl].
    split; auto. rewrite len_cons. lia.
Qed.

Lemma take_short n l : len l < n -> take n l = Err EIo.
Proof.
  revert n. induction l as [|b l IH]; intros n; cbn [take]; rewrite ?len_nil, ?len_cons; intros H.
  - assert (n <=? 0 = false) as -> by lia. reflexivity.
  - assert (n <=? 0 = false) as -> by (pose proof (len_nonneg l); lia). rewrite IH by lia. reflexivity.
Qed.

Lemma take_no_panic n l : is_panic (take n l) = false.
Proof.
  revert n. induction l as [|b l IH]; intros n; cbn [take]; destruct (n <=? 0); auto.
  specialize (IH (n - 1)). destruct (take (n - 1) l) as [[]| |]; auto.
Qed.

Lemma be_len n x : len (be n x) = Z.of_nat n.
Proof. induction n as [|n IH]; [reflexivity|]. cbn [be]. rewrite len_cons, IH. lia. Qed.
Lemma be_length n x : length (be n x) = n.
Proof. induction n as [|n IH]; [reflexivity|]. cbn [be length]. congruence. Qed.

Lemma be_bytes n x : bytes (be n x).
Proof. induction n; constructor; auto. unfold u8. lia. Qed.

Lemma from_be_acc l : forall acc, fold_left (fun a b => a * 256 + b) l acc =
  acc * 256 ^ len l + from_be l.
Proof.
  unfold from_be. induction l as [|b l IH]; intros acc; cbn [fold_left].
  - rewrite len_nil. change (256 ^ 0) with 1. lia.
  - rewrite IH, (IH (0 * 256 + b)). rewrite len_cons, Z.pow_add_r by (pose proof (len_nonneg l); lia).
    change (256 ^ 1) with 256. ring.
Qed.

Lemma from_be_cons b l : from_be (b :: l) = b * 256 ^ len l + from_be l.
Proof. unfold from_be at 1. cbn [fold_left]. rewrite from_be_acc. f_equal. Qed.

Lemma from_be_be n x : from_be (be n x) = x mod 256 ^ Z.of_nat n.
Proof.
  induction n as [|n IH].
  - cbn. rewrite Z.mod_1_r. reflexivity.
  - cbn [be]. rewrite from_be_cons, be_len, IH.
    replace (Z.of_nat (S n)) with (Z.of_nat n + 1) by lia.
    rewrite Z.pow_add_r by lia. change (256 ^ 1) with 256.
    set (m := 256 ^ Z.of_nat n). assert (0 < m) by (subst m; apply Z.pow_pos_nonneg; lia).
    rewrite Z.rem_mul_r by lia. rewrite Z.mul_comm. lia.
Qed.

Lemma from_be_range l : bytes l -> 0 <= from_be l < 256 ^ len l.
Proof.
  induction 1 as [|b l Hb _ IH]; [cbn; lia|].
  rewrite from_be_cons, len_cons, Z.pow_add_r by (pose proof (len_nonneg l); lia).
  change (256 ^ 1) with 256. unfold u8 in Hb. nia.
Qed.

Lemma pow256 n : 2 ^ (8 * Z.of_nat n) = 256 ^ Z.of_nat n.
Proof. rewrite Z.pow_mul_r by lia. reflexivity. Qed.

Lemma be_mod n x : be n (x mod 256 ^ Z.of_nat n) = be n x.
Proof.
  assert (Hg : forall k, (k <= n)%nat -> be k (x mod 256 ^ Z.of_nat n) = be k x).
  { induction k as [|k IH]; intros Hk; [reflexivity|]. cbn [be]. rewrite IH by lia. f_equal.
    replace (Z.of_nat n) with (Z.of_nat k + (Z.of_nat n - Z.of_nat k)) by lia.
    rewrite Z.pow_add_r by lia.
    set (m := 256 ^ Z.of_nat k). assert (0 < m) by (subst m; apply Z.pow_pos_nonneg; lia).
    set (q := 256 ^ (Z.of_nat n - Z.of_nat k)).
    assert (Hq : q = 256 * 256 ^ (Z.of_nat n - Z.of_nat k - 1)).
    { subst q. rewrite <- (Z.pow_1_r 256) at 2. rewrite <- Z.pow_add_r by lia. f_equal. lia. }
    set (q' := 256 ^ (Z.of_nat n - Z.of_nat k - 1)) in *.
    assert (0 < q') by (subst q'; apply Z.pow_pos_nonneg; lia).
    assert (0 < q) by lia.
    rewrite Z.rem_mul_r by lia.
    rewrite (Z.mul_comm m), Z.div_add by lia. rewrite Z.div_small by (apply Z.mod_pos_bound; lia).
    rewrite Z.add_0_l. rewrite Hq. rewrite Z.rem_mul_r by lia.
    rewrite (Z.mul_comm 256), Z.mod_add by lia. apply Z.mod_mod. lia. }
  apply Hg. lia.
Qed.

Lemma rd_u_be n x rest : 0 <= x < 256 ^ Z.of_nat n -> rd_u n (be n x ++ rest) = Ok (x, rest).
Proof.
  intros Hx. unfold rd_u. rewrite take_app' by (rewrite be_len; reflexivity). cbn [bind].
  rewrite from_be_be, Z.mod_small by auto. reflexivity.
Qed.

Lemma rd_u8_be x rest : u8 x -> rd_u8 (be 1 x ++ rest) = Ok (x, rest).
Proof. intros H. apply rd_u_be. exact H. Qed.
Lemma rd_u16_be x rest : u16 x -> rd_u16 (be 2 x ++ rest) = Ok (x, rest).
Proof. intros H. apply rd_u_be. exact H. Qed.
Lemma rd_u32_be x rest : u32 x -> rd_u32 (be 4 x ++ rest) = Ok (x, rest).
Proof. intros H. apply rd_u_be. exact H. Qed.
Lemma rd_u64_be x rest : u64 x -> rd_u64 (be 8 x ++ rest) = Ok (x, rest).
Proof. intros H. apply rd_u_be. exact H. Qed.
Lemma rd_f32_be x rest : u32 x -> rd_f32 (be 4 x ++ rest) = Ok (x, rest).
Proof. intros H. apply rd_u_be. exact H. Qed.
Lemma rd_f64_be x rest : u64 x -> rd_f64 (be 8 x ++ rest) = Ok (x, rest).
Proof. intros H. apply rd_u_be. exact H. Qed.

Lemma wrap_s_mod w x : 0 < w -> - 2 ^ (w - 1) <= x < 2 ^ (w - 1) -> wrap_s w (x mod 2 ^ w) = x.
Proof.
  intros Hw Hx. unfold wrap_s.
  assert (Hp : 2 ^ w = 2 * 2 ^ (w - 1)).
  { replace w with (w - 1 + 1) at 1 by lia. rewrite Z.pow_add_r by lia. lia. }
  rewrite Zplus_mod_idemp_l. rewrite Z.mod_small; lia.
Qed.

Lemma rd_s_be n x rest : (0 < n)%nat ->
  - 2 ^ (8 * Z.of_nat n - 1) <= x < 2 ^ (8 * Z.of_nat n - 1) ->
  rd_s n (be n x ++ rest) = Ok (x, rest).
Proof.
  intros Hn Hx. unfold rd_s. rewrite take_app' by (rewrite be_len; reflexivity). cbn [bind].
  rewrite from_be_be, <- pow256, wrap_s_mod by lia. reflexivity.
Qed.
Lemma rd_i8_be x rest : i8 x -> rd_i8 (be 1 x ++ rest) = Ok (x, rest).
Proof. intros H. apply rd_s_be; [lia|exact H]. Qed.
Lemma rd_i16_be x rest : i16 x -> rd_i16 (be 2 x ++ rest) = Ok (x, rest).
Proof. intros H. apply rd_s_be; [lia|exact H]. Qed.
Lemma rd_i32_be x rest : i32 x -> rd_i32 (be 4 x ++ rest) = Ok (x, rest).
Proof. intros H. apply rd_s_be; [lia|exact H]. Qed.
Lemma rd_i64_be x rest : i64 x -> rd_i64 (be 8 x ++ rest) = Ok (x, rest).
Proof. intros H. apply rd_s_be; [lia|exact H]. Qed.

(** Inversion: what a successful numeric read saw. *)
Lemma rd_u_ok n l x r : bytes l -> rd_u n l = Ok (x, r) ->
  l = be n x ++ r /\ 0 <= x < 256 ^ Z.of_nat n.
Proof.
  intros Hb H. unfold rd_u in H. inv_bind H. destruct v as [b r']. inversion H; subst.
  apply take_ok in E as [-> Hl]. apply Forall_app in Hb as [Hb _].
  replace (Z.max 0 (Z.of_nat n)) with (Z.of_nat n) in Hl by lia.
  pose proof (from_be_range b Hb) as Hr. rewrite Hl in Hr. split; auto. f_equal.
  (* uniqueness of the digits *)
  assert (Hu : forall n b, bytes b -> len b = Z.of_nat n -> b = be n (from_be b)).
  { clear. induction n as [|n IH]; intros b Hb Hl.
    - destruct b; [reflexivity|]. rewrite len_cons in Hl. pose proof (len_nonneg b). lia.
    - destruct b as [|x b]; [rewrite len_nil in Hl; lia|]. rewrite len_cons in Hl.
      inversion Hb as [|? ? Hx Hb']; subst. rewrite from_be_cons.
      assert (Hlb : len b = Z.of_nat n) by lia. rewrite Hlb.
      pose proof (from_be_range b Hb') as Hr. rewrite Hlb in Hr.
      set (m := 256 ^ Z.of_nat n) in *. cbn [be]. fold m. f_equal.
      + rewrite Z.mul_comm, Z.add_comm, Z.mul_comm, Z.div_add by lia.
        rewrite Z.div_small by lia. unfold u8 in Hx. rewrite Z.mod_small; lia.
      + rewrite <- (be_mod n (x * m + from_be b)). fold m.
        rewrite Z.add_comm, Z.mod_add by lia. rewrite Z.mod_small by lia.
        apply IH; auto. }
  auto.
Qed.

Lemma rd_u_no_panic n l : is_panic (rd_u n l) = false.
Proof. unfold rd_u. pose proof (take_no_panic (Z.of_nat n) l). destruct (take _ l) as [[]| |]; auto. Qed.
Lemma rd_s_no_panic n l : is_panic (rd_s n l) = false.
Proof. unfold rd_s. pose proof (take_no_panic (Z.of_nat n) l). destruct (take _ l) as [[]| |]; auto. Qed.

(** Vectors. *)
Lemma mapM_length {A B} (f : A -> res B) l r : mapM f l = Ok r -> length r = length l.
Proof.
  revert r. induction l as [|a l IH]; intros r; cbn; [intros [= <-]; reflexivity|].
  intros H. inv_bind H. inv_bind H. inversion H; subst. cbn. f_equal. auto.
Qed.

Lemma rd_times_mapM {A} (r : rd A) (w : wr A) (P : A -> Prop) xs ws rest :
  (forall a bs rest, P a -> w a = Ok bs -> r (bs ++ rest) = Ok (a, rest)) ->
  Forall P xs -> mapM w xs = Ok ws -> rd_times (length xs) r (concat ws ++ rest) = Ok (xs, rest).
Proof.
  intros Hc HP. revert ws. induction HP as [|a xs Ha _ IH]; intros ws; cbn.
  - intros [= <-]. reflexivity.
  - intros H. inv_bind H. inv_bind H. inversion H; subst. cbn. rewrite <- app_assoc.
    rewrite (Hc _ _ _ Ha E). cbn. rewrite (IH _ E0). reflexivity.
Qed.

(** Floats. *)
Lemma total_key_spec w b : 0 < w -> 0 <= b < 2 ^ w ->
  total_key w b = if b <? 2 ^ (w - 1) then b else 2 ^ (w - 1) - 1 - b.
Proof.
  intros Hw Hb.
  assert (Hp : 2 ^ w = 2 * 2 ^ (w - 1)).
  { replace w with (w - 1 + 1) at 1 by lia. rewrite Z.pow_add_r by lia. lia. }
  set (h := 2 ^ (w - 1)) in *. assert (Hh : 0 < h) by (subst h; apply Z.pow_pos_nonneg; lia).
  assert (Hs : wrap_s w b = if b <? h then b else b - 2 * h).
  { unfold wrap_s. fold h. rewrite Hp. destruct (b <? h) eqn:E.
    - rewrite Z.mod_small; lia.
    - replace (b + h) with (b - h + 1 * (2 * h)) by lia. rewrite Z.mod_add by lia.
      rewrite Z.mod_small; lia. }
  unfold total_key. rewrite Hs. destruct (b <? h) eqn:E.
  - assert (b <? 0 = false) as -> by lia. reflexivity.
  - assert (b - 2 * h <? 0 = true) as -> by lia.
    unfold wrap_u. rewrite Hp.
    replace (b - 2 * h) with (b + (-1) * (2 * h)) by lia. rewrite Z.mod_add by lia.
    rewrite Z.mod_small by lia. fold h.
    (* xor with h-1 flips the low w-1 bits *)
    assert (Hx : Z.lxor b (h - 1) = h + (h - 1 - (b - h))).
    { assert (Hd : b = Z.lor h (b - h)).
      { rewrite (lor_add' h (b - h) (w - 1)); [lia|lia|lia|]. fold h. apply Z.mod_same. lia. }
      apply Z.bits_inj'. intros n Hn. rewrite Z.lxor_spec.
      assert (H1 : Z.testbit (h - 1) n = (n <? w - 1)).
      { replace (h - 1) with (Z.ones (w - 1)) by (rewrite Z.ones_equiv; fold h; lia).
        destruct (n <? w - 1) eqn:En; [apply Z.ones_spec_low|apply Z.ones_spec_high]; lia. }
      assert (H2 : h + (h - 1 - (b - h)) = Z.lor h (h - 1 - (b - h))).
      { rewrite (lor_add' h _ (w - 1)); [lia|lia|fold h; lia|]. fold h. apply Z.mod_same. lia. }
      rewrite H2. rewrite Hd at 1. rewrite !Z.lor_spec, H1.
      destruct (n <? w - 1) eqn:En.
      - assert (Z.testbit h n = false) as -> by (subst h; apply Z.pow2_bits_false; lia).
        cbn [orb].
        replace (h - 1 - (b - h)) with (Z.lnot (b - h) + 1 * 2 ^ (w - 1)) by (unfold Z.lnot; fold h; lia).
        rewrite <- (Z.mod_pow2_bits_low (Z.lnot (b - h) + 1 * 2 ^ (w - 1)) (w - 1) n) by lia.
        rewrite Z.mod_add by (fold h; lia). rewrite Z.mod_pow2_bits_low by lia.
        rewrite Z.lnot_spec by lia. destruct (Z.testbit (b - h) n); reflexivity.
      - rewrite xorb_false_r. f_equal.
        assert (forall y, 0 <= y < h -> Z.testbit y n = false) as Hz.
        { intros y Hy. rewrite <- (Z.mod_small y (2 ^ (w - 1))) by (fold h; lia).
          apply Z.mod_pow2_bits_high. lia. }
        rewrite !Hz by lia. reflexivity. }
    rewrite Hx. unfold wrap_s. fold h. rewrite Hp.
    replace (h + (h - 1 - (b - h)) + h) with ((h - 1 - (b - h)) + 1 * (2 * h)) by lia.
    rewrite Z.mod_add by lia. rewrite Z.mod_small by lia. lia.
Qed.
