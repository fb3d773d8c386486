(** Strings whose surrogates may have any third byte: decoding and encoding. *)
From Coq Require Import Lia.
From Verif Require Import Base BaseLemmas Wtf8Spec Wtf8Model Wtf8Proofs Wtf8Proofs2 Wtf8Proofs3 MutfModel MutfProofs WriteSpec.

Lemma chars_cps s : chars s -> wtf8_cps s.
Proof.
  intros H. split; [eapply Forall_impl; [|exact H]; cbn; tauto|]. induction H as [|a l [_ Ha] _ IH]; cbn [no_pair]; auto.
  split; auto. destruct l; auto. intros [Hl _]. apply Ha. unfold is_lead, is_surrogate in *. lia.
Qed.
Definition of_chars (s : list Z) : Prop := exists cps, chars cps /\ s = flat_map utf8 cps.
Lemma of_chars_wf s : of_chars s -> lax s.
Proof. intros (cps & H & ->). induction H as [|c l [H1 H2] _ IH]; cbn [flat_map]; auto using lax. Qed.
Lemma of_chars_app a b : of_chars a -> of_chars b -> of_chars (a ++ b).
Proof. intros (x & Hx & ->) (y & Hy & ->). exists (x ++ y). split; [apply Forall_app; auto|]. rewrite flat_map_app. reflexivity. Qed.
Lemma of_chars_one c : is_cp c -> ~ is_surrogate c -> of_chars (utf8 c).
Proof. intros H1 H2. exists [c]. split; [repeat constructor; apply H1 || apply H2|]. cbn. now rewrite app_nil_r. Qed.
Lemma of_chars_nil : of_chars []. Proof. exists []. split; [constructor|reflexivity]. Qed.
Lemma of_chars_ascii s : Forall (fun c => 0 <= c < 128) s -> of_chars s.
Proof.
  intros H. exists s. split; [eapply Forall_impl; [|exact H]; cbn; unfold is_cp, is_surrogate; lia|].
  induction H as [|c l Hc _ IH]; auto. cbn. rewrite <- IH. unfold utf8. destruct (Z.ltb_spec c 128); [reflexivity|lia].
Qed.
Lemma of_chars_brackets n : of_chars (repeat 91 n).
Proof. apply of_chars_ascii. apply Forall_forall. intros x Hx. apply repeat_spec in Hx. lia. Qed.

(** ** Where they come from *)
Lemma surrogate_bytes c : is_surrogate c -> exists n x, utf8 c = [0xED; n; x] /\ 0xA0 <= n <= 0xBF /\ u8 x.
Proof.
  intros H. unfold is_surrogate in H. exists (0x80 + c / 64 mod 64), (0x80 + c mod 64). unfold utf8, u8.
  destruct (Z.ltb_spec c 128); [lia|]. destruct (Z.ltb_spec c 2048); [lia|]. destruct (Z.ltb_spec c 65536); [|lia].
  split; [|lia]. f_equal. lia.
Qed.
Lemma surrogate_dec c : is_surrogate c \/ ~ is_surrogate c.
Proof. unfold is_surrogate. lia. Qed.
Lemma lax_cp c s : is_cp c -> lax s -> lax (utf8 c ++ s).
Proof.
  intros Hc Hs. destruct (surrogate_dec c) as [H|H]; [|apply lax_char; auto]. destruct (surrogate_bytes c H) as (n & x & -> & Hn & Hx). apply lax_surrogate; auto.
Qed.
Lemma wf_lax s : wf_wtf8 s -> lax s.
Proof. intros (cps & [Hc _] & ->). induction Hc; cbn [flat_map]; auto using lax, lax_cp. Qed.
(** what the validator accepts *)
Lemma valid_lax_from n : forall i h l, (length l <= n)%nat -> bytes l -> validate_from i h l = Ok tt -> lax l.
Proof.
  induction n as [|n IH]; intros i h l Hn Hb H.
  { destruct l; [constructor|cbn in Hn; lia]. }
  rewrite validate_step in H. destruct (vstep h l) as [|k h'|d e] eqn:E; try discriminate.
  { destruct l; [constructor|exfalso; clear - E; unfold vstep in E; vstep_cases E]. }
  destruct (vstep_ok _ _ _ _ E) as (Hk & Hkl & _).
  assert (HL : (exists m x r, l = 0xED :: m :: x :: r /\ 0xA0 <= m <= 0xAF) \/ lead_tail_head l).
  { destruct l as [|b [|m [|x r]]]; try (right; intros n1 x1 r1 E1; discriminate E1).
    destruct (Z.eq_dec b 0xED) as [->|N]; [|right; intros n1 x1 r1 E1; congruence].
    destruct (Z_le_dec 0xA0 m); [destruct (Z_le_dec m 0xAF)|]; [left; exists m, x, r; auto| |]; right; intros n1 x1 r1 E1 H1; injection E1 as <- <- <-; lia. }
  assert (HS : lax (skipn k l)).
  { eapply IH; [|apply Forall_forall; intros x Hx; apply (proj1 (Forall_forall _ _) Hb); rewrite <- (firstn_skipn k l); apply in_or_app; auto|exact H].
    rewrite skipn_length. lia. }
  destruct HL as [(m & x & r & -> & Hm)|HL].
  - assert (k = 3%nat) as ->.
    { unfold vstep, tail_byte, between in E. cbn in E. assert ((160 <=? m) && (m <=? 175) = true) as Em by lia. rewrite Em in E. congruence. }
    cbn [skipn] in HS. apply lax_surrogate; auto; [lia|]. inversion Hb as [|? ? _ Hb1]; inversion Hb1 as [|? ? _ Hb2]; inversion Hb2; auto.
  - destruct (vstep_decode _ _ _ _ Hb HL E) as (c & Hc & Hf & _ & _). rewrite <- (firstn_skipn k l), Hf. apply lax_cp; auto.
Qed.
Lemma valid_lax s : bytes s -> validate_wtf8 s = Ok tt -> lax s.
Proof. intros Hb H. exact (valid_lax_from _ _ _ _ (Nat.le_refl _) Hb H). Qed.

(** ** Lossy text *)
Lemma next_lax l : lax l -> forall pos, match next_surrogate_from pos l with
  | None => of_chars l
  | Some (sp, _) => exists a d e b, l = a ++ 0xED :: d :: e :: b /\ of_chars a /\ lax b /\ sp = (pos + length a)%nat
  end.
Proof.
  induction 1 as [|c l Hc Hs Hl IH|n x l Hn Hx Hl IH]; intros pos.
  - apply of_chars_nil.
  - rewrite next_surrogate_step by auto. assert (between 0xD800 0xDFFF c = false) as -> by (unfold between, is_surrogate in *; lia).
    specialize (IH (pos + length (utf8 c))%nat). destruct (next_surrogate_from _ l) as [[sp v]|].
    + destruct IH as (a & d & e & b & -> & Ha & Hb & ->). exists (utf8 c ++ a), d, e, b. split; [apply app_assoc|].
      split; [apply of_chars_app; auto using of_chars_one|]. split; auto. rewrite app_length. lia.
    + apply of_chars_app; auto using of_chars_one.
  - cbn [next_surrogate_from]. cbn [Z.ltb Z.compare Pos.compare Pos.compare_cont Z.eqb Pos.eqb]. destruct (Z.leb_spec 160 n); [|lia].
    exists [], n, x, l. split; [reflexivity|]. split; [apply of_chars_nil|]. split; auto.
Qed.
Lemma of_chars_replacement : of_chars replacement.
Proof. apply (of_chars_one 0xFFFD); unfold is_cp, is_surrogate; lia. Qed.
Lemma lossy_loop n : forall s pre l out, s = pre ++ l -> lax l -> of_chars out -> (length l <= n)%nat ->
  exists t, to_string_lossy_loop n s out (length pre) = Ok t /\ of_chars t.
Proof.
  induction n as [|n IH]; intros s pre l out -> Hl Ho Hn.
  - destruct l; [|cbn in Hn; lia]. cbn [to_string_lossy_loop]. unfold next_surrogate. rewrite app_nil_r, Nat.leb_refl, skipn_all. cbn. rewrite app_nil_r. eauto.
  - cbn [to_string_lossy_loop]. unfold next_surrogate. rewrite app_length. destruct (Nat.leb_spec (length pre) (length pre + length l)); [|lia].
    rewrite skipn_app, skipn_all, Nat.sub_diag. cbn [app skipn bind]. pose proof (next_lax l Hl (length pre)) as HN.
    destruct (next_surrogate_from _ l) as [[sp x]|].
    + destruct HN as (a & d & e & b & -> & Ha & Hb & ->).
      replace (slice (pre ++ a ++ 237 :: d :: e :: b) (length pre) (length pre + length a)) with a.
      2:{ unfold slice. rewrite skipn_app, skipn_all, Nat.sub_diag. cbn [app skipn]. replace (length pre + length a - length pre)%nat with (length a) by lia.
          rewrite firstn_app, firstn_all, Nat.sub_diag. cbn. now rewrite app_nil_r. }
      replace (length pre + length a + 3)%nat with (length (pre ++ a ++ [237; d; e])) by (rewrite !app_length; cbn; lia).
      apply (IH _ _ b); auto.
      * rewrite <- !app_assoc. reflexivity.
      * repeat apply of_chars_app; auto using of_chars_replacement.
      * rewrite app_length in Hn. cbn in Hn. lia.
    + eexists. split; [reflexivity|]. apply of_chars_app; auto.
Qed.
Lemma lossy_chars s : lax s -> exists t, to_string_lossy s = Ok t /\ of_chars t.
Proof.
  intros H. unfold to_string_lossy, next_surrogate. cbn [Nat.leb skipn bind]. pose proof (next_lax s H 0) as HN.
  destruct (next_surrogate_from 0 s) as [[sp x]|]; [|eauto]. destruct HN as (a & d & e & b & -> & Ha & Hb & ->). cbn [Nat.add].
  replace (length a + 3)%nat with (length (a ++ [237; d; e])) by (rewrite app_length; reflexivity).
  apply (lossy_loop _ _ _ b).
  - rewrite <- app_assoc. reflexivity.
  - auto.
  - rewrite firstn_app, firstn_all, Nat.sub_diag. cbn [firstn]. rewrite app_nil_r. apply of_chars_app; auto using of_chars_replacement.
  - rewrite app_length. cbn. lia.
Qed.

(** ** Code points *)
Lemma surrogate_decoded n x l : 0xA0 <= n <= 0xBF -> u8 x -> exists c, next_code_point (0xED :: n :: x :: l) = Ok (Some (c, l)) /\ is_cp c.
Proof.
  intros Hn Hx. unfold u8 in Hx. cbn [next_code_point]. rewrite !utf8_acc, utf8_first.
  change (237 <? 128) with false. change (224 <=? 237) with true. change (240 <=? 237) with false. cbn beta iota.
  eexists. split; [reflexivity|]. bits0. assert (0 <= n mod 64 * 64 + x mod 64 < 4096) by lia. rewrite (lor_add' _ _ 12); pow2; try lia. unfold is_cp. lia.
Qed.
Lemma codepoints_lax l : lax l -> forall n, (length l <= n)%nat -> exists cs, codepoints_fuel n l = Ok cs /\ Forall is_cp cs.
Proof.
  induction 1 as [|c l Hc Hs Hl IH|k x l Hk Hx Hl IH]; intros n Hn.
  - exists []. split; [destruct n; reflexivity|constructor].
  - pose proof (utf8_length c) as Hu. rewrite app_length in Hn. destruct n as [|n]; [lia|]. cbn [codepoints_fuel]. rewrite next_code_point_utf8 by auto. cbn [bind].
    destruct (IH n) as (cs & -> & H); [lia|]. eexists. split; [reflexivity|]. auto.
  - cbn [length] in Hn. destruct n as [|n]; [lia|]. cbn [codepoints_fuel]. destruct (surrogate_decoded k x l Hk Hx) as (c & -> & Hc). cbn [bind].
    destruct (IH n) as (cs & -> & H); [lia|]. eexists. split; [reflexivity|]. auto.
Qed.
Lemma mutf_bytes s : lax s -> exists b, string_to_modified_utf8 s = Ok b /\ bytes b.
Proof.
  intros H. unfold string_to_modified_utf8, codepoints. destruct (codepoints_lax s H (length s) (Nat.le_refl _)) as (cs & -> & Hc). cbn [bind].
  eexists. split; [reflexivity|]. induction Hc as [|c cs Hc _ IH]; cbn [flat_map]; [constructor|]. apply Forall_app. split; auto.
  rewrite mutf_push_spec by auto. assert (HU : Forall u16 (utf16 c)).
  { pose proof (utf16_u16 [c]) as HU. cbn [flat_map] in HU. rewrite app_nil_r in HU. auto. }
  eapply Forall_impl; [|apply mutf8_of_range, HU]. cbn. unfold u8. lia.
Qed.
