(** Order, iterators, formatting and ASCII operations of WTF-8 strings: C74-C77. *)
From Coq Require Import Lia String Ascii.
From Verif Require Import Base BaseLemmas Wtf8Spec Wtf8Model Wtf8Proofs Wtf8Proofs2 StrModel.

(** * C74: the order *)

(** Lexicographic order of sequences of code points: at the first difference
    the smaller code point, or the end, comes first. *)
Definition before (a b : list Z) : Prop :=
  exists p, (exists y s, a = p /\ b = p ++ y :: s) \/
            (exists x r y s, a = p ++ x :: r /\ b = p ++ y :: s /\ x < y).

Lemma cmp_app p a b : cmp_bytes (p ++ a) (p ++ b) = cmp_bytes a b.
Proof. induction p; cbn; auto. rewrite Z.compare_refl. auto. Qed.
Lemma cmp_sym : forall a b, cmp_bytes b a = CompOpp (cmp_bytes a b).
Proof. induction a as [|x a IH]; intros [|y b]; cbn; auto. rewrite Z.compare_antisym. destruct (x ?= y); cbn; auto. Qed.
Ltac cmp_step :=
  match goal with
  | |- context [?x ?= ?y] => let E := fresh in destruct (Z.compare_spec x y) as [E|E|E]; [|reflexivity|exfalso; lia]
  end.
Lemma utf8_lt x y r s : is_cp x -> is_cp y -> x < y -> cmp_bytes (utf8 x ++ r) (utf8 y ++ s) = Lt.
Proof.
  unfold is_cp, utf8. intros Hx Hy Hl.
  destruct (Z.ltb_spec x 0x80); [|destruct (Z.ltb_spec x 0x800); [|destruct (Z.ltb_spec x 0x10000)]];
  (destruct (Z.ltb_spec y 0x80); [|destruct (Z.ltb_spec y 0x800); [|destruct (Z.ltb_spec y 0x10000)]]);
  try (exfalso; lia); cbn [app cmp_bytes]; repeat cmp_step; exfalso; lia.
Qed.
Lemma before_cmp a b : Forall is_cp a -> Forall is_cp b -> before a b -> cmp_bytes (flat_map utf8 a) (flat_map utf8 b) = Lt.
Proof.
  intros Ha Hb (p & [(y & s & -> & ->)|(x & r & y & s & -> & -> & Hl)]).
  - rewrite flat_map_app. rewrite <- (app_nil_r (flat_map utf8 p)) at 1. rewrite cmp_app. cbn. destruct (utf8_nonempty y) as (c & t & ->). reflexivity.
  - rewrite !flat_map_app, cmp_app. cbn [flat_map]. apply Forall_app in Ha as [_ Ha]. apply Forall_app in Hb as [_ Hb]. inversion Ha; inversion Hb; subst. apply utf8_lt; auto.
Qed.
Lemma before_total : forall a b, a = b \/ before a b \/ before b a.
Proof.
  induction a as [|x a IH]; intros [|y b].
  - auto.
  - right; left. exists []. left. exists y, b. auto.
  - right; right. exists []. left. exists x, a. auto.
  - destruct (Z.lt_trichotomy x y) as [H|[->|H]].
    + right; left. exists []. right. exists x, a, y, b. auto.
    + destruct (IH b) as [->|[(p & [(u & s & -> & ->)|(u & r & v & s & -> & -> & Hl)])|(p & [(u & s & -> & ->)|(u & r & v & s & -> & -> & Hl)])]]; [auto| | | |].
      * right; left. exists (y :: p). left. exists u, s. auto.
      * right; left. exists (y :: p). right. exists u, r, v, s. auto.
      * right; right. exists (y :: p). left. exists u, s. auto.
      * right; right. exists (y :: p). right. exists u, r, v, s. auto.
    + right; right. exists []. right. exists y, b, x, a. auto.
Qed.
Theorem C74_order : forall a b s t, wtf8_of a s -> wtf8_of b t ->
  (cmp_bytes s t = Lt <-> before a b) /\ (cmp_bytes s t = Eq <-> a = b) /\ (cmp_bytes s t = Gt <-> before b a).
Proof.
  intros a b s t [[Ha _] ->] [[Hb _] ->]. pose proof (before_cmp a b Ha Hb) as H1. pose proof (before_cmp b a Hb Ha) as H2. rewrite cmp_sym in H2.
  assert (H3 : a = b -> cmp_bytes (flat_map utf8 a) (flat_map utf8 b) = Eq).
  { intros ->. clear. induction (flat_map utf8 b); cbn; auto. rewrite Z.compare_refl. auto. }
  destruct (before_total a b) as [H|[H|H]].
  - rewrite (H3 H) in *. split; [split; [discriminate|intros E; discriminate (H1 E)]|]. split; [tauto|]. split; [discriminate|intros E; discriminate (H2 E)].
  - rewrite (H1 H) in *. split; [tauto|]. split; [split; [discriminate|intros E; discriminate (H3 E)]|]. split; [discriminate|intros E; discriminate (H2 E)].
  - specialize (H2 H). destruct (cmp_bytes (flat_map utf8 a) (flat_map utf8 b)); try discriminate.
    split; [split; [discriminate|intros E; discriminate (H1 E)]|]. split; [split; [discriminate|intros E; discriminate (H3 E)]|]. tauto.
Qed.
Print Assumptions C74_order.
(** U+FF5E comes before U+10000, a lone surrogate between them and U+D7FF (in
    UTF-16 the order is different). *)
Example C74_ex : wtf8_of [0x41; 0xFF5E] [0x41; 0xEF; 0xBD; 0x9E] /\ wtf8_of [0x41; 0x10000] [0x41; 0xF0; 0x90; 0x80; 0x80] /\
  cmp_bytes [0x41; 0xEF; 0xBD; 0x9E] [0x41; 0xF0; 0x90; 0x80; 0x80] = Lt /\
  cmp_bytes [0xED; 0xA0; 0x80] [0xEF; 0xBD; 0x9E] = Lt /\ cmp_bytes [0xED; 0xA0; 0x80] [0xED; 0x9F; 0xBF] = Gt.
Proof. repeat split; try reflexivity; repeat constructor; unfold is_cp, is_lead; lia. Qed.

(** * C75: iterators *)
Lemma cp_after_utf8 n : forall cps, Forall is_cp cps -> cp_after n (flat_map utf8 cps) = Ok (flat_map utf8 (skipn n cps)).
Proof.
  induction n as [|n IH]; intros cps H; [reflexivity|]. destruct H as [|c cps Hc H]; [reflexivity|]. cbn [cp_after flat_map skipn].
  rewrite next_code_point_utf8 by auto. cbn [bind]. apply IH, H.
Qed.
Lemma no_pair_skipn n cps : no_pair cps -> no_pair (skipn n cps).
Proof. intros H. rewrite <- (firstn_skipn n cps) in H. eapply no_pair_app_r, H. Qed.
Lemma Forall_skipn {A} (P : A -> Prop) n l : Forall P l -> Forall P (skipn n l).
Proof. intros H. rewrite <- (firstn_skipn n l) in H. apply Forall_app in H. tauto. Qed.
Lemma len_utf8 cps : len cps <= len (flat_map utf8 cps) <= 4 * len cps.
Proof.
  induction cps as [|c cps IH]; [cbn; lia|]. cbn [flat_map]. rewrite len_app, len_cons. pose proof (utf8_length c) as Hc. assert (1 <= len (utf8 c) <= 4) by (unfold len; lia). lia.
Qed.
Lemma hint_low cps : Z.min (len (flat_map utf8 cps) + 3) usize_max / 4 <= len cps.
Proof. pose proof (len_utf8 cps). apply Z.lt_succ_r, Z.div_lt_upper_bound; lia. Qed.

(** What is left is a valid string: the code points not yet returned, and their
    number is within the hint. *)
Theorem C75_codepoints : forall cps s n, wtf8_of cps s -> exists l,
  cp_after n s = Ok l /\ wtf8_of (skipn n cps) l /\ codepoints l = Ok (skipn n cps) /\
  let (low, high) := cp_hint l in low <= len (skipn n cps) /\ exists h, high = Some h /\ len (skipn n cps) <= h.
Proof.
  intros cps s n [[Hc Hp] ->]. exists (flat_map utf8 (skipn n cps)). split; [apply cp_after_utf8, Hc|].
  split; [split; [split; [apply Forall_skipn, Hc|apply no_pair_skipn, Hp]|reflexivity]|]. split; [apply codepoints_utf8, Forall_skipn, Hc|].
  cbn. split; [apply hint_low|]. eexists. split; [reflexivity|]. apply len_utf8.
Qed.
Print Assumptions C75_codepoints.

(** The state of [EncodeWide]: the rest of the string, and half a pair. *)
Definition wide_state (cps : list Z) (st : list Z * Z) (units : list Z) : Prop :=
  fst st = flat_map utf8 cps /\
  ((snd st = 0 /\ units = flat_map utf16 cps) \/ (is_trail (snd st) /\ units = snd st :: flat_map utf16 cps)).
Lemma wide_step cps st units : Forall is_cp cps -> wide_state cps st units ->
  (units = [] /\ encode_wide_next st = Ok None) \/
  exists u us cps' st', units = u :: us /\ Forall is_cp cps' /\ encode_wide_next st = Ok (Some (u, st')) /\ wide_state cps' st' us.
Proof.
  intros H. destruct st as [l extra]. intros [E [[E0 ->]|[E0 ->]]]; cbn [fst snd] in *; subst; unfold encode_wide_next.
  - cbn [Z.eqb negb]. destruct H as [|c cps Hc H]; [left; split; reflexivity|]. right. cbn [flat_map]. rewrite next_code_point_utf8 by auto. cbn [bind].
    rewrite encode_utf16_raw_spec by auto. unfold is_cp in Hc.
    assert (HU : utf16 c = if c <? 0x10000 then [c] else [0xD800 + (c - 0x10000) / 1024; 0xDC00 + (c - 0x10000) mod 1024]) by reflexivity.
    destruct (Z.ltb_spec c 0x10000); rewrite HU; cbn [app].
    + exists c, (flat_map utf16 cps), cps, (flat_map utf8 cps, 0). split; [reflexivity|]. split; [exact H|]. split; [reflexivity|]. split; [reflexivity|]. left. auto.
    + do 4 eexists. split; [reflexivity|]. split; [exact H|]. split; [reflexivity|]. split; [reflexivity|]. right. split; [cbn; unfold is_trail; lia|reflexivity].
  - right. assert (negb (extra =? 0) = true) as -> by (unfold is_trail in E0; lia). exists extra, (flat_map utf16 cps), cps, (flat_map utf8 cps, 0).
    split; [reflexivity|]. split; [exact H|]. split; [reflexivity|]. split; [reflexivity|]. left. auto.
Qed.
Lemma wide_run n : forall cps st units, Forall is_cp cps -> wide_state cps st units ->
  exists cps' st', Forall is_cp cps' /\ wide_after n st = Ok st' /\ wide_state cps' st' (skipn n units).
Proof.
  induction n as [|n IH]; intros cps st units H Hs; [exists cps, st; auto|]. cbn [wide_after].
  destruct (wide_step _ _ _ H Hs) as [[-> E]|(u & us & cps' & st' & -> & H' & E & Hs')]; rewrite E; cbn [bind skipn].
  - exists cps, st. auto.
  - apply (IH cps' st'); auto.
Qed.
Lemma wide_collect n : forall cps st units, Forall is_cp cps -> wide_state cps st units -> (List.length units <= n)%nat -> encode_wide_fuel n st = Ok units.
Proof.
  induction n as [|n IH]; intros cps st units H Hs Hn; cbn [encode_wide_fuel];
    destruct (wide_step _ _ _ H Hs) as [[-> E]|(u & us & cps' & st' & -> & H' & E & Hs')]; rewrite E; cbn [bind]; try reflexivity; cbn in Hn; [lia|].
  rewrite (IH cps' st' us) by (auto; lia). reflexivity.
Qed.
Lemma len_utf16 cps : len cps <= len (flat_map utf16 cps) <= 2 * len cps.
Proof.
  induction cps as [|c cps IH]; [cbn; lia|]. cbn [flat_map]. rewrite len_app, len_cons. pose proof (utf16_length c) as Hc. assert (1 <= len (utf16 c) <= 2) by (unfold len; lia). lia.
Qed.
(** Any number of calls in, what is left to come are the remaining code units,
    and their number is within the hint. *)
Theorem C75_wide : forall cps s n, wtf8_of cps s -> exists st,
  wide_after n (s, 0) = Ok st /\
  (forall fuel, (List.length (skipn n (flat_map utf16 cps)) <= fuel)%nat -> encode_wide_fuel fuel st = Ok (skipn n (flat_map utf16 cps))) /\
  let (low, high) := wide_hint st in
  low <= len (skipn n (flat_map utf16 cps)) /\ (high = None \/ exists h, high = Some h /\ len (skipn n (flat_map utf16 cps)) <= h).
Proof.
  intros cps s n [[Hc Hp] ->]. destruct (wide_run n cps (flat_map utf8 cps, 0) (flat_map utf16 cps)) as (cps' & st & Hc' & E & Hs); auto.
  { split; [reflexivity|left; auto]. }
  exists st. split; [exact E|]. split; [intros fuel Hf; eapply wide_collect; eauto|].
  destruct st as [l extra]. destruct Hs as [El Hs]. cbn [fst snd] in *. subst l. unfold wide_hint. cbn [fst snd cp_hint].
  pose proof (hint_low cps') as HL. pose proof (len_utf8 cps') as HU. pose proof (len_utf16 cps') as HW.
  assert (HK : exists ext, (if negb (extra =? 0) then 1 else 0) = ext /\ len (skipn n (flat_map utf16 cps)) = ext + len (flat_map utf16 cps')).
  { destruct Hs as [[-> ->]|[Ht ->]]; [exists 0; auto|]. assert (negb (extra =? 0) = true) as -> by (unfold is_trail in Ht; lia). exists 1. rewrite len_cons. split; [reflexivity|lia]. }
  destruct HK as (ext & -> & ->). split; [lia|]. unfold checked. destruct (_ <=? _); [|auto]. destruct (_ <=? _); [|auto]. right. eexists. split; [reflexivity|]. lia.
Qed.
Print Assumptions C75_wide.
Example C75_ex : wtf8_of [0x61; 0x10000; 0xD800] [0x61; 0xF0; 0x90; 0x80; 0x80; 0xED; 0xA0; 0x80] /\
  let st := wide_after 2 ([0x61; 0xF0; 0x90; 0x80; 0x80; 0xED; 0xA0; 0x80], 0) in
  st = Ok ([0xED; 0xA0; 0x80], 0xDC00) /\ wide_hint ([0xED; 0xA0; 0x80], 0xDC00) = (2, Some 7).
Proof. repeat split; try reflexivity; repeat constructor; unfold is_cp, is_lead, is_trail; lia. Qed.

(** * C76: formatting *)
(** ASCII text *)
Definition txt (s : string) : list Z := map (fun c => Z.of_nat (nat_of_ascii c)) (list_ascii_of_string s).
(** Four hexadecimal digits in lower case. *)
Definition hex4 (c : Z) : list Z :=
  map (fun d => nth (Z.to_nat d) (txt "0123456789abcdef") 0) [c / 4096; c / 256 mod 16; c / 16 mod 16; c mod 16].
Definition shown (esc : Z -> list Z) (c : Z) : list Z :=
  if (0xD800 <=? c) && (c <=? 0xDFFF) then txt "\u{" ++ hex4 c ++ txt "}" else esc c.
Lemma digit_ok d : 0 <= d < 16 -> hex_digit d = nth (Z.to_nat d) (txt "0123456789abcdef") 0.
Proof.
  intros H. assert (In d [0;1;2;3;4;5;6;7;8;9;10;11;12;13;14;15]) as HI by (cbn; lia).
  cbn in HI. repeat (destruct HI as [<-|HI]; [reflexivity|]). destruct HI.
Qed.
Lemma hex_surrogate c : is_surrogate c -> hex c = hex4 c.
Proof.
  unfold is_surrogate. intros H. unfold hex, hex4. cbn [map]. rewrite <- !digit_ok by lia. cbn [hex_rev].
  assert (c / 16 =? 0 = false) as -> by lia. assert (c / 16 / 16 =? 0 = false) as -> by lia. assert (c / 16 / 16 / 16 =? 0 = false) as -> by lia.
  assert (c / 16 / 16 / 16 / 16 =? 0 = true) as -> by lia. cbn [rev app].
  assert (c / 16 / 16 / 16 mod 16 = c / 4096) as -> by lia. assert (c / 16 / 16 = c / 256) as -> by lia. reflexivity.
Qed.
Section Fmt.
Variable esc : Z -> list Z.
Lemma shown_plain a : Forall (fun c => ~ is_surrogate c) a -> flat_map (shown esc) a = flat_map esc a.
Proof.
  induction 1 as [|c a Hc _ IH]; cbn; auto. unfold shown at 1. unfold is_surrogate in Hc.
  assert ((0xD800 <=? c) && (c <=? 0xDFFF) = false) as -> by lia. congruence.
Qed.
Lemma shown_surr c : is_surrogate c -> shown esc c = [92; 117; 123] ++ hex c ++ [125].
Proof.
  intros H. rewrite (hex_surrogate c H). unfold shown. unfold is_surrogate in H. assert ((0xD800 <=? c) && (c <=? 0xDFFF) = true) as -> by lia. reflexivity.
Qed.
Lemma debug_loop_spec fuel : forall pre cps out, Forall is_cp cps -> (List.length cps <= fuel)%nat ->
  debug_loop esc fuel (pre ++ flat_map utf8 cps) out (List.length pre) = Ok (out ++ flat_map (shown esc) cps ++ [34]).
Proof.
  induction fuel as [|fuel IH]; intros pre cps out Hcs Hf; cbn [debug_loop]; unfold next_surrogate;
    assert (List.length pre <=? List.length (pre ++ flat_map utf8 cps) = true)%nat as -> by (apply Nat.leb_le; rewrite app_length; lia);
    rewrite skipn_len_app; cbn [bind].
  { destruct cps; [|cbn in Hf; lia]. cbn. reflexivity. }
  destruct (next_surrogate_split (List.length pre) cps Hcs) as [[H1 H2]|(a & d & b & -> & Ha & Hd & H2)]; rewrite H2.
  { unfold write_escaped. rewrite codepoints_utf8 by auto. cbn [bind]. rewrite shown_plain by auto. reflexivity. }
  apply Forall_app in Hcs as [Hca Hcb]. inversion Hcb as [|? ? Hcd Hcb']; subst.
  rewrite flat_map_app. cbn [flat_map]. rewrite slice_mid. unfold write_escaped at 1. rewrite codepoints_utf8 by auto. cbn [bind].
  replace (List.length pre + List.length (flat_map utf8 a) + 3)%nat with (List.length (pre ++ flat_map utf8 a ++ utf8 d))
    by (rewrite !app_length, surr_len by auto; lia).
  replace (pre ++ flat_map utf8 a ++ utf8 d ++ flat_map utf8 b) with ((pre ++ flat_map utf8 a ++ utf8 d) ++ flat_map utf8 b)
    by (rewrite <- !app_assoc; reflexivity).
  rewrite IH; auto.
  2:{ rewrite app_length in Hf. cbn in Hf. lia. }
  f_equal. rewrite flat_map_app. cbn [flat_map]. rewrite (shown_plain a), (shown_surr d) by auto. rewrite <- !app_assoc. reflexivity.
Qed.
End Fmt.
Theorem C76_debug : forall esc cps s, wtf8_of cps s -> debug_str esc s = Ok (txt """" ++ flat_map (shown esc) cps ++ txt """").
Proof.
  intros esc cps s [[Hc _] ->]. unfold debug_str. apply (debug_loop_spec esc _ [] cps [34] Hc). apply cps_le_bytes.
Qed.
Print Assumptions C76_debug.
Lemma display_loop_eq fuel s : forall out pos, display_loop fuel s out pos = to_string_lossy_loop fuel s out pos.
Proof. induction fuel; intros; cbn; destruct (next_surrogate s pos) as [[[]|]| |]; cbn; auto. Qed.
Theorem C76_display : forall cps s, wtf8_of cps s -> display_str s = Ok (flat_map utf8 (map replace_surrogate cps)).
Proof.
  intros cps s [[Hc _] ->]. unfold display_str. rewrite display_loop_eq. apply (lossy_loop_spec _ [] cps [] Hc). apply cps_le_bytes.
Qed.
Print Assumptions C76_display.
Example C76_ex : let s := [0x61; 0xED; 0xA0; 0x8F; 0x62] in wtf8_of [0x61; 0xD80F; 0x62] s /\
  debug_str (fun c => [c]) s = Ok (txt """a\u{d80f}b""") /\ display_str s = Ok [0x61; 0xEF; 0xBF; 0xBD; 0x62].
Proof. repeat split; try reflexivity; repeat constructor; unfold is_cp, is_lead, is_trail; lia. Qed.

(** * C77: ASCII operations *)
Lemma utf8_high c : is_cp c -> 0x80 <= c -> Forall (fun b => 128 <= b < 256) (utf8 c).
Proof.
  unfold is_cp, utf8. intros H Hc. assert (c <? 0x80 = false) as -> by lia. destruct (Z.ltb_spec c 0x800); [|destruct (Z.ltb_spec c 0x10000)];
  repeat constructor; lia.
Qed.
Lemma nth_app_mid {A} (a b c : list A) i : (i < List.length b)%nat -> nth_error (a ++ b ++ c) (List.length a + i) = nth_error b i.
Proof. intros H. rewrite nth_error_app2 by lia. replace (List.length a + i - List.length a)%nat with i by lia. apply nth_error_app1, H. Qed.
(** Every position of a string lies in the bytes of one of its code points; the
    answer is that code point if it is ASCII. *)
Theorem C77_byte_at : forall a c b s i, wtf8_of (a ++ c :: b) s -> (i < List.length (utf8 c))%nat ->
  ascii_byte_at s (List.length (flat_map utf8 a) + i) = Ok (if c <? 128 then c else 255).
Proof.
  intros a c b s i [[Hc _] ->] Hi. unfold ascii_byte_at. rewrite flat_map_app. cbn [flat_map]. rewrite nth_app_mid by auto.
  apply Forall_app in Hc as [_ Hc]. inversion Hc as [|? ? Hcc _]; subst. destruct (Z.ltb_spec c 128).
  - unfold utf8 in *. assert (c <? 0x80 = true) as E by lia. rewrite E in *. destruct i; [|cbn in Hi; lia]. cbn. assert (c <=? 127 = true) as -> by lia. reflexivity.
  - destruct (nth_error (utf8 c) i) as [x|] eqn:E; [|apply nth_error_None in E; lia]. apply nth_error_In in E.
    pose proof (proj1 (Forall_forall _ _) (utf8_high c Hcc H) x E) as Hx. cbn beta in Hx. assert (x <=? 127 = false) as -> by lia. reflexivity.
Qed.
Theorem C77_byte_at_end : forall s i, (List.length s <= i)%nat -> ascii_byte_at s i = Panic PIndex.
Proof. intros s i H. unfold ascii_byte_at. rewrite (proj2 (nth_error_None s i)) by lia. reflexivity. Qed.
Theorem C77_is_ascii : forall cps s, wtf8_of cps s -> is_ascii s = true <-> Forall (fun c => c < 128) cps.
Proof.
  intros cps s [[Hc _] ->]. unfold is_ascii. induction Hc as [|c cps Hc _ IH]; cbn [flat_map]; [split; auto|]. rewrite forallb_app, andb_true_iff, IH.
  rewrite Forall_cons_iff. enough (forallb (fun b => b <? 128) (utf8 c) = true <-> c < 128) by tauto. destruct (Z.ltb_spec c 0x80).
  - unfold utf8. assert (c <? 0x80 = true) as -> by lia. cbn [forallb]. rewrite andb_true_r, Z.ltb_lt. tauto.
  - pose proof (utf8_high c Hc H) as HF. destruct (utf8_nonempty c) as (x & t & E). rewrite E in *. inversion HF; subst. cbn [forallb]. rewrite andb_true_iff, Z.ltb_lt. lia.
Qed.
(** ASCII letters in lower case *)
Definition lower (c : Z) : Z := if (65 <=? c) && (c <=? 90) then c + 32 else c.
Lemma lower_cp c : is_cp c -> is_cp (lower c).
Proof. unfold is_cp, lower. destruct ((65 <=? c) && (c <=? 90)) eqn:E; lia. Qed.
Lemma lower_utf8 c : is_cp c -> map ascii_lower (utf8 c) = utf8 (lower c).
Proof.
  intros Hc. destruct (Z.ltb_spec c 0x80).
  - unfold utf8 at 1. assert (c <? 0x80 = true) as -> by lia. cbn. unfold ascii_lower, lower, between, utf8. unfold is_cp in Hc.
    destruct ((65 <=? c) && (c <=? 90)) eqn:E; [assert (c + 32 <? 0x80 = true) as -> by lia|assert (c <? 0x80 = true) as -> by lia]; reflexivity.
  - unfold lower. assert ((65 <=? c) && (c <=? 90) = false) as -> by lia. pose proof (utf8_high c Hc H) as HF. induction HF as [|x l Hx _ IH]; cbn; auto.
    rewrite IH. unfold ascii_lower, between. assert ((65 <=? x) && (x <=? 90) = false) as -> by lia. reflexivity.
Qed.
Theorem C77_ignore_case : forall a b s t, wtf8_of a s -> wtf8_of b t ->
  eq_ignore_ascii_case s t = true <-> map lower a = map lower b.
Proof.
  assert (HM : forall a, Forall is_cp a -> map ascii_lower (flat_map utf8 a) = flat_map utf8 (map lower a)).
  { induction 1 as [|c a Hc _ IH]; cbn; auto. rewrite map_app, IH, lower_utf8 by auto. reflexivity. }
  intros a b s t [[Ha _] ->] [[Hb _] ->]. unfold eq_ignore_ascii_case. rewrite !HM by auto. rewrite (list_eqb_eq Z.eqb Z.eqb_eq). split; [|intros ->; reflexivity].
  intros E. assert (HL : forall l, Forall is_cp l -> Forall is_cp (map lower l)) by (induction 1; constructor; auto using lower_cp).
  exact (utf8_inj _ _ (HL a Ha) (HL b Hb) E).
Qed.
Print Assumptions C77_byte_at.
Print Assumptions C77_byte_at_end.
Print Assumptions C77_is_ascii.
Print Assumptions C77_ignore_case.
Example C77_ex : let s := [0x41; 0xC3; 0x84] in wtf8_of ([0x41] ++ 0xC4 :: []) s /\ ascii_byte_at s 2 = Ok 255 /\ ascii_byte_at s 0 = Ok 65 /\
  is_ascii s = false /\ eq_ignore_ascii_case s [0x61; 0xC3; 0x84] = true /\ eq_ignore_ascii_case s [0x61; 0xC3; 0xA4] = false.
Proof. cbn [app]. repeat split; try reflexivity; repeat constructor; unfold is_cp, is_lead, is_trail; lia. Qed.
