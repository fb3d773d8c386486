(** Signatures do not grow when they are parsed and shown again; nor do descriptors. *)
From Verif Require Import Base BaseLemmas Wtf8Spec Wtf8Model Wtf8Proofs Wtf8Proofs2 Wtf8Props MutfModel MutfProofs PrimModel PrimProofs TypeModel TypeSpec TypeProofs CpModel CpSpec
  SigModel SigSpec SigProofs AnnModel AttrModel FrameModel InsnModel CodeModel CodeProofs ClassModel WriteSpec LaxProofs WriteKinds ReadText DrawnSpec.
From Coq Require Import Lia.

(** * Weights *)
Section Weight.
Context (wt : Z -> Z).
Hypothesis Hwt : forall c, 0 <= wt c.
Hypothesis Hth : wt 76 = wt 84.
Definition W (l : list Z) : Z := fold_right (fun c n => wt c + n) 0 l.
Lemma W_app a b : W (a ++ b) = W a + W b.
Proof. induction a as [|c a IH]; [reflexivity|]. change (W ((c :: a) ++ b)) with (wt c + W (a ++ b)). change (W (c :: a)) with (wt c + W a). lia. Qed.
Lemma W_cons c a : W (c :: a) = wt c + W a. Proof. reflexivity. Qed.
Lemma W_nil : W [] = 0. Proof. reflexivity. Qed.
Lemma W_pos a : 0 <= W a. Proof. induction a as [|c a IH]; [rewrite W_nil; lia|]. rewrite W_cons. pose proof (Hwt c). lia. Qed.
Ltac w := cbn beta in *; repeat (rewrite ?W_app, ?W_cons, ?W_nil in *).

(** What is left and the text of what was read weigh no more than the input. *)
Definition shrinks {A} (txt : A -> list Z) (p : sp A) : Prop := forall i a r, p i = Ok (a, r) -> W (txt a) + W r <= W i.
Lemma s_char c i u r : p_char c i = Ok (u, r) -> W i = wt c + W r.
Proof. destruct i as [|x i]; cbn; [discriminate|]. destruct (x =? c) eqn:E; [|discriminate]. apply Z.eqb_eq in E. subst. intros H. apply ok_inj, pair_equal_spec in H as [_ <-]. apply W_cons. Qed.
Lemma s_semi i : forall a b, split_semi i = Some (a, b) -> W i = W a + wt 59 + W b.
Proof.
  induction i as [|c i IH]; intros a b H; cbn [split_semi] in H; [discriminate|]. destruct (c =? 59) eqn:E; [apply Z.eqb_eq in E; subst; injection H as <- <-; w; lia|].
  destruct (split_semi i) as [[a' b']|]; [|discriminate]. injection H as <- <-. specialize (IH _ _ eq_refl). w. lia.
Qed.
Definition pk_text (pk : list (list Z)) : list Z := concat (map (fun s => s ++ [47]) pk).
Lemma s_packages i : forall str last v l pre, last = pre ++ i -> W pre = W str -> p_packages_loop i str last = Ok (v, l) -> W (pk_text v) + W l = W last.
Proof.
  induction i as [|c i IH]; intros str last v l pre Hl Hp H; cbn [p_packages_loop] in H; [discriminate|]. destruct (c =? 47) eqn:E.
  - apply Z.eqb_eq in E. subst c. inv_bind H. destruct v0 as [v0 l0]. apply ok_inj, pair_equal_spec in H as [<- <-]. apply (IH _ _ _ _ []) in E; auto.
    subst last. unfold pk_text in *. cbn [map concat]. w. lia.
  - destruct ((c =? 59) || (c =? 60) || (c =? 46)); [apply ok_inj, pair_equal_spec in H as [<- <-]; subst last; unfold pk_text; cbn [map concat]; w; lia|].
    eapply (IH _ _ _ _ (pre ++ [c])); [| |exact H]; [rewrite <- app_assoc; exact Hl|w; lia].
Qed.
Lemma s_span i : W i = W (fst (span_name i)) + W (snd (span_name i)).
Proof. induction i as [|c i IH]; cbn [span_name]; [reflexivity|]. destruct (_ || _ || _); [reflexivity|]. destruct (span_name i). cbn [fst snd] in *. w. lia. Qed.
Lemma s_colon i : snd (split_colon i) <> [] -> W i = W (fst (split_colon i)) + wt 58 + W (snd (split_colon i)).
Proof.
  induction i as [|c i IH]; cbn [split_colon]; [intros []; reflexivity|]. destruct (c =? 58) eqn:E; [apply Z.eqb_eq in E; subst; intros _; cbn [fst snd]; w; lia|].
  destruct (split_colon i). cbn [fst snd] in *. intros H. apply IH in H. w. lia.
Qed.
(** ... if something is left: the last parameter may lack its colon. *)
Definition shrinks' {A} (txt : A -> list Z) (p : sp A) : Prop := forall i a r, p i = Ok (a, r) -> r <> [] -> W (txt a) + W r <= W i.
Lemma s_until {A} (txt : A -> list Z) (p : sp A) : shrinks' txt p -> forall n, shrinks' (fun l => concat (map txt l)) (p_until_gt p n).
Proof.
  intros Hp. induction n as [|n IH]; intros i a r H Hr; destruct i as [|c i]; cbn [p_until_gt] in H; try (apply ok_inj, pair_equal_spec in H as [_ <-]; contradiction).
  - destruct (c =? 62); [|discriminate]. apply ok_inj, pair_equal_spec in H as [<- <-]. cbn [map concat]. w. lia.
  - destruct (c =? 62); [apply ok_inj, pair_equal_spec in H as [<- <-]; cbn [map concat]; w; lia|]. inv_bind H. destruct v as [x i1].
    inv_bind H. destruct v as [xs i2]. apply ok_inj, pair_equal_spec in H as [<- <-]. pose proof (IH _ _ _ E0 Hr) as H2.
    assert (H1 : i1 <> []) by (intros ->; destruct n; cbn in E0; apply ok_inj, pair_equal_spec in E0 as [_ <-]; auto). apply Hp in E; auto. cbn [map concat]. w. lia.
Qed.
Lemma s_while {A} (txt : A -> list Z) set (p : sp A) : shrinks txt p -> forall n, shrinks (fun l => concat (map txt l)) (p_while set p n).
Proof.
  intros Hp. induction n as [|n IH]; intros i a r H; destruct i as [|c i]; cbn [p_while] in H; try (apply ok_inj, pair_equal_spec in H as [<- <-]; cbn [map concat]; w; lia).
  - destruct (set c); [discriminate|]. apply ok_inj, pair_equal_spec in H as [<- <-]. cbn [map concat]. w. lia.
  - destruct (set c); [|apply ok_inj, pair_equal_spec in H as [<- <-]; cbn [map concat]; w; lia]. inv_bind H. destruct v as [x i1].
    inv_bind H. destruct v as [xs i2]. apply ok_inj, pair_equal_spec in H as [<- <-]. apply Hp in E. apply IH in E0. cbn [map concat]. w. lia.
Qed.
Definition bracket_text {A} (txt : A -> list Z) (l : list A) : list Z := match l with [] => [] | _ => 60 :: concat (map txt l) ++ [62] end.
Lemma s_bracketed {A} (txt : A -> list Z) (p : sp A) : shrinks' txt p -> shrinks (bracket_text txt) (p_bracketed p).
Proof.
  intros Hp i a r H. unfold p_bracketed in H. destruct i as [|c i]; [apply ok_inj, pair_equal_spec in H as [<- <-]; cbn; lia|].
  destruct (c =? 60) eqn:E60; [|apply ok_inj, pair_equal_spec in H as [<- <-]; cbn [bracket_text]; w; lia]. apply Z.eqb_eq in E60. subst c. inv_bind H. destruct v as [xs i1].
  inv_bind H. destruct v as [u i2]. apply ok_inj, pair_equal_spec in H as [<- <-]. assert (H1 : i1 <> []) by (intros ->; discriminate).
  apply (s_until txt p Hp) in E; auto. apply s_char in E0. pose proof (Hwt 60). pose proof (Hwt 62). unfold bracket_text. destruct xs; cbn [map concat] in *; w; lia.
Qed.
Lemma shrinks_weak {A} (txt : A -> list Z) p : shrinks txt p -> shrinks' txt p. Proof. intros H i a r HE _. apply (H _ _ _ HE). Qed.
Lemma W_repeat n m : (n <= m)%nat -> W (repeat 91 n) <= W (repeat 91 m).
Proof. intros H. replace m with (n + (m - n))%nat by lia. rewrite repeat_app, W_app. pose proof (W_pos (repeat 91 (m - n))). lia. Qed.
Lemma s_dims md c : forall d d' r, 0 <= d -> count_dims md d c = Ok (d', r) -> W (repeat 91 (Z.to_nat d')) + W r <= W (repeat 91 (Z.to_nat d)) + W c.
Proof.
  induction c as [|x c IH]; intros d d' r Hd H; cbn [count_dims] in H; [apply ok_inj, pair_equal_spec in H as [<- <-]; lia|].
  destruct (x =? 91) eqn:E; [|apply ok_inj, pair_equal_spec in H as [<- <-]; lia]. apply Z.eqb_eq in E. subst x. inv_bind H.
  assert (HV : 0 <= v <= d + 1).
  { unfold chk_u in E. destruct (_ && _) eqn:EB; [apply ok_inj in E; subst; lia|]. destruct md; [discriminate|]. apply ok_inj in E. subst. unfold wrap_u.
    pose proof (Z.mod_pos_bound (d + 1) (2 ^ 8) ltac:(lia)). pose proof (Z.mod_le (d + 1) (2 ^ 8) ltac:(lia) ltac:(lia)). lia. }
  apply IH in H; [|lia]. pose proof (W_repeat (Z.to_nat v) (Z.to_nat d + 1) ltac:(lia)). rewrite repeat_app, W_app in H0. cbn [repeat] in H0. w. lia.
Qed.
Section Ref.
Variable ref : sp rsig.
Hypothesis Href : shrinks rsig_text ref.
Lemma s_type : shrinks tsig_text (p_type ref).
Proof.
  intros i a r H. unfold p_type in H. destruct i as [|c i]; [discriminate|].
  repeat match type of H with (if c =? ?k then Ok _ else _) = _ => destruct (c =? k) eqn:E; [apply Z.eqb_eq in E; subst c; apply ok_inj, pair_equal_spec in H as [<- <-]; cbn [tsig_text prim_text]; w; lia|clear E] end.
  destruct ((c =? 84) || (c =? 76) || (c =? 91)); [|discriminate]. inv_bind H. destruct v as [x i1]. apply ok_inj, pair_equal_spec in H as [<- <-]. apply Href in E. exact E.
Qed.
Lemma s_arg : shrinks targ_text (p_arg ref).
Proof.
  intros i a r H. unfold p_arg in H. destruct i as [|c i]; [discriminate|]. destruct (c =? 42) eqn:E1; [apply Z.eqb_eq in E1; subst c; apply ok_inj, pair_equal_spec in H as [<- <-]; cbn [targ_text]; w; lia|].
  destruct (c =? 45) eqn:E2; [|destruct (c =? 43) eqn:E3; [|destruct ((c =? 84) || (c =? 76) || (c =? 91)); [|discriminate]]];
    (inv_bind H; destruct v as [x i1]; apply ok_inj, pair_equal_spec in H as [<- <-]; apply Href in E; cbn [targ_text]).
  - apply Z.eqb_eq in E2. subst. w. lia.
  - apply Z.eqb_eq in E3. subst. w. lia.
  - exact E.
Qed.
Lemma s_simple : shrinks ssig_text (p_simple ref).
Proof.
  intros i a r H. unfold p_simple in H. pose proof (s_span i) as H1. destruct (span_name i) as [nm i1]. cbn [fst snd] in *.
  inv_bind H. destruct v as [args i2]. apply ok_inj, pair_equal_spec in H as [<- <-]. apply (s_bracketed targ_text _ (shrinks_weak _ _ s_arg)) in E.
  unfold bracket_text in E. destruct args; cbn [ssig_text]; w; lia.
Qed.
Lemma s_suffixes n : shrinks (fun l => concat (map (fun s => 46 :: ssig_text s) l)) (p_suffixes (p_simple ref) n).
Proof.
  induction n as [|n IH]; intros i a r H; destruct i as [|c i]; cbn [p_suffixes] in H; try (apply ok_inj, pair_equal_spec in H as [<- <-]; cbn [map concat]; w; lia).
  - destruct (c =? 46); [discriminate|]. apply ok_inj, pair_equal_spec in H as [<- <-]. cbn [map concat]. w. lia.
  - destruct (c =? 46) eqn:E46; [apply Z.eqb_eq in E46; subst c|apply ok_inj, pair_equal_spec in H as [<- <-]; cbn [map concat]; w; lia]. inv_bind H. destruct v as [x i1]. apply s_simple in E.
    inv_bind H. destruct v as [xs i2]. apply ok_inj, pair_equal_spec in H as [<- <-]. apply IH in E0. cbn [map concat]. w. lia.
Qed.
Lemma s_class : shrinks csig_text (p_class ref).
Proof.
  intros i a r H. unfold p_class in H. inv_bind H. destruct v as [u i1]. apply s_char in E. inv_bind H. destruct v as [pk i2]. apply (s_packages _ _ _ _ _ []) in E0; auto.
  inv_bind H. destruct v as [nm i3]. apply s_simple in E1. inv_bind H. destruct v as [sf i4]. apply s_suffixes in E2. inv_bind H. destruct v as [u' i5]. apply s_char in E3.
  apply ok_inj, pair_equal_spec in H as [<- <-]. cbn [csig_text]. unfold pk_text in E0. w. lia.
Qed.
End Ref.
Lemma s_ref md n : shrinks rsig_text (p_ref md n).
Proof.
  induction n as [|n IH]; intros i a r H; cbn [p_ref] in H; [discriminate|]. destruct i as [|c i]; [discriminate|].
  destruct (c =? 91); [|destruct (c =? 84) eqn:E84; [|destruct (c =? 76); [|discriminate]]].
  - inv_bind H. destruct v as [d i1]. apply s_dims in E; [|lia]. inv_bind H. destruct v as [t i2]. apply ok_inj, pair_equal_spec in H as [<- <-].
    apply (s_type _ IH) in E0. change (repeat 91 (Z.to_nat 0)) with (@nil Z) in E. cbn [rsig_text]. rewrite W_app. rewrite W_nil in E. lia.
  - apply Z.eqb_eq in E84. subst c. destruct (split_semi i) as [[v i1]|] eqn:E; [|discriminate]. apply ok_inj, pair_equal_spec in H as [<- <-]. apply s_semi in E. cbn [rsig_text]. w. lia.
  - inv_bind H. destruct v as [x i1]. apply ok_inj, pair_equal_spec in H as [<- <-]. apply (s_class _ IH) in E. exact E.
Qed.
Lemma s_rsig md : shrinks rsig_text (p_rsig md). Proof. intros i a r H. eapply s_ref, H. Qed.
Lemma s_tsig md : shrinks tsig_text (p_tsig md). Proof. apply s_type, s_rsig. Qed.
Lemma s_csig md : shrinks csig_text (p_csig md). Proof. apply s_class, s_rsig. Qed.
Lemma s_throws md : shrinks (fun t => throws_text (throws_class t)) (p_throws md).
Proof.
  intros i a r H. unfold p_throws in H. inv_bind H. destruct v as [u i1]. apply s_char in E. destruct i1 as [|c i1]; [discriminate|].
  destruct (c =? 76); [|destruct (c =? 84) eqn:E84; [|discriminate]].
  - inv_bind H. destruct v as [x i2]. apply ok_inj, pair_equal_spec in H as [<- <-]. apply s_csig in E0. unfold throws_class, throws_text. w. lia.
  - apply Z.eqb_eq in E84. subst c. destruct (split_semi i1) as [[v i2]|] eqn:E2; [|discriminate]. apply ok_inj, pair_equal_spec in H as [<- <-]. apply s_semi in E2.
    unfold throws_class, throws_text. cbn [csig_text ssig_text map concat app]. w. lia.
Qed.
Lemma s_itf_bounds md cs a r : p_itf_bounds (p_rsig md) cs cs = Ok (a, r) -> W (concat (map (fun b => 58 :: rsig_text b) a)) + W r <= W cs.
Proof.
  intros H. destruct cs as [|c cs]; cbn [p_itf_bounds] in H; [apply ok_inj, pair_equal_spec in H as [<- <-]; cbn; lia|].
  destruct (c =? 58) eqn:E58; [|apply ok_inj, pair_equal_spec in H as [<- <-]; cbn [map concat]; w; lia]. apply Z.eqb_eq in E58. subst c. inv_bind H. destruct v as [b i1].
  assert (HN : p_itf_bounds (p_rsig md) cs i1 = Ok ([], i1)).
  { destruct cs as [|c cs]; [reflexivity|]. cbn [p_itf_bounds]. destruct (c =? 58) eqn:E58; [|reflexivity]. apply Z.eqb_eq in E58. subst c. cbn in E. discriminate. }
  rewrite HN in H. cbn [bind] in H. apply ok_inj, pair_equal_spec in H as [<- <-]. apply s_rsig in E. cbn [map concat]. w. lia.
Qed.
Lemma s_param md : shrinks' param_text (p_param md).
Proof.
  intros i a r H Hr. unfold p_param in H. pose proof (s_colon i) as HC. destruct (split_colon i) as [nm cs]. cbn [fst snd] in *. inv_bind H. destruct v as [cb i1].
  inv_bind H. destruct v as [ib i2]. apply ok_inj, pair_equal_spec in H as [<- <-].
  assert (Hcs : cs <> []). { intros ->. apply ok_inj, pair_equal_spec in E as [_ <-]. cbn in E0. apply ok_inj, pair_equal_spec in E0 as [_ <-]. auto. }
  specialize (HC Hcs). destruct cs as [|c cs]; [contradiction|]. destruct ((c =? 84) || (c =? 91) || (c =? 76)) eqn:EC.
  - inv_bind E. destruct v as [x i3]. apply ok_inj, pair_equal_spec in E as [<- <-]. apply s_rsig in E1. cbn [p_itf_bounds] in E0.
    destruct (c =? 58) eqn:E58; [apply Z.eqb_eq in E58; subst; discriminate|]. apply ok_inj, pair_equal_spec in E0 as [<- <-]. unfold param_text. cbn [tp_name tp_class tp_itfs map concat]. w. lia.
  - apply ok_inj, pair_equal_spec in E as [<- <-]. apply s_itf_bounds in E0. unfold param_text. cbn [tp_name tp_class tp_itfs]. w. lia.
Qed.
Lemma s_params md : shrinks params_text (p_params md). Proof. exact (s_bracketed param_text _ (s_param md)). Qed.
Definition shown_method (m : method_sig) : method_sig := {| ms_params := ms_params m; ms_args := ms_args m; ms_ret := ms_ret m; ms_throws := map throws_class (ms_throws m) |}.
Lemma s_method md : shrinks (fun m => method_sig_text (shown_method m)) (p_method md).
Proof.
  intros i a r H. unfold p_method in H. inv_bind H. destruct v as [ps i1]. apply s_params in E. inv_bind H. destruct v as [u i2]. apply s_char in E0.
  inv_bind H. destruct v as [args i3]. apply (s_while tsig_text _ _ (s_tsig md)) in E1. inv_bind H. destruct v as [u' i4]. apply s_char in E2.
  inv_bind H. destruct v as [rt i5]. assert (HR : W (match rt with Some t => tsig_text t | None => [86] end) + W i5 <= W i4).
  { unfold p_ret in E3. assert (HT : ('(t, i) <- p_tsig md i4 ;; Ok (Some t, i)) = Ok (rt, i5) -> W (match rt with Some t => tsig_text t | None => [86] end) + W i5 <= W i4).
    { intros HE. inv_bind HE. destruct v as [t i6]. apply ok_inj, pair_equal_spec in HE as [<- <-]. apply s_tsig in E4. exact E4. }
    destruct i4 as [|c i4]; [auto|]. destruct (c =? 86) eqn:E86; [|auto]. apply Z.eqb_eq in E86. subst c. apply ok_inj, pair_equal_spec in E3 as [<- <-]. w. lia. }
  inv_bind H. destruct v as [th i6]. apply ok_inj, pair_equal_spec in H as [<- <-]. apply (s_while _ _ _ (s_throws md)) in E4.
  unfold method_sig_text, shown_method. cbn [ms_params ms_args ms_ret ms_throws]. rewrite map_map. w. lia.
Qed.
Lemma s_classsig md : shrinks class_sig_text (p_classsig md).
Proof.
  intros i a r H. unfold p_classsig in H. inv_bind H. destruct v as [ps i1]. apply s_params in E. inv_bind H. destruct v as [sup i2]. apply s_csig in E0.
  inv_bind H. destruct v as [its i3]. apply ok_inj, pair_equal_spec in H as [<- <-]. apply (s_while csig_text _ _ (s_csig md)) in E1.
  unfold class_sig_text. cbn [cs_params cs_super cs_itfs]. w. lia.
Qed.
End Weight.

(** * The bytes a code point takes in a file *)
Definition wt (c : Z) : Z := len (mutf8_of (utf16 c)).
Lemma wt_pos c : 0 <= wt c. Proof. apply len_nonneg. Qed.
Lemma W_bytes cps : W wt cps = len (mutf8_of (flat_map utf16 cps)).
Proof. induction cps as [|c cps IH]; [reflexivity|]. rewrite W_cons, IH. cbn [flat_map]. unfold wt, mutf8_of. rewrite flat_map_app, len_app. reflexivity. Qed.
Lemma wt_replace c : wt (replace_surrogate c) = wt c.
Proof.
  unfold replace_surrogate. destruct ((0xD800 <=? c) && (c <=? 0xDFFF)) eqn:E; [|reflexivity]. apply andb_prop in E as [E1 E2]. apply Z.leb_le in E1, E2.
  unfold wt, utf16. change (65533 <? 65536) with true. replace (c <? 65536) with true by (symmetry; apply Z.ltb_lt; lia). cbv iota. unfold mutf8_of. cbn [flat_map]. rewrite !app_nil_r.
  unfold mutf8_unit. replace (c <=? 127) with false by (symmetry; apply Z.leb_gt; lia). replace (c <=? 2047) with false by (symmetry; apply Z.leb_gt; lia). rewrite !andb_false_r. reflexivity.
Qed.
Lemma W_replace cps : W wt (map replace_surrogate cps) = W wt cps.
Proof. induction cps as [|c cps IH]; [reflexivity|]. cbn [map]. rewrite !W_cons, IH, wt_replace. reflexivity. Qed.
Lemma chars_pairs cps : chars cps -> no_pair cps.
Proof.
  induction 1 as [|c cps [_ Hc] H IH]; [exact I|]. split; [|exact IH]. destruct cps; [exact I|]. intros [HL _]. apply Hc. unfold is_lead, is_surrogate in *. lia.
Qed.
Lemma chars_replace cps : Forall is_cp cps -> chars (map replace_surrogate cps).
Proof.
  intros H. apply Forall_map. eapply Forall_impl; [|exact H]. intros c Hc. cbn beta. unfold replace_surrogate. destruct (_ && _) eqn:E; [unfold is_cp, is_surrogate; lia|].
  split; [exact Hc|]. intros HS. unfold is_surrogate in HS. apply andb_false_iff in E. rewrite !Z.leb_gt in E. lia.
Qed.
Lemma chars_fit cps b : chars cps -> W wt cps <= 65535 -> string_to_modified_utf8 (flat_map utf8 cps) = Ok b -> len b < 65536.
Proof.
  intros Hc HW H. assert (HF : wtf8_of cps (flat_map utf8 cps)) by (split; [split; [apply chars_cps, Hc|apply chars_pairs, Hc]|reflexivity]).
  destruct (C02_mutf8_encoder_format _ _ HF) as [HE _]. rewrite HE in H. apply ok_inj in H. subst. rewrite <- W_bytes. lia.
Qed.
Lemma jstr_fit s b : jstr s -> string_to_modified_utf8 s = Ok b -> len b < 65536.
Proof. intros (cps & HF & HL) H. destruct (C02_mutf8_encoder_format _ _ HF) as [HE _]. rewrite HE in H. apply ok_inj in H. subst. lia. Qed.

(** * Descriptors as [Display] shows them: surrogates replaced *)
Lemma utf8_ascii c : 0 <= c < 128 -> utf8 c = [c].
Proof. intros H. unfold utf8. replace (c <? 128) with true by (symmetry; apply Z.ltb_lt; lia). reflexivity. Qed.
Lemma replace_ascii c : 0 <= c < 128 -> replace_surrogate c = c.
Proof. intros H. unfold replace_surrogate. replace (55296 <=? c) with false by (symmetry; apply Z.leb_gt; lia). reflexivity. Qed.
Definition lossy_of (t s : list Z) : Prop := exists cps, Forall is_cp cps /\ t = flat_map utf8 cps /\ s = flat_map utf8 (map replace_surrogate cps).
Lemma lossy_ascii l : Forall (fun c => 0 <= c < 128) l -> lossy_of l l.
Proof.
  intros H. exists l. split; [eapply Forall_impl; [|exact H]; cbn beta; unfold is_cp; lia|].
  induction H as [|c l Hc H [IH1 IH2]]; [auto|]. cbn [map flat_map]. rewrite replace_ascii, utf8_ascii, <- IH1, <- IH2 by auto. auto.
Qed.
Lemma lossy_app a b a' b' : lossy_of a a' -> lossy_of b b' -> lossy_of (a ++ b) (a' ++ b').
Proof.
  intros (x & Hx & -> & ->) (y & Hy & -> & ->). exists (x ++ y). rewrite map_app, !flat_map_app. split; [apply Forall_app; auto|auto].
Qed.
Lemma display_lossy t : Forall wf_wtf8 (ty_names t) -> exists s, display_type t = Ok s /\ lossy_of (ty_text t) s.
Proof.
  assert (HA : forall c, 0 <= c < 128 -> lossy_of [c] [c]) by (intros c Hc; apply lossy_ascii; constructor; auto).
  induction t as [| | | | | | | |n|d e IH|ps r Hps Hr] using ty_ind'; cbn [display_type ty_text ty_names]; intros HL; try (eexists; split; [reflexivity|apply HA; lia]).
  - apply Forall_inv in HL as (cps & [Hc _] & ->). rewrite to_string_lossy_spec by auto. eexists. split; [reflexivity|]. apply (lossy_app [76] _ [76]); [apply HA; lia|].
    apply lossy_app; [exists cps; auto|apply HA; lia].
  - destruct (IH HL) as (s & -> & Hs). eexists. split; [reflexivity|]. apply lossy_app; [apply lossy_ascii, Forall_forall; intros x Hx; apply repeat_spec in Hx; lia|exact Hs].
  - apply Forall_app in HL as [HP HR].
    assert (HS : exists ss, (fix go l := match l with
                         | [] => Ok []
                         | t :: l => s <- display_type t ;; r <- go l ;; Ok (s ++ r)
                         end) ps = Ok ss /\ lossy_of (flat_map ty_text ps) ss).
    { clear HR Hr. induction Hps as [|t ps Ht Hps IHp]; [exists []; split; [reflexivity|exists []; auto]|]. cbn [flat_map] in HP. apply Forall_app in HP as [HP1 HP2].
      destruct (Ht HP1) as (s1 & -> & H1). destruct (IHp HP2) as (s2 & E2 & H2). exists (s1 ++ s2). cbn [bind]. rewrite E2. split; [reflexivity|]. cbn [flat_map]. apply lossy_app; auto. }
    destruct HS as (ss & -> & Hs). cbn [bind]. assert (HE : exists e, match r with Some t => display_type t | None => Ok [86] end = Ok e /\ lossy_of match r with Some t => ty_text t | None => [86] end e).
    { destruct r as [t|]; [apply Hr; auto|]. exists [86]. split; [reflexivity|apply HA; lia]. }
    destruct HE as (e & -> & He). eexists. split; [reflexivity|]. apply (lossy_app [40] _ [40]); [apply HA; lia|]. apply lossy_app; [exact Hs|]. apply (lossy_app [41] _ [41]); [apply HA; lia|exact He].
Qed.
Lemma loose_names t : loose_ty t -> Forall wf_wtf8 (ty_names t).
Proof.
  induction t as [| | | | | | | |n|d e IH|ps r Hps Hr] using ty_ind'; cbn [loose_ty ty_names]; try constructor; try tauto.
  - constructor.
  - intros [_ H]. apply IH. destruct e; auto; contradiction.
  - intros [HP HR]. apply Forall_app. split.
    + clear HR Hr. induction Hps as [|t ps Ht Hps IHp]; [constructor|]. cbn [map fold_right flat_map] in *. destruct HP. apply Forall_app. auto.
    + destruct r; [auto|constructor].
Qed.
Lemma lossy_fit t s b : jstr t -> lossy_of t s -> string_to_modified_utf8 s = Ok b -> len b < 65536.
Proof.
  intros (cps & [[Hc _] ->] & HL) (cps' & Hc' & HE & ->) H. apply utf8_inj in HE; auto. subst cps'. eapply chars_fit; [apply chars_replace, Hc| |exact H]. rewrite W_replace, W_bytes. exact HL.
Qed.

(** * Signatures *)
Lemma chars_shown m : chars (method_sig_text m) -> chars (method_sig_text (shown_method m)).
Proof. intros H. apply method_chars in H. rewrite d_method_text in H. exact H. Qed.
(** A parsed signature fits an entry if the text did. *)
Lemma sig_jstr {A} (txt txt' : A -> list Z) (q : sp A) s g : jstr s -> keeps (fun a => chars (txt a)) q -> (chars (txt g) -> chars (txt' g)) -> shrinks wt txt' q -> sig_of q s = Ok g ->
  jstr (flat_map utf8 (txt' g)).
Proof.
  intros (cps & [[Hc _] ->] & HL) Hk Ht Hq H. unfold sig_of in H. rewrite to_string_lossy_spec in H by auto. cbn [bind] in H. rewrite codepoints_utf8 in H by (apply chars_cps, chars_replace, Hc).
  cbn [bind] in H. unfold from_str in H. inv_bind H. destruct v as [a r]. apply ok_inj in H. subst. pose proof (Ht (proj1 (Hk _ _ _ (chars_replace _ Hc) E))) as Hg.
  exists (txt' g). split; [split; [split; [apply chars_cps, Hg|apply chars_pairs, Hg]|reflexivity]|].
  apply Hq in E. rewrite W_replace in E. rewrite <- W_bytes in *. pose proof (W_pos wt wt_pos r). lia.
Qed.
Lemma field_jstr md s g : jstr s -> sig_of (p_rsig md) s = Ok g -> jstr (flat_map utf8 (rsig_text g)).
Proof. intros Hs. apply (sig_jstr rsig_text); auto using ReadText.k_rsig. apply s_rsig, wt_pos. Qed.
Lemma method_jstr md s g : jstr s -> sig_of (p_method md) s = Ok g -> jstr (flat_map utf8 (method_sig_text (shown_method g))).
Proof. intros Hs. apply (sig_jstr method_sig_text (fun m => method_sig_text (shown_method m))); auto using ReadText.k_method, chars_shown. apply s_method; [apply wt_pos|reflexivity]. Qed.
Lemma class_jstr md s g : jstr s -> sig_of (p_classsig md) s = Ok g -> jstr (flat_map utf8 (class_sig_text g)).
Proof. intros Hs. apply (sig_jstr class_sig_text); auto using ReadText.k_classsig. apply s_classsig, wt_pos. Qed.
