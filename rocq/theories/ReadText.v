(** Types and signatures that were parsed are made of characters (C87): lemmas. *)
From Coq Require Import Lia.
From Verif Require Import Base BaseLemmas Wtf8Spec Wtf8Model Wtf8Proofs Wtf8Props TypeModel TypeSpec TypeProofs TypeProofs2 CpModel SigModel SigSpec WriteSpec LaxProofs.

(** decides the condition on which [H] depends *)
Ltac cond H := match type of H with (if ?b then _ else _) = _ => destruct b end.

(** * Types *)
Lemma count_dims_rest (P : list Z -> Prop) md : (forall c l, P (c :: l) -> P l) ->
  forall c d n r, P c -> count_dims md d c = Ok (n, r) -> P r.
Proof.
  intros HP. induction c as [|x c IH]; intros d n r Hc H; cbn [count_dims] in H; [injection H as _ <-; exact Hc|].
  destruct (x =? 91); [|injection H as _ <-; exact Hc]. destruct (chk_u md 8 (d + 1)); try discriminate. cbn [bind] in H. eapply IH; [|exact H]. eauto.
Qed.
Lemma span_semi_parts (P : Z -> Prop) c : Forall P c -> Forall P (fst (span_semi c)) /\ Forall P (snd (span_semi c)).
Proof.
  induction 1 as [|x c Hx Hc [IH1 IH2]]; cbn [span_semi]; [split; constructor|]. destruct (x =? 59); [split; [constructor|constructor; assumption]|].
  destruct (span_semi c). cbn in *. auto.
Qed.
Lemma tail_cps c l : Forall is_cp (c :: l) -> Forall is_cp l. Proof. inversion 1; auto. Qed.
Lemma get_type_names md n : forall c t r, Forall is_cp c -> get_type md n c = Ok (t, r) -> t_ty t /\ Forall is_cp r.
Proof.
  induction n as [|n IH]; intros c t r Hc H; cbn [get_type] in H; [discriminate|]. destruct c as [|ch c1]; [discriminate|].
  pose proof (tail_cps _ _ Hc) as Hc1. unfold t_ty.
  repeat match type of H with (if ?b then Ok _ else _) = _ => destruct b; [injection H as <- <-; split; [constructor|exact Hc1]|] end.
  destruct (ch =? 76).
  { pose proof (span_semi_parts is_cp c1 Hc1) as [H1 H2]. destruct (span_semi c1) as [nm [|x c3]]; [discriminate|]. injection H as <- <-.
    split; [|apply (tail_cps _ _ H2)]. cbn [ty_names]. constructor; [|constructor]. destruct (C11_collect nm H1) as (cps & Hw & _). exists cps. exact Hw. }
  destruct (ch =? 91).
  { inv_bind H. destruct v as [d c2]. apply (count_dims_rest (Forall is_cp)) in E; [|exact tail_cps|exact Hc1]. inv_bind H. destruct v as [t' c3]. injection H as <- <-.
    apply IH in E0 as [H1 H2]; auto. }
  { destruct (ch =? 40); [|discriminate]. inv_bind H. destruct v as [ts c2].
    assert (HP : Forall t_ty ts /\ Forall is_cp c2).
    { clear - IH Hc1 E. revert c1 ts c2 Hc1 E. generalize n at 2 as k. induction k as [|k IHk]; intros c1 ts c2 Hc1 E; destruct c1 as [|x c1]; cbn [params_loop] in E; try (injection E as <- <-; split; [constructor|auto]).
      - destruct (x =? 41); [|discriminate]. injection E as <- <-; split; [constructor|auto].
      - destruct (x =? 41); [injection E as <- <-; split; [constructor|auto]|].
        inv_bind E. destruct v as [t c3]. inv_bind E. destruct v as [ts' c4]. injection E as <- <-. apply IH in E0 as [H1 H2]; auto. apply IHk in E1 as [H3 H4]; auto. }
    destruct HP as [HP Hc2]. destruct c2 as [|x c3]; [discriminate|]. pose proof (tail_cps _ _ Hc2) as Hc3.
    assert (HF : Forall wf_wtf8 (flat_map ty_names ts)).
    { clear - HP. induction HP; cbn [flat_map]; [constructor|]. apply Forall_app. auto. }
    assert (HM : (t, r) = (TMethod ts None, c3) \/ exists t' c4, get_type md n c3 = Ok (t', c4) /\ (t, r) = (TMethod ts (Some t'), c4)).
    { destruct c3 as [|y c3]; [right; inv_bind H; destruct v as [t' c4]; exists t', c4; split; congruence|].
      destruct (Z.eq_dec y 86) as [->|N]; [left; congruence|]. right. assert (HX : forall T (a b : T), match y with 86 => a | _ => b end = b).
      { intros T a b. destruct y as [|q|q]; auto. do 7 (destruct q; auto). congruence. }
      rewrite HX in H. inv_bind H. destruct v as [t' c4]. exists t', c4. split; congruence. }
    destruct HM as [HM|(t' & c4 & E1 & HM)]; injection HM as -> ->; cbn [ty_names].
    - rewrite app_nil_r. auto.
    - apply IH in E1 as [H1 H2]; auto. split; [apply Forall_app; auto|auto]. }
Qed.
Lemma parse_type_names md s t : lax s -> parse_type md s = Ok t -> t_ty t.
Proof.
  intros Hs H. unfold parse_type, codepoints in H. destruct (codepoints_lax s Hs (length s) (Nat.le_refl _)) as (cs & E & Hc). rewrite E in H. cbn [bind] in H.
  inv_bind H. destruct v as [t' r]. injection H as <-. apply get_type_names in E0 as [H1 _]; auto.
Qed.

(** * Signatures *)
Definition keeps {A} (P : A -> Prop) (p : sp A) : Prop := forall i a r, chars i -> p i = Ok (a, r) -> P a /\ chars r.
Lemma keeps_bind {A B} (P : A -> Prop) (Q : B -> Prop) (p : sp A) (g : A * list Z -> res (B * list Z)) :
  keeps P p -> (forall a, P a -> keeps Q (fun i => g (a, i))) -> keeps Q (fun i => bind (p i) g).
Proof. intros Hp Hg i b r Hi H. inv_bind H. destruct v as [a i1]. apply Hp in E as [Ha Hi1]; auto. exact (Hg a Ha i1 b r Hi1 H). Qed.
Lemma keeps_ret {A} (P : A -> Prop) a : P a -> keeps P (fun i => Ok (a, i)).
Proof. intros Ha i b r Hi H. injection H as <- <-. auto. Qed.
Lemma keeps_err {A} (P : A -> Prop) e : keeps P (fun _ => Err e). Proof. intros i a r _ H. discriminate. Qed.
Lemma chars_nil : chars []. Proof. constructor. Qed.
Lemma chars_cons c l : chars (c :: l) <-> chars [c] /\ chars l.
Proof. unfold chars. split; [inversion 1; auto|intros [H1 H2]; inversion H1; auto]. Qed.
Lemma chars_tail c l : chars (c :: l) -> chars l. Proof. inversion 1; auto. Qed.
Lemma chars_both a b : chars (a ++ b) <-> chars a /\ chars b. Proof. apply Forall_app. Qed.
Lemma chars_concat {A} (f : A -> list Z) l : Forall (fun a => chars (f a)) l -> chars (concat (map f l)).
Proof. induction 1; cbn; [constructor|]. apply chars_both. auto. Qed.
Lemma chars_push c l : is_cp c /\ ~ is_surrogate c -> chars l -> chars (c :: l). Proof. constructor; auto. Qed.
Ltac ch := repeat match goal with
  | |- chars (_ ++ _) => apply chars_both; split
  | |- chars [] => constructor
  | |- chars (?c :: ?l) => apply chars_push; [unfold is_cp, is_surrogate; lia|]
  end.
Lemma k_char c : keeps (fun _ => True) (p_char c).
Proof. intros [|x i] a r Hi H; cbn in H; [discriminate|]. destruct (x =? c); [|discriminate]. injection H as <- <-. split; auto. apply (chars_tail _ _ Hi). Qed.
Lemma split_semi_chars i a b : chars i -> split_semi i = Some (a, b) -> chars a /\ chars b.
Proof.
  intros Hi. revert a b. induction Hi as [|c i Hc Hi IH]; intros a b H; cbn [split_semi] in H; [discriminate|]. destruct (c =? 59); [injection H as <- <-; split; [constructor|auto]|].
  destruct (split_semi i) as [[a' b']|]; [|discriminate]. injection H as <- <-. destruct (IH _ _ eq_refl). split; auto. constructor; auto.
Qed.
Lemma packages_chars i : forall str last v l, chars i -> chars str -> chars last -> p_packages_loop i str last = Ok (v, l) -> Forall chars v /\ chars l.
Proof.
  induction i as [|c i IH]; intros str last v l Hi Hs Hl H; cbn [p_packages_loop] in H; [discriminate|]. pose proof (chars_tail _ _ Hi) as Hi1.
  destruct (c =? 47).
  - inv_bind H. destruct v0 as [v0 l0]. injection H as <- <-. apply IH in E as [H1 H2]; auto. constructor.
  - cond H; [injection H as <- <-; split; [constructor|auto]|]. eapply IH; [| | |exact H]; auto. apply chars_both. split; auto. apply (chars_cons c i) in Hi. apply Hi.
Qed.
Lemma k_packages : keeps (Forall chars) p_packages.
Proof. intros i a r Hi H. eapply packages_chars; [| | |exact H]; auto. constructor. Qed.
Lemma span_name_chars i : chars i -> chars (fst (span_name i)) /\ chars (snd (span_name i)).
Proof.
  induction 1 as [|c i Hc Hi IH]; cbn [span_name]; [split; constructor|]. destruct (_ || _ || _); [split; [constructor|constructor; auto]|].
  destruct (span_name i). cbn in *. destruct IH. split; auto. constructor; auto.
Qed.
Lemma split_colon_chars i : chars i -> chars (fst (split_colon i)) /\ chars (snd (split_colon i)).
Proof.
  induction 1 as [|c i Hc Hi IH]; cbn [split_colon]; [split; constructor|]. destruct (_ =? _); [split; [constructor|auto]|].
  destruct (split_colon i). cbn in *. destruct IH. split; auto. constructor; auto.
Qed.
Lemma k_until {A} (P : A -> Prop) (p : sp A) : keeps P p -> forall n, keeps (Forall P) (p_until_gt p n).
Proof.
  intros Hp. induction n as [|n IH]; intros i a r Hi H; destruct i as [|c i]; cbn [p_until_gt] in H; try (injection H as <- <-; split; [constructor|auto]).
  - destruct (c =? 62); [|discriminate]. injection H as <- <-. split; [constructor|auto].
  - destruct (c =? 62); [injection H as <- <-; split; [constructor|auto]|]. inv_bind H. destruct v as [x i1]. apply Hp in E as [Hx Hi1]; auto.
    inv_bind H. destruct v as [xs i2]. injection H as <- <-. apply IH in E as [H1 H2]; auto.
Qed.
Lemma k_while {A} (P : A -> Prop) set (p : sp A) : keeps P p -> forall n, keeps (Forall P) (p_while set p n).
Proof.
  intros Hp. induction n as [|n IH]; intros i a r Hi H; destruct i as [|c i]; cbn [p_while] in H; try (injection H as <- <-; split; [constructor|auto]).
  - destruct (set c); [discriminate|]. injection H as <- <-. split; [constructor|auto].
  - destruct (set c); [|injection H as <- <-; split; [constructor|auto]]. inv_bind H. destruct v as [x i1]. apply Hp in E as [Hx Hi1]; auto.
    inv_bind H. destruct v as [xs i2]. injection H as <- <-. apply IH in E as [H1 H2]; auto.
Qed.
Lemma k_bracketed {A} (P : A -> Prop) (p : sp A) : keeps P p -> keeps (Forall P) (p_bracketed p).
Proof.
  intros Hp i a r Hi H. unfold p_bracketed in H. destruct i as [|c i]; [injection H as <- <-; split; [constructor|auto]|].
  destruct (c =? 60); [|injection H as <- <-; split; [constructor|auto]]. inv_bind H. destruct v as [xs i1]. apply (k_until P p Hp) in E as [H1 H2]; [|apply (chars_tail _ _ Hi)].
  inv_bind H. destruct v as [u i2]. injection H as <- <-. apply k_char in E as [_ H3]; auto.
Qed.
Definition ok_t (t : tsig) := chars (tsig_text t).
Definition ok_r (t : rsig) := chars (rsig_text t).
Definition ok_c (t : csig) := chars (csig_text t).
Definition ok_s (t : ssig) := chars (ssig_text t).
Definition ok_a (t : targ) := chars (targ_text t).
Section Ref.
Variable ref : sp rsig.
Hypothesis Href : keeps ok_r ref.
Lemma k_type : keeps ok_t (p_type ref).
Proof.
  intros i a r Hi H. unfold p_type in H. destruct i as [|c i]; [discriminate|]. pose proof (chars_tail _ _ Hi) as Hi1.
  repeat match type of H with (if ?b then Ok _ else _) = _ => destruct b; [injection H as <- <-; split; [unfold ok_t; cbn; ch|exact Hi1]|] end.
  cond H; [|discriminate]. inv_bind H. destruct v as [x i1]. injection H as <- <-. apply Href in E as [H1 H2]; auto.
Qed.
Lemma k_arg : keeps ok_a (p_arg ref).
Proof.
  intros i a r Hi H. unfold p_arg in H. destruct i as [|c i]; [discriminate|]. pose proof (chars_tail _ _ Hi) as Hi1.
  destruct (c =? 42); [injection H as <- <-; split; [unfold ok_a; cbn; ch|exact Hi1]|].
  repeat match type of H with (if ?b then _ else _) = _ => destruct b end; try discriminate; inv_bind H; destruct v as [x i1]; injection H as <- <-;
  apply Href in E as [H1 H2]; auto; split; auto; unfold ok_a, ok_r in *; cbn [targ_text]; ch; auto.
Qed.
Lemma k_simple : keeps ok_s (p_simple ref).
Proof.
  intros i a r Hi H. unfold p_simple in H. pose proof (span_name_chars i Hi) as [H1 H2]. destruct (span_name i) as [nm i1]. cbn [fst snd] in *.
  inv_bind H. destruct v as [args i2]. injection H as <- <-. apply (k_bracketed ok_a _ k_arg) in E as [H3 H4]; auto. split; auto.
  unfold ok_s. cbn [ssig_text]. destruct args as [|a args]; auto. ch; auto. apply chars_concat. exact H3.
Qed.
Lemma k_suffixes n : keeps (Forall ok_s) (p_suffixes (p_simple ref) n).
Proof.
  induction n as [|n IH]; intros i a r Hi H; destruct i as [|c i]; cbn [p_suffixes] in H; try (injection H as <- <-; split; [constructor|auto]).
  - destruct (c =? 46); [discriminate|]. injection H as <- <-. split; [constructor|auto].
  - destruct (c =? 46); [|injection H as <- <-; split; [constructor|auto]]. inv_bind H. destruct v as [x i1]. apply k_simple in E as [Hx Hi1]; [|apply (chars_tail _ _ Hi)].
    inv_bind H. destruct v as [xs i2]. injection H as <- <-. apply IH in E as [H1 H2]; auto.
Qed.
Lemma k_class : keeps ok_c (p_class ref).
Proof.
  unfold p_class. eapply keeps_bind; [apply k_char|]. intros _ _. eapply keeps_bind; [apply k_packages|]. intros pk Hpk.
  eapply keeps_bind; [apply k_simple|]. intros nm Hnm. intros i a r Hi H. inv_bind H. destruct v as [sf i1]. apply k_suffixes in E as [H1 H2]; auto.
  inv_bind H. destruct v as [u i2]. apply k_char in E as [_ H3]; auto. injection H as <- <-. split; auto. unfold ok_c. cbn [csig_text]. ch; auto.
  - apply (chars_concat (fun s => s ++ [47])). eapply Forall_impl; [|exact Hpk]. cbn. intros s Hs. ch; auto.
  - apply (chars_concat (fun s => 46 :: ssig_text s)). eapply Forall_impl; [|exact H1]. cbn. intros s Hs. ch; auto.
Qed.
End Ref.
Lemma k_ref md n : keeps ok_r (p_ref md n).
Proof.
  induction n as [|n IH]; intros i a r Hi H; cbn [p_ref] in H; [discriminate|]. destruct i as [|c i]; [discriminate|]. pose proof (chars_tail _ _ Hi) as Hi1.
  destruct (c =? 91); [|destruct (c =? 84); [|destruct (c =? 76); [|discriminate]]].
  - inv_bind H. destruct v as [d i1]. apply (count_dims_rest chars) in E; [|exact chars_tail|exact Hi]. inv_bind H. destruct v as [t i2]. injection H as <- <-.
    apply (k_type _ IH) in E0 as [H1 H2]; auto. split; auto. unfold ok_r. cbn [rsig_text]. ch; auto. apply Forall_forall. intros x Hx. apply repeat_spec in Hx. unfold is_cp, is_surrogate. lia.
  - destruct (split_semi i) as [[v i1]|] eqn:E; [|discriminate]. injection H as <- <-. apply split_semi_chars in E as [H1 H2]; auto. split; auto. unfold ok_r. cbn [rsig_text]. ch; auto.
  - inv_bind H. destruct v as [x i1]. injection H as <- <-. apply (k_class _ IH) in E as [H1 H2]; auto.
Qed.
Lemma k_rsig md : keeps ok_r (p_rsig md). Proof. intros i a r Hi H. eapply k_ref; eauto. Qed.
Lemma k_tsig md : keeps ok_t (p_tsig md). Proof. apply k_type, k_rsig. Qed.
Lemma k_csig md : keeps ok_c (p_csig md). Proof. apply k_class, k_rsig. Qed.
Lemma k_throws md : keeps (fun t => chars (throws_text t)) (p_throws md).
Proof.
  unfold p_throws. eapply keeps_bind; [apply k_char|]. intros _ _ i a r Hi H. destruct i as [|c i]; [discriminate|]. pose proof (chars_tail _ _ Hi) as Hi1. cbn beta iota in H.
  destruct (c =? 76); [|destruct (c =? 84); [|discriminate]].
  - inv_bind H. destruct v as [x i1]. injection H as <- <-. apply k_csig in E as [H1 H2]; auto. split; auto. unfold throws_text. ch. exact H1.
  - destruct (split_semi i) as [[v i1]|] eqn:E; [|discriminate]. injection H as <- <-. apply split_semi_chars in E as [H1 H2]; auto. split; auto. unfold throws_text. ch; auto.
Qed.
Lemma k_itf_bounds md cs : forall i a r, chars cs -> chars i -> p_itf_bounds (p_rsig md) cs i = Ok (a, r) -> Forall ok_r a /\ chars r.
Proof.
  induction cs as [|c cs IH]; intros i a r Hc Hi H; cbn [p_itf_bounds] in H; [injection H as <- <-; split; [constructor|auto]|].
  destruct (c =? 58); [|injection H as <- <-; split; [constructor|auto]]. inv_bind H. destruct v as [x i1]. pose proof (chars_tail _ _ Hc) as Hc1. apply k_rsig in E as [H1 H2]; auto.
  inv_bind H. destruct v as [xs i2]. injection H as <- <-. apply IH in E as [H3 H4]; auto.
Qed.
Lemma k_param md : keeps (fun p => chars (param_text p)) (p_param md).
Proof.
  intros i a r Hi H. unfold p_param in H. pose proof (split_colon_chars i Hi) as [H1 H2]. destruct (split_colon i) as [nm cs]. cbn [fst snd] in *.
  inv_bind H. destruct v as [cb i1].
  assert (HC : t_opt ok_r cb /\ chars i1).
  { destruct cs as [|c cs]; [injection E as <- <-; split; [exact I|auto]|]. cond E; [|injection E as <- <-; split; [exact I|auto]].
    inv_bind E. destruct v as [x i2]. injection E as <- <-. apply k_rsig in E0 as [H3 H4]; auto. }
  destruct HC as [HC Hi1]. inv_bind H. destruct v as [ib i2]. injection H as <- <-. apply k_itf_bounds in E0 as [H3 H4]; auto. split; auto.
  unfold param_text. cbn [tp_name tp_class tp_itfs]. ch; auto.
  - destruct cb; [exact HC|constructor].
  - apply (chars_concat (fun s => 58 :: rsig_text s)). eapply Forall_impl; [|exact H3]. cbn. intros s Hs. ch; auto.
Qed.
Lemma params_chars ps : Forall (fun p => chars (param_text p)) ps -> chars (params_text ps).
Proof. intros H. destruct ps as [|p ps]; [constructor|]. unfold params_text. ch. apply chars_concat. exact H. Qed.
Lemma k_method md : keeps (fun m => chars (method_sig_text m)) (p_method md).
Proof.
  unfold p_method, p_params. eapply keeps_bind; [apply k_bracketed, k_param|]. intros ps Hps. eapply keeps_bind; [apply k_char|]. intros _ _ i a r Hi H.
  inv_bind H. destruct v as [args i1]. apply (k_while ok_t _ _ (k_tsig md)) in E as [H1 H2]; auto. inv_bind H. destruct v as [u i2]. apply k_char in E as [_ H3]; auto.
  inv_bind H. destruct v as [rt i3]. assert (HR : chars (match rt with Some t => tsig_text t | None => [86] end) /\ chars i3).
  { unfold p_ret in E. assert (HT : forall j, chars j -> ('(t, i) <- p_tsig md j ;; Ok (Some t, i)) = Ok (rt, i3) -> chars (match rt with Some t => tsig_text t | None => [86] end) /\ chars i3).
    { intros j Hj HE. inv_bind HE. destruct v as [t i4]. injection HE as <- <-. apply k_tsig in E0 as [H4 H5]; auto. }
    destruct i2 as [|c i2]; [apply (HT []); auto|]. destruct (c =? 86); [injection E as <- <-; split; [ch|apply (chars_tail _ _ H3)]|]. apply (HT (c :: i2)); auto. }
  destruct HR as [HR H4]. inv_bind H. destruct v as [th i4]. injection H as <- <-. apply (k_while _ _ _ (k_throws md)) in E0 as [H5 H6]; auto. split; auto.
  unfold method_sig_text. cbn [ms_params ms_args ms_ret ms_throws]. ch; auto using params_chars, chars_concat.
Qed.
Lemma k_classsig md : keeps (fun m => chars (class_sig_text m)) (p_classsig md).
Proof.
  unfold p_classsig, p_params. eapply keeps_bind; [apply k_bracketed, k_param|]. intros ps Hps. eapply keeps_bind; [apply k_csig|]. intros sup Hsup i a r Hi H.
  inv_bind H. destruct v as [is i1]. injection H as <- <-. apply (k_while ok_c _ _ (k_csig md)) in E as [H1 H2]; auto. split; auto.
  unfold class_sig_text. cbn [cs_params cs_super cs_itfs]. ch; auto using params_chars, chars_concat.
Qed.
