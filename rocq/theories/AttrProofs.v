(** Writing and reading attributes, fields, methods and modules. *)
From Coq Require Import String.
From Verif Require Import Base BaseLemmas Wtf8Spec Wtf8Proofs MutfModel MutfProofs PrimModel PrimProofs TypeModel TypeSpec TypeProofs
  CpModel CpSpec CpProofs FileSpec SigModel SigSpec SigProofs SigProps AnnModel AnnSpec AnnProofs AttrModel AttrSpec.

(** * Writing *)
Lemma wr_pair_ok {A B} (f : cwr A) (g : cwr B) P Q F G : wr_ok f P F -> wr_ok g Q G ->
  wr_ok (wr_pair f g) (fun E ab => P E (fst ab) /\ Q E (snd ab)) (fmt_pair F G).
Proof.
  intros Hf Hg E [a b] w [HP HQ] Hi. unfold wr_pair. cbn [fst snd] in *.
  eapply post_bind; [apply Hf; auto|]. cbn beta. intros x w1 Hl1 Hi1 H1.
  eapply post_bind; [apply Hg; auto|]. cbn beta. intros y w2 Hl2 Hi2 H2. apply post_ret; auto.
  pose proof (later_le _ _ _ _ Hl2 H1) as H1'. intros Hfit Hb W Ha Hh. exists x, y. auto.
Qed.
Lemma wr_via_ok {A B} (h : A -> B) (f : cwr B) P F : wr_ok f P F ->
  wr_ok (wr_via h f) (fun E a => P E (h a)) (fmt_via h F).
Proof. intros Hf E a w HP Hi. apply (Hf E (h a)); auto. Qed.
Lemma wr_none_ok : wr_ok wr_none (fun _ _ => True) fmt_none.
Proof. intros E a w _ Hi. apply post_ret; auto. intros _ _ W _ _. reflexivity. Qed.
Lemma wr_attr_ok {A} name (f : cwr A) P F : wr_ok f P F -> jstr name -> wr_ok (wr_attr name f) P (fmt_attr name F).
Proof.
  intros Hf Hn E a w HP Hi. unfold wr_attr.
  eapply post_bind; [apply (ins_wtf8_ok E name w Hn Hi)|]. cbn beta. intros i w1 Hl1 Hi1 (Hu & H1 & HR).
  eapply post_bind; [apply Hf; auto|]. cbn beta. intros b w2 Hl2 Hi2 H2. apply post_ret; auto.
  pose proof (later_le _ _ _ _ Hl2 HR) as HR'. intros Hfit Hb W Ha Hh.
  exists i, b. rewrite be2_u2, be4_u4. unfold u16 in Hu.
  specialize (H1 (fits_le _ _ Hl2 Hfit)). repeat split; auto; try lia.
Qed.
Lemma wr_raw_attr_ok known : wr_ok wr_raw_attr (fun _ => wf_raw known) fmt_raw.
Proof.
  intros E r w [Hn _] Hi. unfold wr_raw_attr.
  eapply post_bind; [apply (ins_wtf8_ok E (ra_name r) w Hn Hi)|]. cbn beta. intros i w1 Hl1 Hi1 (Hu & H1 & HR).
  apply post_ret; auto. intros Hfit Hb W Ha Hh.
  exists i, (ra_body r). rewrite be2_u2, be4_u4. unfold u16 in Hu.
  specialize (H1 Hfit). repeat split; auto; lia.
Qed.
Lemma wr_cflags_ok t : wr_ok wr_cflags (fun _ => flags_of t) fmt_u2.
Proof.
  apply wr_plain_ok. intros E x [Hx _]. eexists. split; [reflexivity|]. intros W. split; auto. apply be2_u2.
Qed.
Lemma wr_class_ok : wr_ok wr_class (fun _ => jstr) fmt_class.
Proof.
  eapply wr_mono; [apply (wr_strcp_ok 7); cbn; auto|auto|]. cbn beta. intros _ W s bs _ _ (i & Hi & -> & H).
  exists i. repeat split; try lia. destruct H as [[_ H]|[[H _]|[[H _]|[H _]]]]; [auto|lia..].
Qed.
Lemma wr_names_ok (f : cwr (list Z)) F : wr_ok f (fun _ => jstr) F -> wr_ok (wr_cvec 2 f) (fun _ => wf_names) (fmt_table2 F).
Proof. intros H. apply (wr_cvec2_ok _ _ _ H). Qed.
Lemma wr_annots_ok : wr_ok wr_annots (fun _ => wf_annots) fmt_annots.
Proof. apply (wr_cvec2_ok _ _ _ wr_annot_ok). Qed.
Lemma wr_pannots_ok : wr_ok wr_pannots (fun _ => wf_pannots) fmt_pannots.
Proof. apply (wr_cvec1_ok _ _ _ wr_annots_ok). Qed.
Lemma wr_tannots_ok {T} (f : cwr T) (P : T -> Prop) g : wr_ok f (fun _ => P) (fmt_bytes g) ->
  wr_ok (wr_cvec 2 (wr_tannot f)) (fun _ => wf_tannots P) (fmt_tannots g).
Proof. intros H. apply (wr_cvec2_ok _ _ _ (wr_tannot_ok _ _ _ H)). Qed.

Lemma wr_field_sig_ok : wr_ok (wr_sig d_rsig) (fun _ => wf_field_signature) (fmt_sig rsig_text).
Proof. intros E s w [H Hj] Hi. apply (wr_sig_ok d_rsig rsig_text); auto. repeat split; auto; [apply d_r|apply sc_r; auto]. Qed.
Lemma method_sig_eta m : Forall no_var (ms_throws m) -> {| ms_params := ms_params m; ms_args := ms_args m; ms_ret := ms_ret m;
     ms_throws := map throws_class (ms_throws m) |} = m.
Proof. intros H. rewrite throws_class_id by auto. destruct m; auto. Qed.
Lemma method_sig_split m ps : ms_params m = flat_map split_param ps -> method_sig_text m =
  method_sig_text {| ms_params := ps; ms_args := ms_args m; ms_ret := ms_ret m; ms_throws := ms_throws m |}.
Proof. intros E. unfold method_sig_text. cbn [ms_params ms_args ms_ret ms_throws]. rewrite E, split_text. reflexivity. Qed.
Lemma class_sig_split c ps : cs_params c = flat_map split_param ps -> class_sig_text c =
  class_sig_text {| cs_params := ps; cs_super := cs_super c; cs_itfs := cs_itfs c |}.
Proof. intros E. unfold class_sig_text. cbn [cs_params cs_super cs_itfs]. rewrite E, split_text. reflexivity. Qed.
Lemma wr_method_sig_ok : wr_ok (wr_sig d_method) (fun _ => wf_method_signature) (fmt_sig method_sig_text).
Proof.
  intros E s w ((ps & Ep & H) & Hv & Hj) Hi. apply (wr_sig_ok d_method method_sig_text); auto.
  split; [|split; [|auto]].
  - rewrite d_method_text, method_sig_eta by auto. reflexivity.
  - rewrite (method_sig_split s ps Ep). apply sc_method; auto.
Qed.
Lemma wr_class_sig_ok : wr_ok (wr_sig d_class) (fun _ => wf_class_signature) (fmt_sig class_sig_text).
Proof.
  intros E s w ((ps & Ep & H) & Hj) Hi. apply (wr_sig_ok d_class class_sig_text); auto.
  split; [|split; [|auto]].
  - apply d_class_text.
  - rewrite (class_sig_split s ps Ep). apply sc_class; auto.
Qed.

Lemma wr_fattr_ok : wr_ok wr_fattr (fun _ => wf_fattr) fmt_fattr.
Proof.
  intros E a w Ha Hi. destruct a; cbn [wr_fattr wf_fattr fmt_fattr] in *.
  - apply (wr_attr_ok _ _ _ _ wr_none_ok); [ascii|auto..].
  - apply (wr_attr_ok _ _ _ _ wr_none_ok); [ascii|auto..].
  - apply (wr_attr_ok _ _ _ _ wr_field_sig_ok); [ascii|auto..].
  - apply (wr_attr_ok _ _ _ _ wr_constant_ok); [ascii|auto..].
  - apply (wr_attr_ok _ _ _ _ wr_annots_ok); [ascii|auto..].
  - apply (wr_attr_ok _ _ _ _ wr_annots_ok); [ascii|auto..].
  - apply (wr_attr_ok _ _ _ _ (wr_tannots_ok _ _ _ wr_field_target_ok)); [ascii|auto..].
  - apply (wr_attr_ok _ _ _ _ (wr_tannots_ok _ _ _ wr_field_target_ok)); [ascii|auto..].
  - apply (wr_raw_attr_ok field_attr_names); auto.
Qed.
Lemma wr_field_ok : wr_ok wr_field (fun _ => wf_field) fmt_field.
Proof.
  intros E f w (H1 & H2 & H3 & H4) Hi.
  apply (wr_via_ok _ _ _ _ (wr_pair_ok _ _ _ _ _ _ (wr_cflags_ok FieldFlags) (wr_pair_ok _ _ _ _ _ _ wr_cow_ok
    (wr_pair_ok _ _ _ _ _ _ wr_type_ok (wr_cvec2_ok _ _ _ wr_fattr_ok)))) E f w); cbn; auto.
Qed.

Lemma wr_mparam_ok : wr_ok wr_mparam (fun _ => wf_mparam) fmt_mparam.
Proof.
  intros E f w [H1 H2] Hi.
  apply (wr_via_ok _ _ _ _ (wr_pair_ok _ _ _ _ _ _ (wr_opt_ok _ _ _ wr_cow_ok) (wr_cflags_ok MethodParameterFlags)) E f w);
    cbn; auto.
Qed.
Lemma wr_mattr_ok {C} (wc : cwr C) P F : wr_ok wc P F -> wr_ok (wr_mattr wc) (fun E => wf_mattr (P E)) (fmt_mattr F).
Proof.
  intros Hc E a w Ha Hi. destruct a; cbn [wr_mattr wf_mattr fmt_mattr] in *.
  - apply (wr_attr_ok _ _ _ _ Hc); [ascii|auto..].
  - apply (wr_attr_ok _ _ _ _ wr_none_ok); [ascii|auto..].
  - apply (wr_attr_ok _ _ _ _ wr_none_ok); [ascii|auto..].
  - apply (wr_attr_ok _ _ _ _ wr_method_sig_ok); [ascii|auto..].
  - apply (wr_attr_ok _ _ _ _ wr_annots_ok); [ascii|auto..].
  - apply (wr_attr_ok _ _ _ _ wr_annots_ok); [ascii|auto..].
  - apply (wr_attr_ok _ _ _ _ (wr_tannots_ok _ _ _ wr_method_target_ok)); [ascii|auto..].
  - apply (wr_attr_ok _ _ _ _ (wr_tannots_ok _ _ _ wr_method_target_ok)); [ascii|auto..].
  - apply (wr_attr_ok _ _ _ _ wr_pannots_ok); [ascii|auto..].
  - apply (wr_attr_ok _ _ _ _ wr_pannots_ok); [ascii|auto..].
  - apply (wr_attr_ok _ _ _ _ (wr_cvec2_ok _ _ _ wr_class_ok)); [ascii|auto..].
  - apply (wr_attr_ok _ _ _ _ wr_aval_ok); [ascii|auto..].
  - apply (wr_attr_ok _ _ _ _ (wr_cvec1_ok _ _ _ wr_mparam_ok)); [ascii|auto..].
  - apply (wr_raw_attr_ok method_attr_names); auto.
Qed.
Lemma wr_method_ok {C} (wc : cwr C) P F : wr_ok wc P F -> wr_ok (wr_method wc) (fun E => wf_method (P E)) (fmt_method F).
Proof.
  intros Hc E f w (H1 & H2 & H3 & H4) Hi.
  apply (wr_via_ok (fun m : method C => (me_access m, (me_name m, (me_desc m, me_attrs m)))) _ _ _ (wr_pair_ok _ _ _ _ _ _ (wr_cflags_ok MethodFlags) (wr_pair_ok _ _ _ _ _ _ wr_cow_ok
    (wr_pair_ok _ _ _ _ _ _ wr_type_ok (wr_cvec2_ok _ _ _ (wr_mattr_ok _ _ _ Hc))))) E f w); cbn; auto.
Qed.

Lemma wr_tag_ok tag : In tag [7; 8; 19; 20] -> wr_ok (wr_cvec 2 (wr_strcp tag)) (fun _ => wf_names) (fmt_table2 (fmt_indirect tag)).
Proof. intros H. apply wr_names_ok, wr_strcp_ok, H. Qed.
Lemma wr_require_ok : wr_ok wr_require (fun _ => wf_require) fmt_require.
Proof.
  intros E f w (H1 & H2 & H3) Hi.
  apply (wr_via_ok _ _ _ _ (wr_pair_ok _ _ _ _ _ _ (wr_strcp_ok 19 ltac:(cbn; auto)) (wr_pair_ok _ _ _ _ _ _
    (wr_cflags_ok RequireFlags) (wr_opt_ok _ _ _ wr_cow_ok))) E f w); cbn; auto.
Qed.
Lemma wr_exopen_ok : wr_ok wr_exopen (fun _ => wf_exopen) fmt_exopen.
Proof.
  intros E f w (H1 & H2 & H3) Hi.
  apply (wr_via_ok _ _ _ _ (wr_pair_ok _ _ _ _ _ _ (wr_strcp_ok 20 ltac:(cbn; auto)) (wr_pair_ok _ _ _ _ _ _
    (wr_cflags_ok ExOpFlags) (wr_tag_ok 19 ltac:(cbn; auto)))) E f w); cbn; auto.
Qed.
Lemma wr_provide_ok : wr_ok wr_provide (fun _ => wf_provide) fmt_provide.
Proof.
  intros E f w (H1 & H2) Hi.
  apply (wr_via_ok _ _ _ _ (wr_pair_ok _ _ _ _ _ _ wr_class_ok (wr_names_ok _ _ wr_class_ok)) E f w); cbn; auto.
Qed.
Lemma wr_module_ok : wr_ok wr_module (fun _ => wf_module) fmt_module.
Proof.
  intros E f w (H1 & H2 & H3 & H4 & H5 & H6 & H7 & H8) Hi.
  apply (wr_via_ok _ _ _ _ (wr_pair_ok _ _ _ _ _ _ (wr_strcp_ok 19 ltac:(cbn; auto)) (wr_pair_ok _ _ _ _ _ _
    (wr_cflags_ok ModuleFlags) (wr_pair_ok _ _ _ _ _ _ (wr_opt_ok _ _ _ wr_cow_ok)
    (wr_pair_ok _ _ _ _ _ _ (wr_cvec2_ok _ _ _ wr_require_ok) (wr_pair_ok _ _ _ _ _ _ (wr_cvec2_ok _ _ _ wr_exopen_ok)
    (wr_pair_ok _ _ _ _ _ _ (wr_cvec2_ok _ _ _ wr_exopen_ok) (wr_pair_ok _ _ _ _ _ _ (wr_names_ok _ _ wr_class_ok)
    (wr_cvec2_ok _ _ _ wr_provide_ok)))))))) E f w); auto.
  exact (conj H1 (conj H2 (conj H3 (conj H4 (conj H5 (conj H6 (conj H7 H8))))))).
Qed.
Lemma wr_inner_class_ok : wr_ok wr_inner_class (fun _ => wf_inner_class) fmt_inner_class.
Proof.
  intros E f w (H1 & H2 & H3 & H4) Hi.
  apply (wr_via_ok _ _ _ _ (wr_pair_ok _ _ _ _ _ _ wr_class_ok (wr_pair_ok _ _ _ _ _ _ (wr_opt_ok _ _ _ wr_class_ok)
    (wr_pair_ok _ _ _ _ _ _ (wr_opt_ok _ _ _ wr_cow_ok) (wr_cflags_ok InnerClassFlags)))) E f w); cbn; auto.
Qed.
Lemma wr_debug_ext_ok : wr_ok (wr_plain wr_debug_ext) (fun _ => wf_wtf8) fmt_mutf8.
Proof.
  apply wr_plain_ok. intros E s (cps & Hc & ->). unfold wr_debug_ext. rewrite string_to_mutf8_spec by apply Hc.
  eexists. split; [reflexivity|]. intros W. exists cps. repeat split; auto; apply Hc.
Qed.
(** with any bootstrap methods *)
Definition wf_cattr_b (E : wenv) (a : cattr) : Prop :=
  match a with
  | CBootstrap l => len l < 65536 /\ Forall (wf_bsm (we_heap E)) l
  | _ => wf_cattr a
  end.
Lemma wf_cattr_cattr_b E a : wf_cattr a -> wf_cattr_b E a.
Proof. destruct a; cbn; tauto. Qed.
Lemma wr_cattr_ok : wr_ok wr_cattr wf_cattr_b fmt_cattr.
Proof.
  intros E a w Ha Hi. destruct a; cbn [wr_cattr wf_cattr wf_cattr_b fmt_cattr] in *.
  - apply (wr_attr_ok _ _ _ _ wr_class_sig_ok); [ascii|auto..].
  - apply (wr_attr_ok _ _ _ _ wr_none_ok); [ascii|auto..].
  - apply (wr_attr_ok _ _ _ _ wr_none_ok); [ascii|auto..].
  - apply (wr_attr_ok _ _ _ _ wr_cow_ok); [ascii|auto..].
  - apply (wr_attr_ok _ _ _ _ (wr_cvec2_ok _ _ _ wr_inner_class_ok)); [ascii|auto..].
  - apply (wr_attr_ok _ _ _ _ (wr_pair_ok _ _ _ _ _ _ wr_class_ok (wr_opt_ok _ _ _ wr_nametype_ok))); [ascii|auto..].
  - apply (wr_attr_ok _ _ _ _ wr_debug_ext_ok); [ascii|auto..].
  - apply (wr_attr_ok _ _ _ _ (wr_cvec2_ok _ _ _ wr_bsm_ok)); [ascii|auto..].
  - apply (wr_attr_ok _ _ _ _ wr_module_ok); [ascii|auto..].
  - apply (wr_attr_ok _ _ _ _ (wr_tag_ok 20 ltac:(cbn; auto))); [ascii|auto..].
  - apply (wr_attr_ok _ _ _ _ wr_class_ok); [ascii|auto..].
  - apply (wr_attr_ok _ _ _ _ wr_class_ok); [ascii|auto..].
  - apply (wr_attr_ok _ _ _ _ (wr_names_ok _ _ wr_class_ok)); [ascii|auto..].
  - apply (wr_attr_ok _ _ _ _ wr_annots_ok); [ascii|auto..].
  - apply (wr_attr_ok _ _ _ _ wr_annots_ok); [ascii|auto..].
  - apply (wr_attr_ok _ _ _ _ (wr_tannots_ok _ _ _ wr_class_target_ok)); [ascii|auto..].
  - apply (wr_attr_ok _ _ _ _ (wr_tannots_ok _ _ _ wr_class_target_ok)); [ascii|auto..].
  - apply (wr_raw_attr_ok class_attr_names); auto.
Qed.

(** * Reading *)
Definition small (bs : list Z) : Prop := len bs < 4294967296.
(** [rd_ok] for representations of less than 4 GiB *)
Definition rd_okS {A} (r : pool -> rd A) (P : A -> Prop) (F : fmt A) : Prop :=
  forall W a bs rest, P a -> F W a bs -> small bs -> r (W_pool W) (bs ++ rest) = Ok (a, rest).
Lemma rd_ok_S {A} (r : pool -> rd A) P F : rd_ok r P F -> rd_okS r P F.
Proof. intros H W a bs rest HP HF _. auto. Qed.
Lemma small_app a b : small (a ++ b) -> small a /\ small b.
Proof. unfold small. rewrite len_app. pose proof (len_nonneg a). pose proof (len_nonneg b). lia. Qed.
Lemma small_concat bss b : In b bss -> small (concat bss) -> small b.
Proof. intros H. apply concat_length_in in H. unfold small, len. lia. Qed.

Lemma rd_pair_ok {A B} (r : pool -> rd A) (q : pool -> rd B) P Q F G : rd_okS r P F -> rd_okS q Q G ->
  rd_okS (fun p => rd_pair (r p) (q p)) (fun ab => P (fst ab) /\ Q (snd ab)) (fmt_pair F G).
Proof.
  intros Hr Hq W [a b] bs rest [HP HQ] (x & y & -> & HF & HG) Hs. cbn [fst snd] in *. apply small_app in Hs as [Hx Hy].
  unfold rd_pair. rewrite <- app_assoc, (Hr W a x) by auto. cbn [bind]. rewrite (Hq W b y) by auto. reflexivity.
Qed.
Lemma rd_map_ok {A B} (h : A -> B) (k : B -> A) (r : pool -> rd A) P F : rd_okS r P F -> (forall b, h (k b) = b) ->
  rd_okS (fun p => rd_map h (r p)) (fun b => P (k b)) (fmt_via k F).
Proof.
  intros Hr Hk W b bs rest HP HF Hs. unfold rd_map. rewrite (Hr W (k b) bs) by auto. cbn [bind]. rewrite Hk. reflexivity.
Qed.
Lemma rd_none_ok : rd_okS (fun _ => rd_none) (fun _ => True) fmt_none.
Proof. intros W [] bs rest _ -> _. reflexivity. Qed.
Lemma rd_vecS_ok {A} k (r : pool -> rd A) P F size limit :
  rd_okS r P F -> (forall x, be k x = size x) -> limit = 256 ^ Z.of_nat k ->
  rd_okS (fun p => rd_vec k (r p)) (fun xs => len xs < limit /\ Forall P xs) (fmt_table size limit F).
Proof.
  intros Hr Hs Hl W xs bs rest [Hl' HP] (bss & Hx & -> & HB) Hsm. apply small_app in Hsm as [_ Hsm].
  assert (Hr' : rd_ok r P (fun W a b => F W a b /\ small b)) by (intros W' a b rest' HPa [HF Hb]; apply Hr; auto).
  apply (rd_vec_ok k r P _ size limit Hr' Hs Hl W); auto.
  - exists bss. repeat split; auto. clear Hx Hl' HP. revert Hsm. induction HB as [|a b xs bss HF _ IH]; intros Hsm; constructor.
    + split; auto. apply (small_concat (b :: bss)); cbn; auto.
    + apply IH. cbn [concat] in Hsm. apply small_app in Hsm. tauto.
Qed.
Lemma rd_vec1S_ok {A} (r : pool -> rd A) P F : rd_okS r P F ->
  rd_okS (fun p => rd_vec 1 (r p)) (fun xs => len xs < 256 /\ Forall P xs) (fmt_table1 F).
Proof. intros H. apply (rd_vecS_ok 1 r P F u1 256 H be1_u1). reflexivity. Qed.
Lemma rd_vec2S_ok {A} (r : pool -> rd A) P F : rd_okS r P F ->
  rd_okS (fun p => rd_vec 2 (r p)) (fun xs => len xs < 65536 /\ Forall P xs) (fmt_table2 F).
Proof. intros H. apply (rd_vecS_ok 2 r P F u2 65536 H be2_u2). reflexivity. Qed.
Lemma rd_flags_ok t : rd_okS (fun _ => rd_flags t) (flags_of t) fmt_u2.
Proof.
  intros W x bs rest [Hx Hm] [_ ->] _. unfold rd_flags. rewrite rd_u16_u2 by auto. cbn [bind].
  unfold from_bits_truncate. rewrite Hm. reflexivity.
Qed.
Lemma rd_class_ok : rd_okS rd_class jstr fmt_class.
Proof.
  apply rd_ok_S. apply (rd_mono _ _ _ _ _ (rd_strcp_ok 7)); auto. intros W s bs _ (i & Hi & -> & H).
  exists i. repeat split; auto; try lia. left. auto.
Qed.
Lemma rd_opt_class_ok : rd_okS (rd_opt_strcp 7) (opt_ok jstr) (fmt_opt fmt_class).
Proof.
  apply rd_ok_S. apply (rd_mono _ _ _ _ _ (rd_opt_strcp_ok 7)); auto. intros W [s|] bs _; cbn; auto. intros (i & Hi & -> & H).
  exists i. repeat split; auto; try lia. left. auto.
Qed.
Lemma rd_annots_ok md : rd_okS (rd_annots md) wf_annots fmt_annots.
Proof. apply rd_vec2S_ok, rd_ok_S, rd_annot_ok. Qed.
Lemma rd_pannots_ok md : rd_okS (rd_pannots md) wf_pannots fmt_pannots.
Proof. apply (rd_vec1S_ok _ _ _ (rd_annots_ok md)). Qed.
Lemma rd_tannots_ok {T} (r : rd T) (P : T -> Prop) g md : rd_ok (fun _ => r) P (fmt_bytes g) ->
  rd_okS (fun p => rd_vec 2 (rd_tannot r md p)) (wf_tannots P) (fmt_tannots g).
Proof. intros H. apply rd_vec2S_ok, rd_ok_S, (rd_tannot_ok md _ _ _ H). Qed.
Lemma rd_field_sig_ok md : rd_okS (rd_sig (p_rsig md)) wf_field_signature (fmt_sig rsig_text).
Proof.
  apply rd_ok_S. apply (rd_mono _ _ _ _ _ (rd_sig_ok (p_rsig md) rsig_text)); auto. intros r [H Hj].
  repeat split; auto; [|apply sc_r; auto]. exists []. rewrite <- (app_nil_r (rsig_text r)) at 1. apply p_rsig_ok; auto.
Qed.
Lemma rd_method_sig_ok md : rd_okS (rd_sig (p_method md)) wf_method_signature (fmt_sig method_sig_text).
Proof.
  apply rd_ok_S. apply (rd_mono _ _ _ _ _ (rd_sig_ok (p_method md) method_sig_text)); auto. intros m ((ps & Ep & H) & Hv & Hj).
  split; [|split; auto].
  - exists []. rewrite (method_sig_split m ps Ep), p_method_ok by auto. unfold split_method. cbn [ms_params ms_args ms_ret ms_throws].
    rewrite <- Ep. destruct m; reflexivity.
  - rewrite (method_sig_split m ps Ep). apply sc_method; auto.
Qed.
Lemma rd_class_sig_ok md : rd_okS (rd_sig (p_classsig md)) wf_class_signature (fmt_sig class_sig_text).
Proof.
  apply rd_ok_S. apply (rd_mono _ _ _ _ _ (rd_sig_ok (p_classsig md) class_sig_text)); auto. intros m ((ps & Ep & H) & Hj).
  split; [|split; auto].
  - exists []. rewrite (class_sig_split m ps Ep), p_classsig_ok by auto. unfold split_class. cbn [cs_params cs_super cs_itfs].
    rewrite <- Ep. destruct m; reflexivity.
  - rewrite (class_sig_split m ps Ep). apply sc_class; auto.
Qed.

(** ** Attributes *)
Lemma take_app a b : take (len a) (a ++ b) = Ok (a, b).
Proof.
  induction a as [|x a IH]; [destruct b; reflexivity|]. cbn [app take].
  pose proof (len_nonneg a). replace (len (x :: a)) with (len a + 1) by (unfold len; cbn [length]; lia).
  assert (len a + 1 <=? 0 = false) as -> by lia. replace (len a + 1 - 1) with (len a) by lia. rewrite IH. reflexivity.
Qed.
Lemma fmt_attr_read {A B} name (F : fmt A) W a bs : fmt_attr name F W a bs -> small bs ->
  exists body, F W a body /\ small body /\
  forall (known : list (list Z * rd B)) raw rest,
    (forall r b, assoc (list_eqb Z.eqb) name known = Some r -> r body = Ok (b, []) ->
       rd_attr (W_pool W) known raw (bs ++ rest) = Ok (b, rest)) /\
    (assoc (list_eqb Z.eqb) name known = None ->
       rd_attr (W_pool W) known raw (bs ++ rest) = Ok (raw {| ra_name := name; ra_body := body |}, rest)).
Proof.
  intros (i & body & Hi & Hn & -> & HF) Hs. apply small_app in Hs as [_ Hs]. apply small_app in Hs as [_ Hs].
  exists body. split; auto. split; auto. intros known raw rest.
  unfold rd_attr. rewrite <- !app_assoc, rd_u16_u2 by (unfold u16; lia). cbn [bind].
  rewrite (read_wtf8_ok _ _ _ Hn). rewrite rd_u32_u4 by (unfold u32, small in *; pose proof (len_nonneg body); lia).
  cbn [bind]. rewrite take_app. cbn [bind]. split.
  - intros r b -> ->. reflexivity.
  - intros ->. reflexivity.
Qed.
Lemma known_none {V} name (known : list (list Z * V)) : ~ In name (map fst known) ->
  assoc (list_eqb Z.eqb) name known = None.
Proof.
  induction known as [|[k v] known IH]; cbn [map fst assoc]; intros H; auto.
  assert (list_eqb Z.eqb name k = false) as ->.
  { destruct (list_eqb Z.eqb name k) eqn:E; auto. apply (list_eqb_eq Z.eqb Z.eqb_eq) in E. subst. exfalso. apply H. left. auto. }
  apply IH. intros HH. apply H. right. auto.
Qed.
Lemma attr_pure {A B} name (F : fmt A) (r : pool -> rd A) P (h : A -> B) W a bs known raw rest :
  rd_okS r P F -> P a -> fmt_attr name F W a bs -> small bs ->
  assoc (list_eqb Z.eqb) name known = Some (rd_map h (r (W_pool W))) ->
  rd_attr (W_pool W) known raw (bs ++ rest) = Ok (h a, rest).
Proof.
  intros Hr HP HF Hs Hk. destruct (fmt_attr_read (B := B) _ _ _ _ _ HF Hs) as (body & HB & Hsb & HR).
  destruct (HR known raw rest) as [H _]. apply (H _ _ Hk). unfold rd_map.
  rewrite <- (app_nil_r body), (Hr W a body [] HP HB Hsb). reflexivity.
Qed.
Lemma attr_raw {B} W r bs (known : list (list Z * rd B)) raw rest :
  fmt_raw W r bs -> small bs -> ~ In (ra_name r) (map fst known) ->
  rd_attr (W_pool W) known raw (bs ++ rest) = Ok (raw r, rest).
Proof.
  intros HF Hs Hn. destruct (fmt_attr_read (B := B) _ _ _ _ _ HF Hs) as (body & -> & Hsb & HR).
  destruct (HR known raw rest) as [_ H]. rewrite H by (apply known_none; auto). destruct r; reflexivity.
Qed.

Ltac known h lem := match goal with HF : fmt_attr _ _ _ _ _, Hs : small _ |- _ =>
  eapply (attr_pure _ _ _ _ h); [eapply lem| |exact HF|exact Hs|reflexivity]; first [exact I|assumption] end.
Lemma rd_fattr_ok md : rd_okS (rd_fattr md) wf_fattr fmt_fattr.
Proof.
  intros W a bs rest Ha HF Hs. unfold rd_fattr. destruct a; cbn [wf_fattr fmt_fattr] in *.
  - known (fun _ : unit => FDeprecated) rd_none_ok.
  - known (fun _ : unit => FSynthetic) rd_none_ok.
  - known FSignature (rd_field_sig_ok md).
  - known FConstantValue (rd_ok_S _ _ _ (rd_constant_ok md)).
  - known FVisible (rd_annots_ok md).
  - known FInvisible (rd_annots_ok md).
  - known FVisibleT (rd_tannots_ok _ _ _ md rd_field_target_ok).
  - known FInvisibleT (rd_tannots_ok _ _ _ md rd_field_target_ok).
  - apply attr_raw; auto. apply Ha.
Qed.
Lemma rd_field_ok md : rd_okS (rd_field md) wf_field fmt_field.
Proof.
  intros W f bs rest (H1 & H2 & H3 & H4) HF Hs.
  refine (rd_map_ok _ (fun f => (f_access f, (f_name f, (f_desc f, f_attrs f)))) _ _ _
    (rd_pair_ok _ _ _ _ _ _ (rd_flags_ok FieldFlags) (rd_pair_ok _ _ _ _ _ _ (rd_ok_S _ _ _ rd_cow_ok)
      (rd_pair_ok _ _ _ _ _ _ (rd_ok_S _ _ _ (rd_type_ok md)) (rd_vec2S_ok _ _ _ (rd_fattr_ok md))))) _ W f bs rest _ HF Hs).
  - intros []; reflexivity.
  - cbn. auto.
Qed.
Lemma rd_mparam_ok : rd_okS rd_mparam wf_mparam fmt_mparam.
Proof.
  intros W f bs rest (H1 & H2) HF Hs.
  refine (rd_map_ok _ (fun m => (mp_name m, mp_access m)) _ _ _
    (rd_pair_ok _ _ _ _ _ _ (rd_ok_S _ _ _ rd_opt_cow_ok) (rd_flags_ok MethodParameterFlags)) _ W f bs rest _ HF Hs).
  - intros []; reflexivity.
  - cbn. auto.
Qed.
Lemma rd_names_ok (r : pool -> rd (list Z)) F : rd_okS r jstr F ->
  rd_okS (fun p => rd_vec 2 (r p)) wf_names (fmt_table2 F).
Proof. intros H. apply (rd_vec2S_ok _ _ _ H). Qed.
Lemma rd_require_ok : rd_okS rd_require wf_require fmt_require.
Proof.
  intros W f bs rest (H1 & H2 & H3) HF Hs.
  refine (rd_map_ok _ (fun r => (rq_module r, (rq_flags r, rq_version r))) _ _ _
    (rd_pair_ok _ _ _ _ _ _ (rd_ok_S _ _ _ (rd_strcp_ok 19)) (rd_pair_ok _ _ _ _ _ _ (rd_flags_ok RequireFlags)
      (rd_ok_S _ _ _ rd_opt_cow_ok))) _ W f bs rest _ HF Hs).
  - intros []; reflexivity.
  - cbn. auto.
Qed.
Lemma rd_exopen_ok : rd_okS rd_exopen wf_exopen fmt_exopen.
Proof.
  intros W f bs rest (H1 & H2 & H3) HF Hs.
  refine (rd_map_ok _ (fun r => (eo_package r, (eo_flags r, eo_to r))) _ _ _
    (rd_pair_ok _ _ _ _ _ _ (rd_ok_S _ _ _ (rd_strcp_ok 20)) (rd_pair_ok _ _ _ _ _ _ (rd_flags_ok ExOpFlags)
      (rd_names_ok _ _ (rd_ok_S _ _ _ (rd_strcp_ok 19))))) _ W f bs rest _ HF Hs).
  - intros []; reflexivity.
  - cbn. auto.
Qed.
Lemma rd_provide_ok : rd_okS rd_provide wf_provide fmt_provide.
Proof.
  intros W f bs rest (H1 & H2) HF Hs.
  refine (rd_map_ok _ (fun r => (pv_class r, pv_with r)) _ _ _
    (rd_pair_ok _ _ _ _ _ _ rd_class_ok (rd_names_ok _ _ rd_class_ok)) _ W f bs rest _ HF Hs).
  - intros []; reflexivity.
  - cbn. auto.
Qed.
Lemma rd_module_ok : rd_okS rd_module wf_module fmt_module.
Proof.
  intros W f bs rest (H1 & H2 & H3 & H4 & H5 & H6 & H7 & H8) HF Hs.
  refine (rd_map_ok _ (fun m => (mo_name m, (mo_flags m, (mo_version m, (mo_requires m,
                   (mo_exports m, (mo_opens m, (mo_uses m, mo_provides m)))))))) _ _ _
    (rd_pair_ok _ _ _ _ _ _ (rd_ok_S _ _ _ (rd_strcp_ok 19)) (rd_pair_ok _ _ _ _ _ _
    (rd_flags_ok ModuleFlags) (rd_pair_ok _ _ _ _ _ _ (rd_ok_S _ _ _ rd_opt_cow_ok)
    (rd_pair_ok _ _ _ _ _ _ (rd_vec2S_ok _ _ _ rd_require_ok) (rd_pair_ok _ _ _ _ _ _ (rd_vec2S_ok _ _ _ rd_exopen_ok)
    (rd_pair_ok _ _ _ _ _ _ (rd_vec2S_ok _ _ _ rd_exopen_ok) (rd_pair_ok _ _ _ _ _ _ (rd_names_ok _ _ rd_class_ok)
    (rd_vec2S_ok _ _ _ rd_provide_ok)))))))) _ W f bs rest _ HF Hs).
  - intros []; reflexivity.
  - exact (conj H1 (conj H2 (conj H3 (conj H4 (conj H5 (conj H6 (conj H7 H8))))))).
Qed.
Lemma rd_inner_class_ok : rd_okS rd_inner_class wf_inner_class fmt_inner_class.
Proof.
  intros W f bs rest (H1 & H2 & H3 & H4) HF Hs.
  refine (rd_map_ok _ (fun c => (ic_inner c, (ic_outer c, (ic_name c, ic_access c)))) _ _ _
    (rd_pair_ok _ _ _ _ _ _ rd_class_ok (rd_pair_ok _ _ _ _ _ _ rd_opt_class_ok
      (rd_pair_ok _ _ _ _ _ _ (rd_ok_S _ _ _ rd_opt_cow_ok) (rd_flags_ok InnerClassFlags)))) _ W f bs rest _ HF Hs).
  - intros []; reflexivity.
  - cbn. auto.
Qed.

(** ** Readers with state *)
Section Stateful.
Context {S : Type} (inv : world -> S -> Prop) (ext : S -> S -> Prop).
Hypothesis ext_refl : forall s, ext s s.
Hypothesis ext_trans : forall a b c, ext a b -> ext b c -> ext a c.
(** Reading a representation of [a] gives something [sim]ilar to [a]. *)
Definition srd_ok {A B} (r : pool -> srd S B) (P : A -> Prop) (F : fmt A) (sim : world -> S -> A -> B -> Prop) : Prop :=
  forall W s a bs rest, inv W s -> P a -> F W a bs -> small bs ->
  exists b s', r (W_pool W) s (bs ++ rest) = Ok ((b, s'), rest) /\ ext s s' /\ inv W s' /\ sim W s' a b.
Definition stable {A B} (sim : world -> S -> A -> B -> Prop) : Prop :=
  forall W s s' a b, ext s s' -> sim W s a b -> sim W s' a b.
Definition same {A} : world -> S -> A -> A -> Prop := fun _ _ => eq.
Lemma stable_same {A} : stable (@same A).
Proof. intros W s s' a b _ H. exact H. Qed.
Lemma srd_lift_ok {A} (r : pool -> rd A) P F : rd_okS r P F -> srd_ok (fun p => lift (r p)) P F same.
Proof.
  intros Hr W s a bs rest Hi HP HF Hs. exists a, s. unfold lift. rewrite (Hr W a bs rest) by auto. cbn [bind].
  repeat split; auto.
Qed.
Definition sim_pair {A B C D} (f : world -> S -> A -> B -> Prop) (g : world -> S -> C -> D -> Prop) :=
  fun W s (x : A * C) (y : B * D) => f W s (fst x) (fst y) /\ g W s (snd x) (snd y).
Lemma stable_pair {A B C D} (f : world -> S -> A -> B -> Prop) (g : world -> S -> C -> D -> Prop) :
  stable f -> stable g -> stable (sim_pair f g).
Proof. intros Hf Hg W s s' a b He [H1 H2]. split; [eapply Hf|eapply Hg]; eauto. Qed.
Lemma srd_pair_ok {A B C D} (r : pool -> srd S B) (q : pool -> srd S D) (P : A -> Prop) (Q : C -> Prop) F G f g :
  stable f -> srd_ok r P F f -> srd_ok q Q G g ->
  srd_ok (fun p => srd_pair (r p) (q p)) (fun ab => P (fst ab) /\ Q (snd ab)) (fmt_pair F G) (sim_pair f g).
Proof.
  intros Hf Hr Hq W s [a b] bs rest Hi [HP HQ] (x & y & -> & HF & HG) Hs. cbn [fst snd] in *. apply small_app in Hs as [Hx Hy].
  unfold srd_pair. rewrite <- app_assoc.
  destruct (Hr W s a x (y ++ rest) Hi HP HF Hx) as (a' & s1 & -> & He1 & Hi1 & Hs1). cbn [bind].
  destruct (Hq W s1 b y rest Hi1 HQ HG Hy) as (b' & s2 & -> & He2 & Hi2 & Hs2). cbn [bind].
  exists (a', b'), s2. repeat split; eauto.
Qed.
Lemma srd_map_ok {A B C D} (h : B -> D) (k : C -> A) (r : pool -> srd S B) (P : A -> Prop) F f (g : world -> S -> C -> D -> Prop) :
  srd_ok r P F f -> (forall W s c b, f W s (k c) b -> g W s c (h b)) ->
  srd_ok (fun p => srd_map h (r p)) (fun c => P (k c)) (fmt_via k F) g.
Proof.
  intros Hr Hg W s c bs rest Hi HP HF Hs. unfold srd_map.
  destruct (Hr W s (k c) bs rest Hi HP HF Hs) as (b & s' & -> & He & Hi' & Hf). cbn [bind]. exists (h b), s'. repeat split; auto.
Qed.
Lemma srd_times_ok {A B} (r : pool -> srd S B) (P : A -> Prop) F f : stable f -> srd_ok r P F f ->
  forall W xs bss, Forall2 (F W) xs bss -> forall s rest, inv W s -> Forall P xs -> small (concat bss) ->
  exists ys s', srd_times (length xs) (r (W_pool W)) s (concat bss ++ rest) = Ok ((ys, s'), rest) /\
    ext s s' /\ inv W s' /\ Forall2 (f W s') xs ys.
Proof.
  intros Hf Hr W xs bss H. induction H as [|a b xs bss HF _ IH]; intros s rest Hi HP Hs; cbn [length srd_times concat].
  - exists [], s. repeat split; auto.
  - inversion HP; subst. cbn [concat] in Hs. apply small_app in Hs as [Hb Hs]. rewrite <- app_assoc.
    destruct (Hr W s a b (concat bss ++ rest)) as (a' & s1 & -> & He1 & Hi1 & Hs1); auto. cbn [bind].
    destruct (IH s1 rest) as (ys & s2 & -> & He2 & Hi2 & Hs2); auto. cbn [bind].
    exists (a' :: ys), s2. repeat split; eauto.
Qed.
Lemma srd_vec_ok {A B} k (r : pool -> srd S B) (P : A -> Prop) F f size limit : stable f ->
  srd_ok r P F f -> (forall x, be k x = size x) -> limit = 256 ^ Z.of_nat k ->
  srd_ok (fun p => srd_vec k (r p)) (fun xs => len xs < limit /\ Forall P xs) (fmt_table size limit F)
    (fun W s => Forall2 (f W s)).
Proof.
  intros Hf Hr Hsz -> W s xs bs rest Hi [Hl HP] (bss & _ & -> & HB) Hs. unfold srd_vec.
  apply small_app in Hs as [_ Hs]. rewrite <- app_assoc, <- Hsz, rd_u_be by (pose proof (len_nonneg xs); lia). cbn [bind].
  unfold len. rewrite Nat2Z.id. apply (srd_times_ok r P F f); auto.
Qed.
Lemma srd_vec2_ok {A B} (r : pool -> srd S B) (P : A -> Prop) F f : stable f -> srd_ok r P F f ->
  srd_ok (fun p => srd_vec 2 (r p)) (fun xs => len xs < 65536 /\ Forall P xs) (fmt_table2 F) (fun W s => Forall2 (f W s)).
Proof. intros Hf H. apply (srd_vec_ok 2 r P F f u2 65536 Hf H be2_u2). reflexivity. Qed.
Lemma stable_list {A B} (f : world -> S -> A -> B -> Prop) : stable f -> stable (fun W s => Forall2 (f W s)).
Proof. intros Hf W s s' a b He H. eapply Forall2_impl; [|exact H]. intros. eapply Hf; eauto. Qed.
End Stateful.

(** Methods: equal up to the similarity of their code. *)
Definition mattr_sim {S C D} (f : world -> S -> C -> D -> Prop) (W : world) (s : S) (a : mattr C) (b : mattr D) : Prop :=
  match a, b with
  | MCode c, MCode d => f W s c d
  | MDeprecated, MDeprecated | MSynthetic, MSynthetic => True
  | MSignature x, MSignature y => x = y
  | MVisible x, MVisible y | MInvisible x, MInvisible y => x = y
  | MVisibleT x, MVisibleT y | MInvisibleT x, MInvisibleT y => x = y
  | MVisibleP x, MVisibleP y | MInvisibleP x, MInvisibleP y => x = y
  | MExceptions x, MExceptions y => x = y
  | MDefault x, MDefault y => x = y
  | MParameters x, MParameters y => x = y
  | MRaw x, MRaw y => x = y
  | _, _ => False
  end.
Definition method_sim {S C D} (f : world -> S -> C -> D -> Prop) (W : world) (s : S) (a : method C) (b : method D) : Prop :=
  me_access a = me_access b /\ me_name a = me_name b /\ me_desc a = me_desc b /\
  Forall2 (mattr_sim f W s) (me_attrs a) (me_attrs b).
Lemma mattr_sim_stable {S C D} ext (f : world -> S -> C -> D -> Prop) : stable ext f -> stable ext (mattr_sim f).
Proof. intros Hf W s s' a b He H. destruct a, b; cbn in *; auto. eapply Hf; eauto. Qed.
Ltac sknown h lem := match goal with HF : fmt_attr _ _ _ _ _, Hs : small _ |- context [rd_attr _ _ _ _] =>
  do 2 eexists; split; [eapply (attr_pure _ _ _ _ h); [eapply lem| |exact HF|exact Hs|reflexivity]; first [exact I|assumption]|];
  cbn; auto end.
Section Methods.
Context (inv : world -> rst -> Prop) (ext : rst -> rst -> Prop).
Hypothesis ext_refl : forall s, ext s s.
Hypothesis ext_trans : forall a b c, ext a b -> ext b c -> ext a c.
Context {C D : Type} (rc : pool -> srd rst D) (P : C -> Prop) (F : fmt C) (f : world -> rst -> C -> D -> Prop).
Hypothesis Hf : stable ext f.
Hypothesis Hrc : srd_ok inv ext rc P F f.
Lemma rd_mattr_ok md : srd_ok inv ext (rd_mattr rc md) (wf_mattr P) (fmt_mattr F) (mattr_sim f).
Proof.
  intros W s a bs rest Hi Ha HF Hs. unfold rd_mattr. destruct a; cbn [wf_mattr fmt_mattr] in *.
  - destruct (fmt_attr_read (B := mattr D * rst) _ _ _ _ _ HF Hs) as (body & HB & Hsb & HR).
    destruct (Hrc W s c body [] Hi Ha HB Hsb) as (d & s' & Hd & He & Hi' & Hfd).
    destruct (HR (mattr_known rc md (W_pool W) s) (fun r => (MRaw r, s)) rest) as [H _].
    exists (MCode d), s'. split; [|cbn; auto]. eapply H; [reflexivity|]. unfold rd_map. rewrite app_nil_r in Hd. rewrite Hd. reflexivity.
  - sknown (fun _ : unit => (@MDeprecated D, s)) rd_none_ok.
  - sknown (fun _ : unit => (@MSynthetic D, s)) rd_none_ok.
  - sknown (fun x => (@MSignature D x, s)) (rd_method_sig_ok md).
  - sknown (fun x => (@MVisible D x, s)) (rd_annots_ok md).
  - sknown (fun x => (@MInvisible D x, s)) (rd_annots_ok md).
  - sknown (fun x => (@MVisibleT D x, s)) (rd_tannots_ok _ _ _ md rd_method_target_ok).
  - sknown (fun x => (@MInvisibleT D x, s)) (rd_tannots_ok _ _ _ md rd_method_target_ok).
  - sknown (fun x => (@MVisibleP D x, s)) (rd_pannots_ok md).
  - sknown (fun x => (@MInvisibleP D x, s)) (rd_pannots_ok md).
  - sknown (fun x => (@MExceptions D x, s)) (rd_vec2S_ok _ _ _ rd_class_ok).
  - sknown (fun x => (@MDefault D x, s)) (rd_ok_S _ _ _ (rd_aval_ok md)).
  - sknown (fun x => (@MParameters D x, s)) (rd_vec1S_ok _ _ _ rd_mparam_ok).
  - exists (MRaw r), s. split; [apply (attr_raw _ _ _ _ (fun r => (MRaw r, s))); auto; apply Ha|]. cbn. auto.
Qed.
Lemma rd_method_ok md : srd_ok inv ext (rd_method rc md) (wf_method P) (fmt_method F) (method_sim f).
Proof.
  intros W s m bs rest Hi (H1 & H2 & H3 & H4) HF Hs.
  refine (srd_map_ok inv ext _ (fun m : method C => (me_access m, (me_name m, (me_desc m, me_attrs m)))) _ _ _ _ _
    (srd_pair_ok inv ext ext_trans _ _ _ _ _ _ _ _ (stable_same ext) (srd_lift_ok inv ext ext_refl _ _ _ (rd_flags_ok MethodFlags))
    (srd_pair_ok inv ext ext_trans _ _ _ _ _ _ _ _ (stable_same ext) (srd_lift_ok inv ext ext_refl _ _ _ (rd_ok_S _ _ _ rd_cow_ok))
    (srd_pair_ok inv ext ext_trans _ _ _ _ _ _ _ _ (stable_same ext) (srd_lift_ok inv ext ext_refl _ _ _ (rd_ok_S _ _ _ (rd_type_ok md)))
      (srd_vec2_ok inv ext ext_refl ext_trans _ _ _ _ (mattr_sim_stable ext f Hf) (rd_mattr_ok md))))) _ W s m bs rest Hi _ HF Hs).
  - intros W' s' m' (x1 & x2 & x3 & x4) (E1 & E2 & E3 & E4). cbn in *. unfold same in *. repeat split; auto.
  - cbn. auto.
Qed.
End Methods.

(** Class attributes: bootstrap methods are equal up to the dynamic arguments. *)
Lemma rd_debug_body W s body : wf_wtf8 s -> fmt_mutf8 W s body -> rd_debug_ext body = Ok (s, []).
Proof.
  intros _ (cps & [Hc ->] & ->). unfold rd_debug_ext. rewrite mutf_decode_spec by auto. reflexivity.
Qed.
Definition cattr_sim {S} (f : world -> S -> bsm -> bsm -> Prop) (W : world) (s : S) (a b : cattr) : Prop :=
  match a, b with
  | CBootstrap x, CBootstrap y => Forall2 (f W s) x y
  | CBootstrap _, _ | _, CBootstrap _ => False
  | a, b => a = b
  end.
Lemma cattr_sim_stable {S} ext (f : world -> S -> bsm -> bsm -> Prop) : stable ext f -> stable ext (cattr_sim f).
Proof.
  intros Hf W s s' a b He H. destruct a, b; cbn in *; auto. eapply Forall2_impl; [|exact H]. intros. eapply Hf; eauto.
Qed.
Definition wf_cattr_with (Pb : bsm -> Prop) (a : cattr) : Prop :=
  match a with
  | CBootstrap l => len l < 65536 /\ Forall Pb l
  | _ => wf_cattr a
  end.
Section ClassAttrs.
Context (inv : world -> rst -> Prop) (ext : rst -> rst -> Prop).
Hypothesis ext_refl : forall s, ext s s.
Hypothesis ext_trans : forall a b c, ext a b -> ext b c -> ext a c.
Context (md : mode) (P : bsm -> Prop) (f : world -> rst -> bsm -> bsm -> Prop).
Hypothesis Hf : stable ext f.
Hypothesis Hrb : srd_ok inv ext (rd_bsm md) P fmt_bsm f.
Lemma rd_cattr_ok : srd_ok inv ext (rd_cattr md) (wf_cattr_with P) fmt_cattr (cattr_sim f).
Proof.
  intros W s a bs rest Hi Ha HF Hs. unfold rd_cattr. destruct a; cbn [wf_cattr wf_cattr_with fmt_cattr] in *.
  - sknown (fun x => (CSignature x, s)) (rd_class_sig_ok md).
  - sknown (fun _ : unit => (CSynthetic, s)) rd_none_ok.
  - sknown (fun _ : unit => (CDeprecated, s)) rd_none_ok.
  - sknown (fun x => (CSourceFile x, s)) (rd_ok_S _ _ _ rd_cow_ok).
  - sknown (fun x => (CInnerClasses x, s)) (rd_vec2S_ok _ _ _ rd_inner_class_ok).
  - sknown (fun x => ((fun '(c, m) => CEnclosingMethod c m) x, s)) (rd_pair_ok _ _ _ _ _ _ rd_class_ok (rd_ok_S _ _ _ (rd_opt_nametype_ok md))).
  - destruct (fmt_attr_read (B := cattr * rst) _ _ _ _ _ HF Hs) as (body & HB & Hsb & HR).
    destruct (HR (cattr_known md (W_pool W) s) (fun r => (CRaw r, s)) rest) as [H _].
    exists (CDebugExtension s0), s. split; [|cbn; auto]. eapply H; [reflexivity|]. unfold rd_map.
    rewrite (rd_debug_body W s0 body Ha HB). reflexivity.
  - destruct (fmt_attr_read (B := cattr * rst) _ _ _ _ _ HF Hs) as (body & HB & Hsb & HR).
    destruct (srd_vec2_ok inv ext ext_refl ext_trans _ _ _ _ Hf Hrb W s l body [] Hi Ha HB Hsb) as (d & s' & Hd & He & Hi' & Hfd).
    destruct (HR (cattr_known md (W_pool W) s) (fun r => (CRaw r, s)) rest) as [H _].
    exists (CBootstrap d), s'. split; [|cbn; auto]. eapply H; [reflexivity|]. unfold rd_map. rewrite app_nil_r in Hd. rewrite Hd. reflexivity.
  - sknown (fun x => (CModule x, s)) rd_module_ok.
  - sknown (fun x => (CModulePackages x, s)) (rd_names_ok _ _ (rd_ok_S _ _ _ (rd_strcp_ok 20))).
  - sknown (fun x => (CModuleMainClass x, s)) rd_class_ok.
  - sknown (fun x => (CNestHost x, s)) rd_class_ok.
  - sknown (fun x => (CNestMembers x, s)) (rd_names_ok _ _ rd_class_ok).
  - sknown (fun x => (CVisible x, s)) (rd_annots_ok md).
  - sknown (fun x => (CInvisible x, s)) (rd_annots_ok md).
  - sknown (fun x => (CVisibleT x, s)) (rd_tannots_ok _ _ _ md rd_class_target_ok).
  - sknown (fun x => (CInvisibleT x, s)) (rd_tannots_ok _ _ _ md rd_class_target_ok).
  - exists (CRaw r), s. split; [apply (attr_raw _ _ _ _ (fun r => (CRaw r, s))); auto; apply Ha|]. cbn. auto.
Qed.
End ClassAttrs.

(** A body that goes on after the attribute's own data. *)
Definition attr_bytes (i : Z) (body : list Z) : list Z := u2 i ++ u4 (len body) ++ body.
Lemma attr_trailing {A B} name (F : fmt A) (r : pool -> rd A) P (h : A -> B) W a i body x known raw rest :
  rd_okS r P F -> P a -> 0 < i < 65536 -> is_utf8_at (W_pool W) i name -> F W a body ->
  x <> [] -> len (body ++ x) < 4294967296 ->
  assoc (list_eqb Z.eqb) name known = Some (rd_map h (r (W_pool W))) ->
  rd_attr (W_pool W) known raw (attr_bytes i (body ++ x) ++ rest) = Err (EAttrLen (len (body ++ x)) (len body)).
Proof.
  intros Hr HP Hi Hn HF Hx Hl Hk. unfold attr_bytes, rd_attr.
  rewrite <- !app_assoc, rd_u16_u2 by (unfold u16; lia). cbn [bind].
  rewrite (read_wtf8_ok _ _ _ Hn). rewrite rd_u32_u4 by (unfold u32; pose proof (len_nonneg (body ++ x)); lia).
  cbn [bind]. rewrite (app_assoc body), take_app. cbn [bind]. rewrite Hk. unfold rd_map.
  assert (small body). { unfold small. rewrite len_app in Hl. pose proof (len_nonneg x). lia. }
  rewrite (Hr W a body x) by auto. cbn [bind]. destruct x; [congruence|]. rewrite len_app. do 2 f_equal. lia.
Qed.
Lemma rd_u_inv k l x rest : bytes l -> rd_u k l = Ok (x, rest) ->
  l = be k x ++ rest /\ 0 <= x < 256 ^ Z.of_nat k /\ bytes rest.
Proof.
  intros Hb H. apply rd_u_ok in H as [-> Hx]; auto. apply Forall_app in Hb as [_ Hb]. auto.
Qed.
Lemma rd_attr_framing {B} p (known : list (list Z * rd B)) raw l b rest : bytes l ->
  rd_attr p known raw l = Ok (b, rest) ->
  exists i body name, l = attr_bytes i body ++ rest /\ u16 i /\ len body < 4294967296 /\ read_wtf8 p i = Some name /\
    (assoc (list_eqb Z.eqb) name known = None -> b = raw {| ra_name := name; ra_body := body |}) /\
    forall rest', rd_attr p known raw (attr_bytes i body ++ rest') = Ok (b, rest').
Proof.
  intros Hb H. unfold rd_attr in H. inv_bind H. destruct v as [i l1].
  apply rd_u_inv in E as (-> & Hi & Hb1); auto. change (256 ^ Z.of_nat 2) with 65536 in Hi. rewrite be2_u2.
  destruct (read_wtf8 p i) as [name|] eqn:En; [|discriminate].
  inv_bind H. destruct v as [n l2]. apply rd_u_inv in E as (-> & Hn & Hb2); auto.
  change (256 ^ Z.of_nat 4) with 4294967296 in Hn. rewrite be4_u4.
  inv_bind H. destruct v as [body l3]. apply take_ok in E as [-> Hl]. rewrite Z.max_r in Hl by lia. subst n.
  exists i, body, name. unfold attr_bytes.
  assert (l3 = rest /\ match assoc (list_eqb Z.eqb) name known with
          | Some r => r body = Ok (b, []) | None => b = raw {| ra_name := name; ra_body := body |} end) as [-> HR].
  { destruct (assoc (list_eqb Z.eqb) name known) as [r|].
    - inv_bind H. destruct v as [b' [|]]; inversion H; subst; auto.
    - inversion H; subst. auto. }
  rewrite <- !app_assoc. repeat split; auto; try lia.
  - intros Hn'. rewrite Hn' in HR. auto.
  - intros rest'. unfold rd_attr. rewrite <- !app_assoc, rd_u16_u2 by (unfold u16; lia). cbn [bind]. rewrite En.
    rewrite rd_u32_u4 by (unfold u32; lia). cbn [bind]. rewrite take_app. cbn [bind].
    destruct (assoc (list_eqb Z.eqb) name known) as [r|]; [rewrite HR|rewrite HR]; reflexivity.
Qed.
