(** Every string of a class that was read stands in the constant pool of its
    file (C94). *)
From Coq Require Import String.
From Verif Require Import Base BaseLemmas Wtf8Spec Wtf8Model Wtf8Proofs Wtf8Proofs2 Wtf8Props MutfModel MutfProofs PrimModel PrimProofs TypeModel TypeSpec TypeProofs TypeProofs2 TypeProps CpModel CpSpec CpProofs
  SigModel SigSpec AnnModel AnnSpec AttrModel AttrSpec FrameModel InsnModel InsnSpec CodeModel CodeProofs CodeSpec CodeUndef CodeAccept ReadProofs ClassModel ClassSpec PanicProofs PanicCode
  WriteSpec LaxProofs ReadText ReadTyped TidySpec TidyProps FileSpec CodeProps ClassProps DrawnSpec DrawnProofs FitProofs.
From Coq Require Import Lia.

(** ** Every string, descriptor and signature comes from the pool *)
Theorem C94_drawn : forall md l c h rest, bytes l -> rd_classfile md l = Ok ((c, h), rest) -> md = Debug \/ pool_count l < 65535 ->
  drawn md l c /\ forall cell b, heap_of h cell = Some b -> n_bsm (text_of l) (desc_of md l) b.
Proof.
  intros md l c h rest Hl H Hmd. apply (read_drawn md l c h rest); auto; intros s t Hs Ht; exists s; auto.
Qed.
Example C94_ex : (exists c h, forall md, rd_classfile md ex_foreign = Ok ((c, h), [])) /\ bytes ex_foreign /\ pool_count ex_foreign = 20 /\
  pool_texts ex_foreign = map (fun s => map (fun a => Z.of_N (Ascii.N_of_ascii a)) (list_ascii_of_string s))
    ["A"; "B"; "m"; "()V"; "Code"; "b"; "()I"; "x"; "(I)J"; "BootstrapMethods"; "unused"]%string.
Proof.
  split; [do 2 eexists; intros []; vm_compute; reflexivity|]. split; [repeat constructor; unfold u8; lia|]. split; vm_compute; reflexivity.
Qed.
Print Assumptions C94_drawn.

(** ** Proper texts: the strings fit an entry of a pool *)
Lemma text_jstr l s : bytes l -> Forall valid_mutf8 (pool_texts l) -> text_of l s -> jstr s.
Proof.
  intros Hl HV (b & Hb & Hs). rewrite Forall_forall in HV. destruct (HV b Hb) as (us & Hu & ->). destruct (C03_mutf8_decoder_agrees us Hu) as (s' & H1 & (cps & Hc) & _ & H4).
  assert (s' = s) as -> by congruence. exists cps. split; [exact Hc|]. destruct (C02_mutf8_encoder_format _ _ Hc) as [H5 _]. assert (HE : mutf8_of (flat_map utf16 cps) = mutf8_of us) by congruence.
  rewrite HE. eapply texts_short; [|exact Hb]. unfold bytes in *. rewrite Forall_forall in *. intros x Hx. apply Hl. rewrite <- (firstn_skipn 10 l). apply in_or_app. right. exact Hx.
Qed.
Lemma jstr_prefix u r : wtf8_cps (u ++ r) -> len (mutf8_of (flat_map utf16 (u ++ r))) <= 65535 -> jstr (flat_map utf8 u).
Proof.
  intros Hc HL. exists u. split; [split; [eapply wtf8_cps_app_l; exact Hc|reflexivity]|]. rewrite flat_map_app in HL. unfold mutf8_of in *. rewrite flat_map_app, len_app in HL.
  pose proof (len_nonneg (flat_map mutf8_unit (flat_map utf16 r))). lia.
Qed.
(** What the parser returns for such a string. *)
Definition proper_desc (t : ty) : Prop := loose_ty t /\ jstr (ty_text t).
Lemma parsed_proper md s t : jstr s -> (md = Debug \/ ~ long_run s) -> parse_type md s = Ok t -> proper_desc t.
Proof.
  intros (cps & [Hc ->] & HL) Hmd H. unfold parse_type in H. rewrite codepoints_utf8 in H by apply Hc. cbn [bind] in H. inv_bind H. destruct v as [t' r]. injection H as ->.
  apply get_type_sound in E; auto.
  - destruct E as (Ht & u & -> & Hu). split; [exact Ht|]. destruct Hu as [<-|(r' & -> & <-)]; [eapply jstr_prefix; eauto|]. apply (jstr_prefix _ r'); rewrite <- app_assoc; assumption.
  - destruct Hmd as [|Hmd]; auto. right. intros (p & q & ->). apply Hmd. exists (flat_map utf8 p), (flat_map utf8 q). rewrite !flat_map_app, flat_utf8_repeat. reflexivity.
Qed.
(** No text has 256 '[' in a row: the depth of an array is a byte, and is
    counted without a check in a release build (C31). *)
Definition proper_file (md : mode) (l : list Z) : Prop :=
  Forall valid_mutf8 (pool_texts l) /\ (md = Debug \/ pool_count l < 65535 /\ forall s, text_of l s -> ~ long_run s).
(** The text that is written for a signature fits (a thrown variable is shown as a
    class, C34). *)
Definition proper_field (g : rsig) : Prop := jstr (flat_map utf8 (rsig_text g)).
Definition proper_method (m : method_sig) : Prop :=
  jstr (flat_map utf8 (method_sig_text {| ms_params := ms_params m; ms_args := ms_args m; ms_ret := ms_ret m; ms_throws := map throws_class (ms_throws m) |})).
Definition proper_class (c : class_sig) : Prop := jstr (flat_map utf8 (class_sig_text c)).
Theorem C94_proper : forall md l c h rest, bytes l -> rd_classfile md l = Ok ((c, h), rest) -> proper_file md l ->
  n_class (fun s => text_of l s /\ jstr s) proper_desc proper_field proper_method proper_class c /\
  forall cell b, heap_of h cell = Some b -> n_bsm (fun s => text_of l s /\ jstr s) proper_desc b.
Proof.
  intros md l c h rest Hl H [HV Hmd]. assert (HC : md = Debug \/ pool_count l < 65535) by tauto.
  apply (read_drawn md l c h rest); auto.
  - intros s Hs. split; [exact Hs|eapply text_jstr; eauto].
  - intros s t [H1 H2] Ht. eapply parsed_proper; [exact H2| |exact Ht]. destruct Hmd as [Hmd|[_ Hmd]]; [left; exact Hmd|right; apply Hmd, H1].
  - intros s g [_ H2]. apply field_jstr, H2.
  - intros s g [_ H2]. apply method_jstr, H2.
  - intros s g [_ H2]. apply class_jstr, H2.
Qed.
Lemma ascii_text (b : list Z) : forallb (fun x => (0 <? x) && (x <? 128)) b = true -> valid_mutf8 b.
Proof.
  intros H. exists b. rewrite forallb_forall in H. split.
  - rewrite Forall_forall. intros x Hx. specialize (H x Hx). apply andb_prop in H as [H1 H2]. apply Z.ltb_lt in H1, H2. unfold u16. lia.
  - induction b as [|x b IH]; [reflexivity|]. unfold mutf8_of in *. cbn [flat_map]. rewrite <- IH by (intros y Hy; apply H; right; exact Hy).
    specialize (H x (or_introl eq_refl)). apply andb_prop in H as [H1 H2]. apply Z.ltb_lt in H1, H2. unfold mutf8_unit.
    replace ((1 <=? x) && (x <=? 127)) with true by (symmetry; apply andb_true_intro; split; apply Z.leb_le; lia). reflexivity.
Qed.
Example C94_proper_ex : proper_file Debug ex_foreign.
Proof.
  split; [|left; reflexivity]. rewrite (proj2 (proj2 (proj2 C94_ex))). cbn [map]. repeat (apply Forall_cons; [apply ascii_text; reflexivity|]). apply Forall_nil.
Qed.
Print Assumptions C94_proper.

(** ** What is left to ask of the class *)
Lemma opt_leaves {A} (N : A -> Prop) (R L : leaf -> Prop) (f : A -> list leaf) o : (forall a, N a -> Forall R (f a) -> Forall L (f a)) -> t_opt N o -> Forall R (of_opt f o) -> Forall L (of_opt f o).
Proof. intros H. destruct o; cbn; auto. Qed.
Lemma flat_leaves {A} (N : A -> Prop) (R L : leaf -> Prop) (f : A -> list leaf) l : (forall a, N a -> Forall R (f a) -> Forall L (f a)) -> Forall N l -> Forall R (flat_map f l) -> Forall L (flat_map f l).
Proof.
  intros H. induction 1 as [|a l Ha _ IH]; cbn [flat_map]; auto. intros HR. apply Forall_app in HR as [H1 H2]. apply Forall_app. auto.
Qed.
Section Rest.
Context (Txt : list Z -> Prop) (P Q : code -> Prop).
Hypothesis HT : forall s, Txt s -> jstr s.
Notation Fsg := proper_field.
Notation Msg := proper_method.
Notation Csg := proper_class.
Notation D := proper_desc.
Notation R := (rest_leaf P).
Notation L := (leaf_ok Q).
Ltac two H := let H1 := fresh H in let H2 := fresh H in apply Forall_cons_iff in H as [H1 H2].
Lemma r_str s : Txt s -> Forall R [LStr s] -> Forall L [LStr s].
Proof. intros H _. constructor; [exact (HT _ H)|constructor]. Qed.
Lemma r_desc t : D t -> R (LDesc t) -> L (LDesc t).
Proof. intros [_ H] HR. split; [exact HR|exact H]. Qed.
Lemma r_shown t : D t -> shown t -> utf8_desc t.
Proof. intros [_ H] [H1 H2]. split; [split; [exact H1|exact H]|exact H2]. Qed.
Lemma r_member m : n_member Txt D m -> rest_member m -> wf_member m.
Proof. intros (H1 & H2 & H3) [H4 H5]. split; [auto|]. split; [auto|]. split; [apply r_shown; auto|exact H5]. Qed.
Lemma r_const k : n_const Txt D k -> Forall R (const_leaves k) -> Forall L (const_leaves k).
Proof.
  destruct k; cbn [const_leaves n_const]; intros HN HR; try constructor; try apply Forall_nil; inversion HR; subst; cbn in *; auto using r_member, r_shown.
Qed.
Lemma r_bsm b : n_bsm Txt D b -> Forall R (bsm_leaves b) -> Forall L (bsm_leaves b).
Proof.
  intros [H1 H2] HR. unfold bsm_leaves in *. two HR. constructor; [apply r_member; auto|]. revert HR1. apply (flat_leaves (n_or Txt D (n_const Txt D))); [|exact H2].
  intros [d|k] HN; cbn; [|apply r_const, HN]. intros HR. inversion HR; subst. contradiction.
Qed.
Lemma r_aval v : n_aval Txt D v -> Forall R (aval_leaves v) -> Forall L (aval_leaves v).
Proof.
  revert v. fix IH 2. intros v HN. destruct HN; cbn [aval_leaves]; intros HR; try constructor; try apply Forall_nil.
  - exact (HT _ H).
  - two HR. apply r_desc; auto.
  - constructor; [exact (HT _ H0)|constructor].
  - destruct o; [|constructor]. cbn in *. two HR. constructor; [apply r_shown; auto|constructor].
  - two HR. apply r_desc; auto.
  - two HR. clear HR0 H. rename H0 into HV, HR1 into HR. revert HV HR. induction 1 as [|[k v] vs [H1 H2] HV IHV]; cbn [flat_map fst snd]; [auto|]. intros HR. two HR. apply Forall_app in HR1 as [HR1 HR2].
    constructor; [exact (HT _ H1)|]. apply Forall_app. split; [apply IH; assumption|apply IHV, HR2].
  - revert HR. induction H as [|v vs H1 HV IHV]; cbn [flat_map]; [auto|]. intros HR. apply Forall_app in HR as [HR1 HR2]. apply Forall_app. split; [apply IH; assumption|apply IHV, HR2].
Qed.
Lemma r_vals vs : n_vals Txt D vs -> Forall R (vals_leaves vs) -> Forall L (vals_leaves vs).
Proof.
  apply flat_leaves. intros [k v] [H1 H2] HR. cbn [fst snd] in *. two HR. constructor; [exact (HT _ H1)|]. apply r_aval; auto.
Qed.
Lemma r_annot a : n_annot Txt D a -> Forall R (annot_leaves a) -> Forall L (annot_leaves a).
Proof. intros [H1 H2] HR. unfold annot_leaves in *. two HR. constructor; [apply r_desc; auto|apply r_vals; auto]. Qed.
Lemma r_tannot {T} (a : tannot T) : n_tannot Txt D a -> Forall R (tannot_leaves a) -> Forall L (tannot_leaves a).
Proof. intros [H1 H2] HR. unfold tannot_leaves in *. two HR. constructor; [apply r_desc; auto|apply r_vals; auto]. Qed.
Lemma r_raw r : n_raw Txt r -> Forall R (raw_leaves r) -> Forall L (raw_leaves r).
Proof. intros H _. constructor; [exact (HT _ H)|constructor]. Qed.
Lemma r_msig m : Msg m -> rest_method_sig m -> wf_method_signature m.
Proof.
  intros H [H1 H2]. split; [exact H1|]. split; [exact H2|]. unfold proper_method in H. assert (E : map throws_class (ms_throws m) = ms_throws m); [|rewrite E in H; destruct m; exact H].
  clear - H2. induction H2 as [|t l Ht _ IH]; [reflexivity|]. cbn [map]. rewrite IH. destruct t; [destruct Ht|reflexivity].
Qed.
Lemma r_fattr a : n_fattr Txt D Fsg a -> Forall R (fattr_leaves a) -> Forall L (fattr_leaves a).
Proof.
  destruct a; cbn [fattr_leaves n_fattr]; auto; intros HN.
  - intros HR. two HR. constructor; [exact (conj HR0 HN)|constructor].
  - apply r_const, HN.
  - apply (flat_leaves _ _ _ _ _ r_annot), HN.
  - apply (flat_leaves _ _ _ _ _ r_annot), HN.
  - apply (flat_leaves _ _ _ _ _ r_tannot), HN.
  - apply (flat_leaves _ _ _ _ _ r_tannot), HN.
  - apply r_raw, HN.
Qed.
Lemma r_field f : n_field Txt D Fsg f -> Forall R (field_leaves f) -> Forall L (field_leaves f).
Proof.
  intros (H1 & H2 & H3) HR. unfold field_leaves in *. two HR. two HR1. constructor; [exact (HT _ H1)|]. constructor; [apply r_desc; auto|]. revert HR3. apply (flat_leaves _ _ _ _ _ r_fattr), H3.
Qed.
Hypothesis HPQ : forall k, n_code Txt D Fsg k -> P k -> Q k.
Lemma r_strs l : Forall Txt l -> Forall R (flat_map str_leaf l) -> Forall L (flat_map str_leaf l).
Proof. apply flat_leaves. exact r_str. Qed.
Lemma r_opt_str o : t_opt Txt o -> Forall R (of_opt str_leaf o) -> Forall L (of_opt str_leaf o).
Proof. apply opt_leaves. exact r_str. Qed.
Lemma r_mattr a : n_mattr Txt D Fsg Msg a -> Forall R (mattr_leaves a) -> Forall L (mattr_leaves a).
Proof.
  destruct a; cbn [mattr_leaves n_mattr]; auto; intros HN;
  try (apply (flat_leaves _ _ _ _ _ r_annot), HN); try (apply (flat_leaves _ _ _ _ _ r_tannot), HN);
  try (apply (flat_leaves _ _ _ _ _ (fun l => flat_leaves _ _ _ _ l r_annot)), HN).
  - intros HR. two HR. constructor; [apply HPQ; auto|constructor].
  - intros HR. two HR. constructor; [exact (r_msig _ HN HR0)|constructor].
  - apply r_strs, HN.
  - apply r_aval, HN.
  - revert HN. apply (flat_leaves (fun m => t_opt Txt (mp_name m))). intros m. apply r_opt_str.
  - apply r_raw, HN.
Qed.
Lemma r_method m : n_method Txt D Fsg Msg m -> Forall R (method_leaves m) -> Forall L (method_leaves m).
Proof.
  intros (H1 & H2 & H3) HR. unfold method_leaves in *. two HR. two HR1. constructor; [exact (HT _ H1)|]. constructor; [apply r_desc; auto|]. revert HR3. apply (flat_leaves _ _ _ _ _ r_mattr), H3.
Qed.
Lemma r_module m : n_module Txt m -> Forall R (module_leaves m) -> Forall L (module_leaves m).
Proof.
  intros (H1 & H2 & H3 & H4 & H5 & H6 & H7) HR. unfold module_leaves in *. two HR. constructor; [exact (HT _ H1)|].
  apply Forall_app in HR1 as [A1 HR1]. apply Forall_app in HR1 as [A2 HR1]. apply Forall_app in HR1 as [A3 HR1]. apply Forall_app in HR1 as [A4 HR1]. apply Forall_app in HR1 as [A5 HR1].
  repeat (apply Forall_app; split).
  - apply r_opt_str; auto.
  - revert A2. apply (flat_leaves (n_require Txt)); [|exact H3]. intros r [Ha Hb] HR. unfold require_leaves in *. two HR. constructor; [exact (HT _ Ha)|apply r_opt_str; auto].
  - revert A3. apply (flat_leaves (n_exopen Txt)); [|exact H4]. intros r [Ha Hb] HR. unfold exopen_leaves in *. two HR. constructor; [exact (HT _ Ha)|apply r_strs; auto].
  - revert A4. apply (flat_leaves (n_exopen Txt)); [|exact H5]. intros r [Ha Hb] HR. unfold exopen_leaves in *. two HR. constructor; [exact (HT _ Ha)|apply r_strs; auto].
  - apply r_strs; auto.
  - revert HR1. apply (flat_leaves (n_provide Txt)); [|exact H7]. intros r [Ha Hb] HR. unfold provide_leaves in *. two HR. constructor; [exact (HT _ Ha)|apply r_strs; auto].
Qed.
Lemma r_inner c : n_inner Txt c -> Forall R (inner_leaves c) -> Forall L (inner_leaves c).
Proof.
  intros (H1 & H2 & H3) HR. unfold inner_leaves in *. two HR. apply Forall_app in HR1 as [HR1 HR2]. constructor; [exact (HT _ H1)|]. apply Forall_app. split; apply r_opt_str; auto.
Qed.
Lemma r_cattr a : n_cattr Txt D Csg a -> Forall R (cattr_leaves a) -> Forall L (cattr_leaves a).
Proof.
  destruct a; cbn [cattr_leaves n_cattr]; auto; intros HN;
  try (apply (flat_leaves _ _ _ _ _ r_annot), HN); try (apply (flat_leaves _ _ _ _ _ r_tannot), HN); try (apply r_str, HN); try (apply r_strs, HN).
  - intros HR. two HR. constructor; [exact (conj HR0 HN)|constructor].
  - apply (flat_leaves _ _ _ _ _ r_inner), HN.
  - destruct HN as [H1 H2]. intros HR. two HR. constructor; [exact (HT _ H1)|]. revert HR1. eapply opt_leaves; [|exact H2]. cbn beta. intros [n t] [Ha Hb] K. cbn [fst snd] in *. two K. two K1.
    constructor; [exact (HT _ Ha)|]. constructor; [apply r_shown; assumption|constructor].
  - intros HR. two HR. constructor; [exact HR0|constructor].
  - apply (flat_leaves _ _ _ _ _ r_bsm), HN.
  - apply r_module, HN.
Qed.
Lemma r_class c : n_class Txt D Fsg Msg Csg c -> Forall R (class_leaves c) -> Forall L (class_leaves c).
Proof.
  intros (H1 & H2 & H3 & H4 & H5 & H6) HR. unfold class_leaves in *. two HR. constructor; [exact (HT _ H1)|].
  apply Forall_app in HR1 as [A1 HR1]. apply Forall_app in HR1 as [A2 HR1]. apply Forall_app in HR1 as [A3 HR1]. apply Forall_app in HR1 as [A4 HR1].
  repeat (apply Forall_app; split); [apply r_opt_str; auto|apply r_strs; auto|..].
  - revert A3. apply (flat_leaves _ _ _ _ _ r_field), H4.
  - revert A4. apply (flat_leaves _ _ _ _ _ r_method), H5.
  - revert HR1. apply (flat_leaves _ _ _ _ _ r_cattr), H6.
Qed.
End Rest.

Lemma rest_insn_tidy (Txt : list Z -> Prop) i : (forall s, Txt s -> jstr s) -> n_insn Txt proper_desc i -> rest_insn i -> tidy_insn i.
Proof.
  intros HT. assert (HD : forall b d, n_dyn Txt proper_desc d -> rest_dyn b d -> tidy_dyn b d).
  { intros b d [H1 H2] [H3 H4]. split; [auto|]. split; [apply r_shown; auto|exact H4]. }
  assert (HO : forall A (N R L : A -> Prop) o, (forall a, N a -> R a -> L a) -> n_or Txt proper_desc N o -> rest_or R o -> tidy_or L o).
  { intros A N R L [d|a] HA; cbn; [apply HD|apply HA]. }
  assert (HC : forall c, n_ctype Txt proper_desc c -> rest_ctype c -> wf_ctype c).
  { intros [s|d t]; cbn [n_ctype rest_ctype].
    - intros [H1 H2] _. split; [exact (HT _ H1)|]. destruct s as [|x s]; [exact I|]. cbn in H2. destruct x as [|q|q]; auto. do 7 (destruct q; auto). congruence.
    - intros [_ H1] [H2 H3]. split; [exact H1|]. split; [exact H2|exact H3]. }
  destruct i; cbn [n_insn rest_insn tidy_insn]; auto.
  - destruct c as [d|k]; [auto|]. cbn [n_or]. intros HN. apply (r_const Txt); auto.
  - apply HO, HC.
  - apply HO, HC.
  - apply HO. auto.
  - destruct o, k; auto; apply HO; intros x; apply (r_member Txt); auto.
  - apply HO. intros x; apply (r_member Txt); auto.
  - apply HO. intros x; apply (r_member Txt); auto.
  - apply HO. intros x; apply (r_member Txt); auto.
Qed.
Lemma rest_code_tidy (Txt : list Z -> Prop) k : (forall s, Txt s -> jstr s) -> n_code Txt proper_desc proper_field k -> rest_code k -> tidy_code k.
Proof.
  intros HT (H1 & H2 & H3) (R1 & R2 & R3 & R4). split; [|split; [exact R2|split; [|split; [exact R3|]]]].
  - apply Forall_forall. intros i Hi. rewrite Forall_forall in H1, R1. exact (rest_insn_tidy Txt i HT (H1 i Hi) (R1 i Hi)).
  - eapply Forall_impl; [|exact H2]. intros x Hx. cbn beta in Hx. destruct (c_type x); [exact (HT _ Hx)|exact I].
  - apply Forall_forall. intros a Ha. rewrite Forall_forall in H3, R4. specialize (H3 a Ha). specialize (R4 a Ha). destruct a; cbn [n_kattr rest_kattr tidy_kattr] in *.
    + rewrite Forall_forall in H3, R4. apply Forall_forall. intros x Hx. apply (r_tannot Txt (fun _ => True)); auto.
    + rewrite Forall_forall in H3, R4. apply Forall_forall. intros x Hx. apply (r_tannot Txt (fun _ => True)); auto.
    + destruct R4 as [R4 R5]. split; [exact R4|]. rewrite Forall_forall in H3, R5. apply Forall_forall. intros v Hv. destruct (H3 v Hv) as (A1 & A2 & A3). destruct (R5 v Hv) as (B1 & B2 & B3).
      split; [exact B1|]. split; [auto|]. split; [destruct (v_desc v); [|exact I]; split; [exact B2|apply A2]|]. destruct (v_sig v); [|exact I]. split; [exact B3|exact A3].
    + auto.
Qed.
(** Of C91's conditions, those on strings follow from the texts of the file. *)
Theorem C94_tidy : forall md l c h rest, bytes l -> rd_classfile md l = Ok ((c, h), rest) -> proper_file md l -> rest_class c -> tidy_class c.
Proof.
  intros md l c h rest Hl H HP [HR HB]. split; [|exact HB]. destruct (C94_proper _ _ _ _ _ Hl H HP) as [HN _]. revert HR. eapply r_class; [| |exact HN].
  - intros s [_ Hs]. exact Hs.
  - intros k Hk. eapply rest_code_tidy; [|exact Hk]. intros s [_ Hs]. exact Hs.
Qed.
Example C94_tidy_ex : exists c h, bytes ex_foreign /\ rd_classfile Debug ex_foreign = Ok ((c, h), []) /\ proper_file Debug ex_foreign /\ rest_class c /\ class_dyns c <> [].
Proof.
  do 2 eexists. split; [repeat constructor; unfold u8; lia|]. split; [vm_compute; reflexivity|]. split; [exact C94_proper_ex|]. split; [|discriminate].
  split; [|split; [discriminate|reflexivity]]. unfold class_leaves. cbn -[rest_code wf_ty shown rest_member].
  repeat (apply Forall_cons || apply Forall_nil); cbn [rest_leaf]; try exact I; try (cbn; repeat constructor; fail).
  - unfold rest_code. cbn [cd_code cd_catches cd_attrs]. split; [|split; [|split; [reflexivity|constructor]]].
    + repeat (apply Forall_cons || apply Forall_nil); cbn [rest_insn const_leaves]; auto. split; [|reflexivity]. split; cbn; repeat constructor.
    + apply in_range_small; [vm_compute; discriminate|]. repeat (apply Forall_cons || apply Forall_nil); cbn; intros x Hx; cbn in *; tauto.
Qed.
Print Assumptions C94_tidy.

(** C91 with the conditions on strings moved to the texts of the file. *)
Theorem C91_pool_partial : forall md l c h rest, bytes l -> rd_classfile md l = Ok ((c, h), rest) -> proper_file md l -> rest_class c ->
  forall fuel md', (1 <= fuel)%nat ->
  ((exists out, wr_classfile fuel md' (heap_of h) c = Ok out) \/ md' = Debug /\ wr_classfile fuel md' (heap_of h) c = Panic POverflow) /\
  forall out, wr_classfile fuel md' (heap_of h) c = Ok out -> md' = Debug \/ pool_fits fuel md' (heap_of h) c -> len out < 4294967296 ->
  bytes out /\ forall md2 rest2, exists c2 h2, rd_classfile md2 (out ++ rest2) = Ok ((c2, h2), rest2) /\
    same_class (heap_of h) (heap_of h2) (class_table (heap_of h) c) c c2.
Proof. intros md l c h rest Hl H HP HR. eapply C91_again_partial; eauto using C94_tidy. Qed.
Example C91_pool_ex : exists c h out, rd_classfile Debug ex_foreign = Ok ((c, h), []) /\ wr_classfile 1 Debug (heap_of h) c = Ok out /\ len out < 4294967296.
Proof. do 3 eexists. split; [vm_compute; reflexivity|]. split; [vm_compute; reflexivity|]. reflexivity. Qed.
Print Assumptions C91_pool_partial.
