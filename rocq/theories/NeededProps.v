(** What a class must have in place for a file to come out of writing it. *)
From Coq Require Import Lia String Relations.
From Verif Require Import Base BaseLemmas Wtf8Spec PrimModel TypeModel TypeSpec CpModel CpSpec FileSpec SigModel SigSpec AnnModel AttrModel FrameModel
  InsnModel InsnSpec CodeModel CodeSpec CodeProps CodeUndef ClassModel ClassSpec ClassGrow ClassProofs ClassProps ClassStable ClassCodeStable WriteSpec LaxProofs WriteKinds WriteProps
  ReadTyped RereadProps.

(** * A writer that succeeds has met what it needs *)
Definition wants {A} (f : cwr A) (P : wenv -> A -> Prop) : Prop := forall E a w r, f E a w = Ok r -> P E a.
Definition has_cell (E : wenv) (d : dynamic) : Prop := we_heap E (d_cell d) <> None.
Lemma v_each {A} (f : cwr A) P : wants f P -> wants (wr_each f) (fun E => Forall (P E)).
Proof.
  intros H E xs. induction xs as [|a xs IH]; intros w r Hr; [constructor|]. cbn [wr_each] in Hr. inv_bind Hr. destruct v as [b w1]. inv_bind Hr.
  constructor; eauto.
Qed.
Lemma v_cvec {A} k (f : cwr A) P : wants f P -> wants (wr_cvec k f) (fun E => Forall (P E)).
Proof. intros H E xs w r Hr. unfold wr_cvec in Hr. destruct (_ <? _); [|discriminate]. inv_bind Hr. eapply v_each; eauto. Qed.
Lemma v_list16 {A} (f : cwr A) P : wants f P -> wants (wr_list16 f) (fun E => Forall (P E)).
Proof. intros H E xs w r Hr. unfold wr_list16 in Hr. inv_bind Hr. eapply v_each; eauto. Qed.
Lemma v_right {A B} (f : cwr A) (g : cwr B) P : wants g P -> wants (wr_pair f g) (fun E ab => P E (snd ab)).
Proof. intros H E ab w r Hr. unfold wr_pair in Hr. inv_bind Hr. destruct v as [x w1]. inv_bind Hr. eapply H; eauto. Qed.
Lemma v_left {A B} (f : cwr A) (g : cwr B) P : wants f P -> wants (wr_pair f g) (fun E ab => P E (fst ab)).
Proof. intros H E ab w r Hr. unfold wr_pair in Hr. inv_bind Hr. eapply H; eauto. Qed.

(** ** Cells *)
Lemma d_dynamic E d w r : insert_dynamic E d w = Ok r -> has_cell E d.
Proof. unfold insert_dynamic, has_cell. destruct (we_heap E (d_cell d)); discriminate. Qed.
Lemma d_ordyn {A} (f : cins A) E o w r : insert_ordynamic f E o w = Ok r -> Forall (has_cell E) (dyn_of o).
Proof. destruct o as [d|a]; cbn [insert_ordynamic dyn_of]; [|constructor]. intros H. apply d_dynamic in H. auto. Qed.
Lemma d_emit_idx {A} op (f : cins A) t E a w r ds : (forall w r, f E a w = Ok r -> Forall (has_cell E) ds) ->
  emit_idx op f t E a w = Ok r -> Forall (has_cell E) ds.
Proof. intros H Hr. unfold emit_idx in Hr. inv_bind Hr. eauto. Qed.
Lemma d_push E c w r : emit_push E c w = Ok r -> Forall (has_cell E) (dyn_of c).
Proof.
  destruct c as [d|k]; [|constructor]. cbn [emit_push]. unfold emit_ldc. intros H. inv_bind H. eapply (d_ordyn insert_constant E (Dyn d)); eauto.
Qed.
Lemma d_emit E i w r : emit E i w = Ok r -> Forall (has_cell E) (insn_dyns i).
Proof.
  destruct i; cbn [emit insn_dyns]; intros H; try constructor; try (eapply d_push; eauto; fail);
    repeat match type of H with (match ?x with _ => _ end) = _ => destruct x end; try discriminate;
    try (eapply d_emit_idx; [|exact H]; intros; eapply d_ordyn; eauto; fail).
  - eapply (d_emit_idx _ _ _ _ _ _ _ [d]) in H; [inversion H; assumption|]. intros w' r' Hr. apply d_dynamic in Hr. auto.
  - constructor.
Qed.
Lemma d_insns E is : forall y w r, write_insns E is y w = Ok r -> Forall (has_cell E) (flat_map insn_dyns is).
Proof.
  induction is as [|i is IH]; intros y w r H; [constructor|]. cbn [write_insns flat_map] in *. inv_bind H. destruct v as [y1 w1]. apply Forall_app. split; [|eauto].
  destruct i; cbn [write_insn] in E0; try (inv_bind E0; eapply d_emit; eauto); constructor.
Qed.
(** ** Code, methods *)
Definition code_met (E : wenv) (k : code) : Prop := Forall (has_cell E) (code_dyns k) /\ incl (labels_used k) (labels_in (cd_code k)).
Lemma v_code : wants wr_code code_met.
Proof.
  intros E k w [bs w'] H. split; [|eapply C56_defined; eauto]. unfold wr_code in H. inv_bind H. eapply d_insns; eauto.
Qed.
Lemma v_mattr : wants (wr_mattr wr_code) (fun E a => match a with MCode k => code_met E k | _ => True end).
Proof. intros E a w r H. destruct a; try exact I. cbn [wr_mattr] in H. unfold wr_attr in H. inv_bind H. destruct v as [i w1]. inv_bind H. eapply v_code; eauto. Qed.
Lemma v_method : wants (wr_method wr_code) (fun E m => Forall (fun a => match a with MCode k => code_met E k | _ => True end) (me_attrs m)).
Proof.
  intros E m w r H. unfold wr_method, wr_via in H.
  exact (v_right _ _ _ (v_right _ _ _ (v_right _ _ _ (v_cvec 2 _ _ v_mattr))) _ _ _ _ H).
Qed.
Lemma v_members : wants wr_members (fun E c => forall m k, In m (cl_methods c) -> In (MCode k) (me_attrs m) -> code_met E k).
Proof.
  intros E c w r H m k Hm Hk. unfold wr_members, wr_via in H.
  pose proof (v_right _ _ _ (v_right _ _ _ (v_right _ _ _ (v_right _ _ _ (v_right _ _ _ (v_left _ _ _ (v_list16 _ _ v_method)))))) _ _ _ _ H) as HM.
  cbn [fst snd] in HM. rewrite Forall_forall in HM. specialize (HM _ Hm). rewrite Forall_forall in HM. exact (HM _ Hk).
Qed.
(** ** The table *)
Lemma v_bsm : wants wr_bsm (fun E b => args_set (we_heap E) b).
Proof.
  intros E b w r H d Hd. unfold wr_bsm in H. inv_bind H. destruct v as [h w1]. inv_bind H.
  assert (HV : wants (wr_idx (insert_ordynamic insert_constant)) (fun E o => Forall (has_cell E) (dyn_of o))).
  { intros E' o w' r' Hr. unfold wr_idx in Hr. inv_bind Hr. eapply d_ordyn; eauto. }
  apply (v_each _ _ HV) in E1. rewrite Forall_forall in E1. specialize (E1 _ Hd). inversion E1. assumption.
Qed.
(** every bootstrap method that the ones in [l] lead to has its arguments set *)
Definition all_set (heap : Z -> option bsm) (l : list bsm) : Prop :=
  forall b b', In b l -> clos_refl_trans _ (depends heap) b b' -> args_set heap b'.
Lemma v_rounds E fuel : forall i w r, wr_rounds fuel E i w = Ok r -> all_set (we_heap E) (w_bsm w).
Proof.
  induction fuel as [|fuel IH]; intros i w r H; cbn [wr_rounds] in H.
  - destruct (w_bsm w); [intros b b' []|discriminate].
  - destruct (w_bsm w) as [|b0 v] eqn:Eb; [intros b b' []|]. inv_bind H. pose proof (a_bsms (we_heap E) E (b0 :: v) (with_bsm w []) eq_refl) as HA.
    destruct (wr_each wr_bsm E (b0 :: v) (with_bsm w [])) as [[x w1]| |] eqn:Ew; cbn [bind] in H; try discriminate. cbn in HA.
    apply (v_each _ _ v_bsm) in Ew. rewrite Forall_forall in Ew. inv_bind H. apply IH in E1. rewrite HA in E1.
    intros b b' Hb Hr. apply clos_rt_rt1n in Hr. destruct Hr as [|y z (d & Hd & Hy) Hr]; [exact (Ew _ Hb)|]. apply clos_rt1n_rt in Hr.
    apply (E1 y z); [|exact Hr]. apply (arg_contents (we_heap E) (b0 :: v)). eauto.
Qed.

(** * C83: a class that is written has everything in place *)

(** Whatever the class: if a file comes out, then every dynamic constant in
    code has its cell set, every label that code, handlers, variables and
    annotations use is defined, and the same holds of the dynamic constants
    among the arguments of every bootstrap method that is written. *)
Theorem C83_needed : forall fuel md heap c out, wr_classfile fuel md heap c = Ok out ->
  (forall d, In d (class_dyns c) -> heap (d_cell d) <> None) /\
  (forall m k l, In m (cl_methods c) -> In (MCode k) (me_attrs m) -> In l (labels_used k) -> In (ILabel l) (cd_code k)) /\
  (forall b b', In b (class_table heap c) -> clos_refl_trans _ (depends heap) b b' -> args_set heap b').
Proof.
  intros fuel md heap c out H. unfold wr_classfile in H. inv_bind H. inv_bind H. unfold wr_body in E0.
  pose proof (a_members heap (wenv_class md heap) c (with_bsm wst_new (initial_bsms (cl_attrs c))) eq_refl) as HA.
  destruct (wr_members _ _ _) as [[b1 w1]| |] eqn:Em; cbn [bind] in E0; try discriminate. cbn in HA. inv_bind E0. pose proof (v_members _ _ _ _ Em) as HM.
  split; [|split].
  - intros d Hd. unfold class_dyns, method_dyns in Hd. apply in_flat_map in Hd as (m & Hm & Hd). apply in_flat_map in Hd as (a & Ha & Hd).
    destruct a as [k| | | | | | | | | | | | |]; try destruct Hd. destruct (HM m k Hm Ha) as [HC _]. rewrite Forall_forall in HC. exact (HC _ Hd).
  - intros m k l Hm Hk Hl. destruct (HM m k Hm Hk) as [_ HL]. specialize (HL _ Hl). unfold labels_in in HL. apply in_flat_map in HL as (i & Hi & Hl').
    destruct i; try destruct Hl' as [<-|[]]; try destruct Hl'. exact Hi.
  - change (class_table heap c) with (initial_bsms (cl_attrs c) ++ contents heap (class_dyns c)). rewrite <- HA. unfold ClassModel.wr_table in E1.
    destruct (w_bsm w1) eqn:Eb; [intros b b' []|]. inv_bind E1. apply v_rounds in E2. rewrite Eb in E2. exact E2.
Qed.
Example C83_needed_ex : exists out, wr_classfile 2 Release ex_nest (ex_class 1 [CBootstrap []]) = Ok out /\
  class_dyns (ex_class 1 [CBootstrap []]) <> [] /\ class_table ex_nest (ex_class 1 [CBootstrap []]) <> [].
Proof. eexists. split; [vm_compute; reflexivity|]. split; [vm_compute; discriminate|vm_compute; discriminate]. Qed.
Print Assumptions C83_needed.

(** * C87: dynamic constants without a table *)

(** A file that uses a dynamic constant and has no [BootstrapMethods]
    attribute, if it is read, can never be written: unless something else is
    wrong with it first, writing panics. *)
Theorem C87_orphans : forall md' l c h rest, bytes l -> rd_classfile md' l = Ok ((c, h), rest) -> no_table c -> class_dyns c <> [] ->
  forall fuel md, wr_classfile fuel md (heap_of h) c = Panic PUnwrap \/ wr_classfile fuel md (heap_of h) c = Err EInvalid \/
    (md = Debug /\ wr_classfile fuel md (heap_of h) c = Panic POverflow).
Proof.
  intros md' l c h rest Hl H HN HD fuel md. destruct (C87_typed _ _ _ _ _ Hl H) as (H1 & H2 & H3 & _).
  destruct (read_typed _ _ _ _ _ Hl H) as (_ & _ & _ & _ & H5). specialize (H5 (proj2 (first_table_none _) HN)).
  assert (HT : class_table (heap_of h) c = []).
  { unfold class_table. replace (flat_map _ (cl_attrs c)) with (@nil bsm).
    - unfold contents. cbn [app]. clear - H5. induction (class_dyns c) as [|d ds IH]; [reflexivity|]. cbn [flat_map]. rewrite H5. exact IH.
    - symmetry. unfold no_table in HN. clear - HN. induction (cl_attrs c) as [|a l IH]; [reflexivity|]. cbn [flat_map]. rewrite IH by (intros t Ht; apply (HN t); right; exact Ht).
      destruct a; try reflexivity. destruct (HN l0). left. reflexivity. }
  assert (HQ := written_ends md (heap_of h) c False fuel H1 H2). rewrite HT in HQ. unfold ends in HQ.
  assert (HE : False \/ match fuel with O => @nil bsm = [] | S n => Forall (nested (heap_of h) n) [] end) by (right; destruct fuel; auto).
  specialize (HQ HE). destruct (wr_classfile fuel md (heap_of h) c) as [o|e|k] eqn:Ew.
  - exfalso. destruct (C83_needed _ _ _ _ _ Ew) as [HC _]. destruct (class_dyns c) as [|d ds]; [congruence|]. exact (HC d (or_introl eq_refl) (H5 _)).
  - cbn in HQ. right. left. congruence.
  - cbn in HQ. unfold allowed in HQ. destruct HQ as [[-> ->]|[[-> _]|[_ []]]]; auto.
Qed.
Example C87_orphans_ex : exists c h, bytes ex_orphan /\ rd_classfile Release ex_orphan = Ok ((c, h), []) /\ no_table c /\ class_dyns c <> [].
Proof.
  do 2 eexists. split; [repeat constructor; unfold u8; lia|]. split; [vm_compute; reflexivity|]. split; [|discriminate].
  unfold no_table. refine (proj1 (first_table_none _) _). reflexivity.
Qed.
Print Assumptions C87_orphans.
