(** C64 with code: writing, reading and writing again. *)
From Coq Require Import String Permutation.
From Verif Require Import Base BaseLemmas Wtf8Spec PrimModel PrimProofs TypeModel TypeSpec CpModel CpSpec CpProofs CpProps FileSpec
  SigModel AnnModel AnnSpec AttrModel AttrSpec AttrProofs FrameModel FrameSpec InsnModel InsnSpec InsnProofs InsnProps
  CodeModel CodeSpec CodeProofs CodeWrite CodeRead CodeProps ReadProofs CodeAccept ClassModel ClassSpec ClassProofs ClassProps ClassStable CodeStable.

(** * Reading code without dynamic constants registers none *)
Definition keeps {A} (r : srd cst A) : Prop :=
  forall s l a s' l', r s l = Ok ((a, s'), l') -> k_refs s' = k_refs s.
Definition still (i : insn) : Prop := insn_dyns i = [] /\ match i with INewArray _ _ => False | _ => True end.

Lemma label_keeps o s : k_refs (snd (get_label o s)) = k_refs s.
Proof. unfold get_label. destruct (assoc Z.eqb o (k_labels s)); reflexivity. Qed.
Lemma get_keeps o s l s' : get_label o s = (l, s') -> k_refs s' = k_refs s.
Proof. intros H. rewrite <- (label_keeps o s), H. reflexivity. Qed.
Lemma lbls_keeps pos os : forall s l s', lbls_at pos os s = (l, s') -> k_refs s' = k_refs s.
Proof.
  induction os as [|o os IH]; intros s l s' H; cbn [lbls_at] in H; [inversion H; auto|].
  destruct (lbl_at pos o s) as [x s1] eqn:E1. destruct (lbls_at pos os s1) as [y s2] eqn:E2. inversion H; subst.
  rewrite (IH _ _ _ E2). eapply get_keeps. exact E1.
Qed.
Lemma lookup_keeps pos os : forall m s l s', InsnModel.lookup_at pos os m s = (l, s') -> k_refs s' = k_refs s.
Proof.
  induction os as [|[k o] os IH]; intros m s l s' H; cbn [InsnModel.lookup_at] in H; [inversion H; auto|].
  destruct (lbl_at pos o s) as [x s1] eqn:E1. rewrite (IH _ _ _ _ H). eapply get_keeps. exact E1.
Qed.
Lemma ordyn_keeps {A} md p (f : Z -> res (option A)) i s o s' : conv_ordyn md p f i s = Ok (o, s') -> dyn_of o = [] -> k_refs s' = k_refs s.
Proof.
  intros H Ho. unfold conv_ordyn in H. inv_bind H. destruct v as [[a|] r]; [|discriminate]. apply ok_inj in H. inversion H; subst. cbn [k_refs with_refs].
  unfold read_ordyn in E. inv_bind E. destruct v as [[d|] r1]; [inversion E; subst; discriminate Ho|].
  inv_bind E. inversion E; subst. unfold read_dynamic, read_dyn_at in E0. destruct (p i) as [[]|]; try (inversion E0; auto; fail).
  inv_bind E0. destruct v0 as [[]|]; inversion E0; auto.
Qed.
Lemma ctype_keeps md p i s o s' : conv_ctype md p i s = Ok (o, s') -> dyn_of o = [] -> k_refs s' = k_refs s.
Proof.
  intros H Ho. unfold conv_ctype in H. inv_bind H. destruct v as [[d|c] s1]; [inversion H; subst; discriminate Ho|].
  assert (s' = s1).
  { destruct c as [|[|q|q] c]; try (inversion H; auto; fail). repeat (destruct q as [q|q|]; try (inversion H; auto; fail)).
    inv_bind H. destruct v; inversion H; auto. }
  subst s'. unfold conv_class in E. eapply ordyn_keeps; [exact E|reflexivity].
Qed.
Lemma conv_keeps md p pos r s i s' : conv md p pos r s = Ok (i, s') -> still i -> k_refs s' = k_refs s.
Proof.
  intros H [Hd Hn].
  assert (HJ : forall off (f : Z -> insn), (let (l, s) := lbl_at pos off s in Ok (f l, s)) = Ok (i, s') -> k_refs s' = k_refs s).
  { intros off f HH. destruct (lbl_at pos off s) as [x s1] eqn:E1. inversion HH; subst. eapply get_keeps. exact E1. }
  assert (HE : forall j dim, conv_elem md p j dim s = Ok (i, s') -> k_refs s' = k_refs s).
  { intros j dim HH. unfold conv_elem in HH. inv_bind HH. destruct v as [[d|c] s1]; [inversion HH; subst; contradiction|].
    destruct (parse_type md c); inversion HH; subst; contradiction. }
  assert (HM : forall j (f : ordyn member -> insn), ('(m, s) <- conv_member md p j s ;; Ok (f m, s)) = Ok (i, s') -> (forall m, insn_dyns (f m) = dyn_of m) -> k_refs s' = k_refs s).
  { intros j f HH Hf. inv_bind HH. destruct v as [m s1]. inversion HH; subst. eapply ordyn_keeps; [exact E|]. rewrite <- Hf. exact Hd. }
  assert (HK : forall j, conv_constant md p j s = Ok (i, s') -> k_refs s' = k_refs s).
  { intros j HH. unfold conv_constant in HH. inv_bind HH. destruct v; inversion HH; auto. }
  destruct r; cbn [conv] in H; try (apply ok_inj in H; inversion H; reflexivity); try (eapply HE; exact H); try (eapply HJ; exact H); try (eapply HK; exact H);
    try (eapply HM; [exact H|reflexivity]).
  all: lazymatch type of H with
    | context [lbls_at] => destruct (lbl_at pos dflt s) as [x s1] eqn:E1; destruct (lbls_at pos _ s1) as [y s2] eqn:E2; inversion H; subst;
        rewrite (lbls_keeps _ _ _ _ _ E2); eapply get_keeps; exact E1
    | context [InsnModel.lookup_at] => destruct (lbl_at pos dflt s) as [x s1] eqn:E1; destruct (InsnModel.lookup_at pos _ _ s1) as [y s2] eqn:E2; inversion H; subst;
        rewrite (lookup_keeps _ _ _ _ _ _ E2); eapply get_keeps; exact E1
    | context [read_invokedynamic] => inv_bind H; destruct v as [[d|] r]; [apply ok_inj in H; inversion H; subst; discriminate Hd|discriminate]
    | context [conv_class] => inv_bind H; destruct v as [c s1]; inversion H; subst; eapply ordyn_keeps; [exact E|exact Hd]
    | context [conv_ctype] => inv_bind H; destruct v as [c s1]; inversion H; subst; eapply ctype_keeps; [exact E|exact Hd]
    | _ => idtac
    end.
  - match type of H with (match ?n with _ => _ end) = _ => destruct n as [|q|q]; try discriminate H end.
    repeat (destruct q as [q|q|]; try discriminate H; try (apply ok_inj in H; inversion H; reflexivity)).
  - match type of H with (match ?n with _ => _ end) = _ => destruct n end; apply ok_inj in H; inversion H; reflexivity.
Qed.
Lemma insns_keep md p fuel : forall pos s l is s', rd_insns fuel md p pos s l = Ok (is, s') -> Forall still (map snd is) -> k_refs s' = k_refs s.
Proof.
  induction fuel as [|fuel IH]; intros pos s l is s' H Hs; destruct l as [|x l]; cbn [rd_insns] in H; try (inversion H; auto; fail); try discriminate.
  inv_bind H. destruct v as [[i s1] r]. inv_bind H. destruct v as [is1 s2]. apply ok_inj in H. inversion H; subst. cbn [map snd] in Hs. inversion Hs; subst.
  rewrite (IH _ _ _ _ _ E0) by auto. unfold rd_insn_at in E. inv_bind E. destruct v as [raw l1]. inv_bind E. destruct v as [j s3]. apply ok_inj in E. inversion E; subst.
  eapply conv_keeps; eauto.
Qed.
Lemma keeps_label : keeps rd_label.
Proof. intros s l a s' l' H. unfold rd_label in H. inv_bind H. destruct v as [i r]. destruct (get_label i s) as [x s1] eqn:E1. inversion H; subst. eapply get_keeps; eauto. Qed.
Lemma keeps_lift {A} (r : rd A) : keeps (lift r).
Proof. intros s l a s' l' H. unfold lift in H. inv_bind H. destruct v. inversion H; auto. Qed.
Lemma keeps_pair {A B} (r : srd cst A) (q : srd cst B) : keeps r -> keeps q -> keeps (srd_pair r q).
Proof.
  intros H1 H2 s l [a b] s' l' H. unfold srd_pair in H. inv_bind H. destruct v as [[x s1] l1]. inv_bind H. destruct v as [[y s2] l2].
  apply ok_inj in H. inversion H; subst. rewrite (H2 _ _ _ _ _ E0). eauto.
Qed.
Lemma keeps_map {A B} (f : A -> B) (r : srd cst A) : keeps r -> keeps (srd_map f r).
Proof. intros H1 s l b s' l' H. unfold srd_map in H. inv_bind H. destruct v as [[x s1] l1]. apply ok_inj in H. inversion H; subst. eauto. Qed.
Lemma keeps_times {A} n (r : srd cst A) : keeps r -> keeps (srd_times n r).
Proof.
  intros Hr. induction n as [|n IH]; intros s l a s' l' H; cbn [srd_times] in H; [congruence|].
  inv_bind H. destruct v as [[x s1] l1]. inv_bind H. destruct v as [[y s2] l2]. apply ok_inj in H. inversion H; subst. rewrite (IH _ _ _ _ _ E0). eauto.
Qed.
Lemma keeps_vec {A} k (r : srd cst A) : keeps r -> keeps (srd_vec k r).
Proof. intros Hr s l a s' l' H. unfold srd_vec in H. inv_bind H. destruct v as [n l1]. eapply keeps_times; eauto. Qed.
Lemma keeps_lvt : keeps rd_lvt.
Proof.
  intros s l a s' l' H. unfold rd_lvt in H. inv_bind H. destruct v as [i r]. destruct (get_label i s) as [x s1] eqn:E1. inv_bind H. destruct v as [d r2].
  destruct (get_label (i + d) s1) as [y s2] eqn:E2. inv_bind H. destruct v as [j r3]. inversion H; subst. rewrite (get_keeps _ _ _ _ E2). eapply get_keeps; eauto.
Qed.
Lemma keeps_catch : keeps rd_catch.
Proof. intros s l a s' l' H. unfold rd_catch in H. inv_bind H. destruct v as [i l3]. destruct (get_catch i s); inversion H; auto. Qed.
Lemma keeps_label_u8 : keeps rd_label_u8.
Proof. apply keeps_pair; [apply keeps_label|apply keeps_lift]. Qed.
Lemma keeps_target : keeps rd_code_target.
Proof.
  intros s l a s' l' H. unfold rd_code_target in H. inv_bind H. destruct v as [t l1].
  repeat match type of H with (if ?b then _ else _) = _ => destruct b end; try discriminate;
    (eapply keeps_map; [|exact H]); auto using keeps_label_u8, keeps_label, keeps_catch, keeps_vec, keeps_lvt.
Qed.
Lemma keeps_tannot md p : keeps (rd_code_tannot md p).
Proof.
  intros s l a s' l' H. unfold rd_code_tannot in H. inv_bind H. destruct v as [[t s1] l1]. inv_bind H. destruct v as [b l2]. inversion H; subst.
  eapply keeps_target; eauto.
Qed.
Lemma keeps_vtype p : keeps (rd_vtype p).
Proof.
  intros s l a s' l' H. unfold rd_vtype in H. inv_bind H. destruct v as [t l1].
  repeat match type of H with (if ?b then _ else _) = _ => destruct b end; try discriminate; try (inversion H; auto; fail).
  - inv_bind H. destruct v. inversion H; auto.
  - inv_bind H. destruct v as [[x s1] l2]. inversion H; subst. eapply keeps_label; eauto.
Qed.
Lemma keeps_frame p : keeps (rd_frame p).
Proof.
  intros s l a s' l' H. unfold rd_frame in H. inv_bind H. destruct v as [t l1].
  repeat match type of H with (if ?b then _ else _) = _ => destruct b end; try discriminate; try (inversion H; auto; fail);
    inv_bind H; try (destruct v as [[x s1] l2]; inversion H; subst; eapply keeps_vtype; eauto; fail); destruct v as [d l2]; try (inversion H; auto; fail);
    inv_bind H; destruct v as [[x s1] l3].
  - inversion H; subst. eapply keeps_vtype; eauto.
  - inversion H; subst. eapply keeps_times; [apply keeps_vtype|eauto].
  - inv_bind H. destruct v as [[y s2] l4]. inversion H; subst. rewrite (keeps_vec _ _ (keeps_vtype p) _ _ _ _ _ E2). eapply keeps_vec; [apply keeps_vtype|eauto].
Qed.
Lemma keeps_fcattr md p : keeps (rd_fcattr md p).
Proof.
  intros s l a s' l' H. unfold rd_fcattr in H. apply ClassStable.rd_attr_inv in H as [(n & r & b & b' & HI & H)|(r & H)]; [|congruence].
  unfold fcattr_known in HI. cbn [In] in HI. repeat destruct HI as [HI|HI]; try (exfalso; exact HI); apply (f_equal snd) in HI; cbn [snd] in HI; subst r; try calm_just.
  - eapply (keeps_map CaInvisible); [|exact H]. apply keeps_vec, keeps_tannot.
  - eapply (keeps_map CaVisible); [|exact H]. apply keeps_vec, keeps_tannot.
  - eapply (keeps_map CaFrames); [|exact H]. apply keeps_vec, keeps_frame.
Qed.
Lemma vars_keep {A} md (f : A -> localvar -> localvar) rows : forall s vs vs' s', add_vars md f rows s vs = Ok (vs', s') -> k_refs s' = k_refs s.
Proof.
  induction rows as [|r rows IH]; intros s vs vs' s' H; cbn [add_vars] in H; [inversion H; auto|].
  destruct (get_label (lr_start r) s) as [a s1] eqn:E1. inv_bind H. destruct (get_label v s1) as [b s2] eqn:E2.
  rewrite (IH _ _ _ _ H), (get_keeps _ _ _ _ E2). eapply get_keeps; eauto.
Qed.
Lemma kattrs_keep n md p idx : forall s z l z' s' l', rd_kattrs n md p idx s z l = Ok (z', s', l') -> k_refs s' = k_refs s.
Proof.
  induction n as [|n IH]; intros s z l z' s' l' H; cbn [rd_kattrs] in H; [inversion H; auto|].
  inv_bind H. destruct v as [[a s1] l1]. inv_bind H. destruct v as [z1 s2]. rewrite (IH _ _ _ _ _ _ H). rewrite <- (keeps_fcattr _ _ _ _ _ _ _ E).
  unfold add_attr in E0. destruct a; try (inversion E0; auto; fail); inv_bind E0; try (inversion E0; auto; fail); destruct v as [vs s3]; inversion E0; subst;
    eapply vars_keep; eauto.
Qed.
Lemma keeps_handler p : keeps (rd_handler p).
Proof.
  intros s l a s' l' H. unfold rd_handler in H. inv_bind H. destruct v as [[x s1] l1]. inv_bind H. destruct v as [[y s2] l2]. inv_bind H. destruct v as [[z s3] l3].
  inv_bind H. destruct v as [i l4]. assert (s' = s3) by (destruct (i =? 0); [|destruct (read_indirect_str 7 p i)]; inversion H; auto). subst s'.
  rewrite (keeps_label _ _ _ _ _ E1), (keeps_label _ _ _ _ _ E0). eapply keeps_label; eauto.
Qed.
Lemma insert_incl k m : forall is, incl is (insert_all k m is).
Proof.
  assert (HA : forall k (v is : list insn), incl is (fold_left (fun is i => insert_at k i is) v is)).
  { clear. intros k v. induction v as [|i v IH]; intros is; cbn [fold_left]; [apply incl_refl|]. eapply incl_tran; [|apply IH].
    intros x Hx. unfold insert_at. rewrite <- (firstn_skipn k is) in Hx. apply in_app_or in Hx as [Hx|Hx]; apply in_or_app; auto. right. right. auto. }
  induction k as [|k IH]; intros is; cbn [insert_all].
  - destruct (assoc _ _ m); [apply HA|apply incl_refl].
  - eapply incl_tran; [|apply IH]. destruct (assoc _ _ m); [apply HA|apply incl_refl].
Qed.
Lemma calm_code md p : calm (rd_code md p) (fun c => Forall still (cd_code c)).
Proof.
  intros s l c s' l' H Hc. unfold rd_code in H.
  inv_bind H. destruct v as [stack l1]. inv_bind H. destruct v as [locals l2]. inv_bind H. destruct v as [n l3]. inv_bind H. destruct v as [body l4].
  inv_bind H. destruct v as [is k]. cbv zeta in H. inv_bind H. destruct v as [m l5]. inv_bind H. destruct v as [[cs k2] l6]. inv_bind H. destruct v as [a l7].
  inv_bind H. destruct v as [[z k3] l8]. inv_bind H. apply ok_inj in H. inversion H; subst. clear H. cbn [cd_code] in Hc.
  rewrite (kattrs_keep _ _ _ _ _ _ _ _ _ _ E7). cbn [k_refs]. rewrite (keeps_times _ _ (keeps_handler p) _ _ _ _ _ E5).
  rewrite (insns_keep _ _ _ _ _ _ _ _ E3); [reflexivity|]. rewrite Forall_forall in *. intros i Hi. apply Hc. eapply insert_incl; eauto.
Qed.
Definition still_mattr (a : mattr code) : Prop := match a with MCode c => Forall still (cd_code c) | _ => True end.
Lemma calm_mattr_code md p : calm (rd_mattr (rd_code md) md p) still_mattr.
Proof.
  intros s l a s' l' H Ha. unfold rd_mattr in H. apply ClassStable.rd_attr_inv in H as [(n & r & b & b' & HI & H)|(r & H)]; [|congruence].
  unfold mattr_known in HI. cbn [In] in HI. repeat destruct HI as [HI|HI]; try (exfalso; exact HI); apply (f_equal snd) in HI; cbn [snd] in HI; subst r; try calm_just.
  unfold rd_map in H. inv_bind H. destruct v as [[c s1] l1]. inversion H; subst. eapply calm_code; eauto.
Qed.
Definition still_class (c : class) : Prop := Forall (fun m => Forall still_mattr (me_attrs m)) (cl_methods c).
Lemma calm_members_code md p s l k s' l' : rd_members md p s l = Ok ((k, s'), l') ->
  (exists v, still_class (k v) /\ Forall calm_cattr (cl_attrs (k v))) -> s' = s.
Proof.
  intros H Hc. assert (HM : calm (rd_members md p) (fun k => exists v, still_class (k v) /\ Forall calm_cattr (cl_attrs (k v)))); [|eapply HM; eauto].
  clear. unfold rd_members. apply calm_map. eapply calm_mono.
  - repeat (apply calm_pair; [try apply (calm_lift _ (fun _ => True))|]); [|apply calm_vec, calm_cattr_ok].
    apply calm_vec. unfold rd_method. apply (calm_map _ _ (fun m => Forall still_mattr (me_attrs m))). eapply calm_mono.
    + repeat (apply calm_pair; [try apply (calm_lift _ (fun _ => True))|]). apply calm_vec, calm_mattr_code.
    + intros (a & n & d & t) H. cbn in H. cbn [fst snd]. tauto.
  - intros (a & n & sup & i & f & m & t) H. cbn [fst snd]. destruct H as (v & H1 & H2). cbn in H1, H2.
    repeat split; auto.
Qed.
Lemma calm_file_code md l c h rest : rd_classfile md l = Ok ((c, h), rest) -> still_class c -> Forall calm_cattr (cl_attrs c) -> h = [].
Proof.
  intros H Hc Ha. unfold rd_classfile in H. inv_bind H. destruct v as [m l1]. destruct (m =? JVM_MAGIC); [|discriminate].
  inv_bind H. destruct v as [v l2]. inv_bind H. destruct v0 as [p l3]. inv_bind H. destruct v0 as [[k s] l4]. inv_bind H.
  apply ok_inj in H. inversion H; subst. clear H. apply calm_members_code in E2.
  - subst s. destruct (first_table (cl_attrs (k v))) as [b|]; [|congruence].
    clear - E3. unfold bootstrap_methods in E3. cbn [r_refs] in E3.
    assert (HF : forall i h, fill_bsms i b [] h = Ok ([], h)) by (clear; induction b as [|x b IH]; intros i h0; cbn; auto).
    rewrite HF in E3. cbn in E3. congruence.
  - exists v. auto.
Qed.

(** * What is read has distinct labels *)
Definition yields {S A} (r : srd S A) (P : A -> Prop) : Prop :=
  forall s l a s' l', bytes l -> r s l = Ok ((a, s'), l') -> P a /\ bytes l'.
Lemma yields_framed {S A} (r : srd S A) (P : A -> Prop) : (forall s, framed (r s)) -> (forall s l a s' l', bytes l -> r s l = Ok ((a, s'), l') -> P a) -> yields r P.
Proof. intros HF HP s l a s' l' Hb H. split; [eauto|]. eapply framed_bytes; [apply HF|exact Hb|exact H]. Qed.
Lemma yields_lift {S A} (r : rd A) : framed r -> yields (@lift S A r) (fun _ => True).
Proof. intros HF. apply yields_framed; auto. intros s. apply framed_lift. auto. Qed.
Lemma yields_pair {S A B} (r : srd S A) (q : srd S B) P Q : yields r P -> yields q Q -> yields (srd_pair r q) (fun x => P (fst x) /\ Q (snd x)).
Proof.
  intros H1 H2 s l [a b] s' l' Hb H. unfold srd_pair in H. inv_bind H. destruct v as [[x s1] l1]. inv_bind H. destruct v as [[y s2] l2].
  apply ok_inj in H. inversion H; subst. apply H1 in E as [Ha Hb1]; auto. apply H2 in E0 as [Hc Hb2]; auto.
Qed.
Lemma yields_map {S A B} (f : A -> B) (r : srd S A) P (Q : B -> Prop) : yields r P -> (forall a, P a -> Q (f a)) -> yields (srd_map f r) Q.
Proof. intros H1 HQ s l b s' l' Hb H. unfold srd_map in H. inv_bind H. destruct v as [[x s1] l1]. apply ok_inj in H. inversion H; subst. apply H1 in E as [Ha Hb1]; auto. Qed.
Lemma yields_times {S A} n (r : srd S A) P : yields r P -> yields (srd_times n r) (Forall P).
Proof.
  intros Hr. induction n as [|n IH]; intros s l a s' l' Hb H; cbn [srd_times] in H; [inversion H; subst; auto|].
  inv_bind H. destruct v as [[x s1] l1]. inv_bind H. destruct v as [[y s2] l2]. apply ok_inj in H. inversion H; subst. apply Hr in E as [Ha Hb1]; auto.
  apply IH in E0 as [Hc Hb2]; auto.
Qed.
Lemma yields_vec {S A} k (r : srd S A) P : yields r P -> yields (srd_vec k r) (Forall P).
Proof.
  intros Hr s l a s' l' Hb H. unfold srd_vec in H. inv_bind H. destruct v as [n l1]. eapply yields_times; [exact Hr| |exact H]. eapply framed_bytes; [apply framed_u|exact Hb|exact E].
Qed.
Definition unique_mattr (a : mattr code) : Prop := match a with MCode c => label_unique (cd_code c) | _ => True end.
Definition unique_class (c : class) : Prop := Forall (fun m => Forall unique_mattr (me_attrs m)) (cl_methods c).
Lemma mattr_unique md p : yields (rd_mattr (rd_code md) md p) unique_mattr.
Proof.
  apply yields_framed; [intros s; apply framed_attr|]. intros s l a s' l' Hb H. unfold rd_mattr in H.
  apply CodeAccept.rd_attr_inv in H as [_ [(n & r & b & HI & Hbb & H)|(r & H)]]; auto; [|inversion H; exact I].
  unfold mattr_known in HI. cbn [In] in HI. repeat destruct HI as [HI|HI]; try (exfalso; exact HI); apply (f_equal snd) in HI; cbn [snd] in HI; subst r;
    unfold rd_map in H; inv_bind H; destruct v; try (inversion H; exact I).
  destruct p0 as [c s1]. inversion H; subst. eapply read_unique; eauto.
Qed.
Lemma members_unique md p : yields (rd_members md p) (fun k => forall v, unique_class (k v)).
Proof.
  unfold rd_members. eapply yields_map.
  - apply yields_pair; [apply yields_lift; auto with framed|]. apply yields_pair; [apply yields_lift; auto with framed|]. apply yields_pair; [apply yields_lift; auto with framed|].
    apply yields_pair; [apply yields_lift; auto with framed|]. apply yields_pair; [apply yields_lift|].
    + unfold rd_field. apply framed_vec. repeat (apply framed_map || apply framed_pair); auto with framed. apply framed_vec. apply framed_attr.
    + apply yields_pair; [|apply (yields_framed _ (fun _ => True)); [intros s; apply framed_svec; intros; apply framed_attr|auto]].
      apply yields_vec. unfold rd_method. eapply yields_map with (Q := fun m => Forall unique_mattr (me_attrs m)).
      * apply yields_pair; [apply yields_lift; auto with framed|]. apply yields_pair; [apply yields_lift; auto with framed|]. apply yields_pair; [apply yields_lift; auto with framed|].
        apply yields_vec, mattr_unique.
      * intros (a & n & d & t) H. cbn in *. tauto.
  - intros (a & n & sup & i & f & m & t) H v. unfold unique_class. cbn in *. tauto.
Qed.
Lemma file_unique md l c h rest : bytes l -> rd_classfile md l = Ok ((c, h), rest) -> unique_class c.
Proof.
  intros Hb H. unfold rd_classfile in H. inv_bind H. destruct v as [m l1]. destruct (m =? JVM_MAGIC); [|discriminate].
  pose proof (framed_bytes _ _ _ _ framed_u32 Hb E) as Hb1.
  inv_bind H. destruct v as [v l2]. assert (Hb2 : bytes l2) by (eapply framed_bytes; [|exact Hb1|exact E0]; auto with framed).
  inv_bind H. destruct v0 as [p l3]. assert (Hb3 : bytes l3) by (eapply framed_bytes; [|exact Hb2|exact E1]; auto with framed).
  inv_bind H. destruct v0 as [[k s] l4]. inv_bind H. apply ok_inj in H. inversion H; subst. clear H. eapply (members_unique md (pool_of p)) in E2 as [HU _]; auto.
Qed.

(** * The second writing *)
Section Again.
Context (E : wenv).
Definition again {A} (f : cwr A) (a a' : A) : Prop := forall w r, f E a w = Ok r -> f E a' w = Ok r.
Lemma again_refl {A} (f : cwr A) a : again f a a.
Proof. intros w r H. exact H. Qed.
Lemma again_pair {A B} (f : cwr A) (g : cwr B) a a' b b' : again f a a' -> again g b b' -> again (wr_pair f g) (a, b) (a', b').
Proof.
  intros H1 H2 w r H. unfold wr_pair in *. cbn [fst snd] in *. inv_bind H. destruct v as [x w1]. rewrite (H1 _ _ E0). cbn [bind].
  inv_bind H. destruct v as [y w2]. rewrite (H2 _ _ E1). exact H.
Qed.
Lemma again_via {A B} (h : A -> B) (f : cwr B) a a' : again f (h a) (h a') -> again (wr_via h f) a a'.
Proof. intros H w r. unfold wr_via. apply H. Qed.
Lemma again_each {A} (f : cwr A) l l' : Forall2 (again f) l l' -> again (wr_each f) l l'.
Proof.
  induction 1 as [|a a' l l' Ha _ IH]; intros w r H; cbn [wr_each] in *; [exact H|]. inv_bind H. destruct v as [x w1]. rewrite (Ha _ _ E0). cbn [bind].
  inv_bind H. destruct v as [y w2]. rewrite (IH _ _ E1). exact H.
Qed.
Lemma again_list16 {A} (f : cwr A) l l' : Forall2 (again f) l l' -> again (wr_list16 f) l l'.
Proof.
  intros HF w r H. unfold wr_list16 in *. inv_bind H. destruct v as [x w1]. rewrite (again_each f l l' HF _ _ E0). cbn [bind].
  unfold len in *. rewrite (F2_len _ _ _ HF). exact H.
Qed.
Lemma again_cvec {A} k (f : cwr A) l l' : Forall2 (again f) l l' -> again (wr_cvec k f) l l'.
Proof.
  intros HF w r H. unfold wr_cvec in *. assert (HL : len l' = len l) by (unfold len; rewrite (F2_len _ _ _ HF); reflexivity). rewrite HL.
  destruct (len l <? _); [|discriminate]. inv_bind H. destruct v as [x w1]. rewrite (again_each f l l' HF _ _ E0). exact H.
Qed.
Lemma again_attr {A} n (f : cwr A) a a' : again f a a' -> again (wr_attr n f) a a'.
Proof.
  intros Hf w r H. unfold wr_attr in *. inv_bind H. destruct v as [i w1]. inv_bind H. destruct v as [b w2].
  first [rewrite E0|idtac]. cbn [bind]. rewrite (Hf _ _ E1). exact H.
Qed.
End Again.

Definition tame_mattr (a : mattr code) : Prop := match a with MCode c => tame_code c | _ => True end.
Definition tame_class (c : class) : Prop := Forall (fun m => Forall tame_mattr (me_attrs m)) (cl_methods c).
Lemma tame_dyns c : tame_class c -> class_dyns c = [].
Proof.
  unfold tame_class, class_dyns. induction 1 as [|m ms Hm _ IH]; auto. cbn. rewrite IH, app_nil_r. unfold method_dyns.
  induction Hm as [|a l Ha _ IHl]; auto. cbn. rewrite IHl, app_nil_r. destruct a; auto. apply Ha.
Qed.
Lemma canon_still i : still (canon i) <-> still i.
Proof. destruct i; try reflexivity. destruct a, b; reflexivity. Qed.
Lemma still_rel (R : Z -> Z -> Prop) D is is' : Forall (fun i => insn_dyns i = [] /\ sound i) (strip is) ->
  Forall2 (insn_rel R D) (strip is) (strip is') -> Forall still is'.
Proof.
  intros Hs HR. assert (HF : Forall still (strip is')).
  { induction HR as [|i i' l l' Hi _ IH]; [constructor|]. inversion Hs as [|? ? [Hd Hn] Hs']; subst. constructor; [|auto]. clear - Hi Hd Hn.
    assert (HO : forall A (o o' : ordyn A) Q, dyn_of o = [] -> ordyn_rel D Q o o' -> dyn_of o' = []) by (intros A [d|a] [d'|a'] Q; cbn; intros; try discriminate; try contradiction; auto).
    assert (HC : still (canon i) -> canon i' = canon i -> still i') by (intros H1 H2; apply canon_still; rewrite H2; exact H1).
    destruct i; cbn [insn_rel] in Hi; cbn [insn_dyns] in Hd; try contradiction;
      try (apply HC; [apply canon_still; split; [reflexivity|exact I]|exact Hi]);
      destruct i'; try contradiction; (split; [cbn [insn_dyns]|exact I]); try reflexivity; try discriminate Hd. all: eapply HO; [exact Hd|]; apply Hi. }
  apply Forall_forall. intros i Hi. destruct (realb i) eqn:Er; [rewrite Forall_forall in HF; apply HF; unfold strip; apply filter_In; auto|].
  destruct i; try discriminate Er; split; try reflexivity; exact I.
Qed.
Lemma tame_sound heap c : wf_code (wenv_class Release heap) c -> tame_code c -> Forall (fun i => insn_dyns i = [] /\ sound i) (strip (cd_code c)).
Proof.
  intros (_ & _ & (_ & W2) & _) (Td & _). apply Forall_forall. intros i Hi. unfold strip in Hi. apply filter_In in Hi as [Hi _]. split.
  - unfold code_dyns in Td. destruct (insn_dyns i) as [|d l] eqn:Ei; [auto|]. assert (HI : In d (flat_map insn_dyns (cd_code c))) by (apply in_flat_map; exists i; rewrite Ei; split; [auto|left; auto]).
    rewrite Td in HI. contradiction.
  - rewrite Forall_forall in W2. apply W2. auto.
Qed.

Lemma methods_again E heap heap' (ms ms' : list (method code)) :
  Forall (wf_method (fun k => wf_code (wenv_class Release heap) k /\ in_range (cd_code k) /\ code_readable k)) ms ->
  Forall (fun m => Forall tame_mattr (me_attrs m)) ms -> Forall (fun m => Forall unique_mattr (me_attrs m)) ms' ->
  Forall2 (same_method heap heap') ms ms' -> Forall2 (again E (wr_method wr_code)) ms ms'.
Proof.
  intros Hw Ht Hu H. induction H as [|m m' ms ms' (A1 & A2 & A3 & A4) _ IH]; [constructor|].
  inversion Hw as [|? ? W1 W2]; inversion Ht as [|? ? T1 T2]; inversion Hu as [|? ? U1 U2]; subst. constructor; [|auto].
  unfold wr_method. apply again_via. rewrite A1, A2, A3. do 3 (apply again_pair; [apply again_refl|]). apply again_cvec.
  destruct W1 as (_ & _ & _ & _ & W). clear - W T1 U1 A4. induction A4 as [|a a' l l' Ha _ IH]; [constructor|].
  inversion W as [|? ? W1 W2]; inversion T1 as [|? ? T2 T3]; inversion U1 as [|? ? U2 U3]; subst.
  constructor; [|auto]. destruct a, a'; cbn [same_mattr] in Ha; try contradiction; try discriminate; try apply again_refl; try (injection Ha; intros; subst; apply again_refl).
  intros w r. cbn [wr_mattr]. apply again_attr. intros w0 r0. destruct W1 as (W1 & _). cbn in T2, U2. eapply code_written; eauto.
Qed.
Lemma class_still heap heap' tbl c c' : wf_class heap c -> tame_class c -> same_class heap heap' tbl c c' -> still_class c'.
Proof.
  intros (_ & _ & _ & _ & _ & _ & (_ & Hw) & _) Ht (_ & _ & _ & _ & _ & _ & H & _). unfold tame_class, still_class in *.
  induction H as [|m m' ms ms' (A1 & A2 & A3 & A4) _ IH]; [constructor|]. inversion Hw as [|? ? W1 W2]; inversion Ht as [|? ? T1 T2]; subst. constructor; [|auto].
  destruct W1 as (_ & _ & _ & _ & W). clear - W T1 A4. induction A4 as [|a a' l l' Ha _ IH]; [constructor|].
  inversion W as [|? ? W1 W2]; inversion T1 as [|? ? T2 T3]; subst.
  constructor; [|auto]. destruct a, a'; cbn [same_mattr] in Ha; try contradiction; try discriminate; try exact I. cbn [still_mattr].
  destruct Ha as (_ & _ & HR & _). destruct W1 as (W1 & _). eapply still_rel; [|exact HR]. eapply tame_sound; eauto.
Qed.

(** C64: a class with code that was written is written as it was. *)
Theorem C64_code_stable_partial : forall fuel md c out, (1 <= fuel)%nat ->
  wf_class no_heap c -> tame_class c -> len (class_table no_heap c) < 65536 -> count_ok no_heap c ->
  wr_classfile fuel md no_heap c = Ok out -> md = Debug \/ pool_fits fuel md no_heap c -> bytes out -> len out < 4294967296 ->
  forall md', exists c', rd_classfile md' out = Ok ((c', []), []) /\ wr_classfile fuel md (heap_of []) c' = Ok out /\
  forall n, Nat.iter n (fun r => l <- r ;; rewrite_file fuel md md' l) (Ok out) = Ok out.
Proof.
  intros fuel md c out Hfu Hw Ht Hl Hc Hout Hfit Hby Hsm md'. destruct (C61_roundtrip_partial fuel md no_heap c Hfu Hw Hl Hc) as [_ H].
  destruct (H out Hout Hfit Hsm md' []) as (c' & h & HR & HS). rewrite app_nil_r in HR.
  pose proof (file_unique _ _ _ _ _ Hby HR) as HU. pose proof (class_still _ _ _ _ _ Hw Ht HS) as HK.
  pose proof HS as (S1 & S2 & S3 & S4 & S5 & S6 & S7 & S8).
  assert (h = []).
  { eapply calm_file_code; [exact HR|exact HK|]. rewrite S8. apply Forall_app. split.
    + unfold others. clear. induction (cl_attrs c) as [|a l IH]; cbn; auto. destruct a; cbn [is_table negb]; auto; constructor; cbn; auto.
    + pose proof (table_wf _ _ Hw) as HT. destruct (class_table no_heap c) as [|b0 tl]; constructor; [|constructor].
      cbn. eapply Forall_impl; [|exact HT]. intros b Hb. apply Hb. }
  subst h. assert (HW : wr_classfile fuel md (heap_of []) c' = Ok out).
  { change (wr_classfile fuel md (heap_of []) c = Ok out) in Hout. rewrite <- (with_table_same fuel md (heap_of []) c (tame_dyns _ Ht) Hc) in Hout. unfold wr_classfile in *. rewrite S1.
    cbn [with_table cl_version] in Hout. destruct (wr_version (cl_version c)) as [v| |]; cbn [bind] in *; try discriminate.
    inv_bind Hout. destruct v0 as [b w]. assert (wr_body fuel (wenv_class md (heap_of [])) c' = Ok (b, w)) as ->; [|exact Hout].
    unfold wr_body in *. inv_bind E. destruct v0 as [b1 w1]. rewrite S8. cbn [with_table cl_attrs] in E0.
    assert (HA : again (wenv_class md (heap_of [])) wr_members (with_table c (class_table no_heap c)) c').
    { unfold wr_members. apply again_via. cbn [with_table cl_access cl_name cl_super cl_itfs cl_fields cl_methods cl_attrs].
      rewrite S2, S3, S4, S5, S6, S8. do 5 (apply again_pair; [apply again_refl|]). apply again_pair; [|apply again_refl]. apply again_list16.
      eapply methods_again; [apply Hw|exact Ht|exact HU|exact S7]. }
    rewrite (HA _ _ E0). exact E. }
  eexists. split; [exact HR|]. split; [exact HW|].
  assert (HX : rewrite_file fuel md md' out = Ok out) by (unfold rewrite_file; rewrite HR; cbn [bind]; exact HW).
  induction n as [|n IH]; [reflexivity|]. cbn. unfold Nat.iter in IH. rewrite IH. exact HX.
Qed.
Print Assumptions C64_code_stable_partial.
Definition ex_tame : code := {| cd_stack := 2; cd_locals := 3; cd_code := cd_code ex_code; cd_catches := [ex_catch];
  cd_attrs := [KVisible [{| ta_target := KtCatch ex_catch; ta_path := []; ta_type := TRef [65]; ta_vals := [] |}];
    KRaw {| ra_name := str "Foo"; ra_body := [1; 2] |}; KLocals [ex_var]] |}.
Definition ex_tame_class : class := {|
  cl_version := cl_version ex_codeless; cl_access := 33; cl_name := [65]; cl_super := Some [66]; cl_itfs := [[67]];
  cl_fields := cl_fields ex_codeless;
  cl_methods := [{| me_access := 9; me_name := [109]; me_desc := TMethod [] None; me_attrs := [MCode ex_tame; MSynthetic] |}];
  cl_attrs := ex_attrs |}.
Lemma ex_tame_wf : wf_code (wenv_class Release no_heap) ex_tame /\ in_range (cd_code ex_tame) /\ code_readable ex_tame.
Proof.
  destruct ex_code_wf as (_ & HR & _).
  assert (HT : Forall (fun i => incl (targets i) (labels_in (cd_code ex_code))) (cd_code ex_code)).
  { unfold ex_code. cbn [cd_code]. repeat (apply Forall_cons || apply Forall_nil); intros l Hl; cbn in *; intuition (subst; auto). }
  split; [|split; [exact HR|split; repeat constructor; cbn; try discriminate; intros; auto]].
  split; [cbn; unfold u16; lia|]. split; [cbn; unfold u16; lia|]. split.
  { split; [repeat constructor; cbn; intuition lia|]. rewrite Forall_forall in HT. apply Forall_forall. intros i Hi. specialize (HT i Hi).
    assert (wf_insn (we_heap (wenv_class Release no_heap)) i /\ sound i /\ wf_switch i); [|intuition auto].
    cbn in Hi. repeat destruct Hi as [<-|Hi]; try destruct Hi; cbn; unfold i32; try (repeat split; auto; try lia; repeat constructor; cbn; intuition lia). }
  split; [cbn; lia|]. split.
  { apply Forall_cons; [|apply Forall_nil]. split; [cbn; auto|]. split; [cbn; auto|]. split; [cbn; auto|]. cbn [c_type ex_catch]. ascii. }
  split; [cbn; lia|]. unfold ex_tame. cbn [cd_attrs]. repeat (apply Forall_cons || apply Forall_nil).
  - split; [cbn; lia|]. apply Forall_cons; [|apply Forall_nil]. split; [exists 0; split; [reflexivity|unfold u16; lia]|].
    split; [cbn; lia|]. split; [constructor|]. split; [split; [split; [apply wf_name; reflexivity|cbn; lia]|ascii]|]. split; [cbn; lia|]. split; constructor.
  - split; [ascii|]. cbn. intuition discriminate.
  - split; [discriminate|]. split; [cbn; lia|]. apply Forall_cons; [|apply Forall_nil]. split; [exists 0, 5; repeat split; auto; lia|].
    split; [ascii|]. split; [cbn; unfold u16; lia|]. split; [split; [exact I|ascii]|]. split; [exact I|]. left; discriminate.
Qed.
Example C64_code_ex : wf_class no_heap ex_tame_class /\ tame_class ex_tame_class /\ len (class_table no_heap ex_tame_class) < 65536 /\
  count_ok no_heap ex_tame_class /\ exists out, wr_classfile 1 Debug no_heap ex_tame_class = Ok out /\ bytes out /\ len out < 4294967296.
Proof.
  split; [|split; [|split; [cbn; lia|split; [reflexivity|eexists; split; [vm_compute; reflexivity|split; [|vm_compute; reflexivity]]]]]].
  - unfold wf_class, ex_tame_class. cbn [cl_version cl_access cl_name cl_super cl_itfs cl_fields cl_methods cl_attrs minor ex_codeless].
    split; [unfold u16; lia|]. split; [split; [unfold u16; lia|reflexivity]|]. split; [ascii|]. split; [cbn; ascii|].
    split; [split; [cbn; lia|repeat constructor; ascii]|].
    split; [split; [cbn; lia|]|split; [split; [cbn; lia|]|split; [split; [cbn; lia|]|discriminate]]].
    + constructor; [|constructor]. split; [split; [cbn; unfold u16; lia|reflexivity]|]. split; [cbn; ascii|].
      split; [split; [exact I|ascii]|]. split; [cbn; lia|]. repeat constructor.
    + constructor; [|constructor]. split; [split; [cbn; unfold u16; lia|reflexivity]|]. split; [cbn; ascii|].
      split; [split; [cbn; repeat constructor|ascii]|]. split; [cbn; lia|]. constructor; [exact ex_tame_wf|]. constructor; [exact I|constructor].
    + repeat constructor; try apply ex_bsm_static; cbn; ascii.
  - constructor; [|constructor]. constructor; [|repeat constructor]. split; [reflexivity|]. split; [repeat constructor|]. split; [|split; [reflexivity|cbn; lia]].
    cbn. intros x y [<-|[]] [<-|[]] _. reflexivity.
  - repeat (apply Forall_cons; [unfold u8; lia|]). apply Forall_nil.
Qed.
(** Neither of the conditions can be left out: two handlers at the same places
    become one and the same, and the annotation of the second one becomes an
    annotation of the first; variables that are not last become last. *)
Definition ex_with (c : code) : class := {|
  cl_version := cl_version ex_codeless; cl_access := 33; cl_name := [65]; cl_super := Some [66]; cl_itfs := [];
  cl_fields := []; cl_methods := [{| me_access := 9; me_name := [109]; me_desc := TMethod [] None; me_attrs := [MCode c] |}]; cl_attrs := [] |}.
Definition ex_twin : catch := {| c_start := 7; c_end := 9; c_handler := 5; c_type := Some [69] |}.
Definition ex_twins : code := {| cd_stack := 2; cd_locals := 3;
  cd_code := [ILabel 7; IThrow; ILabel 9; ILabel 5; IThrow]; cd_catches := [ex_catch; ex_twin];
  cd_attrs := [KVisible [{| ta_target := KtCatch ex_twin; ta_path := []; ta_type := TRef [65]; ta_vals := [] |}]] |}.
Theorem C64_code_refuted : forall md, Forall (fun c => exists out out', wr_classfile 1 md no_heap (ex_with c) = Ok out /\
    rewrite_file 1 md md out = Ok out' /\ out' <> out) [ex_twins; ex_code].
Proof.
  intros md. apply Forall_cons; [|apply Forall_cons; [|apply Forall_nil]]; destruct md; eexists; eexists;
    (split; [vm_compute; reflexivity|split; [vm_compute; reflexivity|vm_compute; discriminate]]).
Qed.
Print Assumptions C64_code_refuted.
