(** The texts in the constant pool of a written file are those of the class, and
    the names of attributes (C95). *)
From Coq Require Import String.
From Verif Require Import Base BaseLemmas Wtf8Spec Wtf8Model Wtf8Proofs Wtf8Proofs2 MutfModel MutfProofs PrimModel PrimProofs TypeModel TypeSpec CpModel CpSpec
  SigModel SigSpec SigProofs AnnModel AnnSpec AnnProofs AttrModel AttrSpec FrameModel InsnModel InsnSpec CodeModel CodeProofs CodeSpec ClassModel ClassSpec
  WriteSpec LaxProofs ReadText ReadTyped TidySpec TidyProps FileSpec DrawnSpec DrawnProofs DrawnProps PutSpec PutProofs.
From Coq Require Import Lia.

(** ** Nothing else is put into the pool *)
Theorem C95_texts : forall (Txt : list Z -> Prop) fuel md heap c out,
  Forall Txt fixed_texts -> texts_heap Txt heap -> texts_class Txt c ->
  (forall s b, Txt s -> string_to_modified_utf8 s = Ok b -> len b < 65536) ->
  wr_classfile fuel md heap c = Ok out ->
  forall x, In x (pool_texts out) -> exists s, Txt s /\ string_to_modified_utf8 s = Ok x.
Proof. exact file_texts. Qed.
(** The class of [ex_foreign] (TidyProps), with a call site: the text "unused" of
    that file is not among its texts, and is not written. *)
Definition ex_texts : list (list Z) := fixed_texts ++ map str ["A"; "B"; "m"; "()V"; "b"; "()I"; "x"; "(I)J"]%string.
Definition ex_Txt (s : list Z) : Prop := existsb (list_eqb Z.eqb s) ex_texts = true.
Ltac tx := match goal with
  | |- _ /\ _ => split; tx
  | |- Forall _ [] => apply Forall_nil
  | |- Forall _ (_ :: _) => apply Forall_cons; tx
  | |- True => exact I
  | |- ex_Txt _ => vm_compute; reflexivity
  | |- desc_text _ _ => split; [vm_compute; reflexivity|let s := fresh in let H := fresh in intros s H; vm_compute in H; injection H as <-; vm_compute; reflexivity]
  | |- _ => progress (unfold texts_class, n_class, n_method, n_code, n_dyn, n_bsm, n_member;
      cbn [n_mattr n_cattr n_insn n_or n_const t_opt cl_name cl_super cl_itfs cl_fields cl_methods cl_attrs me_name me_desc me_attrs cd_code cd_catches cd_attrs c_type d_name d_desc
        b_handle b_args h_member m_owner m_name m_desc]); tx
  end.
Example C95_ex : exists c h out, rd_classfile Debug ex_foreign = Ok ((c, h), []) /\ Forall ex_Txt fixed_texts /\ texts_heap ex_Txt (heap_of h) /\ texts_class ex_Txt c /\
  (forall s b, ex_Txt s -> string_to_modified_utf8 s = Ok b -> len b < 65536) /\ wr_classfile 1 Release (heap_of h) c = Ok out /\
  pool_texts out = map str ["A"; "B"; "m"; "()V"; "Code"; "x"; "(I)J"; "b"; "()I"; "BootstrapMethods"]%string.
Proof.
  assert (HL : forall s b, ex_Txt s -> string_to_modified_utf8 s = Ok b -> len b < 65536).
  { intros s b H E. apply existsb_exists in H as (s' & Hi & He). apply (list_eqb_eq Z.eqb Z.eqb_eq) in He. subst s'. revert b E. pattern s. revert s Hi. apply Forall_forall.
    repeat (apply Forall_cons; [intros b E; vm_compute in E; injection E as <-; vm_compute; reflexivity|]). apply Forall_nil. }
  do 3 eexists. split; [vm_compute; reflexivity|]. split; [repeat (apply Forall_cons; [vm_compute; reflexivity|]); apply Forall_nil|]. split; [|split; [|split; [exact HL|split; vm_compute; reflexivity]]].
  - intros cell b Hb. unfold heap_of in Hb. cbn [assoc] in Hb.
    destruct (cell =? 0); [|discriminate]. injection Hb as <-. tx.
  - tx.
Qed.
Print Assumptions C95_texts.

(** ** A file that was read and is written again

    What satisfies less satisfies more. *)
Section More.
Context (T T' : list Z -> Prop) (D D' : ty -> Prop) (F F' : rsig -> Prop) (M M' : method_sig -> Prop) (C C' : class_sig -> Prop).
Hypothesis (HT : forall s, T s -> T' s) (HD : forall s, D s -> D' s) (HF : forall s, F s -> F' s) (HM : forall s, M s -> M' s) (HC : forall s, C s -> C' s).
Lemma o_opt {A} (P P' : A -> Prop) o : (forall a, P a -> P' a) -> t_opt P o -> t_opt P' o. Proof. destruct o; cbn; auto. Qed.
Lemma o_all {A} (P P' : A -> Prop) l : (forall a, P a -> P' a) -> Forall P l -> Forall P' l. Proof. intros H. apply Forall_impl. exact H. Qed.
Lemma o_member m : n_member T D m -> n_member T' D' m. Proof. unfold n_member. intuition. Qed.
Lemma o_const k : n_const T D k -> n_const T' D' k. Proof. destruct k; cbn [n_const]; auto using o_member. Qed.
Lemma o_or {A} (P P' : A -> Prop) o : (forall a, P a -> P' a) -> n_or T D P o -> n_or T' D' P' o. Proof. destruct o; cbn; unfold n_dyn; intuition. Qed.
Lemma o_bsm b : n_bsm T D b -> n_bsm T' D' b.
Proof. intros [H1 H2]. split; [apply o_member, H1|]. revert H2. apply o_all. intros a. apply o_or, o_const. Qed.
Lemma o_aval v : n_aval T D v -> n_aval T' D' v.
Proof.
  induction v using aval_ind'; intros HN; inversion HN; subst; constructor; auto.
  - eapply o_opt; [|eassumption]. auto.
  - rewrite Forall_forall in *. intros kv Hi. split; [apply HT|apply H; auto]; match goal with HX : forall x, In x vs -> T _ /\ _ |- _ => apply HX; auto end.
  - rewrite Forall_forall in *. auto.
Qed.
Lemma o_vals vs : n_vals T D vs -> n_vals T' D' vs. Proof. apply o_all. intros kv [H1 H2]. split; auto using o_aval. Qed.
Lemma o_annot a : n_annot T D a -> n_annot T' D' a. Proof. intros [H1 H2]. split; auto using o_vals. Qed.
Lemma o_tannot {X} (a : tannot X) : n_tannot T D a -> n_tannot T' D' a. Proof. intros [H1 H2]. split; auto using o_vals. Qed.
Lemma o_annots l : Forall (n_annot T D) l -> Forall (n_annot T' D') l. Proof. apply o_all, o_annot. Qed.
Lemma o_tannots {X} (l : list (tannot X)) : Forall (n_tannot T D) l -> Forall (n_tannot T' D') l. Proof. apply o_all, o_tannot. Qed.
Lemma o_params l : Forall (Forall (n_annot T D)) l -> Forall (Forall (n_annot T' D')) l. Proof. apply o_all, o_annots. Qed.
Lemma o_texts l : Forall T l -> Forall T' l. Proof. apply o_all, HT. Qed.
Lemma o_optT o : t_opt T o -> t_opt T' o. Proof. apply o_opt, HT. Qed.
Lemma o_fattr a : n_fattr T D F a -> n_fattr T' D' F' a.
Proof. destruct a; cbn [n_fattr]; auto using o_const, o_annots, o_tannots; apply HT. Qed.
Lemma o_field f : n_field T D F f -> n_field T' D' F' f. Proof. intros (H1 & H2 & H3). split; [auto|split; [auto|]]. revert H3. apply o_all, o_fattr. Qed.
Lemma o_ctype c : n_ctype T D c -> n_ctype T' D' c. Proof. destruct c; cbn [n_ctype]; [intros [H1 H2]; auto|auto]. Qed.
Lemma o_elem t : n_elem T D t -> n_elem T' D' t.
Proof. destruct t; cbn [n_elem]; auto; (intros [H|(s & H1 & H2)]; [left; auto|right; exists s; auto]). Qed.
Lemma o_insn i : n_insn T D i -> n_insn T' D' i.
Proof.
  destruct i; cbn [n_insn]; auto; try (apply o_or; auto using o_const, o_ctype, o_elem, o_member; fail). intros [H1 H2]. split; auto.
Qed.
Lemma o_var v : n_var T D F v -> n_var T' D' F' v. Proof. intros (H1 & H2 & H3). split; [auto|split]; [revert H2|revert H3]; apply o_opt; auto. Qed.
Lemma o_kattr a : n_kattr T D F a -> n_kattr T' D' F' a.
Proof. destruct a; cbn [n_kattr]; auto using o_tannots; [apply o_all, o_var|apply HT]. Qed.
Lemma o_code c : n_code T D F c -> n_code T' D' F' c.
Proof.
  intros (H1 & H2 & H3). split; [revert H1; apply o_all, o_insn|split; [revert H2; apply o_all; intros a; apply o_optT|revert H3; apply o_all, o_kattr]].
Qed.
Lemma o_mattr a : n_mattr T D F M a -> n_mattr T' D' F' M' a.
Proof.
  destruct a; cbn [n_mattr]; auto using o_code, o_annots, o_tannots, o_params, o_texts, o_aval; [apply o_all; intros x; apply o_optT|apply HT].
Qed.
Lemma o_method m : n_method T D F M m -> n_method T' D' F' M' m. Proof. intros (H1 & H2 & H3). split; [auto|split; [auto|]]. revert H3. apply o_all, o_mattr. Qed.
Lemma o_module m : n_module T m -> n_module T' m.
Proof.
  intros (H1 & H2 & H3 & H4 & H5 & H6 & H7). unfold n_module. repeat split; auto using o_texts, o_optT; [revert H3|revert H4|revert H5|revert H7]; apply o_all; intros a [X Y]; split; auto using o_texts, o_optT.
Qed.
Lemma o_cattr a : n_cattr T D C a -> n_cattr T' D' C' a.
Proof.
  destruct a; cbn [n_cattr]; auto using o_annots, o_tannots, o_texts, o_module; try apply HT.
  - apply o_all. intros i (H1 & H2 & H3). split; [auto|split; auto using o_optT].
  - intros [H1 H2]. split; [auto|]. revert H2. apply o_opt. intros x [X Y]. auto.
  - apply o_all, o_bsm.
Qed.
Lemma o_class c : n_class T D F M C c -> n_class T' D' F' M' C' c.
Proof.
  intros (H1 & H2 & H3 & H4 & H5 & H6). split; [auto|]. split; [apply o_optT, H2|]. split; [apply o_texts, H3|].
  split; [revert H4; apply o_all, o_field|]. split; [revert H5; apply o_all, o_method|revert H6; apply o_all, o_cattr].
Qed.
End More.

Lemma text_lax l s : bytes l -> text_of l s -> lax s.
Proof.
  intros Hl (b & Hb & Hs). eapply decoded_lax; [|exact Hs]. eapply texts_short; [|exact Hb].
  unfold bytes in *. rewrite Forall_forall in *. intros x Hx. apply Hl. rewrite <- (firstn_skipn 10 l). apply in_or_app. right. exact Hx.
Qed.
Lemma sig_keeps {A} (P : A -> Prop) (q : sp A) l g : bytes l -> keeps P q -> sig_from q l g -> P g.
Proof.
  intros Hl Hq (s & Hs & H). apply text_lax in Hs; auto. destruct (lossy_chars s Hs) as (t & Ht & cps & Hc & ->). unfold sig_of in H. rewrite Ht in H. cbn [bind] in H.
  rewrite codepoints_utf8 in H by apply chars_cps, Hc. cbn [bind] in H. unfold from_str in H. inv_bind H. destruct v as [a r]. apply ok_inj in H. subst. apply (Hq cps g r Hc E).
Qed.
Theorem C95_rewrite : forall fuel md md' l c h rest out, bytes l -> rd_classfile md l = Ok ((c, h), rest) -> md = Debug \/ pool_count l < 65535 ->
  (forall s b, put_again md l s -> string_to_modified_utf8 s = Ok b -> len b < 65536) ->
  wr_classfile fuel md' (heap_of h) c = Ok out ->
  forall x, In x (pool_texts out) -> exists s, put_again md l s /\ string_to_modified_utf8 s = Ok x.
Proof.
  intros fuel md md' l c h rest out Hl H Hmd Hs HW. destruct (C94_drawn md l c h rest Hl H Hmd) as [HN HH].
  assert (HD : forall t, desc_of md l t -> desc_text (put_again md l) t) by (intros t Ht; split; [apply pa_desc, Ht|intros s E; exact (pa_shown md l t s Ht E)]).
  apply (C95_texts _ fuel md' (heap_of h) c out); [| | |exact Hs|exact HW].
  - apply Forall_forall. intros s. apply pa_fixed.
  - intros cell b Hb. eapply o_bsm; [| |exact (HH _ _ Hb)]; [intros s; apply pa_text|exact HD].
  - eapply o_class; [| | | | |exact HN]; [intros s; apply pa_text|exact HD| | |]; intros g Hg; (split; [|constructor; exact Hg]).
    + exact (sig_keeps _ _ l g Hl (ReadText.k_rsig md) Hg).
    + exact (sig_keeps _ _ l g Hl (ReadText.k_method md) Hg).
    + exact (sig_keeps _ _ l g Hl (ReadText.k_classsig md) Hg).
Qed.
Example C95_rewrite_ex : exists c h out, rd_classfile Debug ex_foreign = Ok ((c, h), []) /\ (forall s b, put_again Debug ex_foreign s -> string_to_modified_utf8 s = Ok b -> len b < 65536) /\
  wr_classfile 1 Release (heap_of h) c = Ok out /\ pool_texts out <> [].
Proof.
  do 3 eexists. split; [vm_compute; reflexivity|]. split; [|split; [vm_compute; reflexivity|vm_compute; discriminate]].
  assert (HT : forall P, Forall P (pool_texts ex_foreign) -> forall s, text_of ex_foreign s -> P s).
  { intros P HP s (b & Hb & Hs). rewrite Forall_forall in HP. assert (HA : b = s); [|subst; auto]. clear HP. revert s Hs. pattern b. revert b Hb. apply Forall_forall. rewrite (proj2 (proj2 (proj2 C94_ex))). cbn [map].
    repeat (apply Forall_cons; [intros s E; vm_compute in E; injection E as <-; vm_compute; reflexivity|]). apply Forall_nil. }
  rewrite (proj2 (proj2 (proj2 C94_ex))) in HT. cbn [map] in HT.
  intros s b [s' Hi|s' Ht|t (s' & Ht & Hp)|t s' (s2 & Ht & Hp) Hd|g (s' & Ht & Hp)|g (s' & Ht & Hp)|g (s' & Ht & Hp)] E.
  - revert b E. pattern s'. revert s' Hi. apply Forall_forall. repeat (apply Forall_cons; [intros b E; vm_compute in E; injection E as <-; vm_compute; reflexivity|]). apply Forall_nil.
  - revert b E. pattern s'. revert s' Ht. apply HT. repeat (apply Forall_cons; [intros b E; vm_compute in E; injection E as <-; vm_compute; reflexivity|]). apply Forall_nil.
  - revert t b Hp E. pattern s'. revert s' Ht. apply HT.
    repeat (apply Forall_cons; [intros t b Hp E; vm_compute in Hp; (discriminate || (injection Hp as <-; vm_compute in E; injection E as <-; vm_compute; reflexivity))|]). apply Forall_nil.
  - revert t b s' Hp Hd E. pattern s2. revert s2 Ht. apply HT.
    repeat (apply Forall_cons; [intros t b s' Hp Hd E; vm_compute in Hp; (discriminate || (injection Hp as <-; vm_compute in Hd; injection Hd as <-; vm_compute in E; injection E as <-; vm_compute; reflexivity))|]). apply Forall_nil.
  - revert g b Hp E. pattern s'. revert s' Ht. apply HT.
    repeat (apply Forall_cons; [intros t b Hp E; vm_compute in Hp; (discriminate || (injection Hp as <-; vm_compute in E; injection E as <-; vm_compute; reflexivity))|]). apply Forall_nil.
  - revert g b Hp E. pattern s'. revert s' Ht. apply HT.
    repeat (apply Forall_cons; [intros t b Hp E; vm_compute in Hp; (discriminate || (injection Hp as <-; vm_compute in E; injection E as <-; vm_compute; reflexivity))|]). apply Forall_nil.
  - revert g b Hp E. pattern s'. revert s' Ht. apply HT.
    repeat (apply Forall_cons; [intros t b Hp E; vm_compute in Hp; (discriminate || (injection Hp as <-; vm_compute in E; injection E as <-; vm_compute; reflexivity))|]). apply Forall_nil.
Qed.
Print Assumptions C95_rewrite.
