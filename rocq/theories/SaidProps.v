(** Everything a class says stands in the constant pool of the file it is written
    to (C96): the converse of C95. *)
From Coq Require Import String.
From Verif Require Import Base BaseLemmas Wtf8Spec MutfModel PrimModel TypeModel TypeSpec CpModel CpSpec SigModel SigSpec AnnModel AnnSpec AttrModel AttrSpec FrameModel InsnModel InsnSpec
  CodeModel CodeSpec ClassModel ClassSpec ClassProofs ClassProps WriteSpec LaxProofs WriteKinds WriteProps InsnProps FileSpec DrawnSpec DrawnProps.
From Coq Require Import Lia Permutation.

(** A class name of [checkcast] and [instanceof] that starts with '[' is read as
    the type of an array (src/code/convert.rs), not as a name. *)
Definition named_object (i : insn) : Prop :=
  match i with ICheckCast (Stat (CtObject s)) | IInstanceOf (Stat (CtObject s)) => hd 0 s <> 91 | _ => True end.
Definition objects_named (c : class) : Prop :=
  forall m k, In m (cl_methods c) -> In (MCode k) (me_attrs m) -> Forall named_object (cd_code k).

Lemma back2 {A} (R : A -> A -> Prop) (P Q : A -> Prop) l l' : Forall2 R l l' -> Forall Q l' -> (forall a b, In a l -> R a b -> Q b -> P a) -> Forall P l.
Proof.
  induction 1 as [|a b l l' Hr _ IH]; intros HQ HP; [constructor|]. inversion HQ; subst. constructor; [eapply HP; [left; reflexivity|exact Hr|assumption]|].
  apply IH; [assumption|]. intros x y Hx. apply HP. right. exact Hx.
Qed.
Section Said.
Context (T : list Z -> Prop) (D : ty -> Prop) (F : rsig -> Prop) (M : method_sig -> Prop) (C : class_sig -> Prop).
Context (heap heap' : Z -> option bsm) (R : Z -> Z -> Prop).
Lemma b_dyn d d' : same_dyn heap heap' d d' -> n_dyn T D d' -> n_dyn T D d.
Proof. intros (H1 & H2 & _). unfold n_dyn. rewrite H1, H2. auto. Qed.
Lemma b_or {A} (Q : A -> A -> Prop) (P P' : A -> Prop) o o' : ordyn_rel (same_dyn heap heap') Q o o' -> (forall a a', o = Stat a -> Q a a' -> P' a' -> P a) -> n_or T D P' o' -> n_or T D P o.
Proof. destruct o, o'; cbn; try contradiction; eauto using b_dyn. Qed.
Lemma b_insn i i' : insn_rel R (same_dyn heap heap') i i' -> sound i -> named_object i -> n_insn T D i' -> n_insn T D i.
Proof.
  intros H Hs Hn HI. destruct i; try exact I; cbn [sound] in Hs; try contradiction; destruct i'; cbn [insn_rel] in H; try contradiction; cbn [n_insn] in *;
    repeat match goal with Hx : _ /\ _ |- _ => destruct Hx end; try (eapply b_dyn; eassumption); try (eapply b_or; [eassumption| |eassumption]; intros; subst; auto; fail).
  - eapply b_or; [eassumption| |eassumption]. intros a a' -> [H1 H2] Ha. destruct a; [|subst; exact Ha]. cbn in Hn. destruct H2 as [H2|H2]; [contradiction|subst; exact Ha].
  - eapply b_or; [eassumption| |eassumption]. intros a a' -> [H1 H2] Ha. destruct a; [|subst; exact Ha]. cbn in Hn. destruct H2 as [H2|H2]; [contradiction|subst; exact Ha].
Qed.
Lemma b_tannots x y : Forall2 (code_tannot_rel R) x y -> Forall (n_tannot T D) y -> Forall (n_tannot T D) x.
Proof. intros H HY. eapply back2; [exact H|exact HY|]. intros a b _ (_ & _ & H1 & H2). unfold n_tannot. rewrite H1, H2. auto. Qed.
Lemma b_kattr a a' : kattr_rel R a a' -> n_kattr T D F a' -> n_kattr T D F a.
Proof. destruct a, a'; cbn; try contradiction; eauto using b_tannots. intros ->. auto. Qed.
End Said.
Section Class.
Context (T : list Z -> Prop) (D : ty -> Prop) (F : rsig -> Prop) (M : method_sig -> Prop) (C : class_sig -> Prop).
Context (heap heap' : Z -> option bsm).
Lemma b_code c c' : code_rel (same_dyn heap heap') c c' -> Forall sound (cd_code c) -> Forall named_object (cd_code c) -> n_code T D F c' -> n_code T D F c.
Proof.
  intros (_ & _ & HI & HC & os & vs & vs0 & HO & HP & HV & HA) Hs Hn (N1 & N2 & N3). rewrite Forall_forall in Hs, Hn. split; [|split].
  - assert (HB : Forall (n_insn T D) (strip (cd_code c))).
    { eapply back2; [exact HI| |].
      - apply Forall_forall. intros i Hi. apply filter_In in Hi as [Hi _]. rewrite Forall_forall in N1. exact (N1 i Hi).
      - intros a b Hi Hr Hb. apply filter_In in Hi as [Hi _]. eapply b_insn; [exact Hr|apply Hs, Hi|apply Hn, Hi|exact Hb]. }
    apply Forall_forall. intros i Hi. destruct (realb i) eqn:E; [|destruct i; try exact I; discriminate]. rewrite Forall_forall in HB. apply HB, filter_In. auto.
  - eapply back2; [exact HC|exact N2|]. intros a b _ (_ & _ & _ & H). cbn beta. rewrite H. auto.
  - rewrite HA in N3. apply Forall_app in N3 as [N3 N4].
    assert (H1 : Forall (n_kattr T D F) (others_of (cd_attrs c))) by (eapply back2; [exact HO|exact N3|]; intros a b _; apply b_kattr).
    assert (H2 : Forall (n_var T D F) (locals_of (cd_attrs c))).
    { eapply Permutation_Forall; [apply Permutation_sym, HP|]. assert (H3 : Forall (n_var T D F) vs) by (destruct vs; [constructor|inversion N4; subst; assumption]).
      eapply back2; [exact HV|exact H3|]. intros a b _ (_ & _ & X1 & X2 & X3 & _). unfold n_var. rewrite X1, X2, X3. auto. }
    apply Forall_forall. intros a Ha. rewrite Forall_forall in H1, H2. destruct a; try (apply H1, filter_In; auto; fail).
    cbn. apply Forall_forall. intros v Hv. apply H2. unfold locals_of. apply in_flat_map. eexists. split; [exact Ha|exact Hv].
Qed.
Lemma b_mattr a a' : same_mattr heap heap' a a' -> (forall k, a = MCode k -> Forall sound (cd_code k) /\ Forall named_object (cd_code k)) -> n_mattr T D F M a' -> n_mattr T D F M a.
Proof.
  intros H Hk HN. assert (HE : a' = a \/ exists k k', a = MCode k /\ a' = MCode k').
  { destruct a, a'; cbn in H; try contradiction; try (left; symmetry; exact H). right. eauto. }
  destruct HE as [->|(k & k' & -> & ->)]; [exact HN|]. destruct (Hk k eq_refl). cbn [n_mattr] in *. cbn in H. eapply b_code; eauto.
Qed.
Lemma b_class tbl c c' : same_class heap heap' tbl c c' -> tbl = class_table heap c ->
  (forall m k, In m (cl_methods c) -> In (MCode k) (me_attrs m) -> Forall sound (cd_code k) /\ Forall named_object (cd_code k)) ->
  n_class T D F M C c' -> n_class T D F M C c /\ Forall (n_bsm T D) tbl.
Proof.
  intros (_ & _ & E1 & E2 & E3 & E4 & HM & HA) Ht Hk (N1 & N2 & N3 & N4 & N5 & N6). rewrite E1 in N1. rewrite E2 in N2. rewrite E3 in N3. rewrite E4 in N4. rewrite HA in N6.
  apply Forall_app in N6 as [N6 N7]. assert (HT : Forall (n_bsm T D) tbl) by (destruct tbl; [constructor|inversion N7; subst; assumption]). split; [|exact HT].
  split; [exact N1|]. split; [exact N2|]. split; [exact N3|]. split; [exact N4|]. split.
  - eapply back2; [exact HM|exact N5|]. intros m m' Hm (_ & X1 & X2 & X3) (Y1 & Y2 & Y3). rewrite X1 in Y1. rewrite X2 in Y2. split; [exact Y1|]. split; [exact Y2|].
    eapply back2; [exact X3|exact Y3|]. intros a a' Ha Hs. apply b_mattr; [exact Hs|]. intros k ->. eapply Hk; eauto.
  - apply Forall_forall. intros a Ha. rewrite Forall_forall in N6. destruct (is_table a) eqn:E; [|apply N6, filter_In; split; [exact Ha|rewrite E; reflexivity]].
    destruct a; try discriminate. cbn. apply Forall_forall. intros b Hb. rewrite Forall_forall in HT. apply HT. rewrite Ht. unfold class_table. apply in_or_app. left.
    apply in_flat_map. eexists. split; [exact Ha|exact Hb].
Qed.
End Class.

Theorem C96_present : forall fuel md heap c out, (1 <= fuel)%nat ->
  wf_class heap c -> t_class c -> t_heap heap -> objects_named c -> len (class_table heap c) < 65536 -> count_ok heap c ->
  wr_classfile fuel md heap c = Ok out -> md = Debug \/ pool_fits fuel md heap c -> len out < 4294967296 ->
  drawn Debug out c /\ Forall (n_bsm (text_of out) (desc_of Debug out)) (class_table heap c).
Proof.
  intros fuel md heap c out Hf Hw Ht Hh Hn Hl Hc Ho Hp Hs. pose proof (C83_kinds fuel md heap c Ht Hh) as HB. rewrite Ho in HB.
  destruct (C61_roundtrip_partial fuel md heap c Hf Hw Hl Hc) as [_ HR]. destruct (HR out Ho Hp Hs Debug []) as (c' & h & Hr & HS). rewrite app_nil_r in Hr.
  destruct (C94_drawn Debug out c' h [] HB Hr (or_introl eq_refl)) as [HD _]. eapply b_class; [exact HS|reflexivity| |exact HD].
  intros m k Hm Hk. split; [|exact (Hn m k Hm Hk)]. destruct Hw as (_ & _ & _ & _ & _ & _ & (_ & HM) & _).
  rewrite Forall_forall in HM. specialize (HM m Hm). destruct HM as (_ & _ & _ & _ & HM). rewrite Forall_forall in HM.
  destruct (HM _ Hk) as ((_ & _ & (_ & HI) & _) & _). revert HI. apply Forall_impl. intros i (_ & H & _). exact H.
Qed.
Example C96_ex : let c := ex_class 2 ex_attrs in
  wf_class ex_heap c /\ t_class c /\ t_heap ex_heap /\ objects_named c /\ len (class_table ex_heap c) < 65536 /\ count_ok ex_heap c /\
  exists out, wr_classfile 1 Debug ex_heap c = Ok out /\ len out < 4294967296 /\
    pool_texts out = map str ["A"; "B"; "C"; "f"; "J"; "Deprecated"; "m"; "()V"; "Code"; "x"; "(I)J"; "SourceFile"; "s"; "b"; "()I"; "BootstrapMethods"]%string.
Proof.
  destruct C61_ex as (H1 & H2 & H3 & _). split; [exact H1|]. split; [|split; [|split; [|split; [exact H2|split; [exact H3|]]]]].
  - assert (HM : forall s, forallb (fun c => (1 <=? c) && (c <=? 127)) s = true -> lax s) by (intros; apply wf_lax, wf_name; assumption).
    split; [apply HM; reflexivity|]. split; [apply HM; reflexivity|]. split; [repeat constructor; apply HM; reflexivity|]. split; [|split].
    + apply Forall_cons; [|apply Forall_nil]. split; [apply HM; reflexivity|]. split; [constructor|repeat constructor].
    + apply Forall_cons; [|apply Forall_nil]. split; [apply HM; reflexivity|]. split; [constructor|]. apply Forall_cons; [|apply Forall_nil].
      split; [|split; constructor]. repeat (apply Forall_cons || apply Forall_nil); try exact I; (split; [apply HM; reflexivity|repeat constructor]).
    + apply Forall_cons; [|apply Forall_cons; [apply HM; reflexivity|apply Forall_nil]]. apply Forall_cons; [|apply Forall_nil].
      split; [split; [apply HM; reflexivity|split; [apply HM; reflexivity|repeat constructor]]|constructor].
  - intros cell b H. unfold ex_heap in H. destruct (cell =? 3); [|discriminate]. injection H as <-.
    assert (HM : forall s, forallb (fun c => (1 <=? c) && (c <=? 127)) s = true -> lax s) by (intros; apply wf_lax, wf_name; assumption).
    split; [split; [apply HM; reflexivity|split; [apply HM; reflexivity|repeat constructor]]|constructor].
  - intros m k [<-|[]] [[= <-]|[]]. repeat constructor.
  - eexists. split; [vm_compute; reflexivity|]. split; vm_compute; reflexivity.
Qed.
Print Assumptions C96_present.
