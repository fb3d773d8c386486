(** The writer of a debug build against the one of a release build (C82). *)
From Coq Require Import Lia String.
From Verif Require Import Base BaseLemmas Wtf8Model TypeModel SigModel PrimModel CpModel AnnModel AnnProofs AttrModel FrameModel InsnModel CodeModel
  ClassModel DebugSim.

(** The two builds write with these. *)
Record esim (D R : wenv) : Prop := {
  es_debug : we_md D = Debug;
  es_release : we_md R = Release;
  es_heap : we_heap D = we_heap R;
  es_label : forall l, sim (we_label D l) (we_label R l);
  es_catch : forall c, sim (we_catch D c) (we_catch R c) }.
Definition wsim {A B} (f : wenv -> A -> wst -> res B) : Prop := forall D R, esim D R -> forall a w, sim (f D a w) (f R a w).
Lemma wsim_use {A B} (f : wenv -> A -> wst -> res B) D R a w : wsim f -> esim D R -> sim (f D a w) (f R a w).
Proof. intros H HE. apply H, HE. Qed.
Create HintDb wsim.
Lemma es_chk D R n x : esim D R -> sim (chk_u (we_md D) n x) (chk_u (we_md R) n x).
Proof. intros [-> -> _ _ _]. apply sim_chk_u. Qed.

Ltac ws1 :=
  cbn beta iota zeta;
  match goal with
  | |- sim (bind _ _) (bind _ _) => apply sim_bind; [|intros ?]
  | |- sim (match ?x with _ => _ end) (match ?x with _ => _ end) => destruct x
  | |- sim (Panic POverflow) _ => right; reflexivity
  | H : esim ?D ?R |- sim (chk_u (we_md ?D) _ _) (chk_u (we_md ?R) _ _) => exact (es_chk D R _ _ H)
  | H : esim ?D ?R |- sim (we_label ?D _) (we_label ?R _) => exact (es_label D R H _)
  | H : esim ?D ?R |- sim (we_catch ?D _) (we_catch ?R _) => exact (es_catch D R H _)
  | H : esim ?D ?R |- sim (?f ?D ?a ?w) (?f ?R ?a ?w) => apply (wsim_use f D R a w); [solve [auto with wsim nocore]|exact H]
  | |- sim ?x ?y => constr_eq x y; left; reflexivity
  end.
Ltac ws := intros; repeat ws1.

(** * The constant pool *)
Lemma w_raw : wsim insert_raw.
Proof. intros D R H a w. unfold insert_raw. ws. Qed.
#[global] Hint Resolve w_raw : wsim.
Lemma w_wtf8 : wsim insert_wtf8.
Proof. intros D R H a w. unfold insert_wtf8. ws. Qed.
#[global] Hint Resolve w_wtf8 : wsim.
Lemma w_nt : wsim insert_nameandtype.
Proof. intros D R H a w. unfold insert_nameandtype. ws. Qed.
Lemma w_ind t : wsim (insert_indirect_str t).
Proof. intros D R H a w. unfold insert_indirect_str. ws. Qed.
Lemma w_class : wsim insert_class.
Proof. intros D R H a w. unfold insert_class. ws. Qed.
Lemma w_bsm' : wsim insert_bsm.
Proof. intros D R H a w. left. reflexivity. Qed.
#[global] Hint Resolve w_nt w_ind w_class w_bsm' : wsim.
Lemma w_member : wsim insert_member.
Proof. intros D R H a w. unfold insert_member. ws. Qed.
#[global] Hint Resolve w_member : wsim.
Lemma w_mh : wsim insert_method_handle.
Proof. intros D R H a w. unfold insert_method_handle. ws. Qed.
#[global] Hint Resolve w_mh : wsim.
Lemma w_constant : wsim insert_constant.
Proof. intros D R H a w. unfold insert_constant. ws. Qed.
Lemma w_dynamic : wsim insert_dynamic.
Proof. intros D R H a w. unfold insert_dynamic. rewrite (es_heap D R H). ws. Qed.
#[global] Hint Resolve w_constant w_dynamic : wsim.
Lemma w_ordyn {A} (f : cins A) : wsim f -> wsim (insert_ordynamic f).
Proof. intros Hf D R H a w. unfold insert_ordynamic. ws. Qed.
#[global] Hint Resolve w_ordyn : wsim.

(** * Combinators *)
Lemma w_idx {A} (f : cins A) : wsim f -> wsim (wr_idx f).
Proof. intros Hf D R H a w. unfold wr_idx. ws. Qed.
Lemma w_plain {A} (f : wr A) : wsim (wr_plain f).
Proof. intros D R H a w. left. reflexivity. Qed.
Lemma w_each {A} (f : cwr A) : wsim f -> wsim (wr_each f).
Proof. intros Hf D R H a. induction a as [|x a IH]; intros w; cbn [wr_each]; ws. apply IH. Qed.
#[global] Hint Resolve w_idx w_plain w_each : wsim.
Lemma w_cvec {A} k (f : cwr A) : wsim f -> wsim (wr_cvec k f).
Proof. intros Hf D R H a w. unfold wr_cvec. ws. Qed.
Lemma w_list16 {A} (f : cwr A) : wsim f -> wsim (wr_list16 f).
Proof. intros Hf D R H a w. unfold wr_list16. ws. Qed.
Lemma w_opt {A} (f : cwr A) : wsim f -> wsim (wr_opt f).
Proof. intros Hf D R H a w. unfold wr_opt. ws. Qed.
Lemma w_pair {A B} (f : cwr A) (g : cwr B) : wsim f -> wsim g -> wsim (wr_pair f g).
Proof. intros Hf Hg D R H a w. unfold wr_pair. ws. Qed.
Lemma w_via {A B} (h : A -> B) (f : cwr B) : wsim f -> wsim (wr_via h f).
Proof. intros Hf D R H a w. unfold wr_via. ws. Qed.
Lemma w_none : wsim wr_none.
Proof. intros D R H a w. left. reflexivity. Qed.
Lemma w_attr {A} n (f : cwr A) : wsim f -> wsim (wr_attr n f).
Proof. intros Hf D R H a w. unfold wr_attr. ws. Qed.
Lemma w_raw_attr : wsim wr_raw_attr.
Proof. intros D R H a w. unfold wr_raw_attr. ws. Qed.
#[global] Hint Resolve w_cvec w_list16 w_opt w_pair w_via w_none w_attr w_raw_attr : wsim.

Lemma w_cow : wsim wr_cow. Proof. unfold wr_cow. auto with wsim nocore. Qed.
Lemma w_type : wsim wr_type.
Proof. apply w_idx. intros D R H a w. ws. Qed.
Lemma w_strcp t : wsim (wr_strcp t). Proof. unfold wr_strcp. auto with wsim nocore. Qed.
Lemma w_nametype : wsim wr_nametype.
Proof. apply w_idx. intros D R H a w. ws. Qed.
Lemma w_member' : wsim wr_member. Proof. unfold wr_member. auto with wsim nocore. Qed.
Lemma w_constant' : wsim wr_constant. Proof. unfold wr_constant. auto with wsim nocore. Qed.
Lemma w_cint : wsim wr_cint. Proof. apply w_idx. intros D R H a w. ws. Qed.
Lemma w_clong : wsim wr_clong. Proof. apply w_idx. intros D R H a w. ws. Qed.
Lemma w_cfloat : wsim wr_cfloat. Proof. apply w_idx. intros D R H a w. ws. Qed.
Lemma w_cdouble : wsim wr_cdouble. Proof. apply w_idx. intros D R H a w. ws. Qed.
#[global] Hint Resolve w_cow w_type w_strcp w_nametype w_member' w_constant' w_cint w_clong w_cfloat w_cdouble : wsim.
Lemma w_mhandle : wsim wr_mhandle.
Proof. intros D R H a w. unfold wr_mhandle. ws. Qed.
Lemma w_bsm'' : wsim wr_bsm.
Proof. intros D R H a w. unfold wr_bsm. ws. Qed.
Lemma w_sig {A} (d : A -> list Z) : wsim (wr_sig d).
Proof. intros D R H a w. unfold wr_sig. ws. Qed.
Lemma w_cflags : wsim wr_cflags. Proof. unfold wr_cflags. auto with wsim nocore. Qed.
Lemma w_class' : wsim wr_class. Proof. unfold wr_class. auto with wsim nocore. Qed.
#[global] Hint Resolve w_mhandle w_bsm'' w_sig w_cflags w_class' : wsim.

(** * Annotations *)
Lemma w_tagged {A} t (f : cwr A) : wsim f -> wsim (AnnModel.wr_tagged t f).
Proof. intros Hf D R H a w. unfold AnnModel.wr_tagged. ws. Qed.
Lemma w_tagged' {A} t (f : cwr A) : wsim f -> wsim (FrameModel.wr_tagged t f).
Proof. intros Hf D R H a w. unfold FrameModel.wr_tagged. ws. Qed.
#[global] Hint Resolve w_tagged w_tagged' : wsim.
Lemma w_aval : wsim wr_aval.
Proof.
  intros D R H v. induction v using aval_ind'; intros w; cbn [wr_aval]; ws.
  - unfold wr_vals_with. apply sim_bind; [|intros [b w2]; apply sim_refl].
    match goal with H : Forall _ vs |- _ => revert w0; induction H as [|[k v] vs Hv _ IH] end; intros w0; cbn [wr_each]; ws; [apply Hv|apply IH].
  - match goal with H : Forall _ vs |- _ => revert w; induction H as [|v vs Hv _ IH] end; intros w; cbn [wr_each]; ws; [apply Hv|apply IH].
Qed.
#[global] Hint Resolve w_aval : wsim.
Lemma w_vals : wsim wr_vals.
Proof. intros D R H v w. unfold wr_vals, wr_vals_with. apply sim_bind; [|intros [b w2]; apply sim_refl]. apply (w_each _); auto. intros D' R' H' [k x] w'. ws. Qed.
#[global] Hint Resolve w_vals : wsim.
Lemma w_annot : wsim wr_annot.
Proof. intros D R H v w. unfold wr_annot. ws. Qed.
#[global] Hint Resolve w_annot : wsim.
Lemma w_tannot {T} (f : cwr T) : wsim f -> wsim (wr_tannot f).
Proof. intros Hf D R H v w. unfold wr_tannot. ws. Qed.
#[global] Hint Resolve w_tannot : wsim.
Lemma w_annots : wsim wr_annots. Proof. unfold wr_annots. auto with wsim nocore. Qed.
#[global] Hint Resolve w_annots : wsim.

(** * Fields, methods, classes *)
Lemma w_fattr : wsim wr_fattr.
Proof. intros D R H v w. unfold wr_fattr. ws. Qed.
#[global] Hint Resolve w_fattr : wsim.
Lemma w_field : wsim wr_field. Proof. unfold wr_field. auto 8 with wsim nocore. Qed.
Lemma w_mparam : wsim wr_mparam. Proof. unfold wr_mparam. auto 8 with wsim nocore. Qed.
Lemma w_mtannots : wsim wr_mtannots. Proof. unfold wr_mtannots. auto 8 with wsim nocore. Qed.
Lemma w_pannots : wsim wr_pannots. Proof. unfold wr_pannots. auto 8 with wsim nocore. Qed.
#[global] Hint Resolve w_field w_mparam w_mtannots w_pannots : wsim.
Lemma w_mattr {C} (f : cwr C) : wsim f -> wsim (wr_mattr f).
Proof. intros Hf D R H v w. unfold wr_mattr. ws. Qed.
#[global] Hint Resolve w_mattr : wsim.
Lemma w_method {C} (f : cwr C) : wsim f -> wsim (wr_method f).
Proof. intros Hf. unfold wr_method. auto 10 with wsim nocore. Qed.
Lemma w_require : wsim wr_require. Proof. unfold wr_require. auto 10 with wsim nocore. Qed.
Lemma w_exopen : wsim wr_exopen. Proof. unfold wr_exopen. auto 10 with wsim nocore. Qed.
Lemma w_provide : wsim wr_provide. Proof. unfold wr_provide. auto 10 with wsim nocore. Qed.
#[global] Hint Resolve w_method w_require w_exopen w_provide : wsim.
Lemma w_module : wsim wr_module. Proof. unfold wr_module. auto 20 with wsim nocore. Qed.
Lemma w_inner : wsim wr_inner_class. Proof. unfold wr_inner_class. auto 20 with wsim nocore. Qed.
Lemma w_ctannots : wsim wr_ctannots. Proof. unfold wr_ctannots. auto 20 with wsim nocore. Qed.
#[global] Hint Resolve w_module w_inner w_ctannots : wsim.
Lemma w_cattr : wsim wr_cattr.
Proof. intros D R H v w. unfold wr_cattr. ws. Qed.
#[global] Hint Resolve w_cattr : wsim.

(** * Code *)
Lemma w_label : wsim wr_label.
Proof. intros D R H v w. unfold wr_label. ws. Qed.
Lemma w_catch : wsim wr_catch.
Proof. intros D R H v w. unfold wr_catch. ws. Qed.
#[global] Hint Resolve w_label w_catch : wsim.
Lemma w_vtype : wsim wr_vtype.
Proof. intros D R H v w. unfold wr_vtype. ws. Qed.
#[global] Hint Resolve w_vtype : wsim.
Lemma w_frame : wsim wr_frame.
Proof. intros D R H v w. unfold wr_frame. ws. Qed.
Lemma w_lvt : wsim wr_lvt.
Proof. intros D R H v w. unfold wr_lvt. ws. Qed.
Lemma w_label_u8 : wsim wr_label_u8. Proof. unfold wr_label_u8. auto 20 with wsim nocore. Qed.
#[global] Hint Resolve w_frame w_lvt w_label_u8 : wsim.
Lemma w_code_target : wsim wr_code_target.
Proof. intros D R H v w. unfold wr_code_target. ws. Qed.
#[global] Hint Resolve w_code_target : wsim.
Lemma w_code_tannot : wsim wr_code_tannot. Proof. unfold wr_code_tannot. auto 20 with wsim nocore. Qed.
Lemma w_lvrow {A} (f : cwr A) : wsim f -> wsim (wr_lvrow f).
Proof. intros Hf. unfold wr_lvrow. auto 20 with wsim nocore. Qed.
#[global] Hint Resolve w_code_tannot w_lvrow : wsim.
Lemma w_fcattr : wsim wr_fcattr.
Proof. intros D R H v w. unfold wr_fcattr. ws. Qed.
#[global] Hint Resolve w_fcattr : wsim.
Lemma w_handler : wsim wr_handler.
Proof. intros D R H v w. unfold wr_handler. ws. Qed.
Lemma w_ctype : wsim insert_ctype.
Proof. intros D R H v w. unfold insert_ctype. ws. Qed.
Lemma w_ldc : wsim emit_ldc.
Proof. intros D R H v w. unfold emit_ldc. ws. Qed.
#[global] Hint Resolve w_handler w_ctype w_ldc : wsim.
Lemma w_push : wsim emit_push.
Proof. intros D R H v w. unfold emit_push. ws. Qed.
Lemma w_emit_idx {A} op (f : cins A) t : wsim f -> wsim (emit_idx op f t).
Proof. intros Hf D R H v w. unfold emit_idx. ws. Qed.
#[global] Hint Resolve w_push w_emit_idx : wsim.
Lemma w_emit : wsim emit.
Proof. intros D R H v w. destruct v; cbn [emit]; ws. Qed.
#[global] Hint Resolve w_emit : wsim.
Lemma w_insn D R i y w : esim D R -> sim (write_insn D i y w) (write_insn R i y w).
Proof. intros H. destruct i; cbn [write_insn]; ws. Qed.
Lemma w_insns D R is : esim D R -> forall y w, sim (write_insns D is y w) (write_insns R is y w).
Proof. intros H. induction is as [|i is IH]; intros y w; cbn [write_insns]; ws; [apply w_insn, H|apply IH]. Qed.
Lemma w_resolve ls ends i s l : sim (resolve Debug ls ends i s l) (resolve Release ls ends i s l).
Proof. unfold resolve. ws; [apply sim_chk_u|apply sim_chk_s]. Qed.
Lemma sim_mapM {A B} (f g : A -> res B) : (forall a, sim (f a) (g a)) -> forall l, sim (mapM f l) (mapM g l).
Proof. intros H l. induction l as [|a l IH]; cbn [mapM]; ws; [apply H|apply IH]. Qed.
Lemma w_jump ls ends i s j : sim (emit_jump Debug ls ends i s j) (emit_jump Release ls ends i s j).
Proof.
  unfold emit_jump. destruct j; ws; try apply w_resolve; try apply sim_chk_u; try apply sim_chk_s; try (apply sim_mapM; intros; ws; apply w_resolve).
Qed.
Lemma w_jumps ls ends js : forall rows bufs, sim (emit_jumps Debug ls ends js rows bufs) (emit_jumps Release ls ends js rows bufs).
Proof. induction js as [|j js IH]; intros rows bufs; cbn [emit_jumps]; ws; [apply w_jump|apply IH]. Qed.
Lemma w_assemble y : sim (assemble Debug y) (assemble Release y).
Proof. unfold assemble. ws. apply w_jumps. Qed.
Lemma w_code_env D R ls ends cs : esim D R -> esim (code_env D ls ends cs) (code_env R ls ends cs).
Proof.
  intros [H1 H2 H3 H4 H5]. split; cbn; auto using sim_refl. intros l. rewrite H1, H2. unfold label16. ws. apply sim_chk_u.
Qed.
Lemma w_lv_row {A} D R v (t : A) : esim D R -> sim (lv_row D v t) (lv_row R v t).
Proof. intros H. unfold lv_row. ws. Qed.
Lemma w_lv_rows D R vs : esim D R -> sim (lv_rows D vs) (lv_rows R vs).
Proof. intros H. induction vs as [|v vs IH]; cbn [lv_rows]; ws; try (apply w_lv_row, H). apply IH. Qed.
Lemma w_kattr : wsim wr_kattr.
Proof. intros D R H v w. unfold wr_kattr. ws. apply w_lv_rows, H. Qed.
#[global] Hint Resolve w_kattr : wsim.
Lemma w_kattrs D R l : esim D R -> forall x w, sim (wr_kattrs D l x w) (wr_kattrs R l x w).
Proof. intros H. induction l as [|a l IH]; intros x w; cbn [wr_kattrs]; ws. apply IH. Qed.
Lemma w_code : wsim wr_code.
Proof.
  intros D R H v w. unfold wr_code. apply sim_bind; [apply w_insns, H|]. intros [y w1]. cbn beta iota.
  apply sim_bind; [rewrite (es_debug D R H), (es_release D R H); apply w_assemble|]. intros [[n ends] body]. cbn beta iota zeta.
  pose proof (w_code_env D R (y_labels y) ends (cd_catches v) H) as H'.
  apply sim_bind; [apply w_each; auto with wsim nocore|]. intros [hs w2]. cbn beta iota.
  apply sim_bind; [apply w_kattrs, H'|]. intros [[bs extra] w3]. cbn beta iota. ws.
Qed.
#[global] Hint Resolve w_code : wsim.

(** * Class files *)
Lemma w_unless : wsim wr_cattr_unless_bsm.
Proof. intros D R H v w. unfold wr_cattr_unless_bsm. ws. Qed.
#[global] Hint Resolve w_unless : wsim.
Lemma w_members : wsim wr_members. Proof. unfold wr_members. auto 20 with wsim nocore. Qed.
#[global] Hint Resolve w_members : wsim.
Lemma w_rounds D R fuel : esim D R -> forall i w, sim (wr_rounds fuel D i w) (wr_rounds fuel R i w).
Proof. intros H. induction fuel as [|fuel IH]; intros i w; cbn [wr_rounds]; ws. apply IH. Qed.
Lemma w_table D R fuel w : esim D R -> sim (ClassModel.wr_table fuel D w) (ClassModel.wr_table fuel R w).
Proof. intros H. unfold ClassModel.wr_table. ws. apply w_rounds, H. Qed.
Lemma w_class_env heap : esim (wenv_class Debug heap) (wenv_class Release heap).
Proof. split; cbn; auto using sim_refl. Qed.
Lemma w_classfile fuel heap c : sim (wr_classfile fuel Debug heap c) (wr_classfile fuel Release heap c).
Proof. unfold wr_classfile, wr_body. pose proof (w_class_env heap) as H. ws. apply w_table, H. Qed.
