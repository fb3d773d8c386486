(** What writing adds to the table of bootstrap methods: one entry for each use
    of a dynamic constant, and nothing else. *)
From Coq Require Import String.
From Verif Require Import Base BaseLemmas PrimModel TypeModel CpModel SigModel AnnModel AnnProofs AttrModel FrameModel InsnModel CodeModel
  ClassModel ClassSpec.

Definition adds {B} (L : list bsm) (w : wst) (r : res (B * wst)) : Prop :=
  match r with Ok x => w_bsm (snd x) = w_bsm w ++ L | _ => True end.
Definition still {A B} (f : wenv -> A -> wst -> res (B * wst)) : Prop := forall E a w, adds [] w (f E a w).

Lemma adds_bind {A B} L M w (r : res (A * wst)) (k : A * wst -> res (B * wst)) :
  adds L w r -> (forall a w1, adds M w1 (k (a, w1))) -> adds (L ++ M) w (bind r k).
Proof.
  intros H Hk. destruct r as [[a w1]| |]; cbn in *; auto. specialize (Hk a w1).
  destruct (k (a, w1)) as [[b w2]| |]; cbn in *; auto. rewrite Hk, H, app_assoc. reflexivity.
Qed.
Lemma G_bind {A B} w (r : res (A * wst)) (k : A * wst -> res (B * wst)) :
  adds [] w r -> (forall a w1, adds [] w1 (k (a, w1))) -> adds [] w (bind r k).
Proof. apply (adds_bind [] []). Qed.
Lemma adds_last {A B} L w (r : res (A * wst)) (k : A * wst -> res (B * wst)) :
  adds L w r -> (forall a w1, adds [] w1 (k (a, w1))) -> adds L w (bind r k).
Proof. intros H Hk. rewrite <- (app_nil_r L). apply adds_bind; auto. Qed.
Lemma G_pure {A B} L w (r : res A) (k : A -> res (B * wst)) : (forall a, adds L w (k a)) -> adds L w (bind r k).
Proof. intros H. destruct r; cbn; auto. Qed.
Lemma G_ret {B} w (b : B) : adds [] w (Ok (b, w)).
Proof. cbn. rewrite app_nil_r. reflexivity. Qed.

(** A composed writer. *)
Ltac gstep :=
  match goal with
  | |- adds _ _ (Ok _) => apply G_ret
  | |- adds _ _ (Err _) => exact I
  | |- adds _ _ (Panic _) => exact I
  | |- adds _ _ (let '(_, _) := ?x in _) => destruct x
  | |- adds _ _ (if ?b then _ else _) => destruct b
  | |- adds _ _ (bind ?r _) => first [apply G_bind; [|intros ? ?; cbv beta iota] | apply G_pure; intros ?; cbv beta iota]
  | |- adds _ _ (match ?x with _ => _ end) => destruct x
  end.

Lemma still_raw : still insert_raw.
Proof.
  intros E e w. unfold insert_raw. destruct (assoc _ _ _); [apply G_ret|]. apply G_pure. intros l.
  cbn. rewrite app_nil_r. reflexivity.
Qed.
Lemma still_wtf8 : still insert_wtf8.
Proof. intros E s w. apply still_raw. Qed.
Ltac gs := repeat first [apply still_raw | apply still_wtf8 | gstep].
Lemma still_nametype : still insert_nameandtype.
Proof. intros E s w. unfold insert_nameandtype. gs. Qed.
Lemma still_indirect tag : still (insert_indirect_str tag).
Proof. intros E s w. unfold insert_indirect_str. gs. Qed.
Lemma still_class : still insert_class.
Proof. intros E s w. unfold insert_class. gs. Qed.
Lemma still_member : still insert_member.
Proof.
  intros E m w. unfold insert_member. apply G_bind; [apply still_class|]. intros a w1. apply G_pure. intros d.
  apply G_bind; [apply still_nametype|]. intros. apply still_raw.
Qed.
Lemma still_mhandle : still insert_method_handle.
Proof. intros E m w. unfold insert_method_handle. apply G_bind; [apply still_member|]. intros. apply still_raw. Qed.
Lemma still_constant : still insert_constant.
Proof.
  intros E k w. destruct k; cbn [insert_constant]; try apply still_raw; try apply still_indirect; try apply still_member; try apply still_mhandle.
  apply G_pure. intros d. apply G_bind; [apply still_wtf8|]. intros. apply still_raw.
Qed.

Notation gw := still.
Lemma g_raw E a w : adds [] w (insert_raw E a w). Proof. apply still_raw. Qed.
Lemma g_wtf8 E a w : adds [] w (insert_wtf8 E a w). Proof. apply still_wtf8. Qed.
Lemma g_nametype E a w : adds [] w (insert_nameandtype E a w). Proof. apply still_nametype. Qed.
Lemma g_class E a w : adds [] w (insert_class E a w). Proof. apply still_class. Qed.
Ltac g0 := repeat first [apply g_raw | apply g_wtf8 | apply g_nametype | apply g_class | gstep].
Lemma gw_idx {A} (f : cins A) : gw f -> gw (wr_idx f).
Proof. intros H E a w. unfold wr_idx. apply G_bind; [auto|]. intros. apply G_ret. Qed.
Lemma gw_plain {A} (f : wr A) : gw (wr_plain f).
Proof. intros E a w. unfold wr_plain. apply G_pure. intros. apply G_ret. Qed.
Lemma gw_each {A} (f : cwr A) : gw f -> gw (wr_each f).
Proof.
  intros H E xs w. revert w. induction xs as [|a xs IH]; intros w; cbn [wr_each]; [apply G_ret|].
  apply G_bind; [auto|]. intros ? ?. apply G_bind; [auto|]. intros. apply G_ret.
Qed.
Lemma gw_cvec {A} k (f : cwr A) : gw f -> gw (wr_cvec k f).
Proof.
  intros H E xs w. unfold wr_cvec. destruct (_ <? _); [|exact I].
  apply G_bind; [apply gw_each; auto|]. intros. apply G_ret.
Qed.
Lemma gw_list16 {A} (f : cwr A) : gw f -> gw (wr_list16 f).
Proof. intros H E xs w. unfold wr_list16. apply G_bind; [apply gw_each; auto|]. intros. apply G_ret. Qed.
Lemma gw_opt {A} (f : cwr A) : gw f -> gw (wr_opt f).
Proof. intros H E [a|] w; cbn [wr_opt]; [auto|apply G_ret]. Qed.
Lemma gw_pair {A B} (f : cwr A) (g : cwr B) : gw f -> gw g -> gw (wr_pair f g).
Proof.
  intros H1 H2 E a w. unfold wr_pair. apply G_bind; [auto|]. intros ? ?.
  apply G_bind; [auto|]. intros. apply G_ret.
Qed.
Lemma gw_via {A B} (h : A -> B) (f : cwr B) : gw f -> gw (wr_via h f).
Proof. intros H E a w. apply H; auto. Qed.
Lemma gw_none : gw wr_none.
Proof. intros E a w. apply G_ret. Qed.
Lemma gw_attr {A} n (f : cwr A) : gw f -> gw (wr_attr n f).
Proof.
  intros H E a w. unfold wr_attr. apply G_bind; [apply g_wtf8|]. intros ? ?.
  apply G_bind; [auto|]. intros. apply G_ret.
Qed.
Lemma gw_raw_attr : gw wr_raw_attr.
Proof. intros E a w. unfold wr_raw_attr. g0. Qed.
Lemma gw_class : gw (wr_idx insert_class).
Proof. apply gw_idx, still_class. Qed.
Lemma gw_cow : gw wr_cow.
Proof. apply gw_idx, still_wtf8. Qed.
Lemma gw_type : gw wr_type.
Proof. apply gw_idx. intros E a w. apply g_wtf8. Qed.
Lemma gw_strcp t : gw (wr_strcp t).
Proof. apply gw_idx, still_indirect. Qed.
Lemma gw_nt : gw wr_nametype.
Proof. apply gw_idx. intros E a w. g0. Qed.
Lemma gw_int : gw wr_cint.
Proof. apply gw_idx. intros E a w. apply g_raw. Qed.
Lemma gw_long : gw wr_clong.
Proof. apply gw_idx. intros E a w. apply g_raw. Qed.
Lemma gw_float : gw wr_cfloat.
Proof. apply gw_idx. intros E a w. apply g_raw. Qed.
Lemma gw_double : gw wr_cdouble.
Proof. apply gw_idx. intros E a w. apply g_raw. Qed.
Lemma gw_constant : gw wr_constant.
Proof. apply gw_idx, still_constant. Qed.
Lemma gw_sig {A} (d : A -> list Z) : gw (wr_sig d).
Proof. intros E a w. apply gw_cow; auto. Qed.
Lemma gw_cflags : gw wr_cflags.
Proof. apply gw_plain. Qed.
Ltac gg := repeat first
  [ assumption
  | apply gw_each | apply gw_cvec | apply gw_list16 | apply gw_opt | apply gw_pair | apply gw_via | apply gw_none
  | apply gw_attr | apply gw_raw_attr | apply gw_class | apply gw_cow | apply gw_type | apply gw_strcp | apply gw_nt
  | apply gw_int | apply gw_long | apply gw_float | apply gw_double | apply gw_constant | apply gw_sig
  | apply gw_cflags | apply gw_plain ].
Ltac gx := repeat first [ apply g_raw | apply g_wtf8 | apply g_nametype | apply g_class | gstep | (progress gg) ].

Lemma gw_vals_with (f : cwr aval) vs : forall E w,
  Forall (fun kv => forall E w, adds [] w (f E (snd kv) w)) vs -> adds [] w (wr_vals_with f E vs w).
Proof.
  intros E w H. unfold wr_vals_with. apply G_bind; [|intros; apply G_ret]. revert w.
  induction H as [|[k v] vs Hv _ IH]; intros w; cbn [wr_each]; [apply G_ret|].
  apply G_bind; [|intros ? ?; apply G_bind; [auto|intros; apply G_ret]].
  apply G_bind; [apply gw_cow; auto|]. intros ? ?. apply G_bind; [apply (Hv E); auto|]. intros. apply G_ret.
Qed.
Lemma gw_tagged {A} t (f : cwr A) : gw f -> gw (AnnModel.wr_tagged t f).
Proof. intros H E a w. unfold AnnModel.wr_tagged. apply G_bind; [auto|]. intros. apply G_ret. Qed.
Lemma gw_tagged' {A} t (f : cwr A) : gw f -> gw (FrameModel.wr_tagged t f).
Proof. intros H E a w. unfold FrameModel.wr_tagged. apply G_bind; [auto|]. intros. apply G_ret. Qed.
Lemma gw_aval : gw wr_aval.
Proof.
  intros E v. revert E. enough (forall E w, adds [] w (wr_aval E v w)) by auto.
  induction v using aval_ind'; intros E w; cbn [wr_aval]; try (apply gw_tagged; gg; fail).
  - apply G_bind; [apply gw_type; auto|]. intros ? ?. apply G_bind; [apply gw_cow; auto|]. intros. apply G_ret.
  - apply G_pure. intros s. apply gw_tagged; auto using gw_cow.
  - apply G_bind; [apply gw_type; auto|]. intros ? ?. apply G_bind; [|intros; apply G_ret]. apply gw_vals_with; auto.
  - apply G_bind; [|intros; apply G_ret]. revert w. induction H as [|v vs Hv _ IH]; intros w; cbn [wr_each]; [apply G_ret|].
    apply G_bind; [auto|]. intros ? ?. apply G_bind; [auto|]. intros. apply G_ret.
Qed.
Lemma gw_annot : gw wr_annot.
Proof.
  intros E a w. unfold wr_annot. apply G_bind; [apply gw_type; auto|]. intros ? ?.
  apply G_bind; [|intros; apply G_ret]. apply gw_vals_with; auto. apply Forall_forall. intros. apply gw_aval; auto.
Qed.
Lemma gw_annots : gw wr_annots.
Proof. apply gw_cvec, gw_annot. Qed.
Lemma gw_tannot {T} (f : cwr T) : gw f -> gw (wr_tannot f).
Proof.
  intros H E a w. unfold wr_tannot. apply G_bind; [auto|]. intros ? ?.
  apply G_bind; [apply gw_cvec; auto; apply gw_plain|]. intros ? ?.
  apply G_bind; [apply gw_type; auto|]. intros ? ?. apply G_bind; [|intros; apply G_ret].
  apply gw_vals_with; auto. apply Forall_forall. intros. apply gw_aval; auto.
Qed.
Ltac ga := repeat first
  [ assumption
  | apply gw_annots | apply gw_annot | apply gw_aval | apply gw_tannot | apply gw_tagged | apply gw_tagged'
  | apply gw_each | apply gw_cvec | apply gw_list16 | apply gw_opt | apply gw_pair | apply gw_via | apply gw_none
  | apply gw_attr | apply gw_raw_attr | apply gw_class | apply gw_cow | apply gw_type | apply gw_strcp | apply gw_nt
  | apply gw_int | apply gw_long | apply gw_float | apply gw_double | apply gw_constant | apply gw_sig
  | apply gw_cflags | apply gw_plain ].
Lemma gw_fattr : gw wr_fattr.
Proof. intros E a w. destruct a; cbn [wr_fattr]; ga. Qed.
Lemma gw_field : gw wr_field.
Proof. unfold wr_field. ga. apply gw_fattr. Qed.
Lemma gw_mparam : gw wr_mparam.
Proof. unfold wr_mparam. ga. Qed.
Lemma gw_mattr {C} (wc : cwr C) : gw wc -> gw (wr_mattr wc).
Proof. intros H E a w. destruct a; cbn [wr_mattr]; unfold wr_mtannots, wr_pannots; ga; apply gw_mparam. Qed.
Lemma gw_method {C} (wc : cwr C) : gw wc -> gw (wr_method wc).
Proof. intros H. unfold wr_method. ga. apply gw_mattr; auto. Qed.
Lemma gw_cattr : gw wr_cattr_unless_bsm.
Proof.
  intros E a w. destruct a; cbn [wr_cattr_unless_bsm wr_cattr]; try apply G_ret;
    unfold wr_inner_class, wr_module, wr_require, wr_exopen, wr_provide, wr_ctannots; ga.
Qed.

(** Code *)
Lemma gw_label : gw wr_label.
Proof. intros E a w. unfold wr_label. apply G_pure. intros. apply G_ret. Qed.
Lemma gw_catch : gw wr_catch.
Proof. intros E a w. unfold wr_catch. apply G_pure. intros [i|]; apply G_ret. Qed.
Lemma gw_vtype : gw wr_vtype.
Proof.
  intros E v w. destruct v; cbn [wr_vtype]; try apply G_ret; apply G_bind; try (intros; apply G_ret);
    [apply gw_strcp|apply gw_label]; auto.
Qed.
Lemma gw_frame : gw wr_frame.
Proof.
  intros E f w. destruct f; cbn [wr_frame].
  - destruct (_ && _); apply G_ret.
  - apply G_bind; [apply gw_vtype; auto|]. intros. apply G_ret.
  - destruct (_ && _); [apply G_ret|exact I].
  - destruct (_ <=? _); [|exact I]. apply G_bind; [apply gw_each; auto; apply gw_vtype|]. intros. apply G_ret.
  - apply G_bind; [apply gw_each; auto; apply gw_vtype|]. intros ? ?.
    apply G_bind; [apply gw_each; auto; apply gw_vtype|]. intros. apply G_ret.
Qed.
Lemma gw_lvt : gw wr_lvt.
Proof. intros E a w. unfold wr_lvt. do 3 (apply G_pure; intros). apply G_ret. Qed.
Lemma gw_code_target : gw wr_code_target.
Proof.
  intros E t w. destruct t; cbn [wr_code_target]; apply gw_tagged'; auto using gw_label, gw_catch.
  1, 2: apply gw_cvec, gw_lvt. all: apply gw_pair; [apply gw_label|apply gw_plain].
Qed.
Lemma gw_fcattr : gw wr_fcattr.
Proof.
  intros E a w. destruct a; cbn [wr_fcattr]; unfold wr_lvrow, wr_code_tannot; ga; auto using gw_code_target, gw_frame.
Qed.

Section Dynamics.
Context (heap : Z -> option bsm).
Notation cont := (contents heap).
Lemma cont_app a b : cont (a ++ b) = cont a ++ cont b.
Proof. apply flat_map_app. Qed.
Lemma a_dynamic E d w : we_heap E = heap -> adds (cont [d]) w (insert_dynamic E d w).
Proof.
  intros HE. unfold insert_dynamic, contents. cbn [flat_map]. rewrite HE, app_nil_r.
  destruct (heap (d_cell d)) as [b|]; [|exact I]. apply (adds_last [b]); [reflexivity|]. intros ? ?. g0.
Qed.
Lemma a_ordyn {A} (f : cins A) E o w : we_heap E = heap -> still f -> adds (cont (dyn_of o)) w (insert_ordynamic f E o w).
Proof. intros HE Hf. destruct o as [d|a]; cbn [insert_ordynamic dyn_of]; [apply a_dynamic; auto|apply Hf]. Qed.
Lemma a_emit_idx {A} op (f : cins A) t L E a w : adds L w (f E a w) -> adds L w (emit_idx op f t E a w).
Proof. intros H. unfold emit_idx. apply adds_last; auto. intros. apply G_ret. Qed.
Lemma a_ldc E c w : we_heap E = heap -> adds (cont (dyn_of c)) w (emit_ldc E c w).
Proof.
  intros HE. unfold emit_ldc. apply adds_last; [|intros; apply G_ret]. apply a_ordyn; auto. apply still_constant.
Qed.
Lemma a_push E c w : we_heap E = heap -> adds (cont (dyn_of c)) w (emit_push E c w).
Proof.
  intros HE. assert (H := a_ldc E c w HE). unfold emit_push. destruct c as [d|k]; auto.
  destruct k; auto; repeat match goal with |- adds _ _ (if ?b then _ else _) => destruct b end; auto; apply G_ret.
Qed.
Lemma still_ctype : still insert_ctype.
Proof. intros E a w. unfold insert_ctype. apply G_pure. intros. apply g_class. Qed.
Lemma a_emit E i w : we_heap E = heap -> adds (cont (insn_dyns i)) w (emit E i w).
Proof.
  intros HE. destruct i; cbn [emit insn_dyns];
    repeat match goal with |- adds _ _ (match ?x with _ => _ end) => destruct x end;
    try exact I; try apply G_ret; try (apply a_push; auto; fail);
    try (apply a_emit_idx; first [apply a_dynamic; auto; fail | apply a_ordyn; auto using still_ctype, still_class, still_member]; fail).
Qed.
Lemma a_insn E i y w : we_heap E = heap -> adds (cont (insn_dyns i)) w (write_insn E i y w).
Proof.
  intros HE. assert (H : adds (cont (insn_dyns i)) w ('(b, w) <- emit E i w ;;
    Ok ({| y_bufs := y_bufs y; y_cur := y_cur y ++ b; y_jumps := y_jumps y; y_labels := y_labels y |}, w))).
  { apply adds_last; [apply a_emit; auto|]. intros. apply G_ret. }
  destruct i; cbn [write_insn]; try exact H; apply G_ret.
Qed.
Lemma a_insns E is : we_heap E = heap -> forall y w, adds (cont (flat_map insn_dyns is)) w (write_insns E is y w).
Proof.
  intros HE. induction is as [|i is IH]; intros y w; cbn [write_insns flat_map]; [apply G_ret|].
  rewrite cont_app. apply adds_bind; [apply a_insn; auto|]. intros. apply IH.
Qed.
Lemma still_handler : still wr_handler.
Proof.
  intros E c w. unfold wr_handler. do 3 (apply G_pure; intros ?). destruct (c_type c); [|apply G_ret].
  apply G_bind; [apply g_class|]. intros. apply G_ret.
Qed.
Lemma a_kattr E a w : adds [] w (wr_kattr E a w).
Proof.
  assert (H : forall a x w, adds [] w ('(b, w) <- wr_fcattr E a w ;; Ok (b, x : Z, w))).
  { intros. apply G_bind; [apply gw_fcattr; auto|]. intros. apply G_ret. }
  destruct a; cbn [wr_kattr]; auto. apply G_pure. intros [[|d ds] [|g gs]]; auto; [exact I|].
  apply G_bind; [apply gw_fcattr; auto|]. intros ? ?. apply G_bind; [apply gw_fcattr; auto|]. intros. apply G_ret.
Qed.
Lemma a_kattrs E l : forall x w, adds [] w (wr_kattrs E l x w).
Proof.
  induction l as [|a l IH]; intros x w; cbn [wr_kattrs]; [apply G_ret|].
  apply G_bind; [apply a_kattr; auto|]. intros [? ?] ?. apply G_pure. intros ?.
  apply G_bind; [apply IH|]. intros [? ?] ?. apply G_ret.
Qed.
Lemma a_code E c w : we_heap E = heap -> adds (cont (code_dyns c)) w (wr_code E c w).
Proof.
  intros HE. unfold wr_code. apply adds_last; [apply a_insns; auto|]. intros y w1.
  apply G_pure. intros [[n ends] body].
  apply G_bind; [apply gw_each; auto; apply still_handler|]. intros hs w2.
  apply G_bind; [apply a_kattrs; auto|]. intros [? ?] w3. apply G_pure. intros. apply G_ret.
Qed.
Lemma a_each {A} (f : cwr A) (g : A -> list dynamic) E :
  (forall a w, adds (cont (g a)) w (f E a w)) -> forall xs w, adds (cont (flat_map g xs)) w (wr_each f E xs w).
Proof.
  intros H. induction xs as [|a xs IH]; intros w; cbn [wr_each flat_map]; [apply G_ret|].
  rewrite cont_app. apply adds_bind; [apply H|]. intros ? ?. apply adds_last; [apply IH|]. intros. apply G_ret.
Qed.
Lemma a_mattr E a w : we_heap E = heap ->
  adds (cont (match a with MCode c => code_dyns c | _ => [] end)) w (wr_mattr wr_code E a w).
Proof.
  intros HE. destruct a; cbn [wr_mattr]; unfold wr_mtannots, wr_pannots;
    try (match goal with |- adds (cont []) ?w (wr_attr ?n ?f ?E ?a ?w) => enough (still (wr_attr n f)) as H by apply (H E a w); ga; apply gw_mparam end).
  - unfold wr_attr.
    change (cont (code_dyns c)) with ([] ++ cont (code_dyns c)). apply adds_bind; [apply g_wtf8|]. intros ? ?.
    apply adds_last; [apply a_code; auto|]. intros. apply G_ret.
  - apply gw_raw_attr.
Qed.
Lemma a_method E m w : we_heap E = heap -> adds (cont (method_dyns m)) w (wr_method wr_code E m w).
Proof.
  intros HE. unfold wr_method, wr_via, wr_pair. cbn [fst snd].
  change (cont (method_dyns m)) with ([] ++ cont (method_dyns m)). apply adds_bind; [apply gw_cflags|]. intros ? ?.
  apply adds_last; [|intros; apply G_ret].
  change (cont (method_dyns m)) with ([] ++ cont (method_dyns m)). apply adds_bind; [apply gw_cow|]. intros ? ?.
  apply adds_last; [|intros; apply G_ret].
  change (cont (method_dyns m)) with ([] ++ cont (method_dyns m)). apply adds_bind; [apply gw_type|]. intros ? ?.
  apply adds_last; [|intros; apply G_ret]. unfold wr_cvec. destruct (_ <? _); [|exact I].
  apply adds_last; [|intros; apply G_ret]. unfold method_dyns. apply a_each. intros. apply a_mattr; auto.
Qed.
Lemma a_members E c w : we_heap E = heap -> adds (cont (class_dyns c)) w (wr_members E c w).
Proof.
  intros HE. unfold wr_members, wr_via. unfold wr_pair at 1 2 3 4 5 6. cbn [fst snd].
  set (X := cont (class_dyns c)).
  do 5 (change X with ([] ++ X); apply adds_bind; [ga; apply gw_fattr|]; intros ? ?; apply adds_last; [|intros; apply G_ret]).
  apply adds_last.
  - unfold wr_list16. apply adds_last; [|intros; apply G_ret]. apply a_each. intros. apply a_method; auto.
  - intros ? ?. apply G_bind; [apply gw_list16, gw_cattr|]. intros. apply G_ret.
Qed.
End Dynamics.

(** Static arguments add nothing. *)
Lemma still_bsms E v : Forall static_args v -> forall w, adds [] w (wr_each wr_bsm E v w).
Proof.
  intros H. induction H as [|b v Hb _ IH]; intros w; cbn [wr_each]; [apply G_ret|].
  apply G_bind; [|intros ? ?; apply G_bind; [apply IH|intros; apply G_ret]]. unfold wr_bsm.
  apply G_bind; [unfold wr_idx; apply G_bind; [apply still_mhandle|intros; apply G_ret]|]. intros ? w1.
  apply G_bind; [|intros; apply G_ret]. clear w. unfold static_args in Hb. revert w1.
  induction Hb as [|o os Ho _ IHo]; intros w; cbn [wr_each]; [apply G_ret|].
  apply G_bind; [|intros ? ?; apply G_bind; [apply IHo|intros; apply G_ret]].
  destruct o as [d|k]; [destruct Ho|]. unfold wr_idx. apply G_bind; [apply still_constant|]. intros. apply G_ret.
Qed.
