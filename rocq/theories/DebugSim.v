(** The reader of a debug build against the one of a release build (C73, C65). *)
From Coq Require Import Lia String.
From Verif Require Import Base BaseLemmas Wtf8Model TypeModel SigModel PrimModel CpModel AnnModel AttrModel FrameModel InsnModel CodeModel ClassModel.

(** The first result is the second, unless the first is an overflow panic. *)
Definition sim {A} (x y : res A) : Prop := x = y \/ x = Panic POverflow.
Lemma sim_refl {A} (x : res A) : sim x x. Proof. left. reflexivity. Qed.
Lemma sim_bind {A B} (x y : res A) (f g : A -> res B) : sim x y -> (forall a, sim (f a) (g a)) -> sim (bind x f) (bind y g).
Proof. intros [->| ->] H; [|right; reflexivity]. destruct y; cbn; auto using sim_refl. Qed.
Definition rsim {A} (r q : rd A) : Prop := forall l, sim (r l) (q l).
Definition ssim {S A} (r q : srd S A) : Prop := forall s l, sim (r s l) (q s l).
Create HintDb sim.

(** One step: the same on both sides, a known lemma, a bind, a common case
    distinction. *)
Ltac sm1 :=
  cbn beta iota zeta;
  match goal with
  | |- sim ?x ?x => left; reflexivity
  | |- sim (bind _ _) (bind _ _) => apply sim_bind; [|intros ?]
  | |- sim (match ?x with _ => _ end) (match ?x with _ => _ end) => destruct x
  | |- sim (match ?x with _ => _ end) (match ?y with _ => _ end) =>
      let H := fresh in assert (H : sim x y) by (solve [auto with sim nocore]); destruct H as [H|H]; rewrite H; [destruct y|]
  | |- sim (Panic POverflow) _ => right; reflexivity
  | |- _ => solve [auto with sim nocore]
  end.
Ltac sm := intros; repeat sm1.

Lemma sim_chk_u w x : sim (chk_u Debug w x) (chk_u Release w x).
Proof. unfold chk_u. sm. Qed.
Lemma sim_chk_s w x : sim (chk_s Debug w x) (chk_s Release w x).
Proof. unfold chk_s. sm. Qed.
#[global] Hint Resolve sim_chk_u sim_chk_s : sim.

(** * Combinators *)
Lemma sim_times {A} (r q : rd A) : rsim r q -> forall n l, sim (rd_times n r l) (rd_times n q l).
Proof. intros H. induction n; intros l; cbn [rd_times]; sm. all: apply H. Qed.
Lemma sim_vec {A} k (r q : rd A) : rsim r q -> rsim (rd_vec k r) (rd_vec k q).
Proof. intros H l. unfold rd_vec. sm. all: apply sim_times, H. Qed.
Lemma sim_pair {A B} (r r' : rd A) (q q' : rd B) : rsim r r' -> rsim q q' -> rsim (rd_pair r q) (rd_pair r' q').
Proof. intros H1 H2 l. unfold rd_pair. sm. all: first [apply H1|apply H2]. Qed.
Lemma sim_map {A B} (h : A -> B) r q : rsim r q -> rsim (rd_map h r) (rd_map h q).
Proof. intros H l. unfold rd_map. sm. all: apply H. Qed.
Lemma rsim_refl {A} (r : rd A) : rsim r r. Proof. intros l. apply sim_refl. Qed.
Lemma ssim_refl {S A} (r : srd S A) : ssim r r. Proof. intros s l. apply sim_refl. Qed.
Lemma ssim_times {S A} (r q : srd S A) : ssim r q -> forall n s l, sim (srd_times n r s l) (srd_times n q s l).
Proof. intros H. induction n; intros s l; cbn [srd_times]; sm. all: apply H. Qed.
Lemma ssim_vec {S A} k (r q : srd S A) : ssim r q -> ssim (srd_vec k r) (srd_vec k q).
Proof. intros H s l. unfold srd_vec. sm. all: apply ssim_times, H. Qed.
Lemma ssim_lift {S A} (r q : rd A) : rsim r q -> ssim (S := S) (lift r) (lift q).
Proof. intros H s l. unfold lift. sm. all: apply H. Qed.
Lemma ssim_pair {S A B} (r r' : srd S A) (q q' : srd S B) : ssim r r' -> ssim q q' -> ssim (srd_pair r q) (srd_pair r' q').
Proof. intros H1 H2 s l. unfold srd_pair. sm. all: first [apply H1|apply H2]. Qed.
Lemma ssim_map {S A B} (h : A -> B) (r q : srd S A) : ssim r q -> ssim (srd_map h r) (srd_map h q).
Proof. intros H s l. unfold srd_map. sm. all: apply H. Qed.
Lemma sim_idx {A} (f g : Z -> res (option A)) : (forall i, sim (f i) (g i)) -> rsim (rd_idx f) (rd_idx g).
Proof. intros H l. unfold rd_idx. sm. all: apply H. Qed.
Lemma sim_opt {A} (f g : Z -> res (option A)) : (forall i, sim (f i) (g i)) -> rsim (rd_opt f) (rd_opt g).
Proof. intros H l. unfold rd_opt. sm. all: apply H. Qed.
Definition entry {B} (a b : list Z * rd B) : Prop := fst a = fst b /\ rsim (snd a) (snd b).
Lemma entry_mk {B} n (r q : rd B) : rsim r q -> entry (n, r) (n, q).
Proof. split; auto. Qed.
Lemma sim_attr {B} p (k1 k2 : list (list Z * rd B)) raw : Forall2 entry k1 k2 -> rsim (rd_attr p k1 raw) (rd_attr p k2 raw).
Proof.
  intros H l. assert (HA : forall n, match assoc (list_eqb Z.eqb) n k1, assoc (list_eqb Z.eqb) n k2 with
               | Some r, Some q => rsim r q | None, None => True | _, _ => False end).
  { intros name. induction H as [|[n r] [n' q] k1 k2 [Hn Hr] _ IH]; cbn; [exact I|]. cbn in Hn, Hr. subst n'. destruct (list_eqb Z.eqb name n); auto. }
  unfold rd_attr. sm1. apply sim_refl. destruct a as [i l1]. destruct (read_wtf8 p i) as [name|]; [|apply sim_refl]. specialize (HA name).
  sm1; [apply sim_refl|]. destruct a as [n l2]. sm1; [apply sim_refl|]. destruct a as [body l3].
  destruct (assoc (list_eqb Z.eqb) name k1), (assoc (list_eqb Z.eqb) name k2); try contradiction; [|apply sim_refl].
  apply sim_bind; [apply HA|]. intros a. apply sim_refl.
Qed.

(** * Descriptors and signatures *)
Lemma sim_count_dims c : forall d, sim (count_dims Debug d c) (count_dims Release d c).
Proof. induction c as [|x c IH]; intros d; cbn [count_dims]; sm. Qed.
#[global] Hint Resolve sim_count_dims : sim.
Lemma sim_params (f g : list Z -> res (ty * list Z)) : (forall c, sim (f c) (g c)) -> forall n c, sim (params_loop f n c) (params_loop g n c).
Proof. intros H. induction n; intros c; destruct c; cbn [params_loop]; sm. all: apply H. Qed.
Lemma sim_get_type n : forall c, sim (get_type Debug n c) (get_type Release n c).
Proof. induction n; intros c; cbn [get_type]; sm. all: apply sim_params, IHn. Qed.
#[global] Hint Resolve sim_get_type : sim.
Lemma sim_parse s : sim (parse_type Debug s) (parse_type Release s).
Proof. unfold parse_type. sm. Qed.
#[global] Hint Resolve sim_parse : sim.

Section Ref.
  Variable f g : sp rsig.
  Hypothesis H : forall i, sim (f i) (g i).
  Lemma sim_p_type i : sim (p_type f i) (p_type g i).
  Proof. unfold p_type. sm. all: apply H. Qed.
  Lemma sim_arg i : sim (p_arg f i) (p_arg g i).
  Proof. unfold p_arg. sm. all: apply H. Qed.
  Lemma sim_until {A} (a b : sp A) : (forall i, sim (a i) (b i)) -> forall n i, sim (p_until_gt a n i) (p_until_gt b n i).
  Proof. intros Ha. induction n; intros i; destruct i; cbn [p_until_gt]; sm. all: apply Ha. Qed.
  Lemma sim_bracketed {A} (a b : sp A) : (forall i, sim (a i) (b i)) -> forall i, sim (p_bracketed a i) (p_bracketed b i).
  Proof. intros Ha i. unfold p_bracketed. sm. all: apply sim_until, Ha. Qed.
  Lemma sim_simple i : sim (p_simple f i) (p_simple g i).
  Proof. unfold p_simple. sm. all: apply sim_bracketed, sim_arg. Qed.
  Lemma sim_suffixes n : forall i, sim (p_suffixes (p_simple f) n i) (p_suffixes (p_simple g) n i).
  Proof. induction n; intros i; destruct i; cbn [p_suffixes]; sm. all: apply sim_simple. Qed.
  Lemma sim_class i : sim (p_class f i) (p_class g i).
  Proof. unfold p_class. sm; first [apply sim_simple|apply sim_suffixes]. Qed.
  Lemma sim_bounds c : forall i, sim (p_itf_bounds f c i) (p_itf_bounds g c i).
  Proof. induction c; intros i; cbn [p_itf_bounds]; sm. all: apply H. Qed.
  Lemma sim_while {A} set (a b : sp A) : (forall i, sim (a i) (b i)) -> forall n i, sim (p_while set a n i) (p_while set b n i).
  Proof. intros Ha. induction n; intros i; destruct i; cbn [p_while]; sm. all: apply Ha. Qed.
End Ref.
Lemma sim_p_ref n : forall i, sim (p_ref Debug n i) (p_ref Release n i).
Proof. induction n; intros i; cbn [p_ref]; sm; first [apply sim_p_type|apply sim_class]; exact IHn. Qed.
Lemma sim_p_rsig i : sim (p_rsig Debug i) (p_rsig Release i).
Proof. apply sim_p_ref. Qed.
Lemma sim_p_tsig i : sim (p_tsig Debug i) (p_tsig Release i).
Proof. apply sim_p_type, sim_p_rsig. Qed.
Lemma sim_p_csig i : sim (p_csig Debug i) (p_csig Release i).
Proof. apply sim_class, sim_p_rsig. Qed.
#[global] Hint Resolve sim_p_rsig sim_p_tsig sim_p_csig : sim.
Lemma sim_throws i : sim (p_throws Debug i) (p_throws Release i).
Proof. unfold p_throws. sm. Qed.
#[global] Hint Resolve sim_throws : sim.
Lemma sim_param i : sim (p_param Debug i) (p_param Release i).
Proof. unfold p_param. sm. all: apply sim_bounds, sim_p_rsig. Qed.
Lemma sim_p_params i : sim (p_params Debug i) (p_params Release i).
Proof. unfold p_params. apply sim_bracketed, sim_param. Qed.
Lemma sim_ret i : sim (p_ret Debug i) (p_ret Release i).
Proof. unfold p_ret. sm. Qed.
#[global] Hint Resolve sim_p_params sim_ret : sim.
Lemma sim_p_method i : sim (p_method Debug i) (p_method Release i).
Proof. unfold p_method. sm; apply sim_while; sm. Qed.
Lemma sim_p_classsig i : sim (p_classsig Debug i) (p_classsig Release i).
Proof. unfold p_classsig. sm; apply sim_while; sm. Qed.
#[global] Hint Resolve sim_p_method sim_p_classsig : sim.

(** * Constants *)
Lemma sim_pool_loop n : forall i c m l, sim (rd_pool_loop Debug n i c m l) (rd_pool_loop Release n i c m l).
Proof. induction n; intros i c m l; cbn [rd_pool_loop]; sm. Qed.
Lemma sim_pool : rsim (rd_pool Debug) (rd_pool Release).
Proof. intros l. unfold rd_pool. sm. all: apply sim_pool_loop. Qed.
Lemma sim_parse_ok s : sim (parse_ok Debug s) (parse_ok Release s).
Proof. unfold parse_ok. sm. Qed.
#[global] Hint Resolve sim_parse_ok : sim.
Section P.
Variable p : pool.
Lemma sim_nameandtype i : sim (read_nameandtype Debug p i) (read_nameandtype Release p i).
Proof. unfold read_nameandtype. sm. Qed.
Hint Resolve sim_nameandtype : sim.
Lemma sim_read_member i : sim (read_member Debug p i) (read_member Release p i).
Proof. unfold read_member. sm. Qed.
Hint Resolve sim_read_member : sim.
Lemma sim_handle i : sim (read_method_handle Debug p i) (read_method_handle Release p i).
Proof. unfold read_method_handle. sm. Qed.
Lemma sim_read_constant i : sim (read_constant Debug p i) (read_constant Release p i).
Proof. unfold read_constant. sm. Qed.
Hint Resolve sim_handle sim_read_constant : sim.
Lemma sim_type : rsim (rd_type Debug p) (rd_type Release p).
Proof. intros l. unfold rd_type. sm. Qed.
Lemma sim_constant : rsim (rd_constant Debug p) (rd_constant Release p).
Proof. apply sim_idx. sm. Qed.
Lemma sim_nametype : rsim (rd_opt_nametype Debug p) (rd_opt_nametype Release p).
Proof. apply sim_opt. sm. Qed.
Lemma sim_type' l : sim (rd_type Debug p l) (rd_type Release p l).
Proof. apply sim_type. Qed.
Hint Resolve sim_type' : sim.
Lemma sim_dyn_at b nt s : sim (read_dyn_at Debug p b nt s) (read_dyn_at Release p b nt s).
Proof. unfold read_dyn_at. sm. Qed.
Hint Resolve sim_dyn_at : sim.
Lemma sim_dynamic i s : sim (read_dynamic Debug p i s) (read_dynamic Release p i s).
Proof. unfold read_dynamic. sm. Qed.
Lemma sim_invokedynamic i s : sim (read_invokedynamic Debug p i s) (read_invokedynamic Release p i s).
Proof. unfold read_invokedynamic. sm. Qed.
Hint Resolve sim_dynamic sim_invokedynamic : sim.
Lemma sim_or_dynamic i s : sim (read_or_dynamic Debug p i s) (read_or_dynamic Release p i s).
Proof. unfold read_or_dynamic. sm. Qed.
Hint Resolve sim_or_dynamic : sim.
Lemma sim_bsm : ssim (rd_bsm Debug p) (rd_bsm Release p).
Proof.
  intros s l. unfold rd_bsm. sm; [apply sim_idx; sm|]. apply ssim_times. intros s' l'. unfold rd_bsm_arg. sm.
Qed.

(** * Annotations and attributes *)
Lemma sim_vals_with r q : rsim r q -> rsim (rd_vals_with p r) (rd_vals_with p q).
Proof.
  intros H l. unfold rd_vals_with. sm. match goal with |- sim (rd_pairs _ _ ?n ?m ?x) _ => generalize m, x; induction n end; intros m l'; cbn [rd_pairs]; sm; apply H.
Qed.
Lemma sim_aval_n n : rsim (rd_aval_n Debug p n) (rd_aval_n Release p n).
Proof. induction n; intros l; cbn [rd_aval_n]; sm; first [apply sim_vals_with, IHn|apply sim_times, IHn]. Qed.
Lemma sim_aval : rsim (rd_aval Debug p) (rd_aval Release p).
Proof. intros l. apply sim_aval_n. Qed.
Lemma sim_vals : rsim (rd_vals Debug p) (rd_vals Release p).
Proof. intros l. apply sim_vals_with, sim_aval_n. Qed.
Lemma sim_vals' l : sim (rd_vals Debug p l) (rd_vals Release p l).
Proof. apply sim_vals. Qed.
Hint Resolve sim_vals' : sim.
Lemma sim_annot : rsim (rd_annot Debug p) (rd_annot Release p).
Proof. intros l. unfold rd_annot. sm. Qed.
Lemma sim_annots : rsim (rd_annots Debug p) (rd_annots Release p).
Proof. apply sim_vec, sim_annot. Qed.
Lemma sim_tannot_rest {T} (t : T) : rsim (rd_tannot_rest Debug p t) (rd_tannot_rest Release p t).
Proof. intros l. unfold rd_tannot_rest. sm. Qed.
Lemma sim_tannot {T} (r : rd T) : rsim (rd_tannot r Debug p) (rd_tannot r Release p).
Proof. intros l. unfold rd_tannot. sm. all: apply sim_tannot_rest. Qed.
Lemma sim_sig {A} (f g : sp A) : (forall i, sim (f i) (g i)) -> rsim (rd_sig f p) (rd_sig g p).
Proof. intros H l. unfold rd_sig, from_str. sm. all: apply H. Qed.
Ltac entries := repeat (apply Forall2_cons; [apply entry_mk; try match goal with |- rsim (rd_map _ _) _ => apply sim_map end|]); [..|apply Forall2_nil];
  match goal with
  | |- rsim ?x ?x => apply rsim_refl
  | |- rsim (rd_annots _ _) _ => apply sim_annots
  | |- rsim (rd_constant _ _) _ => apply sim_constant
  | |- rsim (rd_sig _ _) _ => apply sim_sig; sm
  | |- rsim (rd_vec _ (rd_tannot _ _ _)) _ => apply sim_vec, sim_tannot
  | |- rsim (rd_mtannots _ _) _ => apply sim_vec, sim_tannot
  | |- rsim (rd_ctannots _ _) _ => apply sim_vec, sim_tannot
  | |- rsim (rd_pannots _ _) _ => apply sim_vec, sim_annots
  | |- rsim (rd_aval _ _) _ => apply sim_aval
  | |- _ => idtac
  end.
Lemma sim_fattr : rsim (rd_fattr Debug p) (rd_fattr Release p).
Proof. apply sim_attr. unfold fattr_known. entries. Qed.
Lemma sim_field : rsim (rd_field Debug p) (rd_field Release p).
Proof. apply sim_map, sim_pair; [apply rsim_refl|]. apply sim_pair; [apply rsim_refl|]. apply sim_pair; [apply sim_type|]. apply sim_vec, sim_fattr. Qed.
Lemma sim_method {C} (rc qc : pool -> srd rst C) : ssim (rc p) (qc p) -> ssim (rd_method rc Debug p) (rd_method qc Release p).
Proof.
  intros H. apply ssim_map, ssim_pair; [apply ssim_refl|]. apply ssim_pair; [apply ssim_refl|]. apply ssim_pair; [apply ssim_lift, sim_type|].
  apply ssim_vec. intros s. apply sim_attr. unfold mattr_known. entries. intros l. apply H.
Qed.
Lemma sim_cattr : ssim (rd_cattr Debug p) (rd_cattr Release p).
Proof.
  intros s. apply sim_attr. unfold cattr_known. entries.
  - apply sim_pair; [apply rsim_refl|apply sim_nametype].
  - intros l. apply ssim_vec, sim_bsm.
Qed.

(** * Code *)
Lemma sim_code_tannot : ssim (rd_code_tannot Debug p) (rd_code_tannot Release p).
Proof. intros s l. unfold rd_code_tannot. sm. all: apply sim_tannot_rest. Qed.
Lemma sim_lvrow {A} (r q : rd A) : rsim r q -> rsim (rd_lvrow p r) (rd_lvrow p q).
Proof. intros H. unfold rd_lvrow. apply sim_map. do 3 (apply sim_pair; [apply rsim_refl|]). apply sim_pair; [exact H|apply rsim_refl]. Qed.
Lemma sim_fcattr s l : sim (rd_fcattr Debug p s l) (rd_fcattr Release p s l).
Proof.
  apply sim_attr. unfold fcattr_known. entries.
  - apply sim_vec, sim_lvrow, sim_type.
  - apply sim_vec, sim_lvrow, sim_sig. sm.
  - intros l'. apply ssim_map, ssim_vec, sim_code_tannot.
  - intros l'. apply ssim_map, ssim_vec, sim_code_tannot.
Qed.
Lemma sim_table : rsim (rd_table Debug) (rd_table Release).
Proof. intros l. unfold rd_table. sm. Qed.
Lemma sim_raw_op op : rsim (rd_raw_op Debug op) (rd_raw_op Release op).
Proof.
  intros l. unfold rd_raw_op. destruct op as [|q|q]; [apply sim_refl| |apply sim_refl].
  do 8 (try (destruct q as [q|q|]; try apply sim_refl)). sm. apply sim_table.
Qed.
Lemma sim_raw_insn l : sim (rd_raw_insn Debug l) (rd_raw_insn Release l).
Proof. unfold rd_raw_insn. sm. all: apply sim_raw_op. Qed.
Hint Resolve sim_raw_insn : sim.
Lemma sim_conv_ordyn {A} (f g : Z -> res (option A)) i s : (forall i, sim (f i) (g i)) -> sim (conv_ordyn Debug p f i s) (conv_ordyn Release p g i s).
Proof. intros H. unfold conv_ordyn, read_ordyn. sm. all: apply H. Qed.
Lemma sim_conv_member i s : sim (conv_member Debug p i s) (conv_member Release p i s).
Proof. apply sim_conv_ordyn. sm. Qed.
Lemma sim_conv_class i s : sim (conv_class Debug p i s) (conv_class Release p i s).
Proof. apply sim_conv_ordyn. sm. Qed.
Lemma sim_conv_constant i s : sim (conv_constant Debug p i s) (conv_constant Release p i s).
Proof. unfold conv_constant. sm. Qed.
Hint Resolve sim_conv_member sim_conv_class sim_conv_constant : sim.
Lemma sim_conv_elem i d s : sim (conv_elem Debug p i d s) (conv_elem Release p i d s).
Proof. unfold conv_elem. sm. Qed.
Lemma sim_conv_ctype i s : sim (conv_ctype Debug p i s) (conv_ctype Release p i s).
Proof. unfold conv_ctype. sm. Qed.
Hint Resolve sim_conv_elem sim_conv_ctype : sim.
Lemma sim_conv pos r s : sim (conv Debug p pos r s) (conv Release p pos r s).
Proof. unfold conv. destruct r; sm. Qed.
Hint Resolve sim_conv : sim.
Lemma sim_insn_at pos s l : sim (rd_insn_at Debug p pos s l) (rd_insn_at Release p pos s l).
Proof. unfold rd_insn_at. sm. Qed.
Hint Resolve sim_insn_at : sim.
Lemma sim_insns n : forall pos s l, sim (rd_insns n Debug p pos s l) (rd_insns n Release p pos s l).
Proof. induction n; intros pos s l; destruct l; cbn [rd_insns]; sm. Qed.
Lemma sim_vars {A} set (rows : list (lvrow A)) : forall s vs, sim (add_vars Debug set rows s vs) (add_vars Release set rows s vs).
Proof. induction rows; intros s vs; cbn [add_vars]; sm. Qed.
Lemma sim_add_attr idx a s z : sim (add_attr Debug idx a s z) (add_attr Release idx a s z).
Proof. unfold add_attr. sm. all: apply sim_vars. Qed.
Hint Resolve sim_fcattr sim_add_attr : sim.
Lemma sim_kattrs idx n : forall s z l, sim (rd_kattrs n Debug p idx s z l) (rd_kattrs n Release p idx s z l).
Proof. induction n; intros s z l; cbn [rd_kattrs]; sm. Qed.
Lemma sim_code : ssim (rd_code Debug p) (rd_code Release p).
Proof. intros s l. unfold rd_code. sm; first [apply sim_insns|apply sim_kattrs]. Qed.
Lemma sim_members : ssim (rd_members Debug p) (rd_members Release p).
Proof.
  apply ssim_map, ssim_pair; [apply ssim_refl|]. apply ssim_pair; [apply ssim_refl|]. apply ssim_pair; [apply ssim_refl|].
  apply ssim_pair; [apply ssim_refl|]. apply ssim_pair; [apply ssim_lift, sim_vec, sim_field|].
  apply ssim_pair; [apply ssim_vec, sim_method, sim_code|apply ssim_vec, sim_cattr].
Qed.
End P.
Lemma sim_classfile : rsim (rd_classfile Debug) (rd_classfile Release).
Proof. intros l. unfold rd_classfile. sm; first [apply sim_pool|apply sim_members]. Qed.
