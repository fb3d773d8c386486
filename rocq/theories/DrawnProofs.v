(** The strings of a class that was read stand in its constant pool (C94): lemmas. *)
From Coq Require Import String.
From Verif Require Import Base BaseLemmas Wtf8Spec Wtf8Model Wtf8Proofs MutfModel MutfProofs PrimModel PrimProofs TypeModel TypeSpec TypeProofs TypeProofs2 TypeProps CpModel CpProofs
  SigModel SigSpec AnnModel AttrModel FrameModel InsnModel CodeModel CodeProofs CodeSpec CodeUndef CodeAccept ReadProofs ClassModel ClassSpec PanicProofs PanicCode
  WriteSpec LaxProofs ReadText ReadTyped DrawnSpec.
From Coq Require Import Lia.

Section Pool.
Context (md : mode) (p : pool).
Hypothesis Hp : forall i s, p i = Some (RWtf8 s) -> lax s.
Context (Txt : list Z -> Prop) (Dsc : ty -> Prop) (Fsg : rsig -> Prop) (Msg : method_sig -> Prop) (Csg : class_sig -> Prop).
Hypothesis Hnp : forall i s, p i = Some (RWtf8 s) -> Txt s.
Hypothesis HDp : forall s t, Txt s -> parse_type md s = Ok t -> Dsc t.
Hypothesis HFp : forall s g, Txt s -> sig_of (p_rsig md) s = Ok g -> Fsg g.
Hypothesis HMp : forall s g, Txt s -> sig_of (p_method md) s = Ok g -> Msg g.
Hypothesis HCp : forall s g, Txt s -> sig_of (p_classsig md) s = Ok g -> Csg g.
Notation n_member := (DrawnSpec.n_member Txt Dsc).
Notation n_const := (DrawnSpec.n_const Txt Dsc).
Notation n_dyn := (DrawnSpec.n_dyn Txt Dsc).
Notation n_or := (DrawnSpec.n_or Txt Dsc).
Notation n_bsm := (DrawnSpec.n_bsm Txt Dsc).
Notation n_raw := (DrawnSpec.n_raw Txt).
Notation n_aval := (DrawnSpec.n_aval Txt Dsc).
Notation n_vals := (DrawnSpec.n_vals Txt Dsc).
Notation n_annot := (DrawnSpec.n_annot Txt Dsc).
Notation n_tannot := (DrawnSpec.n_tannot Txt Dsc).
Notation n_fattr := (DrawnSpec.n_fattr Txt Dsc Fsg).
Notation n_field := (DrawnSpec.n_field Txt Dsc Fsg).
Notation n_ctype := (DrawnSpec.n_ctype Txt Dsc).
Notation n_insn := (DrawnSpec.n_insn Txt Dsc).
Notation n_var := (DrawnSpec.n_var Txt Dsc Fsg).
Notation n_kattr := (DrawnSpec.n_kattr Txt Dsc Fsg).
Notation n_code := (DrawnSpec.n_code Txt Dsc Fsg).
Notation n_mattr := (DrawnSpec.n_mattr Txt Dsc Fsg Msg).
Notation n_method := (DrawnSpec.n_method Txt Dsc Fsg Msg).
Notation n_require := (DrawnSpec.n_require Txt).
Notation n_exopen := (DrawnSpec.n_exopen Txt).
Notation n_provide := (DrawnSpec.n_provide Txt).
Notation n_module := (DrawnSpec.n_module Txt).
Notation n_inner := (DrawnSpec.n_inner Txt).
Notation n_cattr := (DrawnSpec.n_cattr Txt Dsc Csg).

(** * Constants *)
Lemma ny_wtf8 i : oall Txt (read_wtf8 p i).
Proof. unfold read_wtf8. destruct (p i) as [[]|] eqn:E; cbn; auto. exact (Hnp _ _ E). Qed.
Lemma ny_indirect t i : oall Txt (read_indirect_str t p i).
Proof. unfold read_indirect_str. destruct (p i) as [[]|]; cbn; auto; destruct (t =? _); cbn; auto; apply ny_wtf8. Qed.
Lemma ny_parse s : Txt s -> calmly K0 Dsc (parse_type md s).
Proof. intros Hs. apply calm_ok. intros t. apply (HDp s), Hs. Qed.
Lemma ny_parse_ok s : Txt s -> calmly K0 (oall Dsc) (parse_ok md s).
Proof. intros Hs. unfold parse_ok. pose proof (ny_parse s Hs) as H. destruct (parse_type md s); cbn in *; auto; exact I. Qed.
Definition n_nt (x : list Z * ty) : Prop := Txt (fst x) /\ Dsc (snd x).
Lemma ny_nt i : calmly K0 (oall n_nt) (read_nameandtype md p i).
Proof.
  unfold read_nameandtype. destruct (p i) as [[]|]; try exact I. pose proof (ny_wtf8 n) as Hn. pose proof (ny_wtf8 t) as Ht.
  destruct (read_wtf8 p n); [|exact I]. destruct (read_wtf8 p t); [|exact I]. eapply calm_bind; [apply ny_parse_ok; exact Ht|]. intros [t'|] Ht'; [split; auto|exact I].
Qed.
Lemma ny_member i : calmly K0 (oall n_member) (read_member md p i).
Proof.
  unfold read_member. destruct (p i) as [[]|]; try exact I; pose proof (ny_indirect 7 c) as Hc; destruct (read_indirect_str 7 p c); try exact I;
  (eapply calm_bind; [apply ny_nt|]; intros [[n t]|] Hn; [split; [exact Hc|exact Hn]|exact I]).
Qed.
Lemma ny_handle i : calmly K0 (oall (fun h => n_member (h_member h))) (read_method_handle md p i).
Proof.
  unfold read_method_handle. destruct (p i) as [[]|]; try exact I. eapply calm_bind; [apply ny_member|]. intros [m'|] Hm; unfold zip_handle; destruct (mhkind_of k); try exact I. exact Hm.
Qed.
Lemma ny_constant i : calmly K0 (oall n_const) (read_constant md p i).
Proof.
  unfold read_constant. destruct (p i) as [[]|]; try exact I; try (eapply calm_bind; [apply ny_member|]; intros [m'|] Hm; [exact Hm|exact I]).
  all: try (match goal with |- context [read_wtf8 p ?s] => pose proof (ny_wtf8 s) as H; destruct (read_wtf8 p s) end; [|exact I]).
  all: try exact H.
  - eapply calm_bind; [apply ny_member|]. intros [m'|] Hm; unfold zip_handle; destruct (mhkind_of k); try exact I. exact Hm.
  - eapply calm_bind; [apply ny_parse_ok; exact H|]. intros [t|] Ht; [exact Ht|exact I].
Qed.
Lemma ny_cow b : qb K0 b Txt (rd_cow p). Proof. apply qb_idx. intros i. apply ny_wtf8. Qed.
Lemma ny_opt_cow b : qb K0 b (t_opt Txt) (rd_opt_cow p). Proof. apply y_opt. intros i. apply ny_wtf8. Qed.
Lemma ny_strcp b t : qb K0 b Txt (rd_strcp t p). Proof. apply qb_idx. intros i. apply ny_indirect. Qed.
Lemma ny_class b : qb K0 b Txt (rd_class p). Proof. apply ny_strcp. Qed.
Lemma ny_opt_strcp b t : qb K0 b (t_opt Txt) (rd_opt_strcp t p). Proof. apply y_opt. intros i. apply ny_indirect. Qed.
Lemma ny_type b : qb K0 b Dsc (rd_type md p).
Proof. unfold rd_type. eapply qb_bind; [apply ny_cow|]. intros s Hs. cbn beta iota. eapply qb_pure; [apply ny_parse, Hs|]. intros t Ht. apply qb_ret. exact Ht. Qed.
Lemma ny_opt_nametype b : qb K0 b (t_opt n_nt) (rd_opt_nametype md p). Proof. apply y_opt. intros i. apply ny_nt. Qed.
Lemma ny_sig {A} b (P : A -> Prop) (q : sp A) : (forall s g, Txt s -> sig_of q s = Ok g -> P g) -> qb K0 b P (rd_sig q p).
Proof.
  intros Hq. unfold rd_sig. eapply qb_bind; [apply ny_cow|]. intros s Hs. cbn beta iota. intros l Hl Hb. specialize (Hq s). unfold sig_of in Hq.
  destruct (to_string_lossy s) as [t| |]; cbn [bind post]; try exact I. cbn [bind] in Hq. destruct (codepoints t) as [c| |]; cbn [bind post]; try exact I. cbn [bind] in Hq.
  destruct (from_str q c) as [a| |]; cbn [bind post]; try exact I. split; [apply Hq; auto|]. auto.
Qed.
(** * Annotations *)
Lemma assoc_set_vals k v m : Txt k -> n_aval v -> n_vals m -> n_vals (assoc_set (list_eqb Z.eqb) k v m).
Proof.
  intros Hk Hv. induction 1 as [|[k' v'] m [H1 H2] H3 IH]; cbn; [constructor; cbn; auto|]. destruct (list_eqb Z.eqb k k'); constructor; cbn; auto.
Qed.
Lemma ny_pairs b (r : rd aval) n : qb K0 b n_aval r -> forall m, n_vals m -> qb K0 b n_vals (rd_pairs p r n m).
Proof.
  intros Hr. induction n as [|n IH]; intros m Hm; cbn [rd_pairs]; [apply qb_ret; exact Hm|].
  eapply qb_bind; [apply ny_cow|]. intros k Hk. cbn beta iota. eapply qb_bind; [exact Hr|]. intros v Hv. cbn beta iota. apply IH, assoc_set_vals; auto.
Qed.
Lemma ny_vals_with b r : qb K0 b n_aval r -> qb K0 b n_vals (rd_vals_with p r).
Proof. intros Hr. unfold rd_vals_with. eapply qb_bind; [apply qb_u|]. intros k _. cbn beta iota. apply ny_pairs; auto. constructor. Qed.
Lemma ny_aval_n n b : qb K0 b n_aval (rd_aval_n md p n).
Proof.
  revert b. induction n as [|n IH]; intros b; cbn [rd_aval_n]; [apply qb_panic; exact I|].
  eapply qb_bind; [apply qb_u|]. intros t _. cbn beta iota.
  assert (HI : forall lo hi f, (forall x, n_aval (f x)) -> qb K0 b n_aval (fun l => r <- rd_cint p l ;; AnnModel.in_range lo hi f r)).
  { intros lo hi f Hf. eapply qb_bind; [apply qb_cint|]. intros x _. unfold AnnModel.in_range. destruct (_ && _)%bool; [apply qb_ret, Hf|apply qb_err]. }
  repeat match goal with |- qb _ _ _ (fun l => if ?c then _ else _) => destruct c end; try apply qb_err; try (apply HI; constructor).
  - eapply qb_bind; [apply qb_cdouble|]. intros x _. apply qb_ret. constructor.
  - eapply qb_bind; [apply qb_cfloat|]. intros x _. apply qb_ret. constructor.
  - eapply qb_bind; [apply qb_cint|]. intros x _. apply qb_ret. constructor.
  - eapply qb_bind; [apply qb_clong|]. intros x _. apply qb_ret. constructor.
  - eapply qb_bind; [apply qb_cint|]. intros x _. cbn beta iota. destruct (x =? 1); [apply qb_ret; constructor|]. destruct (x =? 0); [apply qb_ret; constructor|apply qb_err].
  - eapply qb_bind; [apply ny_cow|]. intros x Hx. apply qb_ret. constructor. exact Hx.
  - eapply qb_bind; [apply ny_type|]. intros x Hx. cbn beta iota. eapply qb_bind; [apply ny_cow|]. intros y Hy. apply qb_ret. constructor; auto.
  - eapply qb_bind; [apply ny_cow|]. intros x Hx. cbn beta iota. destruct (list_eqb Z.eqb x s_V); [apply qb_ret; constructor; exact I|].
    eapply qb_pure; [apply ny_parse, Hx|]. intros y Hy. apply qb_ret. constructor. exact Hy.
  - eapply qb_bind; [apply ny_type|]. intros x Hx. cbn beta iota. eapply qb_bind; [apply ny_vals_with, IH|]. intros y Hy. apply qb_ret. constructor; auto.
  - eapply qb_bind; [apply qb_u|]. intros x Hx. cbn beta iota. eapply qb_bind; [apply qb_times, IH|]. intros y Hy. apply qb_ret. constructor; auto.
Qed.
Lemma ny_aval b : qb K0 b n_aval (rd_aval md p).
Proof. intros l Hl Hb. exact (ny_aval_n _ b l Hl Hb). Qed.
Lemma ny_vals b : qb K0 b n_vals (rd_vals md p).
Proof. intros l Hl Hb. exact (ny_vals_with b _ (ny_aval_n _ b) l Hl Hb). Qed.
Lemma ny_annot b : qb K0 b n_annot (rd_annot md p).
Proof. unfold rd_annot. eapply qb_bind; [apply ny_type|]. intros t Ht. cbn beta iota. eapply qb_bind; [apply ny_vals|]. intros v Hv. cbn beta iota. apply qb_ret. split; auto. Qed.
Lemma ny_annots b : qb K0 b (Forall n_annot) (rd_annots md p). Proof. apply y_vec, ny_annot. Qed.
Lemma ny_tannot_rest b {T} (t : T) : qb K0 b n_tannot (rd_tannot_rest md p t).
Proof.
  unfold rd_tannot_rest. eapply qb_bind; [apply qb_vec, qb_tpath|]. intros pa _. cbn beta iota. eapply qb_bind; [apply ny_type|]. intros y Hy. cbn beta iota.
  eapply qb_bind; [apply ny_vals|]. intros v Hv. cbn beta iota. apply qb_ret. split; auto.
Qed.
Lemma ny_tannot b {T} (r : rd T) : qb K0 b any r -> qb K0 b n_tannot (rd_tannot r md p).
Proof. intros Hr. unfold rd_tannot. eapply qb_bind; [exact Hr|]. intros t _. cbn beta iota. apply ny_tannot_rest. Qed.

(** * Attributes *)
Lemma ny_attr {B} b (Q : B -> Prop) (known : list (list Z * rd B)) raw :
  Forall (fun x => qb K0 b Q (snd x)) known -> (forall r, n_raw r -> Q (raw r)) -> qb K0 b Q (rd_attr p known raw).
Proof.
  intros Hk Hr. unfold rd_attr. eapply qb_bind; [apply qb_u|]. intros i _. cbn beta iota. pose proof (ny_wtf8 i) as Hi. destruct (read_wtf8 p i) as [name|]; [|apply qb_err].
  eapply qb_bind; [apply qb_u|]. intros n _. cbn beta iota. intros l Hl Hb. pose proof (qb_take K0 b n l Hl Hb) as HT.
  destruct (take n l) as [[body l1]| |] eqn:ET; cbn [bind post] in *; auto. destruct HT as (Hbody & Hl1 & Hle). apply take_ok in ET as [El _].
  destruct (assoc (list_eqb Z.eqb) name known) as [r|] eqn:EA; [|cbn; split; [apply Hr; exact Hi|auto]].
  assert (Hq : qb K0 b Q r).
  { clear - EA Hk. induction Hk as [|[k0 r0] t H _ IH]; cbn in EA; [discriminate|]. destruct (list_eqb Z.eqb name k0); [injection EA as <-; exact H|auto]. }
  assert (Hbb : (List.length body < b)%nat) by (subst l; rewrite app_length in Hb; lia). specialize (Hq body Hbody Hbb).
  destruct (r body) as [[x rest]| |]; cbn in *; auto. destruct rest; cbn; auto. destruct Hq as (? & _ & _). auto.
Qed.
Lemma ny_fattr b : qb K0 b n_fattr (rd_fattr md p).
Proof.
  apply ny_attr; [|intros r Hr; exact Hr]. unfold fattr_known.
  known; (eapply qb_map;
    [first [apply qb_none|apply (ny_sig b Fsg _ HFp)|apply ny_annots|apply y_vec, ny_tannot, qb_field_target|apply qb_idx; intros; apply ny_constant]|intros a Ha; first [exact Ha|exact I]]).
Qed.
Lemma ny_field b : qb K0 b n_field (rd_field md p).
Proof.
  unfold rd_field. eapply qb_map; [apply y_pair; [apply qb_flags|apply y_pair; [apply ny_cow|apply y_pair; [apply ny_type|apply y_vec, ny_fattr]]]|].
  intros [a [n [d t]]] (_ & H1 & H2 & H3). split; [exact H1|]. split; [exact H2|exact H3].
Qed.
Lemma ny_mparam b : qb K0 b (fun m => t_opt Txt (mp_name m)) (rd_mparam p).
Proof. unfold rd_mparam. eapply qb_map; [apply y_pair; [apply ny_opt_cow|apply qb_flags]|]. intros [n a] [H _]. exact H. Qed.
Lemma ny_require b : qb K0 b n_require (rd_require p).
Proof.
  unfold rd_require. eapply qb_map; [apply y_pair; [apply ny_strcp|apply y_pair; [apply qb_flags|apply ny_opt_cow]]|]. intros [n [a v]] (H1 & _ & H2). split; [exact H1|exact H2].
Qed.
Lemma ny_exopen b : qb K0 b n_exopen (rd_exopen p).
Proof.
  unfold rd_exopen. eapply qb_map; [apply y_pair; [apply ny_strcp|apply y_pair; [apply qb_flags|apply y_vec, ny_strcp]]|]. intros [n [a v]] (H1 & _ & H2). split; [exact H1|exact H2].
Qed.
Lemma ny_provide b : qb K0 b n_provide (rd_provide p).
Proof. unfold rd_provide. eapply qb_map; [apply y_pair; [apply ny_class|apply y_vec, ny_class]|]. intros [n v] (H1 & H2). split; [exact H1|exact H2]. Qed.
Lemma ny_module b : qb K0 b n_module (rd_module p).
Proof.
  unfold rd_module. eapply qb_map; [apply y_pair; [apply ny_strcp|apply y_pair; [apply qb_flags|apply y_pair; [apply ny_opt_cow|apply y_pair; [apply y_vec, ny_require|
    apply y_pair; [apply y_vec, ny_exopen|apply y_pair; [apply y_vec, ny_exopen|apply y_pair; [apply y_vec, ny_class|apply y_vec, ny_provide]]]]]]]|].
  intros [n [f [v [r [e [o [u q]]]]]]] (H1 & _ & H2 & H3 & H4 & H5 & H6 & H7). unfold DrawnSpec.n_module. cbn in *. auto 10.
Qed.
Lemma ny_inner b : qb K0 b n_inner (rd_inner_class p).
Proof.
  unfold rd_inner_class. eapply qb_map; [apply y_pair; [apply ny_class|apply y_pair; [apply ny_opt_strcp|apply y_pair; [apply ny_opt_cow|apply qb_flags]]]|].
  intros [n [f [v r]]] (H1 & H2 & H3 & _). unfold DrawnSpec.n_inner. cbn in *. auto.
Qed.
(** * Dynamic constants *)
Lemma ny_dyn_at c nt s : calmly K0 (st cells (t_opt n_dyn) ocells s) (read_dyn_at md p c nt s).
Proof.
  unfold read_dyn_at. eapply calm_bind; [apply ny_nt|]. intros [[n t]|] H; cbn [calmly].
  - unfold st, cells, ocells. cbn [fst snd r_refs d_cell]. rewrite map_app. split; [apply incl_appl, incl_refl|]. split; [exact H|]. apply incl_appr, incl_refl.
  - split; [apply incl_refl|]. split; [exact I|]. intros x [].
Qed.
Lemma st_none s : st cells (t_opt n_dyn) ocells s (None, s).
Proof. split; [apply incl_refl|]. split; [exact I|]. intros x []. Qed.
Lemma ny_dynamic i s : calmly K0 (st cells (t_opt n_dyn) ocells s) (read_dynamic md p i s).
Proof. unfold read_dynamic. destruct (p i) as [[]|]; try apply st_none. apply ny_dyn_at. Qed.
Lemma ny_invokedynamic i s : calmly K0 (st cells (t_opt n_dyn) ocells s) (read_invokedynamic md p i s).
Proof. unfold read_invokedynamic. destruct (p i) as [[]|]; try apply st_none. apply ny_dyn_at. Qed.
Lemma ny_ordyn {A} (P : A -> Prop) (f : Z -> res (option A)) i s : (forall i, calmly K0 (oall P) (f i)) ->
  calmly K0 (fun x => incl (cells s) (cells (snd x)) /\ match fst x with Some o => n_or P o /\ incl (dyn_cells o) (cells (snd x)) | None => True end) (read_ordyn md p f i s).
Proof.
  intros Hf. unfold read_ordyn. eapply calm_bind; [apply ny_dynamic|]. intros [[d|] s1] (H1 & H2 & H3); cbn beta iota; cbn [fst snd] in *; [cbn; auto|].
  eapply calm_bind; [apply Hf|]. intros [a|] Ha; cbn [option_map calmly fst snd]; (split; [exact H1|]); [split; [exact Ha|intros x []]|exact I].
Qed.
Lemma nys_bsm_arg : ys cells (n_or n_const) dyn_cells (rd_bsm_arg md p).
Proof.
  intros b s. unfold rd_bsm_arg. eapply qb_bind; [apply qb_u|]. intros i _. cbn beta iota. eapply qb_pure; [apply (ny_ordyn n_const (read_constant md p) i s ny_constant)|].
  intros [[a|] s1] (H1 & H2); cbn beta iota; cbn [fst snd] in *; [apply qb_ret; split; [exact H1|exact H2]|apply qb_err].
Qed.
Lemma nys_bsm : ys cells n_bsm bsm_cells (rd_bsm md p).
Proof.
  intros b s. unfold rd_bsm. eapply qb_bind; [apply qb_idx; intros; apply ny_handle|]. intros h Hh. cbn beta iota.
  eapply qb_bind; [apply qb_u|]. intros n _. cbn beta iota. eapply qb_bind; [apply ys_times, nys_bsm_arg|].
  intros [xs s1] (H1 & H2 & H3). cbn beta iota. apply qb_ret. split; [exact H1|]. split; [split; [exact Hh|exact H2]|exact H3].
Qed.
Lemma nys_cattr : ys cells n_cattr cattr_cells (rd_cattr md p).
Proof.
  intros b s. unfold rd_cattr. apply ny_attr; [|intros r Hr; split; [apply incl_refl|split; [exact Hr|intros x []]]]. unfold cattr_known.
  known; try (eapply y_just; [| |first [apply qb_none|apply (ny_sig b Csg _ HCp)|apply ny_annots|apply y_vec, ny_tannot, qb_class_target|apply ny_cow|apply y_vec, ny_inner|apply (y_debug_ext _ Hp)
        |apply ny_module|apply ny_class|apply y_vec, ny_class|apply y_vec, ny_strcp|apply y_pair; [apply ny_class|apply ny_opt_nametype]]];
    [intros a Ha; first [exact Ha|exact I|destruct a as [c m]; exact Ha]|intros a; first [reflexivity|destruct a; reflexivity]]).
  eapply qb_map; [apply ys_vec, nys_bsm|]. intros [bs s1] H. exact H.
Qed.

(** * Instructions *)
Lemma ny_conv_ordyn {A} (P : A -> Prop) (f : Z -> res (option A)) i s : (forall i, calmly K0 (oall P) (f i)) ->
  calmly K0 (st kcells (n_or P) dyn_cells s) (conv_ordyn md p f i s).
Proof.
  intros Hf. unfold conv_ordyn. eapply calm_bind; [apply (ny_ordyn P f i (k_refs s) Hf)|]. intros [[o|] r] (H1 & H2); cbn beta iota; cbn [fst snd] in *; [|exact I].
  split; [exact H1|exact H2].
Qed.
Lemma ny_conv_member i s : calmly K0 (st kcells (n_or n_member) dyn_cells s) (conv_member md p i s).
Proof. apply ny_conv_ordyn. intros. apply ny_member. Qed.
Lemma ny_conv_class i s : calmly K0 (st kcells (n_or Txt) dyn_cells s) (conv_class md p i s).
Proof. apply ny_conv_ordyn. intros. apply ny_indirect. Qed.
Lemma st_insn i s s' : kcells s' = kcells s -> n_insn i -> insn_dyns i = [] -> st kcells n_insn icells s (i, s').
Proof. intros HE HT HD. unfold st, icells. cbn [fst snd]. rewrite HE, HD. split; [apply incl_refl|]. split; [exact HT|intros x []]. Qed.
Lemma ny_conv_constant i s : calmly K0 (st kcells n_insn icells s) (conv_constant md p i s).
Proof. unfold conv_constant. eapply calm_bind; [apply ny_constant|]. intros [k|] Hk; [apply st_insn; auto|exact I]. Qed.
Lemma ny_conv_elem i d s : calmly K0 (st kcells n_insn icells s) (conv_elem md p i d s).
Proof.
  unfold conv_elem. eapply calm_bind; [apply ny_conv_class|]. intros [[d'|c] s1] (H1 & H2 & H3); cbn beta iota; cbn [fst snd] in *.
  - split; [exact H1|]. split; [exact H2|intros x []].
  - pose proof (ny_parse c H2) as HP. destruct (parse_type md c); try exact I; (split; [exact H1|]; split; [|intros x []]).
    + assert (HO : Dsc a \/ exists s, a = TRef s /\ Txt s) by (left; exact HP). destruct a; cbn; auto.
    + right. exists c. auto.
Qed.
Lemma ny_conv_ctype i s : calmly K0 (st kcells (n_or n_ctype) dyn_cells s) (conv_ctype md p i s).
Proof.
  unfold conv_ctype. eapply calm_bind; [apply ny_conv_class|]. intros [[d'|c] s1] (H1 & H2 & H3); cbn beta iota; cbn [fst snd] in *; [split; [exact H1|split; [exact H2|exact H3]]|].
  assert (HO : hd 0 c <> 91 -> calmly K0 (st kcells (n_or n_ctype) dyn_cells s) (Ok (Stat (CtObject c), s1))) by (intros Hc; split; [exact H1|split; [split; [exact H2|exact Hc]|intros x []]]).
  destruct c as [|x c]; [apply HO; cbn; lia|]. destruct (Z.eq_dec x 91) as [->|Hx].
  - eapply calm_bind; [apply ny_parse, H2|]. intros t Ht. destruct t; try exact I. split; [exact H1|split; [exact Ht|intros x []]].
  - assert (HX : forall T (a b : T), match x with 91 => a | _ => b end = b).
    { intros T a b. destruct x as [|q|q]; auto. do 7 (destruct q; auto). congruence. }
    rewrite HX. apply HO. exact Hx.
Qed.
Lemma ny_conv pos r s : calmly K0 (st kcells n_insn icells s) (conv md p pos r s).
Proof.
  assert (H0 : forall i, n_insn i -> insn_dyns i = [] -> calmly K0 (st kcells n_insn icells s) (Ok (i, s))) by (intros; apply st_insn; auto).
  destruct r; cbn [conv]; try (apply H0; [exact I|reflexivity]);
  try (pose proof (lbl_at_cells pos a s) as H1; destruct (lbl_at pos a s) as [l1 s1]; apply st_insn; [exact H1|exact I|reflexivity]);
  try (eapply calm_bind; [apply ny_conv_member|]; intros [m s1] H1; exact H1);
  try apply ny_conv_constant; try apply ny_conv_elem;
  try (eapply calm_bind; [apply ny_conv_ctype|]; intros [m s1] H1; exact H1).
  all: match goal with
  | |- calmly _ _ (match ?w with WILoad _ => _ | _ => _ end) => destruct w; apply H0; [exact I|reflexivity]
  | _ => idtac
  end.
  all: try (repeat match goal with |- calmly _ _ (match ?x with _ => _ end) => destruct x end; first [apply H0; [exact I|reflexivity]|exact I]).
  - pose proof (lbl_at_cells pos dflt s) as H1. destruct (lbl_at pos dflt s) as [d s1]. pose proof (lbls_at_cells pos (t_offs t) s1) as H2.
    destruct (lbls_at pos (t_offs t) s1). apply st_insn; [cbn [snd] in *; congruence|exact I|reflexivity].
  - pose proof (lbl_at_cells pos dflt s) as H1. destruct (lbl_at pos dflt s) as [d s1]. pose proof (lookup_at_cells pos es [] s1) as H2.
    destruct (InsnModel.lookup_at pos es [] s1). apply st_insn; [cbn [snd] in *; congruence|exact I|reflexivity].
  - eapply calm_bind; [apply ny_invokedynamic|]. intros [[d|] r] (H1 & H2 & H3); cbn beta iota; [|exact I]. split; [exact H1|]. split; [exact H2|exact H3].
  - eapply calm_bind; [apply ny_conv_class|]. intros [c s1] H1. exact H1.
Qed.
Lemma ny_insns n : forall pos s l is s', rd_insns n md p pos s l = Ok (is, s') ->
  incl (kcells s) (kcells s') /\ Forall (fun i => n_insn i /\ incl (icells i) (kcells s')) (map snd is).
Proof.
  induction n as [|n IH]; intros pos s l is s' H; cbn [rd_insns] in H.
  - destruct l; [|discriminate]. injection H as <- <-. split; [apply incl_refl|constructor].
  - assert (HE : l = [] \/ l <> []) by (destruct l; [left|right]; congruence). destruct HE as [->|Hne]; [injection H as <- <-; split; [apply incl_refl|constructor]|].
    rewrite (match_ne l) in H by exact Hne. inv_bind H. destruct v as [[i s1] r]. inv_bind H. destruct v as [is1 s2]. injection H as <- <-.
    apply IH in E0 as [H1 H2]. unfold rd_insn_at in E. destruct l as [|op l]; [congruence|]. inv_bind E. destruct v as [rw l1]. inv_bind E. destruct v as [i1 s3].
    injection E as <- <- <-. pose proof (ny_conv pos rw s) as HC. rewrite E1 in HC. destruct HC as (H3 & H4 & H5). cbn [fst snd] in *.
    split; [eapply incl_tran; eauto|]. cbn [map snd]. constructor; [|exact H2]. split; [exact H4|]. eapply incl_tran; eauto.
Qed.

(** * Code *)
Lemma nys_code_tannot : ys kcells n_tannot no_cells (rd_code_tannot md p).
Proof.
  intros b s. unfold rd_code_tannot. eapply qb_bind; [apply ys_code_target|]. intros [t s1] (H1 & _). cbn beta iota.
  eapply qb_bind; [apply ny_tannot_rest|]. intros a Ha. apply qb_ret. split; [exact H1|split; [exact Ha|intros x []]].
Qed.
Definition n_row {A} (P : A -> Prop) (r : lvrow A) : Prop := Txt (lr_name r) /\ P (lr_type r).
Lemma ny_lvrow b {A} (P : A -> Prop) (r : rd A) : qb K0 b P r -> qb K0 b (n_row P) (rd_lvrow p r).
Proof.
  intros Hr. unfold rd_lvrow. eapply qb_map; [apply y_pair; [apply qb_u|apply y_pair; [apply qb_u|apply y_pair; [apply ny_cow|apply y_pair; [exact Hr|apply qb_u]]]]|].
  intros [a [n [s [t i]]]] (_ & _ & H1 & H2 & _). split; [exact H1|exact H2].
Qed.
Definition n_fcattr (a : fcattr) : Prop :=
  match a with
  | CaLocals l => Forall (n_row Dsc) l
  | CaLocalTypes l => Forall (n_row Fsg) l
  | CaInvisible l | CaVisible l => Forall n_tannot l
  | CaRaw r => n_raw r
  | _ => True
  end.
Lemma nys_fcattr : ys kcells n_fcattr no_cells (rd_fcattr md p).
Proof.
  intros b s. unfold rd_fcattr. apply ny_attr; [|intros r Hr; apply st_just; exact Hr]. unfold fcattr_known. known.
  - eapply y_just; [| |apply qb_vec, qb_pair; apply qb_u']; [intros; exact I|reflexivity].
  - eapply y_just; [| |apply y_vec, ny_lvrow, ny_type]; [intros a Ha; exact Ha|reflexivity].
  - eapply y_just; [| |apply y_vec, ny_lvrow, (ny_sig b Fsg _ HFp)]; [intros a Ha; exact Ha|reflexivity].
  - eapply (ys_map kcells (Forall n_tannot)); [apply ys_vec, nys_code_tannot|intros a Ha; exact Ha|intros a x []].
  - eapply (ys_map kcells (Forall n_tannot)); [apply ys_vec, nys_code_tannot|intros a Ha; exact Ha|intros a x []].
  - eapply (ys_map kcells (Forall any)); [apply ys_vec, (ys_frame _ Hp)|intros; exact I|intros a x []].
Qed.
Lemma nys_handler : ys kcells (fun c => t_opt Txt (c_type c)) no_cells (rd_handler p).
Proof.
  intros b s. unfold rd_handler. eapply qb_bind; [apply ys_label|]. intros [a s1] (H1 & _). cbn beta iota. eapply qb_bind; [apply ys_label|]. intros [a2 s2] (H2 & _). cbn beta iota.
  eapply qb_bind; [apply ys_label|]. intros [a3 s3] (H3 & _). cbn beta iota. eapply qb_bind; [apply qb_u|]. intros i _. cbn beta iota. cbn [snd] in *.
  assert (HI : incl (kcells s) (kcells s3)) by (eapply incl_tran; [exact H1|]; eapply incl_tran; [exact H2|exact H3]).
  destruct (i =? 0); [apply qb_ret; split; [exact HI|split; [exact I|intros x []]]|]. pose proof (ny_indirect 7 i) as Hi.
  destruct (read_indirect_str 7 p i); [apply qb_ret; split; [exact HI|split; [exact Hi|intros x []]]|apply qb_err].
Qed.
Lemma ny_add_var f v vs : (forall x, n_var x -> n_var (f x)) -> n_var v -> Forall n_var vs -> Forall n_var (add_var f v vs).
Proof. intros Hf Hv. induction 1 as [|x vs Hx Hvs IH]; cbn [add_var]; auto. destruct (same_key x v); auto. Qed.
Lemma ny_add_vars {A} (P : A -> Prop) set (rows : list (lvrow A)) : (forall a v, P a -> n_var v -> n_var (set a v)) -> Forall (n_row P) rows ->
  forall s vs vs' s', Forall n_var vs -> add_vars md set rows s vs = Ok (vs', s') -> kcells s' = kcells s /\ Forall n_var vs'.
Proof.
  intros Hset. induction 1 as [|r rows [Hn Ht] Hr IH]; intros s vs vs' s' Hvs H; cbn [add_vars] in H; [injection H as <- <-; auto|].
  pose proof (get_label_cells (lr_start r) s) as H1. destruct (get_label (lr_start r) s) as [a s1]. inv_bind H.
  pose proof (get_label_cells v s1) as H2. destruct (get_label v s1) as [c s2]. cbn [snd] in *. apply IH in H as [H3 H4]; [split; [congruence|exact H4]|].
  apply ny_add_var; auto. unfold DrawnSpec.n_var. cbn. auto.
Qed.
Definition n_z (z : zst) : Prop := Forall n_var (z_vars z) /\ Forall n_kattr (z_attrs z).
Lemma ny_add_attr idx a s z z' s' : n_fcattr a -> n_z z -> add_attr md idx a s z = Ok (z', s') -> kcells s' = kcells s /\ n_z z'.
Proof.
  intros Ha [Hv Hz] H. unfold add_attr in H. destruct a; cbn [n_fcattr] in Ha;
  try (injection H as <- <-; split; [reflexivity|]; split; cbn [z_vars z_attrs]; [exact Hv|]; first [exact Hz|apply Forall_app; split; [exact Hz|constructor; [exact Ha|constructor]]]).
  - inv_bind H. injection H as <- <-. split; [reflexivity|split; assumption].
  - inv_bind H. destruct v as [vs s1]. injection H as <- <-. apply (ny_add_vars Dsc) in E as [H1 H2]; auto; [split; [exact H1|split; assumption]|].
    intros t v Ht (H1 & H2 & H3). unfold DrawnSpec.n_var. cbn. auto.
  - inv_bind H. destruct v as [vs s1]. injection H as <- <-. apply (ny_add_vars Fsg) in E as [H1 H2]; auto; [split; [exact H1|split; assumption]|].
    intros t v Ht (H1 & H2 & H3). unfold DrawnSpec.n_var. cbn. auto.
Qed.
Lemma ny_kattrs idx n : forall s z l z' s' l', bytes l -> n_z z -> rd_kattrs n md p idx s z l = Ok (z', s', l') ->
  incl (kcells s) (kcells s') /\ n_z z' /\ bytes l' /\ (List.length l' <= List.length l)%nat.
Proof.
  induction n as [|n IH]; intros s z l z' s' l' Hl Hz H; cbn [rd_kattrs] in H; [injection H as <- <- <-; split; [apply incl_refl|auto]|].
  pose proof (nys_fcattr (S (List.length l)) s l Hl (Nat.lt_succ_diag_r _)) as HF. inv_bind H. destruct v as [[a s1] l1]. rewrite E in HF. destruct HF as ((H1 & H2 & _) & Hl1 & Hle). cbn [fst snd] in *.
  inv_bind H. destruct v as [z1 s2]. apply ny_add_attr in E0 as [H3 H4]; auto. apply IH in H as (H5 & H6 & H7 & H8); auto. rewrite H3 in H5. split; [eapply incl_tran; eauto|]. split; [exact H6|]. split; [exact H7|lia].
Qed.
Lemma nys_code : ys cells n_code ccells (rd_code md p).
Proof.
  intros b s. unfold rd_code. eapply qb_bind; [apply qb_u|]. intros sk _. cbn beta iota. eapply qb_bind; [apply qb_u|]. intros lo _. cbn beta iota.
  eapply qb_bind; [apply qb_u|]. intros n _. cbn beta iota. eapply qb_bind; [apply qb_take|]. intros body Hbody. cbn beta iota.
  eapply (qb_pure _ _ (fun x : list (Z * insn) * cst => incl (cells s) (kcells (snd x)) /\ Forall (fun i => n_insn i /\ incl (icells i) (kcells (snd x))) (map snd (fst x)))).
  { apply calm_ok. intros [is k] E. exact (ny_insns _ _ _ _ _ _ E). }
  intros [is k] (Hk & His). cbn [fst snd] in *. cbn beta iota zeta.
  eapply qb_bind; [apply qb_u|]. intros m _. cbn beta iota. eapply qb_bind; [apply ys_times, nys_handler|]. intros [cs k1] (Hk1 & Hcs & _). cbn beta iota zeta. cbn [fst snd] in *.
  eapply qb_bind; [apply qb_u|]. intros a _. cbn beta iota. intros l Hl Hb.
  set (idx := pos2idx (map fst is ++ [n]) 0). set (k2 := {| k_refs := k_refs k1; k_labels := k_labels k1; k_catches := cs |}). set (z0 := {| z_lines := []; z_vars := []; z_attrs := [] |}).
  assert (HZ0 : n_z z0) by (split; constructor).
  destruct (rd_kattrs (Z.to_nat a) md p idx k2 z0 l) as [[[z k3] l1]| |] eqn:EK; cbn [bind post]; try exact I.
  destruct (ny_kattrs idx _ _ _ _ _ _ _ Hl HZ0 EK) as (Hk3 & [Hzv Hza] & Hl1 & Hle).
  destruct (add_labels idx (k_labels k3) (map (fun '(i, line) => (i, [ILineNumber line])) (z_lines z))) as [ins| |] eqn:EL; cbn [bind post]; try exact I.
  split; [|auto]. assert (HS : incl (kcells k) (kcells k3)) by (eapply incl_tran; [exact Hk1|exact Hk3]).
  assert (HC : Forall (fun i => n_insn i /\ incl (icells i) (kcells k3)) (insert_all (List.length is) ins (map snd is))).
  { apply insert_all_Forall.
    - eapply y_add_labels; [|  |exact EL]; [intros x; split; [exact I|intros y []]|]. clear. induction (z_lines z) as [|[i x] ls IH]; cbn [map]; constructor; auto.
      cbn [snd]. repeat constructor. intros y [].
    - eapply Forall_impl; [|exact His]. cbn. intros i [H1 H2]. split; [exact H1|]. eapply incl_tran; eauto. }
  unfold st. cbn [fst snd]. split; [eapply incl_tran; [exact Hk|exact HS]|]. split.
  - split; [|split]; cbn [cd_code cd_catches cd_attrs]; [|exact Hcs|].
    + eapply Forall_impl; [|exact HC]. cbn. tauto.
    + apply Forall_app. split; [exact Hza|]. destruct (z_vars z) as [|v vs] eqn:EV; [constructor|]. constructor; [exact Hzv|constructor].
  - unfold ccells, code_dyns. cbn [cd_code]. clear - HC. induction HC as [|j js [_ H] _ IH]; cbn [flat_map]; [intros x []|]. rewrite map_app. apply incl_app; auto.
Qed.
(** * Methods *)
Lemma nys_mattr : ys cells n_mattr acells (rd_mattr (rd_code md) md p).
Proof.
  intros b s. unfold rd_mattr. apply ny_attr; [|intros r Hr; split; [apply incl_refl|split; [exact Hr|intros x []]]]. unfold mattr_known.
  known; try (eapply y_just; [| |first [apply qb_none|apply (ny_sig b Msg _ HMp)|apply ny_annots|apply y_vec, ny_tannot, qb_method_target|apply y_vec, ny_annots|apply y_vec, ny_class
        |apply ny_aval|apply y_vec, ny_mparam]]; [intros a Ha; first [exact Ha|exact I]|reflexivity]).
  eapply qb_map; [apply nys_code|]. intros [bs s1] H. exact H.
Qed.
Lemma nys_method : ys cells n_method no_cells (rd_method (rd_code md) md p).
Proof.
  unfold rd_method. eapply ys_map; [apply ys_pair; [apply ys_lift; intros; apply qb_flags|apply ys_pair; [apply ys_lift; intros; apply ny_cow|apply ys_pair; [apply ys_lift; intros; apply ny_type|
    apply ys_vec, nys_mattr]]]|..].
  - intros [a [n [d t]]] (_ & H1 & H2 & H3). cbn [fst snd] in *. split; [exact H1|]. split; [exact H2|exact H3].
  - intros a x [].
Qed.
End Pool.


(** * The pool: its strings are the decoded texts of the file *)
Lemma skip_skip {A} a b (l : list A) : skipn a (skipn b l) = skipn (b + a) l.
Proof. revert l. induction b as [|b IH]; intros l; [reflexivity|]. destruct l; cbn [skipn Nat.add]; [destruct a; reflexivity|apply IH]. Qed.
Lemma rd_u_rest n l x r : rd_u n l = Ok (x, r) -> r = skipn n l.
Proof.
  unfold rd_u. intros H. inv_bind H. destruct v as [a r']. injection H as _ <-. apply take_ok in E as [-> HL]. unfold len in HL.
  replace n with (List.length a) by lia. rewrite skipn_app, Nat.sub_diag, skipn_all. reflexivity.
Qed.
Lemma rd_s_rest n l x r : rd_s n l = Ok (x, r) -> r = skipn n l.
Proof.
  unfold rd_s. intros H. inv_bind H. destruct v as [a r']. injection H as _ <-. apply take_ok in E as [-> HL]. unfold len in HL.
  replace n with (List.length a) by lia. rewrite skipn_app, Nat.sub_diag, skipn_all. reflexivity.
Qed.
Lemma raw_step l e l1 : bytes l -> rd_raw l = Ok (e, l1) ->
  exists t r, l = t :: r /\
    ((t = 1 /\ exists a b r', r = a :: b :: r' /\ l1 = skipn (Z.to_nat (256 * a + b)) r' /\
        exists s, e = RWtf8 s /\ modified_utf8_to_string (firstn (Z.to_nat (256 * a + b)) r') = Ok s) \/
     (t =? 1 = false /\ exists k, assoc Z.eqb t body_sizes = Some k /\ l1 = skipn (Z.to_nat k) r /\
        raw_size e = (if (t =? 5) || (t =? 6) then 2 else 1) /\ forall s, e <> RWtf8 s)).
Proof.
  intros Hl H. unfold rd_raw in H. inv_bind H. destruct v as [t r]. apply rd_u_ok in E as [-> Ht]; auto. change (256 ^ Z.of_nat 1) with 256 in Ht.
  cbn [be app] in *. change (256 ^ Z.of_nat 0) with 1 in *. rewrite Z.div_1_r, Z.mod_small in * by exact Ht. exists t, r. split; [reflexivity|]. destruct (t =? 1) eqn:E1.
  - left. apply Z.eqb_eq in E1. split; [exact E1|]. inv_bind H. destruct v as [s l2]. injection H as <- <-. unfold rd_string in E. inv_bind E. destruct v as [n l3].
    apply Forall_inv_tail in Hl. apply rd_u_ok in E0 as [-> Hn]; auto. change (256 ^ Z.of_nat 2) with 65536 in Hn.
    inv_bind E. destruct v as [b l4]. inv_bind E. injection E as <- <-. apply take_ok in E0 as [-> HL].
    exists ((n / 256) mod 256), (n mod 256), (b ++ l4). split.
    { cbn [be app]. change (256 ^ Z.of_nat 0) with 1. rewrite Z.div_1_r. reflexivity. } replace (256 * ((n / 256) mod 256) + n mod 256) with n.
    2:{ rewrite (Z.mod_small (n / 256)) by (split; [apply Z.div_pos; lia|apply Z.div_lt_upper_bound; lia]). apply Z.div_mod. lia. }
    unfold len in HL. replace (Z.to_nat n) with (List.length b) by lia. rewrite skipn_app, Nat.sub_diag, skipn_all, firstn_app, Nat.sub_diag, firstn_all, firstn_O, app_nil_r.
    split; [reflexivity|]. exists v. auto.
  - right. split; [reflexivity|]. unfold rd_1, rd_2 in H.
    repeat match type of H with (if ?c then _ else _) = _ => let E := fresh "Et" in destruct c eqn:E; [apply Z.eqb_eq in E; subst t|] end; try discriminate;
    repeat (inv_bind H; destruct v as [? ?]; match goal with E : _ = Ok (_, _) |- _ => first [apply rd_u_rest in E|apply rd_s_rest in E] end); injection H as <- <-; subst;
    (eexists; split; [reflexivity|]; split; [first [reflexivity|rewrite !skip_skip; reflexivity]|]; split; [reflexivity|discriminate]).
Qed.
Definition text_in (TS : list (list Z)) (e : raw_entry) : Prop :=
  match e with RWtf8 s => exists b, In b TS /\ modified_utf8_to_string b = Ok s | _ => True end.
Lemma pool_loop_texts md TS n : forall i count m l m' l', rd_pool_loop md n i count m l = Ok (m', l') -> bytes l -> 1 <= i -> count <= 65535 -> (md = Debug \/ count < 65535) ->
  forall f, (List.length l <= f)%nat -> (forall b, In b (texts_from f (count - i) l) -> In b TS) ->
  Forall (fun x => text_in TS (snd x)) m -> Forall (fun x => text_in TS (snd x)) m'.
Proof.
  induction n as [|n IH]; intros i count m l m' l' H Hl Hi Hc Hmd f Hf HT Hm; cbn [rd_pool_loop] in H; destruct (i <? count) eqn:EI; try discriminate; try (injection H as <- _; exact Hm).
  apply Z.ltb_lt in EI. inv_bind H. destruct v as [e l1]. inv_bind H. destruct (qb_elim _ _ _ _ _ (fun b => y_raw b) Hl E) as [_ Hl1].
  assert (HV : v = i + raw_size e).
  { unfold chk_u in E0. assert (1 <= raw_size e <= 2) by (destruct e; cbn; lia). destruct ((0 <=? i + raw_size e) && (i + raw_size e <? 2 ^ 16)) eqn:EB; [congruence|].
    destruct Hmd as [->|Hmd]; [discriminate|]. apply andb_false_iff in EB. change (2 ^ 16) with 65536 in EB. destruct EB as [EB|EB]; [apply Z.leb_gt in EB|apply Z.ltb_ge in EB]; lia. }
  destruct (raw_step _ _ _ Hl E) as (t & r & -> & HR). destruct f as [|f]; [cbn in Hf; lia|]. cbn [texts_from] in HT.
  replace (count - i <=? 0) with false in HT by (symmetry; apply Z.leb_gt; lia).
  destruct HR as [(-> & a & b & r' & -> & -> & s & -> & HS)|(Ht & k & Hk & -> & HZ & HN)].
  - cbn [Z.eqb Pos.eqb] in HT. cbn [raw_size] in HV. subst v. eapply IH with (f := f); [exact H|exact Hl1|lia|exact Hc|exact Hmd| | |].
    + rewrite skipn_length. cbn in Hf. lia.
    + intros x Hx. apply HT. right. replace (count - i - 1) with (count - (i + 1)) by lia. exact Hx.
    + apply assoc_set_Forall; [|exact Hm]. cbn [snd text_in]. eexists. split; [apply HT; left; reflexivity|exact HS].
  - rewrite Ht, Hk in HT. eapply IH with (f := f); [exact H|exact Hl1|subst v; destruct e; cbn; lia|exact Hc|exact Hmd| | |].
    + rewrite skipn_length. cbn in Hf. lia.
    + intros x Hx. apply HT. subst v. rewrite HZ in Hx. destruct ((t =? 5) || (t =? 6)); [replace (count - i - 2) with (count - (i + 2)) by lia|replace (count - i - 1) with (count - (i + 1)) by lia]; exact Hx.
    + apply assoc_set_Forall; [|exact Hm]. cbn [snd]. destruct e; try exact I. destruct (HN s). reflexivity.
Qed.
Lemma pool_texts_in md l0 l m l' : bytes l -> skipn 8 l0 = l -> (List.length l <= List.length l0)%nat -> (md = Debug \/ pool_count l0 < 65535) -> rd_pool md l = Ok (m, l') ->
  forall i s, pool_of m i = Some (RWtf8 s) -> text_of l0 s.
Proof.
  intros Hl HE HL Hmd H i s Hs. unfold rd_pool in H. inv_bind H. destruct v as [n l1]. pose proof E as E'. apply rd_u_ok in E as [-> Hn]; auto. change (256 ^ Z.of_nat 2) with 65536 in Hn.
  cbn [be app] in *. change (256 ^ Z.of_nat 0) with 1 in *. change (256 ^ Z.of_nat 1) with 256 in *. rewrite Z.div_1_r in *.
  assert (HN : pool_count l0 = n).
  { unfold pool_count. rewrite HE. rewrite (Z.mod_small (n / 256)) by (split; [apply Z.div_pos; lia|apply Z.div_lt_upper_bound; lia]). symmetry. apply Z.div_mod. lia. }
  assert (H10 : skipn 10 l0 = l1) by (change 10%nat with (8 + 2)%nat; rewrite <- skip_skip, HE; reflexivity).
  pose proof (pool_loop_texts md (pool_texts l0) _ _ _ _ _ _ _ H) as HP. rewrite HN in Hmd.
  apply Forall_inv_tail, Forall_inv_tail in Hl. specialize (HP Hl ltac:(lia) ltac:(lia) Hmd (List.length l0)). cbn [List.length] in HL. specialize (HP ltac:(lia)).
  unfold pool_texts in HP at 1. rewrite HN, H10 in HP. specialize (HP (fun _ h => h) (Forall_nil _)).
  unfold pool_of in Hs. clear - HP Hs. unfold text_of. induction HP as [|[k e] m He _ IH]; cbn in Hs; [discriminate|]. destruct (i =? k); auto. injection Hs as ->. exact He.
Qed.

Lemma texts_short f : forall left l b, bytes l -> In b (texts_from f left l) -> bytes b /\ len b <= 65535.
Proof.
  induction f as [|f IH]; intros left l b Hl Hb; cbn [texts_from] in Hb; [destruct Hb|]. destruct l as [|t r]; [destruct Hb|]. destruct (left <=? 0); [destruct Hb|].
  apply Forall_inv_tail in Hl. assert (HS : forall k, bytes (skipn k r)).
  { intros k. unfold bytes in *. rewrite Forall_forall in *. intros x Hx. apply Hl. rewrite <- (firstn_skipn k r). apply in_or_app. right. exact Hx. }
  destruct (t =? 1).
  - destruct r as [|x [|y r]]; try destruct Hb.
    + assert (Hx : u8 x) by (inversion Hl; auto). assert (Hy : u8 y) by (inversion Hl as [|? ? ? Hl']; inversion Hl'; auto). unfold u8 in *.
      assert (Hr : bytes r) by (apply (HS 2%nat)). subst b. split.
      * unfold bytes in *. rewrite Forall_forall in *. intros z Hz. apply Hr. rewrite <- (firstn_skipn (Z.to_nat (256 * x + y)) r). apply in_or_app. left. exact Hz.
      * unfold len. rewrite firstn_length. lia.
    + apply IH in H; auto. specialize (HS (2 + Z.to_nat (256 * x + y))%nat). exact HS.
  - destruct (assoc Z.eqb t body_sizes); [|destruct Hb]. apply IH in Hb; auto.
Qed.

(** * Class files *)
Theorem read_drawn md l c h rest (Txt : list Z -> Prop) (Dsc : ty -> Prop) (Fsg : rsig -> Prop) (Msg : method_sig -> Prop) (Csg : class_sig -> Prop) :
  bytes l -> rd_classfile md l = Ok ((c, h), rest) -> (md = Debug \/ pool_count l < 65535) ->
  (forall s, text_of l s -> Txt s) ->
  (forall s t, Txt s -> parse_type md s = Ok t -> Dsc t) ->
  (forall s g, Txt s -> sig_of (p_rsig md) s = Ok g -> Fsg g) ->
  (forall s g, Txt s -> sig_of (p_method md) s = Ok g -> Msg g) ->
  (forall s g, Txt s -> sig_of (p_classsig md) s = Ok g -> Csg g) ->
  n_class Txt Dsc Fsg Msg Csg c /\ forall cell b, heap_of h cell = Some b -> n_bsm Txt Dsc b.
Proof.
  intros Hl H Hmd HT HDp HFp HMp HCp. unfold rd_classfile in H. inv_bind H. destruct v as [m l1]. destruct (qb_elim _ _ _ _ _ (fun b => qb_u K0 b 4) Hl E) as [_ Hl1].
  destruct (m =? JVM_MAGIC); [|discriminate]. inv_bind H. destruct v as [v l2]. destruct (qb_elim _ _ _ _ _ (fun b => qb_version K0 b) Hl1 E0) as [_ Hl2].
  inv_bind H. destruct v0 as [p l3]. destruct (qb_elim _ _ _ _ _ (fun b => y_pool md b) Hl2 E1) as [Hp Hl3].
  assert (H8 : skipn 8 l = l2).
  { apply rd_u_rest in E. unfold rd_version, rd_major in E0. inv_bind E0. destruct v0 as [mi l3']. apply rd_u_rest in E2. inv_bind E0. destruct v0 as [ma l4']. injection E0 as _ <-.
    inv_bind E3. destruct v0 as [t l5']. apply rd_u_rest in E0. assert (HL : l4' = l5') by (repeat match type of E3 with (if ?c then _ else _) = _ => destruct c end; congruence).
    subst. rewrite !skip_skip. reflexivity. }
  assert (Hn : forall i s, pool_of p i = Some (RWtf8 s) -> Txt s).
  { intros i s Hs. apply HT. eapply (pool_texts_in md l l2); [exact Hl2|exact H8| |exact Hmd|exact E1|exact Hs]. rewrite <- H8, skipn_length. lia. }
  inv_bind H. destruct v0 as [[f s] l4].
  unfold rd_members, srd_map in E2. inv_bind E2. destruct v0 as [[a s1] l5]. injection E2 as <- <- <-.
  match type of E3 with ?r _ _ = _ => eassert (HM : ys cells _ _ r) end.
  { apply ys_pair; [apply ys_lift; intros; apply qb_flags|]. apply ys_pair; [apply ys_lift; intros; eapply ny_class with (Txt := Txt); eassumption|].
    apply ys_pair; [apply ys_lift; intros; eapply ny_opt_strcp with (Txt := Txt); eassumption|]. apply ys_pair; [apply ys_lift; intros; apply y_vec; eapply ny_class with (Txt := Txt); eassumption|].
    apply ys_pair; [apply ys_lift; intros; apply y_vec; eapply ny_field with (Txt := Txt) (Dsc := Dsc) (Fsg := Fsg); eassumption|].
    apply ys_pair; [apply ys_vec; eapply nys_method with (Txt := Txt) (Dsc := Dsc) (Fsg := Fsg) (Msg := Msg); eassumption|apply ys_vec; eapply nys_cattr with (Txt := Txt) (Dsc := Dsc) (Csg := Csg); eassumption]. }
  destruct (qb_elim _ _ _ _ _ (fun b => HM b _) Hl3 E3) as [(_ & HTT & _) _]. clear HM. destruct a as [fl [nm [su [it [fi [me at_]]]]]]. cbn [fst snd] in HTT. cbv beta in HTT. cbn [fst snd] in HTT.
  destruct HTT as (_ & T1 & T2 & T3 & T4 & T5 & T6). cbn [cl_attrs] in H. inv_bind H. apply ok_inj, pair_equal_spec in H as [HE _]. apply pair_equal_spec in HE as [<- <-].
  cbn beta iota in *. split.
  - unfold n_class. cbn [cl_name cl_super cl_itfs cl_fields cl_methods cl_attrs]. split; [exact T1|]. split; [exact T2|]. split; [exact T3|]. split; [exact T4|]. split; [exact T5|exact T6].
  - intros cell b Hb. destruct (first_table at_) as [t|] eqn:ET; [|injection E2 as <-; discriminate]. apply bootstrap_inv in E2 as [_ H2]. apply H2 in Hb.
    apply first_table_in in ET. rewrite Forall_forall in T6. specialize (T6 _ ET). cbn in T6. rewrite Forall_forall in T6. auto.
Qed.
