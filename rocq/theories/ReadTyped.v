(** What a class that was read looks like (C87): lemmas.  Every string, type and
    signature is a value of its Rust type, every dynamic constant is registered. *)
From Coq Require Import String.
From Verif Require Import Base BaseLemmas Wtf8Spec Wtf8Model Wtf8Proofs MutfModel MutfProofs PrimModel PrimProofs TypeModel TypeSpec TypeProofs TypeProofs2 TypeProps CpModel CpProofs
  SigModel SigSpec AnnModel AttrModel FrameModel InsnModel CodeModel CodeProofs CodeSpec CodeUndef CodeAccept ReadProofs ClassModel ClassSpec PanicProofs PanicCode
  WriteSpec LaxProofs ReadText.
From Coq Require Import Lia.

(** * Readers; any panic is allowed here *)
Definition K0 (k : pkind) : Prop := True.
Lemma qb_K0 {A} b (P : A -> Prop) (r : rd A) : (forall l a l', bytes l -> r l = Ok (a, l') -> P a /\ bytes l' /\ (List.length l' <= List.length l)%nat) -> qb K0 b P r.
Proof. intros H l Hl _. unfold post. destruct (r l) as [[a l']| |] eqn:E; cbn; auto. exact I. Qed.
Lemma qb_elim {A} (P : A -> Prop) (r : rd A) l a l' : (forall b, qb K0 b P r) -> bytes l -> r l = Ok (a, l') -> P a /\ bytes l'.
Proof. intros H Hl E. specialize (H (S (List.length l)) l Hl (Nat.lt_succ_diag_r _)). rewrite E in H. cbn in H. tauto. Qed.
Lemma y_vec {A} b k (P : A -> Prop) (r : rd A) : qb K0 b P r -> qb K0 b (Forall P) (rd_vec k r).
Proof. intros Hr. unfold rd_vec. eapply qb_bind; [apply qb_u|]. intros a _. cbn beta iota. apply qb_times, Hr. Qed.
Lemma y_pair {A B} b (P : A -> Prop) (Q : B -> Prop) (r : rd A) (q : rd B) :
  qb K0 b P r -> qb K0 b Q q -> qb K0 b (fun x => P (fst x) /\ Q (snd x)) (rd_pair r q).
Proof.
  intros Hr Hq. unfold rd_pair. eapply qb_bind; [exact Hr|]. intros a Ha. cbn beta iota. eapply qb_bind; [exact Hq|]. intros c Hc. cbn beta iota. apply qb_ret. auto.
Qed.
Lemma y_opt {A} b (P : A -> Prop) (f : Z -> res (option A)) : (forall i, calmly K0 (oall P) (f i)) -> qb K0 b (t_opt P) (rd_opt f).
Proof.
  intros Hf. unfold rd_opt. eapply qb_bind; [apply qb_u|]. intros i _. cbn beta iota. destruct (i =? 0); [apply qb_ret; exact I|].
  eapply qb_pure; [apply Hf|]. intros [a|] Ha; [apply qb_ret; exact Ha|apply qb_err].
Qed.
Lemma calm_ok {A} (P : A -> Prop) (x : res A) : (forall a, x = Ok a -> P a) -> calmly K0 P x.
Proof. intros H. destruct x; cbn; auto. exact I. Qed.

(** * Readers with a state; [pr] is the cells registered so far.  What is read
    has [T], its cells [D] are registered. *)
Definition st {S A} (pr : S -> list Z) (T : A -> Prop) (D : A -> list Z) (s : S) (x : A * S) : Prop :=
  incl (pr s) (pr (snd x)) /\ T (fst x) /\ incl (D (fst x)) (pr (snd x)).
Definition ys {S A} (pr : S -> list Z) (T : A -> Prop) (D : A -> list Z) (r : srd S A) : Prop :=
  forall b s, qb K0 b (st pr T D s) (r s).
Definition no_cells {A} (_ : A) : list Z := [].
Section State.
Context {S : Type} (pr : S -> list Z).
Lemma st_just {A} (T : A -> Prop) a s : T a -> st pr T no_cells s (a, s).
Proof. intros H. split; [apply incl_refl|]. split; [exact H|]. intros x []. Qed.
Lemma ys_bind {A B} (T : A -> Prop) D (T' : B -> Prop) D' (r : srd S A) (g : A * S * list Z -> res (B * S * list Z)) :
  ys pr T D r -> (forall a b s, T a -> incl (D a) (pr s) -> qb K0 b (st pr T' D' s) (fun l => g ((a, s), l))) ->
  ys pr T' D' (fun s l => bind (r s l) g).
Proof.
  intros Hr Hg b s. eapply qb_bind; [apply Hr|]. intros [a s1] (H1 & H2 & H3). cbn [fst snd] in *. eapply qb_weak; [apply (Hg a b s1); auto|].
  intros x (H4 & H5 & H6). split; [|auto]. eapply incl_tran; eauto.
Qed.
Lemma ys_lift {A} (T : A -> Prop) (r : rd A) : (forall b, qb K0 b T r) -> ys pr T no_cells (lift r).
Proof. intros Hr b s. unfold lift. eapply qb_bind; [apply Hr|]. intros a Ha. cbn beta iota. apply qb_ret. apply st_just, Ha. Qed.
Lemma ys_pair {A B} (T : A -> Prop) D (T' : B -> Prop) D' (r : srd S A) (q : srd S B) : ys pr T D r -> ys pr T' D' q ->
  ys pr (fun x => T (fst x) /\ T' (snd x)) (fun x => D (fst x) ++ D' (snd x)) (srd_pair r q).
Proof.
  intros Hr Hq. unfold srd_pair. eapply ys_bind; [exact Hr|]. intros a b s Ha Hd. cbn beta iota. eapply qb_bind; [apply Hq|]. intros [c s1] (H1 & H2 & H3).
  cbn beta iota. apply qb_ret. cbn [fst snd] in *. split; [exact H1|]. cbn [fst snd]. split; [auto|]. apply incl_app; auto. eapply incl_tran; eauto.
Qed.
Lemma ys_map {A B} (T : A -> Prop) D (T' : B -> Prop) D' (h : A -> B) (r : srd S A) : ys pr T D r -> (forall a, T a -> T' (h a)) -> (forall a, incl (D' (h a)) (D a)) ->
  ys pr T' D' (srd_map h r).
Proof.
  intros Hr HT HD b s. unfold srd_map. eapply qb_bind; [apply Hr|]. intros [a s1] (H1 & H2 & H3). cbn beta iota. apply qb_ret. cbn [fst snd] in *.
  split; [exact H1|]. cbn [fst snd]. split; [auto|]. eapply incl_tran; eauto.
Qed.
Lemma ys_times {A} (T : A -> Prop) D (r : srd S A) n : ys pr T D r -> ys pr (Forall T) (flat_map D) (srd_times n r).
Proof.
  intros Hr. induction n as [|n IH]; cbn [srd_times].
  - intros b s. apply qb_ret. split; [apply incl_refl|]. split; [constructor|]. intros x [].
  - eapply ys_bind; [exact Hr|]. intros a b s Ha Hd. cbn beta iota. eapply qb_bind; [apply IH|]. intros [c s1] (H1 & H2 & H3). cbn beta iota. apply qb_ret. cbn [fst snd] in *.
    split; [exact H1|]. cbn [fst snd flat_map]. split; [auto|]. apply incl_app; auto. eapply incl_tran; eauto.
Qed.
Lemma ys_vec {A} (T : A -> Prop) D (r : srd S A) k : ys pr T D r -> ys pr (Forall T) (flat_map D) (srd_vec k r).
Proof. intros Hr b s. unfold srd_vec. eapply qb_bind; [apply qb_u|]. intros a _. cbn beta iota. apply ys_times, Hr. Qed.
Lemma ys_weak {A} (T T' : A -> Prop) D D' (r : srd S A) : ys pr T D r -> (forall a, T a -> T' a) -> (forall a, incl (D' a) (D a)) -> ys pr T' D' r.
Proof. intros Hr HT HD b s. eapply qb_weak; [apply Hr|]. intros x (H1 & H2 & H3). split; [exact H1|]. split; [auto|]. eapply incl_tran; eauto. Qed.
End State.

Section Pool.
Context (md : mode) (p : pool).
Hypothesis Hp : forall i s, p i = Some (RWtf8 s) -> lax s.

(** * Constants *)
Lemma y_wtf8 i : oall lax (read_wtf8 p i).
Proof. unfold read_wtf8. destruct (p i) as [[]|] eqn:E; cbn; auto. exact (Hp _ _ E). Qed.
Lemma y_indirect t i : oall lax (read_indirect_str t p i).
Proof. unfold read_indirect_str. destruct (p i) as [[]|]; cbn; auto; destruct (t =? _); cbn; auto; apply y_wtf8. Qed.
Lemma y_parse s : lax s -> calmly K0 t_ty (parse_type md s).
Proof. intros Hs. apply calm_ok. intros t. apply parse_type_names, Hs. Qed.
Lemma y_parse_ok s : lax s -> calmly K0 (oall t_ty) (parse_ok md s).
Proof. intros Hs. unfold parse_ok. pose proof (y_parse s Hs) as H. destruct (parse_type md s); cbn in *; auto; exact I. Qed.
Definition t_nt (x : list Z * ty) : Prop := lax (fst x) /\ t_ty (snd x).
Lemma y_nt i : calmly K0 (oall t_nt) (read_nameandtype md p i).
Proof.
  unfold read_nameandtype. destruct (p i) as [[]|]; try exact I. pose proof (y_wtf8 n) as Hn. pose proof (y_wtf8 t) as Ht.
  destruct (read_wtf8 p n); [|exact I]. destruct (read_wtf8 p t); [|exact I]. eapply calm_bind; [apply y_parse_ok; exact Ht|]. intros [t'|] Ht'; [split; auto|exact I].
Qed.
Lemma y_member i : calmly K0 (oall t_member) (read_member md p i).
Proof.
  unfold read_member. destruct (p i) as [[]|]; try exact I; pose proof (y_indirect 7 c) as Hc; destruct (read_indirect_str 7 p c); try exact I;
  (eapply calm_bind; [apply y_nt|]; intros [[n t]|] Hn; [split; [exact Hc|exact Hn]|exact I]).
Qed.
Lemma y_handle i : calmly K0 (oall (fun h => t_member (h_member h))) (read_method_handle md p i).
Proof.
  unfold read_method_handle. destruct (p i) as [[]|]; try exact I. eapply calm_bind; [apply y_member|]. intros [m'|] Hm; unfold zip_handle; destruct (mhkind_of k); try exact I. exact Hm.
Qed.
Lemma y_constant i : calmly K0 (oall t_const) (read_constant md p i).
Proof.
  unfold read_constant. destruct (p i) as [[]|]; try exact I; try (eapply calm_bind; [apply y_member|]; intros [m'|] Hm; [exact Hm|exact I]).
  all: try (match goal with |- context [read_wtf8 p ?s] => pose proof (y_wtf8 s) as H; destruct (read_wtf8 p s) end; [|exact I]).
  all: try exact H.
  - eapply calm_bind; [apply y_member|]. intros [m'|] Hm; unfold zip_handle; destruct (mhkind_of k); try exact I. exact Hm.
  - eapply calm_bind; [apply y_parse_ok; exact H|]. intros [t|] Ht; [exact Ht|exact I].
Qed.
Lemma y_cow b : qb K0 b lax (rd_cow p). Proof. apply qb_idx. intros i. apply y_wtf8. Qed.
Lemma y_opt_cow b : qb K0 b (t_opt lax) (rd_opt_cow p). Proof. apply y_opt. intros i. apply y_wtf8. Qed.
Lemma y_strcp b t : qb K0 b lax (rd_strcp t p). Proof. apply qb_idx. intros i. apply y_indirect. Qed.
Lemma y_class b : qb K0 b lax (rd_class p). Proof. apply y_strcp. Qed.
Lemma y_opt_strcp b t : qb K0 b (t_opt lax) (rd_opt_strcp t p). Proof. apply y_opt. intros i. apply y_indirect. Qed.
Lemma y_type b : qb K0 b t_ty (rd_type md p).
Proof. unfold rd_type. eapply qb_bind; [apply y_cow|]. intros s Hs. cbn beta iota. eapply qb_pure; [apply y_parse, Hs|]. intros t Ht. apply qb_ret. exact Ht. Qed.
Lemma y_opt_nametype b : qb K0 b (t_opt t_nt) (rd_opt_nametype md p). Proof. apply y_opt. intros i. apply y_nt. Qed.
Lemma y_sig {A} b (P : A -> Prop) (q : sp A) : keeps P q -> qb K0 b P (rd_sig q p).
Proof.
  intros Hq. unfold rd_sig. eapply qb_bind; [apply y_cow|]. intros s Hs. cbn beta iota. destruct (lossy_chars s Hs) as (t & Ht & cps & Hc & ->).
  eapply (qb_pure _ _ (fun x => x = flat_map utf8 cps)); [rewrite Ht; reflexivity|]. intros x ->. cbn beta iota.
  eapply (qb_pure _ _ (fun x => x = cps)); [rewrite codepoints_utf8; [reflexivity|apply chars_cps, Hc]|]. intros x ->. cbn beta iota.
  eapply (qb_pure _ _ P); [|intros a Ha; apply qb_ret; exact Ha]. apply calm_ok. intros a Ha. unfold from_str in Ha. inv_bind Ha. destruct v as [a' r]. injection Ha as <-.
  apply (Hq cps a' r Hc E).
Qed.

(** * Annotations *)
Lemma assoc_set_vals k v m : lax k -> t_aval v -> t_vals m -> t_vals (assoc_set (list_eqb Z.eqb) k v m).
Proof.
  intros Hk Hv. induction 1 as [|[k' v'] m [H1 H2] H3 IH]; cbn; [constructor; cbn; auto|]. destruct (list_eqb Z.eqb k k'); constructor; cbn; auto.
Qed.
Lemma y_pairs b (r : rd aval) n : qb K0 b t_aval r -> forall m, t_vals m -> qb K0 b t_vals (rd_pairs p r n m).
Proof.
  intros Hr. induction n as [|n IH]; intros m Hm; cbn [rd_pairs]; [apply qb_ret; exact Hm|].
  eapply qb_bind; [apply y_cow|]. intros k Hk. cbn beta iota. eapply qb_bind; [exact Hr|]. intros v Hv. cbn beta iota. apply IH, assoc_set_vals; auto.
Qed.
Lemma y_vals_with b r : qb K0 b t_aval r -> qb K0 b t_vals (rd_vals_with p r).
Proof. intros Hr. unfold rd_vals_with. eapply qb_bind; [apply qb_u|]. intros k _. cbn beta iota. apply y_pairs; auto. constructor. Qed.
Lemma y_any {A} b (P : A -> Prop) r : qb K0 b P r -> qb K0 b any r. Proof. apply qb_any. Qed.
Lemma y_aval_n n b : qb K0 b t_aval (rd_aval_n md p n).
Proof.
  revert b. induction n as [|n IH]; intros b; cbn [rd_aval_n]; [apply qb_panic; exact I|].
  eapply qb_bind; [apply qb_u|]. intros t _. cbn beta iota.
  assert (HI : forall lo hi f, (forall x, t_aval (f x)) -> qb K0 b t_aval (fun l => r <- rd_cint p l ;; AnnModel.in_range lo hi f r)).
  { intros lo hi f Hf. eapply qb_bind; [apply qb_cint|]. intros x _. unfold AnnModel.in_range. destruct (_ && _)%bool; [apply qb_ret, Hf|apply qb_err]. }
  repeat match goal with |- qb _ _ _ (fun l => if ?c then _ else _) => destruct c end; try apply qb_err; try (apply HI; constructor).
  - eapply qb_bind; [apply qb_cdouble|]. intros x _. apply qb_ret. constructor.
  - eapply qb_bind; [apply qb_cfloat|]. intros x _. apply qb_ret. constructor.
  - eapply qb_bind; [apply qb_cint|]. intros x _. apply qb_ret. constructor.
  - eapply qb_bind; [apply qb_clong|]. intros x _. apply qb_ret. constructor.
  - eapply qb_bind; [apply qb_cint|]. intros x _. cbn beta iota. destruct (x =? 1); [apply qb_ret; constructor|]. destruct (x =? 0); [apply qb_ret; constructor|apply qb_err].
  - eapply qb_bind; [apply y_cow|]. intros x Hx. apply qb_ret. constructor. exact Hx.
  - eapply qb_bind; [apply y_type|]. intros x Hx. cbn beta iota. eapply qb_bind; [apply y_cow|]. intros y Hy. apply qb_ret. constructor; auto.
  - eapply qb_bind; [apply y_cow|]. intros x Hx. cbn beta iota. destruct (list_eqb Z.eqb x s_V); [apply qb_ret; constructor; exact I|].
    eapply qb_pure; [apply y_parse, Hx|]. intros y Hy. apply qb_ret. constructor. exact Hy.
  - eapply qb_bind; [apply y_type|]. intros x Hx. cbn beta iota. eapply qb_bind; [apply y_vals_with, IH|]. intros y Hy. apply qb_ret. constructor; auto.
  - eapply qb_bind; [apply qb_u|]. intros x Hx. cbn beta iota. eapply qb_bind; [apply qb_times, IH|]. intros y Hy. apply qb_ret. constructor; auto.
Qed.
Lemma y_aval b : qb K0 b t_aval (rd_aval md p).
Proof. intros l Hl Hb. exact (y_aval_n _ b l Hl Hb). Qed.
Lemma y_vals b : qb K0 b t_vals (rd_vals md p).
Proof. intros l Hl Hb. exact (y_vals_with b _ (y_aval_n _ b) l Hl Hb). Qed.
Lemma y_annot b : qb K0 b t_annot (rd_annot md p).
Proof. unfold rd_annot. eapply qb_bind; [apply y_type|]. intros t Ht. cbn beta iota. eapply qb_bind; [apply y_vals|]. intros v Hv. cbn beta iota. apply qb_ret. split; auto. Qed.
Lemma y_annots b : qb K0 b (Forall t_annot) (rd_annots md p). Proof. apply y_vec, y_annot. Qed.
Lemma y_tannot_rest b {T} (t : T) : qb K0 b t_tannot (rd_tannot_rest md p t).
Proof.
  unfold rd_tannot_rest. eapply qb_bind; [apply qb_vec, qb_tpath|]. intros pa _. cbn beta iota. eapply qb_bind; [apply y_type|]. intros y Hy. cbn beta iota.
  eapply qb_bind; [apply y_vals|]. intros v Hv. cbn beta iota. apply qb_ret. split; auto.
Qed.
Lemma y_tannot b {T} (r : rd T) : qb K0 b any r -> qb K0 b t_tannot (rd_tannot r md p).
Proof. intros Hr. unfold rd_tannot. eapply qb_bind; [exact Hr|]. intros t _. cbn beta iota. apply y_tannot_rest. Qed.

(** * Attributes *)
Lemma y_attr {B} b (Q : B -> Prop) (known : list (list Z * rd B)) raw :
  Forall (fun x => qb K0 b Q (snd x)) known -> (forall r, t_raw r -> Q (raw r)) -> qb K0 b Q (rd_attr p known raw).
Proof.
  intros Hk Hr. unfold rd_attr. eapply qb_bind; [apply qb_u|]. intros i _. cbn beta iota. pose proof (y_wtf8 i) as Hi. destruct (read_wtf8 p i) as [name|]; [|apply qb_err].
  eapply qb_bind; [apply qb_u|]. intros n _. cbn beta iota. intros l Hl Hb. pose proof (qb_take K0 b n l Hl Hb) as HT.
  destruct (take n l) as [[body l1]| |] eqn:ET; cbn [bind post] in *; auto. destruct HT as (Hbody & Hl1 & Hle). apply take_ok in ET as [El _].
  destruct (assoc (list_eqb Z.eqb) name known) as [r|] eqn:EA; [|cbn; split; [apply Hr; split; auto|auto]].
  assert (Hq : qb K0 b Q r).
  { clear - EA Hk. induction Hk as [|[k0 r0] t H _ IH]; cbn in EA; [discriminate|]. destruct (list_eqb Z.eqb name k0); [injection EA as <-; exact H|auto]. }
  assert (Hbb : (List.length body < b)%nat) by (subst l; rewrite app_length in Hb; lia). specialize (Hq body Hbody Hbb).
  destruct (r body) as [[x rest]| |]; cbn in *; auto. destruct rest; cbn; auto. destruct Hq as (? & _ & _). auto.
Qed.
Lemma y_map {A B} b (h : A -> B) (P : A -> Prop) (Q : B -> Prop) (r : rd A) : qb K0 b P r -> (forall a, P a -> Q (h a)) -> qb K0 b Q (rd_map h r).
Proof. apply qb_map. Qed.
Lemma y_fattr b : qb K0 b t_fattr (rd_fattr md p).
Proof.
  apply y_attr; [|intros r Hr; exact Hr]. unfold fattr_known.
  known; (eapply qb_map;
    [first [apply qb_none|apply y_sig, k_rsig|apply y_annots|apply y_vec, y_tannot, qb_field_target|apply qb_idx; intros; apply y_constant]|intros a Ha; exact Ha || exact I]).
Qed.
Lemma y_field b : qb K0 b t_field (rd_field md p).
Proof.
  unfold rd_field. eapply qb_map; [apply y_pair; [apply qb_flags|apply y_pair; [apply y_cow|apply y_pair; [apply y_type|apply y_vec, y_fattr]]]|].
  intros [a [n [d t]]] (_ & H1 & H2 & H3). split; [exact H1|]. split; [exact H2|exact H3].
Qed.
Lemma y_mparam b : qb K0 b (fun m => t_opt lax (mp_name m)) (rd_mparam p).
Proof. unfold rd_mparam. eapply qb_map; [apply y_pair; [apply y_opt_cow|apply qb_flags]|]. intros [n a] [H _]. exact H. Qed.
Lemma y_require b : qb K0 b t_require (rd_require p).
Proof.
  unfold rd_require. eapply qb_map; [apply y_pair; [apply y_strcp|apply y_pair; [apply qb_flags|apply y_opt_cow]]|]. intros [n [a v]] (H1 & _ & H2). split; [exact H1|exact H2].
Qed.
Lemma y_exopen b : qb K0 b t_exopen (rd_exopen p).
Proof.
  unfold rd_exopen. eapply qb_map; [apply y_pair; [apply y_strcp|apply y_pair; [apply qb_flags|apply y_vec, y_strcp]]|]. intros [n [a v]] (H1 & _ & H2). split; [exact H1|exact H2].
Qed.
Lemma y_provide b : qb K0 b t_provide (rd_provide p).
Proof. unfold rd_provide. eapply qb_map; [apply y_pair; [apply y_class|apply y_vec, y_class]|]. intros [n v] (H1 & H2). split; [exact H1|exact H2]. Qed.
Lemma y_module b : qb K0 b t_module (rd_module p).
Proof.
  unfold rd_module. eapply qb_map; [apply y_pair; [apply y_strcp|apply y_pair; [apply qb_flags|apply y_pair; [apply y_opt_cow|apply y_pair; [apply y_vec, y_require|
    apply y_pair; [apply y_vec, y_exopen|apply y_pair; [apply y_vec, y_exopen|apply y_pair; [apply y_vec, y_class|apply y_vec, y_provide]]]]]]]|].
  intros [n [f [v [r [e [o [u q]]]]]]] (H1 & _ & H2 & H3 & H4 & H5 & H6 & H7). unfold t_module. cbn in *. auto 10.
Qed.
Lemma y_inner b : qb K0 b t_inner (rd_inner_class p).
Proof.
  unfold rd_inner_class. eapply qb_map; [apply y_pair; [apply y_class|apply y_pair; [apply y_opt_strcp|apply y_pair; [apply y_opt_cow|apply qb_flags]]]|].
  intros [n [f [v r]]] (H1 & H2 & H3 & _). unfold t_inner. cbn in *. auto.
Qed.
Lemma decoded_lax l s : bytes l -> modified_utf8_to_string l = Ok s -> lax s.
Proof.
  intros Hl H. apply valid_lax; [|apply (decoded_valid l), H]. unfold modified_utf8_to_string, from_bytes in H. inv_bind H.
  destruct v; repeat inv_bind H; apply ok_inj in H; subst; [eapply pass2_bytes_out; [apply Nat.le_refl|exact Hl|eassumption]|exact Hl].
Qed.
Lemma y_debug_ext b : qb K0 b lax rd_debug_ext.
Proof.
  intros l Hl Hb. unfold rd_debug_ext. destruct (modified_utf8_to_string l) eqn:E; cbn; auto; [|exact I].
  split; [eapply decoded_lax; eauto|]. split; [constructor|lia].
Qed.

(** * Dynamic constants *)
Definition cells (s : rst) : list Z := map snd (r_refs s).
Definition ocells (o : option dynamic) : list Z := match o with Some d => [d_cell d] | None => [] end.
Lemma y_dyn_at c nt s : calmly K0 (st cells (t_opt t_dyn) ocells s) (read_dyn_at md p c nt s).
Proof.
  unfold read_dyn_at. eapply calm_bind; [apply y_nt|]. intros [[n t]|] H; cbn [calmly].
  - unfold st, cells, ocells. cbn [fst snd r_refs d_cell]. rewrite map_app. split; [apply incl_appl, incl_refl|]. split; [exact H|]. apply incl_appr, incl_refl.
  - split; [apply incl_refl|]. split; [exact I|]. intros x [].
Qed.
Lemma st_none s : st cells (t_opt t_dyn) ocells s (None, s).
Proof. split; [apply incl_refl|]. split; [exact I|]. intros x []. Qed.
Lemma y_dynamic i s : calmly K0 (st cells (t_opt t_dyn) ocells s) (read_dynamic md p i s).
Proof. unfold read_dynamic. destruct (p i) as [[]|]; try apply st_none. apply y_dyn_at. Qed.
Lemma y_invokedynamic i s : calmly K0 (st cells (t_opt t_dyn) ocells s) (read_invokedynamic md p i s).
Proof. unfold read_invokedynamic. destruct (p i) as [[]|]; try apply st_none. apply y_dyn_at. Qed.
Definition dyn_cells {A} (o : ordyn A) : list Z := map d_cell (dyn_of o).
Lemma y_ordyn {A} (P : A -> Prop) (f : Z -> res (option A)) i s : (forall i, calmly K0 (oall P) (f i)) ->
  calmly K0 (fun x => incl (cells s) (cells (snd x)) /\ match fst x with Some o => t_or P o /\ incl (dyn_cells o) (cells (snd x)) | None => True end) (read_ordyn md p f i s).
Proof.
  intros Hf. unfold read_ordyn. eapply calm_bind; [apply y_dynamic|]. intros [[d|] s1] (H1 & H2 & H3); cbn beta iota; cbn [fst snd] in *; [cbn; auto|].
  eapply calm_bind; [apply Hf|]. intros [a|] Ha; cbn [option_map calmly fst snd]; (split; [exact H1|]); [split; [exact Ha|intros x []]|exact I].
Qed.
Definition bsm_cells (b : bsm) : list Z := flat_map dyn_cells (b_args b).
Lemma ys_bsm_arg : ys cells (t_or t_const) dyn_cells (rd_bsm_arg md p).
Proof.
  intros b s. unfold rd_bsm_arg. eapply qb_bind; [apply qb_u|]. intros i _. cbn beta iota. eapply qb_pure; [apply (y_ordyn t_const (read_constant md p) i s y_constant)|].
  intros [[a|] s1] (H1 & H2); cbn beta iota; cbn [fst snd] in *; [apply qb_ret; split; [exact H1|exact H2]|apply qb_err].
Qed.
Lemma ys_bsm : ys cells t_bsm bsm_cells (rd_bsm md p).
Proof.
  intros b s. unfold rd_bsm. eapply qb_bind; [apply qb_idx; intros; apply y_handle|]. intros h Hh. cbn beta iota.
  eapply qb_bind; [apply qb_u|]. intros n _. cbn beta iota. eapply qb_bind; [apply ys_times, ys_bsm_arg|].
  intros [xs s1] (H1 & H2 & H3). cbn beta iota. apply qb_ret. split; [exact H1|]. split; [split; [exact Hh|exact H2]|exact H3].
Qed.
Lemma y_just {S A B} b (pr : S -> list Z) (T : B -> Prop) D (s : S) (h : A -> B) (P : A -> Prop) (r : rd A) : (forall a, P a -> T (h a)) -> (forall a, D (h a) = []) -> qb K0 b P r ->
  qb K0 b (st pr T D s) (rd_map (fun a => (h a, s)) r).
Proof. intros HT HD Hr. eapply qb_map; [exact Hr|]. intros a Ha. split; [apply incl_refl|]. split; [exact (HT a Ha)|]. cbn [fst]. rewrite HD. intros x []. Qed.
Definition cattr_cells (a : cattr) : list Z := match a with CBootstrap l => flat_map bsm_cells l | _ => [] end.
Lemma ys_cattr : ys cells t_cattr cattr_cells (rd_cattr md p).
Proof.
  intros b s. unfold rd_cattr. apply y_attr; [|intros r Hr; split; [apply incl_refl|split; [exact Hr|intros x []]]]. unfold cattr_known.
  known; try (eapply y_just; [| |first [apply qb_none|apply y_sig, k_classsig|apply y_annots|apply y_vec, y_tannot, qb_class_target|apply y_cow|apply y_vec, y_inner|apply y_debug_ext
        |apply y_module|apply y_class|apply y_vec, y_class|apply y_vec, y_strcp|apply y_pair; [apply y_class|apply y_opt_nametype]]];
    [intros a Ha; first [exact Ha|exact I|destruct a as [c m]; exact Ha]|intros a; first [reflexivity|destruct a; reflexivity]]).
  eapply qb_map; [apply ys_vec, ys_bsm|]. intros [bs s1] H. exact H.
Qed.

(** * Instructions *)
Definition kcells (s : cst) : list Z := cells (k_refs s).
Definition icells (i : insn) : list Z := map d_cell (insn_dyns i).
Lemma y_conv_ordyn {A} (P : A -> Prop) (f : Z -> res (option A)) i s : (forall i, calmly K0 (oall P) (f i)) ->
  calmly K0 (st kcells (t_or P) dyn_cells s) (conv_ordyn md p f i s).
Proof.
  intros Hf. unfold conv_ordyn. eapply calm_bind; [apply (y_ordyn P f i (k_refs s) Hf)|]. intros [[o|] r] (H1 & H2); cbn beta iota; cbn [fst snd] in *; [|exact I].
  split; [exact H1|exact H2].
Qed.
Lemma y_conv_member i s : calmly K0 (st kcells (t_or t_member) dyn_cells s) (conv_member md p i s).
Proof. apply y_conv_ordyn. intros. apply y_member. Qed.
Lemma y_conv_class i s : calmly K0 (st kcells (t_or lax) dyn_cells s) (conv_class md p i s).
Proof. apply y_conv_ordyn. intros. apply y_indirect. Qed.
Lemma st_insn i s s' : kcells s' = kcells s -> t_insn i -> insn_dyns i = [] -> st kcells t_insn icells s (i, s').
Proof. intros HE HT HD. unfold st, icells. cbn [fst snd]. rewrite HE, HD. split; [apply incl_refl|]. split; [exact HT|intros x []]. Qed.
Lemma y_conv_constant i s : calmly K0 (st kcells t_insn icells s) (conv_constant md p i s).
Proof. unfold conv_constant. eapply calm_bind; [apply y_constant|]. intros [k|] Hk; [apply st_insn; auto|exact I]. Qed.
Lemma y_conv_elem i d s : calmly K0 (st kcells t_insn icells s) (conv_elem md p i d s).
Proof.
  unfold conv_elem. eapply calm_bind; [apply y_conv_class|]. intros [[d'|c] s1] (H1 & H2 & H3); cbn beta iota; cbn [fst snd] in *.
  - split; [exact H1|]. split; [exact I|intros x []].
  - destruct (parse_type md c); try exact I; (split; [exact H1|]; split; [exact I|intros x []]).
Qed.
Lemma y_conv_ctype i s : calmly K0 (st kcells (t_or t_ctype) dyn_cells s) (conv_ctype md p i s).
Proof.
  unfold conv_ctype. eapply calm_bind; [apply y_conv_class|]. intros [[d'|c] s1] (H1 & H2 & H3); cbn beta iota; cbn [fst snd] in *; [split; [exact H1|split; [exact H2|exact H3]]|].
  assert (HO : calmly K0 (st kcells (t_or t_ctype) dyn_cells s) (Ok (Stat (CtObject c), s1))) by (split; [exact H1|split; [exact H2|intros x []]]).
  destruct c as [|x c]; [exact HO|]. destruct (Z.eq_dec x 91) as [->|Hx].
  - eapply calm_bind; [apply y_parse, H2|]. intros t Ht. destruct t; try exact I. split; [exact H1|split; [exact Ht|intros x []]].
  - assert (HX : forall T (a b : T), match x with 91 => a | _ => b end = b).
    { intros T a b. destruct x as [|q|q]; auto. do 7 (destruct q; auto). congruence. }
    rewrite HX. exact HO.
Qed.
Lemma get_label_cells i s : kcells (snd (get_label i s)) = kcells s.
Proof. unfold get_label. destruct (assoc _ _ _); reflexivity. Qed.
Lemma lbl_at_cells pos o s : kcells (snd (lbl_at pos o s)) = kcells s.
Proof. apply get_label_cells. Qed.
Lemma lbls_at_cells pos os : forall s, kcells (snd (lbls_at pos os s)) = kcells s.
Proof.
  induction os as [|o os IH]; intros s; cbn [lbls_at]; auto. pose proof (lbl_at_cells pos o s) as H1. destruct (lbl_at pos o s) as [l s1].
  specialize (IH s1). destruct (lbls_at pos os s1). cbn in *. congruence.
Qed.
Lemma lookup_at_cells pos es : forall m s, kcells (snd (InsnModel.lookup_at pos es m s)) = kcells s.
Proof.
  induction es as [|[k o] es IH]; intros m s; cbn [InsnModel.lookup_at]; auto. pose proof (lbl_at_cells pos o s) as H1. destruct (lbl_at pos o s) as [l s1]. rewrite IH. exact H1.
Qed.
Lemma y_conv pos r s : calmly K0 (st kcells t_insn icells s) (conv md p pos r s).
Proof.
  assert (H0 : forall i, t_insn i -> insn_dyns i = [] -> calmly K0 (st kcells t_insn icells s) (Ok (i, s))) by (intros; apply st_insn; auto).
  destruct r; cbn [conv]; try (apply H0; [exact I|reflexivity]);
  try (pose proof (lbl_at_cells pos a s) as H1; destruct (lbl_at pos a s) as [l1 s1]; apply st_insn; [exact H1|exact I|reflexivity]);
  try (eapply calm_bind; [apply y_conv_member|]; intros [m s1] H1; exact H1);
  try apply y_conv_constant; try apply y_conv_elem;
  try (eapply calm_bind; [apply y_conv_ctype|]; intros [m s1] H1; exact H1).
  all: match goal with
  | |- calmly _ _ (match ?w with WILoad _ => _ | _ => _ end) => destruct w; apply H0; [exact I|reflexivity]
  | _ => idtac
  end.
  all: try (repeat match goal with |- calmly _ _ (match ?x with _ => _ end) => destruct x end; first [apply H0; [exact I|reflexivity]|exact I]).
  - pose proof (lbl_at_cells pos dflt s) as H1. destruct (lbl_at pos dflt s) as [d s1]. pose proof (lbls_at_cells pos (t_offs t) s1) as H2.
    destruct (lbls_at pos (t_offs t) s1). apply st_insn; [cbn [snd] in *; congruence|exact I|reflexivity].
  - pose proof (lbl_at_cells pos dflt s) as H1. destruct (lbl_at pos dflt s) as [d s1]. pose proof (lookup_at_cells pos es [] s1) as H2.
    destruct (InsnModel.lookup_at pos es [] s1). apply st_insn; [cbn [snd] in *; congruence|exact I|reflexivity].
  - eapply calm_bind; [apply y_invokedynamic|]. intros [[d|] r] (H1 & H2 & H3); cbn beta iota; [|exact I]. split; [exact H1|]. split; [exact H2|exact H3].
  - eapply calm_bind; [apply y_conv_class|]. intros [c s1] H1. exact H1.
Qed.
Lemma y_insns n : forall pos s l is s', rd_insns n md p pos s l = Ok (is, s') ->
  incl (kcells s) (kcells s') /\ Forall (fun i => t_insn i /\ incl (icells i) (kcells s')) (map snd is).
Proof.
  induction n as [|n IH]; intros pos s l is s' H; cbn [rd_insns] in H.
  - destruct l; [|discriminate]. injection H as <- <-. split; [apply incl_refl|constructor].
  - assert (HE : l = [] \/ l <> []) by (destruct l; [left|right]; congruence). destruct HE as [->|Hne]; [injection H as <- <-; split; [apply incl_refl|constructor]|].
    rewrite (match_ne l) in H by exact Hne. inv_bind H. destruct v as [[i s1] r]. inv_bind H. destruct v as [is1 s2]. injection H as <- <-.
    apply IH in E0 as [H1 H2]. unfold rd_insn_at in E. destruct l as [|op l]; [congruence|]. inv_bind E. destruct v as [rw l1]. inv_bind E. destruct v as [i1 s3].
    injection E as <- <- <-. pose proof (y_conv pos rw s) as HC. rewrite E1 in HC. destruct HC as (H3 & H4 & H5). cbn [fst snd] in *.
    split; [eapply incl_tran; eauto|]. cbn [map snd]. constructor; [|exact H2]. split; [exact H4|]. eapply incl_tran; eauto.
Qed.

(** * Code *)
Lemma ys_label : ys kcells any no_cells rd_label.
Proof.
  intros b s. unfold rd_label. eapply qb_bind; [apply qb_u|]. intros i _. cbn beta iota. apply qb_ret. unfold st. rewrite (get_label_cells i s).
  split; [apply incl_refl|]. split; [exact I|intros x []].
Qed.
Lemma ys_catch : ys kcells any no_cells rd_catch.
Proof. intros b s. unfold rd_catch. eapply qb_bind; [apply qb_u|]. intros i _. cbn beta iota. destruct (get_catch i s); [apply qb_ret, st_just; exact I|apply qb_err]. Qed.
Lemma ys_any {A} (T : A -> Prop) D (r : srd cst A) : ys kcells T D r -> ys kcells any no_cells r.
Proof. intros H. eapply ys_weak; [exact H|intros; exact I|intros a x []]. Qed.
Lemma ys_vtype : ys kcells any no_cells (rd_vtype p).
Proof.
  intros b s. unfold rd_vtype. eapply qb_bind; [apply qb_u|]. intros t _. cbn beta iota.
  repeat match goal with |- qb _ _ _ (fun l => if ?c then _ else _) => destruct c end; try apply qb_err; try (apply qb_ret, st_just; exact I).
  - eapply qb_bind; [apply y_class|]. intros c _. cbn beta iota. apply qb_ret, st_just; exact I.
  - eapply qb_bind; [apply ys_label|]. intros [c s1] (H1 & _). cbn beta iota. apply qb_ret. split; [exact H1|split; [exact I|intros x []]].
Qed.
Lemma ys_frame : ys kcells any no_cells (rd_frame p).
Proof.
  intros b s. unfold rd_frame. eapply qb_bind; [apply qb_u|]. intros t _. cbn beta iota.
  assert (HS : forall f s1, incl (kcells s) (kcells s1) -> qb K0 b (st kcells any no_cells s) (fun l => Ok ((f : frame, s1), l))).
  { intros f s1 H. apply qb_ret. split; [exact H|split; [exact I|intros x []]]. }
  repeat match goal with |- qb _ _ _ (fun l => if ?c then _ else _) => destruct c end; try apply qb_err; try (apply HS, incl_refl).
  - eapply qb_bind; [apply ys_vtype|]. intros [c s1] (H1 & _). apply HS, H1.
  - eapply qb_bind; [apply qb_u|]. intros d _. cbn beta iota. eapply qb_bind; [apply ys_vtype|]. intros [c s1] (H1 & _). apply HS, H1.
  - eapply qb_bind; [apply qb_u|]. intros d _. apply HS, incl_refl.
  - eapply qb_bind; [apply qb_u|]. intros d _. apply HS, incl_refl.
  - eapply qb_bind; [apply qb_u|]. intros d _. cbn beta iota. eapply qb_bind; [apply ys_times, ys_vtype|]. intros [c s1] (H1 & _). apply HS, H1.
  - eapply qb_bind; [apply qb_u|]. intros d _. cbn beta iota. eapply qb_bind; [apply ys_vec, ys_vtype|]. intros [c s1] (H1 & _). cbn beta iota. cbn [snd] in H1.
    eapply qb_bind; [apply ys_vec, ys_vtype|]. intros [c' s2] (H2 & _). apply HS. eapply incl_tran; [exact H1|exact H2].
Qed.
Lemma ys_lvt : ys kcells any no_cells rd_lvt.
Proof.
  intros b s. unfold rd_lvt. eapply qb_bind; [apply qb_u|]. intros i _. cbn beta iota. pose proof (get_label_cells i s) as H1. destruct (get_label i s) as [la s1].
  eapply qb_bind; [apply qb_u|]. intros d _. cbn beta iota. pose proof (get_label_cells (i + d) s1) as H2. destruct (get_label (i + d) s1) as [lb s2].
  eapply qb_bind; [apply qb_u|]. intros x _. apply qb_ret. unfold st. cbn [fst snd] in *. rewrite H2, H1. split; [apply incl_refl|split; [exact I|intros y []]].
Qed.
Lemma ys_label_u8 : ys kcells any no_cells rd_label_u8.
Proof. eapply ys_any, ys_pair; [apply ys_label|apply ys_lift; intros b; apply qb_u]. Qed.
Lemma ys_code_target : ys kcells any no_cells rd_code_target.
Proof.
  intros b s. unfold rd_code_target. eapply qb_bind; [apply qb_u|]. intros t _. cbn beta iota.
  repeat match goal with |- qb _ _ _ (fun l => if ?c then _ else _) => destruct c end; try apply qb_err;
  (eapply (ys_map kcells any no_cells); [|intros; exact I|intros a x []]);
  first [eapply ys_any, ys_vec, ys_lvt|apply ys_catch|apply ys_label|apply ys_label_u8].
Qed.
Lemma ys_code_tannot : ys kcells t_tannot no_cells (rd_code_tannot md p).
Proof.
  intros b s. unfold rd_code_tannot. eapply qb_bind; [apply ys_code_target|]. intros [t s1] (H1 & _). cbn beta iota.
  eapply qb_bind; [apply y_tannot_rest|]. intros a Ha. apply qb_ret. split; [exact H1|split; [exact Ha|intros x []]].
Qed.
Definition t_row {A} (P : A -> Prop) (r : lvrow A) : Prop := lax (lr_name r) /\ P (lr_type r).
Lemma y_lvrow b {A} (P : A -> Prop) (r : rd A) : qb K0 b P r -> qb K0 b (t_row P) (rd_lvrow p r).
Proof.
  intros Hr. unfold rd_lvrow. eapply qb_map; [apply y_pair; [apply qb_u|apply y_pair; [apply qb_u|apply y_pair; [apply y_cow|apply y_pair; [exact Hr|apply qb_u]]]]|].
  intros [a [n [s [t i]]]] (_ & _ & H1 & H2 & _). split; [exact H1|exact H2].
Qed.
Definition t_fcattr (a : fcattr) : Prop :=
  match a with
  | CaLocals l => Forall (t_row t_ty) l
  | CaLocalTypes l => Forall (t_row ok_r) l
  | CaInvisible l | CaVisible l => Forall t_tannot l
  | CaRaw r => t_raw r
  | _ => True
  end.
Lemma ys_fcattr : ys kcells t_fcattr no_cells (rd_fcattr md p).
Proof.
  intros b s. unfold rd_fcattr. apply y_attr; [|intros r Hr; apply st_just; exact Hr]. unfold fcattr_known. known.
  - eapply y_just; [| |apply qb_vec, qb_pair; apply qb_u']; [intros; exact I|reflexivity].
  - eapply y_just; [| |apply y_vec, y_lvrow, y_type]; [intros a Ha; exact Ha|reflexivity].
  - eapply y_just; [| |apply y_vec, y_lvrow, y_sig, k_rsig]; [intros a Ha; exact Ha|reflexivity].
  - eapply (ys_map kcells (Forall t_tannot)); [apply ys_vec, ys_code_tannot|intros a Ha; exact Ha|intros a x []].
  - eapply (ys_map kcells (Forall t_tannot)); [apply ys_vec, ys_code_tannot|intros a Ha; exact Ha|intros a x []].
  - eapply (ys_map kcells (Forall any)); [apply ys_vec, ys_frame|intros; exact I|intros a x []].
Qed.
Lemma ys_handler : ys kcells (fun c => t_opt lax (c_type c)) no_cells (rd_handler p).
Proof.
  intros b s. unfold rd_handler. eapply qb_bind; [apply ys_label|]. intros [a s1] (H1 & _). cbn beta iota. eapply qb_bind; [apply ys_label|]. intros [a2 s2] (H2 & _). cbn beta iota.
  eapply qb_bind; [apply ys_label|]. intros [a3 s3] (H3 & _). cbn beta iota. eapply qb_bind; [apply qb_u|]. intros i _. cbn beta iota. cbn [snd] in *.
  assert (HI : incl (kcells s) (kcells s3)) by (eapply incl_tran; [exact H1|]; eapply incl_tran; [exact H2|exact H3]).
  destruct (i =? 0); [apply qb_ret; split; [exact HI|split; [exact I|intros x []]]|]. pose proof (y_indirect 7 i) as Hi.
  destruct (read_indirect_str 7 p i); [apply qb_ret; split; [exact HI|split; [exact Hi|intros x []]]|apply qb_err].
Qed.
Lemma y_add_var f v vs : (forall x, t_var x -> t_var (f x)) -> t_var v -> Forall t_var vs -> Forall t_var (add_var f v vs).
Proof. intros Hf Hv. induction 1 as [|x vs Hx Hvs IH]; cbn [add_var]; auto. destruct (same_key x v); auto. Qed.
Lemma y_add_vars {A} (P : A -> Prop) set (rows : list (lvrow A)) : (forall a v, P a -> t_var v -> t_var (set a v)) -> Forall (t_row P) rows ->
  forall s vs vs' s', Forall t_var vs -> add_vars md set rows s vs = Ok (vs', s') -> kcells s' = kcells s /\ Forall t_var vs'.
Proof.
  intros Hset. induction 1 as [|r rows [Hn Ht] Hr IH]; intros s vs vs' s' Hvs H; cbn [add_vars] in H; [injection H as <- <-; auto|].
  pose proof (get_label_cells (lr_start r) s) as H1. destruct (get_label (lr_start r) s) as [a s1]. inv_bind H.
  pose proof (get_label_cells v s1) as H2. destruct (get_label v s1) as [c s2]. cbn [snd] in *. apply IH in H as [H3 H4]; [split; [congruence|exact H4]|].
  apply y_add_var; auto. unfold t_var. cbn. auto.
Qed.
Definition t_z (z : zst) : Prop := Forall t_var (z_vars z) /\ Forall t_kattr (z_attrs z).
Lemma y_add_attr idx a s z z' s' : t_fcattr a -> t_z z -> add_attr md idx a s z = Ok (z', s') -> kcells s' = kcells s /\ t_z z'.
Proof.
  intros Ha [Hv Hz] H. unfold add_attr in H. destruct a; cbn [t_fcattr] in Ha;
  try (injection H as <- <-; split; [reflexivity|]; split; cbn [z_vars z_attrs]; [exact Hv|]; first [exact Hz|apply Forall_app; split; [exact Hz|constructor; [exact Ha|constructor]]]).
  - inv_bind H. injection H as <- <-. split; [reflexivity|split; assumption].
  - inv_bind H. destruct v as [vs s1]. injection H as <- <-. apply (y_add_vars t_ty) in E as [H1 H2]; auto; [split; [exact H1|split; assumption]|].
    intros t v Ht (H1 & H2 & H3). unfold t_var. cbn. auto.
  - inv_bind H. destruct v as [vs s1]. injection H as <- <-. apply (y_add_vars ok_r) in E as [H1 H2]; auto; [split; [exact H1|split; assumption]|].
    intros t v Ht (H1 & H2 & H3). unfold t_var. cbn. auto.
Qed.
Lemma y_kattrs idx n : forall s z l z' s' l', bytes l -> t_z z -> rd_kattrs n md p idx s z l = Ok (z', s', l') ->
  incl (kcells s) (kcells s') /\ t_z z' /\ bytes l' /\ (List.length l' <= List.length l)%nat.
Proof.
  induction n as [|n IH]; intros s z l z' s' l' Hl Hz H; cbn [rd_kattrs] in H; [injection H as <- <- <-; split; [apply incl_refl|auto]|].
  pose proof (ys_fcattr (S (List.length l)) s l Hl (Nat.lt_succ_diag_r _)) as HF. inv_bind H. destruct v as [[a s1] l1]. rewrite E in HF. destruct HF as ((H1 & H2 & _) & Hl1 & Hle). cbn [fst snd] in *.
  inv_bind H. destruct v as [z1 s2]. apply y_add_attr in E0 as [H3 H4]; auto. apply IH in H as (H5 & H6 & H7 & H8); auto. rewrite H3 in H5. split; [eapply incl_tran; eauto|]. split; [exact H6|]. split; [exact H7|lia].
Qed.
Lemma insert_at_Forall {A} (P : A -> Prop) k x l : P x -> Forall P l -> Forall P (insert_at k x l).
Proof.
  intros Hx Hl. unfold insert_at. rewrite <- (firstn_skipn k l) in Hl. apply Forall_app in Hl as [H1 H2]. apply Forall_app. auto.
Qed.
Lemma inserted_Forall (P : insn -> Prop) k v : Forall P v -> forall is, Forall P is -> Forall P (fold_left (fun is i => insert_at k i is) v is).
Proof. induction 1; intros is His; cbn [fold_left]; auto using insert_at_Forall. Qed.
Lemma insert_all_Forall (P : insn -> Prop) m : Forall (fun x => Forall P (snd x)) m -> forall k is, Forall P is -> Forall P (insert_all k m is).
Proof.
  intros Hm. assert (HV : forall i v, assoc Z.eqb i m = Some v -> Forall P v).
  { intros i v E. induction Hm as [|[k' v'] m H _ IH]; cbn in E; [discriminate|]. destruct (i =? k'); [injection E as <-; exact H|auto]. }
  induction k as [|k IH]; intros is His; cbn [insert_all]; destruct (assoc Z.eqb _ m) as [v|] eqn:E; auto using inserted_Forall.
  - apply inserted_Forall; eauto.
  - apply IH, inserted_Forall; eauto.
Qed.
Lemma y_add_labels (P : insn -> Prop) idx ls : (forall l, P (ILabel l)) -> forall m m', Forall (fun x => Forall P (snd x)) m -> add_labels idx ls m = Ok m' -> Forall (fun x => Forall P (snd x)) m'.
Proof.
  intros HP. induction ls as [|[o x] ls IH]; intros m m' Hm H; cbn [add_labels] in H; [injection H as <-; exact Hm|]. destruct (idx o) as [k|]; [|discriminate].
  eapply IH; [|exact H]. clear - HP Hm. induction Hm as [|[k' v] m Hv Hm IH]; cbn [push_at]; [repeat constructor; apply HP|]. destruct (k' =? k); constructor; auto. cbn [snd] in *. apply Forall_app. auto.
Qed.
Definition ccells (c : code) : list Z := map d_cell (code_dyns c).
Lemma ys_code0 : ys cells t_code ccells (rd_code md p).
Proof.
  intros b s. unfold rd_code. eapply qb_bind; [apply qb_u|]. intros sk _. cbn beta iota. eapply qb_bind; [apply qb_u|]. intros lo _. cbn beta iota.
  eapply qb_bind; [apply qb_u|]. intros n _. cbn beta iota. eapply qb_bind; [apply qb_take|]. intros body Hbody. cbn beta iota.
  eapply (qb_pure _ _ (fun x : list (Z * insn) * cst => incl (cells s) (kcells (snd x)) /\ Forall (fun i => t_insn i /\ incl (icells i) (kcells (snd x))) (map snd (fst x)))).
  { apply calm_ok. intros [is k] E. exact (y_insns _ _ _ _ _ _ E). }
  intros [is k] (Hk & His). cbn [fst snd] in *. cbn beta iota zeta.
  eapply qb_bind; [apply qb_u|]. intros m _. cbn beta iota. eapply qb_bind; [apply ys_times, ys_handler|]. intros [cs k1] (Hk1 & Hcs & _). cbn beta iota zeta. cbn [fst snd] in *.
  eapply qb_bind; [apply qb_u|]. intros a _. cbn beta iota. intros l Hl Hb.
  set (idx := pos2idx (map fst is ++ [n]) 0). set (k2 := {| k_refs := k_refs k1; k_labels := k_labels k1; k_catches := cs |}). set (z0 := {| z_lines := []; z_vars := []; z_attrs := [] |}).
  assert (HZ0 : t_z z0) by (split; constructor).
  destruct (rd_kattrs (Z.to_nat a) md p idx k2 z0 l) as [[[z k3] l1]| |] eqn:EK; cbn [bind post]; try exact I.
  destruct (y_kattrs idx _ _ _ _ _ _ _ Hl HZ0 EK) as (Hk3 & [Hzv Hza] & Hl1 & Hle).
  destruct (add_labels idx (k_labels k3) (map (fun '(i, line) => (i, [ILineNumber line])) (z_lines z))) as [ins| |] eqn:EL; cbn [bind post]; try exact I.
  split; [|auto]. assert (HS : incl (kcells k) (kcells k3)) by (eapply incl_tran; [exact Hk1|exact Hk3]).
  assert (HC : Forall (fun i => t_insn i /\ incl (icells i) (kcells k3)) (insert_all (List.length is) ins (map snd is))).
  { apply insert_all_Forall.
    - eapply y_add_labels; [|  |exact EL]; [intros x; split; [exact I|intros y []]|]. clear. induction (z_lines z) as [|[i x] ls IH]; cbn [map]; constructor; auto.
      cbn [snd]. repeat constructor. intros y [].
    - eapply Forall_impl; [|exact His]. cbn. intros i [H1 H2]. split; [exact H1|]. eapply incl_tran; eauto. }
  unfold st. cbn [fst snd]. split; [eapply incl_tran; [exact Hk|exact HS]|]. split.
  - split; [|split]; cbn [cd_code cd_catches cd_attrs]; [|exact Hcs|].
    + eapply Forall_impl; [|exact HC]. cbn. tauto.
    + apply Forall_app. split; [exact Hza|]. destruct (z_vars z) as [|v vs] eqn:EV; [constructor|]. constructor; [exact Hzv|constructor].
  - unfold ccells, code_dyns. cbn [cd_code]. clear - HC. induction HC as [|j js [_ H] _ IH]; cbn [flat_map]; [intros x []|]. rewrite map_app. apply incl_app; auto.
Qed.
Definition labelled (k : code) : Prop := forall l, In l (code_labels k) -> In (ILabel l) (cd_code k).
Lemma in_labels l is : In l (labels_in is) -> In (ILabel l) is.
Proof.
  unfold labels_in. intros H. apply in_flat_map in H as (i & Hi & Hl). destruct i; cbn in Hl; try contradiction. destruct Hl as [->|[]]. exact Hi.
Qed.
Lemma ys_code : ys cells (fun k => t_code k /\ labelled k) ccells (rd_code md p).
Proof.
  intros b s l Hl Hb. pose proof (ys_code0 b s l Hl Hb) as H. destruct (rd_code md p s l) as [[[k s1] l1]| |] eqn:E; auto. destruct H as ((H1 & H2 & H3) & H4). cbn [fst snd] in *.
  split; [|exact H4]. split; [exact H1|]. split; [|exact H3]. split; [exact H2|]. destruct (C55_labels _ _ _ _ _ _ _ Hl E) as (? & ? & ? & ? & ? & HX). cbv zeta in HX.
  destruct HX as (_ & _ & _ & _ & _ & _ & _ & _ & HL). intros lb Hlb. cbn [fst]. apply in_labels, HL. unfold labels_used. apply in_or_app. right. exact Hlb.
Qed.

(** * Methods *)
Definition acells (a : mattr code) : list Z := match a with MCode c => ccells c | _ => [] end.
Definition t_mattr' (a : mattr code) : Prop := t_mattr a /\ match a with MCode c => labelled c | _ => True end.
Lemma ys_mattr : ys cells t_mattr' acells (rd_mattr (rd_code md) md p).
Proof.
  intros b s. unfold rd_mattr. apply y_attr; [|intros r Hr; split; [apply incl_refl|split; [split; [exact Hr|exact I]|intros x []]]]. unfold mattr_known.
  known; try (eapply y_just; [| |first [apply qb_none|apply y_sig, k_method|apply y_annots|apply y_vec, y_tannot, qb_method_target|apply y_vec, y_annots|apply y_vec, y_class
        |apply y_aval|apply y_vec, y_mparam]]; [intros a Ha; split; [first [exact Ha|exact I]|exact I]|reflexivity]).
  eapply qb_map; [apply ys_code|]. intros [bs s1] H. exact H.
Qed.
Definition mcells (m : method code) : list Z := map d_cell (method_dyns m).
Definition t_method' (m : method code) : Prop := t_method m /\ forall k, In (MCode k) (me_attrs m) -> labelled k.
Lemma ys_method : ys cells t_method' mcells (rd_method (rd_code md) md p).
Proof.
  unfold rd_method. eapply ys_map; [apply ys_pair; [apply ys_lift; intros; apply qb_flags|apply ys_pair; [apply ys_lift; intros; apply y_cow|apply ys_pair; [apply ys_lift; intros; apply y_type|
    apply ys_vec, ys_mattr]]]|..].
  - intros [a [n [d t]]] (_ & H1 & H2 & H3). cbn [fst snd] in *. split.
    + split; [exact H1|]. split; [exact H2|]. eapply Forall_impl; [|exact H3]. intros x [H _]. exact H.
    + cbn [me_attrs]. intros k Hk. rewrite Forall_forall in H3. apply (H3 _ Hk).
  - intros [a [n [d t]]]. unfold mcells, method_dyns. cbn [me_attrs fst snd no_cells app]. induction t as [|x t IH]; cbn [flat_map]; [intros y []|].
    rewrite map_app. apply incl_app; [|apply incl_appr; exact IH]. apply incl_appl. destruct x; apply incl_refl.
Qed.
End Pool.

(** * The pool *)
Lemma y_string b : qb K0 b lax rd_string.
Proof.
  unfold rd_string. eapply qb_bind; [apply qb_u|]. intros n _. cbn beta iota. eapply qb_bind; [apply qb_take|]. intros a Ha. cbn beta iota.
  eapply (qb_pure _ _ lax); [|intros s Hs; apply qb_ret; exact Hs]. apply calm_ok. intros s. apply decoded_lax, Ha.
Qed.
Definition entry_lax (e : raw_entry) : Prop := match e with RWtf8 s => lax s | _ => True end.
Lemma y_raw b : qb K0 b entry_lax rd_raw.
Proof.
  unfold rd_raw, rd_1, rd_2. eapply qb_bind; [apply qb_u|]. intros t _. cbn beta iota.
  destruct (t =? 1); [eapply qb_bind; [apply y_string|]; intros s Hs; apply qb_ret; exact Hs|].
  repeat match goal with |- qb _ _ _ (fun l => if ?c then _ else _) => destruct c end; try apply qb_err;
  repeat (eapply qb_bind; [first [apply qb_u|apply qb_s]|]; intros ? _; cbn beta iota); apply qb_ret; exact I.
Qed.
Lemma y_pool_loop md n : forall i count m, Forall (fun x => entry_lax (snd x)) m -> forall b, qb K0 b (Forall (fun x => entry_lax (snd x))) (rd_pool_loop md n i count m).
Proof.
  induction n as [|n IH]; intros i count m Hm b; cbn [rd_pool_loop]; (destruct (i <? count); [|apply qb_ret; exact Hm]); [apply qb_panic; exact I|].
  eapply qb_bind; [apply y_raw|]. intros e He. cbn beta iota. eapply (qb_pure _ _ any); [apply calm_ok; intros; exact I|]. intros i' _. apply IH, assoc_set_Forall; auto.
Qed.
Lemma y_pool md b : qb K0 b (fun m => forall i s, pool_of m i = Some (RWtf8 s) -> lax s) (rd_pool md).
Proof.
  unfold rd_pool. eapply qb_bind; [apply qb_u|]. intros c _. cbn beta iota. intros l Hl Hb. eapply qb_weak; [apply y_pool_loop; constructor| |exact Hl|exact Hb].
  intros m Hm i s E. unfold pool_of in E. clear - Hm E. induction Hm as [|[k e] m He _ IH]; cbn in E; [discriminate|]. destruct (i =? k); auto.
  injection E as ->. exact He.
Qed.

(** * The table fills every cell *)
Lemma assoc_snoc (h : list (Z * bsm)) c b x : assoc Z.eqb x (h ++ [(c, b)]) = match assoc Z.eqb x h with Some v => Some v | None => if x =? c then Some b else None end.
Proof. induction h as [|[k v] h IH]; cbn; [reflexivity|]. destruct (x =? k); auto. Qed.
Lemma set_cells_inv b : forall cs h h', set_cells cs b h = Ok h' ->
  (forall c, In c cs \/ assoc Z.eqb c h <> None -> assoc Z.eqb c h' <> None) /\
  (forall c v, assoc Z.eqb c h' = Some v -> v = b \/ assoc Z.eqb c h = Some v).
Proof.
  induction cs as [|c cs IH]; intros h h' H; cbn [set_cells] in H; [injection H as <-; split; [intros c [[]|Hc]; exact Hc|auto]|].
  destruct (assoc Z.eqb c h) eqn:E; [discriminate|]. apply IH in H as [H1 H2]. split.
  - intros x Hx. apply H1. rewrite assoc_snoc. destruct Hx as [[->|Hx]|Hx]; [right; rewrite E, Z.eqb_refl; discriminate|left; exact Hx|right; destruct (assoc Z.eqb x h); congruence].
  - intros x v Hv. destruct (H2 x v Hv) as [->|Hs]; [auto|]. rewrite assoc_snoc in Hs. destruct (assoc Z.eqb x h); [auto|]. destruct (x =? c); [left; congruence|discriminate].
Qed.
Lemma fill_inv bs : forall i refs h refs' h', fill_bsms i bs refs h = Ok (refs', h') ->
  (forall c, In c (map snd refs) \/ assoc Z.eqb c h <> None -> In c (map snd refs') \/ assoc Z.eqb c h' <> None) /\
  (forall c v, assoc Z.eqb c h' = Some v -> In v bs \/ assoc Z.eqb c h = Some v).
Proof.
  induction bs as [|b bs IH]; intros i refs h refs' h' H; cbn [fill_bsms] in H; [injection H as <- <-; auto|].
  inv_bind H. apply set_cells_inv in E as [E1 E2]. apply IH in H as [H1 H2]. split.
  - intros c Hc. apply H1. destruct Hc as [Hc|Hc]; [|right; apply E1; auto]. apply in_map_iff in Hc as (r & <- & Hr).
    destruct (fst r =? i mod 65536) eqn:Ef; [right; apply E1; left|left]; apply in_map; apply filter_In; rewrite Ef; auto.
  - intros c v0 Hv. destruct (H2 c v0 Hv) as [Hs|Hs]; [left; right; exact Hs|]. destruct (E2 c v0 Hs) as [->|Hs']; [left; left; reflexivity|auto].
Qed.
Lemma bootstrap_inv bs s h : bootstrap_methods bs s [] = Ok h ->
  (forall c, In c (cells s) -> heap_of h c <> None) /\ (forall c b, heap_of h c = Some b -> In b bs).
Proof.
  intros H. unfold bootstrap_methods in H. inv_bind H. destruct v as [refs h']. destruct refs; [|discriminate]. injection H as <-.
  apply fill_inv in E as [H1 H2]. split.
  - intros c Hc. destruct (H1 c (or_introl Hc)) as [[]|HX]. exact HX.
  - intros c b Hb. destruct (H2 c b Hb) as [HX|HX]; [exact HX|discriminate].
Qed.
Lemma first_table_in attrs t : first_table attrs = Some t -> In (CBootstrap t) attrs.
Proof. induction attrs as [|a attrs IH]; cbn; [discriminate|]. destruct a; try (intros H; right; auto; fail). intros [= ->]. left. reflexivity. Qed.

(** * Class files *)
Theorem read_typed md l c h rest : bytes l -> rd_classfile md l = Ok ((c, h), rest) ->
  t_class c /\ t_heap (heap_of h) /\ labels_defined c /\
  (first_table (cl_attrs c) <> None -> cells_set (heap_of h) c) /\
  (first_table (cl_attrs c) = None -> forall cell, heap_of h cell = None).
Proof.
  intros Hl H. unfold rd_classfile in H. inv_bind H. destruct v as [m l1]. destruct (qb_elim _ _ _ _ _ (fun b => qb_u K0 b 4) Hl E) as [_ Hl1].
  destruct (m =? JVM_MAGIC); [|discriminate]. inv_bind H. destruct v as [v l2]. destruct (qb_elim _ _ _ _ _ (fun b => qb_version K0 b) Hl1 E0) as [_ Hl2].
  inv_bind H. destruct v0 as [p l3]. destruct (qb_elim _ _ _ _ _ (fun b => y_pool md b) Hl2 E1) as [Hp Hl3]. inv_bind H. destruct v0 as [[f s] l4].
  unfold rd_members, srd_map in E2. inv_bind E2. destruct v0 as [[a s1] l5]. injection E2 as <- <- <-.
  match type of E3 with ?r _ _ = _ => eassert (HM : ys cells _ _ r) end.
  { apply ys_pair; [apply ys_lift; intros; apply qb_flags|]. apply ys_pair; [apply ys_lift; intros; apply (y_class _ Hp)|].
    apply ys_pair; [apply ys_lift; intros; apply (y_opt_strcp _ Hp)|]. apply ys_pair; [apply ys_lift; intros; apply y_vec, (y_class _ Hp)|].
    apply ys_pair; [apply ys_lift; intros; apply y_vec, (y_field md _ Hp)|]. apply ys_pair; [apply ys_vec, (ys_method md _ Hp)|apply ys_vec, (ys_cattr md _ Hp)]. }
  destruct (qb_elim _ _ _ _ _ (fun b => HM b _) Hl3 E3) as [(_ & HT & HD) _]. clear HM. destruct a as [fl [nm [su [it [fi [me at_]]]]]]. cbn [fst snd] in HT, HD. cbv beta in HT. cbn [fst snd] in HT.
  destruct HT as (_ & T1 & T2 & T3 & T4 & T5 & T6). cbn [cl_attrs] in H. inv_bind H. apply ok_inj, pair_equal_spec in H as [HE _]. apply pair_equal_spec in HE as [<- <-].
  cbn beta iota in *. unfold no_cells in HD. cbn [app] in HD.
  assert (D1 : incl (flat_map mcells me) (cells s1)) by (intros x Hx; apply HD, in_or_app; left; exact Hx).
  assert (D2 : incl (flat_map cattr_cells at_) (cells s1)) by (intros x Hx; apply HD, in_or_app; right; exact Hx).
  split; [|split; [|split; [|split]]].
  - unfold t_class. cbn [cl_name cl_super cl_itfs cl_fields cl_methods cl_attrs]. split; [exact T1|]. split; [exact T2|]. split; [exact T3|]. split; [exact T4|]. split; [|exact T6].
    eapply Forall_impl; [|exact T5]. intros x [Hx _]. exact Hx.
  - intros cell b Hb. destruct (first_table at_) as [t|] eqn:ET; [|injection E2 as <-; discriminate]. apply bootstrap_inv in E2 as [_ H2]. apply H2 in Hb.
    apply first_table_in in ET. rewrite Forall_forall in T6. specialize (T6 _ ET). cbn in T6. rewrite Forall_forall in T6. auto.
  - intros mt k x Hm Hk Hx. cbn [cl_methods] in Hm. rewrite Forall_forall in T5. destruct (T5 _ Hm) as [_ HL]. exact (HL k Hk x Hx).
  - cbn [cl_attrs]. intros HN. destruct (first_table at_) as [t|] eqn:ET; [|congruence]. apply bootstrap_inv in E2 as [H1 H2].
    assert (HA : forall tb b, In (CBootstrap tb) at_ -> In b tb -> args_set (heap_of v0) b).
    { intros tb b Htb Hb d Hd. apply H1, D2, in_flat_map. exists (CBootstrap tb). split; [exact Htb|]. cbn. apply in_flat_map. exists b. split; [exact Hb|].
      apply in_flat_map. exists (Dyn d). split; [exact Hd|]. left. reflexivity. }
    split; [|split].
    + intros d Hd. apply H1, D1. unfold class_dyns in Hd. cbn [cl_methods] in Hd. apply in_flat_map in Hd as (mt & Hmt & Hd). apply in_flat_map. exists mt. split; [exact Hmt|]. apply in_map, Hd.
    + exact HA.
    + intros cell b Hb. apply H2 in Hb. apply (HA t); auto. apply first_table_in, ET.
  - cbn [cl_attrs]. intros HN cell. rewrite HN in E2. injection E2 as <-. reflexivity.
Qed.
