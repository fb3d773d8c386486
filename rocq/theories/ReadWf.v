(** A class that was read is well formed, if its strings, descriptors,
    signatures and bodies of methods are (C91): lemmas.  The same passage through
    the readers as in ReadTyped.v. *)
From Coq Require Import String.
From Verif Require Import Base BaseLemmas Wtf8Spec Wtf8Model Wtf8Proofs MutfModel PrimModel PrimProofs TypeModel TypeSpec CpModel CpSpec CpProofs
  SigModel SigSpec AnnModel AnnSpec AttrModel AttrSpec AttrProofs FrameModel FrameSpec InsnModel InsnSpec CodeModel CodeSpec CodeRead ClassModel ClassSpec PanicProofs
  CodeProofs ReadTyped TidySpec.
From Coq Require Import Lia.

(** * Numbers *)
Lemma w_u b n : qb K0 b (fun x => 0 <= x < 256 ^ Z.of_nat n) (rd_u n).
Proof.
  intros l Hl Hb. pose proof (qb_u K0 b n l Hl Hb) as H. destruct (rd_u n l) as [[x r]| |] eqn:E; auto. apply rd_u_inv in E as (_ & Hx & _); auto.
  cbn in *. tauto.
Qed.
Lemma w_u8 b : qb K0 b u8 rd_u8. Proof. apply (w_u b 1). Qed.
Lemma w_u16 b : qb K0 b u16 rd_u16. Proof. apply (w_u b 2). Qed.
Lemma wrap_range w x : 0 < w -> - 2 ^ (w - 1) <= wrap_s w x < 2 ^ (w - 1).
Proof.
  intros Hw. unfold wrap_s. assert (2 ^ w = 2 * 2 ^ (w - 1)) as E by (rewrite <- Z.pow_succ_r by lia; f_equal; lia).
  pose proof (Z.mod_pos_bound (x + 2 ^ (w - 1)) (2 ^ w) ltac:(pose proof (Z.pow_pos_nonneg 2 w); lia)). lia.
Qed.
Lemma w_s b n : (0 < n)%nat -> qb K0 b (fun x => - 2 ^ (8 * Z.of_nat n - 1) <= x < 2 ^ (8 * Z.of_nat n - 1)) (rd_s n).
Proof. intros Hn. unfold rd_s. eapply qb_bind; [apply qb_take|]. intros a Ha. cbn beta iota. apply qb_ret, wrap_range. lia. Qed.
Lemma w_flags b t : qb K0 b (flags_of t) (rd_flags t).
Proof.
  unfold rd_flags. eapply qb_bind; [apply w_u16|]. intros x Hx. cbn beta iota. apply qb_ret. unfold from_bits_truncate, flags_of. split.
  - unfold u16 in *. split; [apply Z.land_nonneg; lia|]. destruct (Z.eq_dec (Z.land x (flag_all t)) 0) as [->|Hn]; [lia|].
    apply Z.log2_lt_pow2 with (b := 16); [pose proof (proj2 (Z.land_nonneg x (flag_all t)) (or_introl (proj1 Hx))); lia|].
    eapply Z.le_lt_trans; [apply Z.log2_land; [lia|destruct t; vm_compute; discriminate]|].
    apply Z.min_lt_iff. right. destruct t; vm_compute; reflexivity.
  - rewrite <- Z.land_assoc, Z.land_diag. reflexivity.
Qed.
Lemma times_len {A} (r : rd A) n : forall l xs l', rd_times n r l = Ok (xs, l') -> len xs = Z.of_nat n.
Proof.
  induction n as [|n IH]; intros l xs l' H; cbn [rd_times] in H; [injection H as <- <-; reflexivity|]. inv_bind H. destruct v as [a l1]. inv_bind H. destruct v as [ys l2].
  injection H as <- <-. rewrite len_cons, (IH _ _ _ E0). lia.
Qed.
Lemma w_times {A} b (P : A -> Prop) n r : qb K0 b P r -> qb K0 b (fun xs => len xs = Z.of_nat n /\ Forall P xs) (rd_times n r).
Proof.
  intros Hr l Hl Hb. pose proof (qb_times K0 b P n r Hr l Hl Hb) as H. destruct (rd_times n r l) as [[xs l']| |] eqn:E; auto. apply times_len in E. cbn in *. tauto.
Qed.
Lemma w_vec {A} b k (P : A -> Prop) r : qb K0 b P r -> qb K0 b (fun xs => len xs < 256 ^ Z.of_nat k /\ Forall P xs) (rd_vec k r).
Proof.
  intros Hr. unfold rd_vec. eapply qb_bind; [apply w_u|]. intros n Hn. cbn beta iota. eapply qb_weak; [apply w_times, Hr|]. cbn beta. intros xs [H1 H2]. split; [rewrite H1, Z2Nat.id by apply Hn; apply Hn|exact H2].
Qed.
Lemma stimes_len {S A} (r : srd S A) n : forall s l xs s' l', srd_times n r s l = Ok ((xs, s'), l') -> len xs = Z.of_nat n.
Proof.
  induction n as [|n IH]; intros s l xs s' l' H; cbn [srd_times] in H; [injection H as <- <- <-; reflexivity|]. inv_bind H. destruct v as [[a s1] l1]. inv_bind H. destruct v as [[ys s2] l2].
  injection H as <- <- <-. rewrite len_cons, (IH _ _ _ _ _ E0). lia.
Qed.
(** Readers with a state, as in ReadTyped.v, without the cells. *)
Definition pr0 {S} (_ : S) : list Z := [].
Definition yz {S A} (T : A -> Prop) (r : srd S A) : Prop := ys pr0 T no_cells r.
Lemma st0 {S A} (T : A -> Prop) (s : S) x : T (fst x) -> st pr0 T no_cells s x.
Proof. intros H. split; [intros y []|]. split; [exact H|intros y []]. Qed.
Lemma yz_vec {S A} (T : A -> Prop) (r : srd S A) k : yz T r -> yz (fun xs => len xs < 256 ^ Z.of_nat k /\ Forall T xs) (srd_vec k r).
Proof.
  intros Hr b s. unfold srd_vec. eapply qb_bind; [apply w_u|]. intros n Hn. cbn beta iota. intros l Hl Hb.
  assert (HD : ys pr0 (Forall T) no_cells (srd_times (Z.to_nat n) r)) by (eapply ys_weak; [apply ys_times, Hr|auto|intros a x []]).
  pose proof (HD b s l Hl Hb) as H.
  destruct (srd_times (Z.to_nat n) r s l) as [[[xs s'] l']| |] eqn:E; auto. apply stimes_len in E. destruct H as ((_ & H & _) & H'). split; [|exact H'].
  apply st0. cbn [fst] in *. split; [rewrite E, Z2Nat.id by apply Hn; apply Hn|exact H].
Qed.
Lemma yz_lift {S A} (T : A -> Prop) (r : rd A) : (forall b, qb K0 b T r) -> @yz S A T (lift r).
Proof. apply ys_lift. Qed.
Lemma yz_pair {S A B} (T : A -> Prop) (T' : B -> Prop) (r : srd S A) (q : srd S B) : yz T r -> yz T' q -> yz (fun x => T (fst x) /\ T' (snd x)) (srd_pair r q).
Proof. intros Hr Hq. eapply ys_weak; [apply (ys_pair _ _ _ _ _ _ _ Hr Hq)|auto|intros a x []]. Qed.
Lemma yz_map {S A B} (T : A -> Prop) (T' : B -> Prop) (h : A -> B) (r : srd S A) : yz T r -> (forall a, T a -> T' (h a)) -> yz T' (srd_map h r).
Proof. intros Hr H. eapply ys_map; [exact Hr|exact H|intros a x []]. Qed.

Section Good.
Context (P Q : code -> Prop).
Definition okl (ls : list leaf) : Prop := Forall (leaf_ok P) ls.
(** Well formed, if the leaves are. *)
Definition good {A} (L : A -> list leaf) (W : A -> Prop) (a : A) : Prop := okl (L a) -> W a.
Lemma okl_app x y : okl (x ++ y) <-> okl x /\ okl y. Proof. apply Forall_app. Qed.
Lemma okl_cons x y : okl (x :: y) <-> leaf_ok P x /\ okl y. Proof. split; [intros H; inversion H; auto|intros [H1 H2]; constructor; auto]. Qed.
Lemma okl_flat {A} (L : A -> list leaf) xs : okl (flat_map L xs) <-> Forall (fun a => okl (L a)) xs.
Proof. induction xs as [|x xs IH]; cbn [flat_map]; [split; constructor|]. rewrite okl_app, IH. split; [intros [H1 H2]; constructor; auto|intros H; inversion H; auto]. Qed.
Lemma good_all {A} (L : A -> list leaf) W xs : Forall (good L W) xs -> good (flat_map L) (Forall W) xs.
Proof. intros H HO. apply okl_flat in HO. induction H as [|x xs Hx _ IH]; inversion HO; subst; constructor; auto. Qed.
Lemma good_vec {A} (L : A -> list leaf) W n xs : len xs < n /\ Forall (good L W) xs -> good (flat_map L) (fun xs => len xs < n /\ Forall W xs) xs.
Proof. intros [H1 H2] HO. split; [exact H1|]. apply (good_all L W xs H2 HO). Qed.
Lemma good_vec' {A} (L : A -> list leaf) W n xs : len xs < n /\ Forall (good L W) xs -> okl (flat_map L xs) -> len xs < n /\ Forall W xs.
Proof. apply good_vec. Qed.
Lemma good_str s : good str_leaf jstr s. Proof. intros H. inversion H; auto. Qed.
Lemma good_opt_str o : good (of_opt str_leaf) (opt_ok jstr) o. Proof. destruct o; [apply good_str|intros _; exact I]. Qed.
Lemma good_strs xs : Forall (good str_leaf jstr) xs. Proof. apply Forall_forall. intros x _. apply good_str. Qed.

Section Pool.
Context (md : mode) (p : pool).
Definition number_ok (e : raw_entry) : Prop :=
  match e with RInt x => i32 x | RFloat x => u32 x | RLong x => i64 x | RDouble x => u64 x | _ => True end.
Hypothesis Hp : forall i e, p i = Some e -> number_ok e.

(** * Constants *)
Lemma w_constant i : calmly K0 (oall (good const_leaves wf_constant)) (read_constant md p i).
Proof.
  unfold read_constant. destruct (p i) as [[]|] eqn:E; try exact I; try (pose proof (Hp _ _ E) as HE; cbn [number_ok] in HE; intros _; exact HE);
  try (eapply calm_bind; [apply calm_ok; intros a _; exact (I : any a)|]; intros [m'|] _; [|exact I]; try (intros H; apply okl_cons in H as [H _]; exact H)).
  all: try (match goal with |- context [read_wtf8 p ?s] => destruct (read_wtf8 p s) end; [|exact I]).
  all: try (intros H; apply okl_cons in H as [H _]; exact H).
  all: try (eapply calm_bind; [apply calm_ok; intros a _; exact (I : any a)|]; intros [m'|] _; [|exact I]; try (intros H; apply okl_cons in H as [H _]; exact H)).
  all: unfold zip_handle; destruct (mhkind_of k); (eapply calm_bind; [apply calm_ok; intros a _; exact (I : any a)|]; intros [m'|] _; try exact I).
  intros H; apply okl_cons in H as [H _]; exact H.
Qed.

Lemma w_any {A} (x : res A) : calmly K0 any x. Proof. apply calm_ok. intros; exact I. Qed.
Lemma w_idx {A} b (f : Z -> res (option A)) : qb K0 b any (rd_idx f).
Proof. apply qb_idx. intros i. apply calm_ok. intros [a|] _; exact I. Qed.
Lemma w_opt {A} b (f : Z -> res (option A)) : qb K0 b any (rd_opt f). Proof. apply qb_opt. intros. apply w_any. Qed.
Lemma w_cow b : qb K0 b any (rd_cow p). Proof. apply w_idx. Qed.
Lemma w_class b : qb K0 b any (rd_class p). Proof. apply w_idx. Qed.
Lemma w_type b : qb K0 b any (rd_type md p).
Proof. unfold rd_type. eapply qb_bind; [apply w_cow|]. intros s _. cbn beta iota. eapply qb_pure; [apply w_any|]. intros t _. apply qb_ret. exact I. Qed.
Lemma w_sig {A} b (q : sp A) : qb K0 b any (rd_sig q p).
Proof.
  unfold rd_sig. eapply qb_bind; [apply w_cow|]. intros s _. cbn beta iota. do 3 (eapply qb_pure; [apply w_any|]; intros ? _; cbn beta iota). apply qb_ret. exact I.
Qed.
Lemma w_int b : qb K0 b i32 (rd_cint p).
Proof. apply qb_idx. intros i. unfold read_int. destruct (p i) as [[]|] eqn:E; try exact I. exact (Hp _ _ E). Qed.
Lemma w_long b : qb K0 b i64 (rd_clong p).
Proof. apply qb_idx. intros i. unfold read_long. destruct (p i) as [[]|] eqn:E; try exact I. exact (Hp _ _ E). Qed.
Lemma w_float b : qb K0 b u32 (rd_cfloat p).
Proof. apply qb_idx. intros i. unfold read_float. destruct (p i) as [[]|] eqn:E; try exact I. exact (Hp _ _ E). Qed.
Lemma w_double b : qb K0 b u64 (rd_cdouble p).
Proof. apply qb_idx. intros i. unfold read_double. destruct (p i) as [[]|] eqn:E; try exact I. exact (Hp _ _ E). Qed.

(** * Annotations *)
Definition wf_pairs (vs : list (list Z * aval)) : Prop := Forall (fun kv => jstr (fst kv) /\ wf_aval (snd kv)) vs.
Definition good_pairs (n : nat) (vs : list (list Z * aval)) : Prop :=
  (List.length vs <= n)%nat /\ NoDup (map fst vs) /\ Forall (fun kv => good aval_leaves wf_aval (snd kv)) vs.
Lemma good_pairs_set n k v m : good aval_leaves wf_aval v -> good_pairs n m -> good_pairs (S n) (assoc_set (list_eqb Z.eqb) k v m).
Proof.
  intros Hv (H1 & H2 & H3).
  assert (HI : forall x, In x (map fst (assoc_set (list_eqb Z.eqb) k v m)) -> x = k \/ In x (map fst m)).
  { clear. induction m as [|[k' v'] m IH]; cbn; [intuition auto|]. intros x. destruct (list_eqb Z.eqb k k') eqn:E; cbn.
    - intuition auto.
    - intros [->|Hx]; [auto|]. destruct (IH x Hx); auto. }
  split; [|split].
  - enough (List.length (assoc_set (list_eqb Z.eqb) k v m) <= S (List.length m))%nat by lia. clear. induction m as [|[k' v'] m IH]; cbn; [lia|]. destruct (list_eqb Z.eqb k k'); cbn; lia.
  - clear - H2. induction m as [|[k' v'] m IH]; cbn; [constructor; [intros []|constructor]|]. cbn in H2. inversion H2 as [|? ? HN HD]; subst.
    destruct (list_eqb Z.eqb k k') eqn:E; cbn; constructor; auto.
    intros Hin. assert (HI : forall x, In x (map fst (assoc_set (list_eqb Z.eqb) k v m)) -> x = k \/ In x (map fst m)).
      { clear. induction m as [|[k1 v1] m IH]; cbn; [intuition auto|]. intros x. destruct (list_eqb Z.eqb k k1) eqn:E; cbn; [intuition auto|]. intros [->|Hx]; [auto|]. destruct (IH x Hx); auto. }
      destruct (HI _ Hin) as [->|Hm]; [|auto]. rewrite (proj2 (list_eqb_eq Z.eqb Z.eqb_eq k k) eq_refl) in E. discriminate.
  - clear - Hv H3. induction H3 as [|[k' v'] m H3 HF IH]; cbn; [constructor; auto|]. destruct (list_eqb Z.eqb k k'); constructor; auto.
Qed.
Lemma w_pairs b (r : rd aval) n : qb K0 b (good aval_leaves wf_aval) r -> forall k m, good_pairs k m -> qb K0 b (good_pairs (k + n)) (rd_pairs p r n m).
Proof.
  intros Hr. induction n as [|n IH]; intros k m Hm; cbn [rd_pairs]; [apply qb_ret; rewrite Nat.add_0_r; exact Hm|].
  eapply qb_bind; [apply w_cow|]. intros kk _. cbn beta iota. eapply qb_bind; [exact Hr|]. intros v Hv. cbn beta iota. replace (k + S n)%nat with (S k + n)%nat by lia.
  apply IH, good_pairs_set; auto.
Qed.
Lemma w_vals_with b r : qb K0 b (good aval_leaves wf_aval) r -> qb K0 b (good vals_leaves wf_vals) (rd_vals_with p r).
Proof.
  intros Hr. unfold rd_vals_with. eapply qb_bind; [apply w_u16|]. intros k Hk. cbn beta iota. eapply qb_weak; [apply (w_pairs b r (Z.to_nat k) Hr 0 [])|].
  - split; [cbn; lia|]. split; constructor.
  - intros vs (H1 & H2 & H3) HO. apply okl_flat in HO. unfold wf_vals, u16, len in *. split; [lia|]. split; [exact H2|]. clear - H3 HO.
    induction H3 as [|kv vs H _ IH]; inversion HO as [|? ? Ho HO']; subst; constructor; auto. apply okl_cons in Ho as [Ho1 Ho2]. split; [exact Ho1|exact (H Ho2)].
Qed.
Lemma w_aval_n n b : qb K0 b (good aval_leaves wf_aval) (rd_aval_n md p n).
Proof.
  revert b. induction n as [|n IH]; intros b; cbn [rd_aval_n]; [apply qb_panic; exact I|].
  eapply qb_bind; [apply qb_u|]. intros t _. cbn beta iota.
  assert (HI : forall lo hi f, (forall x, lo <= x <= hi -> wf_aval (f x)) -> qb K0 b (good aval_leaves wf_aval) (fun l => r <- rd_cint p l ;; AnnModel.in_range lo hi f r)).
  { intros lo hi f Hf. eapply qb_bind; [apply qb_cint|]. intros x _. unfold AnnModel.in_range. destruct (_ && _)%bool eqn:E; [|apply qb_err].
    apply andb_prop in E as [E1 E2]. apply Z.leb_le in E1, E2. apply qb_ret. intros _. apply Hf. lia. }
  repeat match goal with |- qb _ _ _ (fun l => if ?c then _ else _) => destruct c end; try apply qb_err;
  try (apply HI; intros x Hx; constructor; unfold i8, u16, i16; lia).
  - eapply qb_bind; [apply w_double|]. intros x Hx. apply qb_ret. intros _. constructor. exact Hx.
  - eapply qb_bind; [apply w_float|]. intros x Hx. apply qb_ret. intros _. constructor. exact Hx.
  - eapply qb_bind; [apply w_int|]. intros x Hx. apply qb_ret. intros _. constructor. exact Hx.
  - eapply qb_bind; [apply w_long|]. intros x Hx. apply qb_ret. intros _. constructor. exact Hx.
  - eapply qb_bind; [apply qb_cint|]. intros x _. cbn beta iota. destruct (x =? 1); [apply qb_ret; intros _; constructor|]. destruct (x =? 0); [apply qb_ret; intros _; constructor|apply qb_err].
  - eapply qb_bind; [apply w_cow|]. intros x _. apply qb_ret. intros H. apply okl_cons in H as [H _]. constructor. exact H.
  - eapply qb_bind; [apply w_type|]. intros x _. cbn beta iota. eapply qb_bind; [apply w_cow|]. intros y _. apply qb_ret. intros H. apply okl_cons in H as [H1 H]. apply okl_cons in H as [H2 _].
    constructor; auto.
  - eapply qb_bind; [apply w_cow|]. intros x _. cbn beta iota. destruct (list_eqb Z.eqb x s_V); [apply qb_ret; intros _; constructor|].
    eapply qb_pure; [apply w_any|]. intros y _. apply qb_ret. intros H. apply okl_cons in H as [H _]. constructor. exact H.
  - eapply qb_bind; [apply w_type|]. intros x _. cbn beta iota. eapply qb_bind; [apply w_vals_with, IH|]. intros y Hy. apply qb_ret. intros H. apply okl_cons in H as [H1 H2].
    destruct (Hy H2) as (? & ? & ?). constructor; auto.
  - eapply qb_bind; [apply w_u16|]. intros x Hx. cbn beta iota. eapply qb_bind; [apply w_times, IH|]. intros y [Hy1 Hy2]. apply qb_ret. intros H. constructor; [unfold u16 in Hx; lia|].
    exact (good_all _ _ _ Hy2 H).
Qed.
Lemma w_aval b : qb K0 b (good aval_leaves wf_aval) (rd_aval md p).
Proof. intros l Hl Hb. exact (w_aval_n _ b l Hl Hb). Qed.
Lemma w_vals b : qb K0 b (good vals_leaves wf_vals) (rd_vals md p).
Proof. intros l Hl Hb. exact (w_vals_with b _ (w_aval_n _ b) l Hl Hb). Qed.
Lemma w_annot b : qb K0 b (good annot_leaves wf_annot) (rd_annot md p).
Proof.
  unfold rd_annot. eapply qb_bind; [apply w_type|]. intros t _. cbn beta iota. eapply qb_bind; [apply w_vals|]. intros v Hv. cbn beta iota. apply qb_ret.
  intros H. apply okl_cons in H as [H1 H2]. split; [exact H1|exact (Hv H2)].
Qed.
Lemma w_annots b : qb K0 b (good (flat_map annot_leaves) wf_annots) (rd_annots md p).
Proof. eapply qb_weak; [apply (w_vec b 2), w_annot|]. intros xs. apply good_vec. Qed.
Lemma w_tpath b : qb K0 b wf_tpath rd_tpath.
Proof.
  unfold rd_tpath. eapply qb_bind; [apply qb_u|]. intros t _. cbn beta iota.
  repeat match goal with |- qb _ _ _ (fun l => if ?c then _ else _) => destruct c end; try apply qb_err; (eapply qb_bind; [apply w_u8|]; intros i Hi; apply qb_ret; exact Hi).
Qed.
Lemma w_tannot_rest b {T} (W : T -> Prop) (t : T) : W t -> qb K0 b (good tannot_leaves (wf_tannot W)) (rd_tannot_rest md p t).
Proof.
  intros Ht. unfold rd_tannot_rest. eapply qb_bind; [apply (w_vec b 1), w_tpath|]. intros pa [Hp1 Hp2]. cbn beta iota. eapply qb_bind; [apply w_type|]. intros y _. cbn beta iota.
  eapply qb_bind; [apply w_vals|]. intros v Hv. cbn beta iota. apply qb_ret. intros H. apply okl_cons in H as [H1 H2].
  split; [exact Ht|]. split; [exact Hp1|]. split; [exact Hp2|]. split; [exact H1|exact (Hv H2)].
Qed.
Lemma w_tannots b {T} (W : T -> Prop) (r : rd T) : qb K0 b W r -> qb K0 b (good (flat_map tannot_leaves) (wf_tannots W)) (rd_vec 2 (rd_tannot r md p)).
Proof.
  intros Hr. eapply qb_weak; [apply (w_vec b 2)|intros xs; apply good_vec]. unfold rd_tannot. eapply qb_bind; [exact Hr|]. intros t Ht. cbn beta iota. apply w_tannot_rest, Ht.
Qed.
Lemma w_class_target b : qb K0 b wf_class_target rd_class_target.
Proof.
  unfold rd_class_target. eapply qb_bind; [apply qb_u|]. intros t _. cbn beta iota.
  repeat match goal with |- qb _ _ _ (fun l => if ?c then _ else _) => destruct c end; try apply qb_err;
  repeat (eapply qb_bind; [first [apply w_u8|apply w_u16]|]; intros ? ?; cbn beta iota); apply qb_ret; cbn; auto.
Qed.
Lemma w_method_target b : qb K0 b wf_method_target rd_method_target.
Proof.
  unfold rd_method_target. eapply qb_bind; [apply qb_u|]. intros t _. cbn beta iota.
  repeat match goal with |- qb _ _ _ (fun l => if ?c then _ else _) => destruct c end; try apply qb_err;
  repeat (eapply qb_bind; [first [apply w_u8|apply w_u16]|]; intros ? ?; cbn beta iota); apply qb_ret; cbn; auto.
Qed.
Lemma w_field_target b : qb K0 b (fun _ => True) rd_field_target.
Proof. apply qb_field_target. Qed.

(** * Attributes *)
Lemma w_attr {B} b (R : B -> Prop) (known : list (list Z * rd B)) raw names : names = map fst known ->
  Forall (fun x => qb K0 b R (snd x)) known -> (forall r, good raw_leaves (wf_raw names) r -> R (raw r)) -> qb K0 b R (rd_attr p known raw).
Proof.
  intros -> Hk Hr. unfold rd_attr. eapply qb_bind; [apply qb_u|]. intros i _. cbn beta iota. destruct (read_wtf8 p i) as [name|]; [|apply qb_err].
  eapply qb_bind; [apply qb_u|]. intros n _. cbn beta iota. intros l Hl Hb. pose proof (qb_take K0 b n l Hl Hb) as HT.
  destruct (take n l) as [[body l1]| |] eqn:ET; cbn [bind post] in *; auto. destruct HT as (Hbody & Hl1 & Hle). apply take_ok in ET as [El _].
  destruct (assoc (list_eqb Z.eqb) name known) as [r|] eqn:EA.
  2:{ cbn. split; [|auto]. apply Hr. intros H. apply okl_cons in H as [H _]. split; [exact H|]. cbn [ra_name]. clear - EA. induction known as [|[k0 r0] t IH]; cbn in *; [intros []|].
      destruct (list_eqb Z.eqb name k0) eqn:E; [discriminate|]. intros [->|Hin]; [|exact (IH EA Hin)]. rewrite (proj2 (list_eqb_eq Z.eqb Z.eqb_eq name name) eq_refl) in E. discriminate. }
  assert (Hq : qb K0 b R r).
  { clear - EA Hk. induction Hk as [|[k0 r0] t H _ IH]; cbn in EA; [discriminate|]. destruct (list_eqb Z.eqb name k0); [injection EA as <-; exact H|auto]. }
  assert (Hbb : (List.length body < b)%nat) by (subst l; rewrite app_length in Hb; lia). specialize (Hq body Hbody Hbb).
  destruct (r body) as [[x rest]| |]; cbn in *; auto. destruct rest; cbn; auto. destruct Hq as (? & _ & _). auto.
Qed.
Lemma leaf1 x : okl [x] -> leaf_ok P x. Proof. intros H. apply okl_cons in H as [H _]. exact H. Qed.
Lemma w_fattr b : qb K0 b (good fattr_leaves wf_fattr) (rd_fattr md p).
Proof.
  unfold rd_fattr. apply (w_attr b _ _ _ field_attr_names); [reflexivity| |intros r Hr; exact Hr]. unfold fattr_known.
  known; (eapply qb_map;
    [first [apply qb_none|apply w_sig|apply w_annots|apply w_tannots, w_field_target|apply qb_idx; intros; apply w_constant]|intros a Ha; first [exact Ha|exact (leaf1 _)|intros _; exact I]]).
Qed.
Lemma w_field b : qb K0 b (good field_leaves wf_field) (rd_field md p).
Proof.
  unfold rd_field. eapply qb_map; [apply y_pair; [apply w_flags|apply y_pair; [apply w_cow|apply y_pair; [apply w_type|apply w_vec, w_fattr]]]|].
  intros [a [n [d t]]] (H0 & _ & _ & H3) H. cbn [fst snd] in *. apply okl_cons in H as [H1 H]. apply okl_cons in H as [H2 H]. cbn [f_attrs f_name f_desc] in *.
  split; [exact H0|]. split; [exact H1|]. split; [exact H2|]. exact (good_vec _ _ _ _ H3 H).
Qed.
Lemma w_mparam b : qb K0 b (good mparam_leaves wf_mparam) (rd_mparam p).
Proof.
  unfold rd_mparam. eapply qb_map; [apply y_pair; [apply w_opt|apply w_flags]|]. intros [n a] [_ Hf] H. cbn [fst snd] in *. split; [apply good_opt_str; exact H|exact Hf].
Qed.
Lemma w_strs b k (f : Z -> res (option (list Z))) : qb K0 b (fun xs => len xs < 256 ^ Z.of_nat k) (rd_vec k (rd_idx f)).
Proof. eapply qb_weak; [apply w_vec, w_idx|]. cbn beta. tauto. Qed.
Lemma strs_ok xs : len xs < 65536 -> okl (flat_map str_leaf xs) -> wf_names xs.
Proof. intros H HO. split; [exact H|]. apply (good_all _ _ _ (good_strs xs) HO). Qed.
Lemma w_require b : qb K0 b (good require_leaves wf_require) (rd_require p).
Proof.
  unfold rd_require. eapply qb_map; [apply y_pair; [apply w_idx|apply y_pair; [apply w_flags|apply w_opt]]|]. intros [n [a v]] (_ & Hf & _) H. cbn [fst snd] in *. apply okl_cons in H as [H1 H2].
  split; [exact H1|]. split; [exact Hf|]. apply good_opt_str. exact H2.
Qed.
Lemma w_exopen b : qb K0 b (good exopen_leaves wf_exopen) (rd_exopen p).
Proof.
  unfold rd_exopen. eapply qb_map; [apply y_pair; [apply w_idx|apply y_pair; [apply w_flags|apply (w_strs b 2)]]|]. intros [n [a v]] (_ & Hf & Hv) H. cbn [fst snd] in *. apply okl_cons in H as [H1 H2].
  split; [exact H1|]. split; [exact Hf|]. apply strs_ok; [exact Hv|exact H2].
Qed.
Lemma w_provide b : qb K0 b (good provide_leaves wf_provide) (rd_provide p).
Proof.
  unfold rd_provide. eapply qb_map; [apply y_pair; [apply w_class|apply (w_strs b 2)]|]. intros [n v] (_ & Hv) H. cbn [fst snd] in *. apply okl_cons in H as [H1 H2].
  split; [exact H1|]. apply strs_ok; [exact Hv|exact H2].
Qed.
Lemma w_module b : qb K0 b (good module_leaves wf_module) (rd_module p).
Proof.
  unfold rd_module. eapply qb_map; [apply y_pair; [apply w_idx|apply y_pair; [apply w_flags|apply y_pair; [apply w_opt|apply y_pair; [apply (w_vec b 2), w_require|
    apply y_pair; [apply (w_vec b 2), w_exopen|apply y_pair; [apply (w_vec b 2), w_exopen|apply y_pair; [apply (w_strs b 2)|apply (w_vec b 2), w_provide]]]]]]]|].
  intros [n [f [v [r [e [o [u q]]]]]]] (_ & Hf & _ & Hr & He & Ho & Hu & Hq) H. cbn [fst snd] in *. unfold module_leaves in H. cbn [mo_name mo_flags mo_version mo_requires mo_exports mo_opens mo_uses mo_provides] in H.
  apply okl_cons in H as [H1 H]. repeat (let H2 := fresh "H" in apply okl_app in H as [H2 H]).
  unfold wf_module. cbn [mo_name mo_flags mo_version mo_requires mo_exports mo_opens mo_uses mo_provides].
  split; [exact H1|]. split; [exact Hf|]. split; [apply good_opt_str; assumption|]. split; [eapply good_vec'; eassumption|]. split; [eapply good_vec'; eassumption|]. split; [eapply good_vec'; eassumption|].
  split; [apply strs_ok; assumption|eapply good_vec'; eassumption].
Qed.
Lemma w_inner b : qb K0 b (good inner_leaves wf_inner_class) (rd_inner_class p).
Proof.
  unfold rd_inner_class. eapply qb_map; [apply y_pair; [apply w_class|apply y_pair; [apply w_opt|apply y_pair; [apply w_opt|apply w_flags]]]|].
  intros [n [f [v r]]] (_ & _ & _ & Hf) H. cbn [fst snd] in *. apply okl_cons in H as [H1 H]. apply okl_app in H as [H2 H3]. cbn [ic_inner ic_outer ic_name ic_access] in *.
  split; [exact H1|]. split; [apply good_opt_str; exact H2|]. split; [apply good_opt_str; exact H3|exact Hf].
Qed.

(** * Bootstrap methods *)
Lemma w_bsm : yz (good bsm_leaves wf_static) (rd_bsm md p).
Proof.
  intros b s. unfold rd_bsm. eapply qb_bind; [apply w_idx|]. intros h _. cbn beta iota.
  eapply qb_bind; [apply w_u16|]. intros n Hn. cbn beta iota.
  assert (HA : yz (fun o => match o with Dyn _ => True | Stat k => good const_leaves wf_constant k end) (rd_bsm_arg md p)).
  { intros b' s'. unfold rd_bsm_arg. eapply qb_bind; [apply qb_u|]. intros i _. cbn beta iota.
    eapply (qb_pure _ _ (fun x => match fst x with Some (Stat k) => good const_leaves wf_constant k | _ => True end)).
    - unfold read_ordyn. eapply calm_bind; [apply w_any|]. intros [[d|] s1] _; cbn beta iota; [exact I|]. eapply calm_bind; [apply w_constant|]. intros [k|] Hk; [exact Hk|exact I].
    - intros [[[d|k]|] s1] Hk; cbn beta iota; [apply qb_ret, st0; exact I|apply qb_ret, st0; exact Hk|apply qb_err]. }
  intros l Hl Hb. pose proof (ys_times _ _ _ _ (Z.to_nat n) HA b s l Hl Hb) as H. destruct (srd_times (Z.to_nat n) (rd_bsm_arg md p) s l) as [[[xs s1] l1]| |] eqn:E; cbn [bind post]; auto.
  destruct H as ((_ & H & _) & H'). split; [|exact H']. apply st0. cbn [fst] in *. apply stimes_len in E. intros HO. apply okl_cons in HO as [H1 HO]. cbn [b_handle b_args] in *. apply okl_flat in HO.
  assert (HB : Forall (wf_ordyn no_heap) xs /\ Forall (fun o => match o with Stat _ => True | Dyn _ => False end) xs).
  { clear - H HO. induction H as [|o xs Ho _ IH]; [split; constructor|]. inversion HO as [|? ? Ho' HO']; subst. destruct (IH HO') as [I1 I2].
    destruct o as [d|k]; [destruct (leaf1 _ Ho')|]. split; constructor; auto. exact (Ho Ho'). }
  split; [|exact (proj2 HB)]. split; [exact H1|]. split; [cbn [b_args]; unfold u16 in Hn; lia|exact (proj1 HB)].
Qed.
Lemma w_just {S A B} b (T : B -> Prop) (s : S) (h : A -> B) (R : A -> Prop) (r : rd A) : (forall a, R a -> T (h a)) -> qb K0 b R r ->
  qb K0 b (st pr0 T no_cells s) (rd_map (fun a => (h a, s)) r).
Proof. intros HT Hr. eapply qb_map; [exact Hr|]. intros a Ha. apply st0. exact (HT a Ha). Qed.
Lemma w_cattr : yz (good cattr_leaves (fun a => wf_class_attr a)) (rd_cattr md p).
Proof.
  intros b s. unfold rd_cattr. apply (w_attr b _ _ _ class_attr_names); [reflexivity| |intros r Hr; apply st0; exact Hr]. unfold cattr_known.
  known; try (eapply w_just; [|first [apply qb_none|apply w_sig|apply w_annots|apply w_tannots, w_class_target|apply w_cow|apply (w_vec b 2), w_inner|eapply qb_any, qb_debug_ext
        |apply w_module|apply w_class|apply (w_strs b 2)|apply y_pair; [apply w_class|apply w_opt]]];
    intros a Ha; first [exact Ha|exact (leaf1 _)|intros _; exact I|exact (good_vec _ _ _ _ Ha)|exact (strs_ok _ Ha)|idtac]).
  - destruct a as [c m]. intros H. apply okl_cons in H as [H1 H2]. split; [exact H1|]. destruct m as [[n t]|]; [|exact I]. apply okl_cons in H2 as [H2 H3]. split; [exact H2|exact (leaf1 _ H3)].
  - eapply qb_map; [apply (yz_vec _ _ 2 w_bsm)|]. intros [bs s1] (_ & [H1 H2] & _). apply st0. cbn [fst] in *. intros HO. exact (good_all _ _ _ H2 HO).
Qed.

(** * Methods *)
Hypothesis Hcode : yz (fun k => P k -> Q k) (rd_code md p).
Lemma w_mattr : yz (good mattr_leaves (wf_mattr Q)) (rd_mattr (rd_code md) md p).
Proof.
  intros b s. unfold rd_mattr. apply (w_attr b _ _ _ method_attr_names); [reflexivity| |intros r Hr; apply st0; exact Hr]. unfold mattr_known.
  known; try (eapply w_just; [|first [apply qb_none|apply w_sig|apply w_annots|apply w_tannots, w_method_target|apply (w_vec b 1), w_annots|apply (w_strs b 2)
        |apply w_aval|apply (w_vec b 1), w_mparam]];
    intros a Ha; first [exact Ha|exact (leaf1 _)|intros _; exact I|exact (good_vec _ _ _ _ Ha)|exact (strs_ok _ Ha)]).
  eapply qb_map; [apply Hcode|]. intros [k s1] (_ & H & _). apply st0. cbn [fst] in *. intros HO. exact (H (leaf1 _ HO)).
Qed.
Lemma w_method : yz (good method_leaves (wf_method Q)) (rd_method (rd_code md) md p).
Proof.
  unfold rd_method. eapply yz_map; [apply yz_pair; [apply yz_lift; intros; apply w_flags|apply yz_pair; [apply yz_lift; intros; apply w_cow|apply yz_pair; [apply yz_lift; intros; apply w_type|
    exact (yz_vec _ _ 2 w_mattr)]]]|].
  intros [a [n [d t]]] (Hf & _ & _ & H3) H. cbn [fst snd] in *. apply okl_cons in H as [H1 H]. apply okl_cons in H as [H2 H]. cbn [me_attrs me_name me_desc] in *.
  split; [exact Hf|]. split; [exact H1|]. split; [exact H2|]. exact (good_vec _ _ _ _ H3 H).
Qed.
End Pool.
End Good.

(** * The pool *)
Lemma w_raw b : qb K0 b number_ok rd_raw.
Proof.
  unfold rd_raw, rd_1, rd_2. eapply qb_bind; [apply qb_u|]. intros t _. cbn beta iota.
  repeat match goal with |- qb _ _ _ (fun l => if ?c then _ else _) => destruct c end; try apply qb_err.
  2: eapply qb_bind; [apply (w_s b 4); lia|]; intros x Hx; apply qb_ret; exact Hx.
  2: eapply qb_bind; [apply (w_u b 4)|]; intros x Hx; apply qb_ret; exact Hx.
  2: eapply qb_bind; [apply (w_s b 8); lia|]; intros x Hx; apply qb_ret; exact Hx.
  2: eapply qb_bind; [apply (w_u b 8)|]; intros x Hx; apply qb_ret; exact Hx.
  all: repeat (eapply qb_bind; [first [apply qb_u|apply qb_s|eapply qb_any, qb_string]|]; intros ? _; cbn beta iota); apply qb_ret; exact I.
Qed.
Lemma w_pool_loop md n : forall i count m, Forall (fun x => number_ok (snd x)) m -> forall b, qb K0 b (Forall (fun x => number_ok (snd x))) (rd_pool_loop md n i count m).
Proof.
  induction n as [|n IH]; intros i count m Hm b; cbn [rd_pool_loop]; (destruct (i <? count); [|apply qb_ret; exact Hm]); [apply qb_panic; exact I|].
  eapply qb_bind; [apply w_raw|]. intros e He. cbn beta iota. eapply (qb_pure _ _ any); [apply calm_ok; intros; exact I|]. intros i' _. apply IH, assoc_set_Forall; auto.
Qed.
Lemma w_pool md b : qb K0 b (fun m => forall i e, pool_of m i = Some e -> number_ok e) (rd_pool md).
Proof.
  unfold rd_pool. eapply qb_bind; [apply qb_u|]. intros c _. cbn beta iota. intros l Hl Hb. eapply qb_weak; [apply w_pool_loop; constructor| |exact Hl|exact Hb].
  intros m Hm i s E. unfold pool_of in E. clear - Hm E. induction Hm as [|[k e] m He _ IH]; cbn in E; [discriminate|]. destruct (i =? k); auto.
  injection E as ->. exact He.
Qed.
Lemma w_version b : qb K0 b (fun v => u16 (minor v)) rd_version.
Proof.
  unfold rd_version. eapply qb_bind; [apply w_u16|]. intros x Hx. cbn beta iota. eapply qb_bind; [apply qb_major|]. intros y _. apply qb_ret. exact Hx.
Qed.

(** * Class files *)
Theorem read_wf (P : code -> Prop) heap md l c h rest :
  (forall p k s l1 s1 l2, (forall i e, p i = Some e -> number_ok e) -> bytes l1 -> rd_code md p s l1 = Ok ((k, s1), l2) -> P k ->
    wf_code (wenv_class Release heap) k /\ in_range (cd_code k) /\ code_readable k) ->
  heap = heap_of h -> bytes l -> rd_classfile md l = Ok ((c, h), rest) -> Forall (leaf_ok P) (class_leaves c) -> wf_class heap c.
Proof.
  intros HP HH Hl H HO. unfold rd_classfile in H. inv_bind H. destruct v as [m l1]. destruct (qb_elim _ _ _ _ _ (fun b => qb_u K0 b 4) Hl E) as [_ Hl1].
  destruct (m =? JVM_MAGIC); [|discriminate]. inv_bind H. destruct v as [v l2]. destruct (qb_elim _ _ _ _ _ (fun b => w_version b) Hl1 E0) as [Hv Hl2].
  inv_bind H. destruct v0 as [p l3]. destruct (qb_elim _ _ _ _ _ (fun b => w_pool md b) Hl2 E1) as [Hp Hl3]. inv_bind H. destruct v0 as [[f s] l4].
  unfold rd_members, srd_map in E2. inv_bind E2. destruct v0 as [[a s1] l5]. injection E2 as <- <- <-.
  set (Q := fun k => wf_code (wenv_class Release heap) k /\ in_range (cd_code k) /\ code_readable k).
  assert (Hcode : yz (fun k => P k -> Q k) (rd_code md (pool_of p))).
  { intros b s0 l0 Hl0 Hb. destruct (rd_code md (pool_of p) s0 l0) as [[[k s2] l6]| |] eqn:EC; cbn; auto; [|exact I].
    assert (HL : bytes l6 /\ (List.length l6 <= List.length l0)%nat).
    { clear - EC Hl0 E1 Hl2. destruct (qb_elim _ _ _ _ _ (fun b => y_pool md b) Hl2 E1) as [Hlax _]. pose proof (ys_code md (pool_of p) Hlax (S (List.length l0)) s0 l0 Hl0 (Nat.lt_succ_diag_r _)) as HX.
      rewrite EC in HX. destruct HX as (_ & HX). exact HX. }
    split; [|exact HL]. apply st0. cbn [fst]. intros Hk. exact (HP _ _ _ _ _ _ Hp Hl0 EC Hk). }
  match type of E3 with ?r _ _ = _ => eassert (HM : yz _ r) end.
  { apply yz_pair; [apply yz_lift; intros; apply w_flags|]. apply yz_pair; [apply yz_lift; intros; apply w_class|].
    apply yz_pair; [apply yz_lift; intros; apply w_opt|]. apply yz_pair; [apply yz_lift; intros; apply (w_strs _ 2)|].
    apply yz_pair; [apply yz_lift; intros; apply (w_vec _ 2), (w_field P md _ Hp)|]. apply yz_pair; [exact (yz_vec _ _ 2 (w_method P Q md _ Hp Hcode))|exact (yz_vec _ _ 2 (w_cattr P md _ Hp))]. }
  destruct (qb_elim _ _ _ _ _ (fun b => HM b _) Hl3 E3) as [(_ & HT & _) _]. clear HM. destruct a as [fl [nm [su [it [fi [me at_]]]]]]. cbn [fst snd] in HT. cbv beta in HT. cbn [fst snd] in HT.
  destruct HT as (T0 & _ & _ & T3 & T4 & T5 & T6). cbn [cl_attrs] in H. inv_bind H. apply ok_inj, pair_equal_spec in H as [HE _]. apply pair_equal_spec in HE as [<- <-].
  unfold class_leaves in HO. cbn [cl_version cl_access cl_name cl_super cl_itfs cl_fields cl_methods cl_attrs] in HO.
  apply okl_cons in HO as [O1 HO]. apply okl_app in HO as [O2 HO]. apply okl_app in HO as [O3 HO]. apply okl_app in HO as [O4 HO]. apply okl_app in HO as [O5 O6].
  assert (W6 : len at_ < 65536 /\ Forall wf_class_attr at_) by exact (good_vec' _ _ _ _ _ T6 O6).
  unfold wf_class. cbn [cl_version cl_access cl_name cl_super cl_itfs cl_fields cl_methods cl_attrs].
  split; [exact Hv|]. split; [exact T0|]. split; [exact O1|]. split; [exact (good_opt_str _ _ O2)|]. split; [exact (strs_ok _ _ T3 O3)|].
  split; [exact (good_vec' _ _ _ _ _ T4 O4)|]. split; [exact (good_vec' _ _ _ _ _ T5 O5)|]. split; [exact W6|].
  intros cell b Hb. rewrite HH in Hb. destruct (first_table at_) as [t|] eqn:ET; [|injection E2 as <-; discriminate]. apply bootstrap_inv in E2 as [_ H2]. apply H2 in Hb.
  apply first_table_in in ET. destruct W6 as [_ W6]. rewrite Forall_forall in W6. specialize (W6 _ ET). cbn in W6. rewrite Forall_forall in W6. auto.
Qed.
