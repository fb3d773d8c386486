(** What every reader of the crate has in common: it consumes a prefix of its
    input, does not look at what comes after it, and rejects the input when the
    prefix is cut short. *)
From Coq Require Import String.
From Verif Require Import Base BaseLemmas PrimModel PrimProofs CpModel SigModel AnnModel AttrModel FrameModel.
From Coq Require Import Lia.

Definition framed {A} (r : rd A) : Prop :=
  forall l a rest, r l = Ok (a, rest) ->
  exists u, l = u ++ rest /\ (forall t, r (u ++ t) = Ok (a, t)) /\
    (forall v w, u = v ++ w -> w <> [] -> exists e, r v = Err e).

Lemma app_split {A} (u1 u2 v w : list A) : u1 ++ u2 = v ++ w -> w <> [] ->
  (exists w', u1 = v ++ w' /\ w' <> []) \/ (exists v', v = u1 ++ v' /\ u2 = v' ++ w).
Proof.
  revert v. induction u1 as [|x u1 IH]; intros v H Hw; cbn in H.
  - right. exists v. auto.
  - destruct v as [|y v]; cbn in H.
    + left. exists (x :: u1). split; [reflexivity|discriminate].
    + injection H as -> H. destruct (IH v H Hw) as [(w' & -> & Hw') | (v' & -> & ->)].
      * left. exists w'. auto.
      * right. exists v'. auto.
Qed.

Lemma framed_bind {A B} (r : rd A) (g : A * list Z -> res (B * list Z)) :
  framed r -> (forall a, framed (fun l => g (a, l))) -> framed (fun l => bind (r l) g).
Proof.
  intros Hr Hg l b rest H. destruct (r l) as [[a l1]| |] eqn:E; try discriminate. cbn [bind] in H.
  destruct (Hr l a l1 E) as (u1 & -> & Hu1 & Hp1).
  destruct (Hg a l1 b rest H) as (u2 & -> & Hu2 & Hp2).
  exists (u1 ++ u2). split; [apply app_assoc|]. split.
  - intros t. rewrite <- app_assoc, Hu1. apply Hu2.
  - intros v w Hv Hw. destruct (app_split _ _ _ _ Hv Hw) as [(w' & -> & Hw') | (v' & -> & ->)].
    + destruct (Hp1 v w' eq_refl Hw') as [e He]. exists e. now rewrite He.
    + destruct (Hp2 v' w eq_refl Hw) as [e He]. exists e. now rewrite Hu1.
Qed.
Lemma framed_pure {A B} (x : res A) (g : list Z -> A -> res (B * list Z)) :
  (forall a, framed (fun l => g l a)) -> framed (fun l => bind x (g l)).
Proof.
  intros Hg l b rest H. destruct x as [a| |]; try discriminate. exact (Hg a l b rest H).
Qed.
Lemma framed_ret {A} (a : A) : framed (fun l => Ok (a, l)).
Proof.
  intros l b rest [= <- <-]. exists []. split; [reflexivity|]. split; [reflexivity|].
  intros v w Hv Hw. symmetry in Hv. apply app_eq_nil in Hv as [_ ->]. now destruct Hw.
Qed.
Lemma framed_err {A} e : framed (fun _ => Err e : res (A * list Z)).
Proof. intros l a rest H. discriminate. Qed.
Lemma framed_panic {A} k : framed (fun _ => Panic k : res (A * list Z)).
Proof. intros l a rest H. discriminate. Qed.
Lemma framed_ext {A} (r r' : rd A) : (forall l, r l = r' l) -> framed r -> framed r'.
Proof.
  intros He Hr l a rest H. rewrite <- He in H. destruct (Hr _ _ _ H) as (u & -> & H1 & H2).
  exists u. split; [reflexivity|]. split; [intros t; now rewrite <- He|].
  intros v w Hv Hw. rewrite <- He. eauto.
Qed.

Lemma framed_take n : framed (take n).
Proof.
  intros l a rest H. destruct (take_ok _ _ _ _ H) as [-> Hl]. exists a. split; [reflexivity|].
  destruct (n <=? 0) eqn:En.
  - assert (a = []) as -> by (destruct a; [reflexivity|]; rewrite len_cons in Hl; pose proof (len_nonneg a); lia).
    split; [intros [|]; cbn [take app]; now rewrite En|].
    intros v w Hv Hw. symmetry in Hv. apply app_eq_nil in Hv as [_ ->]. now destruct Hw.
  - split; [intros t; apply take_app'; lia|].
    intros v w -> Hw. exists EIo. apply take_short. rewrite len_app in Hl.
    destruct w as [|x w]; [now destruct Hw|]. rewrite len_cons in Hl. pose proof (len_nonneg w). lia.
Qed.

Create HintDb framed.
Ltac framed_step :=
  cbn beta iota;
  match goal with
  | |- forall _, _ => intro
  | |- framed (fun l => bind ?x (@?g l)) => apply (framed_pure x g)
  | |- framed (fun l => bind (@?r l) ?g) => apply (framed_bind r g)
  | |- framed (fun l => Ok (?a, l)) => apply (framed_ret a)
  | |- framed (fun _ => Err ?e) => apply (framed_err e)
  | |- framed (fun _ => Panic ?e) => apply (framed_panic e)
  | |- framed (fun l => if ?b then _ else _) => destruct b
  | |- framed (fun l => match ?x with _ => _ end) => destruct x
  | |- framed _ => solve [auto with framed]
  | |- framed (fun l => ?r l) => change (framed r); solve [auto with framed]
  end.
Ltac framed := repeat framed_step.

#[export] Hint Resolve framed_take : framed.
Lemma framed_u n : framed (rd_u n).  Proof. unfold rd_u. framed. Qed.
Lemma framed_s n : framed (rd_s n).  Proof. unfold rd_s. framed. Qed.
#[export] Hint Resolve framed_u framed_s : framed.
Lemma framed_u8 : framed rd_u8.  Proof. apply framed_u. Qed.
Lemma framed_u16 : framed rd_u16.  Proof. apply framed_u. Qed.
Lemma framed_u32 : framed rd_u32.  Proof. apply framed_u. Qed.
Lemma framed_u64 : framed rd_u64.  Proof. apply framed_u. Qed.
Lemma framed_i8 : framed rd_i8.  Proof. apply framed_s. Qed.
Lemma framed_i16 : framed rd_i16.  Proof. apply framed_s. Qed.
Lemma framed_i32 : framed rd_i32.  Proof. apply framed_s. Qed.
Lemma framed_i64 : framed rd_i64.  Proof. apply framed_s. Qed.
Lemma framed_f32 : framed rd_f32.  Proof. apply framed_u. Qed.
Lemma framed_f64 : framed rd_f64.  Proof. apply framed_u. Qed.
#[export] Hint Resolve framed_u8 framed_u16 framed_u32 framed_u64 framed_i8 framed_i16 framed_i32 framed_i64
  framed_f32 framed_f64 : framed.
Lemma framed_string : framed rd_string.  Proof. unfold rd_string. framed. Qed.
#[export] Hint Resolve framed_string : framed.

Lemma framed_times {A} n (r : rd A) : framed r -> framed (rd_times n r).
Proof. intros Hr. induction n as [|n IH]; cbn [rd_times]; framed. Qed.
#[export] Hint Resolve framed_times : framed.
Lemma framed_vec {A} k (r : rd A) : framed r -> framed (rd_vec k r).
Proof. intros Hr. unfold rd_vec. framed. Qed.
#[export] Hint Resolve framed_vec : framed.
Lemma framed_major : framed rd_major.  Proof. unfold rd_major. framed. Qed.
#[export] Hint Resolve framed_major : framed.
Lemma framed_version : framed rd_version.  Proof. unfold rd_version. framed. Qed.
Lemma framed_flags t : framed (rd_flags t).  Proof. unfold rd_flags. framed. Qed.
#[export] Hint Resolve framed_version framed_flags : framed.

(** * Constant pool *)
Lemma framed_rd1 f : framed (rd_1 f).  Proof. unfold rd_1. framed. Qed.
Lemma framed_rd2 f : framed (rd_2 f).  Proof. unfold rd_2. framed. Qed.
#[export] Hint Resolve framed_rd1 framed_rd2 : framed.
Lemma framed_raw : framed rd_raw.  Proof. unfold rd_raw. framed. Qed.
#[export] Hint Resolve framed_raw : framed.

Lemma framed_le {A} (r : rd A) l a rest : framed r -> r l = Ok (a, rest) -> (length rest <= length l)%nat.
Proof. intros Hr H. destruct (Hr _ _ _ H) as (u & -> & _). rewrite app_length. lia. Qed.

(** a reader that takes at least one byte *)
Lemma take_lt n l a r : 0 < n -> take n l = Ok (a, r) -> (length r < length l)%nat.
Proof.
  intros Hn H. apply take_ok in H as [-> Hl]. rewrite app_length.
  unfold len in Hl. lia.
Qed.
Lemma rd_u_lt n l a r : (0 < n)%nat -> rd_u n l = Ok (a, r) -> (length r < length l)%nat.
Proof.
  intros Hn H. unfold rd_u in H. inv_bind H. destruct v as [b r']. injection H as _ <-.
  eapply take_lt; [|eassumption]. lia.
Qed.
Lemma bind_lt {A B} (r : rd A) (g : A -> rd B) l b rest :
  (forall a r', r l = Ok (a, r') -> (length r' < length l)%nat) -> (forall a, framed (g a)) ->
  (bind (r l) (fun x => g (fst x) (snd x))) = Ok (b, rest) -> (length rest < length l)%nat.
Proof.
  intros Hr Hg H. destruct (r l) as [[a l1]| |] eqn:E; try discriminate. cbn in H.
  specialize (Hr a l1 eq_refl). apply (framed_le _ _ _ _ (Hg a)) in H. lia.
Qed.
Lemma rd_raw_lt l e r : rd_raw l = Ok (e, r) -> (length r < length l)%nat.
Proof.
  intros H. unfold rd_raw in H.
  match type of H with bind _ ?g = _ =>
    assert (Hg : forall a, framed (fun l => g (a, l))) by framed;
    destruct (rd_u8 l) as [[a l1]| |] eqn:E; try discriminate;
    apply rd_u_lt in E; [|lia]; apply (framed_le _ _ _ _ (Hg a)) in H end.
  lia.
Qed.

(** The fuel of the pool loop is its input length: more makes no difference. *)
Lemma pool_loop_fuel md n m i count acc l : (length l < n)%nat -> (length l < m)%nat ->
  rd_pool_loop md n i count acc l = rd_pool_loop md m i count acc l.
Proof.
  revert m i acc l. induction n as [|n IH]; intros [|m] i acc l Hn Hm; try lia.
  cbn [rd_pool_loop]. destruct (i <? count); [|reflexivity].
  destruct (rd_raw l) as [[e l1]| |] eqn:E; cbn [bind]; try reflexivity.
  apply rd_raw_lt in E. destruct (chk_u md 16 (i + raw_size e)); cbn [bind]; try reflexivity. apply IH; lia.
Qed.
Lemma framed_pool_loop md n i count acc : framed (rd_pool_loop md n i count acc).
Proof.
  revert i acc. induction n as [|n IH]; intros i acc; cbn [rd_pool_loop]; framed.
Qed.
(** A reader given by a family that stabilises once the fuel exceeds the length. *)
Lemma framed_fuel {A} (r : nat -> rd A) :
  (forall n m l, (length l < n)%nat -> (length l < m)%nat -> r n l = r m l) ->
  (forall n, framed (r n)) -> framed (fun l => r (S (length l)) l).
Proof.
  intros Hf Hr l a rest H. destruct (Hr _ _ _ _ H) as (u & -> & Hu & Hp). exists u.
  split; [reflexivity|].
  set (m := S (length (u ++ rest))) in *.
  split.
  - intros t. pose (N := (S (length (u ++ t)) + m)%nat).
    rewrite (Hf _ N) by (unfold N; lia).
    assert (HN : r N (u ++ rest) = Ok (a, rest)) by (rewrite <- H; apply Hf; unfold N, m; lia).
    destruct (Hr N _ _ _ HN) as (u' & He & Hu' & _). apply app_inv_tail in He as <-. apply Hu'.
  - intros v w Hv Hw. destruct (Hp v w Hv Hw) as [e He]. exists e. rewrite <- He. apply Hf; [lia|].
    unfold m. rewrite Hv, !app_length. lia.
Qed.
Lemma framed_pool md : framed (rd_pool md).
Proof.
  unfold rd_pool. apply framed_bind; [auto with framed|]. intros count. cbn beta iota.
  apply (framed_fuel (fun n => rd_pool_loop md n 1 count [])).
  - intros n m l Hn Hm. now apply pool_loop_fuel.
  - intros n. apply framed_pool_loop.
Qed.
#[export] Hint Resolve framed_pool : framed.

Lemma framed_idx {A} (f : Z -> res (option A)) : framed (rd_idx f).  Proof. unfold rd_idx. framed. Qed.
Lemma framed_idx' {A} (f : Z -> option A) : framed (rd_idx' f).  Proof. apply framed_idx. Qed.
Lemma framed_opt {A} (f : Z -> res (option A)) : framed (rd_opt f).  Proof. unfold rd_opt. framed. Qed.
#[export] Hint Resolve framed_idx framed_idx' framed_opt : framed.
Lemma framed_cint p : framed (rd_cint p).  Proof. apply framed_idx'. Qed.
Lemma framed_clong p : framed (rd_clong p).  Proof. apply framed_idx'. Qed.
Lemma framed_cfloat p : framed (rd_cfloat p).  Proof. apply framed_idx'. Qed.
Lemma framed_cdouble p : framed (rd_cdouble p).  Proof. apply framed_idx'. Qed.
Lemma framed_strcp t p : framed (rd_strcp t p).  Proof. apply framed_idx'. Qed.
Lemma framed_opt_cow p : framed (rd_opt_cow p).  Proof. apply framed_opt. Qed.
Lemma framed_opt_strcp t p : framed (rd_opt_strcp t p).  Proof. apply framed_opt. Qed.
Lemma framed_constant md p : framed (rd_constant md p).  Proof. apply framed_idx. Qed.
#[export] Hint Resolve framed_cint framed_clong framed_cfloat framed_cdouble framed_strcp framed_opt_cow
  framed_opt_strcp framed_constant : framed.
Lemma framed_cow p : framed (rd_cow p).  Proof. apply framed_idx'. Qed.
#[export] Hint Resolve framed_cow : framed.
Lemma framed_type md p : framed (rd_type md p).  Proof. unfold rd_type. framed. Qed.
#[export] Hint Resolve framed_type : framed.
Lemma framed_sig {A} (f : sp A) p : framed (rd_sig f p).  Proof. unfold rd_sig. framed. Qed.
#[export] Hint Resolve framed_sig : framed.
Lemma framed_lift {S A} (r : rd A) (s : S) : framed r -> framed (lift r s).
Proof. intros Hr. unfold lift. framed. Qed.
#[export] Hint Resolve framed_lift : framed.
Lemma framed_stimes {S A} n (r : srd S A) s : (forall s, framed (r s)) -> framed (srd_times n r s).
Proof. intros Hr. revert s. induction n as [|n IH]; intros s; cbn [srd_times]; framed. Qed.
#[export] Hint Resolve framed_stimes : framed.
Lemma framed_svec {S A} k (r : srd S A) s : (forall s, framed (r s)) -> framed (srd_vec k r s).
Proof. intros Hr. unfold srd_vec. framed. Qed.
#[export] Hint Resolve framed_svec : framed.
Lemma framed_bsm md p s : framed (rd_bsm md p s).
Proof.
  unfold rd_bsm. framed. apply framed_stimes. intros. unfold rd_bsm_arg. framed.
Qed.
#[export] Hint Resolve framed_bsm : framed.

(** * Attributes *)
Lemma framed_pair {A B} (r : rd A) (q : rd B) : framed r -> framed q -> framed (rd_pair r q).
Proof. intros. unfold rd_pair. framed. Qed.
Lemma framed_map {A B} (h : A -> B) (r : rd A) : framed r -> framed (rd_map h r).
Proof. intros. unfold rd_map. framed. Qed.
Lemma framed_none : framed rd_none.  Proof. apply framed_ret. Qed.
Lemma framed_spair {S A B} (r : srd S A) (q : srd S B) s :
  (forall s, framed (r s)) -> (forall s, framed (q s)) -> framed (srd_pair r q s).
Proof. intros. unfold srd_pair. framed. Qed.
Lemma framed_smap {S A B} (h : A -> B) (r : srd S A) s : framed (r s) -> framed (srd_map h r s).
Proof. intros. unfold srd_map. framed. Qed.
#[export] Hint Resolve framed_pair framed_map framed_none framed_spair framed_smap : framed.
(** whatever the readers of the bodies do *)
Lemma framed_attr {B} p (known : list (list Z * rd B)) raw : framed (rd_attr p known raw).
Proof.
  unfold rd_attr. framed.
  all: match goal with |- framed (fun l => match ?x with _ => _ end) => destruct x end; framed.
Qed.
#[export] Hint Resolve framed_attr : framed.

(** * Annotations *)
Lemma framed_pairs p r n m : framed r -> framed (rd_pairs p r n m).
Proof. intros Hr. revert m. induction n as [|n IH]; intros m; cbn [rd_pairs]; framed. Qed.
#[export] Hint Resolve framed_pairs : framed.
Lemma framed_vals_with p r : framed r -> framed (rd_vals_with p r).
Proof. intros. unfold rd_vals_with. framed. Qed.
#[export] Hint Resolve framed_vals_with : framed.
Lemma framed_in_range r lo hi f : framed r -> framed (fun l => bind (r l) (in_range lo hi f)).
Proof. intros. unfold in_range. framed. Qed.
Lemma framed_aval_n md p n : framed (rd_aval_n md p n).
Proof.
  induction n as [|n IH]; cbn [rd_aval_n]; framed; unfold in_range; framed.
Qed.
#[export] Hint Resolve framed_aval_n : framed.

Lemma rd_times_agree {A} k (r q : rd A) b n l : framed r -> (length l < b)%nat ->
  (forall l, (length l < b)%nat -> r l = q l) -> n = k -> rd_times n r l = rd_times k q l.
Proof.
  intros Hr Hl He ->. revert l Hl. induction k as [|k IH]; intros l Hl; cbn [rd_times]; [reflexivity|].
  rewrite <- He by assumption. destruct (r l) as [[a l1]| |] eqn:E; cbn [bind]; try reflexivity.
  apply framed_le in E; [|assumption]. rewrite IH by lia. reflexivity.
Qed.
Lemma rd_pairs_agree p (r q : rd aval) b n m l : framed r -> (length l < b)%nat ->
  (forall l, (length l < b)%nat -> r l = q l) -> rd_pairs p r n m l = rd_pairs p q n m l.
Proof.
  intros Hr Hl He. revert m l Hl. induction n as [|n IH]; intros m l Hl; cbn [rd_pairs]; [reflexivity|].
  destruct (rd_cow p l) as [[a l1]| |] eqn:E; cbn [bind]; try reflexivity.
  apply framed_le in E; [|auto with framed].
  rewrite <- He by lia. destruct (r l1) as [[v l2]| |] eqn:E2; cbn [bind]; try reflexivity.
  apply framed_le in E2; [|assumption]. apply IH. lia.
Qed.
Lemma rd_vals_agree p (r q : rd aval) b l : framed r -> (length l <= b)%nat ->
  (forall l, (length l < b)%nat -> r l = q l) -> rd_vals_with p r l = rd_vals_with p q l.
Proof.
  intros Hr Hl He. unfold rd_vals_with.
  destruct (rd_u16 l) as [[a l1]| |] eqn:E; cbn [bind]; try reflexivity.
  apply rd_u_lt in E; [|lia]. eapply rd_pairs_agree; [assumption| |exact He]. lia.
Qed.
Lemma aval_fuel md p n m l : (length l < n)%nat -> (length l < m)%nat ->
  rd_aval_n md p n l = rd_aval_n md p m l.
Proof.
  revert m l. induction n as [|n IH]; intros [|m] l Hn Hm; try lia.
  cbn [rd_aval_n]. destruct (rd_u8 l) as [[t l1]| |] eqn:E; cbn [bind]; try reflexivity.
  apply rd_u_lt in E; [|lia].
  repeat match goal with |- (if ?b then _ else _) = (if ?b then _ else _) => destruct b; try reflexivity end.
  - destruct (rd_type md p l1) as [[x l2]| |] eqn:E2; cbn [bind]; try reflexivity.
    apply framed_le in E2; [|auto with framed].
    rewrite (rd_vals_agree p _ (rd_aval_n md p m) (Nat.min n m)); [reflexivity|auto with framed|lia|].
    intros; apply IH; lia.
  - destruct (rd_u16 l1) as [[x l2]| |] eqn:E2; cbn [bind]; try reflexivity.
    apply framed_le in E2; [|auto with framed].
    rewrite (rd_times_agree (Z.to_nat x) _ (rd_aval_n md p m) (Nat.min n m) _ l2);
      [reflexivity|auto with framed|lia| |reflexivity].
    intros; apply IH; lia.
Qed.
Lemma framed_aval md p : framed (rd_aval md p).
Proof. apply (framed_fuel (rd_aval_n md p)); [apply aval_fuel|auto with framed]. Qed.
Lemma framed_vals md p : framed (rd_vals md p).
Proof.
  intros l a rest H. unfold rd_vals in *.
  assert (Hs : forall k x, (length x <= k)%nat ->
    rd_vals_with p (rd_aval_n md p (length x)) x = rd_vals_with p (rd_aval_n md p k) x).
  { intros k x Hk. eapply rd_vals_agree; [auto with framed|apply le_n|]. intros; apply aval_fuel; lia. }
  destruct (framed_vals_with p _ (framed_aval_n md p (length l)) _ _ _ H) as (u & -> & Hu & Hp).
  exists u. split; [reflexivity|]. split.
  - intros t. set (N := (length (u ++ t) + length (u ++ rest))%nat).
    rewrite (Hs N) by (unfold N; lia). rewrite (Hs N) in H by (unfold N; lia).
    destruct (framed_vals_with p _ (framed_aval_n md p N) _ _ _ H) as (u' & He & Hu' & _).
    apply app_inv_tail in He as <-. apply Hu'.
  - intros v w Hv Hw. destruct (Hp v w Hv Hw) as [e He]. exists e. rewrite <- He. apply Hs.
    rewrite Hv, !app_length. lia.
Qed.
#[export] Hint Resolve framed_aval framed_vals : framed.
Lemma framed_annot md p : framed (rd_annot md p).  Proof. unfold rd_annot. framed. Qed.
#[export] Hint Resolve framed_annot : framed.
Lemma framed_class_target : framed rd_class_target.  Proof. unfold rd_class_target. framed. Qed.
Lemma framed_method_target : framed rd_method_target.  Proof. unfold rd_method_target. framed. Qed.
Lemma framed_field_target : framed rd_field_target.  Proof. unfold rd_field_target. framed. Qed.
Lemma framed_tpath : framed rd_tpath.  Proof. unfold rd_tpath. framed. Qed.
#[export] Hint Resolve framed_class_target framed_method_target framed_field_target framed_tpath : framed.
Lemma framed_tannot_rest {T} md p (t : T) : framed (rd_tannot_rest md p t).
Proof. unfold rd_tannot_rest. framed. Qed.
#[export] Hint Resolve framed_tannot_rest : framed.
Lemma framed_tannot {T} (r : rd T) md p : framed r -> framed (rd_tannot r md p).
Proof. intros. unfold rd_tannot. framed. Qed.
#[export] Hint Resolve framed_tannot : framed.

(** * Frames and annotations in code *)
Lemma framed_label s : framed (rd_label s).  Proof. unfold rd_label. framed. Qed.
Lemma framed_catch s : framed (rd_catch s).  Proof. unfold rd_catch. framed. Qed.
#[export] Hint Resolve framed_label framed_catch : framed.
Lemma framed_class p : framed (rd_class p).  Proof. apply framed_idx'. Qed.
#[export] Hint Resolve framed_class : framed.
Lemma framed_vtype p s : framed (rd_vtype p s).  Proof. unfold rd_vtype. framed. Qed.
#[export] Hint Resolve framed_vtype : framed.
Lemma framed_frame p s : framed (rd_frame p s).  Proof. unfold rd_frame. framed. Qed.
Lemma framed_lvt s : framed (rd_lvt s).  Proof. unfold rd_lvt. framed. Qed.
#[export] Hint Resolve framed_frame framed_lvt : framed.
Lemma framed_label_u8 s : framed (rd_label_u8 s).  Proof. unfold rd_label_u8. framed. Qed.
#[export] Hint Resolve framed_label_u8 : framed.
Lemma framed_code_target s : framed (rd_code_target s).  Proof. unfold rd_code_target. framed. Qed.
#[export] Hint Resolve framed_code_target : framed.
Lemma framed_code_tannot md p s : framed (rd_code_tannot md p s).
Proof. unfold rd_code_tannot. framed. Qed.
#[export] Hint Resolve framed_code_tannot : framed.

Lemma framed_bytes {A} (r : rd A) l a rest : framed r -> bytes l -> r l = Ok (a, rest) -> bytes rest.
Proof. intros Hr Hb H. destruct (Hr _ _ _ H) as (u & -> & _). apply Forall_app in Hb. apply Hb. Qed.
