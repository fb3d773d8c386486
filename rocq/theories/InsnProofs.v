(** Proofs about single instructions. *)
From Coq Require Import String Ascii Permutation Sorted.
From Verif Require Import Base BaseLemmas Wtf8Spec TypeModel TypeSpec TypeProofs TypeProofs2 TypeProps Wtf8Model Wtf8Proofs PrimModel PrimProofs CpModel CpSpec CpProofs CpProps AttrModel AttrProofs FrameModel FrameSpec FrameProofs InsnModel InsnSpec.

(** * Writing *)
Lemma ins_or_ok {A} (f : cins A) P R : ins_ok f (fun _ => P) (fun W => R (W_pool W)) ->
  ins_ok (insert_ordynamic f) (fun E => wf_or P (we_heap E)) (ref_ordyn R).
Proof.
  intros Hf E [d|a] w Hw Hi; cbn [insert_ordynamic wf_or ref_ordyn] in *.
  - destruct Hw as [Hw _]. apply (ins_dynamic_ok E d w Hw Hi).
  - apply (Hf E a w Hw Hi).
Qed.
Lemma ctype_name_ok c : wf_ctype c -> ctype_name c = Ok (ctype_text c).
Proof.
  intros [_ H]. destruct c as [s|dim t]; cbn in *; auto. destruct H as [_ H]. rewrite display_type_text by auto. reflexivity.
Qed.
Lemma ins_ctype_ok : ins_ok insert_ctype (fun _ => wf_ctype) (fun W i c => is_class (W_pool W) i (ctype_text c)).
Proof.
  intros E c w Hc Hi. unfold insert_ctype. rewrite ctype_name_ok by auto. cbn [bind]. apply (ins_class_ok E _ w); auto. apply Hc.
Qed.
Lemma emit_idx_ok {A} op tail (f : cins A) P R : 0 <= op < 256 -> ins_ok f P R ->
  forall E a w, P E a -> w_inv w ->
  post E w (fun bs w' => later E w' (fun W => op_ref op R W a tail bs)) (emit_idx op f tail E a w).
Proof.
  intros Hop Hf E a w HP Hi. unfold emit_idx. eapply post_bind; [apply (Hf E a w); auto|].
  cbn beta. intros i w1 Hl1 Hi1 (Hu & H1 & HR). apply post_ret; auto.
  intros Hfit Hb W Ha Hh. exists (u2 i). rewrite be1_small, be2_u2 by lia. split; [|reflexivity].
  exists i. unfold u16 in Hu. specialize (H1 Hfit). split; [lia|]. split; [auto|]. apply HR; auto.
Qed.
Lemma emit_ldc_ok E c w : wf_or wf_constant (we_heap E) c -> w_inv w ->
  post E w (fun bs w' => later E w' (fun W => enc_ldc W c bs)) (emit_ldc E c w).
Proof.
  intros Hc Hi. unfold emit_ldc. eapply post_bind.
  { apply (ins_ordyn_ok E c w); auto. destruct c; cbn in *; tauto. }
  cbn beta. intros i w1 Hl1 Hi1 (Hu & H1 & HR). apply post_ret; auto.
  intros Hfit Hb W Ha Hh. exists i. split; [apply HR; auto|]. unfold u16 in Hu. specialize (H1 Hfit).
  rewrite !be2_u2.
  set (b := match c with Dyn d => ty_is_wide (d_desc d) | Stat (KI64 _) | Stat (KF64 _) => true | Stat _ => false end).
  assert (two_slots c = b) as ->.
  { destruct c as [d|k]; [|destruct k; reflexivity]. cbn. unfold b. destruct (d_desc d); reflexivity. }
  destruct b; [rewrite be1_small by lia; split; [lia|reflexivity]|].
  destruct (i <=? 255) eqn:Hx; [left|right]; split; try lia; rewrite ?be1_small by lia; reflexivity.
Qed.
Lemma emit_push_ok E c w : wf_or wf_constant (we_heap E) c -> w_inv w ->
  post E w (fun bs w' => later E w' (fun W => enc_push W c bs)) (emit_push E c w).
Proof.
  intros Hc Hi. pose proof (emit_ldc_ok E c w Hc Hi) as HL.
  assert (HL' : post E w (fun bs w' => later E w' (fun W => enc_push W c bs)) (emit_ldc E c w)).
  { eapply post_mono; [exact HL|]. cbn beta. intros bs w' _. apply later_mono. intros W _ H. left. exact H. }
  assert (Hsm : forall k bs, c = Stat k -> enc_small k bs ->
    post E w (fun bs w' => later E w' (fun W => enc_push W c bs)) (Ok (bs, w))).
  { intros k bs -> H. apply post_ret; auto. intros _ _ W _ _. right. exact H. }
  unfold emit_push. destruct c as [d|k]; auto. destruct k; auto; cbn in Hc;
  repeat match goal with |- context [if ?b then _ else _] => destruct b eqn:? end; auto;
  eapply Hsm; try reflexivity; cbn [enc_small]; rewrite ?be1_small by lia; rewrite ?be2_u2, ?be1_u1;
  unfold f32_1, f32_2, f64_1 in *;
  try (left; split; [lia|f_equal; lia]); try (split; [lia|f_equal; lia]);
  try (right; left; split; [lia|reflexivity]); try (right; right; split; [lia|reflexivity]);
  try (right; split; [lia|reflexivity]).
Qed.
Lemma wide_or_normal_ok op i : 0 <= op < 256 -> u16 i -> enc_var op i (wide_or_normal op i).
Proof.
  intros Ho Hi. unfold u16 in Hi. unfold wide_or_normal, enc_var.
  destruct ((0 <=? i) && (i <=? 255)) eqn:Hb; [left|right]; rewrite !be1_small by lia; rewrite ?be2_u2; unfold u8, u16; split; try lia; reflexivity.
Qed.
Definition emit_P (E : wenv) (i : insn) : Prop := straight i /\ sound i /\ wf_insn (we_heap E) i.
Lemma emit_ok pos : wr_ok emit emit_P (enc pos).
Proof.
  intros E i w (Hst & Hso & Hw) Hi.
  assert (Hp : forall bs, (forall W, enc pos W i bs) ->
    post E w (fun bs w' => later E w' (fun W => enc pos W i bs)) (Ok (bs, w))).
  { intros bs H. apply post_ret; auto. intros _ _ W _ _. apply H. }
  destruct i; cbn [straight sound wf_insn] in *; try tauto; unfold emit;
    try (apply Hp; intros W; reflexivity);
    try (apply emit_push_ok; auto; fail).
  - destruct t, n; apply Hp; intros W; reflexivity.
  - apply Hp. intros W. cbn [enc]. left. destruct o, t; (apply wide_or_normal_ok; [cbn; lia|auto]).
  - destruct o, t; apply Hp; intros W; reflexivity.
  - destruct t, o; apply Hp; intros W; reflexivity.
  - destruct t, o; apply Hp; intros W; reflexivity.
  - eapply emit_idx_ok; [lia|exact (ins_or_ok _ _ _ ins_ctype_ok)|auto|auto].
  - eapply emit_idx_ok; [lia|exact (ins_or_ok _ _ _ ins_ctype_ok)|auto|auto].
  - destruct o; apply Hp; intros W; reflexivity.
  - eapply emit_idx_ok; [lia|exact (ins_or_ok _ _ _ ins_class_ok)|auto|auto].
  - destruct a, b; apply Hp; intros W; reflexivity.
  - destruct t; apply Hp; intros W; reflexivity.
  - destruct t as [[]|]; apply Hp; intros W; reflexivity.
  - destruct o, k; try tauto; (eapply emit_idx_ok; [lia|exact (ins_or_ok _ _ _ ins_member_ok)|auto|auto]).
  - destruct k; (eapply emit_idx_ok; [lia|exact (ins_or_ok _ _ _ ins_member_ok)|auto|auto]).
  - eapply emit_idx_ok; [lia|exact (ins_or_ok _ _ _ ins_member_ok)|auto|auto].
  - destruct Hw as [Hw Hm]. eapply post_mono; [eapply emit_idx_ok; [lia|exact ins_dynamic_ok|auto|auto]|].
    cbn beta. intros bs w' _. apply later_mono. intros W _ H. split; auto.
  - destruct Hw as [Hw Hm]. eapply post_mono; [eapply emit_idx_ok; [lia|exact (ins_or_ok _ _ _ ins_member_ok)|auto|auto]|].
    cbn beta. intros bs w' _. apply later_mono. intros W _ H. unfold u8 in Hm. rewrite be1_small in H by lia. split; auto.
  - apply Hp. intros W. apply wide_or_normal_ok; auto; lia.
  - apply Hp. intros W. cbn [enc]. destruct Hw as [H1 H2]. unfold u16, i16 in *.
    destruct (((0 <=? i) && (i <=? 255)) && ((-128 <=? v) && (v <=? 127))) eqn:Hb; [left|right];
    unfold u8, i8, u16, i16; (split; [lia|split; [lia|]]); rewrite ?be1_small by lia; rewrite ?be2_u2, ?be1_u1; reflexivity.
Qed.

(** * Reading *)
Lemma rd_i8_u1 x l : i8 x -> rd_i8 (u1 x ++ l) = Ok (x, l).
Proof. rewrite <- be1_u1. apply rd_i8_be. Qed.
Lemma rd_i16_u2 x l : i16 x -> rd_i16 (u2 x ++ l) = Ok (x, l).
Proof. rewrite <- be2_u2. apply rd_i16_be. Qed.
Lemma assoc_set_fresh {V} k (v : V) m : ~ In k (map fst m) -> assoc_set Z.eqb k v m = m ++ [(k, v)].
Proof.
  induction m as [|[a b] m IH]; cbn [assoc_set map fst In app]; auto. intros H. destruct (Z.eqb_spec k a); [subst; tauto|].
  f_equal. apply IH. tauto.
Qed.
Lemma dyn_sim_stable : stable cst_ext dyn_sim.
Proof.
  intros W s s' d d' [[r Hr] _] (H1 & H2 & k & b & H3 & H4 & H5 & H6). repeat split; auto. exists k, b. repeat split; auto; try apply H3.
  rewrite Hr. apply in_or_app. auto.
Qed.
Lemma ordyn_sim_stable {A} (R : A -> A -> Prop) : stable cst_ext (ordyn_sim R).
Proof. intros W s s' [d|a] [d'|a'] He H; cbn in *; auto. eapply dyn_sim_stable; eauto. Qed.
Lemma forall2_impl {A B} (P Q : A -> B -> Prop) xs ys : (forall a b, P a b -> Q a b) -> Forall2 P xs ys -> Forall2 Q xs ys.
Proof. intros H. induction 1; constructor; auto. Qed.
Lemma insn_sim_stable : stable cst_ext insn_sim.
Proof.
  intros W s s' i i' He H.
  destruct i; auto; destruct i'; cbn in *; auto; try tauto;
  repeat match goal with H : _ /\ _ |- _ => destruct H | H : exists _, _ |- _ => destruct H end;
  repeat match goal with
  | |- _ /\ _ => split
  | |- ordyn_sim _ _ _ _ _ => eapply ordyn_sim_stable; eauto
  | |- label_sim _ _ _ _ => eapply label_sim_stable; eauto
  | |- dyn_sim _ _ _ _ => eapply dyn_sim_stable; eauto
  end; auto.
  - eapply forall2_impl; [|eauto]. intros a b. apply label_sim_stable; auto.
  - eexists. split; eauto. split; auto. eapply forall2_impl; [|eauto]. cbn. intros a b [Ha Hb]. split; auto. eapply label_sim_stable; eauto.
Qed.

Lemma chk_s_ok md w x : - 2 ^ (w - 1) <= x < 2 ^ (w - 1) -> chk_s md w x = Ok x.
Proof. intros H. unfold chk_s. assert ((- 2 ^ (w - 1) <=? x) && (x <? 2 ^ (w - 1)) = true) as -> by lia. reflexivity. Qed.

Lemma rd_insn_plain md p pos s op l : 0 <= op < 256 -> op <> 170 -> op <> 171 ->
  rd_insn_at md p pos s (op :: l) =
  '(r, l) <- rd_raw_op md op l ;; '(i, s) <- conv md p pos r s ;; Ok ((i, s), l).
Proof.
  intros Ho H1 H2. unfold rd_insn_at. destruct (Z.eqb_spec op 170), (Z.eqb_spec op 171); try lia. cbn [orb].
  unfold rd_raw_insn. rewrite rd_u8_cons by lia. reflexivity.
Qed.
Lemma rd_insn_switch md p pos s op pad l : op = 170 \/ op = 171 -> 0 <= len pad <= 3 -> (pos + 1 + len pad) mod 4 = 0 ->
  rd_insn_at md p pos s (op :: pad ++ l) =
  '(r, l) <- rd_raw_op md op l ;; '(i, s) <- conv md p pos r s ;; Ok ((i, s), l).
Proof.
  intros Ho Hl Hp. unfold rd_insn_at. assert ((op =? 170) || (op =? 171) = true) as -> by lia.
  assert (skipn (Z.to_nat (4 - pos mod 4)) (op :: pad ++ l) = l) as ->.
  { replace (Z.to_nat (4 - pos mod 4)) with (S (length pad)).
    - cbn [skipn]. rewrite skipn_app, skipn_all, Nat.sub_diag. reflexivity.
    - unfold len in *. pose proof (Z.mod_pos_bound pos 4). pose proof (Z.div_mod pos 4). pose proof (Z.div_mod (pos + 1 + Z.of_nat (length pad)) 4). lia. }
  unfold rd_raw_insn. rewrite rd_u8_cons by lia. reflexivity.
Qed.
Section ReadInsn.
Context (inv : world -> cst -> Prop).
Hypothesis inv_ok : forall W s, inv W s -> cst_ok s.
Hypothesis inv_label : forall W s l off, inv W s -> u32 off -> W_label W l = Some off -> inv W (snd (get_label off s)).
Hypothesis inv_ref : forall W s k, inv W s -> u16 k -> k < len (W_tbl W) ->
  inv W (with_refs s {| r_refs := r_refs (k_refs s) ++ [(k, r_next (k_refs s))]; r_next := r_next (k_refs s) + 1 |}).
Hypothesis inv_tbl : forall W s, inv W s -> len (W_tbl W) <= 65536.
Context (heap : Z -> option bsm) (md : mode).

Lemma nth_error_len {A} (l : list A) k x : 0 <= k -> nth_error l (Z.to_nat k) = Some x -> k < len l.
Proof. intros Hk H. assert (Z.to_nat k < length l)%nat by (apply nth_error_Some; congruence). unfold len. lia. Qed.
Lemma dyn_at_ok W s i d : inv W s -> wf_dynamic heap d -> is_dyn W i d ->
  exists k nt d' s', u16 k /\
    W_pool W i = Some (if ty_is_method (d_desc d) then RInvokeDynamic k nt else RDynamic k nt) /\
    read_dyn_at md (W_pool W) k nt (k_refs s) = Ok (Some d', k_refs s') /\ s' = with_refs s (k_refs s') /\
    cst_ext s s' /\ inv W s' /\ dyn_sim W s' d d'.
Proof.
  intros Hi (_ & _ & Hd) (b & Hb & k & nt & Hp & Hk & Hn & Hnt).
  pose proof (nth_error_len _ _ _ Hk Hn) as Hkl.
  assert (u16 k) as Hu by (unfold u16; pose proof (nth_error_len _ _ _ Hk Hn); pose proof (inv_tbl _ _ Hi); lia).
  exists k, nt, {| d_cell := r_next (k_refs s); d_name := d_name d; d_desc := d_desc d |}.
  exists (with_refs s {| r_refs := r_refs (k_refs s) ++ [(k, r_next (k_refs s))]; r_next := r_next (k_refs s) + 1 |}).
  repeat split; auto; try apply Hu.
  - unfold read_dyn_at. rewrite (read_nametype_ok md _ _ _ _ (proj1 (proj1 Hd)) Hnt). reflexivity.
  - cbn. eauto.
  - exists []. cbn. rewrite app_nil_r. reflexivity.
  - exists k, b. repeat split; auto; try apply Hu. cbn. apply in_or_app. cbn. auto.
Qed.
Lemma conv_ordyn_ok {A} (f : Z -> res (option A)) (P : A -> Prop) (R : pool -> Z -> A -> Prop) W s i o :
  (forall a, P a -> R (W_pool W) i a -> f i = Ok (Some a) /\ forall k nt, W_pool W i <> Some (RDynamic k nt)) ->
  inv W s -> wf_or P heap o -> ref_ordyn R W i o ->
  exists o' s', conv_ordyn md (W_pool W) f i s = Ok (o', s') /\ cst_ext s s' /\ inv W s' /\ ordyn_sim eq W s' o o'.
Proof.
  intros Hf Hi Hw HR. unfold conv_ordyn, read_ordyn, read_dynamic. destruct o as [d|a]; cbn [wf_or ref_ordyn] in *.
  - destruct Hw as [Hw Hm]. destruct (dyn_at_ok W s i d Hi Hw HR) as (k & nt & d' & s' & Hk & Hp & Hr & Hs & He & Hi' & Hsim).
    rewrite Hm in Hp. rewrite Hp, Hr. cbn [bind]. exists (Dyn d'), s'. rewrite <- Hs. auto.
  - destruct (Hf a Hw HR) as [Hfa Hnd].
    assert (match W_pool W i with Some (RDynamic b nt) => read_dyn_at md (W_pool W) b nt (k_refs s) | _ => Ok (None, k_refs s) end
            = Ok (None, k_refs s)) as ->.
    { destruct (W_pool W i) as [[]|] eqn:Hp; auto. edestruct Hnd; eauto. }
    cbn [bind]. rewrite Hfa. cbn [bind option_map]. exists (Stat a), s. destruct s. repeat split; auto; try apply cst_ext_refl.
Qed.
Lemma conv_member_ok W s i o : inv W s -> wf_or wf_member heap o -> ref_ordyn is_member W i o ->
  exists o' s', conv_member md (W_pool W) i s = Ok (o', s') /\ cst_ext s s' /\ inv W s' /\ ordyn_sim eq W s' o o'.
Proof.
  apply conv_ordyn_ok. intros m Hm H. split; [apply read_member_ok; auto|].
  destruct H as (c & nt & -> & _). intros. destruct (m_desc m), (m_itfs m); discriminate.
Qed.
Lemma conv_class_ok W s i o : inv W s -> wf_or jstr heap o -> ref_ordyn is_class W i o ->
  exists o' s', conv_class md (W_pool W) i s = Ok (o', s') /\ cst_ext s s' /\ inv W s' /\ ordyn_sim eq W s' o o'.
Proof.
  apply conv_ordyn_ok. intros c Hc H. split; [rewrite (read_class_ok _ _ _ H); auto|].
  destruct H as (j & -> & _). discriminate.
Qed.
Lemma ctype_read c : wf_ctype c -> exists c',
  match ctype_text c with
  | 91 :: _ =>
      t <- parse_type md (ctype_text c) ;;
      match t with TArray dim t => Ok (CtArray dim t) | _ => Panic PUB end
  | _ => Ok (CtObject (ctype_text c))
  end = Ok c' /\ same_ctype c c'.
Proof.
  assert (Harr : forall t x r, wf_ty t -> x = ty_text t -> x = 91 :: r ->
    exists dim u, (t <- parse_type md x ;; match t with TArray dim t => Ok (CtArray dim t) | _ => Panic PUB end) = Ok (CtArray dim u) /\
      t = TArray dim u).
  { intros t x r Ht -> Hx. rewrite parse_type_text by auto. cbn [bind].
    destruct t; cbn in Hx; try discriminate Hx. eexists _, _. split; reflexivity. }
  intros [_ H]. remember (ctype_text c) as x eqn:Hx. destruct c as [s|dim t].
  - cbn in Hx. subst x. destruct s as [|a s]; [exists (CtObject []); unfold same_ctype; auto|].
    destruct (Z.eq_dec a 91) as [->|Ha].
    + destruct H as (t & Ht & Hs). destruct (Harr t (91 :: s) s Ht Hs eq_refl) as (dim & u & Hr & ->). eexists. split; [exact Hr|].
      unfold same_ctype. cbn [ctype_text hd]. split; [symmetry; exact Hs|auto].
    + assert (Hc : exists c', Ok (CtObject (a :: s)) = Ok c' /\ same_ctype (CtObject (a :: s)) c') by (eexists; split; [reflexivity|unfold same_ctype; auto]).
      destruct a as [|a|a]; auto. do 7 (destruct a as [a|a|]; auto). lia.
  - destruct H as [Ht _]. cbn in Hx.
    assert (Hd : exists r, x = 91 :: r).
    { destruct Ht as (Hd & _). destruct (Z.to_nat dim) as [|n] eqn:Hn; [lia|]. rewrite Hx. cbn. eauto. }
    destruct Hd as [r Hr]. rewrite Hr in *. destruct (Harr (TArray dim t) (91 :: r) r Ht Hx eq_refl) as (dim' & u & H1 & H2).
    injection H2 as <- <-. eexists. split; [exact H1|]. unfold same_ctype. auto.
Qed.
Lemma conv_ctype_ok W s i o : inv W s -> wf_or wf_ctype heap o ->
  ref_ordyn (fun p i c => is_class p i (ctype_text c)) W i o ->
  exists o' s', conv_ctype md (W_pool W) i s = Ok (o', s') /\ cst_ext s s' /\ inv W s' /\
    ordyn_sim same_ctype W s' o o'.
Proof.
  intros Hi Hw HR. unfold conv_ctype.
  set (o1 := match o with Dyn d => Dyn d | Stat c => Stat (ctype_text c) end).
  destruct (conv_class_ok W s i o1 Hi) as (o' & s' & Hc & He & Hi' & Hsim); [destruct o; cbn in *; auto; apply Hw|destruct o; auto|].
  rewrite Hc. cbn [bind]. destruct o as [d|c], o' as [d'|c']; cbn in Hsim; try tauto.
  - exists (Dyn d'), s'. auto.
  - subst c'. destruct (ctype_read c Hw) as (c'' & Hc'' & Ht). exists (Stat c''), s'. split; [|auto].
    destruct (ctype_text c) as [|a x]; [congruence|].
    destruct a as [|a|a]; try congruence. do 7 (destruct a as [a|a|]; try congruence).
    destruct (parse_type md (91 :: x)) as [t| |]; cbn [bind] in *; try discriminate. destruct t; try discriminate. congruence.
Qed.

(** ** Labels *)
Lemma lbl_at_ok W s pos l o : inv W s -> rel W pos l o ->
  exists l' s', lbl_at pos o s = (l', s') /\ cst_ext s s' /\ inv W s' /\ label_sim W s' l l'.
Proof.
  intros Hi (t & Ht & Hr & ->). unfold lbl_at. replace ((pos + (t - pos)) mod 4294967296) with t.
  - destruct (label_step inv inv_ok inv_label W s l t Hi Hr Ht) as (l' & s' & H1 & H2 & H3 & H4). exists l', s'. repeat split; auto; try apply H3. exists t. auto.
  - replace (pos + (t - pos)) with t by lia. rewrite Z.mod_small; auto.
Qed.
Lemma lbls_at_ok W pos ls os : Forall2 (rel W pos) ls os -> forall s, inv W s ->
  exists ls' s', lbls_at pos os s = (ls', s') /\ cst_ext s s' /\ inv W s' /\ Forall2 (label_sim W s') ls ls'.
Proof.
  induction 1 as [|l o ls os Hr _ IH]; intros s Hi; cbn [lbls_at].
  - exists [], s. repeat split; auto; try apply cst_ext_refl.
  - destruct (lbl_at_ok W s pos l o Hi Hr) as (l' & s1 & -> & He1 & Hi1 & Hs1).
    destruct (IH s1 Hi1) as (ls' & s2 & -> & He2 & Hi2 & Hs2). exists (l' :: ls'), s2.
    split; [auto|]. split; [eapply cst_ext_trans; eauto|]. split; [auto|]. constructor; auto. eapply label_sim_stable; eauto.
Qed.
Lemma lookup_at_ok W pos t0 es : Forall2 (fun e x => fst x = fst e /\ rel W pos (snd e) (snd x)) t0 es ->
  NoDup (map fst es) -> forall m s, inv W s -> (forall k, In k (map fst es) -> ~ In k (map fst m)) ->
  exists m' s', lookup_at pos es m s = (m ++ m', s') /\ cst_ext s s' /\ inv W s' /\
    Forall2 (fun e e' => fst e' = fst e /\ label_sim W s' (snd e) (snd e')) t0 m' /\ map fst m' = map fst es.
Proof.
  induction 1 as [|e x t0 es [Hf Hr] _ IH]; intros Hn m s Hi Hm; cbn [lookup_at].
  - exists [], s. rewrite app_nil_r. repeat split; auto; try apply cst_ext_refl.
  - destruct x as [k o]. cbn [fst snd map] in *. inversion Hn as [|? ? Hk Hn']; subst.
    destruct (lbl_at_ok W s pos (snd e) o Hi Hr) as (l' & s1 & -> & He1 & Hi1 & Hs1).
    rewrite assoc_set_fresh by (apply Hm; cbn; auto).
    destruct (IH Hn' (m ++ [(fst e, l')]) s1 Hi1) as (m' & s2 & -> & He2 & Hi2 & Hs2 & Hf2).
    { intros k Hk' Hin. rewrite map_app in Hin. apply in_app_or in Hin as [Hin|[<-|[]]]; [|auto]. apply (Hm k); cbn; auto. }
    exists ((fst e, l') :: m'), s2. rewrite <- app_assoc. cbn [app map fst].
    split; [auto|]. split; [eapply cst_ext_trans; eauto|]. split; [auto|]. split; [|congruence].
    constructor; auto. cbn. split; auto. eapply label_sim_stable; eauto.
Qed.

(** ** One instruction *)

Lemma off4_inv W pos ls oss : Forall2 (enc_off4 W pos) ls oss ->
  exists os, Forall2 (rel W pos) ls os /\ Forall i32 os /\ oss = map u4 os.
Proof.
  induction 1 as [|l b ls oss (o & Hr & Hi & ->) _ (os & H1 & H2 & ->)].
  - exists []. repeat split; constructor.
  - exists (o :: os). repeat split; auto.
Qed.
Lemma rd_offs os rest : Forall i32 os -> rd_times (length os) rd_i32 (concat (map u4 os) ++ rest) = Ok (os, rest).
Proof.
  intros H. apply (rd_times_ok rd_i32 (fun o b => i32 o /\ b = u4 o)).
  - intros a bs r _ [Ha ->]. apply rd_i32_u4; auto.
  - induction H; cbn; constructor; auto.
Qed.
Lemma entries_inv W pos t ess :
  Forall2 (fun (e : Z * Z) b => exists o, b = u4 (fst e) ++ o /\ -2147483648 <= fst e < 2147483648 /\ enc_off4 W pos (snd e) o) t ess ->
  exists es, Forall2 (fun e x => fst x = fst e /\ rel W pos (snd e) (snd x)) t es /\
    Forall (fun x => i32 (fst x) /\ i32 (snd x)) es /\ ess = map (fun x => u4 (fst x) ++ u4 (snd x)) es.
Proof.
  induction 1 as [|e b t ess (o & -> & Hk & (x & Hr & Hx & ->)) _ (es & H1 & H2 & ->)].
  - exists []. repeat split; constructor.
  - exists ((fst e, x) :: es). cbn. repeat split; auto; constructor; auto.
Qed.
Lemma rd_entries es rest : Forall (fun x => i32 (fst x) /\ i32 (snd x)) es ->
  rd_times (length es) rd_switch_entry (concat (map (fun x => u4 (fst x) ++ u4 (snd x)) es) ++ rest) = Ok (es, rest).
Proof.
  intros H. apply (rd_times_ok rd_switch_entry (fun x b => (i32 (fst x) /\ i32 (snd x)) /\ b = u4 (fst x) ++ u4 (snd x))).
  - intros [k o] bs r _ [[Hk Ho] ->]. cbn [fst snd] in *. unfold rd_switch_entry. rewrite <- app_assoc.
    rewrite rd_i32_u4 by auto. cbn [bind]. rewrite rd_i32_u4 by auto. reflexivity.
  - induction H; cbn; constructor; auto.
Qed.

Definition reads W s pos i bs rest : Prop :=
  exists i' s', rd_insn_at md (W_pool W) pos s (bs ++ rest) = Ok ((i', s'), rest) /\
    cst_ext s s' /\ inv W s' /\ insn_sim W s' i i'.
Ltac op1 :=
  rewrite rd_insn_plain by (cbn; lia);
  match goal with |- context [rd_raw_op md ?op _] =>
    let o := eval vm_compute in op in change (rd_raw_op md op) with (rd_raw_op md o)
  end; cbn [rd_raw_op].
Ltac fin s := eexists; exists s; split; [reflexivity|]; split; [apply cst_ext_refl|]; split; [assumption|]; cbn; auto.
Ltac simple s := unfold reads; cbn [app nty_conv]; op1; cbn [bind conv]; fin s.

Lemma reads_ref {A} op (R : world -> Z -> A -> Prop) (f : Z -> cst -> res (A * cst)) (S : world -> cst -> A -> A -> Prop) X C W s pos a bs rest :
  0 <= op < 256 -> op <> 170 -> op <> 171 ->
  (forall l, rd_raw_op md op l = '(i, l) <- rd_u16 l ;; Ok (X i, l)) ->
  (forall i s, conv md (W_pool W) pos (X i) s = '(a, s) <- f i s ;; Ok (C a, s)) ->
  (forall i, R W i a -> exists a' s', f i s = Ok (a', s') /\ cst_ext s s' /\ inv W s' /\ S W s' a a') ->
  (forall s' a', S W s' a a' -> insn_sim W s' (C a) (C a')) ->
  op_ref op R W a [] bs -> reads W s pos (C a) bs rest.
Proof.
  intros Ho H1 H2 Hr Hc Hf Hs (b & (i & Hi & -> & HR) & ->). destruct (Hf i HR) as (a' & s' & Hfi & He & Hinv & Hsim).
  exists (C a'), s'. rewrite app_nil_r, <- app_comm_cons, rd_insn_plain by lia. rewrite Hr, rd_u16_u2 by (unfold u16; lia).
  cbn [bind]. rewrite Hc, Hfi. cbn [bind]. auto.
Qed.
Lemma reads_jump W s pos c l bs rest : inv W s ->
  enc_jump W pos (jcond_num c) (match c with JcAlways => Some 200 | _ => None end) l bs -> reads W s pos (IJump c l) bs rest.
Proof.
  intros Hi (o & Hr & H). destruct (lbl_at_ok W s pos l o Hi Hr) as (l' & s' & Hl & He & Hi' & Hs).
  destruct H as [[Ho ->]|(Ho & w & Hw & ->)].
  - destruct c; unfold reads; cbn [jcond_num]; rewrite <- app_comm_cons; op1; rewrite rd_i16_u2 by (unfold i16; lia);
      cbn [bind conv]; rewrite Hl; eexists; exists s'; repeat split; auto; apply He.
  - destruct c; try discriminate. inversion Hw; subst w. unfold reads; rewrite <- app_comm_cons; op1; rewrite rd_i32_u4 by (unfold i32; lia).
    cbn [bind conv]; rewrite Hl; eexists; exists s'; repeat split; auto; apply He.
Qed.
Lemma reads_jsr W s pos l bs rest : inv W s -> enc_jump W pos 168 (Some 201) l bs -> reads W s pos (IJsr l) bs rest.
Proof.
  intros Hi (o & Hr & H). destruct (lbl_at_ok W s pos l o Hi Hr) as (l' & s' & Hl & He & Hi' & Hs).
  destruct H as [[Ho ->]|(Ho & w & Hw & ->)].
  - unfold reads; rewrite <- app_comm_cons; op1; rewrite rd_i16_u2 by (unfold i16; lia).
    cbn [bind conv]; rewrite Hl; eexists; exists s'; repeat split; auto; apply He.
  - inversion Hw; subst w. unfold reads; rewrite <- app_comm_cons; op1; rewrite rd_i32_u4 by (unfold i32; lia).
    cbn [bind conv]; rewrite Hl; eexists; exists s'; repeat split; auto; apply He.
Qed.
Lemma reads_table W s pos d low ls bs rest : inv W s -> small bs -> enc_table W pos d low ls bs ->
  reads W s pos (ITableSwitch d low ls) bs rest.
Proof.
  intros Hi Hsm (pad & db & oss & -> & Hp & Ha & Hlow & Hn & Hhigh & (o & Hr & Ho & ->) & Hos).
  destruct (off4_inv _ _ _ _ Hos) as (os & Hrel & Hi32 & ->).
  pose proof (Forall2_len _ _ _ Hrel) as Hlen.
  assert (Hsz : 4 * len ls <= len (concat (map u4 os))).
  { unfold len. rewrite Hlen. clear. induction os as [|a os IH]; [cbn; lia|]. cbn [map concat]. rewrite app_length.
    change (length (u4 a)) with 4%nat. cbn [length]. lia. }
  assert (len ls < 1073741824).
  { unfold small in Hsm. unfold len in *. cbn [length] in Hsm. rewrite !app_length in Hsm. lia. }
  destruct (lbl_at_ok W s pos d o Hi Hr) as (d' & s1 & Hl & He1 & Hi1 & Hs1).
  destruct (lbls_at_ok W pos ls os Hrel s1 Hi1) as (ls' & s2 & Hls & He2 & Hi2 & Hs2).
  exists (ITableSwitch d' low ls'), s2. split; [|split; [eapply cst_ext_trans; eauto|split; [auto|]]].
  2: { cbn. repeat split; auto. eapply label_sim_stable; eauto. }
  rewrite <- app_comm_cons, <- !app_assoc, rd_insn_switch by auto. cbn [rd_raw_op].
  rewrite rd_i32_u4 by (unfold i32; lia). cbn [bind]. unfold rd_table.
  rewrite rd_i32_u4 by (unfold i32; lia). cbn [bind].
  rewrite rd_i32_u4 by (unfold i32; lia). cbn [bind].
  rewrite chk_s_ok by (cbn; lia). cbn [bind]. rewrite chk_s_ok by (cbn; lia). cbn [bind].
  replace (low + len ls - 1 - low + 1) with (len ls) by lia. destruct (Z.ltb_spec (len ls) 0); [lia|].
  replace (Z.to_nat (len ls)) with (length os) by (unfold len; lia).
  rewrite rd_offs by auto. cbn [bind conv t_offs t_low]. rewrite Hl, Hls. reflexivity.
Qed.
Lemma sorted_nodup l : StronglySorted Z.lt l -> NoDup l.
Proof.
  induction 1 as [|a l _ IH Hf]; constructor; auto. intros Hin. rewrite Forall_forall in Hf. apply Hf in Hin. lia.
Qed.
Lemma reads_lookup W s pos d t bs rest : inv W s -> enc_lookup W pos d t bs -> reads W s pos (ILookupSwitch d t) bs rest.
Proof.
  intros Hi (pad & db & t' & ess & -> & Hp & Ha & Hn & Hperm & Hsort & (o & Hr & Ho & ->) & Hess).
  destruct (entries_inv _ _ _ _ Hess) as (es & Hrel & Hi32 & ->).
  assert (Hfst : map fst es = map fst t') by (clear - Hrel; induction Hrel as [|? ? ? ? [H _]]; cbn; congruence).
  pose proof (Forall2_len _ _ _ Hrel) as Hlen. pose proof (Permutation_length Hperm) as Hpl.
  destruct (lbl_at_ok W s pos d o Hi Hr) as (d' & s1 & Hl & He1 & Hi1 & Hs1).
  destruct (lookup_at_ok W pos t' es Hrel) with (m := @nil (Z * Z)) (s := s1) as (m & s2 & Hls & He2 & Hi2 & Hs2 & Hf2); auto.
  { rewrite Hfst. apply sorted_nodup; auto. }
  exists (ILookupSwitch d' m), s2. split; [|split; [eapply cst_ext_trans; eauto|split; [auto|]]].
  2: { cbn. split; [eapply label_sim_stable; eauto|]. exists t'. rewrite Hf2, Hfst. auto. }
  rewrite <- app_comm_cons, <- !app_assoc, rd_insn_switch by auto. cbn [rd_raw_op].
  rewrite rd_i32_u4 by (unfold i32; lia). cbn [bind]. unfold rd_vec. change (rd_u 4) with rd_u32.
  rewrite rd_u32_u4 by (unfold u32, len in *; lia). cbn [bind].
  replace (Z.to_nat (len t)) with (length es) by (unfold len; lia).
  rewrite rd_entries by auto. cbn [bind conv]. rewrite Hl, Hls. reflexivity.
Qed.
Lemma reads_ldc W s pos k bs rest : inv W s -> wf_constant k -> enc_ldc W (Stat k) bs -> reads W s pos (IPush (Stat k)) bs rest.
Proof.
  intros Hi Hw (i & Hk & H). cbn [is_ordyn] in Hk. pose proof (read_constant_ok md _ _ _ Hw Hk) as Hr.
  assert (exists op, (op = 18 /\ 0 < i < 256 /\ bs = [18; i]) \/ ((op = 19 \/ op = 20) /\ 0 < i < 65536 /\ bs = op :: u2 i)) as (op & Hop).
  { destruct (two_slots (Stat k)); [exists 20; right; tauto|]. destruct H; [exists 18|exists 19]; tauto. }
  destruct Hop as [(-> & Hr' & ->)|([-> | ->] & Hr' & ->)]; unfold reads.
  - cbn [app]. op1. rewrite rd_u8_cons by lia. cbn [bind conv]. unfold conv_constant. rewrite Hr. fin s.
  - rewrite <- app_comm_cons. op1. rewrite rd_u16_u2 by (unfold u16; lia). cbn [bind conv]. unfold conv_constant. rewrite Hr. fin s.
  - rewrite <- app_comm_cons. op1. rewrite rd_u16_u2 by (unfold u16; lia). cbn [bind conv]. unfold conv_constant. rewrite Hr. fin s.
Qed.
Lemma reads_push W s pos k bs rest : inv W s -> wf_constant k -> enc_push W (Stat k) bs -> reads W s pos (IPush (Stat k)) bs rest.
Proof.
  intros Hi Hw [H|H]; [apply reads_ldc; auto|]. destruct k as [x|x|x|x| | | | |]; cbn [enc_small] in H; try tauto.
  - destruct H as [[Hx ->]|[[Hx ->]|[Hx ->]]].
    + assert (x = -1 \/ x = 0 \/ x = 1 \/ x = 2 \/ x = 3 \/ x = 4 \/ x = 5) as Hc by lia.
      decompose [or] Hc; subst x; simple s.
    + unfold reads. rewrite <- app_comm_cons. op1. rewrite rd_i8_u1 by (unfold i8; lia). cbn [bind conv]. fin s.
    + unfold reads. rewrite <- app_comm_cons. op1. rewrite rd_i16_u2 by (unfold i16; lia). cbn [bind conv]. fin s.
  - decompose [or and] H; subst; simple s.
  - destruct H as [Hx ->]. assert (x = 0 \/ x = 1) as [-> | ->] by lia; simple s.
  - decompose [or and] H; subst; simple s.
Qed.
Lemma reads_local W s pos o t i bs rest : inv W s -> enc pos W (ILocalVariable o t i) bs -> reads W s pos (ILocalVariable o t i) bs rest.
Proof.
  intros Hi [[[Hx ->]|[Hx ->]]|[Hx ->]].
  - destruct o, t; unfold reads; cbn [lty_num app]; op1; rewrite rd_u8_cons by exact Hx; cbn [bind conv]; fin s.
  - unfold reads. rewrite <- !app_comm_cons. op1. unfold rd_wide. rewrite rd_u8_cons by (destruct o, t; cbn; lia). cbn [bind].
    generalize (rd_u16_u2 i rest Hx). generalize (u2 i ++ rest). intros tl Hu.
    destruct o, t; cbn -[rd_u16]; rewrite Hu; cbn [bind conv]; fin s.
  - assert (i = 0 \/ i = 1 \/ i = 2 \/ i = 3) as Hc by lia. destruct o, t; decompose [or] Hc; subst i; simple s.
Qed.

Lemma elem_ok W s i t dim : plain_elem t -> is_class (W_pool W) i (component_name t) ->
  conv_elem md (W_pool W) i dim s = Ok (INewArray (Stat t) dim, s).
Proof.
  intros Ht Hc. unfold conv_elem, conv_class, conv_ordyn, read_ordyn, read_dynamic. rewrite (read_class_ok _ _ _ Hc).
  destruct Hc as (j & -> & _). cbn [bind option_map].
  assert (HP : wf_ty t -> component_name t = ty_text t ->
    match parse_type md (component_name t) with
    | Ok t => Ok (INewArray (Stat t) dim, with_refs s (k_refs s))
    | Err _ => Ok (INewArray (Stat (TRef (component_name t))) dim, with_refs s (k_refs s))
    | Panic k => Panic k end = Ok (INewArray (Stat t) dim, s)).
  { intros Hw ->. rewrite parse_type_text by auto. destruct s; reflexivity. }
  destruct t as [| | | | | | | |n|d t|ps r]; try (apply HP; [exact Ht|reflexivity]); [|destruct Ht]. clear HP.
  destruct Ht as (Hw & Hl & Hp). cbn [component_name]. destruct (parse_type md n) as [t|e|k] eqn:Hpt.
  - destruct (C29_accepts_prefix_partial md n t Hw (or_intror Hl) Hpt) as [H1 [r H2]]. edestruct Hp; eauto.
  - destruct s; reflexivity.
  - exfalso. destruct Hw as (cps & [Hcps Hnp] & ->). unfold parse_type in Hpt. rewrite codepoints_utf8 in Hpt by auto.
    cbn [bind] in Hpt. apply bind_panic in Hpt as [H|([t r] & _ & H)]; [|discriminate].
    apply get_type_panic in H as [_ (a & b & ->)]; [|lia]. apply Hl.
    exists (flat_map utf8 a), (flat_map utf8 b). rewrite !flat_map_app, flat_utf8_repeat. reflexivity.
Qed.
Lemma reads_newarray W s pos t dim bs rest : inv W s -> plain_elem t -> enc_newarray W (Stat t) dim bs -> reads W s pos (INewArray (Stat t) dim) bs rest.
Proof.
  intros Hi Ht [(-> & t' & k & [= <-] & Hk & ->)|[(-> & b & (i & Hr & -> & _ & Hc) & ->)|(Hd & b & (i & Hr & -> & Hc) & ->)]].
  - destruct t; try discriminate; cbn in Hk; injection Hk as <-; unfold reads; cbn [app]; op1; rewrite rd_u8_cons by lia; cbn [bind conv]; fin s.
  - unfold reads. rewrite <- app_comm_cons, app_nil_r. op1. rewrite rd_u16_u2 by (unfold u16; lia). cbn [bind conv].
    rewrite (elem_ok W s i t _ Ht Hc). fin s.
  - unfold reads. rewrite <- app_comm_cons, <- app_assoc. op1. rewrite rd_u16_u2 by (unfold u16; lia). cbn [bind app]. rewrite rd_u8_cons by exact Hd. cbn [bind conv].
    rewrite (elem_ok W s i t _ Ht Hc). fin s.
Qed.

Theorem rd_insn_ok W s pos i bs rest : inv W s -> wf_insn heap i -> readable i -> enc pos W i bs -> straight i \/ small bs ->
  reads W s pos i bs rest.
Proof.
  intros Hi Hw Hr H Hsm.
  destruct i; cbn [readable real] in Hr; try contradiction; cbn [wf_insn] in Hw.
  all: try (cbn [enc] in H; subst bs; simple s; fail).
  all: try (eapply reads_jump; eauto; fail).
  all: try (eapply reads_jsr; eauto; fail).
  all: try (destruct Hsm as [[]|Hsm]; eapply reads_table; eauto; fail).
  all: try (eapply reads_lookup; eauto; fail).
  all: try (eapply reads_local; eauto; fail).
  - (* Push *) destruct c as [d|k]; cbn [readable] in Hr; [contradiction|]. apply reads_push; auto.
  - (* CompareFloats *) destruct t, n; cbn [enc] in H; subst bs; simple s.
  - (* Array *) destruct o, t; cbn [enc] in H; subst bs; simple s.
  - (* IntOperation *) destruct t, o; cbn [enc] in H; subst bs; simple s.
  - (* FloatOperation *) destruct t, o; cbn [enc] in H; subst bs; simple s.
  - (* CheckCast *) eapply (reads_ref 192 _ (conv_ctype md (W_pool W)) _ XCheckCast ICheckCast);
      [lia|lia|lia|reflexivity|reflexivity|intros; eapply conv_ctype_ok; eauto|cbn; eauto|exact H].
  - (* InstanceOf *) eapply (reads_ref 193 _ (conv_ctype md (W_pool W)) _ XInstanceOf IInstanceOf);
      [lia|lia|lia|reflexivity|reflexivity|intros; eapply conv_ctype_ok; eauto|cbn; eauto|exact H].
  - (* NewArray *) destruct t as [d|t]; [destruct Hr|]. apply reads_newarray; auto.
  - (* Monitor *) destruct o; cbn [enc] in H; subst bs; simple s.
  - (* New *) eapply (reads_ref 187 _ (conv_class md (W_pool W)) _ XNew INew);
      [lia|lia|lia|reflexivity|reflexivity|intros; eapply conv_class_ok; eauto|cbn; eauto|exact H].
  - (* Conversion *) destruct a, b; try contradiction; cbn in H; subst bs; simple s.
  - (* ConvertInt *) destruct t; try contradiction; cbn [enc] in H; subst bs; simple s.
  - (* Return *) destruct t as [t|]; [destruct t|]; cbn [enc] in H; subst bs; simple s.
  - (* Field *) destruct o, k;
    [eapply (reads_ref 178 _ (conv_member md (W_pool W)) _ XGetStatic (IField GpGet MtStatic))
    |eapply (reads_ref 180 _ (conv_member md (W_pool W)) _ XGetField (IField GpGet MtVirtual))
    |eapply (reads_ref 179 _ (conv_member md (W_pool W)) _ XPutStatic (IField GpPut MtStatic))
    |eapply (reads_ref 181 _ (conv_member md (W_pool W)) _ XPutField (IField GpPut MtVirtual))];
      [lia|lia|lia|reflexivity|reflexivity|intros; eapply conv_member_ok; eauto|cbn; eauto|exact H
      |lia|lia|lia|reflexivity|reflexivity|intros; eapply conv_member_ok; eauto|cbn; eauto|exact H
      |lia|lia|lia|reflexivity|reflexivity|intros; eapply conv_member_ok; eauto|cbn; eauto|exact H
      |lia|lia|lia|reflexivity|reflexivity|intros; eapply conv_member_ok; eauto|cbn; eauto|exact H].
  - (* InvokeExact *) destruct k;
    [eapply (reads_ref 184 _ (conv_member md (W_pool W)) _ XInvokeStatic (IInvokeExact MtStatic))
    |eapply (reads_ref 182 _ (conv_member md (W_pool W)) _ XInvokeVirtual (IInvokeExact MtVirtual))];
      [lia|lia|lia|reflexivity|reflexivity|intros; eapply conv_member_ok; eauto|cbn; eauto|exact H
      |lia|lia|lia|reflexivity|reflexivity|intros; eapply conv_member_ok; eauto|cbn; eauto|exact H].
  - (* InvokeSpecial *) eapply (reads_ref 183 _ (conv_member md (W_pool W)) _ XInvokeSpecial IInvokeSpecial);
      [lia|lia|lia|reflexivity|reflexivity|intros; eapply conv_member_ok; eauto|cbn; eauto|exact H].
  - (* InvokeDynamic *) destruct H as (_ & b & (j & Hj & -> & HR) & ->). destruct Hw as [Hw Hm].
    destruct (dyn_at_ok W s j d Hi Hw HR) as (k & nt & d' & s' & Hk & Hp & Hrd & Hs & He & Hi' & Hsim).
    rewrite Hm in Hp. exists (IInvokeDynamic d'), s'. rewrite <- app_comm_cons, <- app_assoc. op1.
    rewrite rd_u16_u2 by (unfold u16; lia). cbn [bind]. change ([0; 0] ++ rest) with (u2 0 ++ rest).
    rewrite rd_u16_u2 by (unfold u16; lia). cbn [bind conv]. unfold read_invokedynamic. rewrite Hp, Hrd. cbn [bind].
    rewrite <- Hs. auto.
  - (* InvokeInterface *) destruct H as (Hc & b & (j & Hj & -> & HR) & ->). destruct Hw as [Hw _].
    destruct (conv_member_ok W s j m Hi Hw HR) as (m' & s' & Hm & He & Hi' & Hsim).
    exists (IInvokeInterface m' count), s'. rewrite <- app_comm_cons, <- app_assoc. op1.
    rewrite rd_u16_u2 by (unfold u16; lia). cbn [bind app]. rewrite rd_u8_cons by exact Hc. cbn [bind].
    rewrite rd_u8_cons by lia. cbn [bind conv]. rewrite Hm. cbn [bind]. repeat split; auto; apply He.
  - (* Ret *) destruct H as [[Hx ->]|[Hx ->]]; unfold reads.
    + cbn [app]. op1. rewrite rd_u8_cons by exact Hx. cbn [bind conv]. fin s.
    + rewrite <- !app_comm_cons. op1. unfold rd_wide. rewrite rd_u8_cons by lia. cbn [bind].
      rewrite rd_u16_u2 by exact Hx. cbn [bind conv]. fin s.
  - (* IntIncrement *) destruct H as [(Hx & Hv & ->)|(Hx & Hv & ->)]; unfold reads.
    + rewrite <- !app_comm_cons. op1. rewrite rd_u8_cons by exact Hx. cbn [bind]. rewrite rd_i8_u1 by exact Hv. cbn [bind conv]. fin s.
    + rewrite <- !app_comm_cons, <- app_assoc. op1. unfold rd_wide. rewrite rd_u8_cons by lia. cbn [bind].
      rewrite rd_u16_u2 by exact Hx. cbn [bind]. rewrite rd_i16_u2 by exact Hv. cbn [bind conv]. fin s.
Qed.
End ReadInsn.
