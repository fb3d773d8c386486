(** C56: labels that are not defined. *)
From Coq Require Import String Permutation Sorted.
From Verif Require Import Base BaseLemmas Wtf8Spec PrimModel PrimProofs TypeModel TypeSpec CpModel CpSpec CpProofs CpProps FileSpec
  SigModel SigSpec AnnModel AnnSpec AttrModel AttrSpec AttrProofs AttrProps FrameModel FrameSpec FrameProofs
  InsnModel InsnSpec InsnProofs InsnProps CodeModel CodeSpec CodeProofs CodeWrite CodeRead CodeProps.

(** * Where labels occur *)

(** (A handler in an annotation is looked for in the exception table; its
    labels are not.) *)
Definition target_labels (t : code_target) : list Z :=
  match t with
  | KtLocal ts | KtResource ts => flat_map (fun t => [lt_start t; lt_end t]) ts
  | KtCatch _ => []
  | KtInstanceOf l | KtNew l | KtNewRef l | KtMethodRef l
  | KtCast l _ | KtNewArg l _ | KtMethodArg l _ | KtNewRefArg l _ | KtMethodRefArg l _ => [l]
  end.
Definition attr_labels (a : kattr) : list Z :=
  match a with
  | KVisible l | KInvisible l => flat_map (fun a => target_labels (ta_target a)) l
  | KLocals vs => flat_map (fun v => match v_desc v, v_sig v with None, None => [] | _, _ => [v_start v; v_end v] end) vs
  | KRaw _ => []
  end.
Definition labels_used (c : code) : list Z :=
  flat_map targets (cd_code c) ++ flat_map (fun x => [c_start x; c_end x; c_handler x]) (cd_catches c) ++
  flat_map attr_labels (cd_attrs c).

(** * Writing needs them *)
Definition needs {A} (f : cwr A) (U : A -> list Z) : Prop :=
  forall E a w r, f E a w = Ok r -> forall l, In l (U a) -> exists i, we_label E l = Ok i.
Lemma needs_each {A} (f : cwr A) U : needs f U -> needs (wr_each f) (flat_map U).
Proof.
  intros Hf E l. induction l as [|a l IH]; cbn [wr_each flat_map]; intros w r H x Hx; [destruct Hx|].
  inv_bind H. destruct v as [b w1]. inv_bind H. destruct v as [bs w2]. apply in_app_or in Hx as [Hx|Hx]; eauto.
Qed.
Lemma needs_cvec {A} k (f : cwr A) U : needs f U -> needs (wr_cvec k f) (flat_map U).
Proof.
  intros Hf E l w r H. unfold wr_cvec in H. destruct (_ <? _); [|discriminate]. inv_bind H. destruct v as [b w1]. eapply needs_each; eauto.
Qed.
Lemma needs_attr {A} n (f : cwr A) U : needs f U -> needs (wr_attr n f) U.
Proof. intros Hf E a w r H. unfold wr_attr in H. inv_bind H. destruct v as [i w1]. inv_bind H. destruct v as [b w2]. eauto. Qed.
Lemma needs_tagged {A} n (f : cwr A) U : needs f U -> needs (wr_tagged n f) U.
Proof. intros Hf E a w r H. unfold wr_tagged in H. inv_bind H. destruct v as [i w1]. eauto. Qed.
Lemma needs_label : needs wr_label (fun l => [l]).
Proof. intros E a w r H l [<-|[]]. unfold wr_label in H. inv_bind H. eauto. Qed.
Lemma needs_label_u8 : needs wr_label_u8 (fun x => [fst x]).
Proof.
  intros E a w r H l [<-|[]]. unfold wr_label_u8, wr_pair in H. inv_bind H. destruct v as [i w1]. eapply needs_label; eauto. left. auto.
Qed.
Lemma needs_lvt : needs wr_lvt (fun t => [lt_start t; lt_end t]).
Proof. intros E a w r H l Hl. unfold wr_lvt in H. inv_bind H. inv_bind H. destruct Hl as [<-|[<-|[]]]; eauto. Qed.
Lemma needs_target : needs wr_code_target target_labels.
Proof.
  intros E t w r H l Hl. destruct t; cbn [wr_code_target target_labels] in *.
  1-2: exact (needs_tagged _ _ _ (needs_cvec _ _ _ needs_lvt) _ _ _ _ H l Hl).
  1: destruct Hl.
  1-4: exact (needs_tagged _ _ _ needs_label _ _ _ _ H l Hl).
  all: exact (needs_tagged _ _ _ needs_label_u8 _ _ _ _ H l Hl).
Qed.
Lemma needs_tannot : needs wr_code_tannot (fun a => target_labels (ta_target a)).
Proof. intros E a w r H l Hl. unfold wr_code_tannot, wr_tannot in H. inv_bind H. eapply needs_target; eauto. Qed.
Lemma lv_row_needs {A} E v (t : A) r : lv_row E v t = Ok r -> forall l, In l [v_start v; v_end v] -> exists i, we_label E l = Ok i.
Proof. intros H l Hl. unfold lv_row in H. inv_bind H. inv_bind H. destruct Hl as [<-|[<-|[]]]; eauto. Qed.
Lemma lv_rows_needs E vs : forall r, lv_rows E vs = Ok r -> forall l, In l (attr_labels (KLocals vs)) -> exists i, we_label E l = Ok i.
Proof.
  induction vs as [|v vs IH]; cbn [lv_rows attr_labels flat_map]; intros r H l Hl; [destruct Hl|].
  inv_bind H. inv_bind H. inv_bind H. destruct v2 as [ds gs]. apply in_app_or in Hl as [Hl|Hl].
  - destruct (v_desc v).
    + inv_bind E0. eapply lv_row_needs; eauto.
    + destruct (v_sig v); [inv_bind E1; eapply lv_row_needs; eauto|destruct Hl].
  - eapply IH; eauto.
Qed.
Lemma wr_kattr_needs E a w r : wr_kattr E a w = Ok r -> forall l, In l (attr_labels a) -> exists i, we_label E l = Ok i.
Proof.
  intros H l Hl. destruct a; cbn [wr_kattr wr_fcattr] in H.
  - inv_bind H. exact (needs_attr _ _ _ (needs_cvec _ _ _ needs_tannot) _ _ _ _ E0 l Hl).
  - inv_bind H. exact (needs_attr _ _ _ (needs_cvec _ _ _ needs_tannot) _ _ _ _ E0 l Hl).
  - inv_bind H. eapply lv_rows_needs; eauto.
  - destruct Hl.
Qed.
Lemma wr_kattrs_needs E l : forall x w r, wr_kattrs E l x w = Ok r -> forall y, In y (flat_map attr_labels l) -> exists i, we_label E y = Ok i.
Proof.
  induction l as [|a l IH]; cbn [wr_kattrs flat_map]; intros x w r H y Hy; [destruct Hy|].
  inv_bind H. destruct v as [[b x'] w1]. inv_bind H. inv_bind H. apply in_app_or in Hy as [Hy|Hy]; [eapply wr_kattr_needs; eauto|eapply IH; eauto].
Qed.
Lemma needs_handler : needs wr_handler (fun x => [c_start x; c_end x; c_handler x]).
Proof.
  intros E x w r H l Hl. unfold wr_handler in H. inv_bind H. inv_bind H. inv_bind H. destruct Hl as [<-|[<-|[<-|[]]]]; eauto.
Qed.

(** what is known of the labels after the instructions *)
Lemma assoc_set_some {A} k k' (v : A) m : assoc Z.eqb k (assoc_set Z.eqb k' v m) <> None -> k = k' \/ assoc Z.eqb k m <> None.
Proof.
  intros H. destruct (Z.eq_dec k k'); auto. right. rewrite assoc_set_other in H; auto. apply Z.eqb_eq.
Qed.
Lemma write_insns_inv E is : forall y w y' w', write_insns E is y w = Ok (y', w') ->
  (forall l, assoc Z.eqb l (y_labels y') <> None -> assoc Z.eqb l (y_labels y) <> None \/ In l (labels_in is)) /\
  y_jumps y' = y_jumps y ++ filter jumpb is /\ length (y_bufs y') = (length (y_bufs y) + length (filter jumpb is))%nat.
Proof.
  induction is as [|i is IH]; intros y w y' w' H.
  - injection H as <- <-. cbn. rewrite app_nil_r. split; auto.
  - cbn [write_insns] in H. inv_bind H. destruct v as [y1 w1]. destruct (IH _ _ _ _ H) as (H1 & H2 & H3).
    assert (HS : (forall l, assoc Z.eqb l (y_labels y1) <> None -> assoc Z.eqb l (y_labels y) <> None \/ In l (labels_in [i])) /\
      y_jumps y1 = y_jumps y ++ filter jumpb [i] /\ length (y_bufs y1) = (length (y_bufs y) + length (filter jumpb [i]))%nat).
    { clear - E0. destruct i; cbn [write_insn] in E0;
        try (inv_bind E0; destruct v as [? w2]; injection E0 as <- <-; cbn; rewrite app_nil_r; split; auto; fail);
        try (injection E0 as <- <-; cbn; rewrite ?app_nil_r, ?app_length; cbn; split; auto; fail).
      injection E0 as <- <-. cbn [y_labels y_jumps y_bufs labels_in flat_map filter jumpb app]. rewrite app_nil_r. split; [|cbn; auto].
      intros x Hx. apply assoc_set_some in Hx as [->|Hx]; [right; left; auto|auto]. }
    destruct HS as (S1 & S2 & S3). change (i :: is) with ([i] ++ is). rewrite labels_app, filter_app, app_length, H2, S2, app_assoc. split; [|split; [auto|lia]].
    intros l Hl. destruct (H1 l Hl) as [Ha|Ha]; [destruct (S1 l Ha); auto; right; apply in_or_app; auto|right; apply in_or_app; auto].
Qed.
Lemma mapM_each {A B} (f : A -> res B) l bs : mapM f l = Ok bs -> forall a, In a l -> exists b, f a = Ok b.
Proof.
  revert bs. induction l as [|x l IH]; cbn [mapM]; intros bs H a Ha; [destruct Ha|]. inv_bind H. inv_bind H. destruct Ha as [<-|Ha]; eauto.
Qed.
Lemma resolve_needs md labels ends idx n l o : resolve md labels ends idx n l = Ok o -> assoc Z.eqb l labels <> None.
Proof. unfold resolve, find_label. destruct (assoc Z.eqb l labels); [discriminate|]. discriminate. Qed.
Lemma emit_jump_needs md labels ends idx n j x : jumpb j = true -> emit_jump md labels ends idx n j = Ok x ->
  forall l, In l (targets j) -> assoc Z.eqb l labels <> None.
Proof.
  intros Hj H l Hl. destruct j as [ | | | | | | | | | | |c l0| | | | | | | | | | | | | | | | | | | | | |l0| | | | |d low ls|d t| ]; try discriminate; cbn [targets] in Hl.
  - destruct Hl as [<-|[]]. assert (exists o, resolve md labels ends idx n l0 = Ok o) as (o & Ho); [destruct c; cbn [emit_jump] in H; inv_bind H; eauto|].
    eapply resolve_needs; eauto.
  - destruct Hl as [<-|[]]. cbn [emit_jump] in H. inv_bind H. eapply resolve_needs; eauto.
  - cbn [emit_jump] in H. inv_bind H. inv_bind H. inv_bind H. inv_bind H. destruct Hl as [<-|Hl]; [eapply resolve_needs; eauto|].
    destruct (mapM_each _ _ _ E2 l Hl) as (b & Hb). inv_bind Hb. eapply resolve_needs; eauto.
  - cbn [emit_jump] in H. inv_bind H. inv_bind H. destruct Hl as [<-|Hl]; [eapply resolve_needs; eauto|].
    apply in_map_iff in Hl as (e & <- & He). apply (Permutation_in _ (sort_keys_perm t)) in He.
    destruct (mapM_each _ _ _ E0 e He) as (b & Hb). inv_bind Hb. eapply resolve_needs; eauto.
Qed.
Lemma actual_rows labels hints js : forall bufs last r e, (length js <= length bufs)%nat -> actual labels hints js bufs last = Ok (r, e) ->
  length r = length js.
Proof.
  induction js as [|j js IH]; intros [|b bufs] last r e Hl H; cbn [actual length] in *; try lia; try (injection H as <- <-; reflexivity).
  inv_bind H. inv_bind H. destruct v0 as [r' e']. injection H as <- <-. cbn. f_equal. eapply IH; [|eauto]. lia.
Qed.
Lemma emit_jumps_needs md labels ends js : forall rows bufs x, (length js <= length rows)%nat -> (length js <= length bufs)%nat ->
  emit_jumps md labels ends js rows bufs = Ok x -> Forall (fun j => jumpb j = true) js ->
  forall l, In l (flat_map targets js) -> assoc Z.eqb l labels <> None.
Proof.
  induction js as [|j js IH]; intros [|[idx n] rows] [|b bufs] x H1 H2 H Hj l Hl; cbn [length flat_map emit_jumps] in *; try lia; try destruct Hl.
  inv_bind H. inv_bind H. inversion Hj; subst. apply in_app_or in Hl as [Hl|Hl]; [eapply emit_jump_needs; eauto|eapply (IH rows bufs); eauto; lia].
Qed.
Lemma assemble_needs md y r : length (y_bufs y) = length (y_jumps y) -> Forall (fun j => jumpb j = true) (y_jumps y) -> assemble md y = Ok r ->
  forall l, In l (flat_map targets (y_jumps y)) -> assoc Z.eqb l (y_labels y) <> None.
Proof.
  intros HL Hj H l Hl. unfold assemble in H. inv_bind H. destruct v as [rows last].
  assert (Hb : length (y_bufs y ++ [y_cur y]) = S (length (y_jumps y))) by (rewrite app_length; cbn; lia).
  apply actual_rows in E; [|lia]. destruct (y_bufs y ++ [y_cur y]) as [|b rest]; [discriminate|]. cbn in Hb. inv_bind H.
  eapply emit_jumps_needs; [| |exact E0| |]; eauto; lia.
Qed.
Lemma targets_jumps is l : In l (flat_map targets is) <-> In l (flat_map targets (filter jumpb is)).
Proof.
  induction is as [|i is IH]; [tauto|]. cbn [flat_map filter]. assert (jumpb i = false -> targets i = []) as Hi by (destruct i; cbn; auto; discriminate).
  destruct (jumpb i); cbn [flat_map]; [rewrite !in_app_iff, IH; tauto|rewrite (Hi eq_refl); exact IH].
Qed.
Lemma filter_jumps is : Forall (fun j => jumpb j = true) (filter jumpb is).
Proof. apply Forall_forall. intros i Hi. apply filter_In in Hi. tauto. Qed.

(** If code is written at all, its labels are defined. *)
Theorem C56_defined : forall E c w bs w', wr_code E c w = Ok (bs, w') -> incl (labels_used c) (labels_in (cd_code c)).
Proof.
  intros E c w bs w' H l Hl. unfold wr_code in H. inv_bind H. destruct v as [y w1]. inv_bind H. destruct v as [[n ends] body].
  inv_bind H. destruct v as [hs w2]. inv_bind H. destruct v as [[as_ x] w3]. clear H.
  destruct (write_insns_inv _ _ _ _ _ _ E0) as (HL & HJ & HB). cbn [y_new y_labels y_jumps y_bufs app length Nat.add] in HL, HJ, HB.
  enough (assoc Z.eqb l (y_labels y) <> None) as Hd by (destruct (HL l Hd) as [Hn|]; auto; destruct (Hn eq_refl)).
  assert (HE : (exists i, we_label (code_env E (y_labels y) ends (cd_catches c)) l = Ok i) -> assoc Z.eqb l (y_labels y) <> None).
  { intros (i & Hi). cbn [we_label code_env] in Hi. unfold label16 in Hi. destruct (assoc Z.eqb l (y_labels y)); [discriminate|discriminate]. }
  unfold labels_used in Hl. apply in_app_or in Hl as [Hl|Hl]; [|apply HE; apply in_app_or in Hl as [Hl|Hl]].
  - eapply assemble_needs; [|rewrite HJ; apply filter_jumps|exact E1|]; [rewrite HB, HJ; auto|]. rewrite HJ. apply (proj1 (targets_jumps _ _)). exact Hl.
  - eapply (needs_each _ _ needs_handler); eauto.
  - eapply wr_kattrs_needs; eauto.
Qed.
Example C56_defined_ex : exists bs w, wr_code ex_ienv ex_code wst_new = Ok (bs, w) /\ labels_used ex_code <> [].
Proof. destruct (wr_code ex_ienv ex_code wst_new) as [[bs w]| |] eqn:E; [exists bs, w; split; [auto|discriminate]|vm_compute in E; discriminate|vm_compute in E; discriminate]. Qed.
Print Assumptions C56_defined.

(** * The error *)
Definition calm {A} (r : res A) : Prop := match r with Ok _ => True | Err e => e = EInvalid | Panic _ => False end.
Lemma calm_bind {A B} (r : res A) (f : A -> res B) : calm r -> (forall a, r = Ok a -> calm (f a)) -> calm (bind r f).
Proof. destruct r; cbn; auto. Qed.
Lemma calm_mapM {A B} (f : A -> res B) l : (forall a, In a l -> calm (f a)) -> calm (mapM f l).
Proof.
  induction l as [|a l IH]; cbn [mapM]; intros H; [exact I|]. apply calm_bind; [apply H; left; auto|]. intros b _.
  apply calm_bind; [apply IH; intros; apply H; right; auto|]. intros bs _. exact I.
Qed.
Fixpoint sizes (js : list insn) : Z := match js with [] => 0 | j :: js => most_bytes j + sizes js end.
Fixpoint lens (bs : list (list Z)) : Z := match bs with [] => 0 | b :: bs => len b + lens bs end.
Lemma lens_nonneg bs : 0 <= lens bs.
Proof. induction bs as [|b bs IH]; cbn [lens]; [lia|]. pose proof (len_nonneg b). lia. Qed.
Lemma sizes_nonneg bs : 0 <= sizes bs.
Proof. exact (room_nn bs). Qed.
Lemma parts_room is : forall bss, Forall2 shape is bss -> let '(t, js, bs) := parts is bss in
  len t + lens bs + sizes js <= room is /\ length js = length bs.
Proof.
  induction is as [|i is IH]; intros bss H; inversion H as [|? b ? bss' [Hb _] Hs]; subst; cbn [parts room]; [cbn; auto using Z.le_refl|].
  specialize (IH bss' Hs). destruct (parts is bss') as [[t js] bs]. destruct IH as [IH1 IH2]. pose proof (len_nonneg b). pose proof (len_nonneg t).
  destruct (jumpb i); cbn [lens sizes length]; [change (len (@nil Z)) with 0; split; [lia|congruence]|rewrite len_app; split; [lia|auto]].
Qed.
Lemma lab_bounds l is : forall bss bi bo b o, Forall2 shape is bss -> 0 <= bi -> 0 <= bo -> lab l is bss bi bo = Some (b, o) ->
  0 <= b <= bi + (let '(_, js, _) := parts is bss in len js) /\ 0 <= o <= bo + room is.
Proof.
  induction is as [|i is IH]; intros bss bi bo b o H Hbi Hbo HL; inversion H as [|? x ? bss' [Hx _] Hs]; subst; cbn [lab parts room] in *; [discriminate|].
  pose proof (room_nn is) as Hr. pose proof (len_nonneg x).
  assert (Hm : 0 <= most_bytes i) by lia.
  destruct (is_label l i).
  - injection HL as <- <-. destruct (parts is bss') as [[t js] bs]. pose proof (len_nonneg js). destruct (jumpb i); rewrite ?len_cons; lia.
  - destruct (jumpb i).
    + apply IH in HL; auto; try lia. destruct (parts is bss') as [[t js] bs]. rewrite len_cons. lia.
    + apply IH in HL; auto; try lia. destruct (parts is bss') as [[t js] bs]. lia.
Qed.
Lemma jump_size_bound labels hints i j n : jumpb j = true -> jump_size labels hints i j = Ok n -> 0 <= n <= most_bytes j.
Proof.
  intros Hj H. destruct (padding_ok (i + 1)) as [Hp _].
  destruct j as [ | | | | | | | | | | |c l| | | | | | | | | | | | | | | | | | | | | |l| | | | |d low ls|d t| ]; try discriminate; cbn [jump_size most_bytes] in *.
  - destruct c; inv_bind H; apply ok_inj in H; subst n; destruct (_ <=? _); lia.
  - inv_bind H; apply ok_inj in H; subst n; destruct (_ <=? _); lia.
  - pose proof (len_nonneg ls). apply ok_inj in H; subst n. lia.
  - pose proof (len_nonneg t). apply ok_inj in H; subst n. lia.
Qed.
Lemma actual_bounds labels hints js : forall bufs last r e, Forall (fun j => jumpb j = true) js -> 0 <= last ->
  actual labels hints js bufs last = Ok (r, e) ->
  Forall (fun r => 0 <= snd r <= fst r /\ fst r <= last + lens bufs + sizes js) r.
Proof.
  induction js as [|j js IH]; intros [|b bufs] last r e Hj Hl H; cbn [actual lens sizes] in *; try (injection H as <- <-; constructor).
  inv_bind H. inv_bind H. destruct v0 as [r' e']. injection H as <- <-. inversion Hj; subst. apply jump_size_bound in E; auto.
  pose proof (len_nonneg b). pose proof (lens_nonneg bufs). pose proof (sizes_nonneg js). constructor; [cbn [fst snd]; lia|].
  eapply Forall_impl; [|eapply IH; [auto| |exact E0]; lia]. cbn. lia.
Qed.
Lemma actual_calm labels hints js : forall bufs last, (forall i j, In j js -> calm (jump_size labels hints i j)) -> calm (actual labels hints js bufs last).
Proof.
  induction js as [|j js IH]; intros [|b bufs] last H; cbn [actual]; try exact I. apply calm_bind; [apply H; left; auto|]. intros n _.
  apply calm_bind; [apply IH; intros; apply H; right; auto|]. intros [r e] _. exact I.
Qed.
Lemma emit_jumps_calm md labels ends js : forall rows bufs, (forall j r, In j js -> In r rows -> calm (emit_jump md labels ends (fst r) (snd r) j)) ->
  calm (emit_jumps md labels ends js rows bufs).
Proof.
  induction js as [|j js IH]; intros [|[idx n] rows] [|b bufs] H; cbn [emit_jumps]; try exact I.
  apply calm_bind; [apply (H j (idx, n)); left; auto|]. intros x _. apply calm_bind; [apply IH; intros; apply H; right; auto|]. intros y _. exact I.
Qed.
(** a bound that leaves no integer overflow *)
Definition roomy : Z := 536870912.
Lemma resolve_calm md labels ends idx n l : 0 <= idx <= roomy -> 0 <= n <= roomy ->
  (forall b o, assoc Z.eqb l labels = Some (b, o) -> 0 <= o <= roomy /\ exists x, buf_start ends b = Ok x /\ 0 <= x <= roomy) ->
  calm (resolve md labels ends idx n l).
Proof.
  unfold roomy. intros Hi Hn Hl. unfold resolve, find_label. destruct (assoc Z.eqb l labels) as [[b o]|]; [|reflexivity]. cbn [bind].
  destruct (Hl b o eq_refl) as (Ho & x & -> & Hx). cbn [bind]. rewrite !wrap_u_small by lia.
  unfold chk_u. change (2 ^ 32) with 4294967296. assert ((0 <=? x + o) && (x + o <? 4294967296) = true) as -> by lia. cbn [bind].
  rewrite (wrap_s_small (x + o)) by lia. rewrite (wrap_s_small idx) by lia. rewrite (wrap_s_small n) by lia.
  rewrite (wrap_s_small (x + o - idx)) by lia. rewrite chk_s_ok by (change (2 ^ (32 - 1)) with 2147483648; lia). exact I.
Qed.
Lemma emit_jump_calm md labels ends idx n j : jumpb j = true -> wf_switch j -> 0 <= idx <= roomy -> 0 <= n <= roomy -> most_bytes j <= roomy ->
  (forall l b o, assoc Z.eqb l labels = Some (b, o) -> 0 <= o <= roomy /\ exists x, buf_start ends b = Ok x /\ 0 <= x <= roomy) ->
  calm (emit_jump md labels ends idx n j).
Proof.
  intros Hj Hw Hi Hn Hm HL. assert (HR : forall l, calm (resolve md labels ends idx n l)) by (intros l; apply resolve_calm; [auto|auto|exact (HL l)]).
  destruct j as [ | | | | | | | | | | |c l| | | | | | | | | | | | | | | | | | | | | |l| | | | |d low ls|d t| ]; try discriminate; cbn [wf_switch most_bytes] in *.
  - assert (HC : forall (f : Z -> res (list Z)), (forall o, calm (f o)) -> calm (o <- resolve md labels ends idx n l ;; f o)) by (intros f Hf; apply calm_bind; auto).
    destruct c; cbn [emit_jump jcond_neg]; apply HC; intros o; try exact I; destruct (fits_i16 o); exact I.
  - cbn [emit_jump]. apply calm_bind; [auto|]. intros o _. exact I.
  - cbn [emit_jump]. apply calm_bind; [auto|]. intros o _. unfold roomy in Hm. unfold chk_u. change (2 ^ 64) with 18446744073709551616.
    assert ((0 <=? len ls - 1) && (len ls - 1 <? 18446744073709551616) = true) as -> by lia. cbn [bind]. rewrite wrap_s_small by lia.
    rewrite chk_s_ok by (change (2 ^ (32 - 1)) with 2147483648; lia). cbn [bind]. apply calm_bind; [|intros; exact I].
    apply calm_mapM. intros l _. apply calm_bind; [auto|]. intros; exact I.
  - cbn [emit_jump]. apply calm_bind; [auto|]. intros o _. apply calm_bind; [|intros; exact I]. apply calm_mapM. intros e _. apply calm_bind; [auto|]. intros; exact I.
Qed.
Lemma sizes_in j js : In j js -> most_bytes j <= sizes js.
Proof.
  induction js as [|x js IH]; intros H; [destruct H|]. cbn [sizes]. pose proof (sizes_nonneg js). pose proof (room_nn [x]) as Hx. cbn [room] in Hx.
  destruct H as [->|H]; [lia|]. specialize (IH H). lia.
Qed.
Lemma assemble_calm md is bss : Forall2 shape is bss -> NoDup (labels_in is) -> Forall wf_switch is -> room is < roomy ->
  calm (assemble md (y_steps is bss y_new)).
Proof.
  intros Hs Hn Hw Hr. pose proof (y_steps_parts is bss y_new Hs) as HP. pose proof (parts_room is bss Hs) as HR.
  pose proof (index_hints_ok is bss [] 0 Hs) as HI. change (0 + len (@nil Z)) with 0 in HI.
  assert (HLb : forall l b o, assoc Z.eqb l (y_labels (y_steps is bss y_new)) = Some (b, o) ->
    0 <= b <= (let '(_, js, _) := parts is bss in len js) /\ 0 <= o <= room is).
  { intros l b o H. rewrite y_steps_labels in H by auto. cbn [y_new y_bufs y_cur y_labels] in H. change (len (@nil (list Z))) with 0 in H. change (len (@nil Z)) with 0 in H.
    destruct (lab l is bss 0 0) as [[b' o']|] eqn:El; [|discriminate]. injection H as <- <-. apply lab_bounds in El; auto; try lia. }
  assert (HJs : let '(_, js, _) := parts is bss in incl js is /\ Forall (fun j => jumpb j = true) js).
  { clear. revert bss. induction is as [|i is IH]; intros [|b bss]; cbn [parts]; try (split; [intros x []|constructor]).
    specialize (IH bss). destruct (parts is bss) as [[t js] bs]. destruct IH as [H1 H2]. destruct (jumpb i) eqn:E.
    - split; [apply incl_cons; [left; auto|apply incl_tl; auto]|constructor; auto].
    - split; [apply incl_tl; auto|auto]. }
  destruct (parts is bss) as [[t js] bs]. cbn [y_jumps y_bufs y_cur y_new app] in HP. destruct HP as [HP1 HP2].
  destruct HR as [HR1 HR2]. destruct HJs as [HJ1 HJ2]. set (y := y_steps is bss y_new) in *. rewrite app_nil_l in HI.
  unfold assemble. rewrite HP1, HP2.
  pose proof (lens_nonneg bs). pose proof (sizes_nonneg js). pose proof (len_nonneg t).
  assert (HK : forall l b, len l = len js -> 0 <= b <= len js -> exists x, buf_start l b = Ok x /\ (x = 0 \/ In x l)).
  { intros l b Hl Hb. unfold buf_start, index. destruct (Z.eqb_spec b 0); [eauto|]. unfold len in *.
    destruct (nth_error l (Z.to_nat (b - 1))) as [x|] eqn:E; [|apply nth_error_None in E; lia]. exists x. split; auto. right. eapply nth_error_In; eauto. }
  apply calm_bind.
  - apply actual_calm. intros i j Hj. assert (HH : forall l, calm (hint_of (y_labels y) (index_hints js (t :: bs) 0) l)).
    { intros l. unfold hint_of, find_label. destruct (assoc Z.eqb l (y_labels y)) as [[b o]|] eqn:El; [|reflexivity]. cbn [bind].
      destruct (HLb l b o El) as [Hb _]. destruct (HK (index_hints js (t :: bs) 0) b) as (x & -> & _); auto; [|exact I].
      unfold len. f_equal. clear - HR2. revert t bs HR2. generalize 0. induction js as [|j js IH]; intros z t [|b bs] H; cbn [index_hints length] in *; try lia.
      f_equal. apply IH. lia. }
    rewrite Forall_forall in HJ2. specialize (HJ2 j Hj).
    destruct j as [ | | | | | | | | | | |c l| | | | | | | | | | | | | | | | | | | | | |l| | | | |d low ls|d u| ]; try discriminate; cbn [jump_size]; try exact I.
    + destruct c; apply calm_bind; auto; intros; exact I.
    + apply calm_bind; auto; intros; exact I.
  - intros [rows last] HA. cbn [lens]. pose proof (actual_bounds _ _ _ _ _ _ _ HJ2 (Z.le_refl 0) HA) as HB. cbn [lens] in HB.
    apply actual_rows in HA; [|cbn [length]; lia]. apply calm_bind; [|intros; exact I]. apply emit_jumps_calm. intros j [idx n] Hj Hrow.
    rewrite Forall_forall in HB, HJ2. pose proof (HB _ Hrow) as HBr. cbn [fst snd] in *. unfold roomy in *.
    apply emit_jump_calm; auto; unfold roomy; try lia.
    + rewrite Forall_forall in Hw. auto.
    + pose proof (sizes_in _ _ Hj). lia.
    + intros l b o El. destruct (HLb l b o El) as [Hb Ho]. split; [lia|]. destruct (HK (map fst rows) b) as (x & Hx & Hi); auto.
      { rewrite len_map. unfold len. rewrite HA. reflexivity. }
      exists x. split; auto. destruct Hi as [->|Hi]; [lia|]. apply in_map_iff in Hi as (r & <- & Hr'). specialize (HB _ Hr'). lia.
Qed.

(** A jump or switch to a label that is not defined: the error (or, in a debug
    build, the panic of the constant pool if that is full, C23). *)
Theorem C56_jumps : forall E c l, NoDup (labels_in (cd_code c)) ->
  Forall (fun i => wf_insn (we_heap E) i /\ sound i /\ wf_switch i) (cd_code c) -> room (cd_code c) < roomy ->
  In l (flat_map targets (cd_code c)) -> ~ In l (labels_in (cd_code c)) ->
  forall os is w, Forall (wf_op E) os -> run E os wst_new = Ok (is, w) ->
  wr_code E c w = Err EInvalid \/ (we_md E = Debug /\ wr_code E c w = Panic POverflow).
Proof.
  intros E c l Hn Hw Hr Hl Hd os is w Ho Hrun. pose proof (run_inv _ _ _ _ Ho Hrun) as Hi.
  assert (Hno : forall r, wr_code E c w <> Ok r).
  { intros [bs w'] H. apply Hd. apply (C56_defined _ _ _ _ _ H). unfold labels_used. apply in_or_app. auto. }
  assert (Hw' : Forall (fun i => wf_insn (we_heap E) i /\ sound i) (cd_code c)) by (eapply Forall_impl; [|exact Hw]; cbn; tauto).
  pose proof (write_insns_ok E (cd_code c) y_new w Hw' Hi) as HP. unfold wr_code in *.
  destruct (write_insns E (cd_code c) y_new w) as [[y w1]| |] eqn:EW; cbn in HP; [|destruct HP|destruct HP as [? ->]; right; auto].
  destruct HP as (_ & _ & _ & bss & -> & Hs & _). cbn [bind] in *.
  assert (Hsw : Forall wf_switch (cd_code c)) by (eapply Forall_impl; [|exact Hw]; cbn; tauto).
  pose proof (assemble_calm (we_md E) (cd_code c) bss Hs Hn Hsw Hr) as HC.
  destruct (write_insns_inv _ _ _ _ _ _ EW) as (HL & HJ & HB). cbn [y_new y_labels y_jumps y_bufs app length Nat.add] in HL, HJ, HB.
  destruct (assemble (we_md E) (y_steps (cd_code c) bss y_new)) as [r|e|] eqn:EA; cbn [calm] in HC; [|subst e; left; reflexivity|destruct HC].
  exfalso. apply Hd. destruct (HL l) as [Hx|]; auto; [|destruct (Hx eq_refl)].
  eapply assemble_needs; [|rewrite HJ; apply filter_jumps|exact EA|]; [rewrite HB, HJ; auto|]. rewrite HJ. apply (proj1 (targets_jumps _ _)). exact Hl.
Qed.
Definition ex_undef : code := {| cd_stack := 0; cd_locals := 0;
  cd_code := [ILabel 7; IJump JcAlways 7; ILookupSwitch 7 [(4, 5)]]; cd_catches := []; cd_attrs := [] |}.
Example C56_jumps_ex : NoDup (labels_in (cd_code ex_undef)) /\
  Forall (fun i => wf_insn (we_heap ex_ienv) i /\ sound i /\ wf_switch i) (cd_code ex_undef) /\ room (cd_code ex_undef) < roomy /\
  In 5 (flat_map targets (cd_code ex_undef)) /\ ~ In 5 (labels_in (cd_code ex_undef)) /\ wr_code ex_ienv ex_undef wst_new = Err EInvalid.
Proof.
  split; [repeat constructor; cbn; tauto|]. split; [repeat constructor; cbn; unfold i32; auto; try lia|]. split; [cbn; unfold roomy; lia|].
  split; [cbn; auto|]. split; [cbn; lia|reflexivity].
Qed.
Print Assumptions C56_jumps.

(** Everywhere else it is a panic. *)
Definition only (cs : list catch) (ats : list kattr) : code :=
  {| cd_stack := 0; cd_locals := 0; cd_code := [IReturn None]; cd_catches := cs; cd_attrs := ats |}.
Theorem C56_refuted : forall E w,
  (forall x, wr_code E (only [x] []) w = Panic PUnwrap) /\
  (forall v, v_desc v <> None \/ v_sig v <> None -> wr_code E (only [] [KLocals [v]]) w = Panic PUnwrap) /\
  (forall a l, ta_target a = KtNew l -> wr_code E (only [] [KVisible [a]]) wst_new = Panic PUnwrap).
Proof.
  intros E w. split; [intros x; reflexivity|]. split.
  - intros v Hv. unfold wr_code, only. cbn [cd_code cd_catches cd_attrs write_insns write_insn emit bind]. destruct (v_desc v) eqn:Ed.
    + cbn. rewrite Ed. reflexivity.
    + destruct (v_sig v) eqn:Es; [|destruct Hv; congruence]. cbn. rewrite Ed, Es. reflexivity.
  - intros [t path ty vals] l Ha. cbn [ta_target] in Ha. subst t. destruct E as [md h lb ct]. destruct md; reflexivity.
Qed.
Example C56_refuted_ex : v_desc ex_var <> None /\ ~ In (v_start ex_var) (labels_in [IReturn None]).
Proof. split; [discriminate|cbn; tauto]. Qed.
Print Assumptions C56_refuted.
