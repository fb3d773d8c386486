(** Properties of stack map frames and of type annotations in code: C44, C45,
    the frame part of C18 and the code part of C41. *)
From Verif Require Import Base BaseLemmas Wtf8Spec PrimModel PrimProofs TypeModel TypeSpec CpModel CpSpec CpProofs CpProps
  FileSpec AnnModel AnnSpec AnnProofs AnnProps AttrModel AttrSpec AttrProofs AttrProps FrameModel FrameSpec FrameProofs.

(** What [f] wrote is [F], and reading it with any label table gives something
    equal up to the names of labels: [sim] relates labels of the same offset,
    and [cst_ok] says different offsets have different labels. *)
Definition label_exact {A} (f : cwr A) (r : pool -> srd cst A) (F : fmt A) (inv : world -> cst -> Prop)
  (sim : world -> cst -> A -> A -> Prop) (E : wenv) (a : A) : Prop :=
  writes f E a /\
  forall bs p tbl, in_file f E a bs p tbl ->
    F (world_of E p tbl) a bs /\
    (len bs < 4294967296 -> forall s rest, cst_ok s -> inv (world_of E p tbl) s ->
     exists a' s', r p s (bs ++ rest) = Ok ((a', s'), rest) /\ cst_ok s' /\ cst_ext s s' /\
       sim (world_of E p tbl) s' a a').
Lemma label_exact_intro {A} (f : cwr A) (r : pool -> srd cst A) P F inv sim E a :
  wr_ok f P F -> srd_ok (fun W s => cst_ok s /\ inv W s) cst_ext r (P E) F sim -> P E a ->
  label_exact f r F inv sim E a.
Proof.
  intros Hf Hr HP. split; [eapply wr_ok_writes; eauto|].
  intros bs p tbl H. pose proof (wr_ok_file _ _ _ _ _ _ _ _ Hf HP H) as HF. split; auto.
  intros Hs s rest Hc Hi. destruct (Hr (world_of E p tbl) s a bs rest (conj Hc Hi) HP HF Hs) as (a' & s' & H1 & H2 & [H3 _] & H4).
  exists a', s'. auto.
Qed.

(** * C44 *)
Theorem C44_frame_roundtrip : forall E f, wf_frame E f ->
  label_exact wr_frame rd_frame (fun W f bs => fmt_frame W (swap_frame f) bs) (fun _ _ => True) frame_sim E f.
Proof.
  intros E f Hf. apply (label_exact_intro _ _ wf_frame); auto using wr_frame_ok.
  apply rd_frame_ok.
  - intros W s [H _]. exact H.
  - intros W s l off [H _] Ho _. split; auto. apply (get_label_ok off s H Ho).
Qed.
(** JVMS 4.7.4, as long as no long or double is involved (C45). *)
Theorem C44_frame_jvms_partial : forall E f bs p tbl, wf_frame E f ->
  ~ In VtLong (vtypes_of f) -> ~ In VtDouble (vtypes_of f) ->
  in_file wr_frame E f bs p tbl -> fmt_frame (world_of E p tbl) f bs.
Proof.
  intros E f bs p tbl Hf Hl Hd H. destruct (C44_frame_roundtrip E f Hf) as [_ HR]. destruct (HR bs p tbl H) as [HF _].
  replace (swap_frame f) with f in HF; auto.
  assert (HS : forall vs, (forall v, In v vs -> v <> VtLong /\ v <> VtDouble) -> map swap_v vs = vs).
  { induction vs as [|v vs IH]; intros HH; auto. cbn. f_equal; [|apply IH; intros; apply HH; cbn; auto].
    destruct (HH v) as [H1 H2]; cbn; auto. destruct v; cbn; congruence. }
  assert (HV : forall v, In v (vtypes_of f) -> v <> VtLong /\ v <> VtDouble) by (intros v Hv; split; intros ->; auto).
  destruct f; cbn in *; auto.
  - f_equal. destruct (HV v); auto. destruct v; cbn; congruence.
  - rewrite HS; auto.
  - rewrite !HS; auto; intros; apply HV; apply in_app_iff; auto.
Qed.
(** Frames outside the format are refused, except these: appending no locals is
    written as another frame. *)
Theorem C44_refuses : forall E w d,
  (forall k, ~ 1 <= k <= 3 -> wr_frame E (FChop d k) w = Err EInvalid) /\
  (forall vs, 3 < len vs -> wr_frame E (FAppend d vs) w = Err EInvalid).
Proof.
  intros E w d. split; intros x H; cbn [wr_frame].
  - destruct ((1 <=? x) && (x <=? 3)) eqn:C; auto. lia.
  - destruct (len x <=? 3) eqn:C; auto. lia.
Qed.
Theorem C44_empty_append_refuted : forall E w d p s rest, u16 d ->
  exists bs, wr_frame E (FAppend d []) w = Ok (bs, w) /\
    rd_frame p s (bs ++ rest) = Ok ((FSame d, s), rest).
Proof.
  intros E w d p s rest Hd. eexists. split; [reflexivity|].
  change (be 1 (len (@nil vtype) + 251)) with [251]. rewrite app_nil_r, be2_u2. cbn [app].
  unfold rd_frame. rewrite rd_u8_cons by lia. cbn [bind Z.leb Z.eqb Z.compare Pos.compare Pos.compare_cont Pos.eqb].
  rewrite rd_u16_u2 by auto. reflexivity.
Qed.
(** Reserved tags are rejected (JVMS: 128-246). *)
Theorem C44_reserved : forall p s t rest, 128 <= t <= 246 -> rd_frame p s (t :: rest) = Err EInvalid.
Proof.
  intros p s t rest Ht. unfold rd_frame. rewrite rd_u8_cons by lia. cbn [bind].
  assert (t <=? 63 = false) as -> by lia. assert (t <=? 127 = false) as -> by lia. assert (t <=? 246 = true) as -> by lia. auto.
Qed.
(** Labels 5 and 6 at offsets 10 and 300. *)
Definition ex_env : wenv :=
  {| we_md := Debug; we_heap := fun _ => None;
     we_label := fun l => if l =? 5 then Ok 10 else if l =? 6 then Ok 300 else Panic PUnwrap;
     we_catch := fun c => if c_start c =? 5 then Ok (Some 0) else Ok None |}.
Definition ex_frame : frame := FFull 7 [VtObject [65]; VtNew 6; VtInt] [VtNew 5; VtTop; VtLong].
Example C44_ex : wf_frame ex_env ex_frame /\
  exists p tbl, in_file wr_frame ex_env ex_frame [255; 0;7; 0;3; 7;0;2; 8;1;44; 1; 0;3; 8;0;10; 0; 3] p tbl.
Proof.
  split.
  - split; [|unfold u16; cbn; lia]. repeat constructor; cbn; try ascii.
    + exists 300. unfold u16. split; [auto|lia].
    + exists 10. unfold u16. split; [auto|lia].
  - file_eval.
Qed.
Example C44_jvms_ex : wf_frame ex_env (FAppend 300 [VtNew 6; VtFloat]) /\
  exists p tbl, in_file wr_frame ex_env (FAppend 300 [VtNew 6; VtFloat]) [253; 1;44; 8;1;44; 2] p tbl.
Proof.
  split; [|file_eval]. split; [|unfold u16; cbn; lia]. repeat constructor; cbn. exists 300. unfold u16. split; [auto|lia].
Qed.
Print Assumptions C44_frame_roundtrip.
Print Assumptions C44_frame_jvms_partial.
Print Assumptions C44_refuses.
Print Assumptions C44_empty_append_refuted.
Print Assumptions C44_reserved.

(** * C45 *)
Theorem C45_long_double_refuted : forall E w W,
  wr_vtype E VtLong w = Ok ([3], w) /\ ~ fmt_vtype W VtLong [3] /\ fmt_vtype W VtDouble [3] /\
  wr_vtype E VtDouble w = Ok ([4], w) /\ ~ fmt_vtype W VtDouble [4] /\ fmt_vtype W VtLong [4].
Proof. intros. repeat split; cbn; discriminate. Qed.
Theorem C45_tags_partial : forall E v bs p tbl, wf_vtype E v -> v <> VtLong -> v <> VtDouble ->
  in_file wr_vtype E v bs p tbl -> fmt_vtype (world_of E p tbl) v bs.
Proof.
  intros E v bs p tbl Hv Hl Hd H. pose proof (wr_ok_file _ _ _ _ _ _ _ _ wr_vtype_ok Hv H) as HF.
  unfold fmt_swapped in HF. destruct v; cbn [swap_v] in HF; auto; congruence.
Qed.
Example C45_ex : wf_vtype ex_env (VtNew 6) /\ exists p tbl, in_file wr_vtype ex_env (VtNew 6) [8; 1; 44] p tbl.
Proof. split; [|file_eval]. exists 300. unfold u16. split; [auto|lia]. Qed.
(** Reading them; the two are exchanged here as well. *)
Theorem C45_reads_partial : forall W s v bs rest, cst_ok s -> match v with VtObject c => jstr c | _ => True end -> len bs < 4294967296 ->
  v <> VtLong -> v <> VtDouble -> fmt_vtype W v bs ->
  exists v' s', rd_vtype (W_pool W) s (bs ++ rest) = Ok ((v', s'), rest) /\ vtype_sim W s' v v'.
Proof.
  intros W s v bs rest Hs Hv Hlen Hl Hd HF. unfold rd_vtype.
  destruct v; try congruence; cbn [fmt_vtype] in HF;
    try (subst bs; cbn [app]; rewrite rd_u8_cons by lia; cbn [bind Z.eqb Pos.eqb]; do 2 eexists; split; reflexivity).
  - destruct HF as (i & -> & HF). cbn [app]. rewrite rd_u8_cons by lia. cbn [bind Z.eqb Pos.eqb].
    rewrite len_cons in Hlen. rewrite (AttrProofs.rd_class_ok W c i rest) by (auto; unfold small; lia). cbn [bind]. do 2 eexists. split; reflexivity.
  - destruct HF as (i & -> & (o & Ho & Hu & ->)). cbn [app]. rewrite rd_u8_cons by lia. cbn [bind Z.eqb Pos.eqb].
    unfold rd_label. rewrite rd_u16_u2 by auto. cbn [bind].
    pose proof (get_label_ok o s Hs ltac:(unfold u16, u32 in *; lia)) as (_ & _ & _ & H2). destruct (get_label o s) as [l' s'].
    exists (VtNew l'), s'. split; [reflexivity|]. exists o. auto.
Qed.
Example C45_reads_ex : fmt_vtype (world_of ex_env (fun _ => None) []) (VtNew 6) [8; 1; 44].
Proof. exists [1; 44]. split; [reflexivity|]. exists 300. repeat split; unfold u16; lia. Qed.
Print Assumptions C45_reads_partial.
(** Tags above 8 are rejected. *)
Theorem C45_rejects : forall p s t rest, 8 < t < 256 -> rd_vtype p s (t :: rest) = Err EInvalid.
Proof.
  intros p s t rest Ht. unfold rd_vtype. rewrite rd_u8_cons by lia. cbn [bind].
  repeat match goal with |- context [t =? ?k] => assert (t =? k = false) as -> by lia end. reflexivity.
Qed.
Example C45_rejects_ex : forall p s, rd_vtype p s [9; 0; 1] = Err EInvalid.
Proof. reflexivity. Qed.
Print Assumptions C45_long_double_refuted.
Print Assumptions C45_tags_partial.
Print Assumptions C45_rejects.

(** * C18: the lists of a full frame *)
Lemma srd_times_length {S A} (r : srd S A) n : forall s l xs s' l', srd_times n r s l = Ok ((xs, s'), l') -> length xs = n.
Proof.
  induction n as [|n IH]; intros s l xs s' l'; cbn [srd_times].
  - intros [= <- _ _]. reflexivity.
  - intros H. inv_bind H. destruct v as [[a s1] l1]. inv_bind H. destruct v as [[ys s2] l2].
    inversion H; subst. apply IH in E0. cbn. congruence.
Qed.
Theorem C18_frame_refuted : forall E d ls ss w, we_md E = Release -> w_inv w -> u16 d ->
  Forall (wf_vtype E) ls -> Forall (wf_vtype E) ss -> 65535 < len ls \/ (ls = [] /\ 65535 < len ss) ->
  exists bs w', wr_frame E (FFull d ls ss) w = Ok (bs, w') /\
    forall p s s' rest rest', rd_frame p s (bs ++ rest) <> Ok ((FFull d ls ss, s'), rest').
Proof.
  intros E d ls ss w Hm Hi Hd Hl Hs Hlen. cbn [wr_frame].
  pose proof (wr_each_ok _ _ _ wr_vtype_ok E ls w Hl Hi) as H.
  destruct (wr_each wr_vtype E ls w) as [[xb w2]| |] eqn:H0; cbn in H; [|tauto|destruct H; congruence].
  destruct H as (_ & Hi2 & _ & _). cbn [bind].
  pose proof (wr_each_ok _ _ _ wr_vtype_ok E ss w2 Hs Hi2) as H.
  destruct (wr_each wr_vtype E ss w2) as [[yb w3]| |]; cbn in H; [|tauto|destruct H; congruence].
  cbn [bind]. do 2 eexists. split; [reflexivity|]. intros p s s' rest rest' Hrd.
  change (be 1 255) with [255] in Hrd. unfold rd_frame in Hrd. rewrite <- !app_assoc in Hrd.
  match type of Hrd with context [[255] ++ ?t] => change ([255] ++ t) with (255 :: t) in Hrd end. rewrite rd_u8_cons in Hrd by lia.
  cbn [bind Z.leb Z.eqb Z.compare Pos.compare Pos.compare_cont Pos.eqb] in Hrd.
  rewrite be2_u2, rd_u16_u2 in Hrd by auto. cbn [bind] in Hrd. unfold srd_vec in Hrd.
  change (rd_u 2) with rd_u16 in Hrd. cbv beta in Hrd. rewrite rd_u16_len in Hrd. cbn [bind] in Hrd.
  inv_bind Hrd. destruct v as [[ls' s1] l2]. pose proof (srd_times_length _ _ _ _ _ _ _ E0) as HL.
  destruct Hlen as [Hlen|[-> Hlen]].
  - inv_bind Hrd. destruct v as [[ss' s2] l3]. inversion Hrd; subst. unfold len in *. lia.
  - change (len (@nil vtype) mod 65536) with 0 in E0. cbn [Z.to_nat srd_times] in E0. 
    match type of E0 with Ok (_, ?x) = _ => assert (Hx : l2 = x) by congruence end. rewrite Hx in Hrd.
    cbn [wr_each] in H0. assert (xb = []) as -> by congruence. rewrite app_nil_l in Hrd. rewrite rd_u16_len in Hrd. cbn [bind] in Hrd.
    inv_bind Hrd. destruct v as [[ss' s2] l3]. inversion Hrd; subst. apply srd_times_length in E1. unfold len in *. lia.
Qed.
Example C18_frame_ex : Forall (wf_vtype ex_env) (repeat VtInt (Z.to_nat 70000)) /\ 65535 < len (repeat VtInt (Z.to_nat 70000)).
Proof.
  split.
  - apply Forall_forall. intros x Hx. apply repeat_spec in Hx. subst. exact I.
  - unfold len. rewrite repeat_length. lia.
Qed.
Print Assumptions C18_frame_refuted.

(** * C41: type annotations in code.  The reader already has the exception
    table of the file ([catches_ok]). *)
Theorem C41_code_type_annotation : forall md E a, wf_code_tannot E a ->
  label_exact wr_code_tannot (rd_code_tannot md) fmt_code_tannot catches_ok code_tannot_sim E a.
Proof.
  intros md E a Ha. apply (label_exact_intro _ _ wf_code_tannot); auto using wr_code_tannot_ok.
  apply rd_code_tannot_ok.
  - intros W s [H _]. exact H.
  - intros W s l off [H Hc] Ho _. destruct (get_label_ok off s H Ho) as (H1 & H2 & _). split; auto.
    eapply catches_ok_ext; eauto.
  - intros W s [_ H]. exact H.
Qed.
(** A catch parameter whose catch is not in the exception table loses its
    operand: what is written is no target at all. *)
Theorem C41_missing_catch_refuted : forall E c w, we_catch E c = Ok None ->
  wr_code_target E (KtCatch c) w = Ok ([0x42], w) /\
  forall W t, ~ fmt_code_target W t [0x42].
Proof.
  intros E c w H. split.
  - cbn. unfold wr_tagged, wr_catch. rewrite H. reflexivity.
  - intros W t HF. destruct t; cbn in HF; destruct HF as (b & Hb & HF); inversion Hb; subst.
    destruct HF as (i & _ & _ & HF). discriminate.
Qed.
Definition ex_catch : catch := {| c_start := 5; c_end := 6; c_handler := 6; c_type := None |}.
Definition ex_code_tannot : tannot code_target :=
  {| ta_target := KtLocal [{| lt_start := 5; lt_end := 6; lt_idx := 3 |}]; ta_path := [PArray 0];
     ta_type := TRef [65]; ta_vals := [([120], VInt 5)] |}.
Example C41_code_ex : wf_code_tannot ex_env ex_code_tannot /\
  exists p tbl, in_file wr_code_tannot ex_env ex_code_tannot
    [0x40; 0;1; 0;10; 1;34; 0;3; 1; 0;0; 0;1; 0;1; 0;2; 73;0;3] p tbl.
Proof.
  split; [|file_eval]. split; [|split; [cbn; lia|split; [|split]]].
  - cbn. split; [lia|]. repeat constructor. exists 10, 300. unfold u16; cbn. repeat split; auto; lia.
  - repeat constructor. cbn; unfold u8; lia.
  - split; [|ascii]. cbn. split; [apply wf_name; reflexivity|lia].
  - split; [cbn; lia|]. split; [repeat constructor; cbn; tauto|]. repeat constructor; cbn; try ascii; unfold i32; lia.
Qed.
Example C41_catch_ex : wf_code_target ex_env (KtCatch ex_catch) /\
  we_catch ex_env {| c_start := 6; c_end := 6; c_handler := 6; c_type := None |} = Ok None.
Proof. split; [|reflexivity]. exists 0. split; [reflexivity|unfold u16; lia]. Qed.
Print Assumptions C41_code_type_annotation.
Print Assumptions C41_missing_catch_refuted.
