(** Properties C61-C67, C72: class files. *)
From Coq Require Import String.
From Verif Require Import Base BaseLemmas Wtf8Spec PrimModel PrimProofs PrimProps TypeModel TypeSpec CpModel CpSpec CpProofs CpProps FileSpec
  SigModel AnnModel AnnSpec AttrModel AttrSpec AttrProofs FrameModel FrameSpec InsnModel InsnSpec InsnProofs InsnProps
  CodeModel CodeSpec CodeProofs CodeWrite CodeRead CodeProps ReadProofs ClassModel ClassSpec ClassGrow ClassProofs.

(** The constant pool did not overflow; in a debug build writing fails if it
    does (C23). *)
Definition pool_fits (fuel : nat) (md : mode) (heap : Z -> option bsm) (c : class) : Prop :=
  forall b w, wr_body fuel (wenv_class md heap) c = Ok (b, w) -> count_of (w_entries w) <= 65535.

Lemma version_rt v rest : u16 (minor v) -> exists vb, wr_version v = Ok vb /\ rd_version (vb ++ rest) = Ok (v, rest).
Proof.
  intros H. destruct (C16_version_write v H) as [E _]. exists (be 2 (minor v) ++ be 2 (major_tag (maj v))). split; auto.
  rewrite <- app_assoc. destruct v as [mi ma]. cbn [minor maj] in *.
  assert (Hm : u16 (major_tag ma)) by (destruct ma; unfold u16; cbn; lia).
  unfold rd_version, rd_major. rewrite rd_u16_be by auto. cbn [bind]. rewrite rd_u16_be by auto. cbn [bind].
  destruct ma; reflexivity.
Qed.

Lemma resolve_ok W s tbl : rst_inv true W s -> W_tbl W = tbl -> len tbl < 65536 ->
  exists h, match (match tbl with [] => None | _ => Some tbl end) with Some b => bootstrap_methods b s [] | None => Ok [] end = Ok h /\
    forall k c, In (k, c) (r_refs s) -> heap_of h c = nth_error tbl (Z.to_nat k).
Proof.
  intros (H1 & _ & _ & H4) <- Hl. destruct (W_tbl W) as [|b0 tl] eqn:Et.
  - exists []. split; auto. intros k c Hin. exfalso. unfold refs_in in H4. rewrite Forall_forall in H4. specialize (H4 _ Hin eq_refl).
    destruct H1 as [_ H1]. rewrite Forall_forall in H1. destruct (H1 _ Hin) as [Hu _]. rewrite Et in H4. cbn in *. unfold u16 in Hu. lia.
  - destruct (C26_resolve s (b0 :: tl) H1 Hl) as [HR _]. destruct HR as (h & Hh & Ha & _).
    + intros b c Hin. unfold refs_in in H4. rewrite Forall_forall in H4. specialize (H4 _ Hin eq_refl). rewrite Et in H4. exact H4.
    + exists h. split; auto.
Qed.

Lemma read_same heap h W s tbl c k v : W_heap W = heap -> W_tbl W = tbl ->
  (forall k c, In (k, c) (r_refs s) -> heap_of h c = nth_error tbl (Z.to_nat k)) ->
  read_class W s (with_table c tbl) k -> cl_version c = v -> same_class heap (heap_of h) tbl c (k v).
Proof.
  intros <- <- Hh HR Hv. specialize (HR v). cbn in HR. destruct HR as (R1 & R2 & R3 & R4 & R5 & R6 & R7 & R8).
  unfold same_class. rewrite Hv. repeat split; auto. cbn [with_table cl_methods] in R7.
  eapply forall2_impl; [|exact R7]. intros m m' (A1 & A2 & A3 & A4). repeat split; auto.
  eapply forall2_impl; [|exact A4]. intros a a' H. destruct a, a'; cbn [mattr_sim same_mattr] in *; try contradiction; try congruence.
  eapply code_rel_mono; [|exact H]. intros d d' (D1 & D2 & i & b & D3 & D4 & D5 & D6). split; auto. split; auto.
  exists b. split; auto. rewrite (Hh _ _ D6). exact D5.
Qed.

(** The parts of a written class file. *)
Lemma written_parts fuel md heap c : (1 <= fuel)%nat -> wf_class heap c -> len (class_table heap c) < 65536 ->
  ((exists out, wr_classfile fuel md heap c = Ok out) \/ md = Debug /\ wr_classfile fuel md heap c = Panic POverflow) /\
  forall out, wr_classfile fuel md heap c = Ok out -> md = Debug \/ pool_fits fuel md heap c ->
  exists vb pb b1 b2, out = be 4 JVM_MAGIC ++ vb ++ pb ++ b1 ++ b2 /\
    (forall rest, rd_version (vb ++ rest) = Ok (cl_version c, rest)) /\
    forall md' rest, exists m, rd_pool md' (pb ++ rest) = Ok (m, rest) /\
      let W := world_of (wenv_class md heap) (pool_of m) (class_table heap c) in
      fmt_written W c b1 /\ table_bytes W (class_table heap c) b2.
Proof.
  intros Hfu Hw Hl. pose proof (wr_body_ok fuel md heap c Hfu Hw Hl) as HB.
  assert (Hu : u16 (minor (cl_version c))) by apply Hw. destruct (version_rt _ [] Hu) as (vb & Hvb & _).
  assert (Hrv : forall rest, rd_version (vb ++ rest) = Ok (cl_version c, rest)).
  { intros rest. destruct (version_rt _ rest Hu) as (vb' & E & H). congruence. }
  unfold wr_classfile, pool_fits. rewrite Hvb. cbn [bind]. destruct (wr_body fuel (wenv_class md heap) c) as [[b w]| |] eqn:Eb; cbn [bind].
  2:{ destruct HB. }
  2:{ destruct HB as [-> ->]. split; [auto|]. intros out H. discriminate. }
  destruct HB as (Hi & Hd & b1 & b2 & -> & HF). destruct (wr_entries_ok _ (wi_wf _ Hi)) as (es & Hes & _).
  unfold wr_pool. rewrite Hes. cbn [bind]. split; [eauto|]. intros out Hout Hfit. apply ok_inj in Hout. subst out.
  assert (Hf : fits w) by (destruct Hfit as [Hm|HP]; [auto|apply (HP _ w eq_refl)]).
  destruct (pool_roundtrip w Hi Hf) as (pb & Hpb & HR). unfold wr_pool in Hpb. rewrite Hes in Hpb. cbn [bind] in Hpb. apply ok_inj in Hpb.
  rewrite Hpb. exists vb, pb, b1, b2. split; [reflexivity|]. split; [exact Hrv|]. intros md' rest.
  destruct (HR md' rest) as (m & Hm & Hp). exists m. split; [exact Hm|]. apply HF; auto.
  - repeat split; cbn; intros; discriminate.
  - intros e i Hei. apply Hp. exact Hei.
Qed.

(** C61: a class whose bootstrap methods have no dynamic arguments and whose
    attribute list accounts for the table is read back as the same class; the
    table is its last attribute and each dynamic constant has the contents it
    had.  Missing for the full statement: see C62_refuted (attribute
    count), C63 (nested dynamic constants), and the conditions on the parts. *)
Theorem C61_roundtrip_partial : forall fuel md heap c, (1 <= fuel)%nat ->
  wf_class heap c -> len (class_table heap c) < 65536 -> count_ok heap c ->
  ((exists out, wr_classfile fuel md heap c = Ok out) \/ md = Debug /\ wr_classfile fuel md heap c = Panic POverflow) /\
  forall out, wr_classfile fuel md heap c = Ok out ->
  md = Debug \/ pool_fits fuel md heap c -> len out < 4294967296 ->
  forall md' rest, exists c' h, rd_classfile md' (out ++ rest) = Ok ((c', h), rest) /\
    same_class heap (heap_of h) (class_table heap c) c c'.
Proof.
  intros fuel md heap c Hfu Hw Hl Hc. destruct (written_parts fuel md heap c Hfu Hw Hl) as [HT HP]. split; [exact HT|].
  intros out Hout Hfit Hsm md' rest. destruct (HP out Hout Hfit) as (vb & pb & b1 & b2 & -> & Hrv & HR).
  destruct (HR md' ((b1 ++ b2) ++ rest)) as (m & Hm & HF1 & HF2).
  set (W := world_of (wenv_class md heap) (pool_of m) (class_table heap c)) in *.
  pose proof (written_members _ W c b1 b2 Hc HF1 HF2) as HFm.
  destruct (rd_members_ok md' W {| r_refs := []; r_next := 0 |} (with_table c (class_table heap c)) (b1 ++ b2) rest) as (k & s & Hk & _ & Hs & Hsim).
  { split; [split; constructor|]. split; [cbn; lia|]. split; [cbn; lia|constructor]. }
  { apply (with_table_read heap); auto. apply (table_wf _ _ Hw). }
  { exact HFm. }
  { unfold small. rewrite !len_app in *. pose proof (len_nonneg (be 4 JVM_MAGIC)). pose proof (len_nonneg vb). pose proof (len_nonneg pb). lia. }
  destruct (resolve_ok W s (class_table heap c) Hs eq_refl Hl) as (h & Hh & HA).
  exists (k (cl_version c)), h. split.
  - unfold rd_classfile. rewrite <- !app_assoc in *. rewrite rd_u32_be by (unfold u32, JVM_MAGIC; lia). cbn [bind].
    rewrite Z.eqb_refl, Hrv. cbn [bind]. rewrite Hm. cbn [bind]. change (W_pool W) with (pool_of m) in Hk. rewrite Hk. cbn [bind].
    destruct (Hsim (cl_version c)) as (_ & _ & _ & _ & _ & _ & _ & ->). cbn [with_table cl_attrs]. rewrite first_table_others.
    rewrite Hh. reflexivity.
  - exact (read_same heap h W s _ c k _ eq_refl eq_refl HA Hsim eq_refl).
Qed.

Definition ex_bsm : bsm := {| b_handle := {| h_kind := InvokeStatic; h_member := {| m_owner := [65]; m_name := [98];
  m_desc := TMethod [] (Some TInt); m_itfs := false |} |}; b_args := [] |}.
Definition ex_class (n : nat) (attrs : list cattr) : class := {|
  cl_version := {| minor := 0; maj := J8 |}; cl_access := 33; cl_name := [65]; cl_super := Some [66]; cl_itfs := [[67]];
  cl_fields := [{| f_access := 1; f_name := [102]; f_desc := TLong; f_attrs := [FDeprecated] |}];
  cl_methods := [{| me_access := 9; me_name := [109]; me_desc := TMethod [] None;
    me_attrs := [MCode {| cd_stack := 2; cd_locals := 1; cd_code := repeat ex_indy n ++ [IReturn None];
                          cd_catches := []; cd_attrs := [] |}] |}];
  cl_attrs := attrs |}.
Lemma ex_bsm_static : wf_static ex_bsm.
Proof.
  split; [|constructor]. split; [|split; [cbn; lia|constructor]]. cbn [ex_bsm b_handle h_member].
  split; [ascii|]. split; [ascii|]. split; [|reflexivity]. split; [split; [cbn; repeat constructor|ascii]|cbn; constructor].
Qed.
Lemma ex_class_wf n attrs : (n < 100)%nat -> len attrs < 65536 -> Forall wf_class_attr attrs -> wf_class ex_heap (ex_class n attrs).
Proof.
  intros Hn Hl Ha. unfold wf_class, ex_class. cbn [cl_version cl_access cl_name cl_super cl_itfs cl_fields cl_methods cl_attrs minor].
  split; [unfold u16; lia|]. split; [split; [unfold u16; lia|reflexivity]|]. split; [ascii|]. split; [cbn; ascii|].
  split; [split; [cbn; lia|repeat constructor; ascii]|].
  split; [split; [cbn; lia|]|split; [split; [cbn; lia|]|split; [auto|]]].
  - constructor; [|constructor]. split; [split; [cbn; unfold u16; lia|reflexivity]|]. split; [cbn; ascii|].
    split; [split; [exact I|ascii]|]. split; [cbn; lia|]. repeat constructor.
  - constructor; [|constructor]. split; [split; [cbn; unfold u16; lia|reflexivity]|]. split; [cbn; ascii|].
    split; [split; [cbn; repeat constructor|ascii]|]. split; [cbn; lia|]. constructor; [|constructor]. cbn [wf_mattr].
    assert (HL : labels_in (repeat ex_indy n ++ [IReturn None]) = []).
    { clear. unfold labels_in. induction n; cbn; auto. }
    assert (HT : Forall (fun i => wf_insn ex_heap i /\ sound i /\ wf_switch i /\ incl (targets i) []) (repeat ex_indy n ++ [IReturn None])).
    { apply Forall_app. split; [apply Forall_forall; intros i Hi; apply repeat_spec in Hi; subst; split; [apply ex_indy_wf|]|
        repeat constructor]; cbn; auto; try (intros ? []). repeat split; intros ? []. }
    split; [|split].
    + repeat split; cbn [cd_stack cd_locals cd_code cd_catches cd_attrs]; try (unfold u16; lia); try (cbn; lia); try constructor.
      * rewrite HL. constructor.
      * rewrite HL. exact HT.
    + apply in_range_small; cbn [cd_code].
      * clear - Hn. enough (room (repeat ex_indy n ++ [IReturn None]) = 5 * Z.of_nat n + 1) by lia.
        clear. induction n as [|n IH]; [reflexivity|]. cbn [repeat app room]. rewrite IH. cbn. lia.
      * rewrite HL. eapply Forall_impl; [|exact HT]. intros i (_ & _ & _ & H). exact H.
    + split; [constructor|]. cbn [cd_code]. apply Forall_app. split; [apply Forall_forall; intros i Hi _; apply repeat_spec in Hi; subst|repeat constructor]; cbn; auto.
  - intros cell b. unfold ex_heap. destruct (cell =? 3); [|discriminate]. intros [= <-]. apply ex_bsm_static.
Qed.
Definition ex_attrs : list cattr := [CBootstrap [ex_bsm]; CSourceFile [115]].
Example C61_ex : let c := ex_class 2 ex_attrs in
  wf_class ex_heap c /\ len (class_table ex_heap c) < 65536 /\ count_ok ex_heap c /\ class_dyns c <> [] /\
  exists out, wr_classfile 1 Debug ex_heap c = Ok out /\ len out < 4294967296.
Proof.
  split; [apply ex_class_wf; [lia|cbn; lia|repeat constructor; try apply ex_bsm_static; cbn; ascii]|].
  split; [cbn; lia|]. split; [reflexivity|]. split; [discriminate|]. eexists. split; [vm_compute; reflexivity|]. vm_compute. reflexivity.
Qed.
Print Assumptions C61_roundtrip_partial.

(** C62: what is written is the number of elements of the attribute list; what
    follows is every attribute other than BootstrapMethods and, if there are
    bootstrap methods, one BootstrapMethods attribute. *)
Definition fmt_front : fmt class := fun W c bs =>
  fmt_pair fmt_u2 (fmt_pair fmt_class (fmt_pair (fmt_opt fmt_class) (fmt_pair (fmt_table2 fmt_class)
    (fmt_pair (fmt_table2 fmt_field) (fmt_table2 (fmt_method fmt_code)))))) W
    (cl_access c, (cl_name c, (cl_super c, (cl_itfs c, (cl_fields c, cl_methods c))))) bs.
Theorem C62_count_partial : forall fuel md heap c out, (1 <= fuel)%nat ->
  wf_class heap c -> len (class_table heap c) < 65536 ->
  wr_classfile fuel md heap c = Ok out -> md = Debug \/ pool_fits fuel md heap c ->
  (forall md' rest, exists vb pb m front bss,
    out = be 4 JVM_MAGIC ++ vb ++ pb ++ front ++ u2 (len (cl_attrs c)) ++ concat bss /\
    rd_pool md' (pb ++ rest) = Ok (m, rest) /\
    let W := world_of (wenv_class md heap) (pool_of m) (class_table heap c) in
    fmt_front W c front /\
    Forall2 (fmt_cattr W) (others (cl_attrs c) ++ match class_table heap c with [] => [] | t => [CBootstrap t] end) bss /\
    (len bss = len (cl_attrs c) <-> count_ok heap c)).
Proof.
  intros fuel md heap c out Hfu Hw Hl Hout Hfit md' rest. destruct (written_parts fuel md heap c Hfu Hw Hl) as [_ HP].
  destruct (HP out Hout Hfit) as (vb & pb & b1 & b2 & -> & Hrv & HR). destruct (HR md' rest) as (m & Hm & HF1 & HF2).
  set (W := world_of (wenv_class md heap) (pool_of m) (class_table heap c)) in *.
  unfold fmt_written, fmt_via in HF1. cbn [tuple] in HF1.
  destruct HF1 as (x1 & y1 & -> & F1 & H). cbn [fst snd] in *. destruct H as (x2 & y2 & -> & F2 & H). cbn [fst snd] in *.
  destruct H as (x3 & y3 & -> & F3 & H). cbn [fst snd] in *. destruct H as (x4 & y4 & -> & F4 & H). cbn [fst snd] in *.
  destruct H as (x5 & y5 & -> & F5 & H). cbn [fst snd] in *. destruct H as (x6 & y6 & -> & F6 & H). cbn [fst snd] in *.
  destruct H as (bss & _ & -> & HB). destruct (unless_others _ _ _ HB) as (bss' & -> & HB').
  exists vb, pb, m, (x1 ++ x2 ++ x3 ++ x4 ++ x5 ++ x6), (bss' ++ match class_table heap c with [] => [] | _ => [b2] end).
  split; [|split; [exact Hm|split; [|split]]].
  - unfold table_bytes in HF2. rewrite concat_app. destruct (class_table heap c); cbn [concat]; rewrite <- !app_assoc, ?app_nil_r; [subst b2; rewrite app_nil_r|]; reflexivity.
  - exists x1. eexists. split; [reflexivity|]. split; [exact F1|].
    exists x2. eexists. split; [reflexivity|]. split; [exact F2|]. exists x3. eexists. split; [reflexivity|]. split; [exact F3|].
    exists x4. eexists. split; [reflexivity|]. split; [exact F4|]. exists x5. eexists. split; [reflexivity|]. split; [exact F5|exact F6].
  - apply Forall2_app; auto. unfold table_bytes in HF2. destruct (class_table heap c); auto.
  - unfold count_ok. pose proof (others_tables (cl_attrs c)) as HN. pose proof (Forall2_len _ _ _ HB') as HL. cbn [tuple snd] in HL. unfold len. rewrite app_length.
    destruct (class_table heap c); cbn [length]; lia.
Qed.
Print Assumptions C62_count_partial.

(** A class with bootstrap methods, but without an attribute to account for
    them: its attributes are read up to the table, the table is left in the
    input, and no dynamic constant of the class is resolved. *)
Theorem C62_refuted : forall fuel md heap c out, (1 <= fuel)%nat ->
  wf_class heap c -> len (class_table heap c) < 65536 ->
  tables (cl_attrs c) = [] -> class_table heap c <> [] ->
  wr_classfile fuel md heap c = Ok out -> md = Debug \/ pool_fits fuel md heap c -> len out < 4294967296 ->
  forall md' rest, exists c' left, rd_classfile md' (out ++ rest) = Ok ((c', []), left ++ rest) /\ left <> [] /\
    cl_attrs c' = cl_attrs c.
Proof.
  intros fuel md heap c out Hfu Hw Hl Ht Hne Hout Hfit Hsm md' rest. destruct (written_parts fuel md heap c Hfu Hw Hl) as [_ HP].
  destruct (HP out Hout Hfit) as (vb & pb & b1 & b2 & -> & Hrv & HR).
  destruct (HR md' (b1 ++ b2 ++ rest)) as (m & Hm & HF1 & HF2).
  set (W := world_of (wenv_class md heap) (pool_of m) (class_table heap c)) in *.
  assert (Hc0 : length (tables (cl_attrs c)) = 0%nat) by (rewrite Ht; reflexivity).
  pose proof (written_members [] W c b1 [] Hc0 HF1 eq_refl) as HFm. rewrite app_nil_r in HFm.
  destruct (rd_members_ok md' W {| r_refs := []; r_next := 0 |} (with_table c []) b1 (b2 ++ rest)) as (k & s & Hk & _ & Hs & Hsim).
  { split; [split; constructor|]. split; [cbn; lia|]. split; [cbn; lia|constructor]. }
  { apply (with_table_read heap); auto. cbn. lia. }
  { exact HFm. }
  { unfold small. rewrite !len_app in *. pose proof (len_nonneg (be 4 JVM_MAGIC)). pose proof (len_nonneg vb). pose proof (len_nonneg pb). pose proof (len_nonneg b2). lia. }
  exists (k (cl_version c)), b2. destruct (Hsim (cl_version c)) as (_ & _ & _ & _ & _ & _ & _ & HA). cbn [with_table cl_attrs] in HA.
  split; [|split].
  - unfold rd_classfile. rewrite <- !app_assoc in *. rewrite rd_u32_be by (unfold u32, JVM_MAGIC; lia). cbn [bind].
    rewrite Z.eqb_refl, Hrv. cbn [bind]. rewrite Hm. cbn [bind]. change (W_pool W) with (pool_of m) in Hk. rewrite Hk. cbn [bind].
    rewrite HA, (first_table_others _ []). reflexivity.
  - intros ->. unfold table_bytes in HF2. destruct (class_table heap c); [congruence|]. destruct HF2 as (i & body & _ & _ & H & _). discriminate.
  - rewrite HA, app_nil_r. clear - Ht. unfold others, tables in *. induction (cl_attrs c) as [|a l IH]; auto. cbn in *.
    destruct (is_table a); [discriminate|]. cbn. rewrite IH; auto.
Qed.
Example C62_ex : let c := ex_class 2 [CSourceFile [115]] in
  wf_class ex_heap c /\ len (class_table ex_heap c) < 65536 /\ tables (cl_attrs c) = [] /\ class_table ex_heap c <> [] /\
  exists out, wr_classfile 1 Debug ex_heap c = Ok out /\ len out < 4294967296.
Proof.
  split; [apply ex_class_wf; [lia|cbn; lia|repeat constructor; try apply ex_bsm_static; cbn; ascii]|].
  split; [cbn; lia|]. split; [reflexivity|]. split; [discriminate|]. eexists. split; [vm_compute; reflexivity|]. vm_compute. reflexivity.
Qed.
Print Assumptions C62_refuted.
(** The other way round: a count that is too large makes the class unreadable. *)
Theorem C62_empty_table_refuted : forall md, exists out,
  wr_classfile 1 md ex_heap (ex_class 0 [CBootstrap []]) = Ok out /\ rd_classfile md out = Err EIo.
Proof. intros []; eexists; (split; [vm_compute; reflexivity|vm_compute; reflexivity]). Qed.
Theorem C62_two_tables_refuted : forall md, exists out,
  wr_classfile 1 md ex_heap (ex_class 0 [CBootstrap [ex_bsm]; CBootstrap [ex_bsm]]) = Ok out /\ rd_classfile md out = Err EIo.
Proof. intros []; eexists; (split; [vm_compute; reflexivity|vm_compute; reflexivity]). Qed.
Print Assumptions C62_empty_table_refuted.
Print Assumptions C62_two_tables_refuted.

(** C66: whatever reading accepts, it takes a prefix of the input, it would
    have taken the same prefix had the input gone on in any other way, and it
    rejects the input cut short anywhere inside that prefix. *)
Lemma framed_classfile md : framed (rd_classfile md).
Proof.
  unfold rd_classfile. framed.
  unfold rd_members. repeat (apply framed_smap || apply framed_spair || (intros; apply framed_lift) || apply framed_svec || intros); auto with framed.
  - unfold rd_field. apply framed_vec. repeat (apply framed_map || apply framed_pair); auto with framed. apply framed_vec. apply framed_attr.
  - unfold rd_method. repeat (apply framed_smap || apply framed_spair || (intros; apply framed_lift) || apply framed_svec || intros); auto with framed. apply framed_attr.
  - apply framed_attr.
Qed.
Theorem C66_truncated_partial : forall md l c h rest, rd_classfile md l = Ok ((c, h), rest) ->
  exists used, l = used ++ rest /\ (forall rest', rd_classfile md (used ++ rest') = Ok ((c, h), rest')) /\
    (forall n, (n < length used)%nat -> exists e, rd_classfile md (firstn n used) = Err e).
Proof.
  intros md l c h rest H. destruct (framed_classfile md _ _ _ H) as (u & -> & H1 & H2). exists u. split; [auto|]. split; [auto|].
  intros n Hn. apply (H2 _ (skipn n u)); [symmetry; apply firstn_skipn|]. intros E. apply (f_equal (@length Z)) in E. rewrite skipn_length in E. cbn in E. lia.
Qed.
(** For what is written: everything is read, and every strict prefix rejected. *)
Theorem C66_written_partial : forall fuel md heap c out, (1 <= fuel)%nat ->
  wf_class heap c -> len (class_table heap c) < 65536 -> count_ok heap c ->
  wr_classfile fuel md heap c = Ok out -> md = Debug \/ pool_fits fuel md heap c -> len out < 4294967296 ->
  forall md', (exists c' h, rd_classfile md' out = Ok ((c', h), [])) /\
    forall n, (n < length out)%nat -> exists e, rd_classfile md' (firstn n out) = Err e.
Proof.
  intros fuel md heap c out Hfu Hw Hl Hc Hout Hfit Hsm md'. destruct (C61_roundtrip_partial fuel md heap c Hfu Hw Hl Hc) as [_ H].
  destruct (H out Hout Hfit Hsm md' []) as (c' & h & HR & _). rewrite app_nil_r in HR. split; [eauto|].
  destruct (C66_truncated_partial _ _ _ _ _ HR) as (u & -> & _ & HE). rewrite app_nil_r. exact HE.
Qed.
Example C66_ex : let c := ex_class 2 ex_attrs in
  wf_class ex_heap c /\ len (class_table ex_heap c) < 65536 /\ count_ok ex_heap c /\
  exists out, wr_classfile 1 Debug ex_heap c = Ok out /\ len out < 4294967296 /\
    rd_classfile Release (firstn 100 out) = Err EIo /\ is_ok (rd_classfile Release out) = true.
Proof.
  destruct C61_ex as (H1 & H2 & H3 & _ & out & H4 & H5). cbn zeta in *.
  split; [exact H1|]. split; [exact H2|]. split; [exact H3|]. exists out. split; [exact H4|]. split; [exact H5|].
  vm_compute in H4. injection H4 as <-. split; vm_compute; reflexivity.
Qed.
(** Not in general: what is counted too low is left unread. *)
Theorem C66_refuted : exists out c h left, forall md,
  wr_classfile 1 md ex_heap (ex_class 2 []) = Ok out /\ rd_classfile md out = Ok ((c, h), left) /\ left <> [].
Proof. do 4 eexists. intros []; (split; [vm_compute; reflexivity|]; split; [vm_compute; reflexivity|discriminate]). Qed.
Print Assumptions C66_truncated_partial.
Print Assumptions C66_written_partial.
Print Assumptions C66_refuted.

(** C67 *)
Theorem C67_magic : forall md l, bytes l ->
  (forall x rest, rd_classfile md l = Ok (x, rest) -> exists t, l = 202 :: 254 :: 186 :: 190 :: t) /\
  ((forall t, l <> 202 :: 254 :: 186 :: 190 :: t) -> rd_classfile md l = Err (if len l <? 4 then EIo else EInvalid)).
Proof.
  intros md l Hb. assert (H : (forall t, l <> 202 :: 254 :: 186 :: 190 :: t) -> rd_classfile md l = Err (if len l <? 4 then EIo else EInvalid)).
  { intros Hn. unfold rd_classfile. destruct (rd_u32 l) as [[m l1]| |] eqn:E.
    - cbn [bind]. unfold rd_u32 in E. pose proof (rd_u_ok 4 _ _ _ Hb E) as HO. destruct (m =? JVM_MAGIC) eqn:Em.
      + exfalso. apply Z.eqb_eq in Em. subst m. apply (Hn l1). apply HO.
      + destruct HO as (HO & _). rewrite HO, len_app. pose proof (len_nonneg l1). change (len (be 4 m)) with 4.
        destruct (4 + len l1 <? 4) eqn:E4; auto. apply Z.ltb_lt in E4. lia.
    - destruct l as [|b1 [|b2 [|b3 [|b4 t]]]]; try (inversion E; subst; reflexivity). exfalso.
      unfold rd_u32, rd_u in E. change (b1 :: b2 :: b3 :: b4 :: t) with ([b1; b2; b3; b4] ++ t) in E.
      rewrite take_app' in E by reflexivity. discriminate.
    - exfalso. destruct l as [|b1 [|b2 [|b3 [|b4 t]]]]; try discriminate.
      unfold rd_u32, rd_u in E. change (b1 :: b2 :: b3 :: b4 :: t) with ([b1; b2; b3; b4] ++ t) in E.
      rewrite take_app' in E by reflexivity. discriminate. }
  split; [|exact H]. intros x rest HR. destruct l as [|b1 [|b2 [|b3 [|b4 t]]]]; try (rewrite H in HR; [discriminate|congruence]).
  destruct (Z.eq_dec b1 202) as [->|]; [|rewrite H in HR; [discriminate|congruence]].
  destruct (Z.eq_dec b2 254) as [->|]; [|rewrite H in HR; [discriminate|congruence]].
  destruct (Z.eq_dec b3 186) as [->|]; [|rewrite H in HR; [discriminate|congruence]].
  destruct (Z.eq_dec b4 190) as [->|]; [|rewrite H in HR; [discriminate|congruence]]. eauto.
Qed.
Theorem C67_written : forall fuel md heap c out, wr_classfile fuel md heap c = Ok out ->
  exists t, out = 202 :: 254 :: 186 :: 190 :: t.
Proof.
  intros fuel md heap c out H. unfold wr_classfile in H. inv_bind H. inv_bind H. destruct v0 as [b w]. inv_bind H. apply ok_inj in H. subst out.
  eexists. reflexivity.
Qed.
Example C67_ex : rd_classfile Debug [202; 254; 190; 186; 0] = Err EInvalid /\ rd_classfile Debug [202; 254; 186] = Err EIo.
Proof. split; reflexivity. Qed.
Print Assumptions C67_magic.
Print Assumptions C67_written.

(** C64: the class that was read has its table as an attribute, and the cells
    of its dynamic constants are not known to be in it: writing it again adds
    them once more. *)
Lemma canon_dyns i : insn_dyns (canon i) = insn_dyns i.
Proof. destruct i; try reflexivity. cbn [canon]. repeat match goal with |- context [match ?x with _ => _ end] => destruct x end; reflexivity. Qed.
Lemma rel_dyns R D i i' : insn_rel R D i i' -> Forall2 D (insn_dyns i) (insn_dyns i').
Proof.
  intros H. assert (HO : forall A (Q : A -> A -> Prop) o o', ordyn_rel D Q o o' -> Forall2 D (dyn_of o) (dyn_of o')).
  { intros A Q [a|d] [a'|d']; cbn; try contradiction; auto. }
  assert (HC : canon i' = canon i -> insn_dyns i = [] -> Forall2 D (insn_dyns i) (insn_dyns i')).
  { intros E En. rewrite <- (canon_dyns i'), E, canon_dyns, En. constructor. }
  destruct i; try (apply HC; [exact H|reflexivity]); destruct i'; cbn [insn_rel insn_dyns] in *; try contradiction; eauto.
  all: decompose [and] H; eauto.
Qed.
Lemma strip_dyns is : flat_map insn_dyns (strip is) = flat_map insn_dyns is.
Proof.
  unfold strip. induction is as [|i is IH]; auto. cbn [filter flat_map]. destruct (realb i) eqn:E.
  - cbn [flat_map]. now rewrite IH.
  - rewrite IH. destruct i; try discriminate; reflexivity.
Qed.
Lemma flat_map_rel {A B} (R : A -> A -> Prop) (Q : B -> B -> Prop) f l l' :
  (forall a a', R a a' -> Forall2 Q (f a) (f a')) -> Forall2 R l l' -> Forall2 Q (flat_map f l) (flat_map f l').
Proof. intros Hf. induction 1; cbn; auto. apply Forall2_app; auto. Qed.
Lemma same_class_dyns heap heap' tbl c c' : same_class heap heap' tbl c c' -> Forall2 (same_dyn heap heap') (class_dyns c) (class_dyns c').
Proof.
  intros (_ & _ & _ & _ & _ & _ & H & _). unfold class_dyns. eapply flat_map_rel; [|exact H].
  intros m m' (_ & _ & _ & Ha). unfold method_dyns. eapply flat_map_rel; [|exact Ha].
  intros a a' Hm. destruct a, a'; cbn [same_mattr] in Hm; try contradiction; try constructor; try discriminate.
  destruct Hm as (_ & _ & HC & _). unfold code_dyns. rewrite <- (strip_dyns (cd_code c0)), <- (strip_dyns (cd_code c1)).
  eapply flat_map_rel; [|exact HC]. intros i i'. apply rel_dyns.
Qed.
Lemma same_contents heap heap' l l' : Forall2 (same_dyn heap heap') l l' ->
  contents heap' l' = contents heap l /\ len (contents heap l) = len l.
Proof.
  unfold contents. induction 1 as [|d d' l l' (_ & _ & b & H1 & H2) _ [IH1 IH2]]; [split; reflexivity|]. cbn [flat_map]. rewrite H1, H2, IH1. split; [reflexivity|].
  rewrite len_app, IH2, !len_cons. cbn. lia.
Qed.
Theorem C64_refuted : forall fuel md heap c, (1 <= fuel)%nat ->
  wf_class heap c -> len (class_table heap c) < 65536 -> count_ok heap c -> class_dyns c <> [] ->
  forall out, wr_classfile fuel md heap c = Ok out -> md = Debug \/ pool_fits fuel md heap c -> len out < 4294967296 ->
  forall md', exists c' h, rd_classfile md' out = Ok ((c', h), []) /\
    class_table (heap_of h) c' = class_table heap c ++ contents heap (class_dyns c) /\
    len (class_dyns c') = len (class_dyns c) /\
    len (class_table (heap_of h) c') = len (class_table heap c) + len (class_dyns c) /\ c' <> c.
Proof.
  intros fuel md heap c Hfu Hw Hl Hc Hne out Hout Hfit Hsm md'. destruct (C61_roundtrip_partial fuel md heap c Hfu Hw Hl Hc) as [_ H].
  destruct (H out Hout Hfit Hsm md' []) as (c' & h & HR & HS). rewrite app_nil_r in HR. exists c', h. split; [exact HR|].
  pose proof (same_class_dyns _ _ _ _ _ HS) as HD. destruct (same_contents _ _ _ _ HD) as [HC1 HC2]. pose proof (Forall2_len _ _ _ HD) as HL.
  assert (HT : class_table (heap_of h) c' = class_table heap c ++ contents heap (class_dyns c)).
  { unfold class_table at 1. rewrite HC1. f_equal. destruct HS as (_ & _ & _ & _ & _ & _ & _ & ->). rewrite flat_map_app.
    replace (flat_map _ (others (cl_attrs c))) with (@nil bsm).
    - destruct (class_table heap c); cbn; rewrite ?app_nil_r; reflexivity.
    - unfold others. clear. induction (cl_attrs c) as [|a l IH]; auto. cbn. destruct a; cbn; auto. }
  split; [exact HT|]. split; [unfold len; congruence|]. rewrite HT, len_app, HC2. split; [reflexivity|].
  intros ->. destruct HS as (_ & _ & _ & _ & _ & _ & _ & HA).
  assert (HI : flat_map (fun a => match a with CBootstrap b => b | _ => [] end) (cl_attrs c) = class_table heap c).
  { rewrite HA, flat_map_app. replace (flat_map _ (others (cl_attrs c))) with (@nil bsm).
    - destruct (class_table heap c); cbn; rewrite ?app_nil_r; reflexivity.
    - unfold others. clear. induction (cl_attrs c) as [|a l IH]; auto. cbn. destruct a; cbn; auto. }
  apply (f_equal (@len bsm)) in HI. unfold class_table in HI. rewrite len_app, HC2 in HI.
  destruct (class_dyns c); [congruence|]. rewrite len_cons in HI. pose proof (len_nonneg l). lia.
Qed.
Print Assumptions C64_refuted.
(** Twice around: three entries, where the class had two. *)
Example C64_ex : let c := ex_class 2 ex_attrs in forall md, exists out1 c1 h1 out2 c2 h2,
  wr_classfile 1 md ex_heap c = Ok out1 /\ rd_classfile md out1 = Ok ((c1, h1), []) /\
  wr_classfile 1 md (heap_of h1) c1 = Ok out2 /\ rd_classfile md out2 = Ok ((c2, h2), []) /\
  len (class_table ex_heap c) = 3 /\ len (class_table (heap_of h1) c1) = 5 /\ len (class_table (heap_of h2) c2) = 7 /\
  len out2 = len out1 + 8.
Proof.
  intros c []; do 6 eexists; (split; [vm_compute; reflexivity|]; split; [vm_compute; reflexivity|]; split; [vm_compute; reflexivity|];
    split; [vm_compute; reflexivity|]; split; [vm_compute; reflexivity|]; split; [vm_compute; reflexivity|]; split; vm_compute; reflexivity).
Qed.

(** Without code there are no dynamic constants; then one round gives a class
    that further rounds do not change, nor do they change the bytes. *)
Definition codeless (c : class) : Prop :=
  Forall (fun m => Forall (fun a => match a with MCode _ => False | _ => True end) (me_attrs m)) (cl_methods c).
Definition rewrite_file (fuel : nat) (md md' : mode) (l : list Z) : res (list Z) :=
  '((c, h), _) <- rd_classfile md' l ;; wr_classfile fuel md (heap_of h) c.
Lemma codeless_dyns c : codeless c -> class_dyns c = [].
Proof.
  unfold codeless, class_dyns. induction 1 as [|m ms Hm _ IH]; auto. cbn. rewrite IH, app_nil_r. unfold method_dyns.
  induction Hm as [|a l Ha _ IHl]; auto. cbn. rewrite IHl, app_nil_r. destruct a; auto. contradiction.
Qed.
Lemma codeless_same heap heap' tbl c c' : codeless c -> same_class heap heap' tbl c c' -> c' = with_table c tbl.
Proof.
  intros Hn (E1 & E2 & E3 & E4 & E5 & E6 & E7 & E8). destruct c, c'. unfold with_table, codeless in *. cbn in *. subst. f_equal.
  induction E7 as [|m m' l l' (A1 & A2 & A3 & A4) _ IH]; auto. apply Forall_inv_tail in Hn as Ht. apply Forall_inv in Hn. f_equal; auto.
  destruct m, m'. cbn in *. subst. f_equal. clear - Hn A4. induction A4 as [|a a' l l' Ha _ IH]; auto. inversion Hn; subst.
  f_equal; auto. destruct a, a'; cbn in Ha; try contradiction; congruence.
Qed.
Lemma unless_same E l w : wr_each wr_cattr_unless_bsm E (others l) w = wr_each wr_cattr_unless_bsm E l w.
Proof.
  unfold others. revert w. induction l as [|a l IH]; intros w; [reflexivity|]. cbn [filter].
  destruct a; cbn [is_table negb wr_each]; try (destruct (wr_cattr_unless_bsm E _ w) as [[? ?]| |]; cbn [bind]; try reflexivity; now rewrite IH).
  cbn [wr_cattr_unless_bsm bind]. rewrite IH. destruct (wr_each wr_cattr_unless_bsm E l w) as [[? ?]| |]; reflexivity.
Qed.
