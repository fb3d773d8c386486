(** Dynamic constants among the arguments of bootstrap methods, any nesting. *)
From Coq Require Import Lia String.
From Verif Require Import Base BaseLemmas Wtf8Spec PrimModel PrimProofs TypeModel TypeSpec CpModel CpSpec CpProofs CpProps FileSpec
  SigModel AnnModel AnnSpec AttrModel AttrSpec AttrProofs FrameModel FrameSpec InsnModel InsnSpec InsnProofs InsnProps
  CodeModel CodeSpec CodeProofs CodeWrite CodeRead CodeProps ClassModel ClassSpec ClassGrow ClassProofs ClassProps ClassStable WriteSpec WriteKinds.

(** * What is written *)

(** The bootstrap methods of the dynamic constants among the arguments of [l]. *)
Definition below (heap : Z -> option bsm) (l : list bsm) : list bsm :=
  contents heap (flat_map (fun b => flat_map dyn_of (b_args b)) l).
(** The table of the file: the bootstrap methods of the members, then those
    below them, and so on.  Each comes with the list its arguments are
    numbered in, which is the next part alone and not the whole table. *)
Fixpoint places (heap : Z -> option bsm) (n : nat) (l : list bsm) : list (bsm * list bsm) :=
  match n with
  | O => []
  | S n => map (fun b => (b, below heap l)) l ++ places heap n (below heap l)
  end.
Definition file_table (heap : Z -> option bsm) (n : nat) (c : class) : list bsm :=
  map fst (places heap n (class_table heap c)).
(** As [wf_class], with dynamic arguments. *)
Definition wf_nesting (heap : Z -> option bsm) (c : class) : Prop :=
  u16 (minor (cl_version c)) /\
  flags_of ClassFlags (cl_access c) /\ jstr (cl_name c) /\ opt_ok jstr (cl_super c) /\
  wf_names (cl_itfs c) /\
  (len (cl_fields c) < 65536 /\ Forall wf_field (cl_fields c)) /\
  (len (cl_methods c) < 65536 /\
   Forall (wf_method (fun k => wf_code (wenv_class Release heap) k /\ in_range (cd_code k) /\ code_readable k)) (cl_methods c)) /\
  (len (cl_attrs c) < 65536 /\ Forall wf_class_attr (cl_attrs c)) /\
  (forall cell b, heap cell = Some b -> wf_bsm heap b).

Lemma members_nest heap md c w : wf_nesting heap c -> w_inv w ->
  post (wenv_class md heap) w (fun bs w' => later (wenv_class md heap) w' (fun W => fmt_written W c bs)) (wr_members (wenv_class md heap) c w).
Proof.
  intros (_ & H1 & H2 & H3 & H4 & H5 & [H6 H6'] & H7 & _) Hi.
  apply (wr_via_ok tuple _ _ _ (wr_pair_ok _ _ _ _ _ _ (wr_cflags_ok ClassFlags)
    (wr_pair_ok _ _ _ _ _ _ (wr_idx_ok _ _ _ ins_class_ok)
    (wr_pair_ok _ _ _ _ _ _ (wr_opt_ok _ _ _ (wr_idx_ok _ _ _ ins_class_ok))
    (wr_pair_ok _ _ _ _ _ _ (wr_list16_ok _ _ _ (wr_idx_ok _ _ _ ins_class_ok))
    (wr_pair_ok _ _ _ _ _ _ (wr_list16_ok _ _ _ wr_field_ok)
    (wr_pair_ok _ _ _ _ _ _ (wr_list16_ok _ _ _ (wr_method_ok _ _ _ wr_code_fmt))
      (wr_list16_ok _ _ _ wr_unless_ok))))))) (wenv_class md heap) c w); auto.
  refine (conj H1 (conj H2 (conj H3 (conj H4 (conj H5 (conj (conj H6 _) H7)))))).
  eapply Forall_impl; [|exact H6']. intros m. apply wf_method_mono. intros k (A & B & _). split; [|exact B].
  eapply wf_code_env; [|exact A]. reflexivity.
Qed.
Lemma table_nest heap c : wf_nesting heap c -> Forall (wf_bsm heap) (class_table heap c).
Proof.
  intros (_ & _ & _ & _ & _ & _ & _ & [_ Ha] & Hh). apply Forall_app. split; apply Forall_flat_map; rewrite Forall_forall in *.
  - intros a Hin. specialize (Ha a Hin). destruct a; auto. cbn in Ha. eapply Forall_impl; [|exact Ha]. intros. apply wf_static_bsm; auto.
  - intros d _. destruct (heap (d_cell d)) eqn:E; constructor; eauto.
Qed.
Lemma below_wf heap l : (forall cell b, heap cell = Some b -> wf_bsm heap b) -> Forall (wf_bsm heap) (below heap l).
Proof.
  intros Hh. apply Forall_forall. intros b Hb. apply arg_contents in Hb as (_ & d & _ & _ & H). eauto.
Qed.

(** * The rounds *)
Section Rounds.
Context (E : wenv) (heap : Z -> option bsm) (HE : we_heap E = heap) (Hh : forall cell b, heap cell = Some b -> wf_bsm heap b).
Definition placed (p : pool) (x : bsm * list bsm) (bs : list Z) : Prop := fmt_bsm (world_of E p (snd x)) (fst x) bs.
Lemma agrees_world p t : agrees E (world_of E p t).
Proof.
  split; [reflexivity|]. split; cbn.
  - intros l o ->. reflexivity.
  - intros k o ->. reflexivity.
Qed.
Lemma rounds_ok fuel : forall i w, w_inv w -> Forall (wf_bsm heap) (w_bsm w) -> 0 <= i ->
  i + len (places heap fuel (w_bsm w)) < 65536 ->
  match wr_rounds fuel E i w with
  | Ok (bs, i', w') => w_le (with_bsm w []) w' /\ w_inv w' /\ w_bsm w' = [] /\ (we_md E = Debug -> fits w -> fits w') /\
      i' = i + len (places heap fuel (w_bsm w)) /\
      (fits w' -> forall p, covers p w' -> exists bss, bs = concat bss /\ Forall2 (placed p) (places heap fuel (w_bsm w)) bss)
  | _ => True
  end.
Proof using HE Hh.
  induction fuel as [|fuel IH]; intros i w Hi Hw H0 Hl.
  - cbn [wr_rounds]. destruct (w_bsm w) as [|b0 v0] eqn:Ew; [|exact I].
    split; [repeat split; cbn; exists []; rewrite ?app_nil_r; auto|]. split; [auto|]. split; [auto|]. split; [auto|].
    split; [cbn; lia|]. intros _ p _. exists []. split; [reflexivity|constructor].
  - remember (w_bsm w) as tbl eqn:Etbl. cbn [wr_rounds]. rewrite <- Etbl. destruct tbl as [|b0 tl] eqn:Et.
    + assert (HP : places heap (S fuel) [] = []).
      { clear. generalize (S fuel). intros n. induction n; cbn; auto. }
      rewrite HP in *. split; [repeat split; cbn; exists []; rewrite ?app_nil_r; auto|]. split; [auto|]. split; [auto|]. split; [auto|].
      split; [cbn; lia|]. intros _ p _. exists []. split; [reflexivity|constructor].
    + rewrite <- Et in *. clear b0 tl Et. cbn [places] in *.
      assert (Hlm : len (map (fun b => (b, below heap tbl)) tbl) = len tbl) by (unfold len; rewrite map_length; reflexivity).
      rewrite len_app, Hlm in Hl. pose proof (len_nonneg tbl) as Hn. pose proof (len_nonneg (places heap fuel (below heap tbl))) as Hn'.
      unfold wrap_u. rewrite Z.mod_small by (change (2 ^ 16) with 65536; lia).
      unfold chk_u. change (2 ^ 16) with 65536.
      assert ((0 <=? i + len tbl) && (i + len tbl <? 65536) = true) as -> by lia. cbn [bind].
      pose proof (with_bsm_inv w [] Hi) as Hi1.
      pose proof (wr_each_ok wr_bsm _ _ wr_bsm_ok E tbl (with_bsm w [])) as HB. cbn beta in HB. rewrite HE in HB. specialize (HB Hw Hi1).
      pose proof (a_bsms heap E tbl (with_bsm w []) HE) as HS. fold (below heap tbl) in HS.
      destruct (wr_each wr_bsm E tbl (with_bsm w [])) as [[b w2]| |]; cbn [post bind] in *; [|exact I|exact I].
      destruct HB as (Hle2 & Hi2 & Hd2 & HF2). cbn [adds snd with_bsm w_bsm app] in HS.
      specialize (IH (i + len tbl) w2 Hi2). rewrite HS in IH. specialize (IH (below_wf heap tbl Hh) ltac:(lia) ltac:(lia)).
      destruct (wr_rounds fuel E (i + len tbl) w2) as [[[bs i'] w3]| |] eqn:Er; cbn [bind]; [|exact I|exact I].
      destruct IH as (Hle3 & Hi3 & Hb3 & Hd3 & Hi' & HF3).
      split; [|split; [exact Hi3|split; [exact Hb3|split; [auto|split]]]].
      * destruct Hle2 as ((e2 & A2) & (c2 & B2) & _). destruct Hle3 as ((e3 & A3) & (c3 & B3) & _). cbn in *. repeat split.
        -- exists (e2 ++ e3). rewrite A3, A2, app_assoc. reflexivity.
        -- exists (c2 ++ c3). rewrite B3, B2, app_assoc. reflexivity.
        -- exists []. rewrite Hb3. reflexivity.
      * rewrite len_app, Hlm. lia.
      * intros Hf p Hc. destruct (HF3 Hf p Hc) as (bss3 & -> & HB3).
        assert (Hf2 : fits w2) by (change (fits (with_bsm w2 [])); eapply fits_le; eauto).
        assert (Hc2 : covers p w2) by (change (covers p (with_bsm w2 [])); eapply covers_le; eauto).
        assert (Hlb : len (below heap tbl) <= 65536).
        { destruct fuel as [|fuel]; [|cbn [places] in Hn', Hl; rewrite len_app in Hl; pose proof (len_nonneg (places heap fuel (below heap (below heap tbl))));
            assert (len (map (fun b => (b, below heap (below heap tbl))) (below heap tbl)) = len (below heap tbl)) by (unfold len; rewrite map_length; reflexivity); lia].
          cbn [wr_rounds] in Er. rewrite HS in Er. destruct (below heap tbl); [cbn; lia|discriminate]. }
        destruct (HF2 Hf2 ltac:(rewrite HS; exact Hlb) (world_of E p (below heap tbl)) (agrees_world _ _)) as (bss2 & -> & HB2).
        { split; [exact Hc2|]. exists []. rewrite HS, app_nil_r. reflexivity. }
        exists (bss2 ++ bss3). rewrite concat_app. split; [reflexivity|]. apply Forall2_app; [|exact HB3].
        clear - HB2. revert HB2. generalize (below heap tbl). intros t HB2. induction HB2; cbn [map]; constructor; auto.
Qed.
End Rounds.

(** The whole file. *)
Lemma file_parts fuel md heap c out : wf_nesting heap c -> class_table heap c <> [] -> len (file_table heap fuel c) < 65536 ->
  wr_classfile fuel md heap c = Ok out -> md = Debug \/ pool_fits fuel md heap c ->
  exists vb pb b1 n body, out = be 4 JVM_MAGIC ++ vb ++ pb ++ b1 ++ u2 n ++ u4 (len body + 2) ++ u2 (len (file_table heap fuel c)) ++ body /\
    forall md' rest, exists m bss, rd_pool md' (pb ++ rest) = Ok (m, rest) /\ is_utf8_at (pool_of m) n (str "BootstrapMethods") /\
      fmt_written (world_of (wenv_class md heap) (pool_of m) (class_table heap c)) c b1 /\
      body = concat bss /\ Forall2 (placed (wenv_class md heap) (pool_of m)) (places heap fuel (class_table heap c)) bss.
Proof.
  intros Hw Hne Hl Hout Hfit. set (E := wenv_class md heap). assert (Hu : u16 (minor (cl_version c))) by apply Hw.
  assert (Hh : forall cell b, heap cell = Some b -> wf_bsm heap b) by apply Hw.
  destruct (version_rt _ [] Hu) as (vb & Hvb & _).
  unfold wr_classfile in Hout. rewrite Hvb in Hout. cbn [bind] in Hout. fold E in Hout. unfold pool_fits in Hfit. fold E in Hfit.
  destruct (wr_body fuel E c) as [[b w]| |] eqn:Eb; cbn [bind] in Hout; try discriminate. pose proof Eb as Eb0. unfold wr_body in Eb.
  set (w0 := with_bsm wst_new (initial_bsms (cl_attrs c))) in *.
  pose proof (members_nest heap md c w0 Hw (with_bsm_inv _ _ w_inv_new)) as HM.
  pose proof (a_members heap E c w0 eq_refl) as HG. fold E in HM.
  destruct (wr_members E c w0) as [[b1 w1]| |]; cbn [post bind] in *; try discriminate. destruct HM as (Hle1 & Hi1 & Hd1 & HF1). cbn [adds snd] in HG.
  assert (HT : w_bsm w1 = class_table heap c) by exact HG.
  assert (Hlp : len (file_table heap fuel c) = len (places heap fuel (class_table heap c))) by (unfold len, file_table; rewrite map_length; reflexivity).
  pose proof (rounds_ok E heap eq_refl Hh fuel 0 w1 Hi1) as HR. rewrite HT in HR. specialize (HR (table_nest _ _ Hw) ltac:(lia) ltac:(lia)).
  unfold ClassModel.wr_table in Eb. rewrite HT in Eb. destruct (class_table heap c) as [|t0 tl] eqn:Ect; [congruence|]. rewrite <- Ect in *. clear t0 tl Ect.
  destruct (wr_rounds fuel E 0 w1) as [[[body i'] w2]| |] eqn:Er; cbn [bind] in Eb; try discriminate.
  destruct HR as (Hle2 & Hi2 & Hb2 & Hd2 & Hi' & HF2).
  pose proof (wr_cow_ok E (str "BootstrapMethods") w2 ltac:(ascii) Hi2) as HC.
  pose proof (gw_cow E (str "BootstrapMethods") w2) as HS3.
  destruct (wr_cow E (str "BootstrapMethods") w2) as [[n w3]| |] eqn:Ec; cbn [post bind] in *; try discriminate.
  destruct HC as (Hle3 & Hi3 & Hd3 & HF3). cbn [adds snd] in HS3. rewrite Hb2 in HS3. cbn [app] in HS3.
  pose proof (len_nonneg body) as Hb.
  assert (HK : match chk_u (we_md E) 32 (wrap_u 32 (len body) + 2) with Ok k => be 4 k = u4 (len body + 2) | _ => True end).
  { unfold chk_u, wrap_u. change (2 ^ 32) with 4294967296. destruct ((0 <=? len body mod 4294967296 + 2) && (len body mod 4294967296 + 2 <? 4294967296)).
    - rewrite <- be4_u4, <- (be_mod 4 (_ + 2)), <- (be_mod 4 (len body + 2)). change (256 ^ Z.of_nat 4) with 4294967296. rewrite Z.add_mod_idemp_l by lia. reflexivity.
    - destruct (we_md E); [exact I|]. rewrite <- be4_u4, <- (be_mod 4 (len body + 2)). change (256 ^ Z.of_nat 4) with 4294967296. rewrite Z.add_mod_idemp_l by lia. reflexivity. }
  destruct (chk_u (we_md E) 32 (wrap_u 32 (len body) + 2)) as [k| |]; cbn [bind] in Eb; try discriminate.
  apply ok_inj, pair_equal_spec in Eb as [<- <-].
  destruct (wr_entries_ok _ (wi_wf _ Hi3)) as (es & Hes & _). unfold wr_pool in Hout. rewrite Hes in Hout. cbn [bind] in Hout. apply ok_inj in Hout.
  assert (Hf0 : fits w0) by (unfold fits; cbn; unfold count_of; cbn; lia).
  assert (Hf : fits w3) by (destruct Hfit as [Hm|HP]; [apply Hd3, Hd2, Hd1; auto|apply (HP _ w3 eq_refl)]).
  destruct (pool_roundtrip w3 Hi3 Hf) as (pb & Hpb & HR). unfold wr_pool in Hpb. rewrite Hes in Hpb. cbn [bind] in Hpb. apply ok_inj in Hpb.
  assert (Hf2 : fits w2) by (eapply fits_le; eauto).
  assert (Hlt : len (class_table heap c) <= 65536).
  { destruct fuel as [|f]; [|rewrite Hlp in Hl; cbn [places] in Hl; rewrite len_app in Hl; pose proof (len_nonneg (places heap f (below heap (class_table heap c))));
      assert (len (map (fun b => (b, below heap (class_table heap c))) (class_table heap c)) = len (class_table heap c)) by (unfold len; rewrite map_length; reflexivity); lia].
    cbn [wr_rounds] in Er. rewrite HT in Er. destruct (class_table heap c); [congruence|discriminate]. }
  assert (HX : exists j, 0 < j < 65536 /\ n = u2 j /\ lookup w3 (RWtf8 (str "BootstrapMethods")) = Some j).
  { pose proof (insert_raw_ok E (RWtf8 (str "BootstrapMethods")) w2 ltac:(cbn; ascii) Hi2) as HI. unfold wr_cow, wr_idx, insert_wtf8 in Ec.
    destruct (insert_raw E (RWtf8 (str "BootstrapMethods")) w2) as [[j w4]| |]; cbn [bind] in Ec; try discriminate.
    apply ok_inj, pair_equal_spec in Ec as [<- ->]. destruct HI as (_ & _ & HU & HL & H1 & _). exists j. rewrite be2_u2. unfold u16 in HU. specialize (H1 Hf).
    split; [lia|auto]. }
  destruct HX as (j & Hj & -> & Hlk).
  exists vb, pb, b1, j, body. split.
  - rewrite <- Hout, Hpb, HK, Hi', Hlp, Z.add_0_l, be2_u2. reflexivity.
  - intros md' rest. destruct (HR md' rest) as (m & Hm & Hp). exists m.
    assert (Hc3 : covers (pool_of m) w3) by (intros e i Hei; apply Hp; exact Hei).
    assert (Hc2 : covers (pool_of m) w2) by (eapply covers_le; eauto).
    destruct (HF2 Hf2 _ Hc2) as (bss & Hbss & HB). exists bss. split; [exact Hm|]. split; [apply Hc3; exact Hlk|]. split; [|split; [exact Hbss|exact HB]].
    apply HF1.
    + change (fits (with_bsm w1 [])). eapply fits_le; eauto.
    + rewrite HT. exact Hlt.
    + apply agrees_world.
    + split; [change (covers (pool_of m) (with_bsm w1 [])); eapply covers_le; eauto|]. exists []. rewrite HT, app_nil_r. reflexivity.
Qed.

(** * C63 *)

(** A table entry has two bytes for the method handle, two for the number of
    arguments and two for each argument. *)
Definition entries (T : list bsm) (body : list Z) (es : list (list Z)) : Prop :=
  body = concat es /\ Forall2 (fun b e => len e = 4 + 2 * len (b_args b)) T es.
(** The index written for argument [a] of entry [e]. *)
Definition arg_index (e : list Z) (a : nat) (i : Z) : Prop := firstn 2 (skipn (4 + 2 * a) e) = u2 i.

Lemma pairs_len {A} (R : world -> Z -> A -> Prop) W xs bss : Forall2 (fmt_idx R W) xs bss -> len (concat bss) = 2 * len xs.
Proof.
  induction 1 as [|x b xs bss (i & _ & -> & _) _ IH]; [reflexivity|]. cbn [concat]. rewrite len_app, len_cons, IH. change (len (u2 i)) with 2. lia.
Qed.
Lemma pairs_at {A} (R : world -> Z -> A -> Prop) W xs bss : Forall2 (fmt_idx R W) xs bss -> forall a x, nth_error xs a = Some x ->
  exists i, firstn 2 (skipn (2 * a) (concat bss)) = u2 i /\ R W i x.
Proof.
  induction 1 as [|x0 b xs bss (i & _ & -> & HR) _ IH]; intros a x Ha; [destruct a; discriminate|]. destruct a as [|a].
  - injection Ha as <-. exists i. split; [reflexivity|exact HR].
  - destruct (IH a x Ha) as (k & Hk & HRk). exists k. split; [|exact HRk].
    replace (2 * S a)%nat with (S (S (2 * a))) by lia. exact Hk.
Qed.
Lemma entry_args W b bs : fmt_bsm W b bs -> len bs = 4 + 2 * len (b_args b) /\
  forall a d, nth_error (b_args b) a = Some (Dyn d) -> exists i, arg_index bs a i /\ is_dyn W i d.
Proof.
  intros (h & xs & -> & (i & _ & -> & _) & (bss & _ & -> & HB)). split.
  - rewrite !len_app, (pairs_len _ _ _ _ HB). change (len (u2 i)) with 2. change (len (u2 (len (b_args b)))) with 2. lia.
  - intros a d Ha. destruct (pairs_at _ _ _ _ HB a _ Ha) as (k & Hk & HR). exists k. split; [exact Hk|exact HR].
Qed.

(** Whatever is nested how: the entries of the table are the bootstrap methods
    in [file_table], and the index written for a dynamic argument leads to a
    constant with its name and type and with the number of its bootstrap method
    in the list it was numbered in. *)
Theorem C63_numbers : forall fuel md heap c out, wf_nesting heap c -> class_table heap c <> [] -> len (file_table heap fuel c) < 65536 ->
  wr_classfile fuel md heap c = Ok out -> md = Debug \/ pool_fits fuel md heap c ->
  exists vb pb b1 n body, out = be 4 JVM_MAGIC ++ vb ++ pb ++ b1 ++ u2 n ++ u4 (len body + 2) ++ u2 (len (file_table heap fuel c)) ++ body /\
    forall md' rest, exists m es, rd_pool md' (pb ++ rest) = Ok (m, rest) /\ is_utf8_at (pool_of m) n (str "BootstrapMethods") /\
      entries (file_table heap fuel c) body es /\
      forall j b nums a d b', nth_error (places heap fuel (class_table heap c)) j = Some (b, nums) ->
        nth_error (b_args b) a = Some (Dyn d) -> heap (d_cell d) = Some b' ->
        exists e i k nt, nth_error es j = Some e /\ arg_index e a i /\
          pool_of m i = Some (if ty_is_method (d_desc d) then RInvokeDynamic k nt else RDynamic k nt) /\
          is_nametype (pool_of m) nt (d_name d) (d_desc d) /\ 0 <= k /\ nth_error nums (Z.to_nat k) = Some b'.
Proof.
  intros fuel md heap c out Hw Hne Hl Hout Hfit. destruct (file_parts fuel md heap c out Hw Hne Hl Hout Hfit) as (vb & pb & b1 & n & body & -> & HP).
  exists vb, pb, b1, n, body. split; [reflexivity|]. intros md' rest. destruct (HP md' rest) as (m & es & Hm & Hn & _ & Hb & HB).
  exists m, es. split; [exact Hm|]. split; [exact Hn|]. split.
  - split; [exact Hb|]. unfold file_table. clear - HB. induction HB as [|x e xs es H _ IH]; cbn [map]; constructor; auto. apply (entry_args _ _ _ H).
  - intros j b nums a d b' Hj Ha Hd. clear - HB Hj Ha Hd.
    assert (HE : exists e, nth_error es j = Some e /\ placed (wenv_class md heap) (pool_of m) (b, nums) e).
    { revert j Hj. induction HB as [|x e xs es H _ IH]; intros j Hj; [destruct j; discriminate|]. destruct j as [|j]; [|apply (IH j Hj)].
      injection Hj as ->. exists e. auto. }
    destruct HE as (e & He & Hp). destruct (proj2 (entry_args _ _ _ Hp) a d Ha) as (i & Hi & (b'' & Hb'' & (k & nt & Hk & H0 & Hnth & Hnt))).
    cbn in Hb''. rewrite Hd in Hb''. injection Hb'' as <-. exists e, i, k, nt. auto 8.
Qed.

(** REFUTED in general: in the file, numbers mean entries of the whole table.
    If the bootstrap method of a dynamic argument is not among as many entries
    at the front of the table as there are in its own part, the argument as
    written does not have it. *)
Theorem C63_nested_refuted : forall fuel md heap c out, wf_nesting heap c -> class_table heap c <> [] -> len (file_table heap fuel c) < 65536 ->
  wr_classfile fuel md heap c = Ok out -> md = Debug \/ pool_fits fuel md heap c ->
  exists vb pb b1 n body, out = be 4 JVM_MAGIC ++ vb ++ pb ++ b1 ++ u2 n ++ u4 (len body + 2) ++ u2 (len (file_table heap fuel c)) ++ body /\
    forall md' rest, exists m es, rd_pool md' (pb ++ rest) = Ok (m, rest) /\ is_utf8_at (pool_of m) n (str "BootstrapMethods") /\
      entries (file_table heap fuel c) body es /\
      forall j b nums a d b', nth_error (places heap fuel (class_table heap c)) j = Some (b, nums) ->
        nth_error (b_args b) a = Some (Dyn d) -> heap (d_cell d) = Some b' ->
        ~ In b' (firstn (length nums) (file_table heap fuel c)) ->
        exists e i, nth_error es j = Some e /\ arg_index e a i /\
          ~ is_dynamic (pool_of m) (file_table heap fuel c) i b' (d_name d) (d_desc d).
Proof.
  intros fuel md heap c out Hw Hne Hl Hout Hfit. destruct (C63_numbers fuel md heap c out Hw Hne Hl Hout Hfit) as (vb & pb & b1 & n & body & -> & HP).
  exists vb, pb, b1, n, body. split; [reflexivity|]. intros md' rest. destruct (HP md' rest) as (m & es & Hm & Hn & He & H).
  exists m, es. split; [exact Hm|]. split; [exact Hn|]. split; [exact He|]. intros j b nums a d b' Hj Ha Hd Hin.
  destruct (H j b nums a d b' Hj Ha Hd) as (e & i & k & nt & H1 & H2 & H3 & H4 & H5 & H6). exists e, i. split; [exact H1|]. split; [exact H2|].
  intros (k' & nt' & H3' & _ & H6' & _). assert (k' = k) as -> by (rewrite H3 in H3'; destruct (ty_is_method (d_desc d)); congruence).
  apply Hin. assert (Hlt : (Z.to_nat k < length nums)%nat) by (apply nth_error_Some; congruence).
  apply (nth_error_In _ (Z.to_nat k)). rewrite <- H6'. clear - Hlt. revert Hlt. generalize (Z.to_nat k) (length nums) (file_table heap fuel c).
  intros x y l Hxy. revert y l Hxy. induction x as [|x IH]; intros [|y] [|z l] Hxy; cbn; try lia; auto. apply IH. lia.
Qed.

(** The property for the arguments whose part the table begins with: it does
    so if the class had a BootstrapMethods attribute listing them.  Missing: all
    other nested constants, for which it is false. *)
Theorem C63_front_partial : forall fuel md heap c out, wf_nesting heap c -> class_table heap c <> [] -> len (file_table heap fuel c) < 65536 ->
  wr_classfile fuel md heap c = Ok out -> md = Debug \/ pool_fits fuel md heap c ->
  exists vb pb b1 n body, out = be 4 JVM_MAGIC ++ vb ++ pb ++ b1 ++ u2 n ++ u4 (len body + 2) ++ u2 (len (file_table heap fuel c)) ++ body /\
    forall md' rest, exists m es, rd_pool md' (pb ++ rest) = Ok (m, rest) /\ is_utf8_at (pool_of m) n (str "BootstrapMethods") /\
      entries (file_table heap fuel c) body es /\
      forall j b nums a d b', nth_error (places heap fuel (class_table heap c)) j = Some (b, nums) ->
        nth_error (b_args b) a = Some (Dyn d) -> heap (d_cell d) = Some b' ->
        (exists more, file_table heap fuel c = nums ++ more) ->
        exists e i, nth_error es j = Some e /\ arg_index e a i /\
          is_dynamic (pool_of m) (file_table heap fuel c) i b' (d_name d) (d_desc d).
Proof.
  intros fuel md heap c out Hw Hne Hl Hout Hfit. destruct (C63_numbers fuel md heap c out Hw Hne Hl Hout Hfit) as (vb & pb & b1 & n & body & -> & HP).
  exists vb, pb, b1, n, body. split; [reflexivity|]. intros md' rest. destruct (HP md' rest) as (m & es & Hm & Hn & He & H).
  exists m, es. split; [exact Hm|]. split; [exact Hn|]. split; [exact He|]. intros j b nums a d b' Hj Ha Hd (more & Hmore).
  destruct (H j b nums a d b' Hj Ha Hd) as (e & i & k & nt & H1 & H2 & H3 & H4 & H5 & H6). exists e, i. split; [exact H1|]. split; [exact H2|].
  exists k, nt. split; [exact H3|]. split; [exact H5|]. split; [|exact H4]. rewrite Hmore, nth_error_app1; [exact H6|]. apply nth_error_Some. congruence.
Qed.

(** The class of C63_refuted, without and with an attribute listing [ex_inner]. *)
Lemma ex_inner_static : wf_static ex_inner.
Proof.
  split; [|constructor]. split; [|split; [cbn; lia|constructor]]. cbn [ex_inner b_handle h_member].
  split; [ascii|]. split; [ascii|]. split; [|reflexivity]. split; [split; [cbn; repeat constructor|ascii]|cbn; constructor].
Qed.
Lemma ex_nesting n attrs : (n < 100)%nat -> len attrs < 65536 -> Forall wf_class_attr attrs -> wf_nesting ex_nest (ex_class n attrs).
Proof.
  intros Hn Hl Ha. unfold wf_nesting, ex_class. cbn [cl_version cl_access cl_name cl_super cl_itfs cl_fields cl_methods cl_attrs minor].
  split; [unfold u16; lia|]. split; [split; [unfold u16; lia|reflexivity]|]. split; [ascii|]. split; [cbn; ascii|].
  split; [split; [cbn; lia|repeat constructor; ascii]|].
  split; [split; [cbn; lia|]|split; [split; [cbn; lia|]|split; [auto|]]].
  - constructor; [|constructor]. split; [split; [cbn; unfold u16; lia|reflexivity]|]. split; [cbn; ascii|].
    split; [split; [exact I|ascii]|]. split; [cbn; lia|]. repeat constructor.
  - constructor; [|constructor]. split; [split; [cbn; unfold u16; lia|reflexivity]|]. split; [cbn; ascii|].
    split; [split; [cbn; repeat constructor|ascii]|]. split; [cbn; lia|]. constructor; [|constructor]. cbn [wf_mattr].
    assert (HL : labels_in (repeat ex_indy n ++ [IReturn None]) = []).
    { clear. unfold labels_in. induction n; cbn; auto. }
    assert (HI : wf_insn ex_nest ex_indy).
    { split; [|reflexivity]. split; [discriminate|]. split; [ascii|]. split; [split; [cbn; repeat constructor|ascii]|cbn; constructor]. }
    assert (HT : Forall (fun i => wf_insn ex_nest i /\ sound i /\ wf_switch i /\ incl (targets i) []) (repeat ex_indy n ++ [IReturn None])).
    { apply Forall_app. split; [apply Forall_forall; intros i Hi; apply repeat_spec in Hi; subst; split; [exact HI|]|
        repeat constructor]; cbn; auto; try (intros ? []). repeat split; intros ? []. }
    split; [|split].
    + repeat split; cbn [cd_stack cd_locals cd_code cd_catches cd_attrs]; try (unfold u16; lia); try (cbn; lia); try constructor.
      * rewrite HL. constructor.
      * rewrite HL. exact HT.
    + apply in_range_small; cbn [cd_code].
      * clear - Hn. enough (room (repeat ex_indy n ++ [IReturn None]) = 5 * Z.of_nat n + 1) by lia.
        clear. induction n as [|n IH]; [reflexivity|]. cbn [repeat app room]. rewrite IH. cbn. lia.
      * rewrite HL. eapply Forall_impl; [|exact HT]. intros i (_ & _ & _ & H). exact H.
    + split; [constructor|]. cbn [cd_code]. apply Forall_app. split; [apply Forall_forall; intros i Hi _; apply repeat_spec in Hi; subst|repeat constructor]; cbn; auto.
  - intros cell b H. unfold ex_nest in H. destruct (cell =? 3); [|destruct (cell =? 4); [|discriminate]]; injection H as <-.
    + split; [apply ex_bsm_static|]. split; [cbn; lia|]. constructor; [|constructor].
      split; [discriminate|]. split; [ascii|]. split; [split; [exact I|ascii]|cbn; constructor].
    + apply wf_static_bsm, ex_inner_static.
Qed.
Example C63_nested_ex : let c := ex_class 1 [CBootstrap []] in let d := {| d_cell := 4; d_name := [110]; d_desc := TInt |} in
  wf_nesting ex_nest c /\ class_table ex_nest c <> [] /\ len (file_table ex_nest 2 c) < 65536 /\
  (exists out, wr_classfile 2 Debug ex_nest c = Ok out) /\
  nth_error (places ex_nest 2 (class_table ex_nest c)) 0 = Some (ex_outer, [ex_inner]) /\ nth_error (b_args ex_outer) 0 = Some (Dyn d) /\
  ex_nest (d_cell d) = Some ex_inner /\ ~ In ex_inner (firstn (length [ex_inner]) (file_table ex_nest 2 c)).
Proof.
  cbv zeta. split; [apply ex_nesting; [lia|cbn; lia|repeat constructor]|]. split; [discriminate|]. split; [cbn; lia|].
  split; [eexists; vm_compute; reflexivity|]. do 3 (split; [reflexivity|]). cbn. intros [H|[]]. discriminate H.
Qed.
Example C63_front_ex : let c := ex_class 1 [CBootstrap [ex_inner]] in let d := {| d_cell := 4; d_name := [110]; d_desc := TInt |} in
  wf_nesting ex_nest c /\ class_table ex_nest c <> [] /\ len (file_table ex_nest 2 c) < 65536 /\
  (exists out, wr_classfile 2 Debug ex_nest c = Ok out) /\
  nth_error (places ex_nest 2 (class_table ex_nest c)) 1 = Some (ex_outer, [ex_inner]) /\ nth_error (b_args ex_outer) 0 = Some (Dyn d) /\
  ex_nest (d_cell d) = Some ex_inner /\ exists more, file_table ex_nest 2 c = [ex_inner] ++ more.
Proof.
  cbv zeta. split; [apply ex_nesting; [lia|cbn; lia|repeat constructor; apply ex_inner_static]|]. split; [discriminate|]. split; [cbn; lia|].
  split; [eexists; vm_compute; reflexivity|]. do 3 (split; [reflexivity|]). eexists. reflexivity.
Qed.
Print Assumptions C63_numbers.
Print Assumptions C63_nested_refuted.
Print Assumptions C63_front_partial.
