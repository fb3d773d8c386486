(** C91: files that were not written by the crate.  Whatever file was accepted:
    if the class it holds is tidy (TidySpec.v), it can be written again, and the
    new file holds the same class. *)
From Coq Require Import String.
From Verif Require Import Base BaseLemmas Wtf8Spec Wtf8Model MutfModel PrimModel PrimProofs TypeModel TypeSpec CpModel CpSpec CpProofs FileSpec
  SigModel SigSpec AnnModel AnnSpec AnnProofs AttrModel AttrSpec AttrProofs FrameModel FrameSpec InsnModel InsnSpec CodeModel CodeSpec CodeProofs CodeRead CodeProps ClassModel ClassSpec
  ClassProofs ClassProps ClassStable ClassCodeStable WriteSpec ReadTyped RereadProps SettleProofs TidySpec ReadWf ReadWfCode.
From Coq Require Import Lia.

(** Every body among the leaves of a class is that of a method. *)
Definition plain (x : leaf) : Prop := match x with LCode _ => False | _ => True end.
Lemma plain_flat {A} (f : A -> list leaf) l : (forall a, Forall plain (f a)) -> Forall plain (flat_map f l).
Proof. intros H. induction l as [|a l IH]; cbn; [constructor|]. apply Forall_app. auto. Qed.
Lemma plain_opt {A} (f : A -> list leaf) o : (forall a, Forall plain (f a)) -> Forall plain (of_opt f o).
Proof. intros H. destruct o; [apply H|constructor]. Qed.
Lemma plain_aval v : Forall plain (aval_leaves v).
Proof.
  induction v using aval_ind'; cbn [aval_leaves]; repeat constructor; try (apply plain_opt; repeat constructor).
  - induction H as [|kv vs Hkv _ IH]; cbn [flat_map]; [constructor|]. constructor; [exact I|]. apply Forall_app. auto.
  - induction H as [|x vs Hx _ IH]; cbn [flat_map]; [constructor|]. apply Forall_app. auto.
Qed.
Ltac plain := repeat first [apply Forall_nil | match goal with |- Forall _ (_ :: _) => apply Forall_cons; [exact I|] end | apply Forall_app; split | apply plain_flat; intros ? | apply plain_opt; intros ? | apply plain_aval
  | progress unfold str_leaf, raw_leaves, mparam_leaves, inner_leaves, module_leaves, require_leaves, exopen_leaves, provide_leaves].
Lemma plain_const k : Forall plain (const_leaves k). Proof. destruct k; cbn [const_leaves]; plain. Qed.
Lemma plain_annot a : Forall plain (annot_leaves a). Proof. unfold annot_leaves, vals_leaves. plain. Qed.
Lemma plain_tannot {T} (a : tannot T) : Forall plain (tannot_leaves a). Proof. unfold tannot_leaves, vals_leaves. plain. Qed.
Lemma plain_field f : Forall plain (field_leaves f).
Proof. unfold field_leaves. plain. destruct a; cbn [fattr_leaves]; plain; first [apply plain_const|apply plain_annot|apply plain_tannot]. Qed.
Lemma plain_bsm b : Forall plain (bsm_leaves b).
Proof. unfold bsm_leaves. plain. destruct a; [plain|apply plain_const]. Qed.
Ltac plain2 := repeat first [apply plain_bsm|apply plain_annot|apply plain_tannot|apply plain_const|progress plain].
Lemma plain_cattr a : Forall plain (cattr_leaves a).
Proof.
  destruct a; cbn [cattr_leaves]; plain2.
Qed.
Lemma body_of_method c k : In (LCode k) (class_leaves c) -> exists m, In m (cl_methods c) /\ In (MCode k) (me_attrs m).
Proof.
  assert (HP : forall ls, Forall plain ls -> ~ In (LCode k) ls) by (intros ls H Hi; rewrite Forall_forall in H; exact (H _ Hi)).
  intros H. unfold class_leaves in H. cbn [In] in H. destruct H as [H|H]; [discriminate|].
  repeat (apply in_app_or in H as [H|H]); try (exfalso; revert H; apply HP; plain; first [apply plain_field|apply plain_cattr]; fail).
  apply in_flat_map in H as (m & Hm & H). exists m. split; [exact Hm|]. unfold method_leaves in H. cbn [In] in H. destruct H as [H|[H|H]]; try discriminate.
  apply in_flat_map in H as (a & Ha & H). destruct a; try (exfalso; revert H; apply HP; cbn [mattr_leaves]; plain; first [apply plain_annot|apply plain_tannot]; fail).
  cbn in H. destruct H as [H|[]]. injection H as ->. exact Ha.
Qed.

Lemma leaf_mono (P Q : code -> Prop) x : (forall k, x = LCode k -> P k -> Q k) -> leaf_ok P x -> leaf_ok Q x.
Proof. intros H. destruct x; cbn [leaf_ok]; auto. Qed.

(** ** What was read and is tidy is well formed *)
Theorem C91_wf : forall md l c h rest, bytes l -> rd_classfile md l = Ok ((c, h), rest) -> tidy_class c ->
  wf_class (heap_of h) c /\ len (class_table (heap_of h) c) < 65536 /\ count_ok (heap_of h) c.
Proof.
  intros md l c h rest Hl H [HT HB]. destruct (C87_typed _ _ _ _ _ Hl H) as (_ & _ & _ & HC).
  assert (HS : forall d, In d (class_dyns c) -> heap_of h (d_cell d) <> None).
  { destruct HC as [(HC & _)|[HN HD]]; [exact HC|]. unfold tidy_table in HB. destruct (tables (cl_attrs c)) as [|a t] eqn:E; [contradiction|].
    assert (HI : In a (tables (cl_attrs c))) by (rewrite E; left; reflexivity). apply filter_In in HI as [HI HA]. destruct a; try discriminate HA. destruct (HN _ HI). }
  split; [|split].
  - eapply (read_wf (fun k => tidy_code k /\ linked (heap_of h) k)); [|reflexivity|exact Hl|exact H|].
    + intros p k s l1 s1 l2 Hp Hl1 Hk [H1 H2]. exact (read_code_wf md p Hp _ _ _ _ _ _ _ Hl1 Hk H1 H2).
    + apply Forall_forall. intros x Hx. rewrite Forall_forall in HT. eapply leaf_mono; [|exact (HT x Hx)]. intros k -> Hk. split; [exact Hk|]. intros d Hd. apply HS.
      destruct (body_of_method _ _ Hx) as (m & Hm & Ha). unfold class_dyns. apply in_flat_map. exists m. split; [exact Hm|]. apply in_flat_map. exists (MCode k). split; [exact Ha|exact Hd].
  - assert (HL : len (contents (heap_of h) (class_dyns c)) <= len (class_dyns c)).
    { unfold contents. clear. induction (class_dyns c) as [|d ds IH]; cbn [flat_map]; [discriminate|]. rewrite len_app, len_cons. destruct (heap_of h (d_cell d)); rewrite ?len_cons, ?len_nil; lia. }
    assert (HF : flat_map (fun a => match a with CBootstrap b => b | _ => [] end) (cl_attrs c) = flat_map (fun a => match a with CBootstrap b => b | _ => [] end) (tables (cl_attrs c))).
    { clear. unfold tables. induction (cl_attrs c) as [|a t IH]; [reflexivity|]. cbn [flat_map filter]. destruct a; cbn [is_table]; cbn [flat_map app]; rewrite IH; reflexivity. }
    unfold class_table. rewrite len_app, HF. unfold tidy_table in HB. destruct (tables (cl_attrs c)) as [|a [|b t]]; [rewrite HB in *; cbn in *; lia| |destruct a; contradiction].
    destruct a; try contradiction. cbn [flat_map]. rewrite app_nil_r. lia.
  - unfold count_ok, class_table. 
    assert (HF : flat_map (fun a => match a with CBootstrap b => b | _ => [] end) (cl_attrs c) = flat_map (fun a => match a with CBootstrap b => b | _ => [] end) (tables (cl_attrs c))).
    { clear. unfold tables. induction (cl_attrs c) as [|a t IH]; [reflexivity|]. cbn [flat_map filter]. destruct a; cbn [is_table]; cbn [flat_map app]; rewrite IH; reflexivity. }
    rewrite HF. unfold tidy_table in HB. destruct (tables (cl_attrs c)) as [|a [|b t]]; [rewrite HB; reflexivity| |destruct a; contradiction].
    destruct a; try contradiction. destruct HB as [HB _]. cbn [flat_map]. rewrite app_nil_r. match goal with |- context [?t ++ _] => destruct t; [congruence|reflexivity] end.
Qed.

Print Assumptions C91_wf.

(** ** It is written again as the same class *)
Theorem C91_again_partial : forall md l c h rest, bytes l -> rd_classfile md l = Ok ((c, h), rest) -> tidy_class c ->
  forall fuel md', (1 <= fuel)%nat ->
  ((exists out, wr_classfile fuel md' (heap_of h) c = Ok out) \/ md' = Debug /\ wr_classfile fuel md' (heap_of h) c = Panic POverflow) /\
  forall out, wr_classfile fuel md' (heap_of h) c = Ok out -> md' = Debug \/ pool_fits fuel md' (heap_of h) c -> len out < 4294967296 ->
  bytes out /\ forall md2 rest2, exists c2 h2, rd_classfile md2 (out ++ rest2) = Ok ((c2, h2), rest2) /\
    same_class (heap_of h) (heap_of h2) (class_table (heap_of h) c) c c2.
Proof.
  intros md l c h rest Hl H HT fuel md' Hf. destruct (C91_wf _ _ _ _ _ Hl H HT) as (H1 & H2 & H3). destruct (C61_roundtrip_partial fuel md' _ _ Hf H1 H2 H3) as [H4 H5].
  split; [exact H4|]. intros out Ho Hp Hs. split; [|exact (H5 out Ho Hp Hs)]. pose proof (C87_kinds_partial _ _ _ _ _ Hl H fuel md') as HK. rewrite Ho in HK. exact HK.
Qed.
Print Assumptions C91_again_partial.

(** A file the crate would not write: a [wide iload], a [goto_w] and an [ldc_w]
    where the short forms do, and an entry of the pool that nothing uses. *)
Definition ex_foreign : list Z := [
   202; 254; 186; 190; 0; 0; 0; 52; 0; 20; 1; 0; 1; 65; 7; 0; 1; 1; 0; 1; 66; 7; 0; 3; 1; 0; 1; 109; 1; 0; 3; 40;
   41; 86; 1; 0; 4; 67; 111; 100; 101; 1; 0; 1; 98; 1; 0; 3; 40; 41; 73; 12; 0; 8; 0; 9; 10; 0; 2; 0; 10; 15; 6;
   0; 11; 1; 0; 1; 120; 1; 0; 4; 40; 73; 41; 74; 12; 0; 13; 0; 14; 18; 0; 0; 0; 15; 1; 0; 16; 66; 111; 111; 116;
   115; 116; 114; 97; 112; 77; 101; 116; 104; 111; 100; 115; 3; 0; 0; 0; 7; 1; 0; 6; 117; 110; 117; 115; 101;
   100; 0; 33; 0; 2; 0; 4; 0; 0; 0; 0; 0; 1; 0; 9; 0; 5; 0; 6; 0; 1; 0; 7; 0; 0; 0; 40; 0; 2; 0; 2; 0; 0; 0; 20;
   196; 21; 0; 1; 200; 0; 0; 0; 5; 19; 0; 18; 186; 0; 16; 0; 0; 88; 87; 177; 0; 1; 0; 0; 0; 9; 0; 19; 0; 2; 0; 0;
   0; 1; 0; 17; 0; 0; 0; 6; 0; 1; 0; 12; 0; 0].
Example C91_ex : exists c h, bytes ex_foreign /\ (forall md, rd_classfile md ex_foreign = Ok ((c, h), [])) /\ tidy_class c /\ class_dyns c <> [] /\
  exists out, wr_classfile 1 Release (heap_of h) c = Ok out /\ out <> ex_foreign /\ len out < 4294967296 /\ pool_fits 1 Release (heap_of h) c /\ len out < len ex_foreign + 10.
Proof.
  do 2 eexists. split; [repeat constructor; unfold u8; lia|]. split; [intros []; vm_compute; reflexivity|]. split; [|split; [discriminate|]].
  - split; [|split; [discriminate|reflexivity]]. unfold class_leaves. cbn -[tidy_code jstr wf_desc utf8_desc wf_member].
    repeat (apply Forall_cons || apply Forall_nil); cbn [leaf_ok]; try (ascii); try (split; [cbn; repeat constructor|ascii]).
    + unfold tidy_code. cbn [cd_code cd_catches cd_attrs]. split; [|split; [|split; [|split; [reflexivity|constructor]]]].
      * repeat (apply Forall_cons || apply Forall_nil); cbn [tidy_insn const_leaves]; auto. split; [ascii|]. split; [|reflexivity]. split; [split; [cbn; repeat constructor|ascii]|cbn; repeat constructor].
      * apply in_range_small; [vm_compute; discriminate|]. repeat (apply Forall_cons || apply Forall_nil); cbn; intros x Hx; cbn in *; tauto.
      * repeat constructor. cbn. ascii.
    + cbn [h_member b_handle]. split; [ascii|]. split; [ascii|]. split; [|reflexivity]. split; [split; [cbn; repeat constructor|ascii]|cbn; constructor].
  - eexists. split; [vm_compute; reflexivity|]. split; [discriminate|]. split; [reflexivity|]. split; [|reflexivity].
    intros b w H. vm_compute in H. apply ok_inj, pair_equal_spec in H as [_ <-]. vm_compute. discriminate.
Qed.

(** Without bootstrap methods, and with at most one variable per body, there are
    at most two new files: the second is written ever after. *)
Theorem C91_settles_partial : forall md l c h rest, bytes l -> rd_classfile md l = Ok ((c, h), rest) -> tidy_class c -> tables (cl_attrs c) = [] -> mild_class c ->
  forall fuel md' out, (1 <= fuel)%nat -> wr_classfile fuel md' (heap_of h) c = Ok out -> md' = Debug \/ pool_fits fuel md' (heap_of h) c -> len out < 4294967296 ->
  forall md2, exists c2, rd_classfile md2 out = Ok ((c2, []), []) /\
    ((exists out', rewrite_file fuel md' md2 out = Ok out') \/ md' = Debug /\ rewrite_file fuel md' md2 out = Panic POverflow) /\
    forall out', rewrite_file fuel md' md2 out = Ok out' -> md' = Debug \/ pool_fits fuel md' (heap_of []) c2 -> bytes out' -> len out' < 4294967296 ->
    forall n, Nat.iter (S n) (fun r => l <- r ;; rewrite_file fuel md' md2 l) (Ok out) = Ok out'.
Proof.
  intros md l c h rest Hl H HT HN HM fuel md' out Hf Ho Hp Hs md2. destruct (C91_wf _ _ _ _ _ Hl H HT) as (H1 & H2 & H3).
  pose proof (C87_kinds_partial _ _ _ _ _ Hl H fuel md') as HK. rewrite Ho in HK.
  assert (HF : forall cell, heap_of h cell = None).
  { destruct (read_typed _ _ _ _ _ Hl H) as (_ & _ & _ & _ & HX). intros cell. rewrite HX; [reflexivity|]. destruct (first_table (cl_attrs c)) eqn:E; [|reflexivity].
    apply first_table_in in E. assert (HI : In (CBootstrap l0) (tables (cl_attrs c))) by (apply filter_In; auto). rewrite HN in HI. destruct HI. }
  assert (h = []) as ->.
  { destruct h as [|[k b] h]; [reflexivity|]. specialize (HF k). unfold heap_of in HF. cbn in HF. rewrite Z.eqb_refl in HF. discriminate. }
  exact (C64_settles_partial fuel md' c out Hf H1 HM H2 H3 Ho Hp HK Hs md2).
Qed.
Print Assumptions C91_settles_partial.
(** Keys of a switch that are not in order, padding that is not zero, two
    handlers at the same places, a line number and a variable. *)
Definition ex_foreign2 : list Z := [
   202; 254; 186; 190; 0; 0; 0; 52; 0; 12; 1; 0; 1; 65; 7; 0; 1; 1; 0; 1; 66; 7; 0; 3; 1; 0; 1; 109; 1; 0; 3; 40;
   41; 86; 1; 0; 4; 67; 111; 100; 101; 1; 0; 15; 76; 105; 110; 101; 78; 117; 109; 98; 101; 114; 84; 97; 98; 108;
   101; 1; 0; 1; 69; 1; 0; 1; 73; 1; 0; 18; 76; 111; 99; 97; 108; 86; 97; 114; 105; 97; 98; 108; 101; 84; 97; 98;
   108; 101; 0; 33; 0; 2; 0; 4; 0; 0; 0; 0; 0; 1; 0; 9; 0; 5; 0; 6; 0; 1; 0; 7; 0; 0; 0; 92; 0; 2; 0; 2; 0; 0; 0;
   34; 196; 21; 0; 1; 171; 9; 9; 9; 0; 0; 0; 28; 0; 0; 0; 2; 0; 0; 0; 6; 0; 0; 0; 28; 0; 0; 0; 5; 0; 0; 0; 29; 0;
   177; 0; 2; 0; 0; 0; 4; 0; 33; 0; 2; 0; 0; 0; 4; 0; 33; 0; 0; 0; 2; 0; 11; 0; 0; 0; 12; 0; 1; 0; 0; 0; 34; 0;
   9; 0; 10; 0; 1; 0; 8; 0; 0; 0; 6; 0; 1; 0; 0; 0; 7; 0; 0].
Example C91_settles_ex : exists c out out', bytes ex_foreign2 /\ (forall md, rd_classfile md ex_foreign2 = Ok ((c, []), [])) /\ tidy_class c /\
  tables (cl_attrs c) = [] /\ mild_class c /\
  wr_classfile 1 Release (heap_of []) c = Ok out /\ out <> ex_foreign2 /\ len out < 4294967296 /\ pool_fits 1 Release (heap_of []) c /\
  rewrite_file 1 Release Debug out = Ok out' /\ bytes out' /\ len out' < 4294967296 /\ rewrite_file 1 Release Debug out' = Ok out'.
Proof.
  do 3 eexists. split; [repeat constructor; unfold u8; lia|]. split; [intros []; vm_compute; reflexivity|]. split; [|split; [reflexivity|split; [|split; [vm_compute; reflexivity|]]]].
  - split; [|reflexivity]. unfold class_leaves. cbn -[tidy_code jstr wf_desc utf8_desc wf_member].
    repeat (apply Forall_cons || apply Forall_nil); cbn [leaf_ok]; try (ascii); try (split; [cbn; repeat constructor|ascii]).
    unfold tidy_code. cbn [cd_code cd_catches cd_attrs]. split; [|split; [|split; [|split; [reflexivity|]]]].
    + repeat (apply Forall_cons || apply Forall_nil); cbn [tidy_insn const_leaves]; auto.
    + apply in_range_small; [vm_compute; discriminate|]. repeat (apply Forall_cons || apply Forall_nil); cbn; intros x Hx; cbn in *; tauto.
    + apply Forall_cons; [cbn; ascii|]. repeat constructor.
    + apply Forall_cons; [|apply Forall_nil]. split; [reflexivity|]. apply Forall_cons; [|apply Forall_nil]. split; [intros m n Hm Hn; cbn in Hm, Hn; injection Hm as <-; injection Hn as <-; lia|].
      split; [ascii|]. split; [split; [exact I|ascii]|exact I].
  - constructor; [|constructor]. constructor; [|constructor]. split; [repeat constructor|cbn; lia].
  - split; [vm_compute; discriminate|]. split; [vm_compute; reflexivity|]. split.
    { intros b w H. vm_compute in H. apply ok_inj, pair_equal_spec in H as [_ <-]. vm_compute. discriminate. }
    split; [vm_compute; reflexivity|]. split; [repeat (apply Forall_cons; [unfold u8; lia|]); apply Forall_nil|]. split; vm_compute; reflexivity.
Qed.
