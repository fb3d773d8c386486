(** Properties of files that other programs wrote: C58, C59, C78. *)
From Coq Require Import String Permutation.
From Verif Require Import Base BaseLemmas Wtf8Spec PrimModel PrimProofs PrimProps TypeModel TypeSpec CpModel CpSpec CpProofs CpProps FileSpec
  SigModel SigSpec AnnModel AnnSpec AttrModel AttrSpec AttrProofs FrameModel FrameSpec InsnModel InsnSpec InsnProofs InsnProps
  CodeModel CodeSpec CodeProofs CodeWrite CodeRead CodeProps ClassModel ClassSpec ClassProofs ClassProps ForeignSpec ForeignCode ForeignClassSpec ForeignClass.

(** * C58: code with line numbers and stack maps *)
Theorem C58_compiled : forall md E W c bs s rest, wf_any_code E c -> code_readable c -> fmt_code_lines E W c bs -> len bs < 4294967296 ->
  rst_ok s -> 0 <= r_next s -> len (W_tbl W) <= 65536 ->
  exists c' s', rd_code md (W_pool W) s (bs ++ rest) = Ok ((c', s'), rest) /\
    rst_ok s' /\ (exists x, r_refs s' = r_refs s ++ x) /\ code_rel_lines (dyn_read W s') c c'.
Proof.
  intros md E W c bs s rest Hw Hr HF Hs I1 I2 I3.
  destruct (rd_code_lines false md E W s c bs rest (conj I1 (conj I2 (conj I3 (open_refs W s)))) (conj Hw Hr) HF Hs) as (c' & s' & H1 & H2 & (H3 & _) & H4).
  exists c', s'. auto.
Qed.
(** * C59: line numbers of a file *)

(** Whatever tables of line numbers a code attribute has, the [n]-th
    instruction that is read has the line the last row for its offset gives,
    in front of it; instructions without a row have none. *)
Theorem C59_read_partial : forall md E W c L K fs ps body bs s rest, wf_any_code E c -> code_readable c ->
  fmt_code_with enc W c L K fs ps body bs -> tells (in_code W L K) c fs -> Forall (wf_frame (place_env E c)) (frame_rows fs) ->
  Forall (fun e => In (fst e) (ps ++ [len body])) (line_rows fs) -> len bs < 4294967296 ->
  rst_ok s -> 0 <= r_next s -> len (W_tbl W) <= 65536 ->
  exists c' s', rd_code md (W_pool W) s (bs ++ rest) = Ok ((c', s'), rest) /\
    NoDup (map fst (line_places 0 (cd_code c'))) /\
    forall n o, nth_error (ps ++ [len body]) n = Some o -> line_of (Z.of_nat n) (cd_code c') = last_for o (line_rows fs).
Proof.
  intros md E W c L K fs ps body bs s rest Hw Hr HF HT Hf Hl Hs I1 I2 I3.
  destruct (rd_code_tab false md E W s c L K fs ps body bs rest (conj I1 (conj I2 (conj I3 (open_refs W s)))) Hw Hr HF HT Hf Hl Hs)
    as (c' & s' & H1 & _ & _ & _ & H2 & H3).
  exists c', s'. auto.
Qed.

(** * C78: whole files *)
Lemma table_first W s (attrs attrs' : list cattr) : Forall2 (cattr_sim bsm_read W s) attrs attrs' -> (length (tables attrs) <= 1)%nat ->
  match first_table attrs' with
  | Some l' => exists l, flat_map (fun a => match a with CBootstrap b => b | _ => [] end) attrs = l /\ In (CBootstrap l) attrs /\ Forall2 (bsm_read W s) l l'
  | None => flat_map (fun a => match a with CBootstrap b => b | _ => [] end) attrs = []
  end.
Proof.
  induction 1 as [|a a' attrs attrs' H HF IH]; intros Hl; [reflexivity|]. unfold tables in Hl. cbn [filter] in Hl.
  destruct a; cbn [is_table] in Hl.
  all: try (destruct a'; cbn [cattr_sim] in H; try discriminate H; try contradiction; cbn [first_table flat_map app];
    specialize (IH Hl); destruct (first_table attrs'); [destruct IH as (x & ? & ? & ?); exists x; cbn [In]; auto|exact IH]).
  destruct a'; cbn [cattr_sim] in H; try contradiction. cbn [first_table flat_map].
  assert (flat_map (fun a => match a with CBootstrap b => b | _ => [] end) attrs = []) as ->.
  { clear - Hl. induction attrs as [|a attrs IH]; [reflexivity|]. cbn [filter] in Hl. destruct a; cbn [is_table length] in Hl; cbn [flat_map app]; auto. lia. }
  rewrite app_nil_r. eexists. cbn [In]. eauto.
Qed.
Lemma release_read m n rest : release_number m n -> rd_major (u2 n ++ rest) = Ok (m, rest).
Proof.
  intros [H1 H2]. assert (n <= 59).
  { assert (Hl : (Z.to_nat (n - 45) < 15)%nat) by (change 15%nat with (List.length [J1; J1_2; J1_3; J1_4; J5; J6; J7; J8; J9; J10; J11; J12; J13; J14; J15]);
      apply nth_error_Some; congruence). lia. }
  unfold rd_major. rewrite rd_u16_u2 by (unfold u16; lia). cbn [bind].
  assert (H0 : n = 45 \/ n = 46 \/ n = 47 \/ n = 48 \/ n = 49 \/ n = 50 \/ n = 51
      \/ n = 52 \/ n = 53 \/ n = 54 \/ n = 55 \/ n = 56 \/ n = 57 \/ n = 58 \/ n = 59) by lia.
  repeat (destruct H0 as [->|H0]; [cbn in H2; injection H2 as <-; reflexivity|]). subst. cbn in H2. injection H2 as <-. reflexivity.
Qed.
(** Missing for the full statement: code that is not [code_readable] (arrays
    of classes with names like descriptors: C50; [ldc] of dynamic constants:
    C60; two variables with the same name, index and range), access flags the crate does not know (C15),
    class names with surrogates inside the descriptors of members. *)
Theorem C78_read_partial : forall md heap c bs rest, wf_compiled heap c -> class_file heap c bs -> len bs < 4294967296 ->
  exists c' h, rd_classfile md (bs ++ rest) = Ok ((c', h), rest) /\ the_class heap (heap_of h) c c'.
Proof.
  intros md heap c bs rest Hw (n & es & pb & mb & -> & Hn & Hp & HF) Hs.
  destruct (rd_pool_bytes md es pb (mb ++ rest) Hp) as (m & Hm & Hpo). specialize (HF _ Hpo).
  set (W := {| W_pool := pool_of m; W_tbl := table_of c; W_heap := heap; W_label := fun _ => None; W_catch := fun _ => None |}) in *.
  assert (Ht : len (table_of c) < 65536).
  { destruct Hw as (_ & _ & _ & _ & _ & _ & _ & [_ H7] & H8). clear - H7 H8. unfold table_of, tables in *. induction H7 as [|a l Ha _ IH]; [cbn; lia|].
    cbn [filter flat_map] in *. destruct a; cbn [is_table app] in *; auto.
    assert (flat_map (fun a => match a with CBootstrap b => b | _ => [] end) l = []) as ->; [|rewrite app_nil_r; apply Ha].
    clear - H8. induction l as [|a l IH]; [reflexivity|]. cbn [filter] in *. destruct a; cbn [is_table length] in *; cbn [flat_map app]; auto. lia. }
  destruct (rd_compiled_ok md heap W {| r_refs := []; r_next := 0 |} c mb rest) as (k & s & Hk & _ & Hi & Hsim); auto.
  { split; [split; constructor|]. split; [cbn; lia|]. split; [cbn; lia|constructor]. }
  { unfold small. rewrite !len_app in Hs. pose proof (len_nonneg (u4 3405691582)). pose proof (len_nonneg (u2 (minor (cl_version c)))).
    pose proof (len_nonneg (u2 n)). pose proof (len_nonneg pb). lia. }
  destruct (Hsim (cl_version c)) as (E1 & E2 & E3 & E4 & E5 & E6 & E7 & E8).
  set (c' := k (cl_version c)) in *.
  set (S := fun x y => exists i b, heap x = Some b /\ u16 i /\ nth_error (table_of c) (Z.to_nat i) = Some b /\ In (i, y) (r_refs s)).
  assert (HD : forall d d', dyn_read W s d d' -> dyn_by S d d').
  { intros d d' (D1 & D2 & i & b & D3 & D4 & D5 & D6). split; auto. split; auto. exists i, b. auto. }
  assert (HB : forall b b', bsm_read W s b b' -> bsm_by S b b').
  { intros b b' [B1 B2]. split; auto. eapply forall2_impl; [|exact B2]. intros [|] [|]; cbn; auto. }
  assert (HT : exists h, match first_table (cl_attrs c') with Some b => bootstrap_methods b s [] | None => Ok [] end = Ok h /\
     bisimulation heap (heap_of h) S).
  { pose proof (table_first _ _ _ _ E8 (proj2 (proj2 (proj2 (proj2 (proj2 (proj2 (proj2 (proj2 Hw))))))))) as HT. fold (table_of c) in HT.
    destruct Hi as (H1 & _ & _ & H4). unfold refs_in in H4. rewrite Forall_forall in H4.
    destruct (first_table (cl_attrs c')) as [l'|].
    - destruct HT as (l & El & _ & HT).
      assert (Hll : len l' = len l) by (clear - HT; unfold len; induction HT; cbn [length] in *; lia).
      destruct (C26_resolve s l' H1) as [HR _]; [rewrite Hll, <- El; exact Ht|].
      destruct HR as (h & Hh & Ha & _).
      { intros b0 c0 Hin. rewrite Hll, <- El. exact (H4 _ Hin eq_refl). }
      exists h. split; auto. intros x y (i & b & X1 & X2 & X3 & X4). rewrite El in X3.
      assert (HN : forall n (l l' : list bsm) b, Forall2 (bsm_read W s) l l' -> nth_error l n = Some b -> exists b', nth_error l' n = Some b' /\ bsm_read W s b b').
      { clear. intros n l l' b HF. revert n. induction HF; intros [|n] Hn; try discriminate; cbn in *; [injection Hn as <-; eauto|auto]. }
      destruct (HN _ _ _ _ HT X3) as (b' & Hb' & Hbb). exists b, b'. split; auto. split; [|auto]. unfold heap_of. rewrite (Ha _ _ X4). exact Hb'.
    - exists []. split; auto. intros x y (i & b & X1 & X2 & X3 & X4). rewrite HT in X3. destruct (Z.to_nat i); discriminate. }
  destruct HT as (h & Hh & Hbis). exists c', h. split.
  - unfold rd_classfile. rewrite <- !app_assoc. rewrite rd_u32_u4 by (unfold u32; lia). cbn [bind].
    change (3405691582 =? JVM_MAGIC) with true. cbv iota. unfold rd_version. rewrite rd_u16_u2 by apply Hw. cbn [bind].
    rewrite (release_read _ _ _ Hn). cbn [bind]. rewrite Hm. cbn [bind]. change (W_pool W) with (pool_of m) in Hk. rewrite Hk. cbn [bind].
    assert (k {| minor := minor (cl_version c); maj := maj (cl_version c) |} = c') as -> by (unfold c'; destruct (cl_version c); reflexivity).
    rewrite Hh. reflexivity.
  - exists S. split; [exact Hbis|]. split; [exact E1|]. split; [exact E2|]. split; [exact E3|]. split; [exact E4|]. split; [exact E5|]. split; [exact E6|]. split.
    + eapply forall2_impl; [|exact E7]. intros me me' (M1 & M2 & M3 & M4). repeat split; auto. eapply forall2_impl; [|exact M4].
      intros a a' Ha. destruct a, a'; cbn [mattr_sim mattr_by] in *; try contradiction; try congruence.
      destruct Ha as [Ha1 Ha2]. split; [|exact Ha2]. eapply code_rel_mono; [|exact Ha1]. exact HD.
    + eapply forall2_impl; [|exact E8]. intros a a' Ha. destruct a, a'; cbn [cattr_sim cattr_by] in *; try contradiction; try congruence.
      eapply forall2_impl; [|exact Ha]. exact HB.
Qed.
(** The case of a class whose bootstrap method has an argument that refers to
    the bootstrap method itself, and code with line numbers in two tables (the
    second overrides a row of the first) and a stack map. *)
Definition fx_bsm : bsm := {| b_handle := {| h_kind := InvokeStatic; h_member := {| m_owner := [65]; m_name := [109];
    m_desc := TMethod [] (Some TInt); m_itfs := false |} |};
  b_args := [Dyn {| d_cell := 0; d_name := [109]; d_desc := TInt |}] |}.
Definition fx_heap : Z -> option bsm := fun c => if c =? 0 then Some fx_bsm else None.
Definition fx_code : code := {| cd_stack := 1; cd_locals := 0; cd_catches := []; cd_attrs := [];
  cd_code := [ILineNumber 5; IInvokeDynamic {| d_cell := 0; d_name := [109]; d_desc := TMethod [] (Some TInt) |};
    ILineNumber 7; INewArray (Stat TInt) 1; IPop1; IReturn None] |}.
Definition fx_class : class := {| cl_version := {| minor := 0; maj := J8 |}; cl_access := 33; cl_name := [65]; cl_super := None; cl_itfs := [];
  cl_fields := []; cl_methods := [{| me_access := 9; me_name := [109]; me_desc := TMethod [] None; me_attrs := [MCode fx_code] |}];
  cl_attrs := [CBootstrap [fx_bsm]] |}.
Definition fx_entries : list raw_entry := [RWtf8 [65]; RClass 1; RWtf8 [109]; RWtf8 [40; 41; 86]; RWtf8 (str "Code");
  RWtf8 (str "LineNumberTable"); RWtf8 (str "BootstrapMethods"); RWtf8 [40; 41; 73]; RNameType 3 8; RMethod 2 9; RMHandle 6 10;
  RWtf8 [73]; RNameType 3 12; RDynamic 0 13; RInvokeDynamic 0 9; RWtf8 (str "StackMapTable")].
Definition fx_body : list Z := [186; 0; 15; 0; 0; 188; 10; 87; 177].
Definition fx_rows : list fcattr := [CaLines [(5, 6); (0, 5)]; CaFrames [FSame 5]; CaLines [(5, 7)]].
Definition fx_tables : list (list Z) := [[0; 6; 0; 0; 0; 10; 0; 2; 0; 5; 0; 6; 0; 0; 0; 5]; [0; 16; 0; 0; 0; 3; 0; 1; 5]; [0; 6; 0; 0; 0; 6; 0; 1; 0; 5; 0; 7]].
Definition fx_code_bytes : list Z := [0; 1; 0; 0; 0; 0; 0; 9] ++ fx_body ++ [0; 0] ++ [0; 3] ++ concat fx_tables.
Definition fx_members : list Z := [0; 33; 0; 2; 0; 0; 0; 0; 0; 0; 0; 1; 0; 9; 0; 3; 0; 4; 0; 1; 0; 5; 0; 0; 0; 58] ++ fx_code_bytes ++
  [0; 1; 0; 7; 0; 0; 0; 8; 0; 1; 0; 11; 0; 1; 0; 14].
Definition fx_file : list Z := [202; 254; 186; 190; 0; 0; 0; 52; 0; 17] ++
  match mapM wr_raw fx_entries with Ok bss => concat bss | _ => [] end ++ fx_members.
Definition fx_world (p : pool) : world :=
  {| W_pool := p; W_tbl := [fx_bsm]; W_heap := fx_heap; W_label := fun _ => None; W_catch := fun _ => None |}.
Lemma fx_dyn_wf t : utf8_desc t -> wf_dynamic fx_heap {| d_cell := 0; d_name := [109]; d_desc := t |}.
Proof. intros H. split; [discriminate|]. split; [ascii|exact H]. Qed.
Lemma fx_desc_wf t : t = TInt \/ t = TMethod [] (Some TInt) \/ t = TMethod [] None -> utf8_desc t.
Proof. intros [->|[->| ->]]; (split; [split; [cbn; repeat constructor|ascii]|cbn; constructor]). Qed.
Lemma fx_code_wf : wf_any_code (wenv_class Release fx_heap) fx_code /\ code_readable fx_code.
Proof.
  split.
  - split; [constructor|]. split; [|split; constructor].
    constructor; [exact I|]. constructor; [split; [apply fx_dyn_wf, fx_desc_wf; auto|reflexivity]|].
    constructor; [exact I|]. constructor; [cbn; unfold u8; lia|]. repeat constructor.
  - split; [constructor|]. repeat (constructor; [cbn; auto; discriminate|]). constructor.
Qed.
Lemma fx_bsm_wf : wf_entry fx_heap fx_bsm.
Proof.
  split; [|repeat constructor]. split; [|split; [cbn; lia|]].
  - split; [ascii|]. split; [ascii|]. split; [apply fx_desc_wf; auto|discriminate].
  - constructor; [|constructor]. apply fx_dyn_wf, fx_desc_wf. auto.
Qed.
Lemma fx_class_wf : wf_compiled fx_heap fx_class.
Proof.
  unfold wf_compiled, fx_class. cbn [cl_version cl_access cl_name cl_super cl_itfs cl_fields cl_methods cl_attrs minor].
  split; [unfold u16; lia|]. split; [split; [unfold u16; lia|reflexivity]|]. split; [ascii|]. split; [exact I|].
  split; [split; [cbn; lia|constructor]|]. split; [split; [cbn; lia|constructor]|]. split; [split; [cbn; lia|]|split; [split; [cbn; lia|]|cbn; lia]].
  - constructor; [|constructor]. split; [split; [cbn; unfold u16; lia|reflexivity]|]. split; [cbn; ascii|].
    split; [apply fx_desc_wf; auto|]. split; [cbn; lia|]. constructor; [|constructor]. exact fx_code_wf.
  - constructor; [|constructor]. split; [cbn; lia|]. constructor; [exact fx_bsm_wf|constructor].
Qed.
Section FxPool.
Context (p : pool) (Hp : forall i, p i = entry_at 1 fx_entries i).
Let W := fx_world p.
Lemma fx_nametype i t : (i = 9 /\ t = TMethod [] (Some TInt)) \/ (i = 13 /\ t = TInt) -> is_nametype p i [109] t.
Proof.
  intros [[-> ->]|[-> ->]]; eexists _, _; (split; [rewrite Hp; reflexivity|]); (split; unfold is_utf8_at; rewrite Hp; reflexivity).
Qed.
Lemma fx_dynamic i t : (i = 15 /\ t = TMethod [] (Some TInt)) \/ (i = 14 /\ t = TInt) ->
  is_dyn W i {| d_cell := 0; d_name := [109]; d_desc := t |}.
Proof.
  intros H. exists fx_bsm. split; [reflexivity|]. destruct H as [[-> ->]|[-> ->]].
  - exists 0, 9. split; [cbn [W_pool W fx_world]; rewrite Hp; reflexivity|]. split; [lia|]. split; [reflexivity|]. apply fx_nametype. auto.
  - exists 0, 13. split; [cbn [W_pool W fx_world]; rewrite Hp; reflexivity|]. split; [lia|]. split; [reflexivity|]. apply fx_nametype. auto.
Qed.
Lemma fx_fmt_with : fmt_code_with enc W fx_code (fun _ => None) (fun _ => None) fx_rows [0; 5; 7; 8] fx_body fx_code_bytes.
Proof.
  split; [discriminate|]. split; [discriminate|]. split; [unfold u16; cbn; lia|]. split; [unfold u16; cbn; lia|]. split; [cbn; lia|]. split.
  - cbn [laid fx_code cd_code realb fx_body]. split; [exact I|]. exists [], fx_body. split; [reflexivity|]. split; [reflexivity|].
    split; [exact I|]. exists [186; 0; 15; 0; 0], [188; 10; 87; 177]. split; [reflexivity|]. split.
    { split; [reflexivity|]. exists [0; 15]. split; [|reflexivity]. exists 15. split; [lia|]. split; [reflexivity|]. apply (fx_dynamic 15). auto. }
    exists [5; 7; 8]. split; [reflexivity|]. split; [exact I|]. exists [], [188; 10; 87; 177]. split; [reflexivity|]. split; [reflexivity|].
    split; [exact I|]. exists [188; 10], [87; 177]. split; [reflexivity|]. split; [left; split; [reflexivity|]; exists TInt, 10; auto|]. exists [7; 8]. split; [reflexivity|].
    split; [exact I|]. exists [87], [177]. split; [reflexivity|]. split; [reflexivity|]. exists [8]. split; [reflexivity|].
    split; [exact I|]. exists [177], []. split; [reflexivity|]. split; [reflexivity|]. exists []. split; [reflexivity|]. split; reflexivity.
  - exists [0; 0], ([0; 3] ++ concat fx_tables). split; [exists []; repeat split; constructor|]. split; [|reflexivity].
    exists fx_tables. split; [cbn; lia|]. split; [reflexivity|]. unfold fx_rows, fx_tables.
    assert (HR : forall W x y, u16 x -> u16 y -> fmt_pair fmt_u2 fmt_u2 W (x, y) (u2 x ++ u2 y)).
    { intros W0 x y Hx Hy. exists (u2 x), (u2 y). repeat split; auto; try apply Hx; try apply Hy. }
    constructor; [|constructor; [|constructor; [|constructor]]]; eexists _, _; (split; [|split; [cbn [W_pool in_code W fx_world]; unfold is_utf8_at; rewrite Hp|]]).
    2: instantiate (1 := 6); reflexivity. 1: lia. 1: split; [instantiate (1 := [0; 2; 0; 5; 0; 6; 0; 0; 0; 5]); reflexivity|].
    1: exists [[0; 5; 0; 6]; [0; 0; 0; 5]]; split; [cbn; lia|]; split; [reflexivity|]; constructor; [apply (HR _ 5 6); unfold u16; lia|];
       constructor; [apply (HR _ 0 5); unfold u16; lia|constructor].
    2: instantiate (1 := 16); reflexivity. 1: lia. 1: split; [instantiate (1 := [0; 1; 5]); reflexivity|].
    1: exists [[5]]; split; [cbn; lia|]; split; [reflexivity|]; constructor; [left; split; [lia|reflexivity]|constructor].
    2: instantiate (1 := 6); reflexivity. 1: lia. 1: split; [instantiate (1 := [0; 1; 0; 5; 0; 7]); reflexivity|].
    exists [[0; 5; 0; 7]]. split; [cbn; lia|]. split; [reflexivity|]. constructor; [apply (HR _ 5 7); unfold u16; lia|constructor].
Qed.
Lemma fx_tells : tells (in_code W (fun _ => None) (fun _ => None)) fx_code fx_rows.
Proof. split; [reflexivity|]. split; exists []; split; constructor. Qed.
Lemma fx_frames E : Forall (wf_frame (place_env E fx_code)) (frame_rows fx_rows).
Proof. constructor; [|constructor]. split; [constructor|]. unfold u16. lia. Qed.
Lemma fx_places : Forall (fun e => In (fst e) ([0; 5; 7; 8] ++ [len fx_body])) (line_rows fx_rows).
Proof. cbn. constructor; [cbn; auto|]. constructor; [cbn; auto|]. constructor; [cbn; auto|constructor]. Qed.
Lemma fx_lines E : fmt_code_lines E W fx_code fx_code_bytes.
Proof.
  exists (fun _ => None), (fun _ => None), fx_rows, [0; 5; 7; 8], fx_body. split; [apply fx_fmt_with|]. split; [apply fx_tells|].
  split; [apply fx_frames|]. split; [apply fx_places|].
  intros n o H. destruct n as [|[|[|[|[|n]]]]]; cbn in H; try (injection H as <-; reflexivity). destruct n; discriminate.
Qed.
Lemma fx_fmt : fmt_compiled fx_heap W fx_class fx_members.
Proof.
  assert (HU : forall j s, 0 < j < 65536 -> p j = Some (RWtf8 s) -> fmt_utf8 W s (u2 j)) by (intros j s Hj H; exists j; repeat split; auto; lia).
  exists [0; 33]. eexists. split; [reflexivity|]. split; [split; [unfold u16; cbn; lia|reflexivity]|].
  exists [0; 2]. eexists. split; [reflexivity|]. split.
  { exists 2. split; [lia|]. split; [reflexivity|]. exists 1. cbn [W_pool W fx_world]. unfold is_utf8_at. rewrite !Hp. auto. }
  exists [0; 0]. eexists. split; [reflexivity|]. split; [reflexivity|].
  exists [0; 0]. eexists. split; [reflexivity|]. split; [exists []; repeat split; constructor|].
  exists [0; 0]. eexists. split; [reflexivity|]. split; [exists []; repeat split; constructor|].
  exists ([0; 1] ++ concat [[0; 9; 0; 3; 0; 4; 0; 1; 0; 5; 0; 0; 0; 58] ++ fx_code_bytes]). eexists. split; [reflexivity|]. split.
  - eexists. split; [|split; [reflexivity|]]; [cbn; lia|]. constructor; [|constructor].
    exists [0; 9]. eexists. split; [reflexivity|]. split; [split; [unfold u16; cbn; lia|reflexivity]|].
    exists [0; 3]. eexists. split; [reflexivity|]. split; [apply (HU 3); [lia|rewrite Hp; reflexivity]|].
    exists [0; 4]. eexists. split; [reflexivity|]. split; [exists 4; split; [lia|]; split; [reflexivity|]; cbn [W_pool W fx_world]; unfold is_utf8_at; rewrite Hp; reflexivity|].
    exists [[0; 5; 0; 0; 0; 58] ++ fx_code_bytes]. split; [cbn; lia|]. split; [reflexivity|]. constructor; [|constructor].
    exists 5, fx_code_bytes. split; [lia|]. split; [cbn [W_pool W fx_world]; unfold is_utf8_at; rewrite Hp; reflexivity|]. split; [reflexivity|].
    apply fx_lines.
  - exists [[0; 7; 0; 0; 0; 8; 0; 1; 0; 11; 0; 1; 0; 14]]. split; [cbn; lia|]. split; [reflexivity|]. constructor; [|constructor].
    exists 7, [0; 1; 0; 11; 0; 1; 0; 14]. split; [lia|]. split; [cbn [W_pool W fx_world]; unfold is_utf8_at; rewrite Hp; reflexivity|]. split; [reflexivity|].
    exists [[0; 11; 0; 1; 0; 14]]. split; [cbn; lia|]. split; [reflexivity|]. constructor; [|constructor].
    exists [0; 11], [0; 1; 0; 14]. split; [reflexivity|]. split.
    + exists 11. split; [lia|]. split; [reflexivity|]. exists 6, 10. cbn [W_pool W fx_world]. rewrite Hp. split; [reflexivity|].
      split; [split; [reflexivity|lia]|]. exists 2, 9. rewrite Hp. split; [reflexivity|]. split; [exists 1; unfold is_utf8_at; rewrite !Hp; auto|apply fx_nametype; auto].
    + exists [[0; 14]]. split; [cbn; lia|]. split; [reflexivity|]. constructor; [|constructor]. exists 14. split; [lia|]. split; [reflexivity|].
      apply (fx_dynamic 14). auto.
Qed.
End FxPool.
Example C58_compiled_ex : exists W, wf_any_code (wenv_class Release fx_heap) fx_code /\ code_readable fx_code /\
  fmt_code_lines (wenv_class Release fx_heap) W fx_code fx_code_bytes /\ len fx_code_bytes < 4294967296 /\ len (W_tbl W) <= 65536.
Proof.
  exists (fx_world (entry_at 1 fx_entries)). split; [apply fx_code_wf|]. split; [apply fx_code_wf|]. split; [apply fx_lines; reflexivity|]. split; cbn; lia.
Qed.
Example C59_read_ex : exists W, fmt_code_with enc W fx_code (fun _ => None) (fun _ => None) fx_rows [0; 5; 7; 8] fx_body fx_code_bytes /\
  tells (in_code W (fun _ => None) (fun _ => None)) fx_code fx_rows /\ last_for 5 (line_rows fx_rows) = Some 7 /\
  rd_code Debug (W_pool W) {| r_refs := []; r_next := 0 |} fx_code_bytes = Ok ((fx_code, {| r_refs := [(0, 0)]; r_next := 1 |}), []).
Proof.
  exists (fx_world (entry_at 1 fx_entries)). split; [apply fx_fmt_with; reflexivity|]. split; [apply fx_tells|]. split; [reflexivity|vm_compute; reflexivity].
Qed.
Example C78_ex : wf_compiled fx_heap fx_class /\ class_file fx_heap fx_class fx_file /\ len fx_file < 4294967296.
Proof.
  split; [apply fx_class_wf|]. split; [|vm_compute; reflexivity].
  exists 52, fx_entries, (u2 17 ++ match mapM wr_raw fx_entries with Ok bss => concat bss | _ => [] end), fx_members.
  split; [reflexivity|]. split; [split; [lia|reflexivity]|]. split; [|exact fx_fmt].
  assert (HW : Forall entry_wf fx_entries) by (repeat (constructor; [cbn [entry_wf]; first [ascii|unfold u16; lia|unfold u8, u16; lia|split; [unfold u8|unfold u16]; lia]|]); constructor).
  destruct (wr_entries_ok _ HW) as (bss & Hb & HF). rewrite Hb. exists bss. split; [exact HW|]. split; [exact HF|]. split; [vm_compute; discriminate|reflexivity].
Qed.
(** The line number of each instruction really depends on the tables. *)
Example C78_read_ex : exists c' h, rd_classfile Debug fx_file = Ok ((c', h), []) /\
  map (fun m => map (fun a => match a with MCode c => line_places 0 (cd_code c) | _ => [] end) (me_attrs m)) (cl_methods c') = [[[(0, 5); (1, 7)]]].
Proof. eexists _, _. split; [vm_compute; reflexivity|reflexivity]. Qed.
Print Assumptions C58_compiled.
Print Assumptions C59_read_partial.
Print Assumptions C78_read_partial.
