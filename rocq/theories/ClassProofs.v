(** Writing and reading class files. *)
From Coq Require Import String.
From Verif Require Import Base BaseLemmas Wtf8Spec PrimModel PrimProofs TypeModel TypeSpec CpModel CpSpec CpProofs CpProps FileSpec
  SigModel AnnModel AnnSpec AttrModel AttrSpec AttrProofs FrameModel FrameSpec InsnModel InsnSpec InsnProofs InsnProps
  CodeModel CodeSpec CodeProofs CodeWrite CodeRead CodeProps ClassModel ClassSpec ClassGrow.

(** * Writing *)
Lemma wr_list16_ok {A} (f : cwr A) P F : wr_ok f P F ->
  wr_ok (wr_list16 f) (fun E xs => len xs < 65536 /\ Forall (P E) xs) (fmt_table2 F).
Proof.
  intros Hf E xs w [Hl HP] Hi. unfold wr_list16.
  eapply post_bind; [apply (wr_each_ok f P F Hf); auto|]. cbn beta. intros bs w1 Hl1 Hi1 H.
  apply post_ret; auto. eapply later_mono; [|exact H]. cbn beta. intros W _ (bss & -> & HB).
  exists bss. rewrite be2_u2. auto.
Qed.
Lemma wf_code_env E E' c : we_heap E = we_heap E' -> wf_code E c -> wf_code E' c.
Proof.
  intros HE (H1 & H2 & H3 & H4 & H5 & H6 & H7). rewrite HE in H3. repeat split; auto; try apply H1; try apply H2; try apply H3.
  all: eapply Forall_impl; [|exact H7]; intros a Ha; destruct a; auto.
Qed.
Lemma wr_code_fmt : wr_ok wr_code (fun E c => wf_code E c /\ in_range (cd_code c)) fmt_code.
Proof.
  eapply wr_mono; [apply wr_code_ok|auto|]. cbn beta. intros E W c bs _ _ (L & K & fas & ps & body & HF & Hfa).
  exists L, K, fas, ps, body. split; auto. destruct HF as (HL & HK & Hst & Hlo & Hlb & Hlaid & H).
  split; [exact HL|]. split; [exact HK|]. split; [exact Hst|]. split; [exact Hlo|]. split; [exact Hlb|]. split; [apply laid0_laid; auto|exact H].
Qed.
(** Attributes as written among the members: nothing for a table. *)
Definition fmt_unless : fmt cattr := fun W a bs => if is_table a then bs = [] else fmt_cattr W a bs.
Lemma wr_unless_ok : wr_ok wr_cattr_unless_bsm (fun _ => wf_class_attr) fmt_unless.
Proof.
  intros E a w Ha Hi. unfold wr_cattr_unless_bsm, fmt_unless.
  destruct a; cbn [is_table]; try (apply (wr_cattr_ok E _ w); [apply wf_cattr_cattr_b; exact Ha|exact Hi]).
  apply post_ret; auto. intros _ _ W _ _. reflexivity.
Qed.
Definition tuple (c : class) := (cl_access c, (cl_name c, (cl_super c, (cl_itfs c, (cl_fields c, (cl_methods c, cl_attrs c)))))).
Definition fmt_written : fmt class :=
  fmt_via tuple
    (fmt_pair fmt_u2 (fmt_pair fmt_class (fmt_pair (fmt_opt fmt_class) (fmt_pair (fmt_table2 fmt_class)
      (fmt_pair (fmt_table2 fmt_field) (fmt_pair (fmt_table2 (fmt_method fmt_code)) (fmt_table2 fmt_unless))))))).
Lemma wf_method_mono {C} (P Q : C -> Prop) m : (forall c, P c -> Q c) -> wf_method P m -> wf_method Q m.
Proof.
  intros H (H1 & H2 & H3 & H4 & H5). repeat split; auto; try apply H1; try apply H3. eapply Forall_impl; [|exact H5].
  intros a Ha. destruct a; cbn in *; auto.
Qed.
Lemma wr_members_ok : wr_ok wr_members (fun E => wf_class (we_heap E)) fmt_written.
Proof.
  intros E c w (_ & H1 & H2 & H3 & H4 & H5 & [H6 H6'] & H7 & _) Hi.
  apply (wr_via_ok tuple _ _ _ (wr_pair_ok _ _ _ _ _ _ (wr_cflags_ok ClassFlags)
    (wr_pair_ok _ _ _ _ _ _ (wr_idx_ok _ _ _ ins_class_ok)
    (wr_pair_ok _ _ _ _ _ _ (wr_opt_ok _ _ _ (wr_idx_ok _ _ _ ins_class_ok))
    (wr_pair_ok _ _ _ _ _ _ (wr_list16_ok _ _ _ (wr_idx_ok _ _ _ ins_class_ok))
    (wr_pair_ok _ _ _ _ _ _ (wr_list16_ok _ _ _ wr_field_ok)
    (wr_pair_ok _ _ _ _ _ _ (wr_list16_ok _ _ _ (wr_method_ok _ _ _ wr_code_fmt))
      (wr_list16_ok _ _ _ wr_unless_ok))))))) E c w); auto.
  refine (conj H1 (conj H2 (conj H3 (conj H4 (conj H5 (conj (conj H6 _) H7)))))).
  eapply Forall_impl; [|exact H6']. intros m. apply wf_method_mono. intros k (A & B & _). split; [|exact B].
  eapply wf_code_env; [|exact A]. reflexivity.
Qed.

(** * The table *)
Lemma with_bsm_inv w b : w_inv w -> w_inv (with_bsm w b).
Proof. intros []. constructor; auto. Qed.
Lemma wf_static_bsm heap b : wf_static b -> wf_bsm heap b.
Proof.
  intros [(H1 & H2 & H3) H4]. repeat split; auto; try apply H1. unfold static_args in H4. rewrite Forall_forall in *.
  intros o Ho. specialize (H3 o Ho). specialize (H4 o Ho). destruct o; [tauto|exact H3].
Qed.
Definition table_bytes : fmt (list bsm) := fun W tbl bs =>
  match tbl with [] => bs = [] | _ => fmt_cattr W (CBootstrap tbl) bs end.
Lemma wr_table_ok fuel E w1 : (1 <= fuel)%nat -> w_inv w1 -> Forall wf_static (w_bsm w1) -> len (w_bsm w1) < 65536 ->
  match wr_table fuel E w1 with
  | Ok (b, w3) => w_le (with_bsm w1 []) w3 /\ w_inv w3 /\ (we_md E = Debug -> fits w1 -> fits w3) /\
      (fits w3 -> forall W, agrees E W -> covers (W_pool W) w3 -> table_bytes W (w_bsm w1) b)
  | Err _ => False
  | Panic k => we_md E = Debug /\ k = POverflow
  end.
Proof.
  intros Hfu Hi Hwf Hl. unfold wr_table. destruct (w_bsm w1) as [|b0 tl] eqn:Ew.
  - split; [|split; [auto|split; [auto|]]]; [|intros; reflexivity].
    repeat split; cbn; exists []; rewrite ?app_nil_r, ?Ew; auto.
  - assert (Hne : w_bsm w1 <> []) by congruence. rewrite <- Ew in *. clear Ew b0 tl. destruct fuel as [|fuel]; [lia|]. cbn [wr_rounds].
    remember (w_bsm w1) as tbl eqn:Etbl.
    replace (match tbl with [] => Ok ([], 0, w1) | _ :: _ => _ end) with
      (i <- chk_u (we_md E) 16 (0 + wrap_u 16 (len tbl)) ;;
       '(b, w) <- wr_each wr_bsm E tbl (with_bsm w1 []) ;;
       '(bs, i, w) <- wr_rounds fuel E i w ;; Ok (b ++ bs, i, w)) by (destruct tbl; [congruence|reflexivity]).
    pose proof (len_nonneg tbl) as Hn. unfold wrap_u at 1.
    rewrite Z.mod_small by (change (2 ^ 16) with 65536; lia). rewrite Z.add_0_l.
    unfold chk_u at 1. change (2 ^ 16) with 65536.
    assert ((0 <=? len tbl) && (len tbl <? 65536) = true) as -> by lia. cbn [bind].
    pose proof (with_bsm_inv w1 [] Hi) as Hi1.
    pose proof (wr_each_ok wr_bsm _ _ wr_bsm_ok E tbl (with_bsm w1 [])) as HE.
    specialize (HE ltac:(eapply Forall_impl; [|exact Hwf]; intros; apply wf_static_bsm; auto) Hi1).
    pose proof (still_bsms E tbl ltac:(eapply Forall_impl; [|exact Hwf]; intros ? [_ ?]; auto) (with_bsm w1 [])) as HS.
    destruct (wr_each wr_bsm E tbl (with_bsm w1 [])) as [[b w2]| |]; cbn [post bind] in *; auto.
    destruct HE as (Hle2 & Hi2 & Hd2 & HF2). cbn [adds snd with_bsm w_bsm app] in HS.
    assert (wr_rounds fuel E (len tbl) w2 = Ok ([], len tbl, w2)) as ->.
    { destruct fuel; cbn [wr_rounds]; rewrite HS; reflexivity. }
    cbn [bind]. rewrite app_nil_r.
    pose proof (wr_cow_ok E (str "BootstrapMethods") w2 ltac:(ascii) Hi2) as HC.
    destruct (wr_cow E (str "BootstrapMethods") w2) as [[n w3]| |] eqn:Ec; cbn [post bind] in *; auto.
    destruct HC as (Hle3 & Hi3 & Hd3 & HF3).
    pose proof (len_nonneg b) as Hb.
    assert (HK : match chk_u (we_md E) 32 (wrap_u 32 (len b) + 2) with
      | Ok k => be 4 k = u4 (len b + 2) | Err _ => False | Panic k => we_md E = Debug /\ k = POverflow end).
    { unfold chk_u, wrap_u. change (2 ^ 32) with 4294967296. destruct ((0 <=? len b mod 4294967296 + 2) && (len b mod 4294967296 + 2 <? 4294967296)).
      - rewrite <- be4_u4, <- (be_mod 4 (_ + 2)), <- (be_mod 4 (len b + 2)). change (256 ^ Z.of_nat 4) with 4294967296. rewrite Z.add_mod_idemp_l by lia. reflexivity.
      - destruct (we_md E); [auto|]. rewrite <- be4_u4, <- (be_mod 4 (len b + 2)). change (256 ^ Z.of_nat 4) with 4294967296. rewrite Z.add_mod_idemp_l by lia. reflexivity. }
    destruct (chk_u (we_md E) 32 (wrap_u 32 (len b) + 2)) as [k| |]; cbn [bind]; auto.
    split; [eapply w_le_trans; eauto|]. split; auto. split; [auto|].
    intros Hf W Ha Hc. unfold table_bytes. destruct tbl as [|x0 x1] eqn:Et; [congruence|]. rewrite <- Et in *. clear x0 x1 Et.
    assert (Hb3 : w_bsm w3 = []).
    { pose proof (gw_cow E (str "BootstrapMethods") w2) as HS3. rewrite Ec in HS3. cbn [adds snd] in HS3. rewrite HS3, HS. reflexivity. }
    assert (Hh : holds W w3) by (split; [exact Hc|exists (W_tbl W); rewrite Hb3; reflexivity]).
    assert (Hl3 : len (w_bsm w3) <= 65536) by (rewrite Hb3; cbn; lia).
    destruct (HF3 Hf Hl3 W Ha Hh) as (i & Hi0 & -> & Hn0).
    destruct (later_le _ _ _ _ Hle3 HF2 Hf Hl3 W Ha Hh) as (bss & -> & HB).
    exists i, (u2 (len tbl) ++ concat bss). split; [exact Hi0|]. split; [exact Hn0|]. split.
    + rewrite HK, be2_u2. f_equal. f_equal. f_equal. rewrite len_app. change (len (u2 (len tbl))) with 2. lia.
    + exists bss. auto.
Qed.

(** * The body *)
Definition with_table (c : class) (tbl : list bsm) : class :=
  {| cl_version := cl_version c; cl_access := cl_access c; cl_name := cl_name c; cl_super := cl_super c; cl_itfs := cl_itfs c;
     cl_fields := cl_fields c; cl_methods := cl_methods c;
     cl_attrs := others (cl_attrs c) ++ match tbl with [] => [] | _ => [CBootstrap tbl] end |}.
(** The attribute count of the class is the number of attributes written. *)
Definition count_ok (heap : Z -> option bsm) (c : class) : Prop :=
  length (tables (cl_attrs c)) = match class_table heap c with [] => 0%nat | _ => 1%nat end.
Lemma unless_others W attrs bss : Forall2 (fmt_unless W) attrs bss ->
  exists bss', concat bss = concat bss' /\ Forall2 (fmt_cattr W) (others attrs) bss'.
Proof.
  induction 1 as [|a b l bs Hab _ IH]; [exists []; cbn; auto|]. destruct IH as (bss' & E & IH).
  cbn [others filter concat]. unfold fmt_unless in Hab.
  destruct (is_table a); cbn [negb].
  - subst b. exists bss'. auto.
  - exists (b :: bss'). cbn [concat]. rewrite E. auto.
Qed.
Lemma others_tables attrs : (length attrs = length (others attrs) + length (tables attrs))%nat.
Proof.
  unfold others, tables. induction attrs as [|a attrs IH]; cbn; [reflexivity|]. destruct (is_table a); cbn; lia.
Qed.
Lemma written_members tbl W c b1 b2 : length (tables (cl_attrs c)) = match tbl with [] => 0%nat | _ => 1%nat end ->
  fmt_written W c b1 -> table_bytes W tbl b2 -> fmt_members W (with_table c tbl) (b1 ++ b2).
Proof.
  intros Hc H Ht. unfold fmt_written, fmt_via in H. cbn [tuple] in H.
  destruct H as (x1 & y1 & -> & F1 & H). cbn [fst snd] in *. destruct H as (x2 & y2 & -> & F2 & H). cbn [fst snd] in *.
  destruct H as (x3 & y3 & -> & F3 & H). cbn [fst snd] in *. destruct H as (x4 & y4 & -> & F4 & H). cbn [fst snd] in *.
  destruct H as (x5 & y5 & -> & F5 & H). cbn [fst snd] in *. destruct H as (x6 & y6 & -> & F6 & H). cbn [fst snd] in *.
  destruct H as (bss & Hl & -> & HB). destruct (unless_others _ _ _ HB) as (bss' & -> & HB').
  unfold fmt_members, fmt_via, with_table. cbn [cl_access cl_name cl_super cl_itfs cl_fields cl_methods cl_attrs].
  rewrite <- !app_assoc. exists x1. eexists. split; [reflexivity|]. split; [exact F1|].
  exists x2. eexists. split; [reflexivity|]. split; [exact F2|]. exists x3. eexists. split; [reflexivity|]. split; [exact F3|].
  exists x4. eexists. split; [reflexivity|]. split; [exact F4|]. exists x5. eexists. split; [reflexivity|]. split; [exact F5|].
  exists x6. eexists. split; [reflexivity|]. split; [exact F6|]. cbn [snd].
  pose proof (others_tables (cl_attrs c)) as HN. unfold table_bytes in Ht.
  destruct tbl as [|b0 tl].
  - subst b2. rewrite !app_nil_r. exists bss'. unfold len in *. rewrite <- (Nat.add_0_r (length (others _))), <- Hc, <- HN. auto.
  - exists (bss' ++ [b2]). rewrite concat_app. cbn [concat]. rewrite app_nil_r.
    assert (len (others (cl_attrs c) ++ [CBootstrap (b0 :: tl)]) = len (cl_attrs c)) as -> by (unfold len; rewrite app_length; cbn [length]; lia).
    split; auto. split; auto. apply Forall2_app; auto.
Qed.
Lemma table_wf heap c : wf_class heap c -> Forall wf_static (class_table heap c).
Proof.
  intros (_ & _ & _ & _ & _ & _ & _ & [_ Ha] & Hh). apply Forall_app. split; apply Forall_flat_map; rewrite Forall_forall in *.
  - intros a Hin. specialize (Ha a Hin). destruct a; auto.
  - intros d _. destruct (heap (d_cell d)) eqn:E; constructor; eauto.
Qed.
(** What follows the pool: the members, then the table. *)
Lemma wr_body_ok fuel md heap c : (1 <= fuel)%nat -> wf_class heap c -> len (class_table heap c) < 65536 ->
  match wr_body fuel (wenv_class md heap) c with
  | Ok (b, w) => w_inv w /\ (md = Debug -> fits w) /\
      exists b1 b2, b = b1 ++ b2 /\
      (fits w -> forall W, agrees (wenv_class md heap) W -> covers (W_pool W) w -> W_tbl W = class_table heap c ->
       fmt_written W c b1 /\ table_bytes W (class_table heap c) b2)
  | Err _ => False
  | Panic k => md = Debug /\ k = POverflow
  end.
Proof.
  intros Hfu Hw Hl. unfold wr_body. set (E := wenv_class md heap). set (w0 := with_bsm wst_new (initial_bsms (cl_attrs c))).
  pose proof (wr_members_ok E c w0 Hw (with_bsm_inv _ _ w_inv_new)) as HM.
  pose proof (a_members heap E c w0 eq_refl) as HG.
  destruct (wr_members E c w0) as [[b1 w1]| |]; cbn [post bind] in *; auto. destruct HM as (Hle1 & Hi1 & Hd1 & HF1). cbn [adds snd] in HG.
  assert (HT : w_bsm w1 = class_table heap c) by exact HG.
  pose proof (wr_table_ok fuel E w1 Hfu Hi1) as HB. rewrite HT in HB. specialize (HB (table_wf _ _ Hw) Hl).
  destruct (wr_table fuel E w1) as [[b2 w3]| |]; cbn [bind] in *; auto. destruct HB as (Hle3 & Hi3 & Hd3 & HF3).
  assert (Hf0 : fits w0) by (unfold fits; cbn; unfold count_of; cbn; lia).
  split; auto. split; [intros; apply Hd3; auto|]. exists b1, b2. split; [reflexivity|]. intros Hf W Ha Hcov HW.
  split; [|apply HF3; auto]. apply HF1; auto.
  - change (fits (with_bsm w1 [])). eapply fits_le; eauto.
  - rewrite HT. lia.
  - split; [|exists []; rewrite app_nil_r; congruence]. change (covers (W_pool W) (with_bsm w1 [])). eapply covers_le; eauto.
Qed.

(** * Reading *)
Section Reading.
Context (md : mode).
Lemma static_not_dynamic p i k s : is_constant p i k -> read_dynamic md p i s = Ok (None, s).
Proof.
  intros H. unfold read_dynamic. destruct k; cbn [is_constant] in H.
  1-4: rewrite H; reflexivity.
  - destruct H as (j & -> & _). reflexivity.
  - destruct H as (j & -> & _). reflexivity.
  - destruct H as (c & nt & -> & _). destruct (m_desc m); try reflexivity. destruct (m_itfs m); reflexivity.
  - destruct H as (j & -> & _). reflexivity.
  - destruct H as (n & m & -> & _). reflexivity.
Qed.
Let inv := rst_inv true.
Lemma ext_refl s : rst_ext s s.
Proof. exists []. rewrite app_nil_r. reflexivity. Qed.
Lemma ext_trans a b c : rst_ext a b -> rst_ext b c -> rst_ext a c.
Proof. intros [m E1] [n E2]. exists (m ++ n). rewrite E2, E1, app_assoc. reflexivity. Qed.
Lemma rd_arg_ok : srd_ok inv rst_ext (rd_bsm_arg md) (fun o => match o with Stat k => wf_constant k | Dyn _ => False end) (fmt_idx is_ordyn) same.
Proof.
  intros W s o bs rest Hi Ho (i & Hr & -> & HR) _. destruct o as [d|k]; [destruct Ho|]. cbn in HR.
  exists (Stat k), s. unfold rd_bsm_arg. rewrite rd_u16_u2 by (unfold u16; lia). cbn [bind]. unfold read_or_dynamic.
  rewrite (static_not_dynamic _ _ _ s HR). cbn [bind]. rewrite (read_constant_ok md _ _ _ Ho HR). cbn.
  split; auto. split; [apply ext_refl|]. split; [auto|reflexivity].
Qed.
Lemma forall2_same {A} W (s : rst) (l l' : list A) : Forall2 (same W s) l l' -> l = l'.
Proof. induction 1 as [|a b l l' H _ IH]; auto. cbv in H. congruence. Qed.
Lemma rd_bsm_ok : srd_ok inv rst_ext (rd_bsm md) wf_static fmt_bsm same.
Proof.
  intros W s b bs rest Hi [(H1 & H2 & H3) H4] (h & xs & -> & (i & Hr & -> & HR) & (bss & Hl & -> & HB)) Hs.
  unfold rd_bsm, rd_idx. rewrite <- !app_assoc, rd_u16_u2 by (unfold u16; lia). cbn [bind].
  rewrite (read_mhandle_ok md _ _ _ H1 HR). cbn [bind]. pose proof (len_nonneg (b_args b)).
  rewrite rd_u16_u2 by (unfold u16; lia). cbn [bind]. unfold len. rewrite Nat2Z.id.
  apply small_app in Hs as [_ Hs]. apply small_app in Hs as [_ Hs].
  destruct (srd_times_ok inv rst_ext ext_refl ext_trans _ _ _ _ (stable_same rst_ext) rd_arg_ok W _ _ HB s rest Hi) as (ys & s' & -> & He & Hi' & HY); auto.
  - unfold static_args in H4. rewrite Forall_forall in *. intros o Ho. specialize (H3 o Ho). specialize (H4 o Ho). destruct o; auto.
  - apply forall2_same in HY. subst ys. cbn [bind]. exists b, s'. split; [destruct b; reflexivity|]. split; auto. split; auto. reflexivity.
Qed.
Definition read_class (W : world) (s : rst) (c : class) (k : version -> class) : Prop := forall v, let c' := k v in
  cl_version c' = v /\ cl_access c' = cl_access c /\ cl_name c' = cl_name c /\ cl_super c' = cl_super c /\
  cl_itfs c' = cl_itfs c /\ cl_fields c' = cl_fields c /\
  Forall2 (method_sim (fun W s c c' => code_rel (dyn_read W s) c c') W s) (cl_methods c) (cl_methods c') /\
  cl_attrs c' = cl_attrs c.
Lemma dyn_read_ext W s s' d d' : rst_ext s s' -> dyn_read W s d d' -> dyn_read W s' d d'.
Proof.
  intros [m E] (H1 & H2 & k & b & A & B & C & D). split; auto. split; auto. exists k, b. rewrite E.
  repeat split; auto; try apply A. apply in_or_app. auto.
Qed.
Lemma insn_rel_mono R (D D' : dynamic -> dynamic -> Prop) i i' : (forall d d', D d d' -> D' d d') -> insn_rel R D i i' -> insn_rel R D' i i'.
Proof.
  intros H. assert (HO : forall A (Q : A -> A -> Prop) (o o' : ordyn A), ordyn_rel D Q o o' -> ordyn_rel D' Q o o') by (intros A Q [|] [|]; cbn; auto).
  destruct i, i'; cbn [insn_rel]; auto; intuition auto.
Qed.
Lemma code_rel_mono (D D' : dynamic -> dynamic -> Prop) c c' : (forall d d', D d d' -> D' d d') -> code_rel D c c' -> code_rel D' c c'.
Proof.
  intros H (H1 & H2 & H3 & H4). split; [exact H1|]. split; [exact H2|]. split; [|exact H4]. eapply forall2_impl; [|exact H3].
  intros i i'. apply insn_rel_mono. exact H.
Qed.
Definition code_read (W : world) (s : rst) (c c' : code) : Prop := code_rel (dyn_read W s) c c'.
Lemma code_read_stable : stable rst_ext code_read.
Proof. intros W s s' c c' He. apply code_rel_mono. intros d d'. apply dyn_read_ext. exact He. Qed.
Lemma method_sim_stable : stable rst_ext (method_sim code_read).
Proof.
  intros W s s' a b He (H1 & H2 & H3 & H4). repeat split; auto. eapply forall2_impl; [|exact H4]. intros x y.
  apply (mattr_sim_stable rst_ext code_read code_read_stable W s s'); auto.
Qed.
Definition wf_read (c : class) : Prop :=
  flags_of ClassFlags (cl_access c) /\ jstr (cl_name c) /\ opt_ok jstr (cl_super c) /\ wf_names (cl_itfs c) /\
  (len (cl_fields c) < 65536 /\ Forall wf_field (cl_fields c)) /\
  (len (cl_methods c) < 65536 /\ Forall (wf_method (fun k => exists E, wf_code E k /\ code_readable k)) (cl_methods c)) /\
  (len (cl_attrs c) < 65536 /\ Forall (wf_cattr_with wf_static) (cl_attrs c)).
Lemma rd_code_any : srd_ok inv rst_ext (rd_code md) (fun k => exists E, wf_code E k /\ code_readable k) fmt_code code_read.
Proof. intros W s c bs rest Hi (E & HP) HF Hs. apply (rd_code_ok true md E W s c bs rest Hi HP HF Hs). Qed.
Lemma rd_members_ok : srd_ok inv rst_ext (rd_members md) wf_read fmt_members read_class.
Proof.
  intros W s c bs rest Hi (H1 & H2 & H3 & H4 & H5 & H6 & H7) HF Hs.
  refine (srd_map_ok inv rst_ext _ tuple _ _ _ _ read_class
    (srd_pair_ok inv rst_ext ext_trans _ _ _ _ _ _ _ _ (stable_same rst_ext) (srd_lift_ok inv rst_ext ext_refl _ _ _ (rd_flags_ok ClassFlags))
    (srd_pair_ok inv rst_ext ext_trans _ _ _ _ _ _ _ _ (stable_same rst_ext) (srd_lift_ok inv rst_ext ext_refl _ _ _ rd_class_ok)
    (srd_pair_ok inv rst_ext ext_trans _ _ _ _ _ _ _ _ (stable_same rst_ext) (srd_lift_ok inv rst_ext ext_refl _ _ _ rd_opt_class_ok)
    (srd_pair_ok inv rst_ext ext_trans _ _ _ _ _ _ _ _ (stable_same rst_ext) (srd_lift_ok inv rst_ext ext_refl _ _ _ (rd_vec2S_ok _ _ _ rd_class_ok))
    (srd_pair_ok inv rst_ext ext_trans _ _ _ _ _ _ _ _ (stable_same rst_ext) (srd_lift_ok inv rst_ext ext_refl _ _ _ (rd_vec2S_ok _ _ _ (rd_field_ok md)))
    (srd_pair_ok inv rst_ext ext_trans _ _ _ _ _ _ _ _ (stable_list rst_ext _ method_sim_stable)
       (srd_vec2_ok inv rst_ext ext_refl ext_trans _ _ _ _ method_sim_stable
         (rd_method_ok inv rst_ext ext_refl ext_trans (rd_code md) _ _ _ code_read_stable rd_code_any md))
       (srd_vec2_ok inv rst_ext ext_refl ext_trans _ _ _ _ (cattr_sim_stable rst_ext same (stable_same rst_ext))
         (rd_cattr_ok inv rst_ext ext_refl ext_trans md _ _ (stable_same rst_ext) rd_bsm_ok)))))))) _ W s c bs rest Hi _ HF Hs).
  - intros W' s' c0 (a & n & su & it & fi & me & at_) (E1 & E2 & E3 & E4 & E5 & E6 & E7) v. cbn in *. unfold same in *.
    repeat split; auto. symmetry. clear - E7. induction E7 as [|x y l l' H _ IH]; auto. f_equal; auto. clear IH.
    destruct x, y; cbn in H; auto; try contradiction. f_equal. apply (forall2_same W' s'). exact H.
  - exact (conj H1 (conj H2 (conj H3 (conj H4 (conj H5 (conj H6 H7)))))).
Qed.
End Reading.
Lemma first_table_others attrs tbl : first_table (others attrs ++ match tbl with [] => [] | _ => [CBootstrap tbl] end) =
  match tbl with [] => None | _ => Some tbl end.
Proof.
  unfold others. induction attrs as [|a attrs IH]; [destruct tbl; reflexivity|]. cbn [filter]. destruct a; cbn [is_table negb app first_table]; exact IH.
Qed.
Lemma with_table_read heap tbl c : wf_class heap c -> len tbl < 65536 -> Forall wf_static tbl ->
  length (tables (cl_attrs c)) = match tbl with [] => 0%nat | _ => 1%nat end -> wf_read (with_table c tbl).
Proof.
  intros Hw Hl Ht Hc. destruct Hw as (_ & H1 & H2 & H3 & H4 & H5 & [H6 H6'] & [H7 H7'] & _). unfold with_table.
  split; [exact H1|]. split; [exact H2|]. split; [exact H3|]. split; [exact H4|]. split; [exact H5|]. split; [split; [exact H6|]|split].
  - eapply Forall_impl; [|exact H6']. intros m. apply wf_method_mono. intros k (A & _ & B). eauto.
  - cbn [cl_attrs]. pose proof (others_tables (cl_attrs c)). unfold len in *. rewrite app_length. destruct tbl; cbn [length] in *; lia.
  - cbn [cl_attrs]. apply Forall_app. split.
    + apply Forall_forall. intros a Ha. apply filter_In in Ha as [Ha Hn]. rewrite Forall_forall in H7'. specialize (H7' a Ha).
      destruct a; cbn in *; auto. discriminate.
    + destruct tbl as [|b tl]; constructor; auto. split; auto.
Qed.
