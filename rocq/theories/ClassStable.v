(** Properties C63, C64, C72: writing and reading again. *)
From Coq Require Import String.
From Verif Require Import Base BaseLemmas Wtf8Spec PrimModel PrimProofs TypeModel TypeSpec CpModel CpSpec CpProofs CpProps FileSpec
  SigModel AnnModel AnnSpec AttrModel AttrSpec AttrProofs FrameModel FrameSpec InsnModel InsnSpec InsnProofs InsnProps
  CodeModel CodeSpec CodeProofs CodeWrite CodeRead CodeProps ClassModel ClassSpec ClassProofs ClassProps.

(** * Classes without code *)

(** Reading what has no dynamic constants registers none. *)
Definition calm {S A} (r : srd S A) (P : A -> Prop) : Prop :=
  forall s l a s' l', r s l = Ok ((a, s'), l') -> P a -> s' = s.
Lemma calm_lift {S A} (r : rd A) P : calm (@lift S A r) P.
Proof. intros s l a s' l' H _. unfold lift in H. inv_bind H. destruct v. congruence. Qed.
Lemma calm_pair {S A B} (r : srd S A) (q : srd S B) P Q : calm r P -> calm q Q ->
  calm (srd_pair r q) (fun x => P (fst x) /\ Q (snd x)).
Proof.
  intros H1 H2 s l [a b] s' l' H [Ha Hb]. unfold srd_pair in H. inv_bind H. destruct v as [[x s1] l1]. inv_bind H. destruct v as [[y s2] l2].
  apply ok_inj in H. inversion H; subst. cbn in *. transitivity s1; eauto.
Qed.
Lemma calm_map {S A B} (f : A -> B) (r : srd S A) P : calm r (fun a => P (f a)) -> calm (srd_map f r) P.
Proof. intros H1 s l b s' l' H Hb. unfold srd_map in H. inv_bind H. destruct v as [[x s1] l1]. apply ok_inj in H. inversion H; subst. eauto. Qed.
Lemma calm_times {S A} n (r : srd S A) P : calm r P -> calm (srd_times n r) (Forall P).
Proof.
  intros Hr. induction n as [|n IH]; intros s l a s' l' H Ha; cbn [srd_times] in H; [congruence|].
  inv_bind H. destruct v as [[x s1] l1]. inv_bind H. destruct v as [[y s2] l2]. apply ok_inj in H. inversion H; subst.
  inversion Ha; subst. transitivity s1; eauto.
Qed.
Lemma calm_vec {S A} k (r : srd S A) P : calm r P -> calm (srd_vec k r) (Forall P).
Proof. intros Hr s l a s' l' H Ha. unfold srd_vec in H. inv_bind H. destruct v as [n l1]. eapply calm_times; eauto. Qed.
Lemma calm_mono {S A} (r : srd S A) (P Q : A -> Prop) : calm r P -> (forall a, Q a -> P a) -> calm r Q.
Proof. intros H Hi s l a s' l' HR HQ. eauto. Qed.
Lemma rd_attr_inv {B} p (known : list (list Z * rd B)) raw l x rest : rd_attr p known raw l = Ok (x, rest) ->
  (exists n r b b', In (n, r) known /\ r b = Ok (x, b')) \/ (exists r, x = raw r).
Proof.
  intros H. unfold rd_attr in H. inv_bind H. destruct v as [i l1]. destruct (read_wtf8 p i) as [name|]; [|discriminate].
  inv_bind H. destruct v as [n l2]. inv_bind H. destruct v as [body l3].
  destruct (assoc _ name known) as [r|] eqn:Ea; [|right; inversion H; eauto].
  inv_bind H. destruct v as [b rs]. destruct rs; [|discriminate]. left.
  assert (HI : exists n, In (n, r) known).
  { clear - Ea. induction known as [|[k v] known IH]; [discriminate|]. cbn in Ea. destruct (list_eqb Z.eqb name k); [exists k; left; congruence|].
    destruct (IH Ea) as [n Hn]. exists n. right. exact Hn. }
  destruct HI as [nm Hn]. exists nm, r, body, []. split; [auto|congruence].
Qed.
Definition no_code (a : mattr code) : Prop := match a with MCode _ => False | _ => True end.
Definition calm_cattr (a : cattr) : Prop := match a with CBootstrap l => Forall static_args l | _ => True end.
Ltac calm_just := match goal with H : rd_map _ ?r _ = Ok _ |- _ => unfold rd_map in H; inv_bind H;
  match goal with v : (_ * _)%type |- _ => destruct v end; congruence end.
Lemma calm_mattr md p : calm (rd_mattr (rd_code md) md p) no_code.
Proof.
  intros s l a s' l' H Ha. unfold rd_mattr in H. apply rd_attr_inv in H as [(n & r & b & b' & HI & H)|(r & H)]; [|congruence].
  unfold mattr_known in HI. cbn [In] in HI. repeat destruct HI as [HI|HI]; try (exfalso; exact HI); apply (f_equal snd) in HI; cbn [snd] in HI; subst r; try calm_just.
  unfold rd_map in H. inv_bind H. destruct v as [[c s1] l1]. inversion H; subst. contradiction.
Qed.
Lemma calm_arg md p : calm (rd_bsm_arg md p) (fun o => match o with Stat _ => True | Dyn _ => False end).
Proof.
  intros s l a s' l' H Ha. unfold rd_bsm_arg in H. inv_bind H. destruct v as [i l1]. inv_bind H. destruct v as [o s1]. destruct o; [|discriminate].
  apply ok_inj in H. inversion H; subst. unfold read_or_dynamic in E0. inv_bind E0. destruct v as [[d|] s2]; [inversion E0; subst; contradiction|].
  inv_bind E0. destruct v as [k|]; [|discriminate]. cbn in E0. inversion E0; subst. unfold read_dynamic in E1. unfold read_constant in E2.
  destruct (p i) as [[]|] eqn:Ep; try congruence. unfold read_member in E2. rewrite Ep in E2. discriminate.
Qed.
Lemma calm_bsm md p : calm (rd_bsm md p) static_args.
Proof.
  intros s l a s' l' H Ha. unfold rd_bsm in H. inv_bind H. destruct v as [h l1]. inv_bind H. destruct v as [n l2]. inv_bind H. destruct v as [[xs s1] l3].
  apply ok_inj in H. inversion H; subst. eapply (calm_times _ _ _ (calm_arg md p)); eauto.
Qed.
Lemma calm_cattr_ok md p : calm (rd_cattr md p) calm_cattr.
Proof.
  intros s l a s' l' H Ha. unfold rd_cattr in H. apply rd_attr_inv in H as [(n & r & b & b' & HI & H)|(r & H)]; [|congruence].
  unfold cattr_known in HI. cbn [In] in HI. repeat destruct HI as [HI|HI]; try (exfalso; exact HI); apply (f_equal snd) in HI; cbn [snd] in HI; subst r; try calm_just.
  unfold rd_map in H. inv_bind H. destruct v as [[c s1] l1]. inversion H; subst. cbn in Ha. eapply (calm_vec _ _ _ (calm_bsm md p)); eauto.
Qed.
Lemma calm_members md p s l k s' l' : rd_members md p s l = Ok ((k, s'), l') ->
  (exists v, codeless (k v) /\ Forall calm_cattr (cl_attrs (k v))) -> s' = s.
Proof.
  intros H Hc. assert (HM : calm (rd_members md p) (fun k => exists v, codeless (k v) /\ Forall calm_cattr (cl_attrs (k v)))); [|eapply HM; eauto].
  clear. unfold rd_members. apply calm_map. eapply calm_mono.
  - repeat (apply calm_pair; [try apply (calm_lift _ (fun _ => True))|]); [|apply calm_vec, calm_cattr_ok].
    apply calm_vec. unfold rd_method. apply (calm_map _ _ (fun m => Forall no_code (me_attrs m))). eapply calm_mono.
    + repeat (apply calm_pair; [try apply (calm_lift _ (fun _ => True))|]). apply calm_vec, calm_mattr.
    + intros (a & n & d & t) H. cbn in H. cbn [fst snd]. tauto.
  - intros (a & n & sup & i & f & m & t) H. cbn [fst snd]. destruct H as (v & H1 & H2). cbn in H1, H2.
    repeat split; auto.
Qed.
Lemma calm_file md l c h rest : rd_classfile md l = Ok ((c, h), rest) -> codeless c -> Forall calm_cattr (cl_attrs c) -> h = [].
Proof.
  intros H Hc Ha. unfold rd_classfile in H. inv_bind H. destruct v as [m l1]. destruct (m =? JVM_MAGIC); [|discriminate].
  inv_bind H. destruct v as [v l2]. inv_bind H. destruct v0 as [p l3]. inv_bind H. destruct v0 as [[k s] l4]. inv_bind H.
  apply ok_inj in H. inversion H; subst. clear H. apply calm_members in E2.
  - subst s. destruct (first_table (cl_attrs (k v))) as [b|]; [|congruence].
    clear - E3. unfold bootstrap_methods in E3. cbn [r_refs] in E3.
    assert (HF : forall i h, fill_bsms i b [] h = Ok ([], h)) by (clear; induction b as [|x b IH]; intros i h0; cbn; auto).
    rewrite HF in E3. cbn in E3. congruence.
  - exists v. auto.
Qed.

Lemma pair_ext {A B} (f : cwr A) (g : cwr B) E a b b' : (forall w, g E b w = g E b' w) ->
  forall w, wr_pair f g E (a, b) w = wr_pair f g E (a, b') w.
Proof. intros H w. unfold wr_pair. cbn [fst snd]. destruct (f E a w) as [[x w1]| |]; cbn [bind]; try reflexivity. rewrite H. reflexivity. Qed.
Lemma with_table_members E c tbl w : length (tables (cl_attrs c)) = match tbl with [] => 0%nat | _ => 1%nat end ->
  wr_members E (with_table c tbl) w = wr_members E c w.
Proof.
  intros Hc. unfold wr_members, wr_via. cbn [with_table cl_access cl_name cl_super cl_itfs cl_fields cl_methods cl_attrs].
  repeat (apply pair_ext; clear w; intros w). unfold wr_list16.
  rewrite <- (unless_same E (others (cl_attrs c) ++ _)), <- (unless_same E (cl_attrs c)).
  replace (others (others (cl_attrs c) ++ match tbl with [] => [] | _ => [CBootstrap tbl] end)) with (others (cl_attrs c)).
  - destruct (wr_each _ E _ w) as [[x w1]| |]; cbn [bind]; try reflexivity.
    replace (len (others (cl_attrs c) ++ match tbl with [] => [] | _ => [CBootstrap tbl] end)) with (len (cl_attrs c)); [reflexivity|].
    pose proof (others_tables (cl_attrs c)). unfold len. rewrite app_length. destruct tbl; cbn [length] in *; lia.
  - unfold others. rewrite filter_app. replace (filter _ match tbl with [] => [] | _ => _ end) with (@nil cattr) by (destruct tbl; reflexivity).
    rewrite app_nil_r. clear. induction (cl_attrs c) as [|a l IH]; auto. cbn. destruct (negb (is_table a)) eqn:E; cbn; rewrite ?E; congruence.
Qed.
Lemma others_no_bsms l : initial_bsms (others l) = [].
Proof. unfold others, initial_bsms. induction l as [|a l IH]; auto. cbn. destruct a; cbn; auto. Qed.
Lemma with_table_same fuel md heap c : class_dyns c = [] -> count_ok no_heap c ->
  wr_classfile fuel md heap (with_table c (class_table no_heap c)) = wr_classfile fuel md heap c.
Proof.
  intros Hn Hc. unfold wr_classfile. cbn [with_table cl_version]. destruct (wr_version (cl_version c)); cbn [bind]; try reflexivity.
  unfold wr_body. rewrite with_table_members by exact Hc.
  replace (initial_bsms (cl_attrs (with_table c (class_table no_heap c)))) with (initial_bsms (cl_attrs c)); [reflexivity|].
  cbn [with_table cl_attrs]. unfold initial_bsms at 2. rewrite flat_map_app. fold (initial_bsms (others (cl_attrs c))). rewrite others_no_bsms.
  unfold class_table. rewrite Hn. cbn [contents flat_map app]. rewrite app_nil_r. fold (initial_bsms (cl_attrs c)).
  destruct (initial_bsms (cl_attrs c)); cbn; rewrite ?app_nil_r; reflexivity.
Qed.
Theorem C64_stable_partial : forall fuel md c out, (1 <= fuel)%nat ->
  wf_class no_heap c -> codeless c -> len (class_table no_heap c) < 65536 -> count_ok no_heap c ->
  wr_classfile fuel md no_heap c = Ok out -> md = Debug \/ pool_fits fuel md no_heap c -> len out < 4294967296 ->
  forall md', exists c', rd_classfile md' out = Ok ((c', []), []) /\ wr_classfile fuel md (heap_of []) c' = Ok out /\
  forall n, Nat.iter n (fun r => l <- r ;; rewrite_file fuel md md' l) (Ok out) = Ok out.
Proof.
  intros fuel md c out Hfu Hw Hn Hl Hc Hout Hfit Hsm md'. destruct (C61_roundtrip_partial fuel md no_heap c Hfu Hw Hl Hc) as [_ H].
  destruct (H out Hout Hfit Hsm md' []) as (c' & h & HR & HS). rewrite app_nil_r in HR. apply codeless_same in HS; auto. subst c'.
  assert (h = []).
  { eapply calm_file; [exact HR| |].
    - exact Hn.
    - cbn [with_table cl_attrs]. apply Forall_app. split.
      + unfold others. clear. induction (cl_attrs c) as [|a l IH]; cbn; auto. destruct a; cbn [is_table negb]; auto; constructor; cbn; auto.
      + pose proof (table_wf _ _ Hw) as Ht. destruct (class_table no_heap c) as [|b0 tl]; constructor; [|constructor].
        cbn. eapply Forall_impl; [|exact Ht]. intros b Hb. apply Hb. }
  subst h. assert (HW : wr_classfile fuel md (heap_of []) (with_table c (class_table no_heap c)) = Ok out).
  { rewrite with_table_same by auto using codeless_dyns. exact Hout. }
  eexists. split; [exact HR|]. split; [exact HW|].
  assert (HX : rewrite_file fuel md md' out = Ok out) by (unfold rewrite_file; rewrite HR; cbn [bind]; exact HW).
  induction n as [|n IH]; [reflexivity|]. cbn. unfold Nat.iter in IH. rewrite IH. exact HX.
Qed.
Definition ex_codeless : class := {|
  cl_version := {| minor := 0; maj := J8 |}; cl_access := 33; cl_name := [65]; cl_super := Some [66]; cl_itfs := [[67]];
  cl_fields := [{| f_access := 1; f_name := [102]; f_desc := TLong; f_attrs := [FDeprecated] |}];
  cl_methods := [{| me_access := 1025; me_name := [109]; me_desc := TMethod [] None; me_attrs := [MSynthetic] |}];
  cl_attrs := ex_attrs |}.
Example C64_stable_ex : wf_class no_heap ex_codeless /\ codeless ex_codeless /\ len (class_table no_heap ex_codeless) < 65536 /\
  count_ok no_heap ex_codeless /\ exists out, wr_classfile 1 Debug no_heap ex_codeless = Ok out /\ len out < 4294967296.
Proof.
  split; [|split; [repeat constructor|split; [cbn; lia|split; [reflexivity|eexists; split; [vm_compute; reflexivity|vm_compute; reflexivity]]]]].
  unfold wf_class, ex_codeless. cbn [cl_version cl_access cl_name cl_super cl_itfs cl_fields cl_methods cl_attrs minor].
  split; [unfold u16; lia|]. split; [split; [unfold u16; lia|reflexivity]|]. split; [ascii|]. split; [cbn; ascii|].
  split; [split; [cbn; lia|repeat constructor; ascii]|].
  split; [split; [cbn; lia|]|split; [split; [cbn; lia|]|split; [split; [cbn; lia|]|discriminate]]].
  - constructor; [|constructor]. split; [split; [cbn; unfold u16; lia|reflexivity]|]. split; [cbn; ascii|].
    split; [split; [exact I|ascii]|]. split; [cbn; lia|]. repeat constructor.
  - constructor; [|constructor]. split; [split; [cbn; unfold u16; lia|reflexivity]|]. split; [cbn; ascii|].
    split; [split; [cbn; repeat constructor|ascii]|]. split; [cbn; lia|]. repeat constructor.
  - repeat constructor; try apply ex_bsm_static; cbn; ascii.
Qed.
Print Assumptions C64_stable_partial.

(** * Dynamic constants in bootstrap arguments *)
Definition ex_inner : bsm := {| b_handle := {| h_kind := InvokeStatic; h_member := {| m_owner := [66]; m_name := [99];
  m_desc := TMethod [] (Some TInt); m_itfs := false |} |}; b_args := [] |}.
Definition ex_outer : bsm := {| b_handle := b_handle ex_bsm; b_args := [Dyn {| d_cell := 4; d_name := [110]; d_desc := TInt |}] |}.
Definition ex_nest (cell : Z) : option bsm :=
  if cell =? 3 then Some ex_outer else if cell =? 4 then Some ex_inner else None.

(** C63: the class uses [ex_outer], whose argument is computed by [ex_inner].
    The bootstrap methods registered while the table is written are numbered
    from 0 again: in the file, the argument of [ex_outer] is computed by
    [ex_outer] itself. *)
Theorem C63_refuted : exists out c h d b d',
  (forall md, wr_classfile 2 md ex_nest (ex_class 1 [CBootstrap []]) = Ok out /\ rd_classfile md out = Ok ((c, h), [])) /\
  class_dyns c = [d] /\ heap_of h (d_cell d) = Some b /\ b_handle b = b_handle ex_outer /\
  b_args b = [Dyn d'] /\ d_name d' = [110] /\ heap_of h (d_cell d') = Some b /\ b_handle b <> b_handle ex_inner.
Proof.
  do 6 eexists. split; [intros []; (split; [vm_compute; reflexivity|vm_compute; reflexivity])|].
  split; [vm_compute; reflexivity|]. split; [vm_compute; reflexivity|]. split; [vm_compute; reflexivity|]. split; [vm_compute; reflexivity|].
  split; [vm_compute; reflexivity|]. split; [vm_compute; reflexivity|]. vm_compute. discriminate.
Qed.
Print Assumptions C63_refuted.

(** C72: writing that class again, the argument of [ex_outer] registers
    [ex_outer] again in every round. *)
Lemma rounds_step fuel E i w v b w' : w_bsm w = v -> v <> [] -> wr_each wr_bsm E v (with_bsm w []) = Ok (b, w') ->
  wr_rounds (S fuel) E i w = (i <- chk_u (we_md E) 16 (i + wrap_u 16 (len v)) ;; '(bs, i, w) <- wr_rounds fuel E i w' ;; Ok (b ++ bs, i, w)).
Proof.
  intros <- Hv H. cbn [wr_rounds]. destruct (w_bsm w) eqn:Ew; [congruence|]. destruct (chk_u _ _ _); cbn [bind]; auto. rewrite H. reflexivity.
Qed.
Lemma rounds_loop E v b w : w_bsm w = v -> v <> [] -> wr_each wr_bsm E v (with_bsm w []) = Ok (b, w) -> we_md E = Release ->
  forall fuel i, wr_rounds fuel E i w = Panic PFuel.
Proof.
  intros Hv Hn H Hr. induction fuel as [|fuel IH]; intros i.
  - cbn [wr_rounds]. rewrite Hv. destruct v; [congruence|reflexivity].
  - rewrite (rounds_step _ _ _ _ _ _ _ Hv Hn H), Hr. unfold chk_u. destruct (_ && _); cbn [bind]; rewrite IH; reflexivity.
Qed.
Lemma rounds_overflow E v b w : w_bsm w = v -> v <> [] -> len v < 65536 -> wr_each wr_bsm E v (with_bsm w []) = Ok (b, w) -> we_md E = Debug ->
  forall fuel i, 0 <= i < 65536 -> 65536 - i <= Z.of_nat fuel -> wr_rounds fuel E i w = Panic POverflow.
Proof.
  intros Hv Hn Hl H Hr. assert (1 <= len v) by (destruct v; [congruence|rewrite len_cons; pose proof (len_nonneg v); lia]).
  induction fuel as [|fuel IH]; intros i Hi Hf; [lia|].
  rewrite (rounds_step _ _ _ _ _ _ _ Hv Hn H), Hr. unfold chk_u, wrap_u. rewrite Z.mod_small by (change (2 ^ 16) with 65536; lia).
  destruct ((0 <=? i + len v) && (i + len v <? 2 ^ 16)) eqn:E1; [|reflexivity]. apply andb_prop in E1 as [_ E1]. apply Z.ltb_lt in E1. change (2 ^ 16) with 65536 in E1.
  cbn [bind]. rewrite IH by lia. reflexivity.
Qed.
Lemma rounds_panic fuel E i w v b w' i' k : w_bsm w = v -> v <> [] -> wr_each wr_bsm E v (with_bsm w []) = Ok (b, w') ->
  chk_u (we_md E) 16 (i + wrap_u 16 (len v)) = Ok i' -> wr_rounds fuel E i' w' = Panic k -> wr_rounds (S fuel) E i w = Panic k.
Proof. intros Hv Hn H Hi Hp. rewrite (rounds_step _ _ _ _ _ _ _ Hv Hn H), Hi. cbn [bind]. rewrite Hp. reflexivity. Qed.
Lemma table_rounds fuel E w k : w_bsm w <> [] -> wr_rounds fuel E 0 w = Panic k -> wr_table fuel E w = Panic k.
Proof. intros Hn H. unfold wr_table. destruct (w_bsm w); [congruence|]. rewrite H. reflexivity. Qed.
Lemma file_table fuel md heap c b w k : u16 (minor (cl_version c)) ->
  wr_members (wenv_class md heap) c (with_bsm wst_new (initial_bsms (cl_attrs c))) = Ok (b, w) ->
  wr_table fuel (wenv_class md heap) w = Panic k -> wr_classfile fuel md heap c = Panic k.
Proof.
  intros Hu H1 H2. unfold wr_classfile. destruct (version_rt _ [] Hu) as (vb & -> & _). cbn [bind]. unfold wr_body.
  rewrite H1. cbn [bind]. rewrite H2. reflexivity.
Qed.
Theorem C72_refuted : exists out c h,
  (forall md, wr_classfile 2 md ex_nest (ex_class 1 [CBootstrap []]) = Ok out /\ rd_classfile md out = Ok ((c, h), [])) /\
  (forall fuel, wr_classfile fuel Release (heap_of h) c = Panic PFuel) /\
  (forall fuel, 70000 <= Z.of_nat fuel -> wr_classfile fuel Debug (heap_of h) c = Panic POverflow).
Proof.
  do 3 eexists. split; [intros []; (split; [vm_compute; reflexivity|vm_compute; reflexivity])|]. split.
  - intros fuel. eapply file_table; [cbn; unfold u16; lia|vm_compute; reflexivity|]. apply table_rounds; [discriminate|].
    destruct fuel as [|fuel]; [reflexivity|]. eapply rounds_panic; [reflexivity|discriminate|vm_compute; reflexivity|vm_compute; reflexivity|].
    destruct fuel as [|fuel]; [reflexivity|]. eapply rounds_panic; [reflexivity|discriminate|vm_compute; reflexivity|vm_compute; reflexivity|].
    eapply rounds_loop; [reflexivity|discriminate|vm_compute; reflexivity|reflexivity].
  - intros fuel Hf. eapply file_table; [cbn; unfold u16; lia|vm_compute; reflexivity|]. apply table_rounds; [discriminate|].
    destruct fuel as [|fuel]; [lia|]. eapply rounds_panic; [reflexivity|discriminate|vm_compute; reflexivity|vm_compute; reflexivity|].
    destruct fuel as [|fuel]; [lia|]. eapply rounds_panic; [reflexivity|discriminate|vm_compute; reflexivity|vm_compute; reflexivity|].
    eapply rounds_overflow; [reflexivity|discriminate|reflexivity|vm_compute; reflexivity|reflexivity|split; [discriminate|reflexivity]|].
    rewrite !Nat2Z.inj_succ in Hf. lia.
Qed.
(** Bootstrap methods without dynamic arguments are written in one round. *)
Theorem C72_terminates_partial : forall fuel md heap c,
  wf_class heap c -> len (class_table heap c) < 65536 ->
  wr_classfile (S fuel) md heap c <> Panic PFuel /\ wr_classfile (S fuel) md heap c = wr_classfile 1 md heap c.
Proof.
  intros fuel md heap c Hw Hl. split.
  - destruct (written_parts (S fuel) md heap c) as [[[out ->]|[_ ->]] _]; auto; try lia; discriminate.
  - assert (HS : forall c E w, wr_rounds (S fuel) E c w = wr_rounds 1 E c w \/ wr_rounds 1 E c w = Panic PFuel).
    { intros i E w. cbn [wr_rounds]. destruct (w_bsm w); auto. destruct (chk_u _ _ _); cbn [bind]; auto.
      destruct (wr_each _ _ _ _) as [[b1 w1]| |]; cbn [bind]; auto. destruct fuel; [auto|]. cbn [wr_rounds]. destruct (w_bsm w1); auto. }
    assert (H1 : wr_classfile 1 md heap c <> Panic PFuel).
    { destruct (written_parts 1 md heap c) as [[[out ->]|[_ ->]] _]; auto; try lia; discriminate. }
    unfold wr_classfile, wr_body in *. destruct (wr_version (cl_version c)); cbn [bind] in *; auto.
    destruct (wr_members _ _ _) as [[b w]| |]; cbn [bind] in *; auto. unfold wr_table in *. destruct (w_bsm w) eqn:Ew; auto.
    destruct (HS 0 (wenv_class md heap) w) as [->|E]; auto. rewrite E in H1. cbn in H1. congruence.
Qed.
Example C72_ex : let c := ex_class 2 ex_attrs in wf_class ex_heap c /\ len (class_table ex_heap c) < 65536 /\ class_dyns c <> [].
Proof. split; [apply C61_ex|]. split; [cbn; lia|discriminate]. Qed.
Print Assumptions C72_refuted.
Print Assumptions C72_terminates_partial.
