(** Properties of attributes, fields, methods and modules: C37, C38, C42, C43. *)
From Coq Require Import String.
From Verif Require Import Base BaseLemmas Wtf8Spec PrimModel PrimProofs TypeModel TypeSpec SigModel SigSpec SigProofs SigProps
  CpModel CpSpec CpProofs CpProps FileSpec AnnModel AnnSpec AnnProofs AnnProps AttrModel AttrSpec AttrProofs.

(** The length of an attribute has 32 bits, so what is read back is limited to
    things of less than 4 GiB. *)
Definition small_exact {A} (f : cwr A) (r : pool -> rd A) (F : fmt A) (E : wenv) (a : A) : Prop :=
  writes f E a /\
  forall bs p tbl, in_file f E a bs p tbl ->
    F (world_of E p tbl) a bs /\
    (len bs < 4294967296 -> forall rest, r p (bs ++ rest) = Ok (a, rest)).
Lemma small_exact_intro {A} (f : cwr A) (r : pool -> rd A) P Q F E a :
  wr_ok f P F -> rd_okS r Q F -> P E a -> Q a -> small_exact f r F E a.
Proof.
  intros Hf Hr HP HQ. split; [eapply wr_ok_writes; eauto|].
  intros bs p tbl H. pose proof (wr_ok_file _ _ _ _ _ _ _ _ Hf HP H) as HF. split; auto.
  intros Hs rest. apply (Hr (world_of E p tbl)); auto.
Qed.
(** For readers that register dynamic constants: here they register none. *)
Definition unmoved (s : rst) : world -> rst -> Prop := fun _ s' => s' = s.
Lemma small_exact_stateful {A} (f : cwr A) (r : pool -> srd rst A) P Q F E a s :
  wr_ok f P F -> srd_ok (unmoved s) eq r Q F same -> P E a -> Q a ->
  small_exact f (fun p l => '((b, s'), l) <- r p s l ;; Ok (b, l)) F E a /\
  forall bs p tbl, in_file f E a bs p tbl -> len bs < 4294967296 -> forall rest,
    r p s (bs ++ rest) = Ok ((a, s), rest).
Proof.
  intros Hf Hr HP HQ.
  assert (HR : forall bs p tbl, in_file f E a bs p tbl -> len bs < 4294967296 -> forall rest,
    r p s (bs ++ rest) = Ok ((a, s), rest)).
  { intros bs p tbl H Hs rest. pose proof (wr_ok_file _ _ _ _ _ _ _ _ Hf HP H) as HF.
    destruct (Hr (world_of E p tbl) s a bs rest eq_refl HQ HF Hs) as (b & s' & H1 & _ & -> & <-). exact H1. }
  split; auto. split; [eapply wr_ok_writes; eauto|]. intros bs p tbl H. split; [eapply wr_ok_file; eauto|].
  intros Hs rest. rewrite (HR bs p tbl H Hs rest). reflexivity.
Qed.

(** * C43: fields, methods without code, class-level tables *)
Theorem C43_field_roundtrip : forall md E f, wf_field f -> small_exact wr_field (rd_field md) fmt_field E f.
Proof. intros. apply (small_exact_intro _ _ _ _ _ _ _ wr_field_ok (rd_field_ok md)); auto. Qed.
Theorem C43_inner_class_roundtrip : forall E c, wf_inner_class c ->
  small_exact wr_inner_class rd_inner_class fmt_inner_class E c.
Proof. intros. apply (small_exact_intro _ _ _ _ _ _ _ wr_inner_class_ok rd_inner_class_ok); auto. Qed.
Theorem C43_parameter_roundtrip : forall E c, wf_mparam c ->
  small_exact wr_mparam rd_mparam fmt_mparam E c.
Proof. intros. apply (small_exact_intro _ _ _ _ _ _ _ wr_mparam_ok rd_mparam_ok); auto. Qed.

(** Whatever the model of code: [wc], [rc] and [F] are not used, the method has
    no Code attribute. *)
Definition no_code {C} : C -> Prop := fun _ => False.
Lemma mattr_same {S C} (f : world -> S -> C -> C -> Prop) W (s : S) (a b : mattr C) :
  wf_mattr no_code a -> mattr_sim f W s a b -> b = a.
Proof. unfold no_code. destruct a, b; cbn; intros Ha Hb; subst; try reflexivity; tauto. Qed.
Lemma method_same {S C} (f : world -> S -> C -> C -> Prop) W (s : S) (a b : method C) :
  wf_method no_code a -> method_sim f W s a b -> b = a.
Proof.
  intros (_ & _ & _ & _ & Ha) (H1 & H2 & H3 & H4). destruct a as [a1 a2 a3 a4], b as [b1 b2 b3 b4]. cbn in *. subst.
  f_equal. clear - Ha H4. induction H4; auto. inversion Ha; subst. f_equal; auto. eapply mattr_same; eauto.
Qed.
Lemma srd_same {A} inv (r : pool -> srd rst A) P F sim : srd_ok inv eq r P F sim ->
  (forall W s a b, P a -> sim W s a b -> b = a) -> srd_ok inv eq r P F same.
Proof.
  intros H Hs W s a bs rest Hi HP HF Hb. destruct (H W s a bs rest Hi HP HF Hb) as (b & s' & Hr & He & Hi' & Hsim).
  exists b, s'. repeat split; auto. symmetry. eapply Hs; eauto.
Qed.
Theorem C43_method_roundtrip : forall C (wc : cwr C) (rc : pool -> srd rst C) md E m s,
  wf_method no_code m ->
  small_exact (wr_method wc) (fun p l => '((b, s'), l) <- rd_method rc md p s l ;; Ok (b, l))
    (fmt_method (fun _ _ _ => False)) E m /\
  forall bs p tbl, in_file (wr_method wc) E m bs p tbl -> len bs < 4294967296 -> forall rest,
    rd_method rc md p s (bs ++ rest) = Ok ((m, s), rest).
Proof.
  intros C wc rc md E m s Hm.
  apply (small_exact_stateful _ _ (fun _ => wf_method no_code) (wf_method no_code)); auto.
  - apply (wr_method_ok wc (fun _ => no_code)). intros ? ? ? [].
  - eapply srd_same; [apply (rd_method_ok (unmoved s) eq) with (f := fun _ _ _ _ => False); auto|].
    + congruence.
    + intros ? ? ? ? ? ? [].
    + intros ? ? ? ? ? _ [].
    + intros. eapply method_same; eauto.
Qed.
Theorem C43_class_attribute_roundtrip : forall md E a s, wf_cattr a ->
  small_exact wr_cattr (fun p l => '((b, s'), l) <- rd_cattr md p s l ;; Ok (b, l)) fmt_cattr E a /\
  forall bs p tbl, in_file wr_cattr E a bs p tbl -> len bs < 4294967296 -> forall rest,
    rd_cattr md p s (bs ++ rest) = Ok ((a, s), rest).
Proof.
  intros md E a s Ha. apply (small_exact_stateful _ _ wf_cattr_b wf_cattr); auto using wr_cattr_ok, wf_cattr_cattr_b.
  apply (srd_same _ _ _ _ (cattr_sim (fun _ _ _ _ => False))).
  - intros W s0 x bs rest Hi Hx HF Hs. refine (rd_cattr_ok (unmoved s) eq _ _ md (fun _ => False) _ _ _ W s0 x bs rest Hi _ HF Hs); auto.
    + congruence.
    + intros ? ? ? ? ? ? [].
    + intros ? ? ? ? ? _ [].
    + destruct x; cbn in *; tauto.
  - intros W s0 x y Hx H. destruct x, y; cbn in *; try tauto; try congruence.
Qed.

(** * C42: modules *)
Theorem C42_module_roundtrip : forall E m, wf_module m -> small_exact wr_module rd_module fmt_module E m.
Proof. intros. apply (small_exact_intro _ _ _ _ _ _ _ wr_module_ok rd_module_ok); auto. Qed.

(** ** A field, a method, class attributes and a module that meet the
    hypotheses. *)
Definition ex_field : field :=
  {| f_access := 0x19; f_name := [120]; f_desc := TInt;
     f_attrs := [FConstantValue (KI32 5); FDeprecated; FRaw {| ra_name := [88; 89]; ra_body := [1; 2; 3] |}] |}.
Example C43_field_ex : wf_field ex_field /\
  exists p tbl, in_file wr_field (wenv_class Debug (fun _ => None)) ex_field
    [0;0x19; 0;1; 0;2; 0;3; 0;3;0;0;0;2;0;4; 0;5;0;0;0;0; 0;6;0;0;0;3;1;2;3] p tbl.
Proof.
  split.
  - split; [vm_compute; repeat split; congruence|]. split; [ascii|]. split; [split; [exact I|ascii]|]. split; [cbn; lia|].
    repeat constructor; cbn; try ascii; try (unfold i32; lia).
    intros H. repeat (destruct H as [H|H]; [vm_compute in H; discriminate|]). destruct H.
  - file_eval.
Qed.
Definition ex_method : method unit :=
  {| me_access := 0x401; me_name := [109]; me_desc := TMethod [] (Some TInt);
     me_attrs := [MExceptions [[69]]; MParameters [{| mp_name := Some [97]; mp_access := 0x10 |}]] |}.
Example C43_method_ex : wf_method no_code ex_method /\
  exists p tbl, in_file (wr_method (fun _ _ _ => Err EInvalid)) (wenv_class Debug (fun _ => None)) ex_method
    [4;1; 0;1; 0;2; 0;2; 0;3;0;0;0;4;0;1;0;5; 0;6;0;0;0;5;1;0;7;0;0x10] p tbl.
Proof.
  split.
  - split; [vm_compute; repeat split; congruence|]. split; [ascii|]. split; [split; [cbn; auto|ascii]|]. split; [cbn; lia|].
    repeat constructor; cbn; try ascii; try lia; try (vm_compute; repeat split; congruence).
  - file_eval.
Qed.
Definition ex_inner : inner_class :=
  {| ic_inner := [65; 36; 66]; ic_outer := Some [65]; ic_name := None; ic_access := 0x4008 |}.
Example C43_class_ex : wf_cattr (CInnerClasses [ex_inner]) /\
  wf_cattr (CEnclosingMethod [65] (Some ([109], TMethod [] None))) /\ wf_cattr (CDebugExtension [65; 0; 66]) /\
  exists p tbl, in_file wr_cattr (wenv_class Debug (fun _ => None)) (CInnerClasses [ex_inner])
    [0;1;0;0;0;10; 0;1; 0;3;0;5;0;0;0x40;8] p tbl.
Proof.
  split; [|split; [|split]].
  - split; [cbn; lia|]. repeat constructor; cbn; try ascii; try exact I; vm_compute; repeat split; congruence.
  - cbn. repeat split; try ascii; auto. constructor.
  - exists [65; 0; 66]. repeat split; try (repeat constructor; unfold is_cp; lia).
    all: cbn; unfold is_lead, is_trail; lia.
  - file_eval.
Qed.
(** Parameters with at most one bound each are well formed as they are... *)
Lemma class_signature_single c : wf_class_sig c -> Forall single_bound (cs_params c) ->
  jstr (flat_map utf8 (class_sig_text c)) -> wf_class_signature c.
Proof. intros H Hs Hj. split; auto. exists (cs_params c). rewrite split_single by auto. destruct c; auto. Qed.
(** ... and so is what the crate reads for several bounds: <T:LA;:LB;>LA; *)
Definition ex_bounds : class_sig :=
  {| cs_params := [{| tp_name := [84]; tp_class := Some (SCls (cls 65)); tp_itfs := [] |};
                   {| tp_name := []; tp_class := Some (SCls (cls 66)); tp_itfs := [] |}]; cs_super := cls 65; cs_itfs := [] |}.
Example C43_bounds_ex : wf_cattr (CSignature ex_bounds) /\
  exists p tbl, in_file wr_cattr (wenv_class Debug (fun _ => None)) (CSignature ex_bounds) [0;1; 0;0;0;2; 0;2] p tbl.
Proof.
  split.
  - split; [|vm_compute; ascii]. exists [{| tp_name := [84]; tp_class := Some (SCls (cls 65)); tp_itfs := [SCls (cls 66)] |}].
    split; [reflexivity|]. split; [|split; [apply cls_ok; lia|constructor]]. split; [|cbn; auto]. constructor; [|constructor].
    split; [apply id1; lia|]. constructor; [|constructor; [|constructor]]; apply cls_ok; lia.
  - file_eval.
Qed.
Definition ex_module : module :=
  {| mo_name := [109]; mo_flags := 0x20; mo_version := None;
     mo_requires := [{| rq_module := [106]; rq_flags := 0x8000; rq_version := Some [57] |}];
     mo_exports := [{| eo_package := [112]; eo_flags := 0; eo_to := [[109]; [110]] |}]; mo_opens := [];
     mo_uses := [[85]]; mo_provides := [{| pv_class := [85]; pv_with := [[86]] |}] |}.
Example C42_ex : wf_module ex_module /\
  exists p tbl, in_file wr_module (wenv_class Debug (fun _ => None)) ex_module
    [0;2; 0;0x20; 0;0; 0;1; 0;4;0x80;0;0;5; 0;1; 0;7;0;0;0;2;0;2;0;9; 0;0; 0;1;0;11; 0;1;0;11;0;1;0;13] p tbl.
Proof.
  split.
  - unfold wf_module, wf_names. cbn [mo_name mo_flags mo_version mo_requires mo_exports mo_opens mo_uses mo_provides ex_module].
    repeat split; try (cbn; lia); repeat constructor; cbn; try ascii; try (vm_compute; congruence); try exact I.
  - file_eval.
Qed.
Print Assumptions C43_field_roundtrip.
Print Assumptions C43_inner_class_roundtrip.
Print Assumptions C43_parameter_roundtrip.
Print Assumptions C43_method_roundtrip.
Print Assumptions C43_class_attribute_roundtrip.
Print Assumptions C42_module_roundtrip.

(** * C37: framing of attributes *)
(** Reading uses the name, the length and a body of that length, and nothing of
    what follows. *)
Definition framed_attr {A} (r : rd A) : Prop := forall l a rest, bytes l -> r l = Ok (a, rest) ->
  exists i body, l = attr_bytes i body ++ rest /\ u16 i /\ len body < 4294967296 /\
    forall rest', r (attr_bytes i body ++ rest') = Ok (a, rest').
Lemma rd_attr_framed {B} p (known : list (list Z * rd B)) raw : framed_attr (rd_attr p known raw).
Proof.
  intros l b rest Hb H. destruct (rd_attr_framing p known raw l b rest Hb H) as (i & body & _ & H1 & H2 & H3 & _ & _ & H4).
  exists i, body. auto.
Qed.
Theorem C37_read_framing : forall md p,
  framed_attr (rd_fattr md p) /\
  (forall C (rc : pool -> srd rst C) s, framed_attr (rd_mattr rc md p s)) /\
  (forall s, framed_attr (rd_cattr md p s)).
Proof. intros md p. repeat split; intros; apply rd_attr_framed. Qed.

(** A known attribute followed, within its length, by more bytes is an error.
    SourceDebugExtension has no end of its own. *)
Lemma fmt_attr_bytes {A} name (F : fmt A) W a i body : fmt_attr name F W a (attr_bytes i body) -> u16 i ->
  len body < 4294967296 -> 0 < i < 65536 /\ is_utf8_at (W_pool W) i name /\ F W a body.
Proof.
  intros (j & b & Hj & Hn & He & HF) Hi Hb. unfold attr_bytes in He.
  assert (H : rd_u16 (u2 i ++ u4 (len body) ++ body) = rd_u16 (u2 j ++ u4 (len b) ++ b)) by congruence.
  rewrite !rd_u16_u2 in H by (unfold u16 in *; lia). inversion H; subst. auto.
Qed.
Ltac trail h lem := match goal with HF : fmt_attr _ _ _ _ (attr_bytes _ _) |- _ =>
  apply fmt_attr_bytes in HF as (? & ? & ?);
  [eapply (attr_trailing _ _ _ _ h); [eapply lem| |eassumption|eassumption|eassumption|assumption|assumption|reflexivity];
     first [exact I|assumption]
  |assumption|rewrite len_app in *;  match goal with H : len ?b + len ?x < _ |- _ => pose proof (len_nonneg x); lia end] end.
Theorem C37_trailing_field : forall md W a i body x rest,
  wf_fattr a -> (forall r, a <> FRaw r) -> fmt_fattr W a (attr_bytes i body) ->
  u16 i -> x <> [] -> len (body ++ x) < 4294967296 ->
  rd_fattr md (W_pool W) (attr_bytes i (body ++ x) ++ rest) = Err (EAttrLen (len (body ++ x)) (len body)).
Proof.
  intros md W a i body x rest Ha Hr HF Hi Hx Hl. unfold rd_fattr. destruct a; cbn [wf_fattr fmt_fattr] in *.
  - trail (fun _ : unit => FDeprecated) rd_none_ok.
  - trail (fun _ : unit => FSynthetic) rd_none_ok.
  - trail FSignature (rd_field_sig_ok md).
  - trail FConstantValue (rd_ok_S _ _ _ (rd_constant_ok md)).
  - trail FVisible (rd_annots_ok md).
  - trail FInvisible (rd_annots_ok md).
  - trail FVisibleT (rd_tannots_ok _ _ _ md rd_field_target_ok).
  - trail FInvisibleT (rd_tannots_ok _ _ _ md rd_field_target_ok).
  - exfalso. eapply Hr. reflexivity.
Qed.
Theorem C37_trailing_method : forall C (rc : pool -> srd rst C) md s W (a : mattr C) i body x rest,
  wf_mattr no_code a -> (forall r, a <> MRaw r) -> fmt_mattr (fun _ _ _ => False) W a (attr_bytes i body) ->
  u16 i -> x <> [] -> len (body ++ x) < 4294967296 ->
  rd_mattr rc md (W_pool W) s (attr_bytes i (body ++ x) ++ rest) = Err (EAttrLen (len (body ++ x)) (len body)).
Proof.
  intros C rc md s W a i body x rest Ha Hr HF Hi Hx Hl. unfold rd_mattr. destruct a; cbn [wf_mattr fmt_mattr] in *.
  - destruct Ha.
  - trail (fun _ : unit => (@MDeprecated C, s)) rd_none_ok.
  - trail (fun _ : unit => (@MSynthetic C, s)) rd_none_ok.
  - trail (fun x => (@MSignature C x, s)) (rd_method_sig_ok md).
  - trail (fun x => (@MVisible C x, s)) (rd_annots_ok md).
  - trail (fun x => (@MInvisible C x, s)) (rd_annots_ok md).
  - trail (fun x => (@MVisibleT C x, s)) (rd_tannots_ok _ _ _ md rd_method_target_ok).
  - trail (fun x => (@MInvisibleT C x, s)) (rd_tannots_ok _ _ _ md rd_method_target_ok).
  - trail (fun x => (@MVisibleP C x, s)) (rd_pannots_ok md).
  - trail (fun x => (@MInvisibleP C x, s)) (rd_pannots_ok md).
  - trail (fun x => (@MExceptions C x, s)) (rd_vec2S_ok _ _ _ rd_class_ok).
  - trail (fun x => (@MDefault C x, s)) (rd_ok_S _ _ _ (rd_aval_ok md)).
  - trail (fun x => (@MParameters C x, s)) (rd_vec1S_ok _ _ _ rd_mparam_ok).
  - exfalso. eapply Hr. reflexivity.
Qed.
Theorem C37_trailing_class : forall md s W a i body x rest,
  wf_cattr a -> (forall r, a <> CRaw r) -> (forall d, a <> CDebugExtension d) ->
  fmt_cattr W a (attr_bytes i body) ->
  u16 i -> x <> [] -> len (body ++ x) < 4294967296 ->
  rd_cattr md (W_pool W) s (attr_bytes i (body ++ x) ++ rest) = Err (EAttrLen (len (body ++ x)) (len body)).
Proof.
  intros md s W a i body x rest Ha Hr Hd HF Hi Hx Hl. unfold rd_cattr. destruct a; cbn [wf_cattr fmt_cattr] in *.
  - trail (fun x => (CSignature x, s)) (rd_class_sig_ok md).
  - trail (fun _ : unit => (CSynthetic, s)) rd_none_ok.
  - trail (fun _ : unit => (CDeprecated, s)) rd_none_ok.
  - trail (fun x => (CSourceFile x, s)) (rd_ok_S _ _ _ rd_cow_ok).
  - trail (fun x => (CInnerClasses x, s)) (rd_vec2S_ok _ _ _ rd_inner_class_ok).
  - trail (fun x => ((fun '(c, m) => CEnclosingMethod c m) x, s))
      (rd_pair_ok _ _ _ _ _ _ rd_class_ok (rd_ok_S _ _ _ (rd_opt_nametype_ok md))).
  - exfalso. eapply Hd. reflexivity.
  - destruct Ha.
  - trail (fun x => (CModule x, s)) rd_module_ok.
  - trail (fun x => (CModulePackages x, s)) (rd_names_ok _ _ (rd_ok_S _ _ _ (rd_strcp_ok 20))).
  - trail (fun x => (CModuleMainClass x, s)) rd_class_ok.
  - trail (fun x => (CNestHost x, s)) rd_class_ok.
  - trail (fun x => (CNestMembers x, s)) (rd_names_ok _ _ rd_class_ok).
  - trail (fun x => (CVisible x, s)) (rd_annots_ok md).
  - trail (fun x => (CInvisible x, s)) (rd_annots_ok md).
  - trail (fun x => (CVisibleT x, s)) (rd_tannots_ok _ _ _ md rd_class_target_ok).
  - trail (fun x => (CInvisibleT x, s)) (rd_tannots_ok _ _ _ md rd_class_target_ok).
  - exfalso. eapply Hr. reflexivity.
Qed.

(** What is written starts with the index of the name and the length of the
    body. *)
Theorem C37_write_framing : forall E bs p tbl,
  (forall a, wf_fattr a -> in_file wr_fattr E a bs p tbl -> exists i body, bs = attr_bytes i body) /\
  (forall C (wc : cwr C) a, wf_mattr no_code a -> in_file (wr_mattr wc) E a bs p tbl ->
     exists i body, bs = attr_bytes i body) /\
  (forall a, wf_cattr a -> in_file wr_cattr E a bs p tbl -> exists i body, bs = attr_bytes i body).
Proof.
  intros E bs p tbl. split; [|split].
  - intros a Ha H. pose proof (wr_ok_file _ _ _ _ _ _ _ _ wr_fattr_ok Ha H) as HF.
    destruct a; cbn in HF; destruct HF as (i & body & _ & _ & -> & _); exists i, body; reflexivity.
  - intros C wc a Ha H.
    assert (Hw : wr_ok (wr_mattr wc) (fun _ => wf_mattr no_code) (fmt_mattr (fun _ _ _ => False))).
    { apply (wr_mattr_ok wc (fun _ => no_code)). intros ? ? ? []. }
    pose proof (wr_ok_file _ _ _ _ _ _ _ _ Hw Ha H) as HF.
    destruct a; cbn in HF; destruct HF as (i & body & _ & _ & -> & _); exists i, body; reflexivity.
  - intros a Ha H. pose proof (wr_ok_file _ _ _ _ _ _ _ _ wr_cattr_ok (wf_cattr_cattr_b E a Ha) H) as HF.
    destruct a; cbn in HF; destruct HF as (i & body & _ & _ & -> & _); exists i, body; reflexivity.
Qed.

(** ... but the length is cut to 32 bits: a longer body is written out in full
    and read back as a shorter one, leaving garbage behind. *)
Lemma take_firstn l : forall n, 0 <= n <= len l -> exists a b, take n l = Ok (a, b) /\ l = a ++ b /\ len a = n.
Proof.
  intros n Hn. exists (firstn (Z.to_nat n) l), (skipn (Z.to_nat n) l).
  assert (Hl : len (firstn (Z.to_nat n) l) = n) by (unfold len in *; rewrite firstn_length; lia).
  split; [|split; auto; symmetry; apply firstn_skipn].
  rewrite <- (firstn_skipn (Z.to_nat n) l) at 1. apply take_app'. lia.
Qed.
Theorem C37_long_body_refuted : forall md E r bs p tbl,
  wf_raw field_attr_names r -> 4294967296 <= len (ra_body r) -> in_file wr_fattr E (FRaw r) bs p tbl ->
  exists short junk, rd_fattr md p bs = Ok (FRaw {| ra_name := ra_name r; ra_body := short |}, junk) /\
    ra_body r = short ++ junk /\ len short = len (ra_body r) mod 4294967296 /\ junk <> [].
Proof.
  intros md E r bs p tbl Hr Hl H. pose proof (wr_ok_file _ _ _ _ (FRaw r) _ _ _ wr_fattr_ok Hr H) as HF.
  cbn in HF. destruct HF as (i & body & Hi & Hn & -> & ->). set (n := len (ra_body r)) in *.
  assert (Hm : 0 <= n mod 4294967296 < 4294967296) by (apply Z.mod_pos_bound; lia).
  destruct (take_firstn (ra_body r) (n mod 4294967296)) as (a & b & Ht & Hab & Ha); [lia|].
  exists a, b. repeat split; auto.
  - unfold rd_fattr, rd_attr. rewrite rd_u16_u2 by (unfold u16; lia). cbn [bind].
    change p with (W_pool (world_of E p tbl)). rewrite (read_wtf8_ok _ _ _ Hn).
    replace (u4 n) with (u4 (n mod 4294967296)).
    + rewrite rd_u32_u4 by (unfold u32; lia). cbn [bind]. rewrite Ht. cbn [bind].
      destruct Hr as [_ Hr]. rewrite known_none by exact Hr. reflexivity.
    + rewrite <- !be4_u4. apply (be_mod 4).
  - intros ->. rewrite app_nil_r in Hab. subst a. fold n in Ha. lia.
Qed.
Lemma long_ex (b : list Z) : 4294967296 <= len b -> exists r bs p tbl, wf_raw field_attr_names r /\ 4294967296 <= len (ra_body r) /\
  in_file wr_fattr (wenv_class Release (fun _ => None)) (FRaw r) bs p tbl.
Proof.
  intros Hb. exists {| ra_name := [88]; ra_body := b |}. do 3 eexists. split; [|split].
  - split; [ascii|]. intros H. repeat (destruct H as [H|H]; [vm_compute in H; discriminate|]). destruct H.
  - exact Hb.
  - eapply in_file_intro; [reflexivity|reflexivity|reflexivity| |]; vm_compute; discriminate.
Qed.
Lemma long_list n : exists b : list Z, n <= len b.
Proof. exists (repeat 0 (Z.to_nat n)). unfold len. rewrite repeat_length. lia. Qed.
Example C37_long_ex : exists r bs p tbl, wf_raw field_attr_names r /\ 4294967296 <= len (ra_body r) /\
  in_file wr_fattr (wenv_class Release (fun _ => None)) (FRaw r) bs p tbl.
Proof. destruct (long_list 4294967296) as [b Hb]. exact (long_ex b Hb). Qed.
(** A Deprecated attribute with one byte too many. *)
Example C37_trailing_ex : forall E p tbl, is_utf8_at p 1 (str "Deprecated") ->
  fmt_fattr (world_of E p tbl) FDeprecated (attr_bytes 1 []) /\
  rd_fattr Debug p [0;1; 0;0;0;1; 7] = Err (EAttrLen 1 0).
Proof.
  intros E p tbl H. assert (HF : fmt_fattr (world_of E p tbl) FDeprecated (attr_bytes 1 [])).
  { exists 1, []. repeat split; auto; lia. }
  split; auto.
  apply (C37_trailing_field Debug (world_of E p tbl) FDeprecated 1 [] [7] []); auto; try discriminate; [exact I|unfold u16; lia|vm_compute; reflexivity].
Qed.
Print Assumptions C37_read_framing.
Print Assumptions C37_trailing_field.
Print Assumptions C37_trailing_method.
Print Assumptions C37_trailing_class.
Print Assumptions C37_write_framing.
Print Assumptions C37_long_body_refuted.

(** * C38: unknown attributes *)
Theorem C38_unknown_field : forall md E p i name body,
  is_utf8_at p i name -> jstr name -> ~ In name field_attr_names -> 0 < i < 65536 -> len body < 4294967290 ->
  let r := {| ra_name := name; ra_body := body |} in
  (forall rest, rd_fattr md p (attr_bytes i body ++ rest) = Ok (FRaw r, rest)) /\
  writes wr_fattr E (FRaw r) /\
  forall bs p' tbl, in_file wr_fattr E (FRaw r) bs p' tbl ->
    exists j, bs = attr_bytes j body /\ is_utf8_at p' j name.
Proof.
  intros md E p i name body Hn Hj Hk Hi Hl r. split; [|split].
  - intros rest. apply (attr_raw (world_of E p []) r).
    + exists i, body. auto.
    + unfold small, attr_bytes, u2, u4. rewrite !len_app. change (len [_; _]) with 2. change (len [_; _; _; _]) with 4. lia.
    + exact Hk.
  - apply (wr_ok_writes _ _ _ _ _ wr_fattr_ok). split; auto.
  - intros bs p' tbl H. assert (Hw : wf_fattr (FRaw r)) by (split; auto).
    pose proof (wr_ok_file _ _ _ _ _ _ _ _ wr_fattr_ok Hw H) as HF. destruct HF as (j & b & _ & Hn' & -> & ->). exists j. auto.
Qed.
Theorem C38_unknown_method : forall C (wc : cwr C) (rc : pool -> srd rst C) md E p s i name body,
  is_utf8_at p i name -> jstr name -> ~ In name method_attr_names -> 0 < i < 65536 -> len body < 4294967290 ->
  let r := {| ra_name := name; ra_body := body |} in
  (forall rest, rd_mattr rc md p s (attr_bytes i body ++ rest) = Ok ((MRaw r, s), rest)) /\
  writes (wr_mattr wc) E (MRaw r) /\
  forall bs p' tbl, in_file (wr_mattr wc) E (MRaw r) bs p' tbl ->
    exists j, bs = attr_bytes j body /\ is_utf8_at p' j name.
Proof.
  intros C wc rc md E p s i name body Hn Hj Hk Hi Hl r.
  assert (Hw : wr_ok (wr_mattr wc) (fun _ => wf_mattr no_code) (fmt_mattr (fun _ _ _ => False))).
  { apply (wr_mattr_ok wc (fun _ => no_code)). intros ? ? ? []. }
  assert (Hr : wf_mattr (@no_code C) (MRaw r)) by (split; auto). split; [|split].
  - intros rest. unfold rd_mattr. change p with (W_pool (world_of E p [])). 
    apply (attr_raw (world_of E p []) r _ _ (fun r => (MRaw r, s))).
    + exists i, body. auto.
    + unfold small, attr_bytes, u2, u4. rewrite !len_app. change (len [_; _]) with 2. change (len [_; _; _; _]) with 4. lia.
    + exact Hk.
  - apply (wr_ok_writes _ _ _ _ _ Hw Hr).
  - intros bs p' tbl H. pose proof (wr_ok_file _ _ _ _ _ _ _ _ Hw Hr H) as HF.
    destruct HF as (j & b & _ & Hn' & -> & ->). exists j. auto.
Qed.
Theorem C38_unknown_class : forall md E p s i name body,
  is_utf8_at p i name -> jstr name -> ~ In name class_attr_names -> 0 < i < 65536 -> len body < 4294967290 ->
  let r := {| ra_name := name; ra_body := body |} in
  (forall rest, rd_cattr md p s (attr_bytes i body ++ rest) = Ok ((CRaw r, s), rest)) /\
  writes wr_cattr E (CRaw r) /\
  forall bs p' tbl, in_file wr_cattr E (CRaw r) bs p' tbl ->
    exists j, bs = attr_bytes j body /\ is_utf8_at p' j name.
Proof.
  intros md E p s i name body Hn Hj Hk Hi Hl r.
  assert (Hr : wf_cattr_b E (CRaw r)) by (split; auto). split; [|split].
  - intros rest. unfold rd_cattr. change p with (W_pool (world_of E p [])). 
    apply (attr_raw (world_of E p []) r _ _ (fun r => (CRaw r, s))).
    + exists i, body. auto.
    + unfold small, attr_bytes, u2, u4. rewrite !len_app. change (len [_; _]) with 2. change (len [_; _; _; _]) with 4. lia.
    + exact Hk.
  - apply (wr_ok_writes _ _ _ _ _ wr_cattr_ok Hr).
  - intros bs p' tbl H. pose proof (wr_ok_file _ _ _ _ _ _ _ _ wr_cattr_ok Hr H) as HF.
    destruct HF as (j & b & _ & Hn' & -> & ->). exists j. auto.
Qed.
(** "Record" is unknown everywhere; the name is in the pool of a file that has
    only it. *)
Example C38_ex : jstr (str "Record") /\ ~ In (str "Record") class_attr_names /\
  ~ In (str "Record") method_attr_names /\ ~ In (str "Record") field_attr_names /\
  exists p tbl,
    in_file wr_cattr (wenv_class Debug (fun _ => None)) (CRaw {| ra_name := str "Record"; ra_body := [9] |})
      [0;1; 0;0;0;1; 9] p tbl /\ is_utf8_at p 1 (str "Record").
Proof.
  split; [ascii|]. repeat (split; [intros H; repeat (destruct H as [H|H]; [vm_compute in H; discriminate|]); destruct H|]).
  match goal with |- exists p tbl, in_file ?f ?E ?a ?bs p tbl /\ _ =>
    destruct (in_file_check f E a bs (fun p => match p 1 with Some (RWtf8 s) => list_eqb Z.eqb s (str "Record") | _ => false end))
      as (p & tbl & H & Hp); [vm_compute; reflexivity|exists p, tbl; split; [exact H|]] end.
  unfold is_utf8_at. destruct (p 1) as [[]|]; try discriminate. apply (list_eqb_eq Z.eqb Z.eqb_eq) in Hp. congruence.
Qed.
Print Assumptions C38_unknown_field.
Print Assumptions C38_unknown_method.
Print Assumptions C38_unknown_class.
