(** Reading the class files of ForeignClassSpec. *)
From Coq Require Import String.
From Verif Require Import Base BaseLemmas Wtf8Spec PrimModel PrimProofs PrimProps TypeModel TypeSpec CpModel CpSpec CpProofs CpProps FileSpec
  SigModel AnnModel AnnSpec AttrModel AttrSpec AttrProofs FrameModel FrameSpec FrameProofs InsnModel InsnSpec InsnProofs InsnProps
  CodeModel CodeSpec CodeProofs CodeWrite CodeRead ClassModel ClassSpec ClassProofs ClassProps ForeignSpec ForeignCode ForeignClassSpec.

(** * Pool *)
Lemma entry_at_low es : forall n i, i < n -> entry_at n es i = None.
Proof.
  induction es as [|e es IH]; intros n i H; [reflexivity|]. cbn [entry_at]. assert (i =? n = false) as -> by lia.
  apply IH. pose proof (slots_pos e). lia.
Qed.
Lemma place_at es : forall n m i, (forall j, n <= j -> assoc Z.eqb j m = None) ->
  assoc Z.eqb i (CpProofs.place n es m) = if i <? n then assoc Z.eqb i m else entry_at n es i.
Proof.
  induction es as [|e es IH]; intros n m i Hm; cbn [CpProofs.place entry_at].
  - destruct (i <? n) eqn:E; auto. apply Hm. lia.
  - pose proof (slots_pos e). rewrite IH.
    + rewrite set_assoc. rewrite (Z.eqb_sym n i). destruct (i =? n) eqn:E1.
      * assert (i <? n + slots_of e = true) as -> by lia. assert (i <? n = false) as -> by lia. reflexivity.
      * destruct (i <? n) eqn:E2; [assert (i <? n + slots_of e = true) as -> by lia; reflexivity|].
        destruct (i <? n + slots_of e) eqn:E3; auto. rewrite Hm by lia. symmetry. apply entry_at_low. lia.
    + intros j Hj. rewrite set_assoc. assert (n =? j = false) as -> by lia. apply Hm. lia.
Qed.
Lemma rd_pool_bytes md es bs rest : pool_bytes es bs -> exists m, rd_pool md (bs ++ rest) = Ok (m, rest) /\
  forall i, pool_of m i = entry_at 1 es i.
Proof.
  intros (bss & Hw & Hf & Hc & ->). pose proof (count_of_pos es). exists (CpProofs.place 1 es []). split.
  - unfold rd_pool. rewrite <- app_assoc, rd_u16_u2 by (unfold u16; lia). cbn [bind].
    apply rd_pool_loop_ok; auto; try lia. rewrite app_length. lia.
  - intros i. unfold pool_of. rewrite place_at by reflexivity. destruct (i <? 1) eqn:E; [|reflexivity].
    symmetry. apply entry_at_low. lia.
Qed.

(** * Bootstrap methods *)
Section Reading.
Context (md : mode) (heap : Z -> option bsm).
Let inv := rst_inv true.
Definition arg_read (W : world) (s : rst) (o o' : ordyn constant) : Prop :=
  match o, o' with Dyn d, Dyn d' => dyn_read W s d d' | Stat k, Stat k' => k' = k | _, _ => False end.
Definition bsm_read (W : world) (s : rst) (b b' : bsm) : Prop :=
  b_handle b' = b_handle b /\ Forall2 (arg_read W s) (b_args b) (b_args b').
Lemma arg_read_stable : stable rst_ext arg_read.
Proof. intros W s s' [d|k] [d'|k'] He H; cbn in *; auto. eapply dyn_read_ext; eauto. Qed.
Lemma bsm_read_stable : stable rst_ext bsm_read.
Proof.
  intros W s s' b b' He [H1 H2]. split; auto. eapply forall2_impl; [|exact H2]. intros. eapply arg_read_stable; eauto.
Qed.
Lemma rd_arg_dyn : srd_ok inv rst_ext (rd_bsm_arg md)
  (fun o => wf_ordyn heap o /\ match o with Dyn d => ty_is_method (d_desc d) = false | Stat _ => True end) (fmt_idx is_ordyn) arg_read.
Proof.
  intros W s o bs rest Hi [Ho Hm] HF Hsm. destruct o as [d|k].
  - destruct HF as (i & Hr & -> & b & Hb & k & nt & Hp & Hk & Hn & Hnt). cbn in Ho. destruct Ho as (_ & _ & Hd). rewrite Hm in Hp.
    destruct Hi as (I1 & I2 & I3 & I4). assert (Hkl : k < len (W_tbl W)) by (assert (Z.to_nat k < length (W_tbl W))%nat by (apply nth_error_Some; congruence); unfold len; lia). assert (Hu : u16 k) by (unfold u16; lia).
    exists (Dyn {| d_cell := r_next s; d_name := d_name d; d_desc := d_desc d |}), {| r_refs := r_refs s ++ [(k, r_next s)]; r_next := r_next s + 1 |}.
    split.
    + unfold rd_bsm_arg. rewrite rd_u16_u2 by (unfold u16; lia). cbn [bind]. unfold read_or_dynamic, read_dynamic. rewrite Hp.
      unfold read_dyn_at. rewrite (read_nametype_ok md _ _ _ _ (proj1 (proj1 Hd)) Hnt). reflexivity.
    + split; [exists [(k, r_next s)]; reflexivity|]. split.
      * split; [|split; [cbn; lia|split; [exact I3|]]].
        -- destruct I1 as [N1 N2]. rewrite Forall_forall in N2. split; cbn [r_refs r_next].
           ++ rewrite map_app. cbn [map snd]. apply FrameProofs.nodup_snoc; auto. intros Hin. apply in_map_iff in Hin as ([a c] & Ec & Hin). cbn in Ec. subst c.
              specialize (N2 _ Hin). cbn in N2. lia.
           ++ apply Forall_app. split; [|constructor; [split; cbn; [exact Hu|lia]|constructor]]. apply Forall_forall. intros x Hx. specialize (N2 x Hx).
              destruct N2. split; auto. lia.
        -- unfold refs_in in *. cbn. apply Forall_app. split; [exact I4|]. constructor; [cbn; auto|constructor].
      * cbn. split; auto. split; auto. exists k, b. split; [exact Hu|]. split; auto. split; auto. apply in_or_app. cbn. auto.
  - destruct HF as (i & Hr & -> & HR). cbn in HR, Ho. exists (Stat k), s. unfold rd_bsm_arg. rewrite rd_u16_u2 by (unfold u16; lia). cbn [bind]. unfold read_or_dynamic.
    rewrite (static_not_dynamic md _ _ _ s HR). cbn [bind]. rewrite (read_constant_ok md _ _ _ Ho HR). cbn.
    split; auto. split; [apply ext_refl|]. split; [auto|reflexivity].
Qed.
Lemma rd_bsm_dyn : srd_ok inv rst_ext (rd_bsm md) (wf_entry heap) fmt_bsm bsm_read.
Proof.
  intros W s b bs rest Hi [(H1 & H2 & H3) H4] (h & xs & -> & (i & Hr & -> & HR) & (bss & Hl & -> & HB)) Hs.
  unfold rd_bsm, rd_idx. rewrite <- !app_assoc, rd_u16_u2 by (unfold u16; lia). cbn [bind].
  rewrite (read_mhandle_ok md _ _ _ H1 HR). cbn [bind]. pose proof (len_nonneg (b_args b)).
  rewrite rd_u16_u2 by (unfold u16; lia). cbn [bind]. unfold len. rewrite Nat2Z.id.
  apply small_app in Hs as [_ Hs]. apply small_app in Hs as [_ Hs].
  destruct (srd_times_ok inv rst_ext ext_refl ext_trans _ _ _ _ arg_read_stable rd_arg_dyn W _ _ HB s rest Hi) as (ys & s' & -> & He & Hi' & HY); auto.
  - rewrite Forall_forall in *. intros o Ho. split; [exact (H3 o Ho)|exact (H4 o Ho)].
  - cbn [bind]. eexists _, s'. split; [reflexivity|]. split; auto. split; auto. split; auto.
Qed.

(** * The rest *)
Definition lines_read (W : world) (s : rst) (c c' : code) : Prop := code_rel_lines (dyn_read W s) c c'.
Lemma lines_read_stable : stable rst_ext lines_read.
Proof. intros W s s' c c' He [H1 H2]. split; [|exact H2]. eapply code_rel_mono; [|exact H1]. intros d d'. apply dyn_read_ext. exact He. Qed.
Lemma method_lines_stable : stable rst_ext (method_sim lines_read).
Proof.
  intros W s s' a b He (H1 & H2 & H3 & H4). repeat split; auto. eapply forall2_impl; [|exact H4]. intros x y.
  apply (mattr_sim_stable rst_ext lines_read lines_read_stable W s s'); auto.
Qed.
Definition read_compiled (W : world) (s : rst) (c : class) (k : version -> class) : Prop := forall v, let c' := k v in
  cl_version c' = v /\ cl_access c' = cl_access c /\ cl_name c' = cl_name c /\ cl_super c' = cl_super c /\
  cl_itfs c' = cl_itfs c /\ cl_fields c' = cl_fields c /\
  Forall2 (method_sim lines_read W s) (cl_methods c) (cl_methods c') /\
  Forall2 (cattr_sim bsm_read W s) (cl_attrs c) (cl_attrs c').
Lemma rd_compiled_ok : srd_ok inv rst_ext (rd_members md) (wf_compiled heap) (fmt_compiled heap) read_compiled.
Proof.
  intros W s c bs rest Hi (_ & H1 & H2 & H3 & H4 & H5 & H6 & H7 & _) HF Hs.
  refine (srd_map_ok inv rst_ext _ tuple _ _ _ _ read_compiled
    (srd_pair_ok inv rst_ext ext_trans _ _ _ _ _ _ _ _ (stable_same rst_ext) (srd_lift_ok inv rst_ext ext_refl _ _ _ (rd_flags_ok ClassFlags))
    (srd_pair_ok inv rst_ext ext_trans _ _ _ _ _ _ _ _ (stable_same rst_ext) (srd_lift_ok inv rst_ext ext_refl _ _ _ rd_class_ok)
    (srd_pair_ok inv rst_ext ext_trans _ _ _ _ _ _ _ _ (stable_same rst_ext) (srd_lift_ok inv rst_ext ext_refl _ _ _ rd_opt_class_ok)
    (srd_pair_ok inv rst_ext ext_trans _ _ _ _ _ _ _ _ (stable_same rst_ext) (srd_lift_ok inv rst_ext ext_refl _ _ _ (rd_vec2S_ok _ _ _ rd_class_ok))
    (srd_pair_ok inv rst_ext ext_trans _ _ _ _ _ _ _ _ (stable_same rst_ext) (srd_lift_ok inv rst_ext ext_refl _ _ _ (rd_vec2S_ok _ _ _ (rd_field_ok md)))
    (srd_pair_ok inv rst_ext ext_trans _ _ _ _ _ _ _ _ (stable_list rst_ext _ method_lines_stable)
       (srd_vec2_ok inv rst_ext ext_refl ext_trans _ _ _ _ method_lines_stable
         (rd_method_ok inv rst_ext ext_refl ext_trans (rd_code md) _ _ _ lines_read_stable (rd_code_lines true md (wenv_class Release heap)) md))
       (srd_vec2_ok inv rst_ext ext_refl ext_trans _ _ _ _ (cattr_sim_stable rst_ext bsm_read bsm_read_stable)
         (rd_cattr_ok inv rst_ext ext_refl ext_trans md _ _ bsm_read_stable rd_bsm_dyn)))))))) _ W s c bs rest Hi _ HF Hs).
  - intros W' s' c0 (a & n & su & it & fi & me & at_) (E1 & E2 & E3 & E4 & E5 & E6 & E7) v. cbn in *. unfold same in *.
    repeat split; auto.
  - exact (conj H1 (conj H2 (conj H3 (conj H4 (conj H5 (conj H6 H7)))))).
Qed.
End Reading.
