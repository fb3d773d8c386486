(** Writing and reading labels, frames and type annotation targets in code. *)
From Verif Require Import Base BaseLemmas Wtf8Spec PrimModel PrimProofs TypeModel TypeSpec CpModel CpSpec CpProofs
  AnnModel AnnSpec AnnProofs AttrModel AttrSpec AttrProofs FrameModel FrameSpec.

(** * The label table *)
Lemma assoc_app {V} (m m' : list (Z * V)) k : assoc Z.eqb k (m ++ m') =
  match assoc Z.eqb k m with Some v => Some v | None => assoc Z.eqb k m' end.
Proof. induction m as [|[a v] m IH]; cbn; auto. destruct (k =? a); auto. Qed.
Lemma assoc_none_in {V} (m : list (Z * V)) k : assoc Z.eqb k m = None -> ~ In k (map fst m).
Proof.
  induction m as [|[a v] m IH]; cbn; auto. destruct (Z.eqb_spec k a); [discriminate|]. intros H [H1|H1]; [congruence|].
  apply IH; auto.
Qed.
Lemma assoc_in {V} (m : list (Z * V)) k v : assoc Z.eqb k m = Some v -> In (k, v) m.
Proof.
  induction m as [|[a x] m IH]; cbn; [discriminate|]. destruct (Z.eqb_spec k a); [intros [= ->]; subst; auto|auto].
Qed.
Lemma in_assoc {V} (m : list (Z * V)) k v : NoDup (map fst m) -> In (k, v) m -> assoc Z.eqb k m = Some v.
Proof.
  induction m as [|[a x] m IH]; cbn; [tauto|]. intros H. inversion H; subst. intros [[= -> ->]|Hin].
  - rewrite Z.eqb_refl. auto.
  - destruct (Z.eqb_spec k a); [subst; exfalso; apply H2; apply (in_map fst) in Hin; auto|auto].
Qed.
Lemma nodup_bound (l : list Z) N : NoDup l -> Forall (fun x => 0 <= x < N) l -> len l <= Z.max 0 N.
Proof.
  intros Hn Hf. assert (Hi : incl l (map Z.of_nat (seq 0 (Z.to_nat N)))).
  { intros x Hx. rewrite Forall_forall in Hf. apply Hf in Hx. apply in_map_iff. exists (Z.to_nat x).
    split; [lia|]. apply in_seq. lia. }
  apply (NoDup_incl_length Hn) in Hi. rewrite map_length, seq_length in Hi. unfold len. lia.
Qed.
Lemma nodup_snoc (l : list Z) x : NoDup l -> ~ In x l -> NoDup (l ++ [x]).
Proof.
  intros Hn Hx. apply (NoDup_Add (a:=x) (l:=l)); [|auto].
  rewrite <- (app_nil_r l) at 1. apply Add_app.
Qed.
Lemma cst_ext_refl s : cst_ext s s.
Proof. split; [exists []; rewrite app_nil_r; auto|]. split; [exists []; rewrite app_nil_r; auto|auto]. Qed.
Lemma cst_ext_trans a b c : cst_ext a b -> cst_ext b c -> cst_ext a c.
Proof.
  intros ([r1 H1] & [m1 H2] & H3) ([r2 G1] & [m2 G2] & G3). split; [|split].
  - exists (r1 ++ r2). rewrite G1, H1, app_assoc. auto.
  - exists (m1 ++ m2). rewrite G2, H2, app_assoc. auto.
  - congruence.
Qed.
Lemma assoc_ext s s' o l : cst_ext s s' -> assoc Z.eqb o (k_labels s) = Some l -> assoc Z.eqb o (k_labels s') = Some l.
Proof. intros (_ & [m ->] & _) H. rewrite assoc_app, H. auto. Qed.
Lemma get_label_ok off s : cst_ok s -> u32 off ->
  let s' := snd (get_label off s) in
  cst_ok s' /\ cst_ext s s' /\ k_refs s' = k_refs s /\
  assoc Z.eqb off (k_labels s') = Some (fst (get_label off s)).
Proof.
  intros (Hn & Hu & Hs) Ho. unfold get_label. destruct (assoc Z.eqb off (k_labels s)) as [l|] eqn:E.
  - cbn. split; [repeat split; auto|]. split; [apply cst_ext_refl|]. auto.
  - cbn [fst snd]. apply assoc_none_in in E.
    assert (Hlen : len (k_labels s) < 4294967296).
    { pose proof (nodup_bound (off :: map fst (k_labels s)) 4294967296) as H.
      assert (len (off :: map fst (k_labels s)) = len (k_labels s) + 1) as Hl
        by (unfold len; cbn [length]; rewrite map_length; lia).
      rewrite Hl in H. assert (len (k_labels s) + 1 <= Z.max 0 4294967296); [|lia]. apply H.
      - constructor; auto.
      - constructor; [exact Ho|exact Hu]. }
    rewrite Z.mod_small by (pose proof (len_nonneg (k_labels s)); lia).
    split; [|split; [|split; [reflexivity|]]].
    + unfold cst_ok. cbn [k_labels]. rewrite !map_app, app_length. cbn [map fst snd length].
      split; [apply nodup_snoc; auto|]. split; [apply Forall_app; auto|].
      rewrite seq_app, map_app, Hs. cbn. reflexivity.
    + split; [exists []; cbn; rewrite app_nil_r; auto|]. split; [|reflexivity]. cbn. eauto.
    + cbn [k_labels]. rewrite assoc_app. destruct (assoc Z.eqb off (k_labels s)) eqn:E2.
      * exfalso. apply E. apply assoc_in in E2. apply (in_map fst) in E2. exact E2.
      * cbn. rewrite Z.eqb_refl. auto.
Qed.
Lemma cst_ok_inj s o o' l : cst_ok s -> assoc Z.eqb o (k_labels s) = Some l -> assoc Z.eqb o' (k_labels s) = Some l -> o = o'.
Proof.
  intros (_ & _ & Hs) H1 H2. apply assoc_in in H1, H2.
  assert (Hnd : NoDup (map snd (k_labels s))).
  { rewrite Hs. apply FinFun.Injective_map_NoDup; [|apply seq_NoDup]. intros x y. lia. }
  clear Hs. induction (k_labels s) as [|[a b] m IH]; [destruct H1|]. cbn in *. inversion Hnd; subst.
  destruct H1 as [H1|H1], H2 as [H2|H2]; try congruence; auto.
  - exfalso. inversion H1; subst. apply (in_map snd) in H2. auto.
  - exfalso. inversion H2; subst. apply (in_map snd) in H1. auto.
Qed.

(** * Writing *)
Lemma wr_label_ok : wr_ok wr_label wf_label fmt_label.
Proof.
  intros E l w (o & Ho & Hu) Hi. unfold wr_label. rewrite Ho. cbn [bind]. apply post_ret; auto.
  intros _ _ W (_ & Hl & _) _. exists o. rewrite be2_u2. auto.
Qed.
Lemma wr_catch_ok : wr_ok wr_catch wf_catch_ref fmt_catch.
Proof.
  intros E c w (i & Ho & Hu) Hi. unfold wr_catch. rewrite Ho. cbn [bind]. apply post_ret; auto.
  intros _ _ W (_ & _ & Hc) _. exists i. rewrite be2_u2. auto.
Qed.
Definition fmt_swapped : fmt vtype := fun W v bs => fmt_vtype W (swap_v v) bs.
Lemma wr_vtype_ok : wr_ok wr_vtype wf_vtype fmt_swapped.
Proof.
  intros E v w Hv Hi. unfold fmt_swapped. destruct v; cbn [wr_vtype swap_v fmt_vtype wf_vtype] in *;
    try (apply post_ret; [auto|]; intros _ _ W _ _; reflexivity).
  - eapply post_bind; [apply wr_class_ok; auto|]. cbn beta. intros b w1 Hl1 Hi1 H. apply post_ret; auto.
    eapply later_mono; [|exact H]. cbn beta. intros W _ HF. exists b. split; auto.
  - eapply post_bind; [apply wr_label_ok; auto|]. cbn beta. intros b w1 Hl1 Hi1 H. apply post_ret; auto.
    eapply later_mono; [|exact H]. cbn beta. intros W _ HF. exists b. split; auto.
Qed.
Lemma forall2_map_l {A B C} (f : A -> B) (R : B -> C -> Prop) xs ys :
  Forall2 R (map f xs) ys <-> Forall2 (fun a c => R (f a) c) xs ys.
Proof.
  split.
  - revert ys. induction xs as [|x xs IH]; intros ys H; inversion H; subst; constructor; auto.
  - induction 1; constructor; auto.
Qed.
Lemma len_map {A B} (f : A -> B) l : len (map f l) = len l.
Proof. unfold len. rewrite map_length. auto. Qed.
Lemma be1_small x : 0 <= x < 256 -> be 1 x = [x].
Proof. intros H. rewrite be1_u1. unfold u1. rewrite ?Z.mod_small by lia. reflexivity. Qed.
Lemma wr_frame_ok : wr_ok wr_frame wf_frame (fun W f bs => fmt_frame W (swap_frame f) bs).
Proof.
  intros E f w [Hv Hf] Hi. destruct f; cbn [wr_frame swap_frame fmt_frame vtypes_of] in *.
  - destruct ((0 <=? d) && (d <=? 63)) eqn:C; apply post_ret; auto; intros _ _ W _ _.
    + left. rewrite be1_small by lia. split; [lia|auto].
    + right. rewrite be2_u2. split; auto.
  - inversion Hv; subst. eapply post_bind; [apply wr_vtype_ok; auto|]. cbn beta. intros b w1 Hl1 Hi1 H. apply post_ret; auto.
    eapply later_mono; [|exact H]. cbn beta. intros W _ HF. exists b. split; [exact HF|].
    destruct ((0 <=? d) && (d <=? 63)) eqn:C.
    + left. rewrite be1_small by lia. split; [lia|]. cbn [app]. f_equal. lia.
    + right. rewrite be2_u2. split; auto.
  - destruct Hf as [Hd Hk]. assert ((1 <=? k) && (k <=? 3) = true) as -> by lia. apply post_ret; auto.
    intros _ _ W _ _. rewrite be1_small by lia. rewrite be2_u2. auto.
  - destruct Hf as [Hd Hk]. assert (len vs <=? 3 = true) as -> by lia.
    eapply post_bind; [apply (wr_each_ok _ _ _ wr_vtype_ok); auto|]. cbn beta. intros b w1 Hl1 Hi1 H. apply post_ret; auto.
    eapply later_mono; [|exact H]. cbn beta. intros W _ (bss & -> & HB). rewrite len_map. split; [auto|]. split; [auto|].
    exists bss. rewrite be2_u2, be1_small by lia. split; [cbn [app]; f_equal; lia|]. apply forall2_map_l. exact HB.
  - destruct Hf as (Hd & Hl & Hs). apply Forall_app in Hv as [Hv1 Hv2].
    eapply post_bind; [apply (wr_each_ok _ _ _ wr_vtype_ok); auto|]. cbn beta. intros b w1 Hl1 Hi1 H1.
    eapply post_bind; [apply (wr_each_ok _ _ _ wr_vtype_ok); auto|]. cbn beta. intros c w2 Hl2 Hi2 H2. apply post_ret; auto.
    pose proof (later_le _ _ _ _ Hl2 H1) as H1'. intros Hfit Hb W Ha Hh.
    destruct (H1' Hfit Hb W Ha Hh) as (bss & -> & HB). destruct (H2 Hfit Hb W Ha Hh) as (css & -> & HC).
    split; auto. exists (u2 (len locals) ++ concat bss), (u2 (len stack) ++ concat css).
    rewrite !be2_u2, be1_small by lia. split; [cbn [app]; rewrite <- !app_assoc; reflexivity|].
    split; [exists bss|exists css]; rewrite len_map; repeat split; auto; apply forall2_map_l; auto.
Qed.
Lemma wr_lvt_ok : wr_ok wr_lvt wf_lvt fmt_lvt.
Proof.
  intros E t w (a & b & Ha & Hb & Hua & Hub & Hle & Hx) Hi. unfold wr_lvt. rewrite Ha, Hb. cbn [bind].
  unfold u16 in *. unfold chk_u. assert ((0 <=? b - a) && (b - a <? 2 ^ 16) = true) as -> by (change (2 ^ 16) with 65536; lia).
  cbn [bind]. apply post_ret; auto. intros _ _ W (_ & Hl & _) _. exists a, b. rewrite !be2_u2. unfold u16. repeat split; auto; lia.
Qed.
Lemma wr_tagged_ok {A} t (f : cwr A) P F : 0 <= t < 256 -> wr_ok f P F -> wr_ok (wr_tagged t f) P (fmt_tag t F).
Proof.
  intros Ht Hf E a w HP Hi. unfold wr_tagged. eapply post_bind; [apply Hf; auto|]. cbn beta. intros b w1 Hl1 Hi1 H. apply post_ret; auto.
  eapply later_mono; [|exact H]. cbn beta. intros W _ HF. exists b. rewrite be1_small by lia. auto.
Qed.
Lemma wr_label_u8_ok : wr_ok wr_label_u8 (fun E x => wf_label E (fst x) /\ u8 (snd x)) fmt_label_u1.
Proof.
  apply (wr_pair_ok _ _ wf_label (fun _ => u8) _ _ wr_label_ok). apply wr_plain_ok. intros E x Hx.
  unfold wr_n. eexists. split; [reflexivity|]. intros W. rewrite be1_u1. split; auto.
Qed.
Lemma wr_code_target_ok : wr_ok wr_code_target wf_code_target fmt_code_target.
Proof.
  intros E t w Ht Hi. destruct t; cbn [wr_code_target wf_code_target fmt_code_target] in *.
  - apply (wr_tagged_ok 0x40 _ _ _ ltac:(lia) (wr_cvec2_ok _ _ _ wr_lvt_ok)); auto.
  - apply (wr_tagged_ok 0x41 _ _ _ ltac:(lia) (wr_cvec2_ok _ _ _ wr_lvt_ok)); auto.
  - apply (wr_tagged_ok 0x42 _ _ _ ltac:(lia) wr_catch_ok); auto.
  - apply (wr_tagged_ok 0x43 _ _ _ ltac:(lia) wr_label_ok); auto.
  - apply (wr_tagged_ok 0x44 _ _ _ ltac:(lia) wr_label_ok); auto.
  - apply (wr_tagged_ok 0x45 _ _ _ ltac:(lia) wr_label_ok); auto.
  - apply (wr_tagged_ok 0x46 _ _ _ ltac:(lia) wr_label_ok); auto.
  - apply (wr_tagged_ok 0x47 _ _ _ ltac:(lia) wr_label_u8_ok); auto.
  - apply (wr_tagged_ok 0x48 _ _ _ ltac:(lia) wr_label_u8_ok); auto.
  - apply (wr_tagged_ok 0x49 _ _ _ ltac:(lia) wr_label_u8_ok); auto.
  - apply (wr_tagged_ok 0x4a _ _ _ ltac:(lia) wr_label_u8_ok); auto.
  - apply (wr_tagged_ok 0x4b _ _ _ ltac:(lia) wr_label_u8_ok); auto.
Qed.
Lemma wr_code_tannot_ok : wr_ok wr_code_tannot wf_code_tannot fmt_code_tannot.
Proof. apply (wr_tannot_ok _ _ _ wr_code_target_ok). Qed.

(** * Reading *)
Lemma label_sim_stable : stable cst_ext label_sim.
Proof. intros W s s' l l' He (o & H1 & H2). exists o. split; auto. eapply assoc_ext; eauto. Qed.
Lemma vtype_sim_stable : stable cst_ext vtype_sim.
Proof. intros W s s' v v' He H. destruct v; auto. destruct v'; cbn in *; auto. eapply label_sim_stable; eauto. Qed.
Lemma lvt_sim_stable : stable cst_ext lvt_sim.
Proof. intros W s s' v v' He (H1 & H2 & H3). repeat split; auto; eapply label_sim_stable; eauto. Qed.
Lemma catch_sim_stable : stable cst_ext catch_sim.
Proof. intros W s s' v v' He (H1 & H2 & H3 & H4). repeat split; auto; eapply label_sim_stable; eauto. Qed.
Lemma code_target_sim_stable : stable cst_ext code_target_sim.
Proof.
  intros W s s' v v' He H. destruct v, v'; cbn in *; try tauto;
    try (eapply (stable_list cst_ext _ lvt_sim_stable); eauto; fail);
    try (eapply label_sim_stable; eauto; fail);
    try (eapply catch_sim_stable; eauto; fail);
    destruct H; split; auto; eapply label_sim_stable; eauto.
Qed.
Lemma code_tannot_sim_stable : stable cst_ext code_tannot_sim.
Proof. intros W s s' v v' He (H1 & H). split; auto. eapply code_target_sim_stable; eauto. Qed.
Lemma catches_ok_ext W s s' : cst_ext s s' -> catches_ok W s -> catches_ok W s'.
Proof.
  intros He H c i Hc. destruct (H c i Hc) as (c' & H1 & H2). exists c'. split; [destruct He as (_ & _ & ->); auto|].
  eapply catch_sim_stable; eauto.
Qed.

Section Read.
(** any invariant of the reader kept by looking up labels *)
Context (inv : world -> cst -> Prop).
Hypothesis inv_ok : forall W s, inv W s -> cst_ok s.
Hypothesis inv_label : forall W s l off, inv W s -> u32 off -> W_label W l = Some off -> inv W (snd (get_label off s)).
Notation sok := (srd_ok inv cst_ext).

Lemma label_step W s x off : inv W s -> u32 off -> W_label W x = Some off -> exists l s', get_label off s = (l, s') /\
  inv W s' /\ cst_ext s s' /\ assoc Z.eqb off (k_labels s') = Some l.
Proof.
  intros Hi Ho Hx. pose proof (inv_label W s x off Hi Ho Hx) as H. pose proof (get_label_ok off s (inv_ok _ _ Hi) Ho) as (_ & H1 & _ & H2).
  destruct (get_label off s) as [l s']. cbn in *. exists l, s'. auto.
Qed.
Lemma rd_label_ok : sok (fun _ => rd_label) (fun _ => True) fmt_label label_sim.
Proof.
  intros W s l bs rest Hi _ (o & Ho & Hu & ->) _. unfold rd_label. rewrite rd_u16_u2 by auto. cbn [bind].
  destruct (label_step W s l o Hi) as (l' & s' & -> & Hi' & He & Ha); [unfold u16, u32 in *; lia|auto|].
  exists l', s'. repeat split; try apply He; auto. exists o. auto.
Qed.
Lemma rd_u8_cons t l : 0 <= t < 256 -> rd_u8 (t :: l) = Ok (t, l).
Proof. intros H. pose proof (rd_u8_u1 t l) as R. unfold u1 in R. cbn [app] in R. rewrite ?Z.mod_small in R by lia. apply R. unfold u8. lia. Qed.
Lemma rd_vtype_ok E : sok rd_vtype (wf_vtype E) fmt_swapped vtype_sim.
Proof.
  intros W s v bs rest Hi Hv HF Hs. unfold fmt_swapped in HF.
  destruct v; cbn [swap_v fmt_vtype wf_vtype] in *; unfold rd_vtype;
    try (subst bs; cbn [app]; rewrite rd_u8_cons by lia; cbn [bind Z.eqb Pos.eqb];
         do 2 eexists; split; [reflexivity|]; repeat split; auto; try apply cst_ext_refl; fail).
  - destruct HF as (i & -> & HF). cbn [app]. rewrite rd_u8_cons by lia. cbn [bind Z.eqb Pos.eqb].
    rewrite (AttrProofs.rd_class_ok W c i rest); auto; [|unfold small, len in *; cbn [length] in *; lia]. cbn [bind].
    exists (VtObject c), s. repeat split; auto; apply cst_ext_refl.
  - destruct HF as (i & -> & HF). cbn [app]. rewrite rd_u8_cons by lia. cbn [bind Z.eqb Pos.eqb].
    destruct (rd_label_ok W s l i rest Hi I HF) as (l' & s' & -> & He & Hi' & Hsim); [unfold small, len in *; cbn [length] in *; lia|].
    cbn [bind]. exists (VtNew l'), s'. cbn; auto.
Qed.
Lemma small_cons a l : small (a :: l) -> small l.
Proof. unfold small, len. cbn [length]. lia. Qed.
Lemma rd_frame_ok E : sok rd_frame (wf_frame E) (fun W f bs => fmt_frame W (swap_frame f) bs) frame_sim.
Proof.
  intros W s f bs rest Hi [Hv Hf] HF Hs. unfold rd_frame. pose proof (cst_ext_refl s) as Hr.
  destruct f; cbn [swap_frame fmt_frame vtypes_of] in *.
  - destruct HF as [[Hd ->]|[Hd ->]]; cbn [app]; rewrite rd_u8_cons by lia; cbn [bind].
    + assert (d <=? 63 = true) as -> by lia. exists (FSame d), s. cbn; auto.
    + cbn [Z.leb Z.eqb Z.compare Pos.compare Pos.compare_cont Pos.eqb]. rewrite rd_u16_u2 by auto. cbn [bind]. exists (FSame d), s. cbn; auto.
  - inversion Hv as [|x y Hv1 Hv2]; subst. destruct HF as (b & HF & [[Hd ->]|[Hd ->]]); cbn [app]; rewrite rd_u8_cons by lia; cbn [bind].
    + assert (64 + d <=? 63 = false) as -> by lia. assert (64 + d <=? 127 = true) as -> by lia.
      destruct (rd_vtype_ok E W s v b rest Hi Hv1 HF) as (v' & s' & -> & He & Hi' & Hsim); [eapply small_cons; eauto|].
      cbn [bind]. exists (FSame1 (64 + d - 64) v'), s'. repeat split; auto; try apply He. lia.
    + cbn [Z.leb Z.eqb Z.compare Pos.compare Pos.compare_cont Pos.eqb]. rewrite <- app_assoc, rd_u16_u2 by auto. cbn [bind].
      apply small_cons, small_app in Hs as [_ Hs].
      destruct (rd_vtype_ok E W s v b rest Hi Hv1 HF) as (v' & s' & -> & He & Hi' & Hsim); auto.
      cbn [bind]. exists (FSame1 d v'), s'. repeat split; auto; apply He.
  - destruct HF as (Hk & Hd & ->). cbn [app]. rewrite rd_u8_cons by lia. cbn [bind].
    assert (251 - k <=? 63 = false) as -> by lia. assert (251 - k <=? 127 = false) as -> by lia.
    assert (251 - k <=? 246 = false) as -> by lia. assert (251 - k =? 247 = false) as -> by lia.
    assert (251 - k <=? 250 = true) as -> by lia. rewrite rd_u16_u2 by auto. cbn [bind].
    exists (FChop d (251 - (251 - k))), s. repeat split; auto; try apply Hr. lia.
  - destruct HF as (Hk & Hd & bss & -> & HB). rewrite len_map in *. cbn [app]. rewrite rd_u8_cons by lia. cbn [bind].
    assert (251 + len vs <=? 63 = false) as -> by lia. assert (251 + len vs <=? 127 = false) as -> by lia.
    assert (251 + len vs <=? 246 = false) as -> by lia. assert (251 + len vs =? 247 = false) as -> by lia.
    assert (251 + len vs <=? 250 = false) as -> by lia. assert (251 + len vs =? 251 = false) as -> by lia.
    assert (251 + len vs <=? 254 = true) as -> by lia. rewrite <- app_assoc, rd_u16_u2 by auto. cbn [bind].
    apply small_cons, small_app in Hs as [_ Hs]. apply (proj1 (forall2_map_l swap_v (fmt_vtype W) vs bss)) in HB.
    replace (Z.to_nat (251 + len vs - 251)) with (length vs) by (unfold len; lia).
    destruct (srd_times_ok inv cst_ext cst_ext_refl cst_ext_trans rd_vtype (wf_vtype E) fmt_swapped vtype_sim
      vtype_sim_stable (rd_vtype_ok E) W vs bss HB s rest Hi Hv Hs) as (ys & s' & -> & He & Hi' & Hsim).
    cbn [bind]. exists (FAppend d ys), s'. repeat split; auto; apply He.
  - destruct Hf as (_ & Hl1 & Hl2). destruct HF as (Hd & b & c & -> & HB & HC). cbn [app]. rewrite rd_u8_cons by lia. cbn [bind].
    cbn [Z.leb Z.eqb Z.compare Pos.compare Pos.compare_cont Pos.eqb].
    rewrite <- !app_assoc, rd_u16_u2 by auto. cbn [bind]. apply Forall_app in Hv as [Hv1 Hv2].
    apply small_cons, small_app in Hs as [_ Hs]. apply small_app in Hs as [Hsb Hsc].
    pose proof (srd_vec2_ok inv cst_ext cst_ext_refl cst_ext_trans rd_vtype (wf_vtype E) fmt_swapped vtype_sim
      vtype_sim_stable (rd_vtype_ok E)) as HV.
    assert (HX : forall vs bs, fmt_table2 fmt_vtype W (map swap_v vs) bs -> fmt_table2 fmt_swapped W vs bs).
    { intros vs bs (bss & Hl & -> & HH). rewrite len_map in *. exists bss. repeat split; auto. apply (proj1 (forall2_map_l swap_v (fmt_vtype W) vs bss)) in HH. exact HH. }
    destruct (HV W s locals b (c ++ rest) Hi (conj Hl1 Hv1) (HX _ _ HB) Hsb) as (ls & s1 & -> & He1 & Hi1 & Hs1). cbn [bind].
    destruct (HV W s1 stack c rest Hi1 (conj Hl2 Hv2) (HX _ _ HC) Hsc) as (ss & s2 & -> & He2 & Hi2 & Hs2). cbn [bind].
    exists (FFull d ls ss), s2. split; [auto|]. split; [eapply cst_ext_trans; eauto|]. split; [auto|].
    split; [auto|]. split; [|auto]. eapply (stable_list cst_ext _ vtype_sim_stable); eauto.
Qed.
Lemma rd_lvt_ok : sok (fun _ => rd_lvt) (fun _ => True) fmt_lvt lvt_sim.
Proof.
  intros W s t bs rest Hi _ (a & b & Ha & Hb & Hua & Hub & Hle & Hx & ->) _. unfold rd_lvt.
  rewrite <- !app_assoc, rd_u16_u2 by auto. cbn [bind].
  destruct (label_step W s (lt_start t) a Hi) as (la & s1 & -> & Hi1 & He1 & Ha1); [unfold u16, u32 in *; lia|eauto|].
  rewrite rd_u16_u2 by (unfold u16 in *; lia). cbn [bind]. replace (a + (b - a)) with b by lia.
  destruct (label_step W s1 (lt_end t) b Hi1) as (lb & s2 & -> & Hi2 & He2 & Ha2); [unfold u16, u32 in *; lia|eauto|].
  rewrite rd_u16_u2 by auto. cbn [bind]. do 2 eexists. split; [reflexivity|].
  split; [eapply cst_ext_trans; eauto|]. split; [auto|]. split; [|split; [|reflexivity]]; cbn.
  - exists a. split; auto. eapply assoc_ext; eauto.
  - exists b. auto.
Qed.
Lemma rd_label_u8_ok : sok (fun _ => rd_label_u8) (fun _ => True) fmt_label_u1 (sim_pair label_sim same).
Proof.
  intros W s t bs rest Hi _ HF Hs.
  refine (srd_pair_ok inv cst_ext cst_ext_trans (fun _ => rd_label) (fun _ => lift rd_u8) _ _ _ _ _ _
    label_sim_stable rd_label_ok (srd_lift_ok inv cst_ext cst_ext_refl (fun _ => rd_u8) (fun _ => True) fmt_u1 _)
    W s t bs rest Hi (conj I I) HF Hs).
  intros W' x b r _ [Hx ->] _. apply rd_u8_u1. auto.
Qed.
End Read.

Section ReadTargets.
Context (inv : world -> cst -> Prop).
Hypothesis inv_ok : forall W s, inv W s -> cst_ok s.
Hypothesis inv_label : forall W s l off, inv W s -> u32 off -> W_label W l = Some off -> inv W (snd (get_label off s)).
Hypothesis inv_catch : forall W s, inv W s -> catches_ok W s.
Notation sok := (srd_ok inv cst_ext).
Lemma rd_catch_ok : sok (fun _ => rd_catch) (fun _ => True) fmt_catch catch_sim.
Proof.
  intros W s c bs rest Hi _ (i & Hc & Hu & ->) _. unfold rd_catch. rewrite rd_u16_u2 by auto. cbn [bind].
  destruct (inv_catch W s Hi c i Hc) as (c' & Hn & Hsim). unfold get_catch. rewrite Hn.
  exists c', s. split; [auto|]. split; [apply cst_ext_refl|auto].
Qed.
Lemma tag_map_ok {A B} t (h : A -> code_target) (r : srd cst B) (g : B -> code_target) (P : A -> Prop) F f
  W s a bs rest : 0 <= t < 256 ->
  sok (fun _ => r) P F f -> (forall W s a b, f W s a b -> code_target_sim W s (h a) (g b)) ->
  inv W s -> P a -> fmt_tag t F W a bs -> small bs ->
  exists b s', (forall rs : srd cst code_target, (forall l, rs s (t :: l) = srd_map g r s l) ->
       rs s (bs ++ rest) = Ok ((b, s'), rest)) /\
    cst_ext s s' /\ inv W s' /\ code_target_sim W s' (h a) b.
Proof.
  intros Ht Hr Hg Hi HP (b & -> & HF) Hs. destruct (Hr W s a b rest Hi HP HF) as (x & s' & E & He & Hi' & Hf).
  { eapply small_cons; eauto. }
  exists (g x), s'. split; [|auto]. intros rs Hrs. cbn [app]. rewrite Hrs. unfold srd_map. rewrite E. reflexivity.
Qed.
Lemma rd_code_target_ok : sok (fun _ => rd_code_target) (fun t => match t with KtLocal ts | KtResource ts => len ts < 65536 | _ => True end)
  fmt_code_target code_target_sim.
Proof.
  intros W s t bs rest Hi Ht HF Hs.
  pose proof (srd_vec2_ok inv cst_ext cst_ext_refl cst_ext_trans (fun _ => rd_lvt) (fun _ => True) fmt_lvt lvt_sim
      lvt_sim_stable (rd_lvt_ok inv inv_ok inv_label)) as HL.
  pose proof (rd_label_ok inv inv_ok inv_label) as H1. pose proof (rd_label_u8_ok inv inv_ok inv_label) as H2.
  assert (HT : forall ts : list lvt, Forall (fun _ => True) ts) by (intros; apply Forall_forall; auto).
  destruct t; cbn [fmt_code_target] in HF;
  [ destruct (tag_map_ok 64 KtLocal (srd_vec 2 rd_lvt) KtLocal _ _ _ _ _ _ _ rest ltac:(lia) HL (fun _ _ _ _ H => H) Hi (conj Ht (HT _)) HF Hs) as (b & s' & E & R)
  | destruct (tag_map_ok 65 KtResource (srd_vec 2 rd_lvt) KtResource _ _ _ _ _ _ _ rest ltac:(lia) HL (fun _ _ _ _ H => H) Hi (conj Ht (HT _)) HF Hs) as (b & s' & E & R)
  | destruct (tag_map_ok 66 KtCatch rd_catch KtCatch _ _ _ _ _ _ _ rest ltac:(lia) rd_catch_ok (fun _ _ _ _ H => H) Hi I HF Hs) as (b & s' & E & R)
  | destruct (tag_map_ok 67 KtInstanceOf rd_label KtInstanceOf _ _ _ _ _ _ _ rest ltac:(lia) H1 (fun _ _ _ _ H => H) Hi I HF Hs) as (b & s' & E & R)
  | destruct (tag_map_ok 68 KtNew rd_label KtNew _ _ _ _ _ _ _ rest ltac:(lia) H1 (fun _ _ _ _ H => H) Hi I HF Hs) as (b & s' & E & R)
  | destruct (tag_map_ok 69 KtNewRef rd_label KtNewRef _ _ _ _ _ _ _ rest ltac:(lia) H1 (fun _ _ _ _ H => H) Hi I HF Hs) as (b & s' & E & R)
  | destruct (tag_map_ok 70 KtMethodRef rd_label KtMethodRef _ _ _ _ _ _ _ rest ltac:(lia) H1 (fun _ _ _ _ H => H) Hi I HF Hs) as (b & s' & E & R)
  | .. ];
  [ exists b, s'; split; [apply E; intros; unfold rd_code_target; rewrite rd_u8_cons by lia; reflexivity|auto] ..
  | | | | | ].
  - destruct (tag_map_ok 71 (fun x => KtCast (fst x) (snd x)) rd_label_u8 (fun x => KtCast (fst x) (snd x)) _ _ _ _ _ (l, i) _ rest ltac:(lia) H2
      (fun _ _ _ _ H => conj (proj1 H) (eq_sym (proj2 H))) Hi I HF Hs) as (b & s' & E & R).
    exists b, s'; split; [apply E; intros; unfold rd_code_target; rewrite rd_u8_cons by lia; reflexivity|auto].
  - destruct (tag_map_ok 72 (fun x => KtNewArg (fst x) (snd x)) rd_label_u8 (fun x => KtNewArg (fst x) (snd x)) _ _ _ _ _ (l, i) _ rest ltac:(lia) H2
      (fun _ _ _ _ H => conj (proj1 H) (eq_sym (proj2 H))) Hi I HF Hs) as (b & s' & E & R).
    exists b, s'; split; [apply E; intros; unfold rd_code_target; rewrite rd_u8_cons by lia; reflexivity|auto].
  - destruct (tag_map_ok 73 (fun x => KtMethodArg (fst x) (snd x)) rd_label_u8 (fun x => KtMethodArg (fst x) (snd x)) _ _ _ _ _ (l, i) _ rest ltac:(lia) H2
      (fun _ _ _ _ H => conj (proj1 H) (eq_sym (proj2 H))) Hi I HF Hs) as (b & s' & E & R).
    exists b, s'; split; [apply E; intros; unfold rd_code_target; rewrite rd_u8_cons by lia; reflexivity|auto].
  - destruct (tag_map_ok 74 (fun x => KtNewRefArg (fst x) (snd x)) rd_label_u8 (fun x => KtNewRefArg (fst x) (snd x)) _ _ _ _ _ (l, i) _ rest ltac:(lia) H2
      (fun _ _ _ _ H => conj (proj1 H) (eq_sym (proj2 H))) Hi I HF Hs) as (b & s' & E & R).
    exists b, s'; split; [apply E; intros; unfold rd_code_target; rewrite rd_u8_cons by lia; reflexivity|auto].
  - destruct (tag_map_ok 75 (fun x => KtMethodRefArg (fst x) (snd x)) rd_label_u8 (fun x => KtMethodRefArg (fst x) (snd x)) _ _ _ _ _ (l, i) _ rest ltac:(lia) H2
      (fun _ _ _ _ H => conj (proj1 H) (eq_sym (proj2 H))) Hi I HF Hs) as (b & s' & E & R).
    exists b, s'; split; [apply E; intros; unfold rd_code_target; rewrite rd_u8_cons by lia; reflexivity|auto].
Qed.
Lemma rd_code_tannot_ok md E : sok (rd_code_tannot md) (wf_code_tannot E) fmt_code_tannot code_tannot_sim.
Proof.
  intros W s a bs rest Hi (Ht & Hpl & Hp & Hty & Hv) (x1 & x2 & x3 & x4 & -> & H1 & H2 & H3 & H4) Hs.
  unfold rd_code_tannot. rewrite <- !app_assoc. apply small_app in Hs as [Hs _].
  destruct (rd_code_target_ok W s (ta_target a) x1 (x2 ++ x3 ++ x4 ++ rest) Hi) as (t & s' & -> & He & Hi' & Hsim); auto.
  { destruct (ta_target a); cbn in *; tauto. }
  cbn [bind]. rewrite (rd_tannot_rest_ok md W t a) by auto. cbn [bind].
  do 2 eexists. split; [reflexivity|]. split; [auto|]. split; [auto|]. split; cbn; auto.
Qed.
End ReadTargets.
