(** Reading the code attributes of ForeignSpec. *)
From Coq Require Import String Permutation Sorted.
From Verif Require Import Base BaseLemmas Wtf8Spec PrimModel PrimProofs TypeModel TypeSpec TypeProofs CpModel CpSpec CpProofs CpProps FileSpec SigModel SigSpec
  AnnModel AnnSpec AnnProofs AttrModel AttrSpec AttrProofs FrameModel FrameSpec FrameProofs InsnModel InsnSpec InsnProofs InsnProps
  CodeModel CodeSpec CodeProofs CodeWrite CodeRead ForeignSpec.

(** * Line numbers *)
Lemma last_for_snoc k t e : last_for k (t ++ [e]) = if fst e =? k then Some (snd e) else last_for k t.
Proof. unfold last_for. rewrite rev_app_distr. cbn [rev app filter]. destruct (fst e =? k); reflexivity. Qed.
Lemma last_for_app k a : forall b, last_for k (a ++ b) = match last_for k b with Some x => Some x | None => last_for k a end.
Proof.
  intros b. induction b as [|e b IH] using rev_ind; [rewrite app_nil_r; reflexivity|].
  rewrite app_assoc, !last_for_snoc, IH. destruct (fst e =? k); reflexivity.
Qed.
Lemma last_for_none k t : Forall (fun e => fst e <> k) t -> last_for k t = None.
Proof.
  induction t as [|e t IH] using rev_ind; intros H; [reflexivity|]. apply Forall_app in H as [H1 H2]. inversion H2; subst.
  rewrite last_for_snoc, IH by auto. assert (fst e =? k = false) as -> by lia. reflexivity.
Qed.
Lemma set_assoc {V} k j (v : V) m : assoc Z.eqb j (assoc_set Z.eqb k v m) = if k =? j then Some v else assoc Z.eqb j m.
Proof.
  induction m as [|[k' v'] m IH]; cbn [assoc_set assoc].
  - rewrite (Z.eqb_sym j k). destruct (k =? j); auto.
  - destruct (Z.eqb_spec k k'); cbn [assoc].
    + subst. rewrite (Z.eqb_sym j k'). destruct (k' =? j); auto.
    + rewrite IH, (Z.eqb_sym j k'). destruct (Z.eqb_spec k' j); auto. subst. assert (k =? j = false) as -> by lia. auto.
Qed.
Definition line_step (idx : Z -> option Z) (k : Z) (a : option Z) (e : Z * Z) : option Z :=
  match idx (fst e) with Some j => if j =? k then Some (snd e) else a | None => a end.
Lemma add_lines_ok idx ln : forall m, Forall (fun e => idx (fst e) <> None) ln ->
  exists m', add_lines idx ln m = Ok m' /\ forall k, assoc Z.eqb k m' = fold_left (line_step idx k) ln (assoc Z.eqb k m).
Proof.
  induction ln as [|[off line] ln IH]; intros m H; cbn [add_lines fold_left]; [eauto|]. inversion H as [|? ? Hx Hl]; subst. cbn [fst] in Hx.
  unfold line_step at 2. cbn [fst snd]. destruct (idx off) as [j|] eqn:Ej; [|congruence].
  destruct (IH (assoc_set Z.eqb j line m) Hl) as (m' & -> & Hm'). exists m'. split; auto. intros k. rewrite Hm'. f_equal. apply set_assoc.
Qed.
Lemma line_steps idx k o t : (forall e, In e t -> idx (fst e) = Some k <-> fst e = o) ->
  fold_left (line_step idx k) t None = last_for o t.
Proof.
  induction t as [|e t IH] using rev_ind; intros H; [reflexivity|]. rewrite fold_left_app, last_for_snoc. cbn [fold_left].
  rewrite IH by (intros x Hx; apply H, in_or_app; auto). unfold line_step.
  pose proof (H e ltac:(apply in_or_app; right; left; auto)) as He. destruct (idx (fst e)) as [j|].
  - destruct (Z.eqb_spec j k); destruct (Z.eqb_spec (fst e) o); auto.
    + exfalso. subst. apply n. apply He. auto.
    + exfalso. apply n. apply He in e0. congruence.
  - destruct (Z.eqb_spec (fst e) o); auto. apply He in e0. discriminate.
Qed.

(** * Where they are *)
Definition line_opt (z : Z) (x : option Z) : list (Z * Z) := match x with Some l => [(z, l)] | None => [] end.
Fixpoint spread (g : nat -> option Z) (z : Z) (k n : nat) : list (Z * Z) :=
  line_opt z (g k) ++ match n with O => [] | S n => spread g (z + 1) (S k) n end.
Lemma lines_weave pre g is : (forall k z r, line_places z (pre k ++ r) = line_opt z (g k) ++ line_places z r) ->
  Forall (fun i => realb i = true) is -> forall k z, line_places z (weave k pre is) = spread g z k (length is).
Proof.
  intros Hp. induction is as [|i is IH]; intros Hr k z; cbn [weave length spread].
  - rewrite <- (app_nil_r (pre k)), Hp. reflexivity.
  - inversion Hr as [|? ? Hi Hr']; subst. rewrite Hp. f_equal. cbn [line_places].
    destruct i; try discriminate Hi; rewrite ?Hi; apply (IH Hr').
Qed.
Lemma spread_ge g n : forall z k, Forall (fun e => z <= fst e) (spread g z k n).
Proof.
  induction n as [|n IH]; intros z k; cbn [spread]; apply Forall_app; (split; [destruct (g k); repeat constructor; cbn; lia|]); [constructor|].
  eapply Forall_impl; [|apply IH]. cbn. lia.
Qed.
Lemma spread_nodup g n : forall z k, NoDup (map fst (spread g z k n)).
Proof.
  induction n as [|n IH]; intros z k; cbn [spread].
  - rewrite app_nil_r. destruct (g k); cbn; repeat constructor; auto.
  - rewrite map_app. destruct (g k); cbn [line_opt map app fst]; auto. constructor; auto. intros Hin. apply in_map_iff in Hin as (e & He & Hin).
    pose proof (spread_ge g n (z + 1) (S k)) as Hg. rewrite Forall_forall in Hg. specialize (Hg e Hin). lia.
Qed.
Lemma spread_last g n : forall z k m, (m <= n)%nat -> last_for (z + Z.of_nat m) (spread g z k n) = g (k + m)%nat.
Proof.
  induction n as [|n IH]; intros z k m Hm; cbn [spread]; rewrite last_for_app.
  - replace m with 0%nat by lia. rewrite Nat.add_0_r, Z.add_0_r. cbn [last_for]. unfold last_for at 1. cbn. destruct (g k); cbn; [unfold last_for; cbn; rewrite Z.eqb_refl|]; reflexivity.
  - destruct m as [|m].
    + rewrite Z.add_0_r, Nat.add_0_r. rewrite last_for_none.
      * destruct (g k); cbn; [unfold last_for; cbn; rewrite Z.eqb_refl|]; reflexivity.
      * eapply Forall_impl; [|apply spread_ge]. cbn. lia.
    + replace (z + Z.of_nat (S m)) with (z + 1 + Z.of_nat m) by lia. rewrite IH by lia. replace (k + S m)%nat with (S k + m)%nat by lia.
      destruct (g (S k + m)%nat); auto. destruct (g k); cbn; unfold last_for; cbn; auto. assert (z =? z + 1 + Z.of_nat m = false) as -> by lia. reflexivity.
Qed.
Lemma line_labels r idx ls k : forall z, line_places z (rev (labels_at idx ls k) ++ r) = line_places z r.
Proof.
  intros z. assert (H : Forall (fun i => exists l, i = ILabel l) (rev (labels_at idx ls k))).
  { apply Forall_rev, Forall_forall. intros i Hi. apply in_labels_at in Hi as (? & l & _ & _ & ->). eauto. }
  induction H as [|i l (x & ->) _ IH]; [reflexivity|]. exact IH.
Qed.
Lemma laid_nodup W is : forall pos ps bs, laid enc W pos is ps bs -> NoDup (ps ++ [pos + len bs]).
Proof.
  induction is as [|i is IH]; intros pos ps bs H; cbn [laid] in H.
  - destruct H as [-> ->]. cbn. constructor; auto. constructor.
  - destruct H as (_ & b & rest & -> & He & H). rewrite len_app. destruct (realb i) eqn:Er.
    + destruct H as (ps' & -> & H). pose proof (enc_real _ _ _ _ Er He). specialize (IH _ _ _ H). cbn [app]. rewrite <- Z.add_assoc in IH. constructor; auto.
      pose proof (laid_ge _ _ _ _ _ H) as Hg. rewrite <- Z.add_assoc in Hg. rewrite Forall_forall in Hg. intros Hin. specialize (Hg _ Hin). lia.
    + specialize (IH _ _ _ H). rewrite <- Z.add_assoc in IH. exact IH.
Qed.
Lemma pos2idx_nth ps : forall k n o, NoDup ps -> nth_error ps n = Some o -> pos2idx ps k o = Some (k + Z.of_nat n).
Proof.
  induction ps as [|q ps IH]; intros k n o Hnd H; [destruct n; discriminate|]. inversion Hnd as [|? ? Hq Hnd']; subst. cbn [pos2idx]. destruct n as [|n]; cbn in H.
  - injection H as ->. rewrite Z.eqb_refl. f_equal. lia.
  - assert (q =? o = false) as ->.
    { apply Z.eqb_neq. intros ->. apply Hq. eapply nth_error_In; eauto. }
    rewrite (IH (k + 1) n o Hnd' H). f_equal. lia.
Qed.

(** * The attributes *)
Section Tables.
Context (closed : bool) (md : mode) (W : world) (idx : Z -> option Z) (E : wenv) (c : code) (locs : list localvar).
Context (Hnd : NoDup (map (okey W) locs)).
Lemma rd_tables_ok rest fs : forall bss s z U O ZL ud ug, Forall2 (fmt_fcattr W) fs bss -> small (concat bss) ->
  Forall (wf_fcattr (place_env E c)) fs -> Forall (fun e => idx (fst e) <> None) (line_rows fs) ->
  Forall2 (row_for W) ud (desc_rows fs) -> Forall (fun e => In (fst e) locs /\ has (inl (snd e)) (fst e)) ud ->
  Forall2 (row_for W) ug (sig_rows fs) -> Forall (fun e => In (fst e) locs /\ has (inr (snd e)) (fst e)) ug ->
  kinv closed W locs ZL s z U O ->
  exists s' z' U' ZL', rd_kattrs (length fs) md (W_pool W) idx s z (concat bss ++ rest) = Ok (z', s', rest) /\ cst_ext s s' /\
    kinv closed W locs ZL' s' z' U' (O ++ other_rows fs) /\ incl U U' /\
    (forall e, In e ud -> In (fst e, inl (snd e)) U') /\ (forall e, In e ug -> In (fst e, inr (snd e)) U') /\
    forall k, assoc Z.eqb k ZL' = fold_left (line_step idx k) (line_rows fs) (assoc Z.eqb k ZL).
Proof.
  induction fs as [|f fs IH]; intros bss s z U O ZL ud ug HF Hs Hw Hl Hd Hdw Hg Hgw HI.
  - inversion HF; subst. inversion Hd; subst. inversion Hg; subst. exists s, z, U, ZL. cbn. rewrite app_nil_r. split; auto. split; [apply cst_ext_refl|].
    split; auto. split; [apply incl_refl|]. split; [intros e []|]. split; [intros e []|auto].
  - inversion HF as [|? b ? bss' Hb HF']; subst. inversion Hw as [|? ? Hwf Hw']; subst. cbn [concat] in *. apply small_app in Hs as [Sb Ss].
    assert (HL : line_rows (f :: fs) = line_rows [f] ++ line_rows fs) by (unfold line_rows; cbn [flat_map]; rewrite app_nil_r; reflexivity).
    assert (HD : desc_rows (f :: fs) = desc_rows [f] ++ desc_rows fs) by (unfold desc_rows; cbn [flat_map]; rewrite app_nil_r; reflexivity).
    assert (HG : sig_rows (f :: fs) = sig_rows [f] ++ sig_rows fs) by (unfold sig_rows; cbn [flat_map]; rewrite app_nil_r; reflexivity).
    assert (HO : other_rows (f :: fs) = other_rows [f] ++ other_rows fs) by (unfold other_rows; cbn [flat_map]; rewrite app_nil_r; reflexivity).
    rewrite HL in *. rewrite HD in Hd. rewrite HG in Hg. rewrite HO. apply Forall_app in Hl as [Hl1 Hl2].
    apply Forall2_app_inv_r in Hd as (ud1 & ud2 & Hd1 & Hd2 & ->). apply Forall2_app_inv_r in Hg as (ug1 & ug2 & Hg1 & Hg2 & ->).
    apply Forall_app in Hdw as [Hdw1 Hdw2]. apply Forall_app in Hgw as [Hgw1 Hgw2].
    (* one step, then the rest *)
    assert (HS : exists s1 z1 U1 ZL1, steps md W idx [f] b (concat bss' ++ rest) s z s1 z1 /\ cst_ext s s1 /\
      kinv closed W locs ZL1 s1 z1 U1 (O ++ other_rows [f]) /\ incl U U1 /\
      (forall e, In e ud1 -> In (fst e, inl (snd e)) U1) /\ (forall e, In e ug1 -> In (fst e, inr (snd e)) U1) /\
      forall k, assoc Z.eqb k ZL1 = fold_left (line_step idx k) (line_rows [f]) (assoc Z.eqb k ZL)).
    { assert (Hother : forall a, match a, f with KVisible x, CaVisible y | KInvisible x, CaInvisible y => x = y | KRaw x, CaRaw y => x = y | _, _ => False end ->
        ud1 = [] -> ug1 = [] -> line_rows [f] = [] -> other_rows [f] = [a] -> exists s1 z1 U1 ZL1, steps md W idx [f] b (concat bss' ++ rest) s z s1 z1 /\ cst_ext s s1 /\
        kinv closed W locs ZL1 s1 z1 U1 (O ++ other_rows [f]) /\ incl U U1 /\
        (forall e, In e ud1 -> In (fst e, inl (snd e)) U1) /\ (forall e, In e ug1 -> In (fst e, inr (snd e)) U1) /\
        forall k, assoc Z.eqb k ZL1 = fold_left (line_step idx k) (line_rows [f]) (assoc Z.eqb k ZL)).
      { intros a Ha -> -> HLn HOn. destruct (one_other closed md W idx E c locs ZL a f b (concat bss' ++ rest) s z U O Hwf Hb Sb Ha HI) as (s1 & z1 & P1 & P2 & P3).
        exists s1, z1, U, ZL. rewrite HLn, HOn. split; [exact P1|]. split; [exact P2|]. split; [exact P3|]. split; [apply incl_refl|].
        split; [intros e []|]. split; [intros e []|reflexivity]. }
      destruct f as [l|l|l|l|l|l|r]; cbn [line_rows desc_rows sig_rows other_rows flat_map app] in *; rewrite ?app_nil_r in *.
      - (* lines *)
        inversion Hd1; inversion Hg1; subst. destruct HI as (I1 & I2 & I3 & I4).
        destruct (rd_fcattr_ok closed md (place_env E c) W s _ b (concat bss' ++ rest) I1 Hwf Hb Sb) as (f' & s1 & H1 & H2 & H3 & H4).
        destruct f'; cbn in H4; try contradiction. subst l0. destruct (add_lines_ok idx l ZL Hl1) as (m' & Hm & Hm').
        exists s1, {| z_lines := m'; z_vars := z_vars z; z_attrs := z_attrs z |}, U, m'.
        split; [eapply steps_one; [exact H1|]; cbn [add_attr]; rewrite I2, Hm; reflexivity|]. split; auto.
        split; [|split; [apply incl_refl|split; [intros e []|split; [intros e []|exact Hm']]]].
        split; auto. split; [reflexivity|]. split; [eapply vars_ext; eauto|]. cbn [z_attrs]. eapply (stable_list cst_ext _ kattr_sim_stable); eauto.
      - inversion Hg1; subst. destruct (one_descs closed md W idx E c locs ZL Hnd ud1 l b (concat bss' ++ rest) s z U O Hwf Hb Sb Hd1 Hdw1 HI) as (s1 & z1 & P1 & P2 & P3).
        eexists s1, z1, _, ZL. split; [exact P1|]. split; auto. split; [exact P3|]. split; [intros x Hx; apply in_or_app; auto|].
        split; [|split; [intros e []|reflexivity]]. intros e He. apply in_or_app. left. rewrite <- in_rev. apply in_map_iff. exists e. auto.
      - inversion Hd1; subst. destruct (one_sigs closed md W idx E c locs ZL Hnd ug1 l b (concat bss' ++ rest) s z U O Hwf Hb Sb Hg1 Hgw1 HI) as (s1 & z1 & P1 & P2 & P3).
        eexists s1, z1, _, ZL. split; [exact P1|]. split; auto. split; [exact P3|]. split; [intros x Hx; apply in_or_app; auto|].
        split; [intros e []|split; [|reflexivity]]. intros e He. apply in_or_app. left. rewrite <- in_rev. apply in_map_iff. exists e. auto.
      - inversion Hd1; inversion Hg1; subst. apply (Hother (KInvisible l)); auto.
      - inversion Hd1; inversion Hg1; subst. apply (Hother (KVisible l)); auto.
      - (* stack maps *)
        inversion Hd1; inversion Hg1; subst. destruct HI as (I1 & I2 & I3 & I4).
        destruct (rd_fcattr_ok closed md (place_env E c) W s _ b (concat bss' ++ rest) I1 Hwf Hb Sb) as (f' & s1 & H1 & H2 & H3 & H4).
        destruct f'; cbn in H4; try contradiction. exists s1, z, U, ZL.
        split; [eapply steps_one; [exact H1|reflexivity]|]. split; auto.
        split; [|split; [apply incl_refl|split; [intros e []|split; [intros e []|reflexivity]]]].
        split; auto. split; [exact I2|]. split; [eapply vars_ext; eauto|]. eapply (stable_list cst_ext _ kattr_sim_stable); eauto.
      - inversion Hd1; inversion Hg1; subst. apply (Hother (KRaw r)); auto. }
    destruct HS as (s1 & z1 & U1 & ZL1 & P1 & P2 & P3 & P4 & P5 & P6 & P7).
    destruct (IH bss' s1 z1 U1 _ ZL1 ud2 ug2 HF' Ss Hw' Hl2 Hd2 Hdw2 Hg2 Hgw2 P3) as (s2 & z2 & U2 & ZL2 & Q1 & Q2 & Q3 & Q4 & Q5 & Q6 & Q7).
    exists s2, z2, U2, ZL2. split; [rewrite <- app_assoc; exact (eq_trans (P1 (length fs)) Q1)|]. split; [eapply cst_ext_trans; eauto|].
    split; [rewrite app_assoc; exact Q3|]. split; [eapply incl_tran; eauto|].
    split; [|split].
    + intros e He. apply in_app_or in He as [He|He]; auto.
    + intros e He. apply in_app_or in He as [He|He]; auto.
    + intros k. rewrite fold_left_app, <- P7. apply Q7.
Qed.
End Tables.
Lemma fcattr_wf W E0 f b : fmt_fcattr W f b ->
  Forall (wf_lvrow wf_desc) (desc_rows [f]) -> Forall (wf_lvrow wf_field_signature) (sig_rows [f]) -> Forall (wf_frame E0) (frame_rows [f]) ->
  Forall (fun a => match a with KVisible l | KInvisible l => Forall (wf_code_tannot E0) l | KRaw r => wf_raw code_attr_names r | KLocals _ => False end) (other_rows [f]) ->
  wf_fcattr E0 f.
Proof.
  intros HF H1 H2 H3 H4.
  assert (HT : forall A (F : fmt A) name l, fmt_attr name (fmt_table2 F) W l b -> len l < 65536 /\ exists bss, Forall2 (F W) l bss).
  { intros A F name l (i & body & _ & _ & _ & bss & Hl & _ & HB). eauto. }
  destruct f as [l|l|l|l|l|l|r]; cbn [fmt_fcattr wf_fcattr desc_rows sig_rows frame_rows other_rows flat_map app] in *; rewrite ?app_nil_r in *;
    try (destruct (HT _ _ _ _ HF) as [Hl (bss & HB)]; split; [exact Hl|]; auto); try (inversion H4; subst; assumption).
  clear - HB. induction HB as [|[x y] bb l bs' Hxy _ IH]; constructor; [|exact IH].
  destruct Hxy as (a & b' & _ & [Hx _] & [Hy _]). cbn in *. auto.
Qed.
Lemma flat_map_one {A B} (P : B -> Prop) (f : A -> list B) l x : Forall P (flat_map f l) -> In x l -> Forall P (flat_map f [x]).
Proof.
  intros H Hx. rewrite Forall_forall in *. intros y Hy. cbn in Hy. rewrite app_nil_r in Hy. apply H, in_flat_map. eauto.
Qed.
Lemma lookup_lines k zl : lookup_at k (map (fun '(i, line) => (i, [ILineNumber line])) zl) =
  match assoc Z.eqb k zl with Some x => [ILineNumber x] | None => [] end.
Proof.
  unfold lookup_at. induction zl as [|[j x] zl IH]; cbn [map assoc]; auto. destruct (k =? j); auto.
Qed.
Section Code.
Context (closed : bool).
Lemma rd_code_tab md E W s c L K fs ps body bs rest : rst_inv closed W s -> wf_any_code E c -> code_readable c ->
  fmt_code_with enc W c L K fs ps body bs -> tells (in_code W L K) c fs -> Forall (wf_frame (place_env E c)) (frame_rows fs) ->
  Forall (fun e => In (fst e) (ps ++ [len body])) (line_rows fs) -> small bs ->
  exists c' s', rd_code md (W_pool W) s (bs ++ rest) = Ok ((c', s'), rest) /\ rst_ext s s' /\ rst_inv closed W s' /\
    code_rel (dyn_read W s') c c' /\ NoDup (map fst (line_places 0 (cd_code c'))) /\
    forall n o, nth_error (ps ++ [len body]) n = Some o -> line_of (Z.of_nat n) (cd_code c') = last_for o (line_rows fs).
Proof.
  intros (I1 & I2 & I3 & I4) Hwf [Hkey Hrd] HF (To & (ud & Pd & Hd) & (ug & Pg & Hg)) Hfr Hlines Hs.
  destruct HF as (HL & HK & Hst & Hlo & Hlb & Hlaid & hs & as_ & (hss & Hlh & -> & Hhs) & (ass & Hla & -> & Has) & ->).
  destruct Hwf as (Hndl & Hins & Hcs & Hats).
  set (W1 := in_code W L K) in *. unfold rd_code.
  rewrite <- !app_assoc in *. rewrite rd_u16_u2 by auto. cbn [bind]. rewrite rd_u16_u2 by auto. cbn [bind].
  pose proof (len_nonneg body). rewrite rd_u32_u4 by (unfold u32; lia). cbn [bind].
  rewrite take_app' by reflexivity. cbn [bind].
  assert (Hi0 : code_inv closed W1 {| k_refs := s; k_labels := []; k_catches := [] |}).
  { split; [|split; [intros o l' []|exact I4]]. split; [|auto]. split; [constructor|]. split; [constructor|reflexivity]. }
  assert (Hfine : Forall (fun i => realb i = true -> wf_insn (we_heap E) i /\ readable i) (cd_code c)).
  { apply Forall_forall. intros i Hin Hr. rewrite Forall_forall in Hins, Hrd. split; [apply Hins; auto|apply Hrd; auto]. }
  destruct (rd_insns_ok closed W1 md (we_heap E) (cd_code c) 0 ps body _ Hlaid Hfine Hlb Hi0 (length body) (le_n _)) as (is' & s1 & HR & Hl & He1 & Hi1 & Hsim).
  change (W_pool W1) with (W_pool W) in HR.
  rewrite HR. cbn [bind]. rewrite (combine_fst ps is' Hl), (combine_snd ps is' Hl).
  assert (Hr1 : length (combine ps is') = length is') by (rewrite combine_length; lia). rewrite Hr1.
  pose proof (len_nonneg (cd_catches c)). rewrite rd_u16_u2 by (unfold u16; lia). cbn [bind].
  assert (Hsm : small (concat hss) /\ small (concat ass)).
  { unfold small in *. rewrite !len_app in Hs.
    pose proof (len_nonneg (u2 (cd_stack c))); pose proof (len_nonneg (u2 (cd_locals c))); pose proof (len_nonneg (u4 (len body)));
    pose proof (len_nonneg (u2 (len (cd_catches c)))); pose proof (len_nonneg (concat hss));
    pose proof (len_nonneg (u2 (len fs))); pose proof (len_nonneg (concat ass)). lia. }
  destruct Hsm as [Sh Sa].
  assert (Hn1 : Z.to_nat (len (cd_catches c)) = length (cd_catches c)) by (unfold len; lia). rewrite Hn1.
  destruct (srd_times_ok (code_inv closed) cst_ext cst_ext_refl cst_ext_trans rd_handler (fun _ => True) fmt_handler catch_sim catch_sim_stable (rd_handler_ok closed)
    W1 (cd_catches c) hss Hhs s1 (u2 (len fs) ++ concat ass ++ rest) Hi1) as (cs & s2 & HC & He2 & Hi2 & Hcsim); auto.
  { apply Forall_forall. auto. }
  change (W_pool W1) with (W_pool W) in HC. rewrite HC. cbn [bind].
  pose proof (len_nonneg fs). rewrite rd_u16_u2 by (unfold u16; lia). cbn [bind].
  set (s3 := {| k_refs := k_refs s2; k_labels := k_labels s2; k_catches := cs |}).
  assert (Hi3 : attr_inv closed W1 s3).
  { split; [exact Hi2|]. intros x i Hx. destruct (HK x i Hx) as [Hi0' Hnth]. cbn [k_catches s3].
    assert (HN : forall n l l', Forall2 (catch_sim W1 s2) l l' -> nth_error l n = Some x -> exists y, nth_error l' n = Some y /\ catch_sim W1 s2 x y).
    { intros n l l' HF. revert n. induction HF; intros [|n] Hn; try discriminate; cbn in *; [injection Hn as <-; eauto|auto]. }
    exact (HN _ _ _ Hcsim Hnth). }
  assert (Hvars : Forall (wf_var (cd_code c)) (locals_of (cd_attrs c))).
  { apply Forall_forall. intros v Hv. unfold locals_of in Hv. apply in_flat_map in Hv as (k & Hk & Hv). rewrite Forall_forall in Hats. pose proof (Hats k Hk) as Hwk.
    destruct k; cbn in Hv; try contradiction. destruct Hwk as (_ & _ & Hvs). rewrite Forall_forall in Hvs. auto. }
  rewrite Forall_forall in Hvars.
  assert (Hokey : NoDup (map (okey W1) (locals_of (cd_attrs c)))).
  { eapply nodup_map_weaken; [exact Hkey|]. intros a b Ha Hb HE.
    assert (Hp : forall v, In v (locals_of (cd_attrs c)) -> exists x y, place (v_start v) (cd_code c) = Some x /\ place (v_end v) (cd_code c) = Some y).
    { intros v Hv. destruct (Hvars v Hv) as ((x & y & ? & ? & _) & _). eauto. }
    assert (Hpl : forall l l' x y, place l (cd_code c) = Some x -> place l' (cd_code c) = Some y -> L l = L l' -> x = y).
    { intros l l' x y Hx Hy Hll. destruct (laid_place W1 l _ 0 ps body x 0 Hlaid Hndl Hx) as (o & Ho & Hxo).
      destruct (laid_place W1 l' _ 0 ps body y 0 Hlaid Hndl Hy) as (o' & Ho' & Hyo). cbn [W_label W1 in_code] in Ho, Ho'. rewrite Hll, Ho' in Ho.
      injection Ho as ->. rewrite Hxo in Hyo. injection Hyo. lia. }
    destruct (Hp a Ha) as (a1 & a2 & Ha1 & Ha2). destruct (Hp b Hb) as (b1 & b2 & Hb1 & Hb2). unfold okey in HE. injection HE as HE1 HE2 HE3 HE4.
    unfold var_key. rewrite Ha1, Ha2, Hb1, Hb2, HE3, HE4. rewrite (Hpl _ _ _ _ Ha1 Hb1 HE1), (Hpl _ _ _ _ Ha2 Hb2 HE2). reflexivity. }
  set (idx := pos2idx (ps ++ [len body]) 0).
  assert (HK0 : kinv closed W1 (locals_of (cd_attrs c)) [] s3 {| z_lines := []; z_vars := []; z_attrs := [] |} [] []).
  { split; auto. split; auto. split; [|constructor]. split; [constructor|]. split; [intros x []|intros v u []]. }
  assert (Hud : Forall (fun e => In (fst e) (locals_of (cd_attrs c)) /\ has (inl (snd e)) (fst e)) ud).
  { apply Forall_forall. intros [v d] Hi. apply (Permutation_in _ (Permutation_sym Pd)) in Hi. apply in_descs in Hi as [Hi Hj]. auto. }
  assert (Hug : Forall (fun e => In (fst e) (locals_of (cd_attrs c)) /\ has (inr (snd e)) (fst e)) ug).
  { apply Forall_forall. intros [v d] Hi. apply (Permutation_in _ (Permutation_sym Pg)) in Hi. apply in_sigs in Hi as [Hi Hj]. auto. }
  assert (Wd : Forall (wf_lvrow wf_desc) (desc_rows fs)).
  { eapply rows_wf; [exact Hd|]. eapply Forall_impl; [|exact Hud]. intros [v d] [Hv Hd']. cbn [fst snd has] in *. destruct (Hvars v Hv) as (_ & W2 & W3 & W4 & _).
    rewrite Hd' in W4. auto. }
  assert (Wg : Forall (wf_lvrow wf_field_signature) (sig_rows fs)).
  { eapply rows_wf; [exact Hg|]. eapply Forall_impl; [|exact Hug]. intros [v d] [Hv Hd']. cbn [fst snd has] in *. destruct (Hvars v Hv) as (_ & W2 & W3 & _ & W4 & _).
    rewrite Hd' in W4. auto. }
  assert (Wo : Forall (fun a => match a with KVisible l | KInvisible l => Forall (wf_code_tannot (place_env E c)) l
    | KRaw r => wf_raw code_attr_names r | KLocals _ => False end) (other_rows fs)).
  { rewrite To. apply Forall_forall. intros a Ha. apply filter_In in Ha as [Ha Hn]. rewrite Forall_forall in Hats. specialize (Hats a Ha).
    destruct a; cbn in *; try apply Hats. discriminate. }
  assert (Wfs : Forall (wf_fcattr (place_env E c)) fs).
  { assert (HN : forall f, In f fs -> exists b, fmt_fcattr W1 f b).
    { clear - Has. intros f Hf. induction Has as [|x y l l' Hxy _ IH]; [destruct Hf|]. destruct Hf as [->|Hf]; eauto. }
    apply Forall_forall. intros f Hf. destruct (HN f Hf) as (b & Hb).
    apply (fcattr_wf W1 _ f b Hb); eapply flat_map_one; eauto. }
  assert (Hidx : forall n o, nth_error (ps ++ [len body]) n = Some o -> idx o = Some (Z.of_nat n)).
  { intros n o Ho. unfold idx. rewrite (pos2idx_nth _ 0 n o); auto. apply (laid_nodup _ _ _ _ _ Hlaid). }
  assert (Hln : Forall (fun e => idx (fst e) <> None) (line_rows fs)).
  { eapply Forall_impl; [|exact Hlines]. cbn beta. intros e He. apply In_nth_error in He as (n & Hn). rewrite (Hidx _ _ Hn). discriminate. }
  destruct (rd_tables_ok closed md W1 idx E c _ Hokey rest fs ass s3 _ [] [] [] ud ug Has Sa Wfs Hln Hd Hud Hg Hug HK0)
    as (s4 & z & U & ZL & HKr & He4 & (Hi4 & Hzl & Hzv & Hza) & _ & HUd & HUg & HZ). cbn [app] in Hza.
  assert (Hn2 : Z.to_nat (len fs) = length fs) by (unfold len; lia). rewrite Hn2.
  change (W_pool W1) with (W_pool W) in HKr. rewrite HKr. cbn [bind]. rewrite Hzl.
  assert (HU : forall v u, In v (locals_of (cd_attrs c)) -> has u v -> In (v, u) U).
  { intros v [d|g] Hv Hu; cbn [has] in Hu.
    - apply (HUd (v, d)). apply (Permutation_in _ Pd). apply in_descs. auto.
    - apply (HUg (v, g)). apply (Permutation_in _ Pg). apply in_sigs. auto. }
  assert (HLW : forall l o, W_label W1 l = Some o -> In l (labels_in (cd_code c))) by exact HL.
  set (pre := fun k => match assoc Z.eqb k ZL with Some x => [ILineNumber x] | None => [] end).
  destruct (add_labels_ok idx (k_labels s4) (map (fun '(i, line) => (i, [ILineNumber line])) ZL)) as (m & Hadd & Hm).
  { apply Forall_forall. intros [o l'] Hin. destruct Hi4 as [(_ & Hkn & _) _]. destruct (Hkn o l' Hin) as (l & Hl').
    destruct (label_index W1 (cd_code c) ps body HLW Hlaid Hndl l o Hl') as (n & _ & Hn & _). cbn [fst]. unfold idx. rewrite Hn. discriminate. }
  rewrite Hadd. cbn [bind]. assert (Hm' : forall k, lookup_at k m = pre k ++ labels_at idx (k_labels s4) k) by (intros k; rewrite Hm, lookup_lines; reflexivity).
  assert (Hpv : forall k, virtual (pre k)) by (intros k; unfold pre; destruct (assoc Z.eqb k ZL); repeat constructor).
  assert (Hpl : forall k, labels_in (pre k) = []) by (intros k; unfold pre; destruct (assoc Z.eqb k ZL); reflexivity).
  assert (Hreal : Forall (fun i => realb i = true) is').
  { apply Forall_forall. intros i' Hi'. apply In_nth_error in Hi' as (n & Hn).
    assert (HN : forall n l l', Forall2 (insn_sim W1 s1) l l' -> nth_error l' n = Some i' -> exists i, In i l /\ insn_sim W1 s1 i i').
    { intros n0 l l' HF0. revert n0. induction HF0; intros [|n0] Hn0; try discriminate; cbn in *; [injection Hn0 as <-; eauto|].
      destruct (IHHF0 _ Hn0) as (i & ? & ?). eauto. }
    destruct (HN _ _ _ Hsim Hn) as (i & Hin & Hsi). eapply sim_real; [|exact Hsi]. apply filter_In in Hin. apply Hin. }
  pose proof (proj1 (proj1 (proj1 Hi4))) as Hok4.
  pose proof (sim_same W1 s4 (cd_code c) ps body is' m HLW Hlaid Hndl Hl Hreal Hok4 pre Hpv Hpl Hm') as HSame.
  eexists _, _. split; [reflexivity|].
  split; [eapply rst_ext_trans; [exact (proj1 He1)|]; eapply rst_ext_trans; [exact (proj1 He2)|]; exact (proj1 He4)|].
  split; [destruct Hi4 as [((_ & A1 & A2 & A3) & _ & A4) _]; split; auto|]. cbn [cd_code].
  assert (Hlp : line_places 0 (insert_all (length is') m is') = spread (fun k => assoc Z.eqb (Z.of_nat k) ZL) 0 0 (length is')).
  { rewrite weave_all. apply lines_weave; auto. intros k zz r. rewrite Hm', rev_app_distr, <- app_assoc, line_labels. unfold pre.
    destruct (assoc Z.eqb (Z.of_nat k) ZL); reflexivity. }
  split; [|split].
  2:{ rewrite Hlp. apply spread_nodup. }
  2:{ intros n o Ho. unfold line_of. rewrite Hlp. rewrite <- (Z.add_0_l (Z.of_nat n)), spread_last.
    - rewrite Nat.add_0_l, HZ. cbn [assoc]. apply line_steps. intros e He. split.
      + intros Hx. apply (pos2idx_inj (ps ++ [len body]) 0 _ _ (Z.of_nat n) Hx). apply Hidx. auto.
      + intros ->. apply Hidx. auto.
    - assert (n < length (ps ++ [len body]))%nat by (apply nth_error_Some; congruence). rewrite app_length in *. cbn [length] in *. lia. }
  unfold code_rel. cbn [cd_stack cd_locals cd_code cd_catches cd_attrs].
  set (R := same_place (cd_code c) (insert_all (length is') m is')) in *.
  split; auto. split; auto. split.
  { rewrite weave_all, strip_weave; [|intros k; apply (lookup_virtual pre m idx (k_labels s4)); auto|auto]. eapply forall2_impl; [|exact Hsim]. intros i i' Hii.
    apply (insn_sim_rel W1 s4 R HSame).
    apply (insn_sim_stable W1 s3 s4); [exact He4|]. exact (insn_sim_stable W1 s1 s2 _ _ He2 Hii). }
  split.
  { eapply forall2_impl; [|exact Hcsim]. intros x y Hxy. apply (catch_sim_rel W1 s4 R HSame). apply (catch_sim_stable W1 s3 s4); [exact He4|exact Hxy]. }
  destruct (vars_match W1 s4 (locals_of (cd_attrs c)) U (z_vars z) Hok4 Hokey Hzv HU) as (vs0 & Hperm & Hvs0).
  { apply Forall_forall. intros v Hv. apply (Hvars v Hv). }
  rewrite To in Hza.
  exists (z_attrs z), (z_vars z), vs0. split; [eapply forall2_impl; [|exact Hza]; apply (kattr_sim_rel W1 s4 R HSame)|]. split; auto. split.
  { eapply forall2_impl; [|exact Hvs0]. intros v x ((A1 & A2 & A3 & A4) & A5 & A6). repeat split; auto; apply HSame; auto. }
  destruct (z_vars z); reflexivity.
Qed.
(** With the line numbers of the code. *)
Lemma rd_code_lines md E : srd_ok (rst_inv closed) rst_ext (rd_code md) (fun c => wf_any_code E c /\ code_readable c) (fmt_code_lines E)
  (fun W s c c' => code_rel_lines (dyn_read W s) c c').
Proof.
  intros W s c bs rest Hi [Hwf Hrd] (L & K & fs & ps & body & HF & HT & Hfr & Hln & HE) Hs.
  destruct (rd_code_tab md E W s c L K fs ps body bs rest Hi Hwf Hrd HF HT Hfr Hln Hs) as (c' & s' & H1 & H2 & H3 & H4 & H5 & H6).
  exists c', s'. split; [exact H1|]. split; [exact H2|]. split; [exact H3|]. split; [exact H4|]. split; [exact H5|].
  intros n Hn. destruct (nth_error (ps ++ [len body]) (Z.to_nat n)) as [o|] eqn:Eo.
  - specialize (H6 _ _ Eo). specialize (HE _ _ Eo). rewrite Z2Nat.id in * by lia. congruence.
  - exfalso. apply nth_error_None in Eo. rewrite app_length in Eo. cbn [length] in Eo.
    assert (length ps = length (strip (cd_code c))) by (eapply laid_len; apply HF). unfold len in Hn. lia.
Qed.
End Code.
