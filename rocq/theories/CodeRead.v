(** Reading a code attribute. *)
From Coq Require Import String Permutation Sorted.
From Verif Require Import Base BaseLemmas Wtf8Spec PrimModel PrimProofs TypeModel TypeSpec TypeProofs CpModel CpSpec CpProofs CpProps FileSpec SigModel SigSpec
  AnnModel AnnSpec AnnProofs AttrModel AttrSpec AttrProofs FrameModel FrameSpec FrameProofs InsnModel InsnSpec InsnProofs InsnProps
  CodeModel CodeSpec CodeProofs CodeWrite.

(** * What is inserted where *)
Definition lookup_at (k : Z) (m : list (Z * list insn)) : list insn :=
  match assoc Z.eqb k m with Some v => v | None => [] end.
(** [pre k] in front of the [k]-th instruction *)
Fixpoint weave (k : nat) (pre : nat -> list insn) (is : list insn) : list insn :=
  match is with
  | [] => pre k
  | i :: is => pre k ++ i :: weave (S k) pre is
  end.
Lemma weave_snoc pre a x : forall k, weave k pre (a ++ [x]) = weave k pre a ++ x :: pre (S (k + length a)).
Proof.
  induction a as [|i a IH]; intros k; cbn [app weave length].
  - rewrite Nat.add_0_r. reflexivity.
  - rewrite IH, <- app_assoc. cbn [app]. rewrite Nat.add_succ_r. reflexivity.
Qed.
Lemma insert_here {A} (a c : list A) x : insert_at (length a) x (a ++ c) = a ++ x :: c.
Proof.
  unfold insert_at. rewrite firstn_app, skipn_app, firstn_all, skipn_all, Nat.sub_diag. cbn. rewrite app_nil_r. reflexivity.
Qed.
Lemma insert_many {A} (a : list A) v : forall c, fold_left (fun is i => insert_at (length a) i is) v (a ++ c) = a ++ rev v ++ c.
Proof.
  induction v as [|x v IH]; intros c; cbn [fold_left rev]; auto. rewrite insert_here, IH, <- app_assoc. reflexivity.
Qed.
Lemma insert_weave m : forall a c, insert_all (length a) m (a ++ c) = weave 0 (fun k => rev (lookup_at (Z.of_nat k) m)) a ++ c.
Proof.
  intros a. induction a as [|x a IH] using rev_ind; intros c.
  - cbn [length app insert_all weave]. unfold lookup_at. destruct (assoc Z.eqb (Z.of_nat 0) m); auto.
    apply (insert_many [] l c).
  - rewrite app_length, Nat.add_1_r. cbn [insert_all].
    replace (match assoc Z.eqb (Z.of_nat (S (length a))) m with Some v => _ | None => _ end)
      with ((a ++ [x]) ++ rev (lookup_at (Z.of_nat (S (length a))) m) ++ c).
    + rewrite <- app_assoc, IH, weave_snoc, <- app_assoc. reflexivity.
    + unfold lookup_at. destruct (assoc Z.eqb (Z.of_nat (S (length a))) m); auto.
      rewrite <- (insert_many (a ++ [x])). rewrite app_length, Nat.add_1_r. reflexivity.
Qed.
Lemma weave_all m is : insert_all (length is) m is = weave 0 (fun k => rev (lookup_at (Z.of_nat k) m)) is.
Proof. pose proof (insert_weave m is []) as H. rewrite !app_nil_r in H. exact H. Qed.

(** labels *)
Lemma lookup_push k i m j : lookup_at j (push_at k i m) = lookup_at j m ++ (if k =? j then [i] else []).
Proof.
  unfold lookup_at. induction m as [|[k' v] m IH]; cbn [push_at assoc].
  - rewrite (Z.eqb_sym j k). destruct (k =? j); reflexivity.
  - destruct (Z.eqb_spec k' k); cbn [assoc].
    + subst. rewrite (Z.eqb_sym j k). destruct (k =? j); auto. destruct (assoc Z.eqb j m); rewrite app_nil_r; auto.
    + rewrite (Z.eqb_sym j k'). destruct (Z.eqb_spec k' j); auto. subst. assert (k =? j = false) as -> by lia. rewrite app_nil_r. reflexivity.
Qed.
Definition labels_at (idx : Z -> option Z) (ls : list (Z * Z)) (k : Z) : list insn :=
  flat_map (fun e => match idx (fst e) with Some j => if j =? k then [ILabel (snd e)] else [] | None => [] end) ls.
Lemma add_labels_ok idx ls : forall m, Forall (fun e => idx (fst e) <> None) ls ->
  exists m', add_labels idx ls m = Ok m' /\ forall k, lookup_at k m' = lookup_at k m ++ labels_at idx ls k.
Proof.
  induction ls as [|[off l] ls IH]; intros m H; cbn [add_labels].
  - exists m. split; auto. intros k. rewrite app_nil_r. reflexivity.
  - inversion H as [|? ? Hx Hls]; subst. cbn [fst] in Hx. destruct (idx off) as [j|] eqn:Ej; [|congruence].
    destruct (IH (push_at j (ILabel l) m) Hls) as (m' & -> & Hm'). exists m'. split; auto. intros k.
    rewrite Hm', lookup_push, <- app_assoc. unfold labels_at. cbn [flat_map fst snd]. rewrite Ej. reflexivity.
Qed.
Lemma add_labels_err idx ls : forall m, Exists (fun e => idx (fst e) = None) ls -> add_labels idx ls m = Err EInvalid.
Proof.
  induction ls as [|[off l] ls IH]; intros m H; [inversion H|]. cbn [add_labels]. inversion H; subst; cbn [fst] in *.
  - rewrite H1. reflexivity.
  - destruct (idx off); auto.
Qed.
Lemma in_labels_at idx ls k i : In i (labels_at idx ls k) <-> exists off l, In (off, l) ls /\ idx off = Some k /\ i = ILabel l.
Proof.
  unfold labels_at. rewrite in_flat_map. split.
  - intros ([off l] & Hin & H). cbn [fst snd] in H. destruct (idx off) as [j|] eqn:Ej; [|contradiction].
    destruct (Z.eqb_spec j k); [|contradiction]. subst. destruct H as [<-|[]]. eauto.
  - intros (off & l & Hin & Hi & ->). exists (off, l). split; auto. cbn [fst snd]. rewrite Hi, Z.eqb_refl. cbn. auto.
Qed.

(** places in woven code *)
Lemma place_app l a b : ~ In l (labels_in a) -> place l (a ++ b) = option_map (fun n => n + len (strip a)) (place l b).
Proof.
  induction a as [|i a IH]; intros H; cbn [app place strip filter].
  - destruct (place l b); cbn; auto. f_equal. unfold len. cbn. lia.
  - assert (match i with ILabel l' => l' =? l | _ => false end = false) as ->.
    { destruct i; auto. cbn in H. destruct (Z.eqb_spec l0 l); auto. subst. tauto. }
    rewrite IH by (intros G; apply H; cbn [labels_in flat_map]; apply in_or_app; auto). fold (strip a).
    destruct (place l b); cbn; auto. destruct (realb i); rewrite ?len_cons; f_equal; lia.
Qed.
Lemma place_first l a b : ~ In l (labels_in a) -> place l (a ++ ILabel l :: b) = Some (len (strip a)).
Proof. intros H. rewrite place_app by auto. cbn [place]. rewrite Z.eqb_refl. reflexivity. Qed.
Lemma strip_app a b : strip (a ++ b) = strip a ++ strip b.
Proof. apply filter_app. Qed.
Lemma labels_app a b : labels_in (a ++ b) = labels_in a ++ labels_in b.
Proof. apply flat_map_app. Qed.
Definition virtual (is : list insn) : Prop := Forall (fun i => realb i = false) is.
Lemma strip_virtual is : virtual is -> strip is = [].
Proof. induction 1 as [|i is H _ IH]; cbn; auto. rewrite H. auto. Qed.
Lemma real_labels is : Forall (fun i => realb i = true) is -> labels_in is = [].
Proof. induction 1 as [|i is H _ IH]; cbn [labels_in flat_map]; auto. fold (labels_in is). rewrite IH. destruct i; auto; discriminate. Qed.
Lemma real_strip is : Forall (fun i => realb i = true) is -> strip is = is.
Proof. induction 1 as [|i is H _ IH]; cbn; auto. rewrite H. f_equal. auto. Qed.
Lemma strip_weave pre is : (forall k, virtual (pre k)) -> Forall (fun i => realb i = true) is -> forall k, strip (weave k pre is) = is.
Proof.
  intros Hp Hr. induction Hr as [|i is H _ IH]; intros k; cbn [weave].
  - apply strip_virtual; auto.
  - rewrite strip_app, strip_virtual by auto. cbn [app strip filter]. rewrite H. f_equal. apply IH.
Qed.
Lemma labels_weave pre is l : Forall (fun i => realb i = true) is -> forall k,
  In l (labels_in (weave k pre is)) <-> exists j, (k <= j <= k + length is)%nat /\ In l (labels_in (pre j)).
Proof.
  induction 1 as [|i is H _ IH]; intros k; cbn [weave length].
  - split; [intros HI; exists k; split; [lia|auto]|]. intros (j & Hj & HI). assert (j = k) by lia. subst. auto.
  - rewrite labels_app, in_app_iff. cbn [labels_in flat_map]. assert (match i with ILabel l => [l] | _ => [] end = []) as -> by (destruct i; auto; discriminate).
    cbn [app]. fold (labels_in (weave (S k) pre is)). rewrite IH. split.
    + intros [HI|(j & Hj & HI)]; [exists k|exists j]; (split; [lia|auto]).
    + intros (j & Hj & HI). destruct (Nat.eq_dec j k); [subst; auto|]. right. exists j. split; [lia|auto].
Qed.
Lemma place_weave pre is l j : (forall k, virtual (pre k)) -> Forall (fun i => realb i = true) is ->
  (forall j', j' <> j -> ~ In l (labels_in (pre j'))) -> In l (labels_in (pre j)) ->
  forall k, (k <= j <= k + length is)%nat -> place l (weave k pre is) = Some (Z.of_nat (j - k)).
Proof.
  intros Hp Hr Ho Hi. assert (Hhere : forall k b, k = j -> place l (pre k ++ b) = Some 0).
  { intros k b ->. specialize (Hp j). revert Hi Hp. clear. generalize (pre j). intros p. induction p as [|i p IH]; cbn [labels_in flat_map]; [intros []|].
    intros H Hv. inversion Hv; subst. cbn [app place]. destruct (match i with ILabel l' => l' =? l | _ => false end) eqn:E; auto.
    rewrite in_app_iff in H. destruct H as [H|H].
    - destruct i; cbn in H; try tauto. destruct H as [->|[]]. rewrite Z.eqb_refl in E. discriminate.
    - rewrite IH by auto. cbn. rewrite H2. reflexivity. }
  induction Hr as [|i is H _ IH]; intros k Hk; cbn [weave length] in *.
  - assert (k = j) by lia. rewrite <- (app_nil_r (pre k)), Hhere by auto. f_equal. lia.
  - destruct (Nat.eq_dec k j).
    + rewrite Hhere by auto. f_equal. lia.
    + rewrite place_app by auto. rewrite strip_virtual by auto. cbn [place].
      assert (match i with ILabel l' => l' =? l | _ => false end = false) as -> by (destruct i; auto; discriminate).
      rewrite IH by lia. cbn. rewrite H. unfold len. cbn. f_equal. lia.
Qed.

(** * Instructions *)
Lemma enc_virtual pos W i b : realb i = false -> enc pos W i b -> b = [].
Proof.
  destruct i; try discriminate; cbn [enc]; auto.
  - destruct a, b0; try discriminate; auto.
  - destruct t; try discriminate; auto.
Qed.
Lemma enc_real pos W i b : realb i = true -> enc pos W i b -> 1 <= len b.
Proof.
  assert (HC : forall (x : Z) l, 1 <= len (x :: l)) by (intros; rewrite len_cons; pose proof (len_nonneg l); lia).
  assert (HO : forall A op R W (a : A) tl b, op_ref op R W a tl b -> 1 <= len b).
  { intros A op R W' a tl b' (k & _ & ->). apply HC. }
  assert (HV : forall op i b, enc_var op i b -> 1 <= len b) by (intros ? ? ? [[_ ->]|[_ ->]]; apply HC).
  intros Hr He. destruct i; try discriminate; cbn [enc] in He; subst; auto; try (eapply HO; eauto; fail); try (eapply HV; eauto; fail).
  all: try (destruct He as [He|[_ ->]]; [eapply HV; eauto|apply HC]).
  - destruct He as [(k & _ & He)|He].
    { destruct (two_slots c); [destruct He as [_ ->]|destruct He as [[_ ->]|[_ ->]]]; apply HC. }
    destruct c as [|k]; [contradiction|]. destruct k; cbn [enc_small] in He; try contradiction; intuition (subst; apply HC).
  - destruct He as (o & _ & [[_ ->]|(_ & w & _ & ->)]); apply HC.
  - destruct t; subst; apply HC.
  - destruct He as [(_ & t' & k & _ & _ & ->)|[(_ & He)|(_ & He)]]; [apply HC|eapply HO; eauto|eapply HO; eauto].
  - destruct a, b0; try discriminate; apply HC.
  - destruct t; try discriminate; apply HC.
  - destruct t; subst; apply HC.
  - destruct He as (_ & He). eapply HO; eauto.
  - destruct He as (_ & He). eapply HO; eauto.
  - destruct He as (o & _ & [[_ ->]|(_ & w & _ & ->)]); apply HC.
  - destruct He as [(_ & _ & ->)|(_ & _ & ->)]; apply HC.
  - destruct He as (pad & d & oss & -> & _). apply HC.
  - destruct He as (pad & d' & t' & ess & -> & _). apply HC.
Qed.
Lemma laid_head W is : forall pos ps bs, laid enc W pos is ps bs -> exists t, ps ++ [pos + len bs] = pos :: t.
Proof.
  induction is as [|i is IH]; cbn [laid]; intros pos ps bs H.
  - destruct H as [-> ->]. exists []. change (len (@nil Z)) with 0. rewrite Z.add_0_r. reflexivity.
  - destruct H as (_ & b & rest & -> & He & H). destruct (realb i) eqn:Er.
    + destruct H as (ps' & -> & _). eexists. reflexivity.
    + apply enc_virtual in He; auto. subst b. change (len (@nil Z)) with 0 in H. rewrite Z.add_0_r in H. cbn [app]. eauto.
Qed.
Lemma laid_ge W is : forall pos ps bs, laid enc W pos is ps bs -> Forall (fun q => pos <= q) (ps ++ [pos + len bs]).
Proof.
  induction is as [|i is IH]; cbn [laid]; intros pos ps bs H.
  - destruct H as [-> ->]. cbn [app]. change (len (@nil Z)) with 0. repeat constructor. lia.
  - destruct H as (_ & b & rest & -> & He & H). pose proof (len_nonneg b). rewrite len_app, Z.add_assoc. destruct (realb i) eqn:Er.
    + destruct H as (ps' & -> & H). cbn [app]. constructor; [lia|]. eapply Forall_impl; [|eapply IH; eauto]. cbn. intros; lia.
    + eapply Forall_impl; [|eapply IH; eauto]. cbn. intros; lia.
Qed.
Lemma pos2idx_in ps : forall k o n, pos2idx ps k o = Some n -> In o ps.
Proof.
  induction ps as [|q ps IH]; cbn [pos2idx]; intros k o n H; [discriminate|]. destruct (Z.eqb_spec q o); [left; auto|right; eauto].
Qed.
Lemma pos2idx_range ps : forall k o n, pos2idx ps k o = Some n -> k <= n < k + len ps.
Proof.
  induction ps as [|q ps IH]; cbn [pos2idx]; intros k o n H; [discriminate|]. rewrite len_cons. pose proof (len_nonneg ps).
  destruct (q =? o); [injection H; lia|]. apply IH in H. lia.
Qed.
Lemma pos2idx_inj ps : forall k o o' n, pos2idx ps k o = Some n -> pos2idx ps k o' = Some n -> o = o'.
Proof.
  induction ps as [|q ps IH]; cbn [pos2idx]; intros k o o' n H H'; [discriminate|].
  destruct (Z.eqb_spec q o), (Z.eqb_spec q o'); subst; auto.
  - injection H as <-. apply pos2idx_range in H'. lia.
  - injection H' as <-. apply pos2idx_range in H. lia.
  - eauto.
Qed.
(** the offset of a label is the one of the instruction behind it *)
Lemma laid_place W l is : forall pos ps bs n k, laid enc W pos is ps bs -> NoDup (labels_in is) -> place l is = Some n ->
  exists o, W_label W l = Some o /\ pos2idx (ps ++ [pos + len bs]) k o = Some (k + n).
Proof.
  induction is as [|i is IH]; intros pos ps bs n k H Hn Hp; [discriminate|]. pose proof H as H0. pose proof (laid_head _ _ _ _ _ H) as (t & Ht).
  cbn [laid place] in *. destruct H as (HL & b & rest & -> & He & H).
  assert (Hn' : NoDup (labels_in is)) by (cbn [labels_in flat_map] in Hn; destruct i; auto; inversion Hn; auto).
  destruct (match i with ILabel l' => l' =? l | _ => false end) eqn:El.
  - destruct i; try discriminate. injection Hp as <-. assert (l0 = l) by lia. subst l0. exists pos. split; auto.
    rewrite Ht. cbn [pos2idx]. rewrite Z.eqb_refl, Z.add_0_r. reflexivity.
  - destruct (place l is) as [m|] eqn:Em; [|discriminate]. cbn in Hp. destruct (realb i) eqn:Er.
    + injection Hp as <-. destruct H as (ps' & -> & H). destruct (IH _ _ _ m (k + 1) H Hn' eq_refl) as (o & Ho & Hk).
      exists o. split; auto. cbn [app pos2idx]. rewrite len_app, Z.add_assoc.
      pose proof (pos2idx_in _ _ _ _ Hk) as Hin. pose proof (laid_ge _ _ _ _ _ H) as Hge. rewrite Forall_forall in Hge. apply Hge in Hin.
      pose proof (enc_real _ _ _ _ Er He). assert (pos =? o = false) as -> by lia. rewrite Hk. f_equal. lia.
    + injection Hp as <-. apply enc_virtual in He; auto. subst b. change (len (@nil Z)) with 0 in H. rewrite Z.add_0_r in H. cbn [app]. eauto.
Qed.
Lemma place_some l is : In l (labels_in is) -> exists n, place l is = Some n.
Proof.
  induction is as [|i is IH]; cbn [place labels_in flat_map]; [intros []|]. rewrite in_app_iff. intros H.
  destruct (match i with ILabel l' => l' =? l | _ => false end) eqn:El; [eauto|]. destruct H as [H|H].
  - destruct i; cbn in H; try tauto. destruct H as [->|[]]. rewrite Z.eqb_refl in El. discriminate.
  - destruct (IH H) as (n & ->). cbn. eauto.
Qed.
Lemma place_le l is n : place l is = Some n -> n <= len (strip is).
Proof.
  revert n. induction is as [|i is IH]; cbn [place strip filter]; intros n H; [discriminate|]. fold (strip is).
  pose proof (len_nonneg (strip is)).
  destruct (match i with ILabel l' => l' =? l | _ => false end); [injection H as <-; destruct (realb i); rewrite ?len_cons; lia|].
  destruct (place l is) as [m|]; [|discriminate]. specialize (IH m eq_refl). cbn in H. destruct (realb i); injection H as <-; rewrite ?len_cons; lia.
Qed.
Lemma laid_len W is : forall pos ps bs, laid enc W pos is ps bs -> length ps = length (strip is).
Proof.
  induction is as [|i is IH]; cbn [laid strip filter]; intros pos ps bs H; [destruct H as [-> _]; auto|].
  destruct H as (_ & b & rest & -> & _ & H). destruct (realb i); [|eauto]. destruct H as (ps' & -> & H). cbn. f_equal. eauto.
Qed.

Lemma canon_real i : realb (canon i) = realb i.
Proof. destruct i; auto. destruct a, b; auto. Qed.
Lemma sim_real W s i i' : realb i = true -> insn_sim W s i i' -> realb i' = true.
Proof.
  intros Hr H. assert (HC : canon i' = canon i -> realb i' = true) by (intros E; rewrite <- canon_real, E, canon_real; auto).
  destruct i; cbn [insn_sim] in H; auto; destruct i'; try contradiction; auto; try discriminate.
Qed.

Definition known (W : world) (s : cst) : Prop := forall o l', In (o, l') (k_labels s) -> exists l, W_label W l = Some o.
(** Where [closed] holds, the references name entries of the table. *)
Section Refs.
Context (closed : bool).
Definition refs_in (W : world) (s : rst) : Prop := Forall (fun r => closed = true -> fst r < len (W_tbl W)) (r_refs s).
Definition code_inv (W : world) (s : cst) : Prop := ref_ok W s /\ known W s /\ refs_in W (k_refs s).
Lemma code_inv_label W s l off : code_inv W s -> u32 off -> W_label W l = Some off -> code_inv W (snd (get_label off s)).
Proof.
  intros (H1 & H2 & H3) Ho Hl. split; [eapply ref_ok_label; eauto|]. unfold get_label. destruct (assoc Z.eqb off (k_labels s)); cbn; auto. split; [|exact H3].
  intros o l' Hin. cbn in Hin. apply in_app_or in Hin as [Hin|[Hin|[]]]; [eauto|]. injection Hin as <- <-. eauto.
Qed.
Lemma code_inv_ref W s k : code_inv W s -> u16 k -> k < len (W_tbl W) ->
  code_inv W (with_refs s {| r_refs := r_refs (k_refs s) ++ [(k, r_next (k_refs s))]; r_next := r_next (k_refs s) + 1 |}).
Proof.
  intros (H1 & H2 & H3) Hk Hl. split; [apply ref_ok_step; auto|split; [exact H2|]]. unfold refs_in. cbn. apply Forall_app.
  split; [exact H3|]. constructor; [|constructor]. cbn. auto.
Qed.
Lemma rd_insns_ok W md heap is : forall pos ps bs s, laid enc W pos is ps bs ->
  Forall (fun i => realb i = true -> wf_insn heap i /\ readable i) is -> len bs < 4294967296 -> code_inv W s ->
  forall fuel, (length bs <= fuel)%nat ->
  exists is' s', rd_insns fuel md (W_pool W) pos s bs = Ok (combine ps is', s') /\ length is' = length ps /\
    cst_ext s s' /\ code_inv W s' /\ Forall2 (insn_sim W s') (strip is) is'.
Proof.
  induction is as [|i is IH]; intros pos ps bs s H Hw Hlen Hi fuel Hfu; cbn [laid strip filter] in *.
  - destruct H as [-> ->]. exists [], s. repeat split; try apply Hi; auto; try apply cst_ext_refl. destruct fuel; reflexivity.
  - destruct H as (_ & b & rest & -> & He & H). inversion Hw as [|? ? Hwi Hw']; subst. rewrite len_app in Hlen. pose proof (len_nonneg b). pose proof (len_nonneg rest).
    destruct (realb i) eqn:Er.
    + destruct H as (ps' & -> & H). destruct (Hwi eq_refl) as [Hwf Hrd]. pose proof (enc_real _ _ _ _ Er He) as Hb.
      destruct (rd_insn_ok code_inv (fun W s H => proj1 (proj1 H)) code_inv_label code_inv_ref (fun W s H => proj2 (proj2 (proj2 (proj1 H))))
        heap md W s pos i b rest Hi Hwf Hrd He) as (i' & s1 & R1 & R2 & R3 & R4); [right; unfold small; lia|].
      destruct b as [|b0 b]; [change (len (@nil Z)) with 0 in Hb; lia|]. destruct fuel as [|fuel]; [cbn in Hfu; lia|].
      cbn [app rd_insns]. change (b0 :: b ++ rest) with ((b0 :: b) ++ rest). rewrite R1. cbn [bind].
      replace (pos + (len ((b0 :: b) ++ rest) - len rest)) with (pos + len (b0 :: b)) by (rewrite len_app; lia).
      destruct (IH _ _ _ s1 H Hw' ltac:(lia) R3 fuel) as (is' & s' & -> & Hl & He2 & Hi2 & Hs2).
      { cbn in Hfu. rewrite app_length in Hfu. lia. }
      cbn [bind]. exists (i' :: is'), s'. repeat split; try apply Hi2; auto.
      * cbn. congruence.
      * eapply cst_ext_trans; eauto.
      * eapply cst_ext_trans; eauto.
      * destruct (cst_ext_trans _ _ _ R2 He2) as (_ & _ & ?); auto.
      * constructor; auto. eapply insn_sim_stable; eauto.
    + apply enc_virtual in He; auto. subst b. cbn [app] in *. change (len (@nil Z)) with 0 in *. rewrite Z.add_0_r in H.
      apply IH; auto.
Qed.

(** * Handlers and attributes *)
Lemma rd_handler_ok : srd_ok code_inv cst_ext rd_handler (fun _ => True) fmt_handler catch_sim.
Proof.
  intros W s c bs rest Hi _ (x1 & x2 & x3 & x4 & H1 & H2 & H3 & H4 & ->) Hs. unfold rd_handler. rewrite <- !app_assoc.
  apply small_app in Hs as [S1 Hs]. apply small_app in Hs as [S2 Hs]. apply small_app in Hs as [S3 _].
  pose proof (rd_label_ok code_inv (fun W s H => proj1 (proj1 H)) code_inv_label) as RL.
  destruct (RL W s (c_start c) x1 (x2 ++ x3 ++ x4 ++ rest) Hi I H1 S1) as (a & s1 & -> & E1 & I1 & Q1). cbn [bind].
  destruct (RL W s1 (c_end c) x2 (x3 ++ x4 ++ rest) I1 I H2 S2) as (b & s2 & -> & E2 & I2 & Q2). cbn [bind].
  destruct (RL W s2 (c_handler c) x3 (x4 ++ rest) I2 I H3 S3) as (h & s3 & -> & E3 & I3 & Q3). cbn [bind].
  assert (E13 : cst_ext s1 s3) by (eapply cst_ext_trans; eauto). assert (E03 : cst_ext s s3) by (eapply cst_ext_trans; eauto).
  assert (HQ : label_sim W s3 (c_start c) a /\ label_sim W s3 (c_end c) b /\ label_sim W s3 (c_handler c) h).
  { split; [apply (label_sim_stable W s1 s3)|split; [apply (label_sim_stable W s2 s3)|]]; auto. }
  destruct (c_type c) as [t|] eqn:Et; cbn [fmt_opt] in H4.
  - destruct H4 as (i & Hi4 & -> & Hc). rewrite rd_u16_u2 by (unfold u16; lia). cbn [bind]. assert (i =? 0 = false) as -> by lia.
    rewrite (read_class_ok _ _ _ Hc). do 2 eexists. split; [reflexivity|]. split; [exact E03|]. split; [exact I3|]. unfold catch_sim. cbn. rewrite Et. tauto.
  - subst x4. rewrite rd_u16_u2 by (unfold u16; lia). cbn [bind]. rewrite Z.eqb_refl.
    do 2 eexists. split; [reflexivity|]. split; [exact E03|]. split; [exact I3|]. unfold catch_sim. cbn. rewrite Et. tauto.
Qed.
Lemma rd_u2_ok : rd_okS (fun _ => rd_u16) u16 fmt_u2.
Proof. intros W x bs rest Hx [_ ->] _. apply rd_u16_u2; auto. Qed.
Lemma rd_lvrow_ok {A} (r : pool -> rd A) P F : rd_okS r P F -> rd_okS (fun p => rd_lvrow p (r p)) (wf_lvrow P) (fmt_lvrow F).
Proof.
  intros Hr W a bs rest Ha HF Hs.
  refine (rd_map_ok _ (fun r => (lr_start r, (lr_len r, (lr_name r, (lr_type r, lr_index r))))) _ _ _
    (rd_pair_ok _ _ _ _ _ _ rd_u2_ok (rd_pair_ok _ _ _ _ _ _ rd_u2_ok (rd_pair_ok _ _ _ _ _ _ (rd_ok_S _ _ _ rd_cow_ok)
      (rd_pair_ok _ _ _ _ _ _ Hr rd_u2_ok)))) _ W a bs rest Ha HF Hs). intros []; reflexivity.
Qed.
Definition attr_inv (W : world) (s : cst) : Prop := code_inv W s /\ catches_ok W s.
Lemma get_label_ext off s : cst_ok s -> u32 off -> cst_ext s (snd (get_label off s)).
Proof. intros H1 H2. apply (get_label_ok off s H1 H2). Qed.
Lemma attr_inv_label W s l off : attr_inv W s -> u32 off -> W_label W l = Some off -> attr_inv W (snd (get_label off s)).
Proof.
  intros [H1 H2] Ho Hl. split; [eapply code_inv_label; eauto|]. eapply catches_ok_ext; eauto. apply get_label_ext; auto. apply H1.
Qed.
Definition fcattr_sim (W : world) (s : cst) (a a' : fcattr) : Prop :=
  match a, a' with
  | CaInvisible x, CaInvisible y | CaVisible x, CaVisible y => Forall2 (code_tannot_sim W s) x y
  | CaFrames x, CaFrames y => Forall2 (frame_sim W s) x y
  | CaLines x, CaLines y => y = x
  | CaLocals x, CaLocals y => y = x
  | CaLocalTypes x, CaLocalTypes y => y = x
  | CaRaw x, CaRaw y => y = x
  | _, _ => False
  end.
Lemma frame_sim_stable : stable cst_ext frame_sim.
Proof.
  assert (HL : forall W s s' a b, cst_ext s s' -> Forall2 (vtype_sim W s) a b -> Forall2 (vtype_sim W s') a b).
  { intros W s s' a b He. apply (stable_list cst_ext _ vtype_sim_stable); auto. }
  intros W s s' a b He H. destruct a, b; cbn in *; auto; intuition eauto using vtype_sim_stable.
Qed.
Lemma rd_fcattr_ok md E : srd_ok attr_inv cst_ext (rd_fcattr md) (wf_fcattr E) fmt_fcattr fcattr_sim.
Proof.
  intros W s a bs rest Hi Ha HF Hs. unfold rd_fcattr.
  pose proof (fun W s (H : attr_inv W s) => proj1 (proj1 (proj1 H))) as Iok.
  assert (Hst : forall A B (r : pool -> srd cst B) (P : A -> Prop) F sim name (h : list B -> fcattr) l, stable cst_ext sim -> srd_ok attr_inv cst_ext r P F sim ->
    assoc (list_eqb Z.eqb) name (fcattr_known md (W_pool W) s) = Some (srd_map h (srd_vec 2 (r (W_pool W))) s) ->
    len l < 65536 /\ Forall P l -> fmt_attr name (fmt_table2 F) W l bs ->
    exists ys s', rd_attr (W_pool W) (fcattr_known md (W_pool W) s) (fun r => (CaRaw r, s)) (bs ++ rest) = Ok ((h ys, s'), rest) /\
      cst_ext s s' /\ attr_inv W s' /\ Forall2 (sim W s') l ys).
  { intros A B r P F sim name h l Hsim Hr Hk HP HFa. destruct (fmt_attr_read (B := fcattr * cst) _ _ _ _ _ HFa Hs) as (body & HB & Hsb & HR).
    destruct (srd_vec2_ok attr_inv cst_ext cst_ext_refl cst_ext_trans _ _ _ _ Hsim Hr W s l body [] Hi HP HB Hsb) as (d & s' & Hd & He & Hi' & Hfd).
    destruct (HR (fcattr_known md (W_pool W) s) (fun r => (CaRaw r, s)) rest) as [H _].
    exists d, s'. split; [|auto]. eapply H; [exact Hk|]. unfold srd_map. rewrite app_nil_r in Hd. rewrite Hd. reflexivity. }
  destruct a as [l|l|l|l|l|l|r]; cbn [wf_fcattr fmt_fcattr] in *.
  - exists (CaLines l), s. split; [|split; [apply cst_ext_refl|cbn; auto]].
    known (fun x : list (Z * Z) => (CaLines x, s)) (rd_vec2S_ok _ _ _ (rd_pair_ok _ _ _ _ _ _ rd_u2_ok rd_u2_ok)).
  - exists (CaLocals l), s. split; [|split; [apply cst_ext_refl|cbn; auto]].
    known (fun x => (CaLocals x, s)) (rd_vec2S_ok _ _ _ (rd_lvrow_ok _ _ _ (rd_ok_S _ _ _ (rd_type_ok md)))).
  - exists (CaLocalTypes l), s. split; [|split; [apply cst_ext_refl|cbn; auto]].
    known (fun x => (CaLocalTypes x, s)) (rd_vec2S_ok _ _ _ (rd_lvrow_ok _ _ _ (rd_field_sig_ok md))).
  - destruct (Hst _ _ _ _ _ _ (str "RuntimeInvisibleTypeAnnotations") CaInvisible l code_tannot_sim_stable
      (rd_code_tannot_ok attr_inv Iok attr_inv_label (fun W s H => proj2 H) md E) eq_refl Ha HF) as (ys & s' & H1 & H2 & H3 & H4).
    exists (CaInvisible ys), s'. auto.
  - destruct (Hst _ _ _ _ _ _ (str "RuntimeVisibleTypeAnnotations") CaVisible l code_tannot_sim_stable
      (rd_code_tannot_ok attr_inv Iok attr_inv_label (fun W s H => proj2 H) md E) eq_refl Ha HF) as (ys & s' & H1 & H2 & H3 & H4).
    exists (CaVisible ys), s'. auto.
  - destruct (Hst _ _ _ _ _ _ (str "StackMapTable") CaFrames l frame_sim_stable
      (rd_frame_ok attr_inv Iok attr_inv_label E) eq_refl Ha HF) as (ys & s' & H1 & H2 & H3 & H4).
    exists (CaFrames ys), s'. auto.
  - exists (CaRaw r), s. split; [|split; [apply cst_ext_refl|cbn; auto]]. apply (attr_raw W r bs (fcattr_known md (W_pool W) s) (fun r => (CaRaw r, s)) rest HF Hs).
    apply Ha.
Qed.

(** * Variables *)
Definition upd : Type := (ty + rsig)%type.
Definition apply_upd (u : upd) : localvar -> localvar := match u with inl d => set_desc d | inr g => set_sig g end.
Definition has (u : upd) (v : localvar) : Prop := match u with inl d => v_desc v = Some d | inr g => v_sig v = Some g end.
Definition vkey (v : localvar) : Z * Z * Z * list Z := (v_start v, v_end v, v_index v, v_name v).
Definition okey (W : world) (v : localvar) : option Z * option Z * Z * list Z :=
  (W_label W (v_start v), W_label W (v_end v), v_index v, v_name v).
Definition var_at (W : world) (s : cst) (v x : localvar) : Prop :=
  label_sim W s (v_start v) (v_start x) /\ label_sim W s (v_end v) (v_end x) /\ v_index x = v_index v /\ v_name x = v_name v.
Definition vars_inv (W : world) (s : cst) (locs : list localvar) (U : list (localvar * upd)) (vs : list localvar) : Prop :=
  NoDup (map vkey vs) /\
  (forall x, In x vs -> exists v, In v locs /\ var_at W s v x /\ forall u, has u x -> has u v) /\
  (forall v u, In (v, u) U -> exists x, In x vs /\ var_at W s v x /\ has u x).
Lemma same_key_eq a b : same_key a b = true <-> vkey a = vkey b.
Proof.
  unfold same_key, vkey. rewrite !andb_true_iff, !Z.eqb_eq, (list_eqb_eq Z.eqb Z.eqb_eq). split.
  - intros [[[-> ->] ->] ->]. reflexivity.
  - intros [= -> -> -> ->]. auto.
Qed.
Lemma add_var_split f x0 vs :
  (exists p x q, vs = p ++ x :: q /\ vkey x = vkey x0 /\ add_var f x0 vs = p ++ f x :: q) \/
  (~ In (vkey x0) (map vkey vs) /\ add_var f x0 vs = vs ++ [f x0]).
Proof.
  induction vs as [|y vs IH]; cbn [add_var].
  - right. split; [intros []|reflexivity].
  - destruct (same_key y x0) eqn:E.
    + apply same_key_eq in E. left. exists [], y, vs. auto.
    + destruct IH as [(p & x & q & -> & H1 & ->)|[H1 ->]].
      * left. exists (y :: p), x, q. split; [reflexivity|]. split; auto.
      * right. split; auto. cbn. intros [H|H]; [|tauto]. apply same_key_eq in H. congruence.
Qed.
Lemma vkey_upd u x : vkey (apply_upd u x) = vkey x.
Proof. destruct u; reflexivity. Qed.
Lemma var_at_upd W s v u x : var_at W s v (apply_upd u x) <-> var_at W s v x.
Proof. destruct u; reflexivity. Qed.
Lemma var_at_key W s v x y : vkey x = vkey y -> var_at W s v x -> var_at W s v y.
Proof. unfold vkey, var_at. intros [= -> -> -> ->]. auto. Qed.
Lemma has_upd u u' x v : has u v -> (has u' x -> has u' v) -> has u' (apply_upd u x) -> has u' v.
Proof. destruct u, u'; cbn; intros; auto; congruence. Qed.
Lemma upd_has u u' x v : has u v -> has u' v -> has u' x -> has u' (apply_upd u x).
Proof. destruct u, u'; cbn; intros; auto; congruence. Qed.
Lemma upd_self u x : has u (apply_upd u x).
Proof. destruct u; reflexivity. Qed.
Lemma label_sim_inj W s a b l : cst_ok s -> label_sim W s a l -> label_sim W s b l -> W_label W a = W_label W b.
Proof.
  intros Hok (o & H1 & H2) (o' & H3 & H4). rewrite H1, H3. f_equal. eapply cst_ok_inj; eauto.
Qed.
Lemma var_at_inj W s v v' x : cst_ok s -> var_at W s v x -> var_at W s v' x -> okey W v = okey W v'.
Proof.
  intros Hok (A1 & A2 & A3 & A4) (B1 & B2 & B3 & B4). unfold okey.
  rewrite (label_sim_inj W s _ _ _ Hok A1 B1), (label_sim_inj W s _ _ _ Hok A2 B2). congruence.
Qed.
Lemma nodup_map_inj {A B} (f : A -> B) l a b : NoDup (map f l) -> In a l -> In b l -> f a = f b -> a = b.
Proof.
  induction l as [|x l IH]; cbn; [intros _ []|]. intros H Ha Hb E. inversion H; subst.
  destruct Ha as [->|Ha], Hb as [->|Hb]; auto.
  - exfalso. apply H2. rewrite E. apply in_map; auto.
  - exfalso. apply H2. rewrite <- E. apply in_map; auto.
Qed.
Lemma vars_step W s locs U vs v u x0 : cst_ok s -> NoDup (map (okey W) locs) -> vars_inv W s locs U vs -> In v locs -> has u v ->
  var_at W s v x0 -> v_desc x0 = None -> v_sig x0 = None -> vars_inv W s locs ((v, u) :: U) (add_var (apply_upd u) x0 vs).
Proof.
  intros Hok Hnd (H1 & H2 & H3) Hv Hu H0 Hd Hg. destruct (add_var_split (apply_upd u) x0 vs) as [(p & x & q & -> & Hk & ->)|[Hni ->]].
  - assert (Hx : In x (p ++ x :: q)) by (apply in_or_app; right; left; auto).
    destruct (H2 x Hx) as (v' & Hv' & Hvx & Hh). pose proof (var_at_key W s v x0 x (eq_sym Hk) H0) as Hvx0.
    assert (v' = v) by (eapply (nodup_map_inj (okey W)); eauto; eapply var_at_inj; eauto). subst v'.
    repeat split.
    + rewrite map_app in *. cbn [map] in *. rewrite vkey_upd. auto.
    + intros y Hy. apply in_app_or in Hy as [Hy|[<-|Hy]].
      * apply H2, in_or_app. auto.
      * exists v. split; auto. split; [apply var_at_upd; auto|]. intros u' Hu'. apply (has_upd u u' x v); auto.
      * apply H2, in_or_app. right. right. auto.
    + intros v1 u1 [[= <- <-]|Hin].
      * exists (apply_upd u x). split; [apply in_or_app; right; left; auto|]. split; [apply var_at_upd; auto|apply upd_self].
      * destruct (H3 v1 u1 Hin) as (y & Hy & Hvy & Huy). apply in_app_or in Hy as [Hy|[<-|Hy]].
        -- exists y. split; auto. apply in_or_app; auto.
        -- exists (apply_upd u x). split; [apply in_or_app; right; left; auto|]. split; [apply var_at_upd; auto|]. apply (upd_has u u1 x v); auto.
        -- exists y. split; auto. apply in_or_app; right; right; auto.
  - repeat split.
    + rewrite map_app. cbn [map]. rewrite vkey_upd. apply NoDup_rev in H1. rewrite <- (rev_involutive (map vkey vs)).
      change (NoDup (rev (rev (map vkey vs)) ++ rev [vkey x0])). rewrite <- rev_app_distr. apply NoDup_rev. constructor; auto.
      rewrite <- in_rev. auto.
    + intros y Hy. apply in_app_or in Hy as [Hy|[<-|[]]]; [auto|]. exists v. split; auto. split; [apply var_at_upd; auto|].
      intros u'. apply (has_upd u u' x0 v); auto. destruct u'; cbn; congruence.
    + intros v1 u1 [[= <- <-]|Hin].
      * exists (apply_upd u x0). split; [apply in_or_app; right; left; auto|]. split; [apply var_at_upd; auto|apply upd_self].
      * destruct (H3 v1 u1 Hin) as (y & Hy & ?). exists y. split; auto. apply in_or_app; auto.
Qed.
Lemma var_at_stable : stable cst_ext var_at.
Proof.
  intros W s s' v x He (H1 & H2 & H3). split; [apply (label_sim_stable W s s'); auto|]. split; [apply (label_sim_stable W s s'); auto|auto].
Qed.
Lemma vars_ext W s s' locs U vs : cst_ext s s' -> vars_inv W s locs U vs -> vars_inv W s' locs U vs.
Proof.
  intros He (H1 & H2 & H3). split; auto. split.
  - intros x Hx. destruct (H2 x Hx) as (v & ? & Hv & ?). exists v. split; auto. split; auto. eapply var_at_stable; eauto.
  - intros v u Hin. destruct (H3 v u Hin) as (x & ? & Hv & ?). exists x. split; auto. split; auto. eapply var_at_stable; eauto.
Qed.
Lemma add_vars_ok {A} (wrap : A -> upd) md W locs us rows : Forall2 (row_for W) us rows ->
  NoDup (map (okey W) locs) -> Forall (fun e => In (fst e) locs /\ has (wrap (snd e)) (fst e)) us ->
  forall s U vs, attr_inv W s -> vars_inv W s locs U vs ->
  exists vs' s', add_vars md (fun t => apply_upd (wrap t)) rows s vs = Ok (vs', s') /\ cst_ext s s' /\ attr_inv W s' /\
    vars_inv W s' locs (rev (map (fun e => (fst e, wrap (snd e))) us) ++ U) vs'.
Proof.
  intros HF Hnd. induction HF as [|[v t] r us rows Hr HF IH]; intros Hus s U vs Hi Hv; cbn [add_vars].
  - exists vs, s. cbn. split; auto. split; [apply cst_ext_refl|auto].
  - inversion Hus as [|? ? [Hin Hh] Hus']; subst. cbn [fst snd] in *.
    destruct Hr as (R1 & R2 & R3 & R4 & R5 & R6 & R7 & R8). cbn [fst snd] in *.
    pose proof (fun W s (H : attr_inv W s) => proj1 (proj1 (proj1 H))) as Iok.
    destruct (label_step attr_inv Iok attr_inv_label W s (v_start v) (lr_start r) Hi ltac:(unfold u32; lia) R1) as (a & s1 & -> & I1 & E1 & A1).
    unfold chk_u. change (2 ^ 16) with 65536. assert ((0 <=? lr_start r + lr_len r) && (lr_start r + lr_len r <? 65536) = true) as -> by lia. cbn [bind].
    destruct (label_step attr_inv Iok attr_inv_label W s1 (v_end v) (lr_start r + lr_len r) I1 ltac:(unfold u32; lia) R2) as (b & s2 & -> & I2 & E2 & A2).
    assert (E02 : cst_ext s s2) by (eapply cst_ext_trans; eauto).
    rewrite R8. set (x0 := {| v_start := a; v_end := b; v_name := lr_name r; v_desc := None; v_sig := None; v_index := lr_index r |}).
    assert (H0 : var_at W s2 v x0).
    { split; [exists (lr_start r); split; auto; eapply assoc_ext; [exact E2|exact A1]|]. split; [exists (lr_start r + lr_len r); auto|]. cbn. auto. }
    pose proof (vars_step W s2 locs U vs v (wrap t) x0 (Iok _ _ I2) Hnd (vars_ext _ _ _ _ _ _ E02 Hv) Hin Hh H0 eq_refl eq_refl) as HS.
    destruct (IH Hus' s2 _ _ I2 HS) as (vs' & s' & HA & E3 & I3 & HV3). exists vs', s'. split; [exact HA|]. split; [eapply cst_ext_trans; eauto|].
    split; auto. cbn [map rev fst snd]. rewrite <- app_assoc. exact HV3.
Qed.
(** a bijection *)
Lemma match_up {A B} (R : A -> B -> Prop) bs : forall xs, NoDup xs -> NoDup bs ->
  (forall b, In b bs -> exists a, In a xs /\ R a b) -> (forall a, In a xs -> exists b, In b bs /\ R a b) ->
  (forall a b b', In a xs -> In b bs -> In b' bs -> R a b -> R a b' -> b = b') ->
  (forall a a' b, In a xs -> In a' xs -> In b bs -> R a b -> R a' b -> a = a') ->
  exists ys, Permutation xs ys /\ Forall2 R ys bs.
Proof.
  induction bs as [|b bs IH]; intros xs Nx Nb H1 H2 H3 H4.
  - destruct xs as [|a xs]; [exists []; auto|]. destruct (H2 a) as (b & [] & _). left; auto.
  - destruct (H1 b (or_introl eq_refl)) as (a & Ha & HR). apply in_split in Ha as (x1 & x2 & ->). inversion Nb; subst.
    pose proof (NoDup_remove_1 _ _ _ Nx) as Nx1. pose proof (NoDup_remove_2 _ _ _ Nx) as Nx2.
    assert (HI : forall y, In y (x1 ++ x2) -> In y (x1 ++ a :: x2)).
    { intros y Hy. apply in_app_or in Hy as [Hy|Hy]; apply in_or_app; [left|right; right]; auto. }
    assert (Ha : In a (x1 ++ a :: x2)) by (apply in_or_app; right; left; auto).
    destruct (IH (x1 ++ x2)) as (ys & Hp & HF); auto.
    + intros b' Hb'. destruct (H1 b' (or_intror Hb')) as (a' & Ha' & HR'). exists a'. split; auto.
      apply in_app_or in Ha' as [Ha'|[<-|Ha']]; [apply in_or_app; auto| |apply in_or_app; auto].
      exfalso. assert (b = b') by (apply (H3 a); cbn; auto). subst. auto.
    + intros a' Ha'. destruct (H2 a' (HI _ Ha')) as (b' & [<-|Hb'] & HR'); [|eauto].
      exfalso. assert (a = a') by (apply (H4 a a' b); cbn; auto). subst. auto.
    + intros x y z Hx Hy Hz. apply (H3 x y z); cbn; auto.
    + intros x y z Hx Hy Hz. apply (H4 x y z); cbn; auto.
    + exists (a :: ys). split; [|constructor; auto]. rewrite <- Hp. symmetry. apply Permutation_middle.
Qed.

(** * Attributes of code *)
Definition kattr_sim (W : world) (s : cst) (a a' : kattr) : Prop :=
  match a, a' with
  | KVisible x, KVisible y | KInvisible x, KInvisible y => Forall2 (code_tannot_sim W s) x y
  | KRaw x, KRaw y => y = x
  | _, _ => False
  end.
Lemma kattr_sim_stable : stable cst_ext kattr_sim.
Proof.
  intros W s s' a b He. destruct a, b; cbn; auto; apply (stable_list cst_ext _ code_tannot_sim_stable); auto.
Qed.
Lemma rows_wf {A} W (P : A -> Prop) (us : list (localvar * A)) rows : Forall2 (row_for W) us rows ->
  Forall (fun e => jstr (v_name (fst e)) /\ u16 (v_index (fst e)) /\ P (snd e)) us -> Forall (wf_lvrow P) rows.
Proof.
  induction 1 as [|e r us rows (R1 & R2 & R3 & R4 & R5 & R6 & R7 & R8) HF IH]; intros H; inversion H as [|? ? (H1 & H2 & H3) H4]; subst; constructor; auto.
  unfold wf_lvrow. rewrite R6, R7, R8. unfold u16. repeat split; auto; try lia; apply H2.
Qed.
Section Kattrs.
Context (md : mode) (W : world) (idx : Z -> option Z) (E : wenv) (c : code) (locs : list localvar) (ZL : list (Z * Z)).
Context (Hnd : NoDup (map (okey W) locs)).
Definition kinv (s : cst) (z : zst) (U : list (localvar * upd)) (O : list kattr) : Prop :=
  attr_inv W s /\ z_lines z = ZL /\ vars_inv W s locs U (z_vars z) /\ Forall2 (kattr_sim W s) O (z_attrs z).
Definition steps (fs : list fcattr) (bs rest : list Z) (s : cst) (z : zst) (s' : cst) (z' : zst) : Prop :=
  forall n, rd_kattrs (length fs + n) md (W_pool W) idx s z (bs ++ rest) = rd_kattrs n md (W_pool W) idx s' z' rest.
Lemma steps_app f1 b1 f2 b2 rest s z s1 z1 s2 z2 : steps f1 b1 (b2 ++ rest) s z s1 z1 -> steps f2 b2 rest s1 z1 s2 z2 -> steps (f1 ++ f2) (b1 ++ b2) rest s z s2 z2.
Proof. intros H1 H2 n. rewrite app_length, <- Nat.add_assoc, <- app_assoc, H1. apply H2. Qed.
Lemma steps_one f f' b rest s s1 z z' s' : rd_fcattr md (W_pool W) s (b ++ rest) = Ok ((f', s1), rest) ->
  add_attr md idx f' s1 z = Ok (z', s') -> steps [f] b rest s z s' z'.
Proof. intros H1 H2 n. cbn [length Nat.add rd_kattrs]. rewrite H1. cbn [bind]. rewrite H2. reflexivity. Qed.
Lemma one_other a f b rest s z U O : wf_fcattr (place_env E c) f -> fmt_fcattr W f b -> small b ->
  match a, f with KVisible x, CaVisible y | KInvisible x, CaInvisible y => x = y | KRaw x, CaRaw y => x = y | _, _ => False end ->
  kinv s z U O -> exists s' z', steps [f] b rest s z s' z' /\ cst_ext s s' /\ kinv s' z' U (O ++ [a]).
Proof.
  intros Hw HF Hs Ha (I1 & I2 & I3 & I4).
  destruct (rd_fcattr_ok md (place_env E c) W s f b rest I1 Hw HF Hs) as (f' & s' & H1 & H2 & H3 & H4).
  assert (HO : forall k, kattr_sim W s' a k ->
    kinv s' {| z_lines := z_lines z; z_vars := z_vars z; z_attrs := z_attrs z ++ [k] |} U (O ++ [a])).
  { intros k Hk. split; auto. split; auto. split; [eapply vars_ext; eauto|]. cbn [z_attrs]. apply Forall2_app; [|auto].
    eapply (stable_list cst_ext _ kattr_sim_stable); eauto. }
  destruct a, f; try contradiction; subst; destruct f'; cbn in H4; try contradiction;
    (eexists s', _; split; [eapply steps_one; [exact H1|reflexivity]|]; split; [auto|]; apply HO; cbn; auto).
Qed.
Lemma one_vars {A} (wrap : A -> upd) (mk : list (lvrow A) -> fcattr) us rows b rest s z U O :
  (forall rows, wf_fcattr (place_env E c) (mk rows) -> fmt_fcattr W (mk rows) b -> small b -> forall s, attr_inv W s ->
     exists s', rd_fcattr md (W_pool W) s (b ++ rest) = Ok ((mk rows, s'), rest) /\ cst_ext s s' /\ attr_inv W s') ->
  (forall rows s z, add_attr md idx (mk rows) s z =
     ('(vs, s) <- add_vars md (fun t => apply_upd (wrap t)) rows s (z_vars z) ;;
      Ok ({| z_lines := z_lines z; z_vars := vs; z_attrs := z_attrs z |}, s))) ->
  wf_fcattr (place_env E c) (mk rows) -> fmt_fcattr W (mk rows) b -> small b -> Forall2 (row_for W) us rows ->
  Forall (fun e => In (fst e) locs /\ has (wrap (snd e)) (fst e)) us ->
  kinv s z U O -> exists s' z', steps [mk rows] b rest s z s' z' /\ cst_ext s s' /\
    kinv s' z' (rev (map (fun e => (fst e, wrap (snd e))) us) ++ U) O.
Proof.
  intros Hr Ha Hw HF Hs Hrow Hus (I1 & I2 & I3 & I4). destruct (Hr rows Hw HF Hs s I1) as (s1 & R1 & E1 & A1).
  destruct (add_vars_ok wrap md W locs us rows Hrow Hnd Hus s1 U _ A1 (vars_ext _ _ _ _ _ _ E1 I3)) as (vs' & s2 & V1 & E2 & A2 & V2).
  assert (E02 : cst_ext s s2) by (eapply cst_ext_trans; eauto).
  eexists s2, _. split; [eapply steps_one; [exact R1|]; rewrite Ha, V1; reflexivity|]. split; auto. split; auto. split; auto. split; auto.
  cbn [z_attrs]. eapply (stable_list cst_ext _ kattr_sim_stable); eauto.
Qed.
Lemma one_descs us rows b rest s z U O :
  wf_fcattr (place_env E c) (CaLocals rows) -> fmt_fcattr W (CaLocals rows) b -> small b -> Forall2 (row_for W) us rows ->
  Forall (fun e => In (fst e) locs /\ has (inl (snd e)) (fst e)) us ->
  kinv s z U O -> exists s' z', steps [CaLocals rows] b rest s z s' z' /\ cst_ext s s' /\
    kinv s' z' (rev (map (fun e => (fst e, inl (snd e))) us) ++ U) O.
Proof.
  intros. apply one_vars; auto.
  intros rows' Hw HF Hs s1 I1. destruct (rd_fcattr_ok md (place_env E c) W s1 _ b rest I1 Hw HF Hs) as (f' & s' & H5 & H6 & H7 & H8).
  destruct f'; cbn in H8; try contradiction. subst. eauto.
Qed.
Lemma one_sigs us rows b rest s z U O :
  wf_fcattr (place_env E c) (CaLocalTypes rows) -> fmt_fcattr W (CaLocalTypes rows) b -> small b -> Forall2 (row_for W) us rows ->
  Forall (fun e => In (fst e) locs /\ has (inr (snd e)) (fst e)) us ->
  kinv s z U O -> exists s' z', steps [CaLocalTypes rows] b rest s z s' z' /\ cst_ext s s' /\
    kinv s' z' (rev (map (fun e => (fst e, inr (snd e))) us) ++ U) O.
Proof.
  intros. apply one_vars; auto.
  intros rows' Hw HF Hs s1 I1. destruct (rd_fcattr_ok md (place_env E c) W s1 _ b rest I1 Hw HF Hs) as (f' & s' & H5 & H6 & H7 & H8).
  destruct f'; cbn in H8; try contradiction. subst. eauto.
Qed.
Lemma in_descs vs v d : In (v, d) (descs vs) <-> In v vs /\ v_desc v = Some d.
Proof.
  unfold descs. rewrite in_flat_map. split.
  - intros (x & Hx & H). destruct (v_desc x) eqn:Ed; [|destruct H]. destruct H as [[= <- <-]|[]]. auto.
  - intros [H1 H2]. exists v. split; auto. rewrite H2. left; auto.
Qed.
Lemma in_sigs vs v d : In (v, d) (sigs vs) <-> In v vs /\ v_sig v = Some d.
Proof.
  unfold sigs. rewrite in_flat_map. split.
  - intros (x & Hx & H). destruct (v_sig x) eqn:Ed; [|destruct H]. destruct H as [[= <- <-]|[]]. auto.
  - intros [H1 H2]. exists v. split; auto. rewrite H2. left; auto.
Qed.
Lemma descs_len vs : len (descs vs) <= len vs.
Proof. unfold descs. induction vs as [|v vs IH]; cbn [flat_map]; [reflexivity|]. rewrite len_app, len_cons. destruct (v_desc v); [change (len [(v, t)]) with 1|change (len (@nil (localvar * ty))) with 0]; lia. Qed.
Lemma sigs_len vs : len (sigs vs) <= len vs.
Proof. unfold sigs. induction vs as [|v vs IH]; cbn [flat_map]; [reflexivity|]. rewrite len_app, len_cons. destruct (v_sig v); [change (len [(v, r)]) with 1|change (len (@nil (localvar * rsig))) with 0]; lia. Qed.
Lemma one_kattr a fs bss rest s z U O : wf_kattr E c a -> file_attrs W a fs -> Forall2 (fmt_fcattr W) fs bss -> small (concat bss) ->
  incl (locals_of [a]) locs -> kinv s z U O ->
  exists s' z' U', steps fs (concat bss) rest s z s' z' /\ cst_ext s s' /\ kinv s' z' U' (O ++ others_of [a]) /\ incl U U' /\
    forall v u, In v (locals_of [a]) -> has u v -> In (v, u) U'.
Proof.
  intros Hw Hfa HF Hs Hin HI.
  assert (Hone : forall f, fs = [f] -> wf_fcattr (place_env E c) f ->
    match a, f with KVisible x, CaVisible y | KInvisible x, CaInvisible y => x = y | KRaw x, CaRaw y => x = y | _, _ => False end ->
    exists s' z' U', steps fs (concat bss) rest s z s' z' /\ cst_ext s s' /\ kinv s' z' U' (O ++ others_of [a]) /\ incl U U' /\
      forall v u, In v (locals_of [a]) -> has u v -> In (v, u) U').
  { intros f -> Hwf Hm. inversion HF as [|? b ? ? Hb Hr]; subst. inversion Hr; subst. cbn [concat] in *. rewrite app_nil_r in *.
    destruct (one_other a f b rest s z U O Hwf Hb Hs Hm HI) as (s' & z' & H1 & H2 & H3). exists s', z', U. split; auto. split; auto.
    split; [destruct a; try contradiction; auto|]. split; [apply incl_refl|]. destruct a; try contradiction; intros v u []. }
  destruct a as [l|l|vs|r]; cbn [file_attrs wf_kattr] in *; [eapply Hone; eauto; cbn; auto..| |eapply Hone; eauto; cbn; auto].
  clear Hone. destruct Hfa as (ds & gs & Hd & Hg & ->). destruct Hw as (Hne & Hlen & Hvs).
  cbn [others_of filter locals_of flat_map] in *. rewrite !app_nil_r in *. rewrite Forall_forall in Hvs.
  assert (Wd : wf_fcattr (place_env E c) (CaLocals ds)).
  { cbn [wf_fcattr]. split; [pose proof (descs_len vs); pose proof (Forall2_len _ _ _ Hd); unfold len in *; lia|].
    eapply rows_wf; eauto. apply Forall_forall. intros [v d] Hi. apply in_descs in Hi as [Hi Hi2]. destruct (Hvs v Hi) as (_ & W1 & W2 & W3 & _).
    cbn [fst snd]. rewrite Hi2 in W3. auto. }
  assert (Wg : wf_fcattr (place_env E c) (CaLocalTypes gs)).
  { cbn [wf_fcattr]. split; [pose proof (sigs_len vs); pose proof (Forall2_len _ _ _ Hg); unfold len in *; lia|].
    eapply rows_wf; eauto. apply Forall_forall. intros [v d] Hi. apply in_sigs in Hi as [Hi Hi2]. destruct (Hvs v Hi) as (_ & W1 & W2 & _ & W3 & _).
    cbn [fst snd]. rewrite Hi2 in W3. auto. }
  assert (Ud : Forall (fun e => In (fst e) locs /\ has (inl (snd e)) (fst e)) (descs vs)).
  { apply Forall_forall. intros [v d] Hi. apply in_descs in Hi as [Hi Hi2]. cbn. auto. }
  assert (Ug : Forall (fun e => In (fst e) locs /\ has (inr (snd e)) (fst e)) (sigs vs)).
  { apply Forall_forall. intros [v d] Hi. apply in_sigs in Hi as [Hi Hi2]. cbn. auto. }
  apply Forall2_app_inv_l in HF as (b1 & b2 & HF1 & HF2 & ->). rewrite concat_app in *.
  assert (small (concat b1) /\ small (concat b2)) as [S1 S2] by (apply small_app; auto).
  assert (HD : exists s' z', steps (match ds with [] => [] | _ => [CaLocals ds] end) (concat b1) (concat b2 ++ rest) s z s' z' /\ cst_ext s s' /\
    kinv s' z' (rev (map (fun e => (fst e, inl (snd e))) (descs vs)) ++ U) O).
  { destruct ds as [|d ds].
    - inversion Hd; subst. inversion HF1; subst. exists s, z. split; [intros n; reflexivity|]. split; [apply cst_ext_refl|exact HI].
    - inversion HF1 as [|? b ? ? Hb Hr]; subst. inversion Hr; subst. cbn [concat] in *. rewrite app_nil_r in *. apply one_descs; auto. }
  destruct HD as (s1 & z1 & D1 & D2 & D3).
  assert (HG : exists s' z', steps (match gs with [] => [] | _ => [CaLocalTypes gs] end) (concat b2) rest s1 z1 s' z' /\ cst_ext s1 s' /\
    kinv s' z' (rev (map (fun e => (fst e, inr (snd e))) (sigs vs)) ++ rev (map (fun e => (fst e, inl (snd e))) (descs vs)) ++ U) O).
  { destruct gs as [|d gs].
    - inversion Hg as [Hg1|]; subst. inversion HF2; subst. exists s1, z1. split; [intros n; reflexivity|]. split; [apply cst_ext_refl|exact D3].
    - inversion HF2 as [|? b ? ? Hb Hr]; subst. inversion Hr; subst. cbn [concat] in *. rewrite app_nil_r in *. apply one_sigs; auto. }
  destruct HG as (s2 & z2 & G1 & G2 & G3).
  eexists s2, z2, _. split; [eapply steps_app; eauto|]. split; [eapply cst_ext_trans; eauto|]. split; [exact G3|]. split.
  - intros x Hx. rewrite !in_app_iff. auto.
  - intros v [d|g] Hv Hh; rewrite !in_app_iff, <- !in_rev; [right; left; apply in_map_iff; exists (v, d)|left; apply in_map_iff; exists (v, g)];
      (split; [reflexivity|]); [apply in_descs|apply in_sigs]; auto.
Qed.
Lemma rd_kattrs_ok rest ats : forall fas bss s z U O, Forall (wf_kattr E c) ats -> Forall2 (file_attrs W) ats fas ->
  Forall2 (fmt_fcattr W) (concat fas) bss -> small (concat bss) -> incl (locals_of ats) locs -> kinv s z U O ->
  exists s' z' U', rd_kattrs (length (concat fas)) md (W_pool W) idx s z (concat bss ++ rest) = Ok (z', s', rest) /\ cst_ext s s' /\
    kinv s' z' U' (O ++ others_of ats) /\ incl U U' /\ forall v u, In v (locals_of ats) -> has u v -> In (v, u) U'.
Proof.
  induction ats as [|a ats IH]; intros fas bss s z U O Hw Hfa HF Hs Hin HI.
  - inversion Hfa; subst. inversion HF; subst. exists s, z, U. cbn. rewrite app_nil_r. split; auto. split; [apply cst_ext_refl|]. split; auto. split; [apply incl_refl|]. intros v u [].
  - inversion Hfa as [|? fs ? fas' Hf1 Hf2]; subst. inversion Hw; subst. cbn [concat] in HF. apply Forall2_app_inv_l in HF as (b1 & b2 & HF1 & HF2 & ->).
    rewrite concat_app in *. assert (small (concat b1) /\ small (concat b2)) as [S1 S2] by (apply small_app; auto).
    change (locals_of (a :: ats)) with ((match a with KLocals vs => vs | _ => [] end) ++ locals_of ats) in *.
    assert (Hla : locals_of [a] = match a with KLocals vs => vs | _ => [] end) by (cbn; rewrite app_nil_r; auto). rewrite <- Hla in *.
    destruct (one_kattr a fs b1 (concat b2 ++ rest) s z U O H1 Hf1 HF1 S1 (fun x H => Hin x (in_or_app _ _ _ (or_introl H))) HI) as (s1 & z1 & U1 & P1 & P2 & P3 & P4 & P5).
    destruct (IH fas' b2 s1 z1 U1 _ H2 Hf2 HF2 S2 (fun x H => Hin x (in_or_app _ _ _ (or_intror H))) P3) as (s2 & z2 & U2 & Q1 & Q2 & Q3 & Q4 & Q5).
    exists s2, z2, U2. split.
    { cbn [concat]. rewrite app_length, <- app_assoc, P1. exact Q1. }
    split; [eapply cst_ext_trans; eauto|]. split.
    { rewrite <- app_assoc in Q3. destruct a; exact Q3. }
    split; [eapply incl_tran; eauto|]. intros v u Hv Hu. apply in_app_or in Hv as [Hv|Hv]; auto.
Qed.
End Kattrs.

(** * Code *)
Definition rst_inv (W : world) (s : rst) : Prop := rst_ok s /\ 0 <= r_next s /\ len (W_tbl W) <= 65536 /\ refs_in W s.
Definition rst_ext (s s' : rst) : Prop := exists m, r_refs s' = r_refs s ++ m.
Lemma rst_ext_refl s : rst_ext s s.
Proof. exists []. rewrite app_nil_r. reflexivity. Qed.
Lemma rst_ext_trans a b c : rst_ext a b -> rst_ext b c -> rst_ext a c.
Proof. intros [m H] [n H']. exists (m ++ n). rewrite H', H, app_assoc. reflexivity. Qed.
Definition code_readable (c : code) : Prop :=
  NoDup (map (var_key (cd_code c)) (locals_of (cd_attrs c))) /\ Forall (fun i => realb i = true -> readable i) (cd_code c).
(** [d'] has the reference of an entry of the table that [d] is *)
Definition dyn_read (W : world) (s : rst) (d d' : dynamic) : Prop :=
  d_name d' = d_name d /\ d_desc d' = d_desc d /\
  exists k b, u16 k /\ W_heap W (d_cell d) = Some b /\ nth_error (W_tbl W) (Z.to_nat k) = Some b /\ In (k, d_cell d') (r_refs s).
Lemma insn_sim_rel W s (R : Z -> Z -> Prop) : (forall l l', label_sim W s l l' -> R l l') -> forall i i', insn_sim W s i i' ->
  insn_rel R (dyn_read W (k_refs s)) i i'.
Proof.
  intros HR i i' H. assert (HO : forall A (Q : A -> A -> Prop) (o o' : ordyn A), ordyn_sim Q W s o o' -> ordyn_rel (dyn_read W (k_refs s)) Q o o') by (intros A Q [|] [|]; auto).
  destruct i; cbn [insn_sim insn_rel] in *; auto; destruct i'; auto; try (now intuition auto).
  - destruct H as (H1 & H2 & H3). split; auto. split; auto. eapply forall2_impl; eauto.
  - destruct H as (H1 & tt0 & H2 & H3 & H4). split; auto. exists tt0. split; auto. eapply forall2_impl; [|exact H4]. cbn. intuition auto.
Qed.
Lemma catch_sim_rel W s (R : Z -> Z -> Prop) : (forall l l', label_sim W s l l' -> R l l') -> forall c c', catch_sim W s c c' -> catch_rel R c c'.
Proof. intros HR c c' (H1 & H2 & H3 & H4). repeat split; auto. Qed.
Lemma kattr_sim_rel W s (R : Z -> Z -> Prop) : (forall l l', label_sim W s l l' -> R l l') -> forall a a', kattr_sim W s a a' -> kattr_rel R a a'.
Proof.
  intros HR. assert (HT : forall a a', code_tannot_sim W s a a' -> code_tannot_rel R a a').
  { intros a a' (H1 & H2 & H3 & H4). split; [|auto].
    destruct (ta_target a), (ta_target a'); cbn [code_target_sim code_target_rel] in *; auto; try (now intuition auto).
    1, 2: eapply forall2_impl; [|exact H1]; intros x y (A1 & A2 & A3); repeat split; auto.
    eapply catch_sim_rel; eauto. }
  intros a a' H. destruct a, a'; cbn [kattr_sim kattr_rel] in *; auto; eapply forall2_impl; eauto.
Qed.
Lemma nodup_map_weaken {A B C} (f : A -> B) (g : A -> C) l : NoDup (map f l) -> (forall a b, In a l -> In b l -> g a = g b -> f a = f b) -> NoDup (map g l).
Proof.
  intros H. revert H. induction l as [|x l IH]; cbn; intros H HI; [constructor|]. inversion H; subst. constructor.
  - intros Hin. apply in_map_iff in Hin as (y & E & Hy). apply H2. rewrite (HI x y); auto. apply in_map; auto.
  - apply IH; auto.
Qed.
Lemma nodup_of_map {A B} (f : A -> B) l : NoDup (map f l) -> NoDup l.
Proof.
  induction l as [|x l IH]; cbn; intros H; [constructor|]. inversion H; subst. constructor; auto. intros Hin. apply H2, in_map; auto.
Qed.
Lemma lookup_virtual pre m idx ls k : (forall k, virtual (pre k)) -> (forall k, lookup_at k m = pre k ++ labels_at idx ls k) -> virtual (rev (lookup_at k m)).
Proof.
  intros Hp Hm. apply Forall_rev. rewrite Hm. apply Forall_app. split; [apply Hp|]. apply Forall_forall. intros i Hin. apply in_labels_at in Hin as (off & l & _ & _ & ->). reflexivity.
Qed.
Section Final.
Context (W : world) (s : cst) (is : list insn) (ps body : list Z) (is' : list insn) (m : list (Z * list insn)).
Context (HL : forall l o, W_label W l = Some o -> In l (labels_in is)).
Context (Hlaid : laid enc W 0 is ps body) (Hnd : NoDup (labels_in is)) (Hlen : length is' = length ps).
Context (Hreal : Forall (fun i => realb i = true) is') (Hok : cst_ok s).
Let idx := pos2idx (ps ++ [len body]) 0.
Context (pre : Z -> list insn) (Hpre : forall k, virtual (pre k)) (Hlpre : forall k, labels_in (pre k) = []).
Context (Hm : forall k, lookup_at k m = pre k ++ labels_at idx (k_labels s) k).
Lemma label_index l o : W_label W l = Some o -> exists n, place l is = Some n /\ idx o = Some n /\ 0 <= n <= Z.of_nat (length ps).
Proof using HL Hlaid Hnd.
  clear Hlen Hm Hpre Hlpre pre. intros H. destruct (place_some l is (HL l o H)) as (n & Hn).
  destruct (laid_place W l is 0 ps body n 0 Hlaid Hnd Hn) as (o' & Ho & Hi). rewrite H in Ho. injection Ho as <-.
  exists n. split; auto. split; [exact Hi|]. pose proof (place_le _ _ _ Hn). pose proof (laid_len _ _ _ _ _ Hlaid). pose proof (place_nonneg _ _ _ Hn). unfold len in *. lia.
Qed.
Lemma sim_same l l' : label_sim W s l l' -> same_place is (insert_all (length is') m is') l l'.
Proof.
  intros (o & Ho & Ha). destruct (label_index l o Ho) as (n & Hn & Hi & Hr). exists n. split; auto.
  rewrite weave_all. pose proof (place_weave (fun k => rev (lookup_at (Z.of_nat k) m)) is' l' (Z.to_nat n)) as HW.
  assert (HV : forall k, virtual (rev (lookup_at (Z.of_nat k) m))) by (intros k; eapply lookup_virtual; eauto).
  assert (HI : forall j, In l' (labels_in (rev (lookup_at (Z.of_nat j) m))) <-> exists off, In (off, l') (k_labels s) /\ idx off = Some (Z.of_nat j)).
  { intros j. rewrite Hm, rev_app_distr, labels_app, in_app_iff. unfold labels_in. rewrite !in_flat_map. split.
    - intros [(i & Hin & Hl)|(i & Hin & Hl)]; rewrite <- in_rev in Hin.
      + apply in_labels_at in Hin as (off & l0 & H1 & H2 & ->). destruct Hl as [<-|[]]. eauto.
      + exfalso. assert (In l' (labels_in (pre (Z.of_nat j)))) as Hc by (unfold labels_in; rewrite in_flat_map; eauto). rewrite Hlpre in Hc. exact Hc.
    - intros (off & H1 & H2). left. exists (ILabel l'). rewrite <- in_rev. split; [apply in_labels_at; eauto|left; auto]. }
  rewrite (HW HV Hreal) with (k := 0%nat).
  - f_equal. lia.
  - intros j' Hj Hin. apply HI in Hin as (off & H1 & H2). assert (off = o).
    { apply (cst_ok_inj s off o l' Hok); auto. apply in_assoc; auto. apply Hok. }
    subst. rewrite Hi in H2. injection H2. lia.
  - apply HI. exists o. split; [apply assoc_in; auto|]. rewrite Z2Nat.id by lia. auto.
  - lia.
Qed.
End Final.
Lemma vars_match W s locs U vs : cst_ok s -> NoDup (map (okey W) locs) -> vars_inv W s locs U vs ->
  (forall v u, In v locs -> has u v -> In (v, u) U) -> Forall (fun v => v_desc v <> None \/ v_sig v <> None) locs ->
  exists vs0, Permutation locs vs0 /\ Forall2 (fun v x => var_at W s v x /\ v_desc x = v_desc v /\ v_sig x = v_sig v) vs0 vs.
Proof.
  intros Hok Hnd (H1 & H2 & H3) HU Hne. rewrite Forall_forall in Hne.
  assert (Hfun : forall v x y, In x vs -> In y vs -> var_at W s v x -> var_at W s v y -> x = y).
  { intros v x y Hx Hy (A1 & A2 & A3 & A4) (B1 & B2 & B3 & B4). apply (nodup_map_inj vkey vs); auto. unfold vkey.
    assert (HF : forall l a b, label_sim W s l a -> label_sim W s l b -> a = b) by (intros l a b (o & P1 & P2) (o' & P3 & P4); congruence).
    rewrite (HF _ _ _ A1 B1), (HF _ _ _ A2 B2), A3, A4, B3, B4. reflexivity. }
  assert (Hall : forall v x, In v locs -> In x vs -> var_at W s v x -> v_desc x = v_desc v /\ v_sig x = v_sig v).
  { intros v x Hv Hx Hvx. destruct (H2 x Hx) as (v' & Hv' & Hvx' & Hh).
    assert (v' = v) by (eapply (nodup_map_inj (okey W)); eauto; eapply var_at_inj; eauto). subst v'. split.
    - destruct (v_desc v) as [d|] eqn:Ed.
      + destruct (H3 v (inl d)) as (y & Hy & Hvy & Hhy); [apply HU; auto|]. rewrite (Hfun v x y) by auto. exact Hhy.
      + destruct (v_desc x) as [d|] eqn:Ex; auto. pose proof (Hh (inl d) Ex) as Hc. cbn in Hc. congruence.
    - destruct (v_sig v) as [d|] eqn:Ed.
      + destruct (H3 v (inr d)) as (y & Hy & Hvy & Hhy); [apply HU; auto|]. rewrite (Hfun v x y) by auto. exact Hhy.
      + destruct (v_sig x) as [d|] eqn:Ex; auto. pose proof (Hh (inr d) Ex) as Hc. cbn in Hc. congruence. }
  apply match_up; try (eapply nodup_of_map; eassumption).
  - intros x Hx. destruct (H2 x Hx) as (v & Hv & Hvx & _). exists v. split; auto.
  - intros v Hv. assert (exists u, has u v) as (u & Hu).
    { destruct (Hne v Hv) as [Hn|Hn]; [destruct (v_desc v) as [d|] eqn:Ed; [exists (inl d); auto|congruence]|].
      destruct (v_sig v) as [d|] eqn:Ed; [exists (inr d); auto|congruence]. }
    destruct (H3 v u (HU v u Hv Hu)) as (x & Hx & Hvx & _). exists x. split; auto.
  - intros v x y Hv Hx Hy [A _] [B _]. eapply Hfun; eauto.
  - intros v v' x Hv Hv' Hx [A _] [B _]. eapply (nodup_map_inj (okey W)); eauto. eapply var_at_inj; eauto.
Qed.
Lemma combine_fst {A B} (l : list A) : forall (m : list B), length m = length l -> map fst (combine l m) = l.
Proof. induction l; intros [|? ?]; cbn; intros H; try lia; auto. f_equal. apply IHl. lia. Qed.
Lemma combine_snd {A B} (l : list A) : forall (m : list B), length m = length l -> map snd (combine l m) = m.
Proof. induction l; intros [|? ?]; cbn; intros H; try lia; auto. f_equal. apply IHl. lia. Qed.
Lemma rd_code_ok md E : srd_ok rst_inv rst_ext (rd_code md) (fun c => wf_code E c /\ code_readable c) fmt_code
  (fun W s c c' => code_rel (dyn_read W s) c c').
Proof.
  intros W s c bs rest (I1 & I2 & I3 & I4) [Hwf [Hkey Hrd]] (L & K & fas & ps & body & HF & Hfas) Hs.
  destruct HF as (HL & HK & Hst & Hlo & Hlb & Hlaid & hs & as_ & (hss & Hlh & -> & Hhs) & (ass & Hla & -> & Has) & ->).
  destruct Hwf as (_ & _ & [Hndl Hins] & Hlc & Hcs & Hlat & Hats).
  set (W1 := in_code W L K) in *. unfold rd_code.
  rewrite <- !app_assoc in *. rewrite rd_u16_u2 by auto. cbn [bind]. rewrite rd_u16_u2 by auto. cbn [bind].
  pose proof (len_nonneg body). rewrite rd_u32_u4 by (unfold u32; lia). cbn [bind].
  rewrite take_app' by reflexivity. cbn [bind].
  assert (Hi0 : code_inv W1 {| k_refs := s; k_labels := []; k_catches := [] |}).
  { split; [|split; [intros o l' []|exact I4]]. split; [|auto]. split; [constructor|]. split; [constructor|reflexivity]. }
  assert (Hfine : Forall (fun i => realb i = true -> wf_insn (we_heap E) i /\ readable i) (cd_code c)).
  { apply Forall_forall. intros i Hin Hr. rewrite Forall_forall in Hins, Hrd. split; [apply Hins; auto|apply Hrd; auto]. }
  destruct (rd_insns_ok W1 md (we_heap E) (cd_code c) 0 ps body _ Hlaid Hfine Hlb Hi0 (length body) (le_n _)) as (is' & s1 & HR & Hl & He1 & Hi1 & Hsim).
  change (W_pool W1) with (W_pool W) in HR.
  rewrite HR. cbn [bind]. rewrite (combine_fst ps is' Hl), (combine_snd ps is' Hl).
  assert (Hr1 : length (combine ps is') = length is') by (rewrite combine_length; lia). rewrite Hr1.
  pose proof (len_nonneg (cd_catches c)). rewrite rd_u16_u2 by (unfold u16; lia). cbn [bind].
  assert (Hsm : small (concat hss) /\ small (concat ass)).
  { unfold small in *. rewrite !len_app in Hs.
    pose proof (len_nonneg (u2 (cd_stack c))); pose proof (len_nonneg (u2 (cd_locals c))); pose proof (len_nonneg (u4 (len body)));
    pose proof (len_nonneg (u2 (len (cd_catches c)))); pose proof (len_nonneg (concat hss));
    pose proof (len_nonneg (u2 (len (concat fas)))); pose proof (len_nonneg (concat ass)). lia. }
  destruct Hsm as [Sh Sa].
  assert (Hn1 : Z.to_nat (len (cd_catches c)) = length (cd_catches c)) by (unfold len; lia). rewrite Hn1.
  destruct (srd_times_ok code_inv cst_ext cst_ext_refl cst_ext_trans rd_handler (fun _ => True) fmt_handler catch_sim catch_sim_stable rd_handler_ok
    W1 (cd_catches c) hss Hhs s1 (u2 (len (concat fas)) ++ concat ass ++ rest) Hi1) as (cs & s2 & HC & He2 & Hi2 & Hcsim); auto.
  { apply Forall_forall. auto. }
  change (W_pool W1) with (W_pool W) in HC. rewrite HC. cbn [bind].
  pose proof (len_nonneg (concat fas)). rewrite rd_u16_u2 by (unfold u16; lia). cbn [bind].
  set (s3 := {| k_refs := k_refs s2; k_labels := k_labels s2; k_catches := cs |}).
  assert (Hi3 : attr_inv W1 s3).
  { split; [exact Hi2|]. intros x i Hx. destruct (HK x i Hx) as [Hi0' Hnth]. cbn [k_catches s3].
    assert (HN : forall n l l', Forall2 (catch_sim W1 s2) l l' -> nth_error l n = Some x -> exists y, nth_error l' n = Some y /\ catch_sim W1 s2 x y).
    { intros n l l' HF. revert n. induction HF; intros [|n] Hn; try discriminate; cbn in *; [injection Hn as <-; eauto|auto]. }
    exact (HN _ _ _ Hcsim Hnth). }
  assert (Hokey : NoDup (map (okey W1) (locals_of (cd_attrs c)))).
  { eapply nodup_map_weaken; [exact Hkey|]. intros a b Ha Hb HE.
    assert (Hp : forall v, In v (locals_of (cd_attrs c)) -> exists x y, place (v_start v) (cd_code c) = Some x /\ place (v_end v) (cd_code c) = Some y).
    { intros v Hv. unfold locals_of in Hv. apply in_flat_map in Hv as (k & Hk & Hv). rewrite Forall_forall in Hats. pose proof (Hats k Hk) as Hwk.
      destruct k; cbn in Hv; try contradiction. destruct Hwk as (_ & _ & Hvs). rewrite Forall_forall in Hvs.
      destruct (Hvs v Hv) as ((x & y & ? & ? & _) & _). eauto. }
    assert (Hpl : forall l l' x y, place l (cd_code c) = Some x -> place l' (cd_code c) = Some y -> L l = L l' -> x = y).
    { intros l l' x y Hx Hy Hll. destruct (laid_place W1 l _ 0 ps body x 0 Hlaid Hndl Hx) as (o & Ho & Hxo).
      destruct (laid_place W1 l' _ 0 ps body y 0 Hlaid Hndl Hy) as (o' & Ho' & Hyo). cbn [W_label W1 in_code] in Ho, Ho'. rewrite Hll, Ho' in Ho.
      injection Ho as ->. rewrite Hxo in Hyo. injection Hyo. lia. }
    destruct (Hp a Ha) as (a1 & a2 & Ha1 & Ha2). destruct (Hp b Hb) as (b1 & b2 & Hb1 & Hb2). unfold okey in HE. injection HE as HE1 HE2 HE3 HE4.
    unfold var_key. rewrite Ha1, Ha2, Hb1, Hb2, HE3, HE4. rewrite (Hpl _ _ _ _ Ha1 Hb1 HE1), (Hpl _ _ _ _ Ha2 Hb2 HE2). reflexivity. }
  set (idx := pos2idx (ps ++ [len body]) 0).
  assert (HK0 : kinv W1 (locals_of (cd_attrs c)) [] s3 {| z_lines := []; z_vars := []; z_attrs := [] |} [] []).
  { split; auto. split; auto. split; [|constructor]. split; [constructor|]. split; [intros x []|intros v u []]. }
  destruct (rd_kattrs_ok md W1 idx E c _ [] Hokey rest (cd_attrs c) fas ass s3 _ [] [] Hats Hfas Has Sa (incl_refl _) HK0)
    as (s4 & z & U & HKr & He4 & (Hi4 & Hzl & Hzv & Hza) & _ & HU).
  assert (Hn2 : Z.to_nat (len (concat fas)) = length (concat fas)) by (unfold len; lia). rewrite Hn2.
  change (W_pool W1) with (W_pool W) in HKr. rewrite HKr. cbn [bind]. rewrite Hzl. cbn [map].
  assert (HLW : forall l o, W_label W1 l = Some o -> In l (labels_in (cd_code c))) by exact HL.
  destruct (add_labels_ok idx (k_labels s4) []) as (m & -> & Hm).
  { apply Forall_forall. intros [o l'] Hin. destruct Hi4 as [(_ & Hkn & _) _]. destruct (Hkn o l' Hin) as (l & Hl').
    destruct (label_index W1 (cd_code c) ps body HLW Hlaid Hndl l o Hl') as (n & _ & Hn & _). cbn [fst]. unfold idx. rewrite Hn. discriminate. }
  cbn [bind]. assert (Hm' : forall k, lookup_at k m = labels_at idx (k_labels s4) k) by (intros k; apply Hm).
  assert (Hreal : Forall (fun i => realb i = true) is').
  { apply Forall_forall. intros i' Hi'. apply In_nth_error in Hi' as (n & Hn).
    assert (HN : forall n l l', Forall2 (insn_sim W1 s1) l l' -> nth_error l' n = Some i' -> exists i, In i l /\ insn_sim W1 s1 i i').
    { intros n0 l l' HF0. revert n0. induction HF0; intros [|n0] Hn0; try discriminate; cbn in *; [injection Hn0 as <-; eauto|].
      destruct (IHHF0 _ Hn0) as (i & ? & ?). eauto. }
    destruct (HN _ _ _ Hsim Hn) as (i & Hin & Hsi). eapply sim_real; [|exact Hsi]. apply filter_In in Hin. apply Hin. }
  pose proof (proj1 (proj1 (proj1 Hi4))) as Hok4.
  pose proof (sim_same W1 s4 (cd_code c) ps body is' m HLW Hlaid Hndl Hl Hreal Hok4 (fun _ => []) (fun _ => Forall_nil _) (fun _ => eq_refl) Hm') as HSame.
  eexists _, _. split; [reflexivity|].
  split; [eapply rst_ext_trans; [exact (proj1 He1)|]; eapply rst_ext_trans; [exact (proj1 He2)|]; exact (proj1 He4)|].
  split; [destruct Hi4 as [((_ & A1 & A2 & A3) & _ & A4) _]; split; auto|].
  unfold code_rel. cbn [cd_stack cd_locals cd_code cd_catches cd_attrs].
  set (R := same_place (cd_code c) (insert_all (length is') m is')) in *.
  split; auto. split; auto. split.
  { rewrite weave_all, strip_weave; [|intros k; apply (lookup_virtual (fun _ => []) m idx (k_labels s4)); [constructor|exact Hm']|auto]. eapply forall2_impl; [|exact Hsim]. intros i i' Hii.
    apply (insn_sim_rel W1 s4 R HSame).
    apply (insn_sim_stable W1 s3 s4); [exact He4|]. exact (insn_sim_stable W1 s1 s2 _ _ He2 Hii). }
  split.
  { eapply forall2_impl; [|exact Hcsim]. intros x y Hxy. apply (catch_sim_rel W1 s4 R HSame). apply (catch_sim_stable W1 s3 s4); [exact He4|exact Hxy]. }
  destruct (vars_match W1 s4 (locals_of (cd_attrs c)) U (z_vars z) Hok4 Hokey Hzv HU) as (vs0 & Hperm & Hvs0).
  { apply Forall_forall. intros v Hv. unfold locals_of in Hv. apply in_flat_map in Hv as (k & Hk & Hv). rewrite Forall_forall in Hats. pose proof (Hats k Hk) as Hwk.
    destruct k; cbn in Hv; try contradiction. destruct Hwk as (_ & _ & Hvs). rewrite Forall_forall in Hvs. apply (Hvs v Hv). }
  exists (z_attrs z), (z_vars z), vs0. split; [eapply forall2_impl; [|exact Hza]; apply (kattr_sim_rel W1 s4 R HSame)|]. split; auto. split.
  { eapply forall2_impl; [|exact Hvs0]. intros v x ((A1 & A2 & A3 & A4) & A5 & A6). repeat split; auto; apply HSame; auto. }
  destruct (z_vars z); reflexivity.
Qed.
End Refs.

Lemma open_refs W s : refs_in false W s.
Proof. apply Forall_forall. intros r _ H. discriminate. Qed.
