(** Writing code that was read (C64): what is written depends only on the
    instructions, the places of the labels and the contents. *)
From Coq Require Import String Permutation Sorted.
From Verif Require Import Base BaseLemmas Wtf8Spec PrimModel PrimProofs TypeModel TypeSpec CpModel CpSpec CpProofs CpProps FileSpec
  SigModel AnnModel AnnSpec AnnProofs AttrModel AttrSpec AttrProofs FrameModel FrameSpec InsnModel InsnSpec InsnProofs InsnProps
  CodeModel CodeSpec CodeProofs CodeWrite CodeRead CodeProps CodeAccept ClassModel ClassSpec.

Notation place := CodeSpec.place.

Lemma F2_len {A B} (P : A -> B -> Prop) l l' : Forall2 P l l' -> List.length l' = List.length l.
Proof. induction 1; cbn; auto. Qed.

(** * Instructions *)

(** The same buffers and positions; [j] relates the jumps. *)
Definition core_eq (J : insn -> insn -> Prop) (y y' : yst) : Prop :=
  y_bufs y' = y_bufs y /\ y_cur y' = y_cur y /\ Forall2 J (y_jumps y) (y_jumps y').
Lemma core_refl y : core_eq eq y y.
Proof. split; [auto|split; [auto|]]. induction (y_jumps y); auto. Qed.

Definition unchanged (y y' : yst) : Prop := y_bufs y' = y_bufs y /\ y_cur y' = y_cur y /\ y_jumps y' = y_jumps y.
Lemma unreal_step E i y w : realb i = false ->
  exists y', write_insn E i y w = Ok (y', w) /\ unchanged y y' /\
    y_labels y' = match i with ILabel l => assoc_set Z.eqb l (len (y_bufs y), len (y_cur y)) (y_labels y) | _ => y_labels y end.
Proof.
  intros H. destruct i; try discriminate H;
    try (eexists; split; [reflexivity|]; split; [split; auto|]; reflexivity).
  - destruct a, b; try discriminate H; (eexists; split; [cbn; reflexivity|]; cbn; rewrite app_nil_r; repeat split).
  - destruct t; try discriminate H; (eexists; split; [cbn; reflexivity|]; cbn; rewrite app_nil_r; repeat split).
Qed.
Definition follows (E : wenv) (i : insn) (b : list Z) (y : yst) : yst :=
  if jumpb i then {| y_bufs := y_bufs y ++ [y_cur y]; y_cur := []; y_jumps := y_jumps y ++ [i]; y_labels := y_labels y |}
  else {| y_bufs := y_bufs y; y_cur := y_cur y ++ b; y_jumps := y_jumps y; y_labels := y_labels y |}.
Lemma real_step E i y w : realb i = true -> write_insn E i y w = ('(b, w) <- emit E i w ;; Ok (follows E i b y, w)).
Proof.
  intros H. unfold follows. destruct i; try discriminate H; cbn [jumpb]; try reflexivity.
Qed.
Lemma real_unchanged E i y w y' w' : realb i = true -> write_insn E i y w = Ok (y', w') -> y_labels y' = y_labels y /\
  forall y0, unchanged y y0 -> exists y0', write_insn E i y0 w = Ok (y0', w') /\ unchanged y' y0'.
Proof.
  intros Hr H. rewrite real_step in H by auto. inv_bind H. destruct v as [b w1]. apply ok_inj in H. inversion H; subst. clear H. split.
  - unfold follows. destruct (jumpb i); reflexivity.
  - intros y0 (H1 & H2 & H3). exists (follows E i b y0). rewrite real_step by auto. rewrite E0. split; [reflexivity|].
    unfold follows, unchanged. destruct (jumpb i); cbn; rewrite H1, H2, H3; auto.
Qed.
Lemma unchanged_trans a b c : unchanged a b -> unchanged b c -> unchanged a c.
Proof. unfold unchanged. intuition congruence. Qed.
Lemma unchanged_sym a b : unchanged a b -> unchanged b a.
Proof. unfold unchanged. intuition congruence. Qed.
Lemma unchanged_refl a : unchanged a a.
Proof. unfold unchanged. auto. Qed.
Lemma write_cons E i is y w : write_insns E (i :: is) y w = ('(y, w) <- write_insn E i y w ;; write_insns E is y w).
Proof. reflexivity. Qed.

Lemma strip_fwd E is : forall y w y' w' y0, write_insns E is y w = Ok (y', w') -> unchanged y y0 ->
  exists y0', write_insns E (strip is) y0 w = Ok (y0', w') /\ unchanged y' y0'.
Proof.
  induction is as [|i is IH]; intros y w y' w' y0 H Hu; [exists y0; inversion H; subst; auto|].
  rewrite write_cons in H. inv_bind H. destruct v as [y1 w1]. cbn [strip filter]. fold (strip is). destruct (realb i) eqn:Hr.
  - destruct (proj2 (real_unchanged _ _ _ _ _ _ Hr E0) _ Hu) as (y2 & H2 & Hu2). rewrite write_cons, H2. cbn [bind]. eauto.
  - destruct (unreal_step E i y w Hr) as (y2 & H2 & Hu2 & _). rewrite H2 in E0. inversion E0; subst. eapply IH; [exact H|].
    eapply unchanged_trans; [apply unchanged_sym; exact Hu2|exact Hu].
Qed.
Lemma strip_bwd E is : forall y w y' w' y0, write_insns E (strip is) y w = Ok (y', w') -> unchanged y y0 ->
  exists y0', write_insns E is y0 w = Ok (y0', w') /\ unchanged y' y0'.
Proof.
  induction is as [|i is IH]; intros y w y' w' y0 H Hu; [exists y0; inversion H; subst; auto|].
  rewrite write_cons. cbn [strip filter] in H. fold (strip is) in H. destruct (realb i) eqn:Hr.
  - rewrite write_cons in H. inv_bind H. destruct v as [y1 w1].
    destruct (proj2 (real_unchanged _ _ _ _ _ _ Hr E0) _ Hu) as (y2 & H2 & Hu2). rewrite H2. cbn [bind]. eauto.
  - destruct (unreal_step E i y0 w Hr) as (y2 & H2 & Hu2 & _). rewrite H2. cbn [bind]. eapply IH; [exact H|].
    eapply unchanged_trans; eauto.
Qed.
Lemma labels_kept E is l : forall y w y' w', ~ In l (labels_in is) -> write_insns E is y w = Ok (y', w') ->
  assoc Z.eqb l (y_labels y') = assoc Z.eqb l (y_labels y).
Proof.
  induction is as [|i is IH]; intros y w y' w' Hn H; [inversion H; subst; auto|].
  rewrite write_cons in H. inv_bind H. destruct v as [y1 w1]. apply IH in H; [|intros Hc; apply Hn; cbn; apply in_or_app; auto]. rewrite H.
  destruct (realb i) eqn:Hr; [rewrite (proj1 (real_unchanged _ _ _ _ _ _ Hr E0)); auto|].
  destruct (unreal_step E i y w Hr) as (y2 & H2 & _ & HL). rewrite H2 in E0. inversion E0; subst. rewrite HL. destruct i; auto.
  rewrite assoc_set_assoc. assert (l0 <> l) by (intros ->; apply Hn; cbn; auto). destruct (Z.eqb_spec l0 l); congruence.
Qed.
(** A label is where writing the instructions in front of it has come to. *)
Lemma label_pos E is l : forall y w y' w' n, write_insns E is y w = Ok (y', w') -> NoDup (labels_in is) -> place l is = Some n ->
  exists y1 w1, write_insns E (firstn (Z.to_nat n) (strip is)) y w = Ok (y1, w1) /\
    assoc Z.eqb l (y_labels y') = Some (len (y_bufs y1), len (y_cur y1)).
Proof.
  induction is as [|i is IH]; intros y w y' w' n H Hn Hp; [discriminate|].
  rewrite write_cons in H. inv_bind H. destruct v as [y1 w1]. cbn [CodeSpec.place] in Hp. cbn [labels_in flat_map] in Hn. fold (labels_in is) in Hn.
  destruct (match i with ILabel l' => l' =? l | _ => false end) eqn:Hi.
  - destruct i; try discriminate Hi. apply Z.eqb_eq in Hi. subst. inversion Hp; subst. cbn [Z.to_nat firstn]. exists y, w. split; [reflexivity|].
    cbn [app] in Hn. inversion Hn; subst. rewrite (labels_kept _ _ _ _ _ _ _ H2 H). cbn [write_insn] in E0. inversion E0; subst. cbn [y_labels].
    rewrite assoc_set_assoc, Z.eqb_refl. reflexivity.
  - destruct (place l is) as [m|] eqn:Em; [|discriminate]. cbn [option_map] in Hp. apply some_inj in Hp.
    assert (Hn' : NoDup (labels_in is)) by (destruct i; auto; cbn in Hn; inversion Hn; auto). cbn [strip filter]. fold (strip is).
    destruct (realb i) eqn:Hr; subst n.
    + pose proof (place_nonneg _ _ _ Em). replace (Z.to_nat (m + 1)) with (S (Z.to_nat m)) by lia. cbn [firstn]. rewrite write_cons, E0. cbn [bind]. eauto.
    + destruct (unreal_step E i y w Hr) as (y2 & H2 & Hu & _). rewrite H2 in E0. inversion E0; subst.
      destruct (IH _ _ _ _ _ H Hn' eq_refl) as (y3 & w3 & H3 & ->).
      assert (HS : forall k, strip (firstn k (strip is)) = firstn k (strip is)).
      { clear. intros k. unfold strip. generalize (filter_In realb). intros HF. assert (Forall (fun i => realb i = true) (filter realb is)) by (apply Forall_forall; intros x Hx; apply HF in Hx; tauto).
        clear HF. revert k. induction H as [|x xs Hx _ IHx]; intros [|k]; cbn [firstn filter]; auto. rewrite Hx, IHx. reflexivity. }
      destruct (strip_fwd _ _ _ _ _ _ y H3 (unchanged_sym _ _ Hu)) as (y4 & H4 & (U1 & U2 & U3)). rewrite HS in H4. exists y4, w3. split; [exact H4|].
      rewrite U1, U2. reflexivity.
Qed.

(** * Related instructions *)
Definition cast_plain (i : insn) : Prop :=
  match i with ICheckCast (Stat (CtObject s)) | IInstanceOf (Stat (CtObject s)) => hd 0 s <> 91 | _ => True end.
Definition tame_insn (i : insn) : Prop := insn_dyns i = [] /\ cast_plain i /\ wf_switch i.

Lemma emit_canon E i w : emit E (canon i) w = emit E i w.
Proof. destruct i; try reflexivity. destruct a, b; reflexivity. Qed.
Lemma jumpb_canon i : jumpb (canon i) = jumpb i.
Proof. destruct i; try reflexivity. destruct a, b; reflexivity. Qed.
Section Rel.
Context (R : Z -> Z -> Prop) (D : dynamic -> dynamic -> Prop).
Lemma rel_jumpb i i' : insn_rel R D i i' -> jumpb i' = jumpb i.
Proof.
  intros H. assert (HC : canon i' = canon i -> jumpb i' = jumpb i) by (intros Hc; rewrite <- jumpb_canon, Hc; apply jumpb_canon).
  destruct i; cbn [insn_rel] in H; auto; destruct i'; auto; contradiction.
Qed.
Lemma emit_rel E i i' w : insn_rel R D i i' -> tame_insn i -> emit E i' w = emit E i w.
Proof.
  intros H (Hd & Hc & _).
  assert (HC : canon i' = canon i -> emit E i' w = emit E i w) by (intros Hx; rewrite <- emit_canon, Hx; apply emit_canon).
  assert (HO : forall A (o o' : ordyn A), dyn_of o = [] -> ordyn_rel D eq o o' -> o' = o) by (intros A [d|a] [d'|a']; cbn; intros; try discriminate; try contradiction; congruence).
  assert (HT : forall o o' : ordyn ctype, dyn_of o = [] -> ordyn_rel D same_ctype o o' ->
    match o with Stat (CtObject s) => hd 0 s <> 91 | _ => True end -> o' = o).
  { intros [d|a] [d'|a']; cbn; intros H1 H2 H3; try discriminate; try contradiction. destruct H2 as [_ H2]. destruct a; [destruct H2; [contradiction|]|]; congruence. }
  destruct i; cbn [insn_rel] in H; auto; destruct i'; try contradiction; cbn [insn_dyns] in Hd; cbn [cast_plain] in Hc; try discriminate Hd;
    try reflexivity.
  - rewrite (HO _ _ _ Hd H). reflexivity.
  - rewrite (HT _ _ Hd H); [reflexivity|]. destruct c as [|[]]; auto.
  - rewrite (HT _ _ Hd H); [reflexivity|]. destruct c as [|[]]; auto.
  - rewrite (HO _ _ _ Hd H). reflexivity.
  - destruct H as (-> & -> & H). rewrite (HO _ _ _ Hd H). reflexivity.
  - destruct H as (-> & H). rewrite (HO _ _ _ Hd H). reflexivity.
  - rewrite (HO _ _ _ Hd H). reflexivity.
  - destruct H as (H & ->). rewrite (HO _ _ _ Hd H). reflexivity.
Qed.
Definition jrel (i i' : insn) : Prop := insn_rel R D i i' /\ tame_insn i.
Definition core_rel (y y' : yst) : Prop :=
  y_bufs y' = y_bufs y /\ y_cur y' = y_cur y /\ Forall2 jrel (y_jumps y) (y_jumps y').
Lemma rel_insns E is is' : Forall2 jrel is is' -> Forall (fun i => realb i = true) is -> Forall (fun i => realb i = true) is' ->
  forall y y' w y1 w1, core_rel y y' -> write_insns E is y w = Ok (y1, w1) ->
  exists y1', write_insns E is' y' w = Ok (y1', w1) /\ core_rel y1 y1'.
Proof.
  induction 1 as [|i i' is is' Hi _ IH]; intros Hr Hr' y y' w y1 w1 Hc H; [exists y'; inversion H; subst; auto|].
  inversion Hr; subst. inversion Hr'; subst. rewrite write_cons in *. rewrite real_step in * by auto. rewrite (emit_rel E i i' w) by apply Hi.
  inv_bind H. inv_bind E0. destruct v0 as [b w2]. apply ok_inj in E0. subst v. rewrite E1. cbn [bind] in *. eapply IH; eauto.
  destruct Hc as (C1 & C2 & C3). unfold core_rel, follows. rewrite (rel_jumpb i i') by apply Hi. destruct (jumpb i); cbn.
  - rewrite C1, C2. split; [auto|split; [auto|]]. apply Forall2_app; auto.
  - rewrite C1, C2. auto.
Qed.
End Rel.
Lemma strip_real is : Forall (fun i => realb i = true) (strip is).
Proof. apply Forall_forall. intros i Hi. apply filter_In in Hi. tauto. Qed.
Lemma firstn_all2' {A} (P : A -> Prop) n l : Forall P l -> Forall P (firstn n l).
Proof. intros H. revert n. induction H; intros [|n]; cbn; auto. Qed.
Lemma firstn_rel {A} (P : A -> A -> Prop) n l l' : Forall2 P l l' -> Forall2 P (firstn n l) (firstn n l').
Proof. intros H. revert n. induction H; intros [|n]; cbn; auto. Qed.

Lemma written_same D E is is' y w w' : let R := same_place is is' in
  Forall2 (insn_rel R D) (strip is) (strip is') -> Forall tame_insn (strip is) -> NoDup (labels_in is) -> NoDup (labels_in is') ->
  write_insns E is y_new w = Ok (y, w') ->
  exists y', write_insns E is' y_new w = Ok (y', w') /\ core_rel R D y y' /\
    forall l l', R l l' -> assoc Z.eqb l' (y_labels y') = assoc Z.eqb l (y_labels y).
Proof.
  intros R HR Ht Hn Hn' H.
  assert (HJ : Forall2 (jrel R D) (strip is) (strip is')).
  { clear - HR Ht. induction HR; [constructor|]. inversion Ht; subst. constructor; [split; auto|auto]. }
  destruct (strip_fwd _ _ _ _ _ _ y_new H (unchanged_refl _)) as (y1 & H1 & (U1 & U2 & U3)).
  assert (HN : core_rel R D y_new y_new) by (split; [auto|split; [auto|constructor]]).
  destruct (rel_insns R D E _ _ HJ (strip_real _) (strip_real _) y_new y_new _ _ _ HN H1) as (y1' & H1' & (C1 & C2 & C3)).
  destruct (strip_bwd _ _ _ _ _ _ y_new H1' (unchanged_refl _)) as (y' & H' & (V1 & V2 & V3)).
  exists y'. split; [exact H'|]. split; [split; [congruence|split; [congruence|]]; rewrite V3, <- U3; exact C3|].
  intros l l' (n & P1 & P2). destruct (label_pos _ _ _ _ _ _ _ _ H Hn P1) as (a & wa & Ha & ->).
  destruct (label_pos _ _ _ _ _ _ _ _ H' Hn' P2) as (b & wb & Hb & ->).
  destruct (rel_insns R D E _ _ (firstn_rel _ (Z.to_nat n) _ _ HJ) (firstn_all2' _ _ _ (strip_real _)) (firstn_all2' _ _ _ (strip_real _)) y_new y_new _ _ _ HN Ha) as (c & Hc & (C4 & C5 & _)).
  rewrite Hb in Hc. inversion Hc; subst. rewrite C4, C5. reflexivity.
Qed.

(** * Jumps *)
Lemma sorted_perm (t t' : list (Z * Z)) : Permutation t t' -> StronglySorted Z.lt (map fst t) -> StronglySorted Z.lt (map fst t') -> t' = t.
Proof.
  revert t'. induction t as [|e t IH]; intros t' HP H1 H2; [apply Permutation_nil in HP; auto|].
  destruct t' as [|e' t']; [apply Permutation_sym, Permutation_nil in HP; discriminate|].
  cbn in H1, H2. inversion H1 as [|? ? S1 F1]; subst. inversion H2 as [|? ? S2 F2]; subst. assert (e = e').
  { assert (I1 : In e (e' :: t')) by (eapply Permutation_in; [exact HP|left; auto]).
    assert (I2 : In e' (e :: t)) by (eapply Permutation_in; [apply Permutation_sym; exact HP|left; auto]).
    destruct I1 as [I1|I1]; [auto|]. destruct I2 as [I2|I2]; [auto|]. apply (in_map fst) in I1, I2. rewrite Forall_forall in F1, F2.
    specialize (F1 _ I2). specialize (F2 _ I1). lia. }
  subst e'. apply Permutation_cons_inv in HP. f_equal. auto.
Qed.
Lemma sort_perm t t' : Permutation t t' -> NoDup (map fst t) -> sort_keys t' = sort_keys t.
Proof.
  intros HP HN. apply sorted_perm.
  - eapply perm_trans; [apply Permutation_sym, sort_keys_perm|]. eapply perm_trans; [exact HP|apply sort_keys_perm].
  - apply sort_keys_sorted. auto.
  - apply sort_keys_sorted. eapply Permutation_NoDup; [apply Permutation_map; exact HP|auto].
Qed.
Lemma sort_rel (Q : Z -> Z -> Prop) t t' : Forall2 (fun e e' : Z * Z => fst e' = fst e /\ Q (snd e) (snd e')) t t' ->
  Forall2 (fun e e' => fst e' = fst e /\ Q (snd e) (snd e')) (sort_keys t) (sort_keys t').
Proof.
  assert (HI : forall e e' t t', fst e' = fst e /\ Q (snd e) (snd e') -> Forall2 (fun e e' : Z * Z => fst e' = fst e /\ Q (snd e) (snd e')) t t' ->
    Forall2 (fun e e' => fst e' = fst e /\ Q (snd e) (snd e')) (insert_key e t) (insert_key e' t')).
  { intros e e' u u' He. induction 1 as [|x x' u u' Hx Hu IH]; cbn [insert_key]; [auto|]. destruct He as [He1 He2], Hx as [Hx1 Hx2].
    rewrite He1, Hx1. destruct (fst e <=? fst x); auto 6. }
  induction 1; cbn [sort_keys]; auto.
Qed.
Lemma mapM_rel {A B} (f f' : A -> res B) l l' : Forall2 (fun a a' => f' a' = f a) l l' -> mapM f' l' = mapM f l.
Proof. induction 1 as [|a a' l l' Ha _ IH]; cbn [mapM]; [auto|]. rewrite Ha, IH. reflexivity. Qed.

Section Assemble.
Context (R : Z -> Z -> Prop) (D : dynamic -> dynamic -> Prop) (L L' : list (Z * (Z * Z))).
Context (HL : forall l l', R l l' -> assoc Z.eqb l' L' = assoc Z.eqb l L).
Lemma find_same l l' : R l l' -> find_label L' l' = find_label L l.
Proof. intros H. unfold find_label. rewrite (HL _ _ H). reflexivity. Qed.
Lemma hint_same hints l l' : R l l' -> hint_of L' hints l' = hint_of L hints l.
Proof. intros H. unfold hint_of. rewrite (find_same _ _ H). reflexivity. Qed.
Lemma resolve_same md ends idx size l l' : R l l' -> resolve md L' ends idx size l' = resolve md L ends idx size l.
Proof. intros H. unfold resolve. rewrite (find_same _ _ H). reflexivity. Qed.
Lemma max_same j j' : jrel R D j j' -> jumpb j = true -> max_size j' = max_size j.
Proof.
  intros [H _] Hj. destruct j; try discriminate Hj; cbn [insn_rel] in H; destruct j'; try contradiction; unfold max_size.
  - destruct H as [-> _]. reflexivity.
  - reflexivity.
  - destruct H as (_ & _ & H). unfold len. rewrite (F2_len _ _ _ H). reflexivity.
  - destruct H as (_ & u & HP & H). unfold len. rewrite (F2_len _ _ _ H), (Permutation_length HP). reflexivity.
Qed.
Lemma size_same hints i j j' : jrel R D j j' -> jumpb j = true -> jump_size L' hints i j' = jump_size L hints i j.
Proof.
  intros [H _] Hj. destruct j; try discriminate Hj; cbn [insn_rel] in H; destruct j'; try contradiction; cbn [jump_size].
  - destruct H as [-> H]. rewrite (hint_same _ _ _ H). reflexivity.
  - rewrite (hint_same _ _ _ H). reflexivity.
  - destruct H as (_ & _ & H). unfold len. rewrite (F2_len _ _ _ H). reflexivity.
  - destruct H as (_ & u & HP & H). unfold len. rewrite (F2_len _ _ _ H), (Permutation_length HP). reflexivity.
Qed.
Lemma emit_jump_same md ends idx size j j' : jrel R D j j' -> jumpb j = true -> emit_jump md L' ends idx size j' = emit_jump md L ends idx size j.
Proof.
  intros [H (_ & _ & Hw)] Hj. destruct j; try discriminate Hj; cbn [insn_rel] in H; destruct j'; try contradiction; cbn [emit_jump].
  - destruct H as [-> H]. rewrite (resolve_same _ _ _ _ _ _ H). reflexivity.
  - rewrite (resolve_same _ _ _ _ _ _ H). reflexivity.
  - destruct H as (H1 & -> & H). rewrite (resolve_same _ _ _ _ _ _ H1). unfold len. rewrite (F2_len _ _ _ H).
    erewrite mapM_rel; [reflexivity|]. eapply forall2_impl; [|exact H]. cbn beta. intros a b Hab. rewrite (resolve_same _ _ _ _ _ _ Hab). reflexivity.
  - destruct H as (H1 & u & HP & H). rewrite (resolve_same _ _ _ _ _ _ H1).
    assert (HN : len t0 = len t) by (unfold len; rewrite (F2_len _ _ _ H), (Permutation_length HP); reflexivity). rewrite HN.
    erewrite mapM_rel; [reflexivity|]. rewrite <- (sort_perm t u HP) by apply Hw.
    eapply forall2_impl; [|apply (sort_rel R); exact H]. cbn beta. intros a b [Ha Hb]. rewrite (resolve_same _ _ _ _ _ _ Hb), Ha. reflexivity.
Qed.
Lemma assemble_same md y y' : Forall (fun j => jumpb j = true) (y_jumps y) -> core_rel R D y y' -> y_labels y = L -> y_labels y' = L' ->
  assemble md y' = assemble md y.
Proof.
  intros Hj (C1 & C2 & C3) EL EL'. unfold assemble. rewrite C1, C2, EL, EL'. set (bufs := y_bufs y ++ [y_cur y]).
  assert (HH : forall bufs last, index_hints (y_jumps y') bufs last = index_hints (y_jumps y) bufs last).
  { clear - C3 Hj HL. induction C3 as [|j j' js js' H _ IH]; intros [|b bs] last; cbn [index_hints]; auto. inversion Hj; subst.
    rewrite (max_same _ _ H), IH; auto. }
  rewrite HH. set (hints := index_hints _ _ _).
  assert (HA : forall hints bufs last, actual L' hints (y_jumps y') bufs last = actual L hints (y_jumps y) bufs last).
  { clear - C3 Hj HL. induction C3 as [|j j' js js' H _ IH]; intros hs [|b bs] last; cbn [actual]; auto. inversion Hj; subst.
    rewrite (size_same _ _ _ _ H) by auto. destruct (jump_size L hs (last + len b) j); cbn [bind]; auto. rewrite IH; auto. }
  rewrite HA. destruct (actual L hints (y_jumps y) bufs 0) as [[rows last]| |]; cbn [bind]; auto.
  assert (HE : forall rows bufs ends, emit_jumps md L' ends (y_jumps y') rows bufs = emit_jumps md L ends (y_jumps y) rows bufs).
  { clear - C3 Hj HL. induction C3 as [|j j' js js' H _ IH]; intros [|[i n] rs] [|b bs] ends; cbn [emit_jumps]; auto. inversion Hj; subst.
    rewrite (emit_jump_same _ _ _ _ _ _ H) by auto. destruct (emit_jump _ _ _ _ _ _); cbn [bind]; auto. rewrite IH; auto. }
  destruct bufs as [|b rest]; auto. rewrite HE. reflexivity.
Qed.
End Assemble.

(** * Handlers and attributes *)
(** What distinguishes handlers. *)
Definition catch_key (is : list insn) (x : catch) : option Z * option Z * option Z * option (list Z) :=
  (place (c_start x) is, place (c_end x) is, place (c_handler x) is, c_type x).
Definition label_unique (is : list insn) : Prop :=
  NoDup (labels_in is) /\
  forall l1 l2 n, place l1 is = Some n -> place l2 is = Some n -> l1 = l2.
Section Attrs.
Context (E : wenv) (is is' : list insn) (L L' : list (Z * (Z * Z))) (ends : list Z) (cs cs' : list catch).
Let R := same_place is is'.
Let E1 := code_env E L ends cs.
Let E2 := code_env E L' ends cs'.
Context (HL : forall l l', R l l' -> assoc Z.eqb l' L' = assoc Z.eqb l L).
Context (HC : Forall2 (catch_rel R) cs cs').
Context (HU : forall x y, In x cs -> In y cs -> catch_key is x = catch_key is y -> x = y).
Context (HI : label_unique is').

Lemma label_same l l' : R l l' -> we_label E2 l' = we_label E1 l.
Proof using HL. clear - HL. intros H. cbn [E1 E2 we_label code_env]. unfold label16. rewrite (HL _ _ H). reflexivity. Qed.
Lemma place_fwd l1 l2 l1' l2' : R l1 l1' -> R l2 l2' -> place l1 is = place l2 is -> l1' = l2'.
Proof using HI. clear - HI. intros (n & A & B) (m & C & D) H. assert (n = m) by congruence. subst m. destruct HI as [_ HX]. eapply HX; eauto. Qed.
Lemma place_bwd l1 l2 l1' l2' : R l1 l1' -> R l2 l2' -> l1' = l2' -> place l1 is = place l2 is.
Proof using. clear. intros (n & A & B) (m & C & D) H. subst. congruence. Qed.
Lemma catch_same_eqb x x' y y' : In x cs -> In y cs -> catch_rel R x x' -> catch_rel R y y' -> catch_eqb x' y' = catch_eqb x y.
Proof using HU HI.
  clear - HU HI. intros Hx Hy (A1 & A2 & A3 & A4) (B1 & B2 & B3 & B4). destruct (catch_eqb x y) eqn:Ex.
  - apply catch_eqb_eq in Ex. subst y. apply catch_eqb_eq. destruct x', y'. cbn in *. rewrite A4, B4. f_equal; eapply place_fwd; eauto.
  - destruct (catch_eqb x' y') eqn:Ey; [|auto]. apply catch_eqb_eq in Ey. subst y'. exfalso.
    assert (x = y); [|subst; rewrite (proj2 (catch_eqb_eq y y) eq_refl) in Ex; discriminate].
    apply HU; auto. unfold catch_key. rewrite (place_bwd _ _ _ _ A1 B1), (place_bwd _ _ _ _ A2 B2), (place_bwd _ _ _ _ A3 B3) by auto. congruence.
Qed.
Lemma position_same y y' : In y cs -> catch_rel R y y' -> forall k, position y' cs' k = position y cs k.
Proof using HC HU HI.
  intros Hy Hr. assert (HX : forall ds ds', Forall2 (catch_rel R) ds ds' -> incl ds cs -> forall k, position y' ds' k = position y ds k);
    [|intros k; apply HX; [exact HC|apply incl_refl]].
  induction 1 as [|x x' ds ds' Hx _ IH]; intros Hi k; cbn [position]; [auto|].
  rewrite (catch_same_eqb x x' y y') by (auto; apply Hi; left; auto). rewrite IH; [auto|]. intros z Hz. apply Hi. right. auto.
Qed.
Lemma handler_same c c' w : catch_rel R c c' -> wr_handler E2 c' w = wr_handler E1 c w.
Proof using HL.
  clear - HL. intros (A1 & A2 & A3 & A4). unfold wr_handler. rewrite (label_same _ _ A1), (label_same _ _ A2), (label_same _ _ A3), A4. reflexivity.
Qed.
Definition target_in (t : code_target) : Prop := match t with KtCatch c => In c cs | _ => True end.
Definition attr_in (a : kattr) : Prop :=
  match a with KVisible l | KInvisible l => Forall (fun t => target_in (ta_target t)) l | _ => True end.
Lemma each_same {A} (f : cwr A) (xs xs' : list A) : Forall2 (fun a a' => forall w, f E2 a' w = f E1 a w) xs xs' ->
  forall w, wr_each f E2 xs' w = wr_each f E1 xs w.
Proof using. clear. induction 1 as [|a a' xs xs' Ha _ IH]; intros w; cbn [wr_each]; [auto|]. rewrite Ha. destruct (f E1 a w) as [[]| |]; cbn [bind]; auto. rewrite IH. auto. Qed.
Lemma cvec_same {A} k (f : cwr A) (xs xs' : list A) : Forall2 (fun a a' => forall w, f E2 a' w = f E1 a w) xs xs' ->
  forall w, wr_cvec k f E2 xs' w = wr_cvec k f E1 xs w.
Proof using.
  clear. intros H w. unfold wr_cvec. unfold len. rewrite (F2_len _ _ _ H). rewrite (each_same f _ _ H). reflexivity.
Qed.
Lemma cvec_id {A} k (f : cwr A) xs : (forall a w, f E2 a w = f E1 a w) -> forall w, wr_cvec k f E2 xs w = wr_cvec k f E1 xs w.
Proof using. clear. intros H w. apply cvec_same. induction xs; constructor; auto. Qed.
Lemma target_same t t' w : code_target_rel R t t' -> target_in t -> wr_code_target E2 t' w = wr_code_target E1 t w.
Proof using HL HC HU HI.
  intros H Hin. assert (HV : forall x y w, Forall2 (lvt_rel R) x y -> wr_cvec 2 wr_lvt E2 y w = wr_cvec 2 wr_lvt E1 x w).
  { intros x y v Hx. apply cvec_same. eapply forall2_impl; [|exact Hx]. intros a b (B1 & B2 & B3) u. unfold wr_lvt.
    rewrite (label_same _ _ B1), (label_same _ _ B2), B3. reflexivity. }
  destruct t, t'; try contradiction; cbn [code_target_rel] in H; cbn [wr_code_target]; unfold wr_tagged.
  - rewrite (HV _ _ _ H). reflexivity.
  - rewrite (HV _ _ _ H). reflexivity.
  - unfold wr_catch. cbn [E1 E2 we_catch code_env]. rewrite (position_same _ _ Hin H). reflexivity.
  - unfold wr_label. rewrite (label_same _ _ H). reflexivity.
  - unfold wr_label. rewrite (label_same _ _ H). reflexivity.
  - unfold wr_label. rewrite (label_same _ _ H). reflexivity.
  - unfold wr_label. rewrite (label_same _ _ H). reflexivity.
  - destruct H as [H ->]. unfold wr_label_u8, wr_pair, wr_label. cbn [fst snd]. rewrite (label_same _ _ H). reflexivity.
  - destruct H as [H ->]. unfold wr_label_u8, wr_pair, wr_label. cbn [fst snd]. rewrite (label_same _ _ H). reflexivity.
  - destruct H as [H ->]. unfold wr_label_u8, wr_pair, wr_label. cbn [fst snd]. rewrite (label_same _ _ H). reflexivity.
  - destruct H as [H ->]. unfold wr_label_u8, wr_pair, wr_label. cbn [fst snd]. rewrite (label_same _ _ H). reflexivity.
  - destruct H as [H ->]. unfold wr_label_u8, wr_pair, wr_label. cbn [fst snd]. rewrite (label_same _ _ H). reflexivity.
Qed.
Lemma type_env t w : wr_type E2 t w = wr_type E1 t w.
Proof using. clear. reflexivity. Qed.
Lemma vals_env t w : wr_vals E2 t w = wr_vals E1 t w.
Proof using.
  clear. assert (HV : forall v w, wr_aval E2 v w = wr_aval E1 v w).
  { induction v using aval_ind'; intros w0; try reflexivity; cbn [wr_aval].
    - change (wr_type E2) with (wr_type E1). destruct (wr_type E1 t0 w0) as [[x w1]| |]; cbn [bind]; auto. unfold wr_vals_with.
      erewrite each_same; [reflexivity|]. induction H as [|[k v] vs Hv _ IH]; constructor; [|exact IH]. intros u. cbn [snd] in Hv.
      change (wr_cow E2) with (wr_cow E1). destruct (wr_cow E1 k u) as [[x2 w2]| |]; cbn [bind]; auto. rewrite Hv. reflexivity.
    - erewrite each_same; [reflexivity|]. induction H as [|v vs Hv _ IH]; constructor; [exact Hv|exact IH]. }
  unfold wr_vals, wr_vals_with. erewrite each_same; [reflexivity|]. induction t as [|[k v] vs IH]; constructor; [|exact IH]. intros u.
  change (wr_cow E2) with (wr_cow E1). destruct (wr_cow E1 k u) as [[x2 w2]| |]; cbn [bind]; auto. rewrite HV. reflexivity.
Qed.
Lemma tannot_same a a' w : code_tannot_rel R a a' -> target_in (ta_target a) -> wr_code_tannot E2 a' w = wr_code_tannot E1 a w.
Proof using HL HC HU HI.
  intros (A1 & A2 & A3 & A4) Hin. unfold wr_code_tannot, wr_tannot. rewrite (target_same _ _ _ A1 Hin).
  destruct (wr_code_target E1 (ta_target a) w) as [[x w1]| |]; cbn [bind]; auto. rewrite A2, A3, A4.
  rewrite (cvec_id 1 (wr_plain wr_tpath) (ta_path a)) by reflexivity.
  destruct (wr_cvec 1 _ E1 _ w1) as [[x2 w2]| |]; cbn [bind]; auto. rewrite type_env. destruct (wr_type E1 _ w2) as [[x3 w3]| |]; cbn [bind]; auto.
  rewrite vals_env. reflexivity.
Qed.
Lemma tannots_same x y w : Forall2 (code_tannot_rel R) x y -> Forall (fun t => target_in (ta_target t)) x ->
  wr_cvec 2 wr_code_tannot E2 y w = wr_cvec 2 wr_code_tannot E1 x w.
Proof using HL HC HU HI.
  intros H Hf. apply cvec_same. clear w. induction H as [|a a' x y Ha _ IH]; [constructor|]. inversion Hf; subst. constructor; [|auto].
  intros w. apply tannot_same; auto.
Qed.
Lemma fcattr_same_locals a w : match a with CaLocals _ | CaLocalTypes _ | CaRaw _ => True | _ => False end -> wr_fcattr E2 a w = wr_fcattr E1 a w.
Proof using.
  clear. destruct a; try contradiction; intros _; [| |reflexivity]; cbn [wr_fcattr]; unfold wr_attr; change (insert_wtf8 E2) with (insert_wtf8 E1);
    destruct (insert_wtf8 E1 _ w) as [[i w1]| |]; cbn [bind]; auto; rewrite cvec_id; reflexivity.
Qed.
Lemma lv_row_same {A} v v' (t : A) : var_rel R v v' -> lv_row E2 v' t = lv_row E1 v t.
Proof using HL.
  clear - HL. intros (A1 & A2 & A3 & A4 & A5 & A6). unfold lv_row. rewrite (label_same _ _ A1), (label_same _ _ A2), A3, A6. reflexivity.
Qed.
Lemma lv_rows_same vs vs' : Forall2 (var_rel R) vs vs' -> lv_rows E2 vs' = lv_rows E1 vs.
Proof using HL.
  clear - HL. induction 1 as [|v v' vs vs' Hv _ IH]; cbn [lv_rows]; [auto|]. rewrite IH. pose proof Hv as (_ & _ & _ & -> & -> & _).
  destruct (v_desc v), (v_sig v); rewrite ?(lv_row_same v v') by auto; reflexivity.
Qed.
Definition kattr_same (a a' : kattr) : Prop :=
  kattr_rel R a a' \/ exists vs vs', a = KLocals vs /\ a' = KLocals vs' /\ Forall2 (var_rel R) vs vs'.
Lemma kattr_written a a' w : kattr_same a a' -> attr_in a -> wr_kattr E2 a' w = wr_kattr E1 a w.
Proof using HL HC HU HI.
  intros [H|(vs & vs' & -> & -> & H)] Hin.
  - destruct a, a'; try contradiction; cbn [kattr_rel] in H; cbn [wr_kattr].
    + cbn [wr_fcattr]. unfold wr_attr. change (insert_wtf8 E2) with (insert_wtf8 E1). destruct (insert_wtf8 E1 _ w) as [[i w1]| |]; cbn [bind]; auto.
      rewrite (tannots_same _ _ _ H) by exact Hin. reflexivity.
    + cbn [wr_fcattr]. unfold wr_attr. change (insert_wtf8 E2) with (insert_wtf8 E1). destruct (insert_wtf8 E1 _ w) as [[i w1]| |]; cbn [bind]; auto.
      rewrite (tannots_same _ _ _ H) by exact Hin. reflexivity.
    + subst. rewrite fcattr_same_locals by exact I. reflexivity.
  - cbn [wr_kattr]. rewrite (lv_rows_same _ _ H). destruct (lv_rows E1 vs) as [[ds gs]| |]; cbn [bind]; auto.
    destruct ds as [|d ds], gs as [|g gs]; auto; rewrite fcattr_same_locals by exact I; auto.
    destruct (wr_fcattr E1 _ w) as [[b w1]| |]; cbn [bind]; auto. rewrite fcattr_same_locals by exact I. auto.
Qed.
Lemma kattrs_written l l' : Forall2 kattr_same l l' -> Forall attr_in l -> forall x w, wr_kattrs E2 l' x w = wr_kattrs E1 l x w.
Proof using HL HC HU HI.
  induction 1 as [|a a' l l' Ha _ IH]; intros Hin x w; cbn [wr_kattrs]; [auto|]. inversion Hin; subst. rewrite (kattr_written a a') by auto.
  destruct (wr_kattr E1 a w) as [[[b y] w1]| |]; cbn [bind]; auto. change (we_md E2) with (we_md E1). destruct (chk_u _ _ _); cbn [bind]; auto.
  rewrite IH by auto. reflexivity.
Qed.
End Attrs.

(** * Code *)
(** Code that is written as it was: no dynamic constants; the type of a cast
    is not an array given by name; there are not two handlers that differ in
    labels at the same places only; variables are last, and there is at most
    one. *)
Definition tame_code (c : code) : Prop :=
  code_dyns c = [] /\ Forall cast_plain (cd_code c) /\
  (forall x y, In x (cd_catches c) -> In y (cd_catches c) -> catch_key (cd_code c) x = catch_key (cd_code c) y -> x = y) /\
  cd_attrs c = others_of (cd_attrs c) ++ match locals_of (cd_attrs c) with [] => [] | vs => [KLocals vs] end /\
  len (locals_of (cd_attrs c)) <= 1.

Lemma jumps_jump E is : forall y w y' w', write_insns E is y w = Ok (y', w') ->
  Forall (fun j => jumpb j = true) (y_jumps y) -> Forall (fun j => jumpb j = true) (y_jumps y').
Proof.
  induction is as [|i is IH]; intros y w y' w' H Hj; [inversion H; subst; auto|].
  rewrite write_cons in H. inv_bind H. destruct v as [y1 w1]. eapply IH; [exact H|]. destruct (realb i) eqn:Hr.
  - rewrite real_step in E0 by auto. inv_bind E0. destruct v as [b w2]. apply ok_inj in E0. inversion E0; subst. unfold follows.
    destruct (jumpb i) eqn:Ej; cbn; auto. apply Forall_app. auto.
  - destruct (unreal_step E i y w Hr) as (y2 & H2 & (_ & _ & U) & _). rewrite H2 in E0. inversion E0; subst. rewrite U. auto.
Qed.
Lemma code_written D E E0 c c' w r : wf_code E0 c -> tame_code c -> label_unique (cd_code c') -> code_rel D c c' ->
  wr_code E c w = Ok r -> wr_code E c' w = Ok r.
Proof.
  intros Hw (Td & Tc & Tk & Ta & Tl) HU (R1 & R2 & R3 & R4 & os & vs & vs0 & R5 & R6 & R7 & R8) H.
  destruct Hw as (_ & _ & (W1 & W2) & _ & W4 & _ & W6). unfold wr_code in H. inv_bind H. destruct v as [y w1]. inv_bind H. destruct v as [[n ends] body].
  assert (HT : Forall tame_insn (strip (cd_code c))).
  { apply Forall_forall. intros i Hi. unfold strip in Hi. apply filter_In in Hi as [Hi _]. split; [|split].
    - unfold code_dyns in Td. destruct (insn_dyns i) as [|d l] eqn:Ei; [auto|]. assert (In d (flat_map insn_dyns (cd_code c))) by (apply in_flat_map; exists i; rewrite Ei; split; [auto|left; auto]).
      rewrite Td in H0. contradiction.
    - rewrite Forall_forall in Tc. auto.
    - rewrite Forall_forall in W2. apply W2. auto. }
  destruct (written_same D E _ _ _ _ _ R3 HT W1 (proj1 HU) E1) as (y' & Hy & HC & HL).
  unfold wr_code. rewrite Hy. cbn [bind].
  rewrite (assemble_same _ D (y_labels y) (y_labels y') HL (we_md E) y y'); auto; [|eapply jumps_jump; [exact E1|constructor]].
  rewrite E2. cbn [bind]. cbv zeta in H |- *. rewrite R1, R2.
  rewrite (each_same E (y_labels y) (y_labels y') ends (cd_catches c) (cd_catches c') wr_handler (cd_catches c) (cd_catches c')).
  2: { eapply forall2_impl; [|exact R4]. intros a a' Ha w0. eapply handler_same; eauto. }
  destruct (wr_each wr_handler _ (cd_catches c) w1) as [[hs w2]| |]; cbn [bind] in *; auto.
  assert (HA : Forall2 (kattr_same (cd_code c) (cd_code c')) (cd_attrs c) (cd_attrs c')).
  { rewrite Ta, R8. apply Forall2_app; [eapply forall2_impl; [|exact R5]; intros; left; auto|].
    assert (vs0 = locals_of (cd_attrs c)) by (destruct (locals_of (cd_attrs c)) as [|v [|v2 l]]; [apply Permutation_nil in R6; auto|apply Permutation_length_1_inv in R6; auto|unfold len in Tl; cbn in Tl; lia]).
    subst vs0. destruct (locals_of (cd_attrs c)) as [|v l]; inversion R7; subst; constructor; [|constructor]. right. exists (v :: l), (y0 :: l'). auto. }
  rewrite (kattrs_written E _ _ (y_labels y) (y_labels y') ends (cd_catches c) (cd_catches c') HL R4 Tk HU _ _ HA).
  - destruct (wr_kattrs _ (cd_attrs c) 0 w2) as [[[bs x] w3]| |]; cbn [bind] in *; auto.
    assert (len (cd_attrs c') = len (cd_attrs c)) as -> by (unfold len; rewrite (F2_len _ _ _ HA); auto).
    assert (len (cd_catches c') = len (cd_catches c)) as -> by (unfold len; rewrite (F2_len _ _ _ R4); auto). exact H.
  - eapply Forall_impl; [|exact W6]. intros [x|x|x|x] Hx; cbn [attr_in]; auto; destruct Hx as [_ Hx]; (eapply Forall_impl; [|exact Hx]);
      intros a (Ha & _); cbn in Ha; destruct (ta_target a); cbn [target_in]; auto; destruct Ha as (i & Hi & _); cbn in Hi;
      destruct (existsb (catch_eqb c0) (cd_catches c)) eqn:Ex; [|discriminate| |discriminate]; apply existsb_exists in Ex as (z & Hz & He);
      apply catch_eqb_eq in He; subst; auto.
Qed.

(** What is read has no label twice and no two labels at the same place. *)
Lemma read_unique md p s l c s' rest : bytes l -> rd_code md p s l = Ok ((c, s'), rest) -> label_unique (cd_code c).
Proof.
  intros Hb H. destruct (C55_labels _ _ _ _ _ _ _ Hb H) as (body & hs & tl & ps & m & _ & M1 & M2 & _ & _ & L1 & L2 & L3 & _).
  split; [exact L1|]. intros l1 l2 n P1 P2.
  assert (HO : forall l, place l (cd_code c) = Some n -> exists o, In (o, l) m /\ nth_error (ps ++ [len body]) (Z.to_nat n) = Some o).
  { intros x Hx. assert (Hi : In x (map snd m)) by (apply L2; eapply place_in; eauto). apply in_map_iff in Hi as ([o y] & Hy & Hi). cbn in Hy. subst y.
    exists o. split; [auto|]. destruct (L3 _ _ Hi) as (k & K1 & K2). congruence. }
  destruct (HO _ P1) as (o1 & I1 & N1). destruct (HO _ P2) as (o2 & I2 & N2). assert (o1 = o2) by congruence. subst o2.
  clear - M1 I1 I2. induction m as [|[o l] m IH]; [contradiction|]. cbn in M1. inversion M1; subst.
  destruct I1 as [I1|I1], I2 as [I2|I2]; try congruence; auto; exfalso; apply H1; apply in_map_iff; [exists (o1, l2)|exists (o1, l1)]; cbn; split; auto; congruence.
Qed.
