(** Laying out code. *)
From Coq Require Import String Permutation Sorted.
From Verif Require Import Base BaseLemmas Wtf8Spec PrimModel PrimProofs TypeModel TypeSpec CpModel CpSpec CpProofs FileSpec SigModel SigSpec
  AnnModel AnnSpec AttrModel AttrSpec AttrProofs FrameModel FrameSpec FrameProofs InsnModel InsnSpec InsnProofs CodeModel CodeSpec.

(** * The buffers, from the bytes of the straight instructions *)
Definition jumpb (i : insn) : bool :=
  match i with IJump _ _ | IJsr _ | ITableSwitch _ _ _ | ILookupSwitch _ _ => true | _ => false end.
Definition is_label (l : Z) (i : insn) : bool := match i with ILabel l' => l' =? l | _ => false end.
Definition y_step (i : insn) (b : list Z) (y : yst) : yst :=
  match i with
  | ILookupSwitch _ _ | ITableSwitch _ _ _ | IJump _ _ | IJsr _ =>
      {| y_bufs := y_bufs y ++ [y_cur y]; y_cur := []; y_jumps := y_jumps y ++ [i]; y_labels := y_labels y |}
  | ILabel l =>
      {| y_bufs := y_bufs y; y_cur := y_cur y; y_jumps := y_jumps y;
         y_labels := assoc_set Z.eqb l (len (y_bufs y), len (y_cur y)) (y_labels y) |}
  | _ => {| y_bufs := y_bufs y; y_cur := y_cur y ++ b; y_jumps := y_jumps y; y_labels := y_labels y |}
  end.
Fixpoint y_steps (is : list insn) (bss : list (list Z)) (y : yst) : yst :=
  match is, bss with i :: is, b :: bss => y_steps is bss (y_step i b y) | _, _ => y end.
Definition shape (i : insn) (b : list Z) : Prop :=
  len b <= most_bytes i /\ (realb i = false -> b = []) /\ (jumpb i = true -> b = []).

Fixpoint parts (is : list insn) (bss : list (list Z)) : list Z * list insn * list (list Z) :=
  match is, bss with
  | i :: is, b :: bss =>
      let '(t, js, bs) := parts is bss in
      if jumpb i then ([], i :: js, t :: bs) else (b ++ t, js, bs)
  | _, _ => ([], [], [])
  end.
Fixpoint lab (l : Z) (is : list insn) (bss : list (list Z)) (bi bo : Z) : option (Z * Z) :=
  match is, bss with
  | i :: is, b :: bss =>
      if is_label l i then Some (bi, bo)
      else if jumpb i then lab l is bss (bi + 1) 0 else lab l is bss bi (bo + len b)
  | _, _ => None
  end.

Lemma y_steps_parts is : forall bss y, Forall2 shape is bss ->
  let '(t, js, bs) := parts is bss in
  y_jumps (y_steps is bss y) = y_jumps y ++ js /\
  y_bufs (y_steps is bss y) ++ [y_cur (y_steps is bss y)] = y_bufs y ++ (y_cur y ++ t) :: bs.
Proof.
  induction is as [|i is IH]; intros bss y H; inversion H as [|? b ? bss' [_ [Hr _]] Hs]; subst; cbn [parts y_steps].
  - rewrite !app_nil_r. auto.
  - specialize (IH bss' (y_step i b y) Hs). destruct (parts is bss') as [[t js] bs].
    destruct IH as [IH1 IH2]. rewrite IH1, IH2.
    destruct i; cbn [jumpb y_step y_jumps y_bufs y_cur] in *; rewrite <- ?app_assoc, ?app_nil_r; auto;
      rewrite ?Hr by reflexivity; auto.
Qed.
Lemma lab_none l is : forall bss bi bo, ~ In l (labels_in is) -> lab l is bss bi bo = None.
Proof.
  induction is as [|i is IH]; intros [|b bss] bi bo H; cbn [lab]; auto.
  assert (is_label l i = false) as ->.
  { destruct i; auto. cbn in *. destruct (Z.eqb_spec l0 l); auto. subst. tauto. }
  assert (~ In l (labels_in is)) by (intros G; apply H; cbn [labels_in flat_map]; apply in_or_app; auto).
  destruct (jumpb i); apply IH; auto.
Qed.
Lemma y_steps_labels is : forall bss y l, Forall2 shape is bss -> NoDup (labels_in is) ->
  assoc Z.eqb l (y_labels (y_steps is bss y)) =
  match lab l is bss (len (y_bufs y)) (len (y_cur y)) with Some x => Some x | None => assoc Z.eqb l (y_labels y) end.
Proof.
  induction is as [|i is IH]; intros bss y l H Hn; inversion H as [|? b ? bss' [_ [Hr _]] Hs]; subst; cbn [y_steps lab]; auto.
  assert (Hn' : NoDup (labels_in is)).
  { cbn [labels_in flat_map] in Hn. destruct i; cbn [app] in Hn; auto. inversion Hn; auto. }
  rewrite (IH bss' (y_step i b y) l Hs Hn').
  destruct i; cbn [is_label jumpb y_step y_labels y_bufs y_cur]; rewrite ?len_app, ?len_cons, ?len_nil; auto.
  destruct (Z.eqb_spec l0 l).
  - subst. cbn in Hn. inversion Hn; subst. rewrite lab_none by auto.
    apply assoc_set_same. apply Z.eqb_eq.
  - rewrite Hr by reflexivity. rewrite len_nil, Z.add_0_r.
    destruct (lab _ _ _ _ _); auto. apply assoc_set_other; [apply Z.eqb_eq|auto].
Qed.

(** * Positions, with [sz] the size of a jump *)
Section Layout.
Context (sz : Z -> insn -> Z).
Fixpoint rowsof (is : list insn) (bss : list (list Z)) (pos : Z) : list (Z * Z) :=
  match is, bss with
  | i :: is, b :: bss =>
      if jumpb i then (pos + sz pos i, sz pos i) :: rowsof is bss (pos + sz pos i)
      else rowsof is bss (pos + len b)
  | _, _ => []
  end.
Fixpoint endof (is : list insn) (bss : list (list Z)) (pos : Z) : Z :=
  match is, bss with
  | i :: is, b :: bss => endof is bss (pos + if jumpb i then sz pos i else len b)
  | _, _ => pos
  end.
Fixpoint posof (l : Z) (is : list insn) (bss : list (list Z)) (pos : Z) : option Z :=
  match is, bss with
  | i :: is, b :: bss =>
      if is_label l i then Some pos else posof l is bss (pos + if jumpb i then sz pos i else len b)
  | _, _ => None
  end.
(** [Q] of every jump *)
Fixpoint jumps_at (Q : Z -> insn -> Prop) (is : list insn) (bss : list (list Z)) (pos : Z) : Prop :=
  match is, bss with
  | i :: is, b :: bss =>
      (jumpb i = true -> Q pos i) /\ jumps_at Q is bss (pos + if jumpb i then sz pos i else len b)
  | _, _ => True
  end.

Lemma start_ok l is : forall bss bi bo s0 b o, Forall2 shape is bss -> 0 <= bi -> 0 <= bo ->
  lab l is bss bi bo = Some (b, o) ->
  exists p, posof l is bss (s0 + bo) = Some p /\ bi <= b /\ 0 <= o /\
    if b =? bi then p = s0 + o
    else exists x, nth_error (map fst (rowsof is bss (s0 + bo))) (Z.to_nat (b - bi - 1)) = Some x /\ p = x + o.
Proof.
  induction is as [|i is IH]; intros bss bi bo s0 b o H Hbi Hbo HL; inversion H as [|? b1 ? bss' [_ [Hr Hj]] Hs]; subst; cbn [lab posof rowsof] in *;
    [discriminate|].
  destruct (is_label l i) eqn:El.
  - injection HL as <- <-. exists (s0 + bi * 0 + bo). rewrite Z.eqb_refl. split; [f_equal; lia|]. lia.
  - destruct (jumpb i) eqn:Ej.
    + destruct (IH bss' (bi + 1) 0 (s0 + bo + sz (s0 + bo) i) b o Hs ltac:(lia) ltac:(lia) HL) as (p & Hp & Hb & Ho & Hc).
      rewrite Z.add_0_r in Hp. exists p. split; [auto|]. split; [lia|]. split; [auto|].
      assert (b =? bi = false) as -> by lia. cbn [map fst].
      destruct (Z.eqb_spec b (bi + 1)).
      * exists (s0 + bo + sz (s0 + bo) i). replace (b - bi - 1) with 0 by lia. cbn. auto.
      * destruct Hc as (x & Hx & ->). exists x. replace (Z.to_nat (b - bi - 1)) with (S (Z.to_nat (b - (bi + 1) - 1))) by lia.
        cbn [nth_error]. rewrite Z.add_0_r in Hx. auto.
    + pose proof (len_nonneg b1).
      destruct (IH bss' bi (bo + len b1) s0 b o Hs Hbi ltac:(lia) HL) as (p & Hp & Hb & Ho & Hc).
      rewrite <- Z.add_assoc. exists p. auto.
Qed.
Lemma lab_posof l is : forall bss bi bo pos p, length is = length bss -> posof l is bss pos = Some p ->
  exists x, lab l is bss bi bo = Some x.
Proof.
  induction is as [|i is IH]; intros [|b bss] bi bo pos p HL H; cbn [posof lab] in *; try discriminate.
  destruct (is_label l i); [eauto|]. destruct (jumpb i); eapply IH; try eassumption; cbn in HL; congruence.
Qed.
Lemma posof_in l is : forall bss pos, length is = length bss -> In l (labels_in is) -> exists p, posof l is bss pos = Some p.
Proof.
  induction is as [|i is IH]; intros [|b bss] pos HL H; cbn [posof labels_in flat_map] in *; try (destruct H; fail); try discriminate.
  destruct (is_label l i) eqn:E; [eauto|]. apply IH; [cbn in HL; congruence|].
  apply in_app_or in H as [H|H]; auto. destruct i; cbn in H; try tauto. destruct H as [->|[]]. cbn in E. rewrite Z.eqb_refl in E. discriminate.
Qed.
Lemma in_posof l is : forall bss pos p, posof l is bss pos = Some p -> In l (labels_in is).
Proof.
  induction is as [|i is IH]; intros [|b bss] pos p H; cbn [posof labels_in flat_map] in *; try discriminate.
  apply in_or_app. destruct (is_label l i) eqn:E; [left|right; eapply IH; eauto].
  destruct i; try discriminate. cbn in *. left. lia.
Qed.
(** beginning of the buffer + offset in it *)
Lemma starts l is bss b o : Forall2 shape is bss -> lab l is bss 0 0 = Some (b, o) ->
  exists x p, buf_start (map fst (rowsof is bss 0)) b = Ok x /\ posof l is bss 0 = Some p /\ p = x + o /\ 0 <= o.
Proof.
  intros Hs HL. destruct (start_ok l is bss 0 0 0 b o Hs ltac:(lia) ltac:(lia) HL) as (p & Hp & Hb & Ho & Hc).
  unfold buf_start. destruct (Z.eqb_spec b 0).
  - exists 0, p. auto.
  - destruct Hc as (x & Hx & ->). exists x, (x + o). unfold index. rewrite Z.add_0_l, Z.sub_0_r in Hx. rewrite Hx. auto.
Qed.

Section Assemble.
Context (md : mode) (labels : list (Z * (Z * Z))) (hints ends : list Z).
Lemma actual_ok is : forall bss c last, Forall2 shape is bss ->
  jumps_at (fun p j => jump_size labels hints p j = Ok (sz p j)) is bss (last + len c) ->
  let '(t, js, bs) := parts is bss in
  exists e, actual labels hints js ((c ++ t) :: bs) last = Ok (rowsof is bss (last + len c), e) /\
    e + len (List.last ((c ++ t) :: bs) []) = endof is bss (last + len c).
Proof.
  induction is as [|i is IH]; intros bss c last H HQ; inversion H as [|? b ? bss' [_ [Hr Hj]] Hs]; subst; cbn [parts rowsof endof jumps_at] in *.
  - exists last. rewrite app_nil_r. cbn. auto.
  - destruct HQ as [HQ HQ']. destruct (jumpb i) eqn:Ej.
    + specialize (IH bss' [] (last + len c + sz (last + len c) i) Hs). rewrite len_nil, Z.add_0_r in IH. specialize (IH HQ').
      destruct (parts is bss') as [[t js] bs]. destruct IH as (e & He & Hend). cbn [actual]. rewrite app_nil_r.
      rewrite HQ by auto. cbn [bind]. rewrite app_nil_l in He. rewrite He. cbn [bind]. exists e. split; auto.
    + specialize (IH bss' (c ++ b) last Hs). rewrite len_app, Z.add_assoc in IH. specialize (IH HQ').
      destruct (parts is bss') as [[t js] bs]. rewrite <- app_assoc in IH. exact IH.
Qed.
Definition emits (p : Z) (j : insn) (x : list Z) : Prop :=
  emit_jump md labels ends (p + sz p j) (sz p j) j = Ok x /\ len x = sz p j.
Fixpoint filled (is : list insn) (bss xss : list (list Z)) (pos : Z) : Prop :=
  match is, bss, xss with
  | i :: is, b :: bss, x :: xss =>
      (if jumpb i then emits pos i x else x = b) /\ filled is bss xss (pos + len x)
  | [], [], [] => True
  | _, _, _ => False
  end.
Lemma emit_jumps_ok is : forall bss pos, Forall2 shape is bss ->
  jumps_at (fun p j => exists x, emits p j x) is bss pos ->
  let '(t, js, bs) := parts is bss in
  exists r xss, emit_jumps md labels ends js (rowsof is bss pos) bs = Ok r /\ t ++ r = concat xss /\
    filled is bss xss pos /\ pos + len (concat xss) = endof is bss pos.
Proof.
  induction is as [|i is IH]; intros bss pos H HQ; inversion H as [|? b ? bss' [_ [Hr Hj]] Hs]; subst; cbn [parts rowsof endof jumps_at] in *.
  - exists [], []. cbn. repeat split; auto. lia.
  - destruct HQ as [HQ HQ']. specialize (IH bss' _ Hs HQ'). destruct (parts is bss') as [[t js] bs].
    destruct IH as (r & xss & Hr' & Hc & Hf & He). destruct (jumpb i) eqn:Ej.
    + destruct (HQ eq_refl) as (x & Hx & Hlx). cbn [emit_jumps]. rewrite Hx. cbn [bind]. rewrite Hr'. cbn [bind].
      exists (x ++ t ++ r), (x :: xss). cbn [concat filled]. rewrite Ej, Hc, Hlx, app_nil_l. repeat split; auto.
      rewrite len_app, Hlx. lia.
    + exists r, (b :: xss). cbn [concat filled]. rewrite Ej, <- app_assoc, Hc. repeat split; auto. rewrite len_app. lia.
Qed.
End Assemble.
End Layout.

Lemma index_hints_ok is : forall bss c last, Forall2 shape is bss ->
  let '(t, js, bs) := parts is bss in
  index_hints js ((c ++ t) :: bs) last = map fst (rowsof (fun _ => max_size) is bss (last + len c)).
Proof.
  induction is as [|i is IH]; intros bss c last H; inversion H as [|? b ? bss' [_ [Hr Hj]] Hs]; subst; cbn [parts rowsof] in *; auto.
  destruct (jumpb i) eqn:Ej.
  - specialize (IH bss' [] (last + len c + max_size i) Hs). rewrite len_nil, Z.add_0_r in IH.
    destruct (parts is bss') as [[t js] bs]. cbn [index_hints map fst]. rewrite app_nil_r, <- IH, app_nil_l.
    replace (last + (max_size i + len c)) with (last + len c + max_size i) by lia. reflexivity.
  - specialize (IH bss' (c ++ b) last Hs). rewrite len_app, Z.add_assoc in IH.
    destruct (parts is bss') as [[t js] bs]. rewrite <- app_assoc in IH. exact IH.
Qed.

(** [assemble] works if the sizes declared are those of what is emitted. *)
Definition hints_of (is : list insn) (bss : list (list Z)) : list Z := map fst (rowsof (fun _ => max_size) is bss 0).
Definition ends_of (sz : Z -> insn -> Z) (is : list insn) (bss : list (list Z)) : list Z := map fst (rowsof sz is bss 0).
Lemma assemble_ok md sz is bss : Forall2 shape is bss ->
  let y := y_steps is bss y_new in
  jumps_at sz (fun p j => jump_size (y_labels y) (hints_of is bss) p j = Ok (sz p j)) is bss 0 ->
  jumps_at sz (fun p j => exists x, emits sz md (y_labels y) (ends_of sz is bss) p j x) is bss 0 ->
  exists xss, assemble md y = Ok (len (concat xss), ends_of sz is bss, concat xss) /\
    filled sz md (y_labels y) (ends_of sz is bss) is bss xss 0.
Proof.
  intros Hs y H1 H2. pose proof (y_steps_parts is bss y_new Hs) as HP.
  pose proof (index_hints_ok is bss [] 0 Hs) as HI.
  pose proof (actual_ok sz (y_labels y) (hints_of is bss) is bss [] 0 Hs) as HA. change (0 + len (@nil Z)) with 0 in HI, HA. specialize (HA H1).
  pose proof (emit_jumps_ok sz md (y_labels y) (ends_of sz is bss) is bss 0 Hs H2) as HE.
  destruct (parts is bss) as [[t js] bs]. cbn [y_jumps y_bufs y_cur y_new app] in HP. destruct HP as [HP1 HP2].
  fold y in HP1, HP2. destruct HA as (e & HA & Hend). destruct HE as (r & xss & HE & Hc & Hf & He).
  rewrite app_nil_l in *. unfold assemble. rewrite HP1, HP2, HI. fold (hints_of is bss). rewrite HA. cbn [bind].
  fold (ends_of sz is bss). rewrite HE. cbn [bind]. exists xss. rewrite Hc. split; auto.
  assert (List.last (t :: bs) [] = y_cur y) as HL by (rewrite <- HP2, last_last; auto).
  rewrite HL in Hend. do 3 f_equal. lia.
Qed.

(** * Positions *)
Lemma endof_app sz a : forall ba c bc pos, length a = length ba ->
  endof sz (a ++ c) (ba ++ bc) pos = endof sz c bc (endof sz a ba pos).
Proof.
  induction a as [|i a IH]; intros [|b ba] c bc pos H; try discriminate; cbn [app endof]; auto.
Qed.
Lemma posof_split sz l a : forall ba c bc pos, length a = length ba -> ~ In l (labels_in a) ->
  posof sz l (a ++ c) (ba ++ bc) pos = posof sz l c bc (endof sz a ba pos).
Proof.
  induction a as [|i a IH]; intros [|b ba] c bc pos H Hn; try discriminate; cbn [app endof posof]; auto.
  assert (is_label l i = false) as ->.
  { destruct i; auto. cbn in *. destruct (Z.eqb_spec l0 l); auto. subst. tauto. }
  apply IH; [cbn in H; congruence|]. intros G. apply Hn. cbn [labels_in flat_map]. apply in_or_app. auto.
Qed.
Lemma jumps_at_intro sz (Q : Z -> insn -> Prop) is : forall bss pos, length is = length bss ->
  (forall a j b ba bj bb, is = a ++ j :: b -> bss = ba ++ bj :: bb -> length a = length ba -> jumpb j = true ->
     Q (endof sz a ba pos) j) -> jumps_at sz Q is bss pos.
Proof.
  induction is as [|i is IH]; intros [|b bss] pos HL H; cbn [jumps_at]; auto. split.
  - intros Hj. apply (H [] i is [] b bss); auto.
  - apply IH; [cbn in HL; congruence|]. intros a j b' ba bj bb -> -> Hl Hj.
    apply (H (i :: a) j b' (b :: ba) bj bb); cbn; congruence.
Qed.
Section Bounds.
Context (sz : Z -> insn -> Z).
Hypothesis sz_bound : forall p j, jumpb j = true -> 0 <= sz p j <= most_bytes j.
Lemma room_nonneg is : 0 <= room is.
Proof.
  induction is as [|i is IH]; cbn [room]; [lia|]. enough (0 <= most_bytes i) by lia.
  destruct i; cbn; try lia; try (pose proof (len_nonneg ls); lia); try (pose proof (len_nonneg t); lia). destruct c; lia.
Qed.
Lemma endof_bound is : forall bss pos, Forall2 shape is bss -> pos <= endof sz is bss pos <= pos + room is.
Proof.
  induction is as [|i is IH]; intros bss pos H; inversion H as [|? b ? bss' [Hm [Hr Hj]] Hs]; subst; cbn [endof room]; [lia|].
  destruct (jumpb i) eqn:E.
  - specialize (IH bss' (pos + sz pos i) Hs). pose proof (sz_bound pos i E). lia.
  - specialize (IH bss' (pos + len b) Hs). pose proof (len_nonneg b). lia.
Qed.
Lemma posof_bound l is : forall bss pos p, Forall2 shape is bss -> posof sz l is bss pos = Some p -> pos <= p <= pos + room is.
Proof.
  induction is as [|i is IH]; intros bss pos p H HP; inversion H as [|? b ? bss' [Hm [Hr Hj]] Hs]; subst; cbn [posof room] in *; [discriminate|].
  pose proof (room_nonneg is). pose proof (len_nonneg b). destruct (is_label l i).
  - injection HP as <-. destruct (jumpb i) eqn:E; [pose proof (sz_bound pos i E)|]; lia.
  - apply IH in HP; auto. destruct (jumpb i) eqn:E; [pose proof (sz_bound pos i E)|]; lia.
Qed.
Lemma rowsof_ge is : forall bss pos, Forall2 shape is bss -> Forall (fun r => pos <= fst r) (rowsof sz is bss pos).
Proof.
  induction is as [|i is IH]; intros bss pos H; inversion H as [|? b ? bss' [Hm [Hr Hj]] Hs]; subst; cbn [rowsof]; auto.
  pose proof (len_nonneg b). destruct (jumpb i) eqn:E.
  - pose proof (sz_bound pos i E). constructor; [cbn; lia|]. eapply Forall_impl; [|apply (IH bss'); auto]. cbn. lia.
  - eapply Forall_impl; [|apply (IH bss'); auto]. cbn. lia.
Qed.
Lemma buf_start_nonneg is bss b x : Forall2 shape is bss -> buf_start (ends_of sz is bss) b = Ok x -> 0 <= x.
Proof.
  intros Hs. unfold buf_start, index. destruct (b =? 0); [intros [= <-]; lia|].
  destruct (nth_error _ _) eqn:E; [|discriminate]. intros [= <-]. apply nth_error_In in E. unfold ends_of in E.
  apply in_map_iff in E as (r & <- & Hr). pose proof (rowsof_ge is bss 0 Hs) as H. rewrite Forall_forall in H. auto.
Qed.

Context (md : mode) (is : list insn) (bss : list (list Z)).
Hypothesis Hs : Forall2 shape is bss.
Hypothesis Hn : NoDup (labels_in is).
Let labels := y_labels (y_steps is bss y_new).
Lemma labels_lab l : assoc Z.eqb l labels = lab l is bss 0 0.
Proof. unfold labels. rewrite y_steps_labels by auto. cbn. destruct (lab _ _ _ _ _); auto. Qed.
Lemma label_entry l p : posof sz l is bss 0 = Some p -> exists b o x, assoc Z.eqb l labels = Some (b, o) /\
  buf_start (ends_of sz is bss) b = Ok x /\ p = x + o /\ 0 <= o /\ 0 <= x.
Proof.
  intros Hp. destruct (lab_posof sz l is bss 0 0 0 p (Forall2_len _ _ _ Hs) Hp) as ([b o] & HL).
  destruct (starts sz l is bss b o Hs HL) as (x & p' & H1 & H2 & H3 & H4).
  exists b, o, x. rewrite labels_lab. repeat split; auto; try congruence. eapply buf_start_nonneg; eauto.
Qed.
Lemma resolve_ok pos n l p : posof sz l is bss 0 = Some p -> p < 2147483648 -> 0 <= pos -> 0 <= n -> pos + n < 2147483648 ->
  resolve md labels (ends_of sz is bss) (pos + n) n l = Ok (p - pos).
Proof.
  intros Hp H1 H2 H3 H4. destruct (label_entry l p Hp) as (b & o & x & HA & HB & -> & Ho & Hx).
  unfold resolve, find_label. rewrite HA. cbn [bind]. rewrite HB. cbn [bind]. unfold wrap_u.
  change (2 ^ 32) with 4294967296. rewrite !(Z.mod_small _ 4294967296) by lia. unfold chk_u.
  change (2 ^ 32) with 4294967296. assert ((0 <=? x + o) && (x + o <? 4294967296) = true) as -> by lia. cbn [bind].
  assert (Hw : forall z, -2147483648 <= z < 2147483648 -> wrap_s 32 z = z).
  { intros z Hz. unfold wrap_s. change (2 ^ (32 - 1)) with 2147483648. change (2 ^ 32) with 4294967296. rewrite Z.mod_small by lia. lia. }
  rewrite !Hw; try lia; rewrite ?Hw; try lia. rewrite chk_s_ok; [f_equal; lia|].
  change (2 ^ (32 - 1)) with 2147483648. lia.
Qed.
Lemma label16_ok l p : posof sz l is bss 0 = Some p -> p < 65536 ->
  label16 md labels (ends_of sz is bss) l = Ok p.
Proof.
  intros Hp H1. destruct (label_entry l p Hp) as (b & o & x & HA & HB & -> & Ho & Hx).
  unfold label16. rewrite HA, HB. cbn [bind]. unfold wrap_u, chk_u. change (2 ^ 16) with 65536.
  rewrite !Z.mod_small by lia. assert ((0 <=? x + o) && (x + o <? 65536) = true) as -> by lia. reflexivity.
Qed.
End Bounds.

(** * Jumps *)
Lemma insert_key_perm e t : Permutation (e :: t) (insert_key e t).
Proof.
  induction t as [|x t IH]; cbn [insert_key]; auto. destruct (fst e <=? fst x); auto.
  eapply perm_trans; [apply perm_swap|]. constructor. auto.
Qed.
Lemma sort_keys_perm t : Permutation t (sort_keys t).
Proof.
  induction t as [|e t IH]; cbn [sort_keys]; auto. eapply perm_trans; [|apply insert_key_perm]. constructor. auto.
Qed.
Lemma insert_key_sorted e t : StronglySorted Z.lt (map fst t) -> ~ In (fst e) (map fst t) ->
  StronglySorted Z.lt (map fst (insert_key e t)).
Proof.
  induction t as [|x t IH]; cbn [insert_key map]; intros H Hi.
  - repeat constructor.
  - inversion H as [|? ? Hss Hf]; subst. destruct (Z.leb_spec (fst e) (fst x)); cbn [map].
    + constructor; auto. constructor; [cbn in Hi; lia|]. eapply Forall_impl; [|exact Hf]. cbn in *. lia.
    + constructor; [apply IH; auto; cbn in Hi; tauto|].
      rewrite Forall_forall in *. intros k Hk. apply in_map_iff in Hk as (y & <- & Hy).
      apply (Permutation_in _ (Permutation_sym (insert_key_perm e t))) in Hy as [<-|Hy]; [lia|].
      apply Hf. apply in_map. auto.
Qed.
Lemma sort_keys_sorted t : NoDup (map fst t) -> StronglySorted Z.lt (map fst (sort_keys t)).
Proof.
  induction t as [|e t IH]; cbn [sort_keys map]; intros H; [constructor|]. inversion H; subst.
  apply insert_key_sorted; auto. intros Hi. apply H2.
  apply (Permutation_in _ (Permutation_map fst (Permutation_sym (sort_keys_perm t)))). auto.
Qed.
Lemma padding_ok i : 0 <= padding i <= 3 /\ (i + padding i) mod 4 = 0.
Proof.
  unfold padding. pose proof (Z.mod_pos_bound i 4). destruct (Z.eqb_spec (i mod 4) 0).
  - rewrite Z.add_0_r. lia.
  - split; [lia|]. pose proof (Z.div_mod i 4 ltac:(lia)) as D. rewrite D at 1.
    replace (4 * (i / 4) + i mod 4 + (4 - i mod 4)) with ((i / 4 + 1) * 4) by lia. apply Z.mod_mul. lia.
Qed.
Lemma len_repeat {A} (x : A) n : 0 <= n -> len (repeat x (Z.to_nat n)) = n.
Proof. intros H. unfold len. rewrite repeat_length. lia. Qed.
Lemma mapM_ok {A B} (f : A -> res B) (R : A -> B -> Prop) l : (forall a, In a l -> exists b, f a = Ok b /\ R a b) ->
  exists bs, mapM f l = Ok bs /\ Forall2 R l bs.
Proof.
  induction l as [|a l IH]; intros H; cbn [mapM].
  - exists []. auto.
  - destruct (H a) as (b & -> & Hb); [left; auto|]. cbn [bind]. destruct IH as (bs & -> & HB); [intros; apply H; right; auto|].
    exists (b :: bs). cbn. auto.
Qed.
Lemma mapM_inv {A B} (f : A -> res B) (R : A -> B -> Prop) l : forall bs, (forall a b, In a l -> f a = Ok b -> R a b) ->
  mapM f l = Ok bs -> Forall2 R l bs.
Proof.
  induction l as [|a l IH]; intros bs H HM; cbn [mapM] in HM.
  - injection HM as <-. constructor.
  - inv_bind HM. inv_bind HM. injection HM as <-. constructor; [apply H; [left|]; auto|]. apply IH; auto. intros; apply H; [right|]; auto.
Qed.
Lemma some_inj {A} (a b : A) : Some a = Some b -> a = b.
Proof. congruence. Qed.
Lemma ok_inj {A} (a b : A) : Ok a = Ok b -> a = b.
Proof. congruence. Qed.
Lemma jcond_op_num c : jcond_op c = jcond_num c.
Proof. destruct c; reflexivity. Qed.
Lemma len_concat_u4 {A} (R : A -> list Z -> Prop) n l bss : (forall a b, R a b -> len b = n) -> Forall2 R l bss ->
  len (concat bss) = n * len l.
Proof.
  intros H. induction 1 as [|a b l bss HR _ IH]; cbn [concat]; [unfold len; cbn; lia|].
  rewrite len_app, len_cons, (H a b HR), IH. lia.
Qed.

Section Jumps.
Context (md : mode) (sz : Z -> insn -> Z) (is : list insn) (bss : list (list Z)).
Hypothesis sz_bound : forall p j, jumpb j = true -> 0 <= sz p j <= most_bytes j.
Hypothesis Hs : Forall2 shape is bss.
Hypothesis Hn : NoDup (labels_in is).
Notation labels := (y_labels (y_steps is bss y_new)).
Notation ends := (ends_of sz is bss).
(** the targets are at [P], less than 2 GiB from the beginning *)
Context (P : Z -> Z) (pos : Z) (j : insn).
Hypothesis Hpos : 0 <= pos.
Hypothesis Hend : pos + sz pos j < 2147483648.
Hypothesis Hj : jumpb j = true.
Hypothesis Ht : forall l, In l (targets j) -> posof sz l is bss 0 = Some (P l) /\ 0 <= P l < 2147483648.
Hypothesis Hw : wf_switch j.
Lemma target_ok l : In l (targets j) -> resolve md labels ends (pos + sz pos j) (sz pos j) l = Ok (P l - pos).
Proof.
  intros Hl. destruct (Ht l Hl) as [Hp Hr]. apply resolve_ok; auto; try lia. apply sz_bound; auto.
Qed.
(** what is emitted *)
Definition switch_size (n : Z) : Z := 1 + (padding (pos + 1) + n).
Lemma emits_switch : ~ short j ->
  sz pos j = switch_size (match j with ILookupSwitch _ t => 8 + len t * 8 | ITableSwitch _ _ ls => 12 + len ls * 4 | _ => 0 end) ->
  exists x, emits sz md labels ends pos j x.
Proof.
  intros Hsh Hsz. destruct (padding_ok (pos + 1)) as [Hp _]. unfold emits. set (n := sz pos j) in *.
  assert (Ht' : forall l, In l (targets j) -> resolve md labels ends (pos + n) n l = Ok (P l - pos)) by apply target_ok.
  clearbody n.
  destruct j as [ | | | | | | | | | | |c l| | | | | | | | | | | | | | | | | | | | | |l| | | | |d low ls|d t| ]; try discriminate; cbn [short] in Hsh; try tauto; cbn [targets wf_switch emit_jump] in *.
  - rewrite Ht' by (cbn; auto). cbn [bind].
    assert (Hls : 0 <= len ls < 2 ^ 63).
    { split; [apply len_nonneg|]. change (2 ^ 63) with 9223372036854775808. unfold switch_size in Hsz. lia. }
    unfold chk_u. change (2 ^ 64) with 18446744073709551616. change (2 ^ 63) with 9223372036854775808 in Hls.
    assert ((0 <=? len ls - 1) && (len ls - 1 <? 18446744073709551616) = true) as -> by lia. cbn [bind].
    assert (wrap_s 32 (len ls - 1) = len ls - 1) as ->.
    { unfold wrap_s. change (2 ^ (32 - 1)) with 2147483648. change (2 ^ 32) with 4294967296. unfold switch_size in Hsz.
      rewrite Z.mod_small by lia. lia. }
    rewrite chk_s_ok by (change (2 ^ (32 - 1)) with 2147483648; lia). cbn [bind].
    destruct (mapM_ok (fun l => o <- resolve md labels ends (pos + n) n l;; Ok (be 4 o)) (fun l b => len b = 4) ls) as (bs & -> & HB).
    { intros l Hl. rewrite Ht' by (right; auto). eexists. split; [reflexivity|]. rewrite !be_len. reflexivity. }
    cbn [bind]. eexists. split; [reflexivity|].
    rewrite !len_app, len_repeat, (len_concat_u4 _ 4 _ _ (fun a b H => H) HB) by (replace (pos + n - n + 1) with (pos + 1) by lia; lia).
    replace (pos + n - n + 1) with (pos + 1) by lia. rewrite !be_len. unfold switch_size in Hsz. lia.
  - rewrite Ht' by (cbn; auto). cbn [bind].
    destruct (mapM_ok (fun e : Z * Z => o <- resolve md labels ends (pos + n) n (snd e);; Ok (be 4 (fst e) ++ be 4 o)) (fun l b => len b = 8) (sort_keys t)) as (bs & -> & HB).
    { intros e He. rewrite Ht'.
      - eexists. split; [reflexivity|]. rewrite len_app. rewrite !be_len. reflexivity.
      - right. apply in_map. apply (Permutation_in _ (Permutation_sym (sort_keys_perm t))). auto. }
    cbn [bind]. eexists. split; [reflexivity|].
    assert (len (sort_keys t) = len t) as Hlt by (unfold len; rewrite (Permutation_length (sort_keys_perm t)); auto).
    rewrite !len_app, len_repeat, (len_concat_u4 _ 8 _ _ (fun a b H => H) HB), Hlt by (replace (pos + n - n + 1) with (pos + 1) by lia; lia).
    replace (pos + n - n + 1) with (pos + 1) by lia. rewrite !be_len. unfold switch_size in Hsz. lia.
Qed.
Lemma emits_short l : short j -> targets j = [l] -> sz pos j = 3 -> -32768 <= P l - pos <= 32767 ->
  exists x, emits sz md labels ends pos j x.
Proof.
  intros Hsh Hl Hsz Hr. unfold emits. set (n := sz pos j) in *.
  assert (Ht' : resolve md labels ends (pos + n) n l = Ok (P l - pos)) by (apply target_ok; rewrite Hl; cbn; auto).
  clearbody n.
  assert (Hf : fits_i16 (P l - pos) = true) by (unfold fits_i16; lia).
  destruct j as [ | | | | | | | | | | |c l0| | | | | | | | | | | | | | | | | | | | | |l0| | | | |d low ls|d t| ]; try contradiction; cbn [targets] in Hl; injection Hl as ->;
    [destruct c|]; cbn [emit_jump]; rewrite Ht'; cbn [bind]; rewrite Hf; (eexists; split; [reflexivity|]);
    rewrite len_app; rewrite !be_len; lia.
Qed.
Lemma emits_wide l : match j with IJsr _ | IJump JcAlways _ => True | _ => False end -> targets j = [l] -> sz pos j = 5 ->
  ~ (-32768 <= P l - pos <= 32767) ->
  exists x, emits sz md labels ends pos j x.
Proof.
  intros Hsh Hl Hsz Hr. unfold emits. set (n := sz pos j) in *.
  assert (Ht' : resolve md labels ends (pos + n) n l = Ok (P l - pos)) by (apply target_ok; rewrite Hl; cbn; auto).
  clearbody n.
  assert (Hf : fits_i16 (P l - pos) = false) by (unfold fits_i16; lia).
  destruct j as [ | | | | | | | | | | |c l0| | | | | | | | | | | | | | | | | | | | | |l0| | | | |d low ls|d t| ]; try contradiction; cbn [targets] in Hl; injection Hl as ->;
    [destruct c; try contradiction|]; cbn [emit_jump]; rewrite Ht'; cbn [bind]; rewrite Hf; (eexists; split; [reflexivity|]);
    rewrite len_app; rewrite !be_len; lia.
Qed.

(** ... and its meaning *)
Lemma emits_enc x W : (forall l, In l (targets j) -> W_label W l = Some (P l)) -> emits sz md labels ends pos j x -> enc pos W j x.
Proof.
  intros HW [He Hl]. destruct (padding_ok (pos + 1)) as [Hp Hp4]. pose proof (sz_bound pos j Hj) as Hb. set (n := sz pos j) in *.
  assert (Ht' : forall l, In l (targets j) -> resolve md labels ends (pos + n) n l = Ok (P l - pos)) by apply target_ok.
  assert (Hrel : forall l, In l (targets j) -> rel W pos l (P l - pos)).
  { intros l Hi. exists (P l). split; auto. split; [|auto]. destruct (Ht l Hi). lia. }
  assert (Hoff : forall l, In l (targets j) -> -2147483648 <= P l - pos < 2147483648).
  { intros l Hi. destruct (Ht l Hi). lia. }
  clearbody n.
  assert (Hjmp : forall op w l, targets j = [l] -> 0 <= op < 256 ->
    (x = (if fits_i16 (P l - pos) then be 1 op ++ be 2 (P l - pos) else be 1 w ++ be 4 (P l - pos))) -> 0 <= w < 256 ->
    enc_jump W pos op (Some w) l x).
  { intros op w l Htl Ho -> Hw'. exists (P l - pos). split; [apply Hrel; rewrite Htl; cbn; auto|].
    unfold fits_i16. destruct ((-32768 <=? P l - pos) && (P l - pos <=? 32767)) eqn:Ef; [left|right].
    - split; [lia|]. rewrite be1_small, be2_u2 by lia. reflexivity.
    - split; [apply Hoff; rewrite Htl; cbn; auto|]. exists w. rewrite be1_small, be4_u4 by lia. auto. }
  destruct j as [ | | | | | | | | | | |c l| | | | | | | | | | | | | | | | | | | | | |l| | | | |d low ls|d t| ]; try discriminate; cbn [targets wf_switch emit_jump enc most_bytes] in *.
  - rewrite Ht' in He by (cbn; auto). cbn [bind] in He.
    assert (c = JcAlways \/ x = be 1 (jcond_op c) ++ be 2 (P l - pos) /\ fits_i16 (P l - pos) = true) as [->|[-> Hf]].
    { destruct c; auto; right; (destruct (fits_i16 (P l - pos)); [split; [congruence|auto]|]); cbn [jcond_neg] in He;
      apply (f_equal (fun r => match r with Ok y => len y | _ => 0 end)) in He; cbv beta iota in He; rewrite !len_app, !be_len in He; lia. }
    + apply Hjmp; [reflexivity|cbn; lia|exact (ok_inj _ _ (eq_sym He))|lia].
    + exists (P l - pos). split; [apply Hrel; cbn; auto|]. left. unfold fits_i16 in Hf. split; [lia|].
      rewrite jcond_op_num, be1_small, be2_u2 by (destruct c; cbn; lia). reflexivity.
  - rewrite Ht' in He by (cbn; auto). cbn [bind] in He. apply Hjmp; [reflexivity|lia|exact (ok_inj _ _ (eq_sym He))|lia].
  - rewrite Ht' in He by (cbn; auto). cbn [bind] in He. inv_bind He. inv_bind He. inv_bind He. apply ok_inj in He; subst x.
    apply (mapM_inv _ (enc_off4 W pos)) in E1.
    2: { intros l b Hi. rewrite Ht' by (right; auto). cbn [bind]. intros Hok; apply ok_inj in Hok; subst b. exists (P l - pos). rewrite be4_u4. repeat split; auto; try (apply Hoff; right; auto).
         apply Hrel; right; auto. }
    assert (Hlb : len ls < 2147483648).
    { rewrite !len_app, !be_len, (len_concat_u4 (enc_off4 W pos) 4 ls v1) in Hl; auto.
      - match type of Hl with context [len (repeat ?a ?b)] => pose proof (len_nonneg (repeat a b)) end. lia.
      - intros l b (o & _ & _ & ->). reflexivity. }
    unfold chk_u in E. change (2 ^ 64) with 18446744073709551616 in E.
    assert ((0 <=? len ls - 1) && (len ls - 1 <? 18446744073709551616) = true) as Hc by lia. rewrite Hc in E. injection E as <-.
    assert (wrap_s 32 (len ls - 1) = len ls - 1) as Hws.
    { unfold wrap_s. change (2 ^ (32 - 1)) with 2147483648. change (2 ^ 32) with 4294967296.
      rewrite Z.mod_small by lia. lia. }
    rewrite Hws, chk_s_ok in E0 by (change (2 ^ (32 - 1)) with 2147483648; lia). injection E0 as <-.
    replace (pos + n - n + 1) with (pos + 1) by lia.
    exists (repeat 0 (Z.to_nat (padding (pos + 1)))), (u4 (P d - pos)), v1. rewrite !be4_u4, be1_small by (cbn; lia).
    rewrite len_repeat by lia.
    repeat match goal with |- _ /\ _ => split end; auto; try lia.
    + replace (low + (len ls - 1)) with (low + len ls - 1) by lia. reflexivity.
    + exists (P d - pos). split; [apply Hrel; cbn; auto|]. split; [apply Hoff; cbn; auto|auto].
  - rewrite Ht' in He by (cbn; auto). cbn [bind] in He. inv_bind He. apply ok_inj in He; subst x. destruct Hw as (Hnd & Hk & Hlt).
    apply (mapM_inv _ (fun e b => exists o, b = u4 (fst e) ++ o /\ -2147483648 <= fst e < 2147483648 /\ enc_off4 W pos (snd e) o)) in E.
    2: { intros e b Hi. assert (Hi' : In e t) by (apply (Permutation_in _ (Permutation_sym (sort_keys_perm t))); auto).
         assert (Hd : In (snd e) (d :: map snd t)) by (right; apply in_map; auto).
         rewrite Ht' by auto. cbn [bind]. intros Hok; apply ok_inj in Hok; subst b. exists (u4 (P (snd e) - pos)). rewrite !be4_u4. split; [auto|].
         split; [rewrite Forall_forall in Hk; specialize (Hk (fst e)); unfold i32 in Hk; specialize (Hk (in_map fst _ _ Hi')); lia|].
         exists (P (snd e) - pos). auto. }
    replace (pos + n - n + 1) with (pos + 1) by lia.
    exists (repeat 0 (Z.to_nat (padding (pos + 1)))), (u4 (P d - pos)), (sort_keys t), v. rewrite !be4_u4, be1_small by (cbn; lia).
    rewrite len_repeat by lia.
    repeat match goal with |- _ /\ _ => split end; auto; try lia.
    + apply sort_keys_perm.
    + apply sort_keys_sorted; auto.
    + exists (P d - pos). split; [apply Hrel; cbn; auto|]. split; [apply Hoff; cbn; auto|auto].
Qed.
End Jumps.

(** * The whole code *)
Lemma laid_mono (G G' : Z -> fmt insn) W is : (forall pos i b, G pos W i b -> G' pos W i b) ->
  forall pos ps bs, laid G W pos is ps bs -> laid G' W pos is ps bs.
Proof.
  intros H. induction is as [|i is IH]; cbn [laid]; auto. intros pos ps bs (Hl & b & rest & -> & HG & Hr). split; auto.
  exists b, rest. repeat split; auto. destruct (realb i); auto. destruct Hr as (ps' & -> & Hr). eauto.
Qed.
Lemma pad_mod pos : padding (pos + 1) = (- (pos + 1)) mod 4.
Proof.
  unfold padding. pose proof (Z.mod_pos_bound (pos + 1) 4 ltac:(lia)). destruct (Z.eqb_spec ((pos + 1) mod 4) 0).
  - rewrite Z_mod_zero_opp_full; auto.
  - rewrite Z_mod_nz_opp_full; auto.
Qed.
Section Whole.
Context (md : mode) (sz : Z -> insn -> Z) (is : list insn) (bss : list (list Z)).
Hypothesis sz_bound : forall p j, jumpb j = true -> 0 <= sz p j <= most_bytes j.
Hypothesis Hs : Forall2 shape is bss.
Hypothesis Hn : NoDup (labels_in is).
Notation labels := (y_labels (y_steps is bss y_new)).
Notation ends := (ends_of sz is bss).
Lemma emits_enc0 (P : Z -> Z) pos j x W : 0 <= pos -> pos + len x < 2147483648 -> jumpb j = true ->
  (forall l, In l (targets j) -> posof sz l is bss 0 = Some (P l) /\ 0 <= P l < 2147483648) -> wf_switch j ->
  (forall l, In l (targets j) -> W_label W l = Some (P l)) -> emits sz md labels ends pos j x -> enc0 pos W j x.
Proof.
  intros H1 H2 H3 H4 H5 H6 H7. pose proof H7 as [He Hl]. split.
  - eapply (emits_enc md sz is bss sz_bound Hs Hn P); eauto. lia.
  - destruct j; try discriminate; auto; cbn [emit_jump] in He; inv_bind He; inv_bind He; try (inv_bind He; inv_bind He);
      apply ok_inj in He; rewrite be1_small in He by (cbn; lia); replace (pos + sz pos _ - sz pos _ + 1) with (pos + 1) in He by lia;
      rewrite pad_mod in He; subst x; do 2 eexists; reflexivity.
Qed.
Context (P : Z -> Z) (W : world).
Hypothesis HP : forall l, In l (labels_in is) -> posof sz l is bss 0 = Some (P l) /\ 0 <= P l < 2147483648 /\ W_label W l = Some (P l).
Lemma filled_laid is2 : forall bss2 xss2 pos, filled sz md labels ends is2 bss2 xss2 pos -> 0 <= pos ->
  pos + len (concat xss2) < 2147483648 ->
  Forall (fun j => wf_switch j /\ incl (targets j) (labels_in is)) is2 ->
  Forall2 (fun i b => jumpb i = false -> forall pos, enc pos W i b) is2 bss2 ->
  (forall l p, posof sz l is2 bss2 pos = Some p -> W_label W l = Some p) -> NoDup (labels_in is2) ->
  exists ps, laid enc0 W pos is2 ps (concat xss2).
Proof.
  induction is2 as [|i is2 IH]; intros bss2 xss2 pos HF Hpos Hlen Hw He HL Hnd.
  - destruct bss2, xss2; try contradiction. exists []. cbn. auto.
  - destruct bss2 as [|b bss2], xss2 as [|x xss2]; try contradiction. cbn [filled concat] in *. destruct HF as [Hx HF].
    inversion Hw as [|? ? [Hsw Hin] Hw']; subst. inversion He as [|? ? ? ? Hb He']; subst. rewrite len_app in Hlen.
    pose proof (len_nonneg x). pose proof (len_nonneg (concat xss2)).
    assert (Hstep : (if jumpb i then sz pos i else len b) = len x).
    { destruct (jumpb i); [destruct Hx; auto|congruence]. }
    assert (Hnd' : NoDup (labels_in is2)).
    { cbn [labels_in flat_map] in Hnd. destruct i; cbn [app] in Hnd; auto. inversion Hnd; auto. }
    destruct (IH bss2 xss2 (pos + len x)) as (ps & Hps); auto; try lia.
    { intros l p Hp. apply HL. cbn [posof]. rewrite Hstep. destruct (is_label l i) eqn:E; auto.
      destruct i; try discriminate. cbn in E. assert (l0 = l) by lia. subst. exfalso.
      apply in_posof in Hp. cbn in Hnd. inversion Hnd; auto. }
    assert (HG : enc0 pos W i x).
    { destruct (jumpb i) eqn:Ej.
      - eapply (emits_enc0 P); eauto; try lia; intros l Hl; apply Hin in Hl; apply HP in Hl; tauto.
      - subst x. split; [auto|]. destruct i; auto; discriminate. }
    assert (HLb : match i with ILabel l => W_label W l = Some pos | _ => True end).
    { destruct i; auto. apply HL. cbn [posof is_label]. rewrite Z.eqb_refl. reflexivity. }
    destruct (realb i) eqn:Er.
    + exists (pos :: ps). cbn [laid]. split; auto. exists x, (concat xss2). rewrite Er. repeat split; try apply HG; auto. exists ps. auto.
    + exists ps. cbn [laid]. split; auto. exists x, (concat xss2). rewrite Er. repeat split; try apply HG; auto.
Qed.
End Whole.

(** * Code in the 16-bit range *)
Definition dsz (pos : Z) (j : insn) : Z :=
  match j with
  | ILookupSwitch _ t => 1 + (padding (pos + 1) + (8 + len t * 8))
  | ITableSwitch _ _ ls => 1 + (padding (pos + 1) + (12 + len ls * 4))
  | _ => 3
  end.
Lemma dsz_bound p j : jumpb j = true -> 0 <= dsz p j <= most_bytes j.
Proof.
  destruct (padding_ok (p + 1)) as [H _]. destruct j; try discriminate; intros _; cbn [dsz most_bytes];
    try (pose proof (len_nonneg ls)); try (pose proof (len_nonneg t)); try lia. destruct c; lia.
Qed.
Lemma max_bound p j : jumpb j = true -> 0 <= (fun _ : Z => max_size) p j <= most_bytes j.
Proof.
  destruct j; try discriminate; intros _; unfold max_size; cbn [most_bytes];
    try (pose proof (len_nonneg ls)); try (pose proof (len_nonneg t)); try lia. destruct c; lia.
Qed.
Lemma hint_ok is bss l p : Forall2 shape is bss -> NoDup (labels_in is) -> posof (fun _ => max_size) l is bss 0 = Some p ->
  hint_of (y_labels (y_steps is bss y_new)) (hints_of is bss) l = Ok p.
Proof.
  intros Hs Hn Hp. destruct (label_entry _ max_bound is bss Hs Hn l p Hp) as (b & o & x & HA & HB & -> & _).
  unfold hint_of, find_label. rewrite HA. cbn [bind]. unfold hints_of. fold (ends_of (fun _ => max_size) is bss). rewrite HB. reflexivity.
Qed.
Lemma app_split_labels a (l : Z) b : NoDup (labels_in (a ++ ILabel l :: b)) -> ~ In l (labels_in a).
Proof.
  unfold labels_in. rewrite flat_map_app. cbn [flat_map app]. intros H Hi.
  apply NoDup_remove_2 in H. apply H. apply in_or_app. auto.
Qed.
Lemma forall2_app_split {A B} (R : A -> B -> Prop) a b l : Forall2 R (a ++ b) l ->
  exists x y, l = x ++ y /\ Forall2 R a x /\ Forall2 R b y.
Proof. intros H. apply Forall2_app_inv_l in H as (x & y & H1 & H2 & ->). eauto. Qed.
Lemma room_app a b : room (a ++ b) = room a + room b.
Proof. induction a as [|i a IH]; cbn [room app]; lia. Qed.
Lemma posof_fwd sz l a j b1 b2 ba bj bb1 bl bb2 pos : length a = length ba -> length b1 = length bb1 ->
  NoDup (labels_in (a ++ j :: b1 ++ ILabel l :: b2)) ->
  posof sz l (a ++ j :: b1 ++ ILabel l :: b2) (ba ++ bj :: bb1 ++ bl :: bb2) pos =
  Some (endof sz b1 bb1 (endof sz a ba pos + if jumpb j then sz (endof sz a ba pos) j else len bj)).
Proof.
  intros Ha Hb Hn.
  pose proof (posof_split sz l (a ++ j :: b1) (ba ++ bj :: bb1) (ILabel l :: b2) (bl :: bb2) pos) as HS.
  rewrite <- !app_assoc in HS; cbn [app] in HS. rewrite HS.
  - cbn [posof is_label]. rewrite Z.eqb_refl. rewrite endof_app by auto. reflexivity.
  - rewrite !app_length. cbn [length]. congruence.
  - apply (app_split_labels _ _ b2). rewrite <- app_assoc. exact Hn.
Qed.
Lemma filled_len sz md lb en is : forall bss xss pos, filled sz md lb en is bss xss pos ->
  len (concat xss) = endof sz is bss pos - pos.
Proof.
  induction is as [|i is IH]; intros [|b bss] [|x xss] pos HF; cbn [filled concat endof] in *; try contradiction.
  - unfold len. cbn. lia.
  - destruct HF as [Hx HF]. apply IH in HF. rewrite len_app, HF.
    assert ((if jumpb i then sz pos i else len b) = len x) as -> by (destruct (jumpb i); [destruct Hx; auto|congruence]). lia.
Qed.
Section InRange.
Context (md : mode) (is : list insn) (bss : list (list Z)).
Hypothesis Hs : Forall2 shape is bss.
Hypothesis Hn : NoDup (labels_in is).
Hypothesis Hw : Forall (fun j => wf_switch j /\ incl (targets j) (labels_in is)) is.
Hypothesis Hr : in_range is.
Notation y := (y_steps is bss y_new).
Definition at_ (l : Z) : Z := match posof dsz l is bss 0 with Some p => p | None => 0 end.
Lemma at_ok l : In l (labels_in is) -> posof dsz l is bss 0 = Some (at_ l) /\ 0 <= at_ l <= 65535.
Proof.
  intros Hl. destruct (posof_in dsz l is bss 0 (Forall2_len _ _ _ Hs) Hl) as (p & Hp). unfold at_. rewrite Hp. split; auto.
  apply (posof_bound dsz dsz_bound) in Hp; auto. destruct Hr. lia.
Qed.
Lemma sizes_ok : jumps_at dsz (fun p j => jump_size (y_labels y) (hints_of is bss) p j = Ok (dsz p j)) is bss 0.
Proof.
  apply jumps_at_intro; [apply (Forall2_len _ _ _ Hs)|]. intros a j b ba bj bb Hi Hb Hlen Hj.
  assert (Hh : forall l, In l (targets j) -> exists h, hint_of (y_labels y) (hints_of is bss) l = Ok h /\ h <= 65535).
  { intros l Hl. rewrite Forall_forall in Hw. assert (Hin : In l (labels_in is)).
    { apply (Hw j); auto. rewrite Hi. apply in_or_app. right. left. auto. }
    destruct (posof_in (fun _ => max_size) l is bss 0 (Forall2_len _ _ _ Hs) Hin) as (p & Hp). exists p. split.
    - apply hint_ok; auto.
    - apply (posof_bound _ max_bound) in Hp; auto. destruct Hr. lia. }
  destruct j; try discriminate; cbn [jump_size dsz targets] in *.
  - destruct (Hh l) as (h & -> & Hle); [cbn; auto|]. cbn [bind]. assert (h <=? 65535 = true) as -> by lia. destruct c; reflexivity.
  - destruct (Hh l) as (h & -> & Hle); [cbn; auto|]. cbn [bind]. assert (h <=? 65535 = true) as -> by lia. reflexivity.
  - f_equal. lia.
  - f_equal. lia.
Qed.
Lemma emits_ok : jumps_at dsz (fun p j => exists x, emits dsz md (y_labels y) (ends_of dsz is bss) p j x) is bss 0.
Proof.
  pose proof at_ok as Hat. revert Hat. generalize at_. intros A Hat.
  apply jumps_at_intro; [apply (Forall2_len _ _ _ Hs)|]. intros a j b ba bj bb Hi Hb Hlen Hj.
  pose proof Hs as Hs'. rewrite Hi in Hs'. apply forall2_app_split in Hs' as (ba' & bb' & Hb' & Hsa & Hsb).
  assert (ba' = ba /\ bb' = bj :: bb) as [-> ->].
  { assert (length ba = length ba') by (rewrite <- Hlen; apply (Forall2_len _ _ _ Hsa)).
    rewrite Hb in Hb'. clear - H Hb'. revert ba' H Hb'. induction ba as [|x ba IH]; intros [|z ba'] H E; try discriminate; cbn in *; auto.
    injection E as -> E. injection H as H. destruct (IH ba' H E) as [-> ->]. auto. }
  inversion Hsb as [|? ? ? ? Hshj Hsbb]; subst. clear Hb'.
  set (pos := endof dsz a ba 0). pose proof (endof_bound dsz dsz_bound a ba 0 Hsa) as Ha. fold pos in Ha.
  assert (Hin : forall l, In l (targets j) -> In l (labels_in (a ++ j :: b))).
  { intros l Hl. rewrite Forall_forall in Hw. apply (Hw j); auto. apply in_or_app. right. left. auto. }
  assert (Hroom : room a + most_bytes j + room b <= 65535).
  { destruct Hr as [Hr' _]. rewrite room_app in Hr'. cbn [room] in Hr'. lia. }
  pose proof (room_nonneg dsz dsz_bound b). pose proof (dsz_bound pos j Hj) as Hdj. pose proof (room_nonneg dsz dsz_bound a).
  assert (Hwj : wf_switch j). { rewrite Forall_forall in Hw. apply (Hw j); auto. apply in_or_app. right. left. auto. }
  assert (HT : forall l, In l (targets j) -> posof dsz l (a ++ j :: b) (ba ++ bj :: bb) 0 = Some (A l) /\ 0 <= A l < 2147483648).
  { intros l Hl. destruct (Hat l (Hin l Hl)). split; auto. lia. }
  assert (Hend : pos + dsz pos j < 2147483648) by lia.
  destruct j as [ | | | | | | | | | | |c l| | | | | | | | | | | | | | | | | | | | | |l| | | | |d low ls|d t| ]; try discriminate.
  3,4: eapply (emits_switch md dsz _ _ dsz_bound Hs Hn A pos); auto; try lia; cbn [short]; tauto.
  all: eapply (emits_short md dsz _ _ dsz_bound Hs Hn A pos) with (l := l); auto; try lia; try exact I; try reflexivity;
    destruct (HT l (or_introl eq_refl)) as [HTl _];
    destruct Hr as [_ Hr']; destruct (Hr' a _ b l eq_refl I (or_introl eq_refl)) as [(b1 & b2 & -> & Hn1)|(a1 & a2 & -> & Hn1)].
  all: cbn [targets] in Hin.
  1,3: apply forall2_app_split in Hsbb as (bb1 & bb2 & -> & Hsb1 & Hsb2); inversion Hsb2 as [|? bl ? bb2' [_ [Hbl _]] Hsb2']; subst;
    rewrite posof_fwd in HTl by (auto; try apply (Forall2_len _ _ _ Hsa); apply (Forall2_len _ _ _ Hsb1));
    apply some_inj in HTl; rewrite <- HTl; fold pos; cbn [jumpb dsz];
    pose proof (endof_bound dsz dsz_bound b1 bb1 (pos + 3) Hsb1); lia.
  all: apply forall2_app_split in Hsa as (ba1 & ba2 & -> & Hsa1 & Hsa2); inversion Hsa2 as [|? bl ? ba2' [_ [Hbl _]] Hsa2']; subst;
    rewrite <- !app_assoc in HTl; cbn [app] in HTl; rewrite <- app_assoc in Hn;
    rewrite posof_split in HTl; [|apply (Forall2_len _ _ _ Hsa1)|exact (app_split_labels _ _ _ Hn)];
    cbn [posof is_label] in HTl; rewrite Z.eqb_refl in HTl; apply some_inj in HTl; rewrite <- HTl;
    unfold pos; rewrite endof_app by (apply (Forall2_len _ _ _ Hsa1)); cbn [endof jumpb]; specialize (Hbl eq_refl); subst bl; change (len (@nil Z)) with 0;
    pose proof (endof_bound dsz dsz_bound a2 ba2' (endof dsz a1 ba1 0 + 0) Hsa2'); lia.
Qed.
Lemma in_range_assemble : exists xss,
  assemble md y = Ok (len (concat xss), ends_of dsz is bss, concat xss) /\
  filled dsz md (y_labels y) (ends_of dsz is bss) is bss xss 0 /\ len (concat xss) <= 65535.
Proof.
  destruct (assemble_ok md dsz is bss Hs sizes_ok emits_ok) as (xss & HA & HF). exists xss. split; auto. split; auto.
  rewrite (filled_len _ _ _ _ _ _ _ _ HF). pose proof (endof_bound dsz dsz_bound is bss 0 Hs). destruct Hr. lia.
Qed.
End InRange.

(** * Writing the instructions *)
Lemma okp_inj {A B} (a c : A) (b d : B) : Ok (a, b) = Ok (c, d) -> a = c.
Proof. congruence. Qed.
Lemma emit_shape E i w b w' : emit E i w = Ok (b, w') -> jumpb i = false -> shape i b.
Proof.
  intros He Hj.
  assert (HP : forall c, emit_push E c w = Ok (b, w') -> len b <= 3).
  { intros c. assert (HL : emit_ldc E c w = Ok (b, w') -> len b <= 3).
    { unfold emit_ldc. intros H. inv_bind H. destruct v as [x w1]. apply okp_inj in H.
      apply (f_equal (@len Z)) in H. revert H.
      destruct (match c with Dyn d => _ | _ => _ end); [|destruct (x <=? 255)]; rewrite len_app, !be_len; lia. }
    assert (HO : forall o, Ok (be 1 o, w) = Ok (b, w') -> len b <= 3).
    { intros o H. apply okp_inj in H. apply (f_equal (@len Z)) in H. revert H. rewrite be_len. lia. }
    unfold emit_push. destruct c as [|[]]; auto;
    repeat match goal with |- context [if ?c then _ else _] => destruct c end; eauto;
    intros H; apply okp_inj in H; apply (f_equal (@len Z)) in H; revert H; rewrite len_app, !be_len; lia. }
  assert (HX : forall A (f : cins A) op tail a, emit_idx op f tail E a w = Ok (b, w') -> len b = 3 + len tail).
  { intros A f op tail a H. unfold emit_idx in H. inv_bind H. destruct v as [x w1]. apply okp_inj in H.
    apply (f_equal (@len Z)) in H. revert H. rewrite !len_app, !be_len. lia. }
  assert (HW : forall op x, Ok (wide_or_normal op x, w) = Ok (b, w') -> len b <= 4).
  { intros op x H. apply okp_inj in H. apply (f_equal (@len Z)) in H. revert H. unfold wide_or_normal.
    destruct ((0 <=? x) && (x <=? 255)); rewrite !len_app, !be_len; lia. }
  assert (HO : forall o, Ok (be 1 o, w) = Ok (b, w') -> len b <= 1).
  { intros o H. apply okp_inj in H. apply (f_equal (@len Z)) in H. revert H. rewrite be_len. lia. }
  assert (HN : Ok (@nil Z, w) = Ok (b, w') -> b = []) by congruence.
  unfold shape. split; [|split; [|congruence]].
  - destruct i; try discriminate; cbn [most_bytes]; unfold emit in He; eauto;
      repeat match type of He with context [match ?x with _ => _ end] => is_var x; destruct x end;
      try (apply HO in He; lia); try (apply HN in He; subst; unfold len; cbn; lia);
      try (apply HX in He; rewrite He; unfold len; cbn; lia).
    apply okp_inj in He. apply (f_equal (@len Z)) in He. revert He.
    destruct (_ && _); rewrite !len_app, !be_len; lia.
  - intros Hr. destruct i; try discriminate; unfold emit in He; auto;
      repeat match type of He with context [match ?x with _ => _ end] => is_var x; destruct x end; try discriminate; auto.
Qed.
Lemma straightb i : jumpb i = false -> straight i.
Proof. destruct i; cbn; auto; discriminate. Qed.
Lemma enc_elsewhere i pos pos' W L K b : straight i -> enc pos W i b -> enc pos' (in_code W L K) i b.
Proof. destruct i; cbn [straight]; try tauto; intros _ H; exact H. Qed.
Definition straight_enc (W : world) (i : insn) (b : list Z) : Prop :=
  jumpb i = false -> forall pos L K, enc pos (in_code W L K) i b.
Lemma write_insns_ok E is : forall y w, Forall (fun i => wf_insn (we_heap E) i /\ sound i) is -> w_inv w ->
  post E w (fun y' w' => exists bss, y' = y_steps is bss y /\ Forall2 shape is bss /\
    later E w' (fun W => Forall2 (straight_enc W) is bss)) (write_insns E is y w).
Proof.
  induction is as [|i is IH]; intros y w Hw Hi; cbn [write_insns].
  - apply post_ret; auto. exists []. repeat split; auto. intros _ _ W _ _. auto.
  - inversion Hw as [|? ? [Hwi Hso] Hw']; subst.
    assert (HH : post E w (fun y1 w1 => exists b, y1 = y_step i b y /\ shape i b /\ later E w1 (fun W => straight_enc W i b))
      (write_insn E i y w)).
    { destruct (jumpb i) eqn:Ej.
      - assert (write_insn E i y w = Ok (y_step i [] y, w)) as -> by (destruct i; try discriminate; reflexivity).
        apply post_ret; auto. exists []. split; auto. split.
        + split; [|auto]. change (len (@nil Z)) with 0. destruct i; try discriminate; cbn [most_bytes];
            try (pose proof (len_nonneg ls)); try (pose proof (len_nonneg t)); try lia. destruct c; lia.
        + intros _ _ W _ _. unfold straight_enc. congruence.
      - pose proof (emit_ok 0 E i w (conj (straightb i Ej) (conj Hso Hwi)) Hi) as HE.
        pose proof (fun b w' H => emit_shape E i w b w' H Ej) as HS.
        assert (HW : write_insn E i y w = '(b, w) <- emit E i w ;; Ok (y_step i b y, w)).
        { destruct i; try discriminate; try reflexivity; cbn [write_insn emit bind y_step]; auto.
          destruct y; cbn. rewrite app_nil_r. reflexivity. }
        rewrite HW. destruct (emit E i w) as [[b w']| |]; cbn [bind post] in *; auto.
        destruct HE as (H1 & H2 & H3 & H4). split; [auto|]. split; [auto|]. split; [auto|].
        exists b. split; auto. split; eauto. eapply later_mono; [|exact H4]. cbn beta.
        intros W _ H _ pos L K. eapply enc_elsewhere; eauto using straightb. }
    eapply post_bind; [exact HH|]. cbn beta. intros y1 w1 Hl1 Hi1 (b & -> & Hsb & HL).
    eapply post_mono; [apply IH; auto|]. cbn beta. intros y2 w2 Hl2 (bss & -> & Hsh & HL2). exists (b :: bss).
    split; auto. split; auto. pose proof (later_le _ _ _ _ Hl2 HL) as HL'. intros Hf Hb W Ha Hh. constructor; [apply HL'|apply HL2]; auto.
Qed.
