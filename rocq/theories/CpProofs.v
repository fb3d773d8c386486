(** The constant pool writer's invariant, layout correctness of the writing
    and reading functions of [CpModel]. *)
From Verif Require Import Base BaseLemmas Wtf8Spec Wtf8Model MutfModel Wtf8Proofs3 MutfProofs
  PrimModel PrimProofs TypeModel TypeSpec TypeProofs CpModel CpSpec.

Lemma Forall2_len {A B} (R : A -> B -> Prop) l l' : Forall2 R l l' -> length l = length l'.
Proof. induction 1; cbn; auto. Qed.

(** ** Bytes *)
Lemma be1_u1 x : be 1 x = u1 x.
Proof. unfold u1. cbn [be]. change (256 ^ Z.of_nat 0) with 1. rewrite Z.div_1_r. reflexivity. Qed.
Lemma be2_u2 x : be 2 x = u2 x.
Proof.
  unfold u2. cbn [be]. change (256 ^ Z.of_nat 0) with 1. change (256 ^ Z.of_nat 1) with 256.
  rewrite Z.div_1_r. reflexivity.
Qed.
Lemma be4_u4 x : be 4 x = u4 x.
Proof.
  unfold u4. cbn [be]. change (256 ^ Z.of_nat 0) with 1. change (256 ^ Z.of_nat 1) with 256.
  change (256 ^ Z.of_nat 2) with 65536. change (256 ^ Z.of_nat 3) with 16777216.
  rewrite Z.div_1_r. reflexivity.
Qed.
Lemma be8_u8 x : be 8 x = u8_ x.
Proof.
  unfold u8_, u4. cbn [be app].
  change (256 ^ Z.of_nat 0) with 1. change (256 ^ Z.of_nat 1) with 256.
  change (256 ^ Z.of_nat 2) with 65536. change (256 ^ Z.of_nat 3) with 16777216.
  change (256 ^ Z.of_nat 4) with 4294967296. change (256 ^ Z.of_nat 5) with (4294967296 * 256).
  change (256 ^ Z.of_nat 6) with (4294967296 * 65536). change (256 ^ Z.of_nat 7) with (4294967296 * 16777216).
  rewrite Z.div_1_r, !Z.div_div by lia. reflexivity.
Qed.

Lemma rd_u8_u1 x l : u8 x -> rd_u8 (u1 x ++ l) = Ok (x, l).
Proof. rewrite <- be1_u1. apply rd_u8_be. Qed.
Lemma rd_u16_u2 x l : u16 x -> rd_u16 (u2 x ++ l) = Ok (x, l).
Proof. rewrite <- be2_u2. apply rd_u16_be. Qed.
Lemma rd_u32_u4 x l : u32 x -> rd_u32 (u4 x ++ l) = Ok (x, l).
Proof. rewrite <- be4_u4. apply rd_u32_be. Qed.
Lemma rd_i32_u4 x l : i32 x -> rd_i32 (u4 x ++ l) = Ok (x, l).
Proof. rewrite <- be4_u4. apply rd_i32_be. Qed.
Lemma rd_i64_u8 x l : i64 x -> rd_i64 (u8_ x ++ l) = Ok (x, l).
Proof. rewrite <- be8_u8. apply rd_i64_be. Qed.
Lemma rd_f32_u4 x l : u32 x -> rd_f32 (u4 x ++ l) = Ok (x, l).
Proof. rewrite <- be4_u4. apply rd_f32_be. Qed.
Lemma rd_f64_u8 x l : u64 x -> rd_f64 (u8_ x ++ l) = Ok (x, l).
Proof. rewrite <- be8_u8. apply rd_f64_be. Qed.

(** ** Entries *)
Lemma raw_eqb_eq a b : raw_eqb a b = true <-> a = b.
Proof.
  destruct a, b; cbn [raw_eqb]; try (split; intros; discriminate);
    rewrite ?andb_true_iff, ?Z.eqb_eq, ?(list_eqb_eq Z.eqb Z.eqb_eq);
    split; intros H; try (inversion H; auto; fail); try (destruct H; congruence); congruence.
Qed.
Lemma raw_eqb_refl a : raw_eqb a a = true.
Proof. apply raw_eqb_eq. auto. Qed.
Lemma raw_eq_dec (a b : raw_entry) : {a = b} + {a <> b}.
Proof.
  destruct (raw_eqb a b) eqn:E; [left; apply raw_eqb_eq; auto|right].
  intros ->. rewrite raw_eqb_refl in E. discriminate.
Qed.

Lemma wr_string_fmt s cps : wtf8_of cps s ->
  wr_string s = Ok (u2 (len (mutf8_of (flat_map utf16 cps))) ++ mutf8_of (flat_map utf16 cps)).
Proof.
  intros [Hc ->]. unfold wr_string. rewrite string_to_mutf8_spec by apply Hc. cbn [bind].
  rewrite be2_u2. reflexivity.
Qed.
Lemma rd_string_fmt s cps l : wtf8_of cps s -> len (mutf8_of (flat_map utf16 cps)) <= 65535 ->
  rd_string (u2 (len (mutf8_of (flat_map utf16 cps))) ++ mutf8_of (flat_map utf16 cps) ++ l) = Ok (s, l).
Proof.
  intros [Hc ->] Hl. set (e := mutf8_of (flat_map utf16 cps)) in *. unfold rd_string.
  rewrite rd_u16_u2 by (unfold u16; pose proof (len_nonneg e); lia). cbn [bind].
  rewrite take_app. cbn [bind]. unfold e. rewrite mutf_decode_spec by auto. reflexivity.
Qed.

Lemma wr_raw_ok e : entry_wf e -> exists bs, wr_raw e = Ok bs /\ entry_fmt e bs.
Proof.
  unfold wr_raw. destruct e; cbn [entry_wf raw_tag wr_n bind]; intros H;
    try (destruct H as (cps & Hs & Hl); rewrite (wr_string_fmt _ _ Hs); cbn [bind]);
    rewrite ?be1_u1, ?be2_u2, ?be4_u4, ?be8_u8;
    (eexists; split; [reflexivity|]); rewrite <- ?app_assoc; constructor; auto.
Qed.

Lemma tag_read t l : u8 t -> rd_u8 (t :: l) = Ok (t, l).
Proof.
  intros H. replace (t :: l) with (u1 t ++ l); [apply rd_u8_u1; auto|].
  unfold u1, u8 in *. rewrite Z.mod_small by lia. reflexivity.
Qed.

Lemma rd_raw_ok e bs rest : entry_wf e -> entry_fmt e bs -> rd_raw (bs ++ rest) = Ok (e, rest).
Proof.
  intros Hw Hf. unfold rd_raw.
  destruct Hf; cbn [app]; rewrite tag_read by (unfold u8; lia); cbn [bind Z.eqb Pos.eqb];
    cbn [entry_wf] in Hw; rewrite <- ?app_assoc; try match type of Hw with _ /\ u16 _ => destruct Hw end;
    try (unfold b; rewrite (rd_string_fmt s cps) by auto; reflexivity);
    unfold rd_1, rd_2;
    rewrite ?rd_i32_u4, ?rd_f32_u4, ?rd_i64_u8, ?rd_f64_u8, ?rd_u16_u2, ?rd_u8_u1 by auto; cbn [bind];
    rewrite ?rd_u16_u2 by auto; reflexivity.
Qed.

Lemma entry_fmt_nonempty e bs : entry_fmt e bs -> (1 <= length bs)%nat.
Proof. destruct 1; cbn [app length]; lia. Qed.

(** ** Writer state *)
Lemma raw_size_slots e : raw_size e = slots_of e.
Proof. reflexivity. Qed.
Lemma slots_pos e : 1 <= slots_of e <= 2.
Proof. destruct e; cbn; lia. Qed.
Lemma count_of_app a b : count_of (a ++ b) = count_of a + count_of b - 1.
Proof.
  unfold count_of. induction a as [|e a IH]; cbn [app fold_right]; [lia|]. lia.
Qed.
Lemma count_of_pos a : 1 <= count_of a.
Proof.
  unfold count_of. induction a as [|e a IH]; cbn [fold_right]; [lia|].
  pose proof (slots_pos e). lia.
Qed.
Lemma count_of_cons e a : count_of (e :: a) = slots_of e + count_of a.
Proof. unfold count_of. cbn [fold_right]. lia. Qed.
Lemma count_of_one e : count_of [e] = 1 + slots_of e.
Proof. unfold count_of. cbn [fold_right]. lia. Qed.

Fixpoint index_from (i : Z) (es : list raw_entry) : list (raw_entry * Z) :=
  match es with
  | [] => []
  | e :: es => (e, i) :: index_from (i + slots_of e) es
  end.
Lemma index_from_app i a b :
  index_from i (a ++ b) = index_from i a ++ index_from (i + count_of a - 1) b.
Proof.
  revert i. induction a as [|e a IH]; intros i; cbn [app index_from].
  - replace (i + count_of [] - 1) with i by (unfold count_of; cbn; lia). reflexivity.
  - rewrite IH, count_of_cons. f_equal. f_equal. f_equal. lia.
Qed.
Lemma index_from_keys i a : map fst (index_from i a) = a.
Proof. revert i. induction a as [|e a IH]; intros; cbn; f_equal; auto. Qed.

Lemma assoc_app {K V} (eqb : K -> K -> bool) k (a b : list (K * V)) :
  assoc eqb k (a ++ b) = match assoc eqb k a with Some v => Some v | None => assoc eqb k b end.
Proof.
  induction a as [|[k' v] a IH]; cbn [app assoc]; auto. destruct (eqb k k'); auto.
Qed.
Lemma assoc_none {V} k (a : list (raw_entry * V)) :
  assoc raw_eqb k a = None <-> ~ In k (map fst a).
Proof.
  induction a as [|[k' v] a IH]; cbn [assoc map fst In]; [tauto|].
  destruct (raw_eqb k k') eqn:E.
  - apply raw_eqb_eq in E. subst. split; [discriminate|]. intros H. exfalso. auto.
  - rewrite IH. split; [|tauto]. intros H [->|H']; [|auto]. rewrite raw_eqb_refl in E. discriminate.
Qed.

Definition fits (w : wst) : Prop := count_of (w_entries w) <= 65535.
Definition lookup (w : wst) (e : raw_entry) : option Z := assoc raw_eqb e (w_cache w).
Record w_inv (w : wst) : Prop := {
  wi_keys : map fst (w_cache w) = w_entries w;
  wi_nodup : NoDup (w_entries w);
  wi_wf : Forall entry_wf (w_entries w);
  wi_len : u16 (w_len w);
  wi_idx : Forall (fun c => u16 (snd c)) (w_cache w);
  wi_fit : fits w -> w_cache w = index_from 1 (w_entries w) /\ w_len w = count_of (w_entries w) }.
Definition w_le (w w' : wst) : Prop :=
  (exists es, w_entries w' = w_entries w ++ es) /\
  (exists c, w_cache w' = w_cache w ++ c) /\
  (exists bs, w_bsm w' = w_bsm w ++ bs).

Lemma w_inv_new : w_inv wst_new.
Proof.
  constructor; cbn; auto using NoDup_nil; [unfold u16; lia].
Qed.
Lemma w_le_refl w : w_le w w.
Proof. repeat split; exists []; rewrite app_nil_r; auto. Qed.
Lemma w_le_trans a b c : w_le a b -> w_le b c -> w_le a c.
Proof.
  intros ([e1 H1] & [c1 H2] & [b1 H3]) ([e2 H4] & [c2 H5] & [b2 H6]).
  repeat split; [exists (e1 ++ e2)|exists (c1 ++ c2)|exists (b1 ++ b2)]; rewrite app_assoc; congruence.
Qed.
Lemma fits_le w w' : w_le w w' -> fits w' -> fits w.
Proof.
  intros ([es H] & _) Hf. unfold fits in *. rewrite H, count_of_app in Hf.
  pose proof (count_of_pos es). lia.
Qed.
Lemma lookup_le w w' e i : w_le w w' -> lookup w e = Some i -> lookup w' e = Some i.
Proof.
  intros (_ & [c H] & _) Hl. unfold lookup in *. rewrite H, assoc_app, Hl. reflexivity.
Qed.

Definition covers (p : pool) (w : wst) : Prop := forall e i, lookup w e = Some i -> p i = Some e.
Lemma covers_le p w w' : w_le w w' -> covers p w' -> covers p w.
Proof. intros Hle H e i Hl. eapply H, lookup_le; eauto. Qed.

Lemma insert_raw_ok E e w : entry_wf e -> w_inv w ->
  match insert_raw E e w with
  | Ok (i, w') => w_le w w' /\ w_inv w' /\ u16 i /\ lookup w' e = Some i /\ (fits w' -> 1 <= i) /\
      w_bsm w' = w_bsm w /\ (we_md E = Debug -> fits w -> fits w')
  | Err _ => False
  | Panic k => we_md E = Debug /\ k = POverflow
  end.
Proof.
  intros He Hi. unfold insert_raw. fold (lookup w e). destruct (lookup w e) as [i|] eqn:El.
  - split; [apply w_le_refl|]. split; [auto|]. unfold lookup in El.
    assert (Hin : forall (c : list (raw_entry * Z)) i', assoc raw_eqb e c = Some i' -> In (e, i') c).
    { induction c as [|[k v] c IH]; cbn [assoc]; [discriminate|]. intros i'.
      destruct (raw_eqb e k) eqn:Ek; [|right; auto]. apply raw_eqb_eq in Ek. intros [= ->]. subst. left; auto. }
    pose proof (Hin _ _ El) as HI. split; [|split; [auto|split; [|auto]]].
    + pose proof (wi_idx w Hi) as Hx. rewrite Forall_forall in Hx. apply (Hx _ HI).
    + intros Hf. destruct (wi_fit w Hi Hf) as [Hc _]. rewrite Hc in HI. clear -HI.
      assert (Hg : forall es j, In (e, i) (index_from j es) -> j <= i).
      { induction es as [|e' es IH]; cbn [index_from In]; [tauto|]. intros j [H|H].
        - inversion H; lia.
        - apply IH in H. pose proof (slots_pos e'). lia. }
      apply (Hg _ _ HI).
  - assert (Hnew : ~ In e (w_entries w)).
    { rewrite <- (wi_keys w Hi). apply assoc_none. auto. }
    assert (Hinv : forall l, u16 l -> (fits w -> w_len w + raw_size e <= 65535 -> l = w_len w + raw_size e) ->
      (we_md E = Debug -> w_len w + raw_size e <= 65535) ->
      let w' := {| w_entries := w_entries w ++ [e]; w_cache := w_cache w ++ [(e, w_len w)];
                   w_len := l; w_bsm := w_bsm w |} in
      w_le w w' /\ w_inv w' /\ u16 (w_len w) /\ lookup w' e = Some (w_len w) /\ (fits w' -> 1 <= w_len w) /\
      w_bsm w' = w_bsm w /\ (we_md E = Debug -> fits w -> fits w')).
    { intros l Hl Hle Hdb w'.
      assert (Hw : w_le w w').
      { repeat split; cbn; [exists [e]|exists [(e, w_len w)]|exists []]; rewrite ?app_nil_r; auto. }
      split; [auto|]. split; [|split; [apply (wi_len w Hi)|split; [|split; [|split; [reflexivity|]]]]].
      - constructor; cbn.
        + rewrite map_app, (wi_keys w Hi). reflexivity.
        + apply (NoDup_Add (a:=e) (l:=w_entries w)); [|split; [apply (wi_nodup w Hi)|auto]].
          rewrite <- (app_nil_r (w_entries w)) at 1. apply Add_app.
        + apply Forall_app. split; [apply (wi_wf w Hi)|auto].
        + auto.
        + apply Forall_app. split; [apply (wi_idx w Hi)|repeat constructor; apply (wi_len w Hi)].
        + intros Hf. pose proof (fits_le _ _ Hw Hf) as Hf0. destruct (wi_fit w Hi Hf0) as [Hc Hn].
          unfold fits in Hf. cbn in Hf. rewrite count_of_app, count_of_one in Hf |- *.
          rewrite index_from_app. cbn [index_from]. split.
          * rewrite Hc. f_equal. f_equal. f_equal. lia.
          * rewrite Hle; auto; rewrite raw_size_slots; lia.
      - unfold lookup, w'. cbn [w_cache]. rewrite assoc_app. unfold lookup in El. rewrite El. cbn.
        rewrite raw_eqb_refl. reflexivity.
      - intros Hf. pose proof (fits_le _ _ Hw Hf) as Hf0. destruct (wi_fit w Hi Hf0) as [_ Hn].
        pose proof (count_of_pos (w_entries w)). lia.
      - intros Hm Hf. specialize (Hdb Hm). destruct (wi_fit w Hi Hf) as [_ Hn]. unfold fits, w'. cbn [w_entries].
        rewrite count_of_app, count_of_one. rewrite raw_size_slots in Hdb. lia. }
    pose proof (wi_len w Hi) as Hwl. unfold u16 in Hwl.
    pose proof (slots_pos e) as Hsp.
    unfold chk_u. change (2 ^ 16) with 65536.
    destruct ((0 <=? w_len w + raw_size e) && (w_len w + raw_size e <? 65536)) eqn:Ec; cbn [bind].
    + apply (Hinv (w_len w + raw_size e)); [unfold u16; lia|auto|lia].
    + destruct (we_md E) eqn:Em; cbn [bind]; [auto|].
      apply (Hinv (wrap_u 16 (w_len w + raw_size e))).
      * unfold wrap_u, u16. change (2 ^ 16) with 65536. lia.
      * intros _ Hle. rewrite raw_size_slots in *. lia.
      * discriminate.
Qed.

(** ** Insertions that produce an index *)
Definition agrees (E : wenv) (W : world) : Prop :=
  (forall c, W_heap W c = we_heap E c) /\
  (forall l o, we_label E l = Ok o -> W_label W l = Some o) /\
  (forall c o, we_catch E c = Ok o -> W_catch W c = o).
Definition holds (W : world) (w : wst) : Prop :=
  covers (W_pool W) w /\ exists more, W_tbl W = w_bsm w ++ more.
Lemma holds_le W w w' : w_le w w' -> holds W w' -> holds W w.
Proof.
  intros Hle [Hc [m Hm]]. split; [eapply covers_le; eauto|].
  destruct Hle as (_ & _ & [bs Hb]). exists (bs ++ m). rewrite Hm, Hb, app_assoc. reflexivity.
Qed.

(** Outcome of a writing step from [w]: the only failure is a pool overflow
    panic in a debug build. *)
Definition post {B} (E : wenv) (w : wst) (Q : B -> wst -> Prop) (r : res (B * wst)) : Prop :=
  match r with
  | Ok (b, w') => w_le w w' /\ w_inv w' /\ (we_md E = Debug -> fits w -> fits w') /\ Q b w'
  | Err _ => False
  | Panic k => we_md E = Debug /\ k = POverflow
  end.
(** [C] holds of the finished file. *)
Definition later (E : wenv) (w : wst) (C : world -> Prop) : Prop :=
  fits w -> len (w_bsm w) <= 65536 -> forall W, agrees E W -> holds W w -> C W.

(** [f] stores [a] and returns an index that means [a]. *)
Definition ins_ok {A} (f : cins A) (P : wenv -> A -> Prop) (R : world -> Z -> A -> Prop) : Prop :=
  forall E a w, P E a -> w_inv w ->
  post E w (fun i w' => u16 i /\ (fits w' -> 1 <= i) /\ later E w' (fun W => R W i a)) (f E a w).

(** [f] writes a representation of [a]. *)
Definition wr_ok {A} (f : cwr A) (P : wenv -> A -> Prop) (F : fmt A) : Prop :=
  forall E a w, P E a -> w_inv w ->
  post E w (fun bs w' => later E w' (fun W => F W a bs)) (f E a w).

Lemma bsm_le w w' : w_le w w' -> len (w_bsm w') <= 65536 -> len (w_bsm w) <= 65536.
Proof.
  intros (_ & _ & [bs ->]). rewrite len_app. pose proof (len_nonneg bs). lia.
Qed.
Lemma later_le E w w' C : w_le w w' -> later E w C -> later E w' C.
Proof.
  intros Hle H Hf Hb W Ha Hh. apply H; auto.
  - eapply fits_le; eauto.
  - eapply bsm_le; eauto.
  - eapply holds_le; eauto.
Qed.
Lemma later_mono E w (C D : world -> Prop) : (forall W, agrees E W -> C W -> D W) -> later E w C -> later E w D.
Proof. intros H HC Hf Hb W Ha Hh. apply H; auto. Qed.
Lemma later_and E w (C D : world -> Prop) : later E w C -> later E w D -> later E w (fun W => C W /\ D W).
Proof. intros HC HD Hf Hb W Ha Hh. split; [apply HC|apply HD]; auto. Qed.

Lemma post_bind {A B} E w (Q : A -> wst -> Prop) (Q' : B -> wst -> Prop) (r : res (A * wst)) k :
  post E w Q r ->
  (forall a w1, w_le w w1 -> w_inv w1 -> Q a w1 -> post E w1 Q' (k a w1)) ->
  post E w Q' ('(a, w1) <- r ;; k a w1).
Proof.
  intros H Hk. destruct r as [[a w1]| |]; cbn [post bind] in *; auto.
  destruct H as (Hle & Hi & Hd & HQ). specialize (Hk a w1 Hle Hi HQ). unfold post in *.
  destruct (k a w1) as [[b w']| |]; auto. destruct Hk as (Hle' & Hi' & Hd' & HQ').
  split; [eapply w_le_trans; eauto|auto].
Qed.
Lemma post_mono {B} E w (Q Q' : B -> wst -> Prop) r :
  post E w Q r -> (forall b w', w_le w w' -> Q b w' -> Q' b w') -> post E w Q' r.
Proof.
  intros H Hq. destruct r as [[b w']| |]; cbn [post] in *; auto.
  destruct H as (H1 & H2 & H3 & H4); auto.
Qed.
Lemma post_ret {B} E w (Q : B -> wst -> Prop) b : w_inv w -> Q b w -> post E w Q (Ok (b, w)).
Proof. intros Hi HQ. cbn. split; [apply w_le_refl|auto]. Qed.

Lemma ins_raw_ok : ins_ok insert_raw (fun _ => entry_wf) (fun W i e => W_pool W i = Some e).
Proof.
  intros E e w He Hi. pose proof (insert_raw_ok E e w He Hi) as H. unfold post.
  destruct (insert_raw E e w) as [[i w']| |]; auto.
  destruct H as (H1 & H2 & H3 & H4 & H5 & _ & H6). split; [auto|]. split; [auto|].
  split; [auto|]. split; [auto|]. split; [auto|]. intros _ _ W _ [Hc _]. apply Hc; auto.
Qed.
Lemma ins_mono {A} (f : cins A) (P P' : wenv -> A -> Prop) (R R' : world -> Z -> A -> Prop) :
  ins_ok f P R -> (forall E a, P' E a -> P E a) ->
  (forall E W i a, P' E a -> agrees E W -> R W i a -> R' W i a) -> ins_ok f P' R'.
Proof.
  intros Hf HP HR E a w Ha Hi. eapply post_mono; [apply Hf; auto|].
  cbn. intros i w' _ (H1 & H2 & H3). split; [auto|]. split; [auto|].
  eapply later_mono; [|exact H3]. intros W Hag. eapply HR; eauto.
Qed.

Lemma ins_wtf8_ok : ins_ok insert_wtf8 (fun _ => jstr) (fun W i s => is_utf8_at (W_pool W) i s).
Proof. intros E s w Hs Hi. apply (ins_raw_ok E (RWtf8 s) w Hs Hi). Qed.

(** Wrapping an index in an entry. *)
Lemma ins_wrap {A} (f : cins A) P R (mk : Z -> raw_entry) :
  ins_ok f P R -> (forall i, u16 i -> entry_wf (mk i)) ->
  ins_ok (fun E a w => '(i, w) <- f E a w ;; insert_raw E (mk i) w) P
    (fun W i a => exists j, W_pool W i = Some (mk j) /\ R W j a).
Proof.
  intros Hf Hm E a w HP Hi. eapply post_bind; [apply Hf; auto|].
  cbn. intros i w1 Hle Hi1 (Hu & H1 & HR).
  eapply post_mono; [apply (ins_raw_ok E (mk i) w1); auto|]. cbn.
  intros j w' Hle' (H3 & H4 & H5). split; [auto|]. split; [auto|].
  eapply later_mono; [|apply later_and; [exact H5|eapply later_le; [exact Hle'|exact HR]]].
  cbn. intros W _ [Ha Hb]. eauto.
Qed.

Lemma ins_class_ok : ins_ok insert_class (fun _ => jstr) (fun W i s => is_class (W_pool W) i s).
Proof. apply (ins_wrap _ _ _ RClass ins_wtf8_ok). auto. Qed.

Lemma ins_indirect_ok tag : In tag [7; 8; 19; 20] ->
  ins_ok (insert_indirect_str tag) (fun _ => jstr) (fun W i s => is_indirect tag (W_pool W) i s).
Proof.
  intros Ht. cbn in Ht.
  assert (H : exists mk, (forall i, u16 i -> entry_wf (mk i)) /\
    (insert_indirect_str tag = fun E a w => '(i, w) <- insert_wtf8 E a w ;; insert_raw E (mk i) w) /\
    (forall W i s, (exists j, W_pool W i = Some (mk j) /\ is_utf8_at (W_pool W) j s) ->
       is_indirect tag (W_pool W) i s)).
  { unfold is_indirect. destruct Ht as [<-|[<-|[<-|[<-|[]]]]].
    - exists RClass. split; [auto|split; [reflexivity|intros W i s H; left; auto]].
    - exists RString. split; [auto|split; [reflexivity|intros W i s H; right; left; auto]].
    - exists RModule. split; [auto|split; [reflexivity|intros W i s H; right; right; left; auto]].
    - exists RPackage. split; [auto|split; [reflexivity|intros W i s H; right; right; right; auto]]. }
  destruct H as (mk & H1 & -> & H2).
  eapply ins_mono; [apply (ins_wrap _ _ _ mk ins_wtf8_ok); auto|auto|]. auto.
Qed.

Lemma ins_nametype_ok : ins_ok insert_nameandtype (fun _ nd => jstr (fst nd) /\ jstr (snd nd))
  (fun W i nd => exists a b, W_pool W i = Some (RNameType a b) /\
     is_utf8_at (W_pool W) a (fst nd) /\ is_utf8_at (W_pool W) b (snd nd)).
Proof.
  intros E [n d] w [Hn Hd] Hi. cbn [fst snd] in *. unfold insert_nameandtype.
  eapply post_bind; [apply ins_wtf8_ok; auto|]. cbn. intros a w1 Hl1 Hi1 (Ha & _ & HA).
  eapply post_bind; [apply ins_wtf8_ok; auto|]. cbn. intros b w2 Hl2 Hi2 (Hb & _ & HB).
  eapply post_mono; [apply (ins_raw_ok E (RNameType a b) w2); [split|]; auto|]. cbn.
  intros i w3 Hl3 (H1 & H2 & H3). split; [auto|]. split; [auto|].
  pose proof (later_le _ _ _ _ (w_le_trans _ _ _ Hl2 Hl3) HA) as HA'.
  pose proof (later_le _ _ _ _ Hl3 HB) as HB'.
  intros Hf Hbl W Hag Hh. exists a, b. split; [apply H3|split; [apply HA'|apply HB']]; auto.
Qed.

(** Descriptors go through [Display]. *)
Lemma display_desc t : utf8_desc t -> display_type t = Ok (ty_text t).
Proof. intros [_ H]. apply display_type_text. auto. Qed.

Lemma ins_member_ok : ins_ok insert_member (fun _ => wf_member) (fun W i m => is_member (W_pool W) i m).
Proof.
  intros E m w (Ho & Hn & Hd & Hitf) Hi. unfold insert_member.
  eapply post_bind; [apply ins_class_ok; auto|]. cbn. intros c w1 Hl1 Hi1 (Hc & _ & HC).
  rewrite display_desc by auto. cbn [bind].
  eapply post_bind; [apply (ins_nametype_ok E (m_name m, ty_text (m_desc m)))|].
  { cbn. split; auto. apply Hd. } { auto. }
  cbn. intros nt w2 Hl2 Hi2 (Hb & _ & HB).
  eapply post_mono; [apply ins_raw_ok; auto|].
  { destruct (m_desc m); cbn; auto. destruct (m_itfs m); cbn; auto. }
  cbn. intros i w3 Hl3 (H1 & H2 & H3). split; [auto|]. split; [auto|].
  pose proof (later_le _ _ _ _ (w_le_trans _ _ _ Hl2 Hl3) HC) as HC'.
  pose proof (later_le _ _ _ _ Hl3 HB) as HB'.
  intros Hf Hbl W Hag Hh. exists c, nt. split; [|split; [apply HC'|apply HB']; auto].
  rewrite (H3 Hf Hbl W Hag Hh). destruct (m_desc m); auto; destruct (m_itfs m); auto.
Qed.

Lemma mhkind_number k : kind_number k (mhkind_u8 k) /\ u8 (mhkind_u8 k).
Proof. unfold kind_number, u8. destruct k; cbn; repeat split; lia. Qed.
Lemma mhkind_of_number k n : kind_number k n -> mhkind_of n = Some k.
Proof.
  intros [H Hn]. assert (Hl : (Z.to_nat (n - 1) < 9)%nat).
  { apply (nth_error_Some [GetField; GetStatic; PutField; PutStatic; InvokeVirtual; InvokeStatic;
             InvokeSpecial; NewInvokeSpecial; InvokeInterface]). congruence. }
  assert (n = 1 \/ n = 2 \/ n = 3 \/ n = 4 \/ n = 5 \/ n = 6 \/ n = 7 \/ n = 8 \/ n = 9) as Hc by lia.
  repeat destruct Hc as [->|Hc]; try subst; exact H.
Qed.

Lemma ins_mhandle_ok : ins_ok insert_method_handle (fun _ h => wf_member (h_member h))
  (fun W i h => is_mhandle (W_pool W) i h).
Proof.
  intros E h w Hw Hi. unfold insert_method_handle.
  eapply post_bind; [apply ins_member_ok; auto|]. cbn. intros m w1 Hl1 Hi1 (Hm & _ & HM).
  destruct (mhkind_number (h_kind h)) as [Hk Hku].
  eapply post_mono; [apply ins_raw_ok; [split; auto|auto]|]. cbn.
  intros i w2 Hl2 (H1 & H2 & H3). split; [auto|]. split; [auto|].
  pose proof (later_le _ _ _ _ Hl2 HM) as HM'.
  intros Hf Hbl W Hag Hh. exists (mhkind_u8 (h_kind h)), m. split; [apply H3; auto|].
  split; auto.
Qed.

Lemma ins_constant_ok : ins_ok insert_constant (fun _ => wf_constant)
  (fun W i k => is_constant (W_pool W) i k).
Proof.
  intros E k w Hw Hi. destruct k; cbn [insert_constant is_constant wf_constant] in *.
  - apply (ins_raw_ok E (RInt i)); auto.
  - apply (ins_raw_ok E (RFloat b)); auto.
  - apply (ins_raw_ok E (RLong i)); auto.
  - apply (ins_raw_ok E (RDouble b)); auto.
  - apply (ins_wrap _ _ _ RString ins_wtf8_ok); auto.
  - apply (ins_wrap _ _ _ RClass ins_wtf8_ok); auto.
  - apply ins_member_ok; auto.
  - rewrite display_desc by auto. cbn [bind].
    apply (ins_wrap _ _ _ RMType ins_wtf8_ok (fun i H => H) E (ty_text t)); auto. apply Hw.
  - apply ins_mhandle_ok; auto.
Qed.

Lemma ins_dynamic_ok : ins_ok insert_dynamic (fun E => wf_dynamic (we_heap E)) is_dyn.
Proof.
  intros E d w (Hb & Hn & Hd) Hi. unfold insert_dynamic.
  destruct (we_heap E (d_cell d)) as [b|] eqn:Eb; [|congruence].
  unfold insert_bsm. cbn [bind].
  set (w0 := {| w_entries := w_entries w; w_cache := w_cache w; w_len := w_len w; w_bsm := w_bsm w ++ [b] |}).
  assert (Hi0 : w_inv w0) by (destruct Hi; constructor; auto).
  assert (Hl0 : w_le w w0).
  { repeat split; cbn; [exists []|exists []|exists [b]]; rewrite ?app_nil_r; auto. }
  rewrite display_desc by auto. cbn [bind].
  assert (Hgoal : post E w0 (fun i w' => u16 i /\ (fits w' -> 1 <= i) /\ later E w' (fun W => is_dyn W i d))
    ('(nt, w1) <- insert_nameandtype E (d_name d, ty_text (d_desc d)) w0 ;;
     insert_raw E (if ty_is_method (d_desc d) then RInvokeDynamic (len (w_bsm w) mod 65536) nt
                   else RDynamic (len (w_bsm w) mod 65536) nt) w1)).
  { eapply post_bind; [apply ins_nametype_ok; [split; cbn; [auto|apply Hd]|auto]|].
    cbn. intros nt w1 Hl1 Hi1 (Hnt & _ & HNT).
    eapply post_mono; [apply ins_raw_ok; auto|].
    { destruct (ty_is_method (d_desc d)); cbn; unfold u16 in *; lia. }
    cbn. intros i w2 Hl2 (H1 & H2 & H3). split; [auto|]. split; [auto|].
    pose proof (later_le _ _ _ _ Hl2 HNT) as HNT'.
    intros Hf Hbl W Hag Hh. exists b. split; [destruct Hag as [-> _]; auto|].
    exists (len (w_bsm w) mod 65536), nt.
    pose proof (w_le_trans _ _ _ Hl1 Hl2) as Hl02.
    pose proof (bsm_le _ _ Hl02 Hbl) as Hbl0. unfold w0 in Hbl0. cbn in Hbl0.
    rewrite len_app in Hbl0. change (len [b]) with 1 in Hbl0. pose proof (len_nonneg (w_bsm w)).
    rewrite Z.mod_small in * by lia.
    split; [apply H3; auto|]. split; [lia|]. split; [|apply HNT'; auto].
    pose proof (holds_le _ _ _ Hl02 Hh) as [_ [more Hm]]. rewrite Hm. cbn [w0 w_bsm].
    rewrite <- app_assoc. unfold len. rewrite Nat2Z.id, nth_error_app2, Nat.sub_diag by lia. reflexivity. }
  assert (Hfe : fits w -> fits w0) by auto.
  clearbody w0. unfold post in *.
  match type of Hgoal with match ?r with _ => _ end => destruct r as [[i w']| |] end; auto.
  destruct Hgoal as (H1 & H2 & H3 & H4). split; [eapply w_le_trans; eauto|auto].
Qed.

Lemma ins_ordyn_ok : ins_ok (insert_ordynamic insert_constant) (fun E => wf_ordyn (we_heap E)) is_ordyn.
Proof.
  intros E o w Hw Hi. destruct o as [d|k]; cbn [insert_ordynamic wf_ordyn] in *.
  - apply (ins_dynamic_ok E d w Hw Hi).
  - apply (ins_constant_ok E k w Hw Hi).
Qed.

(** ** Writers *)
Lemma wr_idx_ok {A} (f : cins A) P R : ins_ok f P R -> wr_ok (wr_idx f) P (fmt_idx R).
Proof.
  intros Hf E a w HP Hi. unfold wr_idx. eapply post_bind; [apply Hf; auto|].
  cbn beta. intros i w1 Hl1 Hi1 (Hu & H1 & HR). apply post_ret; auto.
  intros Hfit Hb W Ha Hh. exists i. rewrite be2_u2. unfold u16 in Hu. specialize (H1 Hfit).
  split; [lia|]. split; [auto|]. apply HR; auto.
Qed.
Lemma wr_mono {A} (f : cwr A) (P P' : wenv -> A -> Prop) (F F' : fmt A) :
  wr_ok f P F -> (forall E a, P' E a -> P E a) ->
  (forall E W a bs, P' E a -> agrees E W -> F W a bs -> F' W a bs) -> wr_ok f P' F'.
Proof.
  intros Hf HP HR E a w Ha Hi. eapply post_mono; [apply Hf; auto|].
  cbn. intros bs w' _ H. eapply later_mono; [|exact H]. intros W Hag. eapply HR; eauto.
Qed.
Lemma wr_plain_ok {A} (f : wr A) (P : wenv -> A -> Prop) (F : fmt A) :
  (forall E a, P E a -> exists bs, f a = Ok bs /\ forall W, F W a bs) -> wr_ok (wr_plain f) P F.
Proof.
  intros Hf E a w HP Hi. unfold wr_plain. destruct (Hf E a HP) as (bs & -> & HF). cbn [bind].
  apply post_ret; auto. intros _ _ W _ _. auto.
Qed.
Lemma wr_each_ok {A} (f : cwr A) P F : wr_ok f P F ->
  forall E xs w, Forall (P E) xs -> w_inv w ->
  post E w (fun bs w' => later E w' (fun W => exists bss, bs = concat bss /\ Forall2 (F W) xs bss))
    (wr_each f E xs w).
Proof.
  intros Hf E xs. induction xs as [|a xs IH]; intros w HP Hi; cbn [wr_each].
  - apply post_ret; auto. intros _ _ W _ _. exists []. auto.
  - inversion HP; subst. eapply post_bind; [apply Hf; auto|].
    cbn beta. intros b w1 Hl1 Hi1 HF. eapply post_bind; [apply IH; auto|].
    cbn beta. intros bs w2 Hl2 Hi2 HX. apply post_ret; auto.
    pose proof (later_le _ _ _ _ Hl2 HF) as HF'.
    intros Hfit Hb W Ha Hh. destruct (HX Hfit Hb W Ha Hh) as (bss & -> & HB).
    exists (b :: bss). split; auto.
Qed.
Lemma wr_cvec_ok {A} k (f : cwr A) P F size limit :
  wr_ok f P F -> (forall x, be k x = size x) -> limit = 256 ^ Z.of_nat k ->
  wr_ok (wr_cvec k f) (fun E xs => len xs < limit /\ Forall (P E) xs) (fmt_table size limit F).
Proof.
  intros Hf Hs -> E xs w [Hl HP] Hi. unfold wr_cvec.
  assert (len xs <? 256 ^ Z.of_nat k = true) as -> by lia.
  eapply post_bind; [apply (wr_each_ok f P F Hf); auto|]. cbn beta. intros bs w1 Hl1 Hi1 H.
  apply post_ret; auto. eapply later_mono; [|exact H]. cbn beta. intros W _ (bss & -> & HB).
  exists bss. rewrite Hs. auto.
Qed.
Lemma wr_cvec1_ok {A} (f : cwr A) P F : wr_ok f P F ->
  wr_ok (wr_cvec 1 f) (fun E xs => len xs < 256 /\ Forall (P E) xs) (fmt_table1 F).
Proof. intros H. apply (wr_cvec_ok 1 f P F u1 256 H be1_u1). reflexivity. Qed.
Lemma wr_cvec2_ok {A} (f : cwr A) P F : wr_ok f P F ->
  wr_ok (wr_cvec 2 f) (fun E xs => len xs < 65536 /\ Forall (P E) xs) (fmt_table2 F).
Proof. intros H. apply (wr_cvec_ok 2 f P F u2 65536 H be2_u2). reflexivity. Qed.
Definition opt_P {A} (P : wenv -> A -> Prop) (E : wenv) (o : option A) : Prop :=
  match o with Some a => P E a | None => True end.
Lemma wr_opt_ok {A} (f : cwr A) P F : wr_ok f P F -> wr_ok (wr_opt f) (opt_P P) (fmt_opt F).
Proof.
  intros Hf E [a|] w HP Hi; cbn [wr_opt opt_P] in *.
  - eapply post_mono; [apply Hf; auto|]. auto.
  - apply post_ret; auto. intros _ _ W _ _. cbn. apply be2_u2.
Qed.

Lemma wr_cow_ok : wr_ok wr_cow (fun _ => jstr) fmt_utf8.
Proof. apply wr_idx_ok, ins_wtf8_ok. Qed.
Lemma wr_type_ok : wr_ok wr_type (fun _ => wf_desc) fmt_desc.
Proof.
  apply wr_idx_ok. intros E t w [Hw Hj] Hi. rewrite type_to_wtf8_text.
  apply (ins_wtf8_ok E (ty_text t) w Hj Hi).
Qed.
Lemma wr_strcp_ok tag : In tag [7; 8; 19; 20] -> wr_ok (wr_strcp tag) (fun _ => jstr) (fmt_indirect tag).
Proof. intros H. apply wr_idx_ok, ins_indirect_ok. auto. Qed.
Lemma wr_nametype_ok : wr_ok wr_nametype (fun _ nt => jstr (fst nt) /\ utf8_desc (snd nt)) fmt_nametype.
Proof.
  apply wr_idx_ok. intros E [n t] w [Hn Ht] Hi. cbn [fst snd] in *. rewrite display_desc by auto.
  cbn [bind]. eapply post_mono; [apply (ins_nametype_ok E (n, ty_text t)); [split; [auto|apply Ht]|auto]|].
  cbn. auto.
Qed.
Lemma wr_member_ok : wr_ok wr_member (fun _ => wf_member) fmt_member.
Proof. apply wr_idx_ok, ins_member_ok. Qed.
Lemma wr_constant_ok : wr_ok wr_constant (fun _ => wf_constant) fmt_constant.
Proof. apply wr_idx_ok, ins_constant_ok. Qed.
Definition wf_mhandle (h : mhandle) : Prop := wf_member (h_member h) /\ mh_check h = Ok tt.
Lemma wr_mhandle_ok : wr_ok wr_mhandle (fun _ => wf_mhandle) fmt_mhandle.
Proof.
  intros E h w [Hw Hc] Hi. unfold wr_mhandle. rewrite Hc. cbn [bind].
  eapply post_bind; [apply wr_member_ok; auto|]. cbn beta. intros bs w1 Hl1 Hi1 HF.
  apply post_ret; auto. eapply later_mono; [|exact HF]. cbn beta. intros W _ H.
  exists (mhkind_u8 (h_kind h)), bs. rewrite be1_u1. split; auto. apply mhkind_number.
Qed.
Lemma wr_bsm_ok : wr_ok wr_bsm (fun E => wf_bsm (we_heap E)) fmt_bsm.
Proof.
  intros E b w (Hh & Hl & Ha) Hi. unfold wr_bsm.
  eapply post_bind; [apply (wr_idx_ok _ _ _ ins_mhandle_ok); auto|]. cbn beta.
  intros h w1 Hl1 Hi1 H1. eapply post_bind.
  { apply (wr_each_ok _ _ _ (wr_idx_ok _ _ _ ins_ordyn_ok)); auto. }
  cbn beta. intros xs w2 Hl2 Hi2 H2. apply post_ret; auto.
  pose proof (later_le _ _ _ _ Hl2 H1) as H1'.
  intros Hf Hb W Hag Hho. destruct (H2 Hf Hb W Hag Hho) as (bss & -> & HB).
  exists h, (u2 (len (b_args b)) ++ concat bss). rewrite be2_u2. split; [auto|].
  split; [apply H1'; auto|]. exists bss. auto.
Qed.

(** ** Readers *)
Definition rd_ok {A} (r : pool -> rd A) (P : A -> Prop) (F : fmt A) : Prop :=
  forall W a bs rest, P a -> F W a bs -> r (W_pool W) (bs ++ rest) = Ok (a, rest).

Lemma rd_idx_ok {A} (f : pool -> Z -> res (option A)) (P : A -> Prop) (R : pool -> Z -> A -> Prop) :
  (forall p i a, P a -> R p i a -> f p i = Ok (Some a)) ->
  rd_ok (fun p => rd_idx (f p)) P (fmt_pidx R).
Proof.
  intros Hf W a bs rest HP (i & Hi & -> & HR). unfold rd_idx.
  rewrite rd_u16_u2 by (unfold u16; lia). cbn [bind]. rewrite (Hf _ _ _ HP HR). reflexivity.
Qed.
Lemma rd_opt_ok {A} (f : pool -> Z -> res (option A)) (P : A -> Prop) (R : pool -> Z -> A -> Prop) :
  (forall p i a, P a -> R p i a -> f p i = Ok (Some a)) ->
  rd_ok (fun p => rd_opt (f p)) (fun o => match o with Some a => P a | None => True end)
    (fmt_opt (fmt_pidx R)).
Proof.
  intros Hf W [a|] bs rest HP; cbn [fmt_opt].
  - intros (i & Hi & -> & HR). unfold rd_opt. rewrite rd_u16_u2 by (unfold u16; lia). cbn [bind].
    assert (i =? 0 = false) as -> by lia. rewrite (Hf _ _ _ HP HR). reflexivity.
  - intros ->. unfold rd_opt. rewrite rd_u16_u2 by (unfold u16; lia). reflexivity.
Qed.
Lemma rd_mono {A} (r : pool -> rd A) (P P' : A -> Prop) (F F' : fmt A) :
  rd_ok r P F -> (forall a, P' a -> P a) -> (forall W a bs, P' a -> F' W a bs -> F W a bs) ->
  rd_ok r P' F'.
Proof. intros Hr HP HF W a bs rest Ha Hf. apply Hr; auto. Qed.

Lemma read_wtf8_ok p i s : is_utf8_at p i s -> read_wtf8 p i = Some s.
Proof. unfold is_utf8_at, read_wtf8. intros ->. reflexivity. Qed.
Lemma read_indirect_ok tag p i s : is_indirect tag p i s -> read_indirect_str tag p i = Some s.
Proof.
  unfold is_indirect, is_class, is_string, is_module, is_package, read_indirect_str.
  intros [[-> (j & -> & H)]|[[-> (j & -> & H)]|[[-> (j & -> & H)]|[-> (j & -> & H)]]]];
    cbn; apply read_wtf8_ok; auto.
Qed.
Lemma read_class_ok p i s : is_class p i s -> read_indirect_str 7 p i = Some s.
Proof. intros H. apply read_indirect_ok. left. auto. Qed.
Lemma parse_ok_text md t : wf_ty t -> parse_ok md (ty_text t) = Ok (Some t).
Proof. intros H. unfold parse_ok. rewrite parse_type_text by auto. reflexivity. Qed.
Lemma read_nametype_ok md p i n t : wf_ty t -> is_nametype p i n t ->
  read_nameandtype md p i = Ok (Some (n, t)).
Proof.
  intros Hw (a & b & H & Ha & Hb). unfold read_nameandtype. rewrite H.
  rewrite (read_wtf8_ok _ _ _ Ha), (read_wtf8_ok _ _ _ Hb), parse_ok_text by auto. reflexivity.
Qed.
Lemma read_member_ok md p i m : wf_member m -> is_member p i m -> read_member md p i = Ok (Some m).
Proof.
  intros (_ & _ & [[Hw _] _] & Hitf) (c & nt & H & Hc & Hn). unfold read_member. rewrite H.
  destruct m as [o n t f]; cbn [m_desc m_itfs m_owner m_name] in *.
  destruct t; try destruct f; cbn [ty_is_method] in Hitf; try (specialize (Hitf eq_refl); discriminate);
    rewrite (read_class_ok _ _ _ Hc), (read_nametype_ok md _ _ _ _ Hw Hn); reflexivity.
Qed.
Lemma read_mhandle_ok md p i h : wf_member (h_member h) -> is_mhandle p i h ->
  read_method_handle md p i = Ok (Some h).
Proof.
  intros Hw (k & m & H & Hk & Hm). unfold read_method_handle. rewrite H.
  rewrite (read_member_ok md _ _ _ Hw Hm), (mhkind_of_number _ _ Hk). destruct h. reflexivity.
Qed.
Lemma read_constant_ok md p i k : wf_constant k -> is_constant p i k -> read_constant md p i = Ok (Some k).
Proof.
  intros Hw H. destruct k; cbn [wf_constant is_constant] in *; unfold read_constant.
  1-4: rewrite H; reflexivity.
  - destruct H as (j & -> & H). rewrite (read_wtf8_ok _ _ _ H). reflexivity.
  - destruct H as (j & -> & H). rewrite (read_wtf8_ok _ _ _ H). reflexivity.
  - pose proof (read_member_ok md p i m Hw H) as Hr. destruct H as (c & nt & H & _).
    rewrite H. rewrite Hr. destruct (m_desc m); auto. destruct (m_itfs m); auto.
  - destruct H as (j & -> & H). rewrite (read_wtf8_ok _ _ _ H). rewrite parse_ok_text by apply Hw. reflexivity.
  - pose proof (read_mhandle_ok md p i h Hw H) as Hr. destruct H as (n & m & H & _).
    unfold read_method_handle in Hr. rewrite H in *. destruct (read_member md p m); try discriminate.
    cbn [bind] in *. destruct (zip_handle (mhkind_of n) a); [|discriminate]. inversion Hr; reflexivity.
Qed.

Lemma rd_cow_ok : rd_ok rd_cow jstr fmt_utf8.
Proof.
  apply (rd_idx_ok (fun p i => Ok (read_wtf8 p i)) jstr). intros p i s _ H. rewrite (read_wtf8_ok _ _ _ H). auto.
Qed.
Lemma rd_opt_cow_ok : rd_ok rd_opt_cow (fun o => match o with Some s => jstr s | None => True end) (fmt_opt fmt_utf8).
Proof.
  apply (rd_opt_ok (fun p i => Ok (read_wtf8 p i)) jstr). intros p i s _ H. rewrite (read_wtf8_ok _ _ _ H). auto.
Qed.
Lemma rd_type_ok md : rd_ok (rd_type md) wf_desc fmt_desc.
Proof.
  intros W t bs rest [Hw Hj] (i & Hi & -> & HR). unfold rd_type, rd_cow, rd_idx', rd_idx.
  rewrite rd_u16_u2 by (unfold u16; lia). cbn [bind]. rewrite (read_wtf8_ok _ _ _ HR). cbn [bind].
  rewrite parse_type_text by auto. reflexivity.
Qed.
Lemma rd_strcp_ok tag : rd_ok (rd_strcp tag) jstr (fmt_indirect tag).
Proof.
  apply (rd_idx_ok (fun p i => Ok (read_indirect_str tag p i)) jstr). intros p i s _ H.
  rewrite (read_indirect_ok _ _ _ _ H). auto.
Qed.
Lemma rd_opt_strcp_ok tag :
  rd_ok (rd_opt_strcp tag) (fun o => match o with Some s => jstr s | None => True end) (fmt_opt (fmt_indirect tag)).
Proof.
  apply (rd_opt_ok (fun p i => Ok (read_indirect_str tag p i)) jstr). intros p i s _ H.
  rewrite (read_indirect_ok _ _ _ _ H). auto.
Qed.
Lemma rd_opt_nametype_ok md :
  rd_ok (rd_opt_nametype md)
    (fun o => match o with Some nt => jstr (fst nt) /\ utf8_desc (snd nt) | None => True end) (fmt_opt fmt_nametype).
Proof.
  apply (rd_opt_ok (read_nameandtype md)). intros p i [n t] [_ [[Hw _] _]] H.
  apply read_nametype_ok; auto.
Qed.
Lemma rd_member_ok md : rd_ok (rd_member md) wf_member fmt_member.
Proof. apply (rd_idx_ok (read_member md)). intros. apply read_member_ok; auto. Qed.
Lemma rd_constant_ok md : rd_ok (rd_constant md) wf_constant fmt_constant.
Proof. apply (rd_idx_ok (read_constant md)). intros. apply read_constant_ok; auto. Qed.
Lemma rd_mhandle_ok md : rd_ok (rd_mhandle md) wf_mhandle fmt_mhandle.
Proof.
  intros W h bs rest [Hw Hc] (k & x & Hk & -> & Hx). unfold rd_mhandle, rd_mhkind.
  rewrite <- app_assoc, rd_u8_u1.
  2:{ destruct Hk as [Hk Hk1]. assert (Hl : (Z.to_nat (k - 1) < 9)%nat).
      { apply (nth_error_Some [GetField; GetStatic; PutField; PutStatic; InvokeVirtual; InvokeStatic;
             InvokeSpecial; NewInvokeSpecial; InvokeInterface]). congruence. }
      unfold u8. lia. }
  cbn [bind]. rewrite (mhkind_of_number _ _ Hk). cbn [bind].
  rewrite (rd_member_ok md W _ _ _ Hw Hx). cbn [bind]. destruct h as [kk mm]. cbn [h_kind h_member] in *.
  rewrite Hc. reflexivity.
Qed.

Lemma rd_times_ok {A} (r : rd A) (G : A -> list Z -> Prop) xs bss rest :
  (forall a bs rest, In a xs -> G a bs -> r (bs ++ rest) = Ok (a, rest)) ->
  Forall2 G xs bss -> rd_times (length xs) r (concat bss ++ rest) = Ok (xs, rest).
Proof.
  intros Hr H. revert rest. induction H as [|a b xs bss HG _ IH]; intros rest; cbn [rd_times length concat].
  - reflexivity.
  - rewrite <- app_assoc, (Hr a b) by (auto; left; auto). cbn [bind].
    rewrite IH by (intros; apply Hr; auto; right; auto). reflexivity.
Qed.
Lemma rd_vec_ok {A} k (r : pool -> rd A) P F size limit :
  rd_ok r P F -> (forall x, be k x = size x) -> limit = 256 ^ Z.of_nat k ->
  rd_ok (fun p => rd_vec k (r p)) (fun xs => len xs < limit /\ Forall P xs) (fmt_table size limit F).
Proof.
  intros Hr Hs -> W xs bs rest [Hl HP] (bss & _ & -> & HB). unfold rd_vec.
  rewrite <- app_assoc, <- Hs, rd_u_be by (pose proof (len_nonneg xs); lia). cbn [bind].
  unfold len. rewrite Nat2Z.id. apply (rd_times_ok (r (W_pool W)) (F W)); auto.
  intros a b rest' Hin Hf. rewrite Forall_forall in HP. apply Hr; auto.
Qed.
Lemma rd_vec1_ok {A} (r : pool -> rd A) P F : rd_ok r P F ->
  rd_ok (fun p => rd_vec 1 (r p)) (fun xs => len xs < 256 /\ Forall P xs) (fmt_table1 F).
Proof. intros H. apply (rd_vec_ok 1 r P F u1 256 H be1_u1). reflexivity. Qed.
Lemma rd_vec2_ok {A} (r : pool -> rd A) P F : rd_ok r P F ->
  rd_ok (fun p => rd_vec 2 (r p)) (fun xs => len xs < 65536 /\ Forall P xs) (fmt_table2 F).
Proof. intros H. apply (rd_vec_ok 2 r P F u2 65536 H be2_u2). reflexivity. Qed.

(** ** The pool itself *)
Lemma wr_entries_ok es : Forall entry_wf es -> exists bss,
  mapM wr_raw es = Ok bss /\ Forall2 entry_fmt es bss.
Proof.
  induction 1 as [|e es He _ IH]; cbn [mapM].
  - exists []. auto.
  - destruct (wr_raw_ok e He) as (b & -> & Hb). destruct IH as (bss & -> & HB).
    exists (b :: bss). cbn. auto.
Qed.

(** The map after reading entries placed from [i] on. *)
Fixpoint place (i : Z) (es : list raw_entry) (m : list (Z * raw_entry)) : list (Z * raw_entry) :=
  match es with
  | [] => m
  | e :: es => place (i + slots_of e) es (assoc_set Z.eqb i e m)
  end.
Lemma rd_pool_loop_ok md es bss : Forall entry_wf es -> Forall2 entry_fmt es bss ->
  forall fuel i count m rest, 1 <= i -> i + count_of es - 1 = count -> count <= 65535 ->
  (length (concat bss) < fuel)%nat ->
  rd_pool_loop md fuel i count m (concat bss ++ rest) = Ok (place i es m, rest).
Proof.
  intros Hw Hf. induction Hf as [|e b es bss Hb Hf IH]; intros fuel i count m rest Hi Hc Hle Hfu.
  - cbn [concat app place]. unfold count_of in Hc. cbn in Hc.
    assert (i = count) by lia. subst i. destruct fuel; [lia|]. cbn [rd_pool_loop].
    assert (count <? count = false) as -> by lia. reflexivity.
  - inversion Hw; subst. rewrite count_of_cons in *. cbn [concat place] in *.
    pose proof (slots_pos e). pose proof (count_of_pos es).
    destruct fuel as [|fuel]; [lia|]. cbn [rd_pool_loop].
    assert (i <? i + (slots_of e + count_of es) - 1 = true) as -> by lia.
    rewrite <- app_assoc, (rd_raw_ok e b) by auto. cbn [bind]. rewrite raw_size_slots.
    unfold chk_u. change (2 ^ 16) with 65536.
    assert ((0 <=? i + slots_of e) && (i + slots_of e <? 65536) = true) as -> by lia. cbn [bind].
    apply IH; auto; try lia. rewrite app_length in Hfu. pose proof (entry_fmt_nonempty _ _ Hb). lia.
Qed.
Lemma place_low es : forall i m j, j < i -> assoc Z.eqb j (place i es m) = assoc Z.eqb j m.
Proof.
  induction es as [|e es IH]; intros i m j Hj; cbn [place]; auto.
  pose proof (slots_pos e). rewrite IH by lia. apply assoc_set_other; [apply Z.eqb_eq|lia].
Qed.
Lemma place_index es : forall i m e j, (forall j, i <= j -> assoc Z.eqb j m = None) -> i <= j ->
  (assoc Z.eqb j (place i es m) = Some e <-> In (e, j) (index_from i es)).
Proof.
  induction es as [|e0 es IH]; intros i m e j Hm Hj; cbn [place index_from In].
  - rewrite Hm by auto. split; [discriminate|tauto].
  - pose proof (slots_pos e0).
    assert (Hlow : forall es k, In (e, j) (index_from k es) -> k <= j).
    { clear. induction es as [|e' es IH]; cbn [index_from In]; [tauto|]. intros k [H|H].
      - inversion H; lia.
      - apply IH in H. pose proof (slots_pos e'). lia. }
    destruct (Z.ltb_spec j (i + slots_of e0)).
    + rewrite place_low by auto. destruct (Z.eqb_spec j i) as [->|Hne].
      * rewrite assoc_set_same by apply Z.eqb_eq. split.
        -- intros [= ->]. auto.
        -- intros [[= ->]|H']; auto. apply Hlow in H'. lia.
      * rewrite assoc_set_other by (apply Z.eqb_eq || auto). rewrite Hm by auto. split; [discriminate|].
        intros [[= -> ->]|H']; [lia|]. apply Hlow in H'. lia.
    + rewrite IH; [|intros k Hk; rewrite assoc_set_other by (apply Z.eqb_eq || lia); apply Hm; lia|lia].
      split; [auto|]. intros [[= -> ->]|H']; [lia|auto].
Qed.

Lemma index_from_assoc es : NoDup es -> forall i e j,
  In (e, j) (index_from i es) <-> assoc raw_eqb e (index_from i es) = Some j.
Proof.
  induction 1 as [|e0 es Hn Hd IH]; intros i e j; cbn [index_from In assoc].
  - split; [tauto|discriminate].
  - destruct (raw_eqb e e0) eqn:E.
    + apply raw_eqb_eq in E. subst. split; [|intros [= ->]; auto].
      intros [[= ->]|H]; auto. exfalso. apply Hn. apply (in_map fst) in H. cbn in H.
      rewrite index_from_keys in H. auto.
    + rewrite <- IH. split; [|auto]. intros [[= -> ->]|H]; auto. rewrite raw_eqb_refl in E. discriminate.
Qed.

(** Written and read back, exactly the cached indices resolve. *)
Lemma pool_roundtrip w : w_inv w -> fits w ->
  exists bs, wr_pool w = Ok bs /\
  forall md rest, exists m, rd_pool md (bs ++ rest) = Ok (m, rest) /\
    forall e i, pool_of m i = Some e <-> lookup w e = Some i.
Proof.
  intros Hi Hf. unfold wr_pool. destruct (wr_entries_ok _ (wi_wf w Hi)) as (bss & -> & HB). cbn [bind].
  eexists. split; [reflexivity|]. intros md rest. destruct (wi_fit w Hi Hf) as [Hc Hl].
  exists (place 1 (w_entries w) []). split.
  - unfold rd_pool. rewrite <- app_assoc, rd_u16_be by apply (wi_len w Hi). cbn [bind].
    apply rd_pool_loop_ok; auto; try lia.
    + apply (wi_wf w Hi).
    + unfold fits in Hf. lia.
    + rewrite app_length. lia.
  - intros e i. unfold pool_of, lookup. rewrite Hc, <- index_from_assoc by apply (wi_nodup w Hi).
    destruct (Z.ltb_spec i 1).
    + rewrite place_low by auto. cbn. split; [discriminate|]. intros Hin.
      assert (Hlow : forall es k, In (e, i) (index_from k es) -> k <= i).
      { clear. induction es as [|e' es IH]; cbn [index_from In]; [tauto|]. intros k [H|H].
        - inversion H; lia.
        - apply IH in H. pose proof (slots_pos e'). lia. }
      apply Hlow in Hin. lia.
    + apply place_index; auto.
Qed.
