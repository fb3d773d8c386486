(** Theorems about the constant pool: C20-C27 and the bootstrap part of C18. *)
From Coq Require Import FinFun.
From Verif Require Import Base BaseLemmas Wtf8Spec Wtf8Model MutfModel PrimModel PrimProofs
  TypeModel TypeSpec TypeProofs CpModel CpSpec CpProofs.

(** C20 *)
Theorem C20_entry_layout : forall e, entry_wf e ->
  exists bs, wr_raw e = Ok bs /\ entry_fmt e bs /\
    forall rest, rd_raw (bs ++ rest) = Ok (e, rest).
Proof.
  intros e He. destruct (wr_raw_ok e He) as (bs & Hw & Hf). exists bs. split; auto. split; auto.
  intros rest. apply rd_raw_ok; auto.
Qed.
Example C20_ex : entry_wf (RLong (-2)) /\
  wr_raw (RLong (-2)) = Ok [5; 255; 255; 255; 255; 255; 255; 255; 254].
Proof. split; [unfold entry_wf, i64; lia|reflexivity]. Qed.
Print Assumptions C20_entry_layout.

(** Reading accepts nothing but the JVMS tags. *)
Theorem C20_unknown_tag : forall t l, u8 t ->
  ~ In t [1; 3; 4; 5; 6; 7; 8; 9; 10; 11; 12; 15; 16; 17; 18; 19; 20] ->
  rd_raw (t :: l) = Err EInvalid.
Proof.
  intros t l Ht Hn. unfold rd_raw. rewrite tag_read by auto. cbn [bind].
  cbn [In] in Hn.
  repeat match goal with |- context [t =? ?k] =>
    assert (t =? k = false) as -> by (apply Z.eqb_neq; intros ->; apply Hn; tauto) end.
  reflexivity.
Qed.
Example C20_tag_ex : rd_raw [2; 0; 0] = Err EInvalid. Proof. reflexivity. Qed.
Print Assumptions C20_unknown_tag.

(** A sequence of insertions into one pool, with the indices handed out. *)
Fixpoint insert_all (E : wenv) (es : list raw_entry) (w : wst) : res (list Z * wst) :=
  match es with
  | [] => Ok ([], w)
  | e :: es =>
      '(i, w) <- insert_raw E e w ;; '(is, w) <- insert_all E es w ;; Ok (i :: is, w)
  end.

(** The slots of a duplicate-free list are bounded by those of any list
    containing it. *)
Lemma count_of_incl l l' : NoDup l -> incl l l' -> count_of l <= count_of l'.
Proof.
  intros Hn. revert l'. induction Hn as [|e l Hni Hn IH]; intros l' Hi.
  - apply count_of_pos.
  - assert (Hin : In e l') by (apply Hi; left; auto).
    apply in_split in Hin as (a & b & ->). rewrite count_of_cons, count_of_app, count_of_cons.
    assert (Hi' : incl l (a ++ b)).
    { intros x Hx. assert (x <> e) by (intros ->; auto).
      specialize (Hi x (or_intror Hx)). apply in_app_iff in Hi as [H'|[H'|H']]; [|congruence|];
        apply in_app_iff; auto. }
    specialize (IH _ Hi'). rewrite count_of_app in IH. lia.
Qed.

Lemma insert_all_ok E es : Forall entry_wf es -> forall w, w_inv w ->
  forall ds, NoDup ds -> incl es ds -> incl (w_entries w) ds -> count_of ds <= 65535 ->
  exists is w', insert_all E es w = Ok (is, w') /\ w_inv w' /\ w_le w w' /\ fits w' /\
    incl (w_entries w') (w_entries w ++ es) /\
    Forall2 (fun e i => lookup w' e = Some i) es is.
Proof.
  induction 1 as [|e es He Hes IH]; intros w Hi ds Hd Hinc Hw Hc; cbn [insert_all].
  - exists [], w. assert (fits w).
    { unfold fits. pose proof (count_of_incl _ _ (wi_nodup w Hi) Hw). lia. }
    split; auto. split; auto. split; [apply w_le_refl|]. split; auto. split; [apply incl_appl, incl_refl|constructor].
  - pose proof (insert_raw_ok E e w He Hi) as H.
    assert (Hent : forall i w1, insert_raw E e w = Ok (i, w1) -> incl (w_entries w1) (w_entries w ++ [e])).
    { unfold insert_raw. intros i w1. destruct (assoc raw_eqb e (w_cache w)).
      - intros [= _ <-]. apply incl_appl, incl_refl.
      - destruct (chk_u (we_md E) 16 (w_len w + raw_size e)); cbn [bind]; try discriminate.
        intros [= _ <-]. apply incl_refl. }
    assert (Hwe : incl (w_entries w ++ [e]) ds).
    { apply incl_app; auto. intros x [<-|[]]. apply Hinc. left; auto. }
    destruct (insert_raw E e w) as [[i w1]| |] eqn:Ei.
    + destruct H as (Hle & Hi1 & Hu & Hl & _ & _). cbn [bind].
      destruct (IH w1 Hi1 ds Hd) as (is & w' & -> & Hi' & Hle' & Hf' & Hin' & HF); auto.
      { intros x Hx. apply Hinc. right; auto. }
      { eapply incl_tran; [apply (Hent _ _ eq_refl)|auto]. }
      cbn [bind]. exists (i :: is), w'. split; auto. split; auto. split; [eapply w_le_trans; eauto|].
      split; auto. split.
      * intros x Hx. apply Hin' in Hx. apply in_app_iff in Hx as [Hx|Hx].
        -- apply (Hent _ _ eq_refl) in Hx. apply in_app_iff in Hx as [Hx|[<-|[]]]; apply in_app_iff;
             [left|right; left]; auto.
        -- apply in_app_iff. right; right; auto.
      * constructor; auto. eapply lookup_le; eauto.
    + contradiction.
    + exfalso. assert (Hf : fits w).
      { unfold fits. pose proof (count_of_incl _ _ (wi_nodup w Hi) Hw). lia. }
      unfold insert_raw in Ei. destruct (assoc raw_eqb e (w_cache w)) eqn:Ea; [discriminate|].
      destruct (wi_fit w Hi Hf) as [_ Hl].
      assert (Hnd : NoDup (w_entries w ++ [e])).
      { apply (NoDup_Add (a:=e) (l:=w_entries w)); [|split; [apply (wi_nodup w Hi)|]].
        - rewrite <- (app_nil_r (w_entries w)) at 1. apply Add_app.
        - rewrite <- (wi_keys w Hi). apply assoc_none. auto. }
      pose proof (count_of_incl _ _ Hnd Hwe) as Hb. rewrite count_of_app, count_of_one in Hb.
      unfold chk_u in Ei. change (2 ^ 16) with 65536 in Ei. rewrite raw_size_slots in Ei.
      pose proof (slots_pos e). pose proof (count_of_pos (w_entries w)).
      assert ((0 <=? w_len w + slots_of e) && (w_len w + slots_of e <? 65536) = true) as Hcc by lia.
      rewrite Hcc in Ei. discriminate.
Qed.

Lemma index_from_disjoint es : forall k e i e' i', In (e, i) (index_from k es) ->
  In (e', i') (index_from k es) -> NoDup es -> e <> e' ->
  i + slots_of e <= i' \/ i' + slots_of e' <= i.
Proof.
  assert (Hlow : forall es k e j, In (e, j) (index_from k es) -> k <= j).
  { clear. induction es as [|e' es IH]; cbn [index_from In]; [tauto|]. intros k e j [H|H].
    - inversion H; lia.
    - apply IH in H. pose proof (slots_pos e'). lia. }
  induction es as [|e0 es IH]; intros k e i e' i' H1 H2 Hn Hne; cbn [index_from In] in *; [tauto|].
  inversion Hn; subst. destruct H1 as [[= -> ->]|H1], H2 as [[= -> ->]|H2].
  - congruence.
  - left. apply Hlow in H2. auto.
  - right. apply Hlow in H1. auto.
  - eapply IH; eauto.
Qed.

(** C21: [ds] is any list of distinct entries containing the inserted ones that
    fits a pool. *)
Theorem C21_insertion : forall E es ds,
  Forall entry_wf es -> NoDup ds -> incl es ds -> count_of ds <= 65535 ->
  exists is w, insert_all E es wst_new = Ok (is, w) /\ length is = length es /\
    (forall a e i, nth_error es a = Some e -> nth_error is a = Some i ->
       1 <= i /\ i + slots_of e <= 65535 /\ insert_raw E e w = Ok (i, w)) /\
    (forall a b ea eb ia ib,
       nth_error es a = Some ea -> nth_error is a = Some ia ->
       nth_error es b = Some eb -> nth_error is b = Some ib ->
       (ea = eb -> ia = ib) /\
       (ea <> eb -> ia + slots_of ea <= ib \/ ib + slots_of eb <= ia)).
Proof.
  intros E es ds Hw Hd Hi Hc.
  destruct (insert_all_ok E es Hw wst_new w_inv_new ds Hd Hi) as (is & w & Hins & Hinv & Hle & Hf & Hent & HF);
    auto; [intros x []|].
  exists is, w. split; auto. split; [symmetry; eapply Forall2_len; eauto|].
  assert (Hl : forall a e i, nth_error es a = Some e -> nth_error is a = Some i -> lookup w e = Some i).
  { clear -HF. induction HF as [|e i es is H _ IH]; intros a e' i'; destruct a; cbn; try discriminate.
    - intros [= <-] [= <-]. auto.
    - apply IH. }
  destruct (wi_fit w Hinv Hf) as [Hcache Hlen].
  assert (Hin : forall e i, lookup w e = Some i -> In (e, i) (index_from 1 (w_entries w))).
  { intros e i H. apply index_from_assoc; [apply (wi_nodup w Hinv)|]. rewrite <- Hcache. auto. }
  split.
  - intros a e i Ha Hb. pose proof (Hl _ _ _ Ha Hb) as H. pose proof (Hin _ _ H) as HI.
    assert (Hb' : forall l k, In (e, i) (index_from k l) -> k <= i /\ i + slots_of e <= k + count_of l - 1).
    { clear. induction l as [|e0 l IH]; cbn [index_from In]; [tauto|]. intros k [[= -> ->]|H].
      - rewrite count_of_cons. pose proof (count_of_pos l). lia.
      - apply IH in H. rewrite count_of_cons. pose proof (slots_pos e0). lia. }
    apply Hb' in HI. unfold fits in Hf. split; [lia|]. split; [lia|].
    unfold insert_raw. unfold lookup in H. rewrite H. reflexivity.
  - intros a b ea eb ia ib Ha Hai Hb Hbi.
    pose proof (Hl _ _ _ Ha Hai) as H1. pose proof (Hl _ _ _ Hb Hbi) as H2. split.
    + intros ->. congruence.
    + intros Hne. apply (index_from_disjoint (w_entries w) 1); auto. apply (wi_nodup w Hinv).
Qed.
Example C21_ex :
  let es := [RWtf8 [65]; RLong 7; RClass 1; RLong 7; RWtf8 [65]] in
  Forall entry_wf es /\ insert_all (wenv_class Debug (fun _ => None)) es wst_new
    = Ok ([1; 2; 4; 2; 1],
          {| w_entries := [RWtf8 [65]; RLong 7; RClass 1];
             w_cache := [(RWtf8 [65], 1); (RLong 7, 2); (RClass 1, 4)]; w_len := 5; w_bsm := [] |}).
Proof.
  split; [|reflexivity]. repeat constructor; cbn; try (unfold u16; lia).
  - exists [65]. split; [repeat constructor; unfold is_cp; cbn; lia|vm_compute; discriminate].
  - exists [65]. split; [repeat constructor; unfold is_cp; cbn; lia|vm_compute; discriminate].
Qed.
Print Assumptions C21_insertion.

(** C22 *)
Theorem C22_write_read : forall E es ds,
  Forall entry_wf es -> NoDup ds -> incl es ds -> count_of ds <= 65535 ->
  exists is w bs, insert_all E es wst_new = Ok (is, w) /\ wr_pool w = Ok bs /\
    forall md rest, exists m, rd_pool md (bs ++ rest) = Ok (m, rest) /\
      forall i e, pool_of m i = Some e <->
        exists a, nth_error es a = Some e /\ nth_error is a = Some i.
Proof.
  intros E es ds Hw Hd Hi Hc.
  destruct (insert_all_ok E es Hw wst_new w_inv_new ds Hd Hi) as (is & w & Hins & Hinv & Hle & Hf & Hent & HF);
    auto; [intros x []|].
  destruct (pool_roundtrip w Hinv Hf) as (bs & Hbs & Hrd).
  exists is, w, bs. split; auto. split; auto. intros md rest. destruct (Hrd md rest) as (m & Hm & Hp).
  exists m. split; auto. intros i e. rewrite Hp. split.
  - intros Hl. assert (Hine : In e es).
    { apply (Hent e). rewrite <- (wi_keys w Hinv). destruct (in_dec raw_eq_dec e (map fst (w_cache w))); auto.
      apply assoc_none in n. unfold lookup in Hl. congruence. }
    apply In_nth_error in Hine as (a & Ha). exists a. split; auto.
    assert (Hx : forall l l' n, Forall2 (fun e i => lookup w e = Some i) l l' -> nth_error l n = Some e ->
              exists j, nth_error l' n = Some j /\ lookup w e = Some j).
    { clear. intros l l' n H. revert n. induction H as [|x y l l' Hxy _ IH]; intros [|n]; cbn; try discriminate.
      - intros [= ->]. eauto.
      - apply IH. }
    destruct (Hx _ _ _ HF Ha) as (j & Hj & Hlj). congruence.
  - intros (a & Ha & Hb). clear -HF Ha Hb. revert a Ha Hb.
    induction HF as [|x y l l' Hxy _ IH]; intros [|a]; cbn; try discriminate.
    + intros [= ->] [= ->]. auto.
    + apply IH.
Qed.
Example C22_ex : rd_pool Debug [0; 4; 5; 0; 0; 0; 0; 0; 0; 0; 7; 7; 0; 9; 99]
  = Ok ([(1, RLong 7); (3, RClass 9)], [99]).
Proof. reflexivity. Qed.
Print Assumptions C22_write_read.

(** The bytes are the JVMS layout: count, then the entries in index order. *)
Theorem C22_pool_layout : forall E es ds,
  Forall entry_wf es -> NoDup ds -> incl es ds -> count_of ds <= 65535 ->
  exists is w us bss, insert_all E es wst_new = Ok (is, w) /\ NoDup us /\
    (forall e, In e us <-> In e es) /\ Forall2 entry_fmt us bss /\
    wr_pool w = Ok (u2 (count_of us) ++ concat bss).
Proof.
  intros E es ds Hw Hd Hi Hc.
  destruct (insert_all_ok E es Hw wst_new w_inv_new ds Hd Hi) as (is & w & Hins & Hinv & Hle & Hf & Hent & HF);
    auto; [intros x []|].
  destruct (wr_entries_ok _ (wi_wf w Hinv)) as (bss & Hm & HB).
  exists is, w, (w_entries w), bss. split; auto. split; [apply (wi_nodup w Hinv)|]. split.
  - intros e. split; [apply Hent|]. intros He. apply In_nth_error in He as (a & Ha).
    rewrite <- (wi_keys w Hinv). destruct (in_dec raw_eq_dec e (map fst (w_cache w))); auto.
    apply assoc_none in n. exfalso. clear -HF Ha n. revert a Ha.
    induction HF as [|x y l l' Hxy _ IH]; intros [|a]; cbn; try discriminate.
    + intros [= ->]. unfold lookup in Hxy. congruence.
    + apply IH.
  - split; auto. unfold wr_pool. rewrite Hm. cbn [bind]. rewrite be2_u2.
    destruct (wi_fit w Hinv Hf) as [_ ->]. reflexivity.
Qed.
Example C22_layout_ex : let es := [RLong 7; RClass 9; RLong 7] in
  Forall entry_wf es /\ NoDup [RLong 7; RClass 9] /\ incl es [RLong 7; RClass 9] /\ count_of [RLong 7; RClass 9] <= 65535.
Proof.
  cbn zeta. split; [repeat constructor; cbn; unfold u16; lia|]. split; [repeat constructor; cbn; intuition discriminate|].
  split; [intros x; cbn; tauto|]. vm_compute. discriminate.
Qed.
Print Assumptions C22_pool_layout.

(** C23: refuted.  Distinct entries beyond the limit: a debug build panics, a
    release build hands out an index twice. *)
Lemma insert_new_release E e w : we_md E = Release -> lookup w e = None ->
  exists w1, insert_raw E e w = Ok (w_len w, w1) /\ w_len w1 = (w_len w + slots_of e) mod 65536 /\
    w_entries w1 = w_entries w ++ [e] /\
    forall x, x <> e -> lookup w1 x = lookup w x.
Proof.
  intros Hm Hl. unfold insert_raw. unfold lookup in Hl. rewrite Hl, Hm.
  assert (Hchk : chk_u Release 16 (w_len w + raw_size e) = Ok ((w_len w + slots_of e) mod 65536)).
  { unfold chk_u, wrap_u. change (2 ^ 16) with 65536. rewrite raw_size_slots.
    destruct ((0 <=? w_len w + slots_of e) && (w_len w + slots_of e <? 65536)) eqn:Ec; auto.
    rewrite Z.mod_small by lia. auto. }
  rewrite Hchk. cbn [bind]. eexists. split; [reflexivity|]. cbn. repeat split; auto.
  intros x Hx. unfold lookup. cbn. rewrite assoc_app. cbn.
  destruct (raw_eqb x e) eqn:Ex; [apply raw_eqb_eq in Ex; congruence|].
  destruct (assoc raw_eqb x (w_cache w)); auto.
Qed.
Lemma insert_all_release E es : we_md E = Release -> NoDup es -> forall w,
  (forall e, In e es -> lookup w e = None) -> u16 (w_len w) ->
  exists is w', insert_all E es w = Ok (is, w') /\
    w_len w' = (w_len w + count_of es - 1) mod 65536 /\
    forall pre e post, es = pre ++ e :: post ->
      nth_error is (length pre) = Some ((w_len w + count_of pre - 1) mod 65536).
Proof.
  intros Hm Hn. induction Hn as [|e es Hni Hn IH]; intros w Hl Hu; cbn [insert_all]; unfold u16 in Hu.
  - exists [], w. split; auto. split.
    + unfold count_of. cbn. rewrite Z.mod_small; lia.
    + intros [|] ? ?; discriminate.
  - destruct (insert_new_release E e w Hm (Hl e (or_introl eq_refl))) as (w1 & -> & Hl1 & _ & Hlk).
    cbn [bind]. destruct (IH w1) as (is & w' & -> & Hlen & Hnth).
    { intros x Hx. rewrite Hlk; [apply Hl; right; auto|]. intros ->. auto. }
    { rewrite Hl1. unfold u16. lia. }
    cbn [bind]. exists (w_len w :: is), w'. split; auto. split.
    + rewrite Hlen, Hl1, count_of_cons.
      replace ((w_len w + slots_of e) mod 65536 + count_of es - 1)
        with ((w_len w + slots_of e) mod 65536 + (count_of es - 1)) by lia.
      rewrite Z.add_mod_idemp_l by lia. f_equal. lia.
    + intros [|e0 pre] e' post Heq; inversion Heq; subst.
      * cbn. f_equal. unfold count_of. cbn. rewrite Z.mod_small; lia.
      * cbn [length nth_error]. rewrite (Hnth pre e' post eq_refl), Hl1, count_of_cons. f_equal.
        replace ((w_len w + slots_of e0) mod 65536 + count_of pre - 1)
          with ((w_len w + slots_of e0) mod 65536 + (count_of pre - 1)) by lia.
        rewrite Z.add_mod_idemp_l by lia. f_equal. lia.
Qed.
Lemma insert_all_debug_panic E es : we_md E = Debug -> NoDup es -> forall w,
  (forall e, In e es -> lookup w e = None) -> 0 <= w_len w -> 65535 < w_len w + count_of es - 1 ->
  w_len w <= 65535 ->
  insert_all E es w = Panic POverflow.
Proof.
  intros Hm Hn. induction Hn as [|e es Hni Hn IH]; intros w Hl Hu Hc Hw; cbn [insert_all].
  - unfold count_of in Hc. cbn in Hc. lia.
  - unfold insert_raw. rewrite (Hl e (or_introl eq_refl) : assoc raw_eqb e (w_cache w) = None).
    rewrite Hm. unfold chk_u. change (2 ^ 16) with 65536. rewrite raw_size_slots.
    pose proof (slots_pos e). rewrite count_of_cons in Hc.
    destruct ((0 <=? w_len w + slots_of e) && (w_len w + slots_of e <? 65536)) eqn:Ec; [|reflexivity].
    cbn [bind]. rewrite IH; auto; cbn [w_len]; try lia.
    intros x Hx. unfold lookup. cbn [w_cache]. rewrite assoc_app.
    pose proof (Hl x (or_intror Hx)) as Hx'. unfold lookup in Hx'. rewrite Hx'. cbn.
    destruct (raw_eqb x e) eqn:Ex; auto. apply raw_eqb_eq in Ex. subst. contradiction.
Qed.

Lemma nat_for z : 0 <= z -> exists n, Z.of_nat n = z.
Proof. intros H. exists (Z.to_nat z). apply Z2Nat.id. auto. Qed.
(** [n] different Integer entries. *)
Definition ints (n : nat) : list raw_entry := map (fun i => RInt (Z.of_nat i)) (seq 0 n).
Lemma ints_nodup n : NoDup (ints n).
Proof.
  unfold ints. apply FinFun.Injective_map_NoDup; [|apply seq_NoDup].
  intros a b H. inversion H. lia.
Qed.
Lemma count_of_ones es : Forall (fun e => slots_of e = 1) es -> count_of es = 1 + len es.
Proof.
  induction 1 as [|e es He _ IH]; [reflexivity|]. rewrite count_of_cons, len_cons, IH, He. lia.
Qed.
Lemma ints_count n : count_of (ints n) = 1 + Z.of_nat n.
Proof.
  rewrite count_of_ones.
  - unfold len, ints. rewrite map_length, seq_length. lia.
  - unfold ints. apply Forall_forall. intros e He. apply in_map_iff in He as (x & <- & _). reflexivity.
Qed.

Theorem C23_insert_overflow_refuted :
  (* a debug build panics on every overflowing history ... *)
  (forall E es, we_md E = Debug -> NoDup es -> 65535 < count_of es ->
     insert_all E es wst_new = Panic POverflow) /\
  (* ... a release build silently reduces counter and indices modulo 2^16 ... *)
  (forall E es, we_md E = Release -> NoDup es ->
     exists is w, insert_all E es wst_new = Ok (is, w) /\ w_len w = count_of es mod 65536 /\
       forall pre e post, es = pre ++ e :: post ->
         nth_error is (length pre) = Some (count_of pre mod 65536)) /\
  (* ... so two different entries share an index. *)
  (forall E, we_md E = Release -> exists es is w a b ea eb i,
     insert_all E es wst_new = Ok (is, w) /\ Forall entry_wf es /\ ea <> eb /\
     nth_error es a = Some ea /\ nth_error is a = Some i /\
     nth_error es b = Some eb /\ nth_error is b = Some i).
Proof.
  split; [|split].
  - intros E es Hm Hn Hc. apply insert_all_debug_panic; auto; cbn; lia.
  - intros E es Hm Hn. destruct (insert_all_release E es Hm Hn wst_new) as (is & w & H1 & H2 & H3); auto.
    { unfold u16. cbn. lia. }
    exists is, w. split; auto. cbn [w_len wst_new] in *. split; [rewrite H2; f_equal; lia|].
    intros pre e post He. rewrite (H3 pre e post He). f_equal. f_equal. lia.
  - intros E Hm. destruct (nat_for 65536 ltac:(lia)) as (N & HN).
    destruct (insert_all_release E (ints (S N)) Hm (ints_nodup _) wst_new) as (is & w & H1 & H2 & H3); auto.
    { unfold u16. cbn. lia. }
    exists (ints (S N)), is, w, 0%nat, N, (RInt 0), (RInt 65536), 1. split; auto.
    assert (Hlast : ints (S N) = ints N ++ [RInt 65536]).
    { unfold ints. rewrite seq_S, map_app. cbn. rewrite HN. reflexivity. }
    assert (Hfirst : exists r, ints (S N) = [] ++ RInt 0 :: r).
    { unfold ints. cbn. eauto. }
    destruct Hfirst as (r & Hfirst).
    pose proof (H3 _ _ _ Hfirst) as N0. pose proof (H3 _ _ _ Hlast) as N1.
    assert (HL : length (ints N) = N) by (unfold ints; rewrite map_length, seq_length; auto).
    rewrite HL, ints_count, HN in N1. cbn [length] in N0.
    split.
    { unfold ints. apply Forall_forall. intros e He. apply in_map_iff in He as (x & <- & Hx).
      apply in_seq in Hx. cbn. unfold i32. lia. }
    split; [discriminate|]. split; [rewrite Hfirst; reflexivity|]. split; [rewrite N0; reflexivity|]. split.
    { rewrite Hlast, nth_error_app2 by (rewrite HL; lia). rewrite HL, Nat.sub_diag. reflexivity. }
    rewrite N1. reflexivity.
Qed.
Print Assumptions C23_insert_overflow_refuted.

(** Reading a pool whose last entry is a Long at index 65534: panic or, in
    release, the counter wraps and reading goes on at index 0. *)
Lemma rd_pool_loop_steps md es bss : Forall entry_wf es -> Forall2 entry_fmt es bss ->
  forall fuel i count m rest, 1 <= i -> i + count_of es - 1 <= count -> count <= 65535 ->
  (length es <= fuel)%nat ->
  rd_pool_loop md fuel i count m (concat bss ++ rest) =
  rd_pool_loop md (fuel - length es) (i + count_of es - 1) count (place i es m) rest.
Proof.
  intros Hw Hf. induction Hf as [|e b es bss Hb Hf IH]; intros fuel i count m rest Hi Hc Hle Hfu.
  - cbn [concat app place length]. rewrite Nat.sub_0_r. f_equal. unfold count_of. cbn. lia.
  - inversion Hw; subst. rewrite count_of_cons in *. cbn [concat place length] in *.
    pose proof (slots_pos e). pose proof (count_of_pos es).
    destruct fuel as [|fuel]; [lia|]. cbn [rd_pool_loop].
    assert (i <? count = true) as -> by lia.
    rewrite <- app_assoc, (rd_raw_ok e b) by auto. cbn [bind]. rewrite raw_size_slots.
    unfold chk_u. change (2 ^ 16) with 65536.
    assert ((0 <=? i + slots_of e) && (i + slots_of e <? 65536) = true) as -> by lia. cbn [bind].
    rewrite IH by (auto; lia). cbn [Nat.sub]. f_equal. lia.
Qed.
Theorem C23_read_overflow_refuted : exists bs, bytes bs /\
  (forall rest, rd_pool Debug (bs ++ rest) = Panic POverflow) /\
  (rd_pool Release bs = Err EIo).
Proof.
  destruct (nat_for 65533 ltac:(lia)) as (N & HN).
  set (es := ints N).
  assert (Hw : Forall entry_wf es).
  { unfold es, ints. apply Forall_forall. intros e He. apply in_map_iff in He as (x & <- & Hx).
    apply in_seq in Hx. cbn. unfold i32. lia. }
  destruct (wr_entries_ok es Hw) as (bss & _ & HB).
  assert (Hlen : length es = N) by (unfold es, ints; rewrite map_length, seq_length; auto).
  assert (Hcnt : count_of es = 65534) by (unfold es; rewrite ints_count; lia).
  assert (Hbl : (length es <= length (concat bss))%nat).
  { clear -HB. induction HB as [|e b es bss Hb _ IH]; cbn [concat length]; [lia|].
    rewrite app_length. pose proof (entry_fmt_nonempty _ _ Hb). lia. }
  exists (u2 65535 ++ concat bss ++ [5; 0; 0; 0; 0; 0; 0; 0; 0]). split; [|split].
  - unfold bytes. apply Forall_app. split; [repeat constructor; unfold u8; vm_compute; intuition discriminate|].
    apply Forall_app. split; [|repeat constructor; unfold u8; lia].
    clearbody es. clear -HB Hw. induction HB as [|e b es bss Hb _ IH]; cbn [concat]; [constructor|].
    inversion Hw; subst. apply Forall_app. split; auto. clear -Hb.
    assert (Hu2 : forall x, Forall u8 (u2 x)) by (intros; repeat constructor; unfold u8; lia).
    assert (Hu4 : forall x, Forall u8 (u4 x)) by (intros; repeat constructor; unfold u8; lia).
    assert (Hu1 : forall x, Forall u8 (u1 x)) by (intros; repeat constructor; unfold u8; lia).
    destruct Hb; cbn [app]; (constructor; [unfold u8; lia|]); unfold u8_;
      rewrite ?Forall_app; repeat split; auto.
    unfold b. destruct H as [[Hc _] _]. eapply Forall_impl; [|apply MutfProofs.mutf8_of_range].
    + intros a Ha. cbn in Ha. unfold u8. lia.
    + apply Forall_flat_map. eapply Forall_impl; [|exact Hc]. intros c Hcc. unfold is_cp in Hcc.
      unfold utf16. destruct (c <? 65536) eqn:E; repeat constructor; unfold u16; lia.
  - intros rest. unfold rd_pool. rewrite <- app_assoc, rd_u16_u2 by (unfold u16; lia). cbn [bind].
    rewrite <- app_assoc. rewrite (rd_pool_loop_steps Debug es bss Hw HB); try lia.
    2:{ rewrite app_length. lia. }
    rewrite Hcnt. change (1 + 65534 - 1) with 65534.
    match goal with |- rd_pool_loop _ ?n _ _ _ _ = _ => destruct n as [|n0] eqn:En end.
    { rewrite app_length in En. cbn [app length] in En. lia. }
    cbn [rd_pool_loop]. change (65534 <? 65535) with true. cbv iota.
    rewrite (rd_raw_ok (RLong 0) [5; 0; 0; 0; 0; 0; 0; 0; 0]);
      [reflexivity|cbn; unfold i64; lia|apply (f_long 0)].
  - unfold rd_pool. rewrite rd_u16_u2 by (unfold u16; lia). cbn [bind].
    rewrite (rd_pool_loop_steps Release es bss Hw HB); try lia.
    2:{ rewrite app_length. lia. }
    rewrite Hcnt. change (1 + 65534 - 1) with 65534.
    match goal with |- rd_pool_loop _ ?n _ _ _ _ = _ => destruct n as [|[|n0]] eqn:En end.
    { rewrite app_length in En. cbn [app length] in En. lia. }
    { rewrite app_length in En. cbn [app length] in En. lia. }
    generalize (place 1 es []). intros pl. reflexivity.
Qed.
Print Assumptions C23_read_overflow_refuted.

(** Sessions of high-level insertions into one pool. *)
Inductive op : Type :=
| ORaw (e : raw_entry) | OConst (k : constant) | OMember (m : member) | OClass (s : list Z)
| OHandle (h : mhandle) | ODyn (d : dynamic).
Definition run_op (E : wenv) (o : op) (w : wst) : res (Z * wst) :=
  match o with
  | ORaw e => insert_raw E e w
  | OConst k => insert_constant E k w
  | OMember m => insert_member E m w
  | OClass s => insert_class E s w
  | OHandle h => insert_method_handle E h w
  | ODyn d => insert_dynamic E d w
  end.
Definition wf_op (E : wenv) (o : op) : Prop :=
  match o with
  | ORaw e => entry_wf e
  | OConst k => wf_constant k
  | OMember m => wf_member m
  | OClass s => jstr s
  | OHandle h => wf_member (h_member h)
  | ODyn d => wf_dynamic (we_heap E) d
  end.
Fixpoint run (E : wenv) (os : list op) (w : wst) : res (list Z * wst) :=
  match os with
  | [] => Ok ([], w)
  | o :: os => '(i, w) <- run_op E o w ;; '(is, w) <- run E os w ;; Ok (i :: is, w)
  end.
(** What the index returned by an operation means. *)
Definition op_meaning (W : world) (i : Z) (o : op) : Prop :=
  match o with
  | ORaw e => W_pool W i = Some e
  | OConst k => is_constant (W_pool W) i k
  | OMember m => is_member (W_pool W) i m
  | OClass s => is_class (W_pool W) i s
  | OHandle h => is_mhandle (W_pool W) i h
  | ODyn d => is_dyn W i d
  end.
Lemma run_op_ok : ins_ok (fun E o w => run_op E o w) wf_op op_meaning.
Proof.
  intros E o w Hw Hi. destruct o; cbn [run_op wf_op op_meaning] in *.
  - apply ins_raw_ok; auto.
  - apply ins_constant_ok; auto.
  - apply ins_member_ok; auto.
  - apply ins_class_ok; auto.
  - apply ins_mhandle_ok; auto.
  - apply ins_dynamic_ok; auto.
Qed.
Lemma run_ok E os : forall w, Forall (wf_op E) os -> w_inv w ->
  post E w (fun is w' => later E w' (fun W => Forall2 (fun o i => op_meaning W i o) os is)) (run E os w).
Proof.
  induction os as [|o os IH]; intros w Hw Hi; cbn [run].
  - apply post_ret; auto. intros _ _ W _ _. constructor.
  - inversion Hw; subst. eapply post_bind; [apply (run_op_ok E o w); auto|]. cbn beta.
    intros i w1 Hl1 Hi1 (_ & _ & H). eapply post_bind; [apply IH; auto|]. cbn beta.
    intros is w2 Hl2 Hi2 HX. apply post_ret; auto.
    pose proof (later_le _ _ _ _ Hl2 H) as H'.
    intros Hfit Hb W Ha Hh. constructor; [apply H'|apply HX]; auto.
Qed.

(** The finished file. *)
Definition world_of (E : wenv) (p : pool) (tbl : list bsm) : world :=
  {| W_pool := p; W_tbl := tbl; W_heap := we_heap E;
     W_label := fun l => match we_label E l with Ok o => Some o | _ => None end;
     W_catch := fun c => match we_catch E c with Ok o => o | _ => None end |}.
Lemma world_of_ok E m w : w_inv w -> (forall e i, pool_of m i = Some e <-> lookup w e = Some i) ->
  agrees E (world_of E (pool_of m) (w_bsm w)) /\ holds (world_of E (pool_of m) (w_bsm w)) w.
Proof.
  intros Hi Hp. split.
  - repeat split; cbn; intros; try (rewrite H; reflexivity).
  - split; [|exists []; cbn; rewrite app_nil_r; auto]. intros e i H. cbn. apply Hp. auto.
Qed.
Lemma run_read E os is w : Forall (wf_op E) os -> run E os wst_new = Ok (is, w) ->
  we_md E = Debug \/ count_of (w_entries w) <= 65535 -> len (w_bsm w) <= 65536 ->
  exists bs, wr_pool w = Ok bs /\
  forall md rest, exists m, rd_pool md (bs ++ rest) = Ok (m, rest) /\
    Forall2 (fun o i => op_meaning (world_of E (pool_of m) (w_bsm w)) i o) os is.
Proof.
  intros Hw Hr Hf Hb. pose proof (run_ok E os wst_new Hw w_inv_new) as H. rewrite Hr in H. cbn [post] in H.
  destruct H as (_ & Hi & Hd & HL).
  assert (Hfit : fits w).
  { destruct Hf as [Hm|Hf]; [|auto]. apply Hd; auto. unfold fits. cbn. unfold count_of. cbn. lia. }
  destruct (pool_roundtrip w Hi Hfit) as (bs & Hbs & Hrd). exists bs. split; auto.
  intros md rest. destruct (Hrd md rest) as (m & Hm & Hp). exists m. split; auto.
  destruct (world_of_ok E m w Hi Hp) as [Ha Hh]. apply HL; auto.
Qed.
Lemma Forall2_nth {A B} (R : A -> B -> Prop) l l' : Forall2 R l l' ->
  forall n a b, nth_error l n = Some a -> nth_error l' n = Some b -> R a b.
Proof.
  induction 1 as [|x y l l' Hxy _ IH]; intros [|n] a b; cbn; try discriminate.
  - intros [= <-] [= <-]. auto.
  - apply IH.
Qed.

(** C24: for every session of insertions, written out and read back, the index
    of each constant gives that constant. In a debug build success implies
    that the pool did not overflow; in a release build this is a hypothesis
    (C23).  Missing for the full statement: class names with surrogates in
    descriptors, see the refutation below. *)
Theorem C24_constants_roundtrip_partial : forall E os is w,
  Forall (wf_op E) os -> run E os wst_new = Ok (is, w) ->
  we_md E = Debug \/ count_of (w_entries w) <= 65535 -> len (w_bsm w) <= 65536 ->
  exists bs, wr_pool w = Ok bs /\
  forall md rest, exists m, rd_pool md (bs ++ rest) = Ok (m, rest) /\
    forall a k i, nth_error os a = Some (OConst k) -> nth_error is a = Some i ->
      is_constant (pool_of m) i k /\ read_constant md (pool_of m) i = Ok (Some k).
Proof.
  intros E os is w Hw Hr Hf Hb. destruct (run_read E os is w Hw Hr Hf Hb) as (bs & Hbs & Hrd).
  exists bs. split; auto. intros md rest. destruct (Hrd md rest) as (m & Hm & HF).
  exists m. split; auto. intros a k i Ha Hi. pose proof (Forall2_nth _ _ _ HF _ _ _ Ha Hi) as H. cbn in H.
  split; auto. apply read_constant_ok; auto.
  rewrite Forall_forall in Hw. apply (Hw (OConst k)). eapply nth_error_In; eauto.
Qed.
(** Insertion itself cannot fail, except for the overflow panic of C23. *)
Theorem C24_insert_total : forall E os,
  Forall (wf_op E) os ->
  (exists is w, run E os wst_new = Ok (is, w)) \/
  (we_md E = Debug /\ run E os wst_new = Panic POverflow).
Proof.
  intros E os Hw. pose proof (run_ok E os wst_new Hw w_inv_new) as H.
  destruct (run E os wst_new) as [[is w]| |]; cbn in H; [eauto|tauto|]. destruct H as [? ->]. auto.
Qed.
Example C24_ex :
  let h := {| h_kind := InvokeStatic; h_member :=
     {| m_owner := [65]; m_name := [109]; m_desc := TMethod [TInt] None; m_itfs := true |} |} in
  run (wenv_class Release (fun _ => None)) [OConst (KMethodHandle h); OConst (KString [65]); OConst (KF64 5);
     OConst (KClass [65])] wst_new
  = Ok ([7; 8; 9; 2],
      {| w_entries := [RWtf8 [65]; RClass 1; RWtf8 [109]; RWtf8 [40; 73; 41; 86]; RNameType 3 4;
                       RItfMethod 2 5; RMHandle 6 6; RString 1; RDouble 5];
         w_cache := [(RWtf8 [65], 1); (RClass 1, 2); (RWtf8 [109], 3); (RWtf8 [40; 73; 41; 86], 4);
                     (RNameType 3 4, 5); (RItfMethod 2 5, 6); (RMHandle 6 6, 7); (RString 1, 8); (RDouble 5, 9)];
         w_len := 11; w_bsm := [] |}).
Proof. reflexivity. Qed.
Print Assumptions C24_constants_roundtrip_partial.
Print Assumptions C24_insert_total.

(** A class name with a lone surrogate inside a descriptor is replaced by
    U+FFFD: the constant read back is different. *)
Theorem C24_surrogate_descriptor_refuted :
  let t := TMethod [] (Some (TRef [0xED; 0xA0; 0x80])) in
  let k := KMethodType t in
  wf_desc t /\
  exists i w bs, insert_constant (wenv_class Debug (fun _ => None)) k wst_new = Ok (i, w) /\
    wr_pool w = Ok bs /\ exists m, rd_pool Debug bs = Ok (m, []) /\
    read_constant Debug (pool_of m) i
      = Ok (Some (KMethodType (TMethod [] (Some (TRef [0xEF; 0xBF; 0xBD]))))).
Proof.
  split.
  - assert (H : wtf8_of [0xD800] [0xED; 0xA0; 0x80]).
    { split; [|reflexivity]. split; [repeat constructor; unfold is_cp; lia|cbn; auto]. }
    split.
    + cbn. split; [constructor|]. split; [exists [0xD800]; auto|]. cbn. intuition discriminate.
    + exists [40; 41; 76; 0xD800; 59]. split; [|vm_compute; discriminate].
      split; [|reflexivity]. split; [repeat constructor; unfold is_cp; lia|].
      cbn. unfold is_lead, is_trail. repeat split; lia.
  - do 3 eexists. split; [reflexivity|]. split; [reflexivity|]. eexists. split; reflexivity.
Qed.
Print Assumptions C24_surrogate_descriptor_refuted.

(** C25 *)
Definition plain_member (m : member) : member :=
  {| m_owner := m_owner m; m_name := m_name m; m_desc := m_desc m;
     m_itfs := ty_is_method (m_desc m) && m_itfs m |}.
Lemma insert_member_plain E m w : insert_member E m w = insert_member E (plain_member m) w.
Proof.
  unfold insert_member, plain_member. cbn. destruct (insert_class E (m_owner m) w) as [[c w1]| |]; cbn [bind]; auto.
  destruct (display_type (m_desc m)) as [d| |]; cbn [bind]; auto.
  destruct (insert_nameandtype E (m_name m, d) w1) as [[nt w2]| |]; cbn [bind]; auto.
  destruct (m_desc m); auto.
Qed.
Theorem C25_member_kind : forall E os is w a m i,
  Forall (wf_op E) os -> run E os wst_new = Ok (is, w) ->
  we_md E = Debug \/ count_of (w_entries w) <= 65535 -> len (w_bsm w) <= 65536 ->
  nth_error os a = Some (OMember m) -> nth_error is a = Some i ->
  exists bs, wr_pool w = Ok bs /\
  forall md rest, exists p, rd_pool md (bs ++ rest) = Ok (p, rest) /\
    (exists c nt, pool_of p i = Some (match ty_is_method (m_desc m), m_itfs m with
                                      | true, true => RItfMethod c nt
                                      | true, false => RMethod c nt
                                      | false, _ => RField c nt
                                      end)) /\
    read_member md (pool_of p) i = Ok (Some m).
Proof.
  intros E os is w a mem i Hw Hr Hf Hb Ha Hi.
  destruct (run_read E os is w Hw Hr Hf Hb) as (bs & Hbs & Hrd).
  exists bs. split; auto. intros md rest. destruct (Hrd md rest) as (m & Hm & HF).
  exists m. split; auto. pose proof (Forall2_nth _ _ _ HF _ _ _ Ha Hi) as H. cbn in H. split.
  - destruct H as (c & nt & H & _). exists c, nt. rewrite H. destruct (m_desc mem); cbn; auto.
  - apply read_member_ok; auto.
    rewrite Forall_forall in Hw. apply (Hw (OMember mem)). eapply nth_error_In; eauto.
Qed.
(** The interface flag of a field reference has no effect. *)
Theorem C25_field_flag : forall E m w, ty_is_method (m_desc m) = false ->
  insert_member E m w =
  insert_member E {| m_owner := m_owner m; m_name := m_name m; m_desc := m_desc m; m_itfs := false |} w.
Proof. intros E m w H. rewrite insert_member_plain. unfold plain_member. rewrite H. reflexivity. Qed.
Example C25_ex :
  insert_member (wenv_class Debug (fun _ => None))
    {| m_owner := [65]; m_name := [102]; m_desc := TInt; m_itfs := true |} wst_new
  = Ok (6, {| w_entries := [RWtf8 [65]; RClass 1; RWtf8 [102]; RWtf8 [73]; RNameType 3 4; RField 2 5];
              w_cache := [(RWtf8 [65], 1); (RClass 1, 2); (RWtf8 [102], 3); (RWtf8 [73], 4);
                          (RNameType 3 4, 5); (RField 2 5, 6)]; w_len := 7; w_bsm := [] |}).
Proof. reflexivity. Qed.
Print Assumptions C25_member_kind.
Print Assumptions C25_field_flag.

(** C26 *)
Definition cells_of (refs : list (Z * Z)) : list Z := map snd refs.
Lemma assoc_none_z {V} k (h : list (Z * V)) : assoc Z.eqb k h = None <-> ~ In k (map fst h).
Proof.
  induction h as [|[k' v] h IH]; cbn [assoc map fst In]; [tauto|].
  destruct (Z.eqb_spec k k') as [->|Hne].
  - split; [discriminate|]. intros H. exfalso. auto.
  - rewrite IH. split; [|tauto]. intros H [->|H']; auto.
Qed.
Lemma set_cells_ok cells b : forall h, NoDup cells -> (forall c, In c cells -> assoc Z.eqb c h = None) ->
  set_cells cells b h = Ok (h ++ map (fun c => (c, b)) cells).
Proof.
  induction cells as [|c cells IH]; intros h Hn Hh; cbn [set_cells map].
  - rewrite app_nil_r. reflexivity.
  - inversion Hn; subst. rewrite (Hh c (or_introl eq_refl)). rewrite IH; auto.
    + rewrite <- app_assoc. reflexivity.
    + intros x Hx. rewrite assoc_app, (Hh x (or_intror Hx)). cbn.
      destruct (Z.eqb_spec x c); [subst; contradiction|auto].
Qed.
Lemma assoc_const {V} c (v : V) cells : In c cells -> assoc Z.eqb c (map (fun c => (c, v)) cells) = Some v.
Proof.
  induction cells as [|x cells IH]; cbn [In map assoc]; [tauto|].
  destruct (Z.eqb_spec c x); auto. intros [->|H]; [congruence|auto].
Qed.
Lemma assoc_const_none {V} c (v : V) cells : ~ In c cells -> assoc Z.eqb c (map (fun c => (c, v)) cells) = None.
Proof.
  induction cells as [|x cells IH]; cbn [In map assoc]; auto. intros H.
  destruct (Z.eqb_spec c x); [subst; tauto|]. apply IH. tauto.
Qed.
Lemma filter_snd_nodup f (refs : list (Z * Z)) : NoDup (map snd refs) -> NoDup (map snd (filter f refs)).
Proof.
  induction refs as [|r refs IH]; cbn [filter map]; auto. intros H. inversion H; subst.
  destruct (f r); cbn [map]; auto. constructor; auto. intros Hin. apply H2.
  apply in_map_iff in Hin as (x & Hx & Hin). apply filter_In in Hin as [Hin _]. apply in_map_iff. eauto.
Qed.
Lemma fill_ok bs : forall i refs h, 0 <= i -> i + len bs <= 65536 ->
  NoDup (map snd refs) -> (forall c, In c (map snd refs) -> assoc Z.eqb c h = None) ->
  exists refs' h', fill_bsms i bs refs h = Ok (refs', h') /\
    (forall r, In r refs' <-> In r refs /\ ~ i <= fst r < i + len bs) /\
    (forall c v, assoc Z.eqb c h = Some v -> assoc Z.eqb c h' = Some v) /\
    (forall c, ~ In c (map snd refs) -> assoc Z.eqb c h' = assoc Z.eqb c h) /\
    (forall b c, In (b, c) refs -> i <= b < i + len bs ->
       assoc Z.eqb c h' = nth_error bs (Z.to_nat (b - i))).
Proof.
  induction bs as [|b bs IH]; intros i refs h Hi Hl Hn Hh; cbn [fill_bsms].
  - exists refs, h. split; auto. change (len []) with 0. repeat split; try tauto; try lia.
  - rewrite len_cons in *. pose proof (len_nonneg bs). rewrite Z.mod_small by lia.
    set (mine := filter (fun r => fst r =? i) refs). set (rest := filter (fun r => negb (fst r =? i)) refs).
    rewrite set_cells_ok.
    2:{ apply filter_snd_nodup; auto. }
    2:{ intros c Hc. apply Hh. apply in_map_iff in Hc as (x & <- & Hx). apply filter_In in Hx as [Hx _].
        apply in_map. auto. }
    cbn [bind].
    assert (Hdisj : forall r r', In r refs -> In r' refs -> snd r = snd r' -> r = r').
    { clear -Hn. intros r r' H1 H2 He. induction refs as [|x refs IH]; [destruct H1|].
      cbn [map] in Hn. inversion Hn; subst. destruct H1 as [->|H1], H2 as [->|H2]; auto.
      - exfalso. apply H3. rewrite He. apply in_map; auto.
      - exfalso. apply H3. rewrite <- He. apply in_map; auto. }
    destruct (IH (i + 1) rest (h ++ map (fun c => (c, b)) (map snd mine))) as (refs' & h' & -> & H1 & H2 & H3 & H4);
      try lia.
    { apply filter_snd_nodup; auto. }
    { intros c Hc. apply in_map_iff in Hc as (x & <- & Hx). apply filter_In in Hx as [Hx Hxi].
      rewrite assoc_app, Hh by (apply in_map; auto). apply assoc_const_none. intros Hin.
      apply in_map_iff in Hin as (y & Hy & Hyin). apply filter_In in Hyin as [Hyin Hyi].
      pose proof (Hdisj _ _ Hyin Hx Hy). subst. rewrite Hyi in Hxi. discriminate. }
    exists refs', h'. split; auto. split; [|split; [|split]].
    + intros r. rewrite H1. unfold rest. rewrite filter_In. destruct (Z.eqb_spec (fst r) i); cbn.
      * split; [intros [[_ ?] _]; discriminate|]. intros [_ Hr]. lia.
      * split; [intros [[? _] ?]; split; auto; lia|]. intros [? ?]; repeat split; auto; lia.
    + intros c v Hc. apply H2. rewrite assoc_app, Hc. auto.
    + intros c Hc. rewrite H3.
      * rewrite assoc_app. destruct (assoc Z.eqb c h) eqn:E; auto. apply assoc_const_none.
        intros Hin. apply Hc. apply in_map_iff in Hin as (x & <- & Hx). apply filter_In in Hx as [Hx _].
        apply in_map. auto.
      * intros Hin. apply Hc. apply in_map_iff in Hin as (x & <- & Hx). apply filter_In in Hx as [Hx _].
        apply in_map. auto.
    + intros b' c Hin Hb. destruct (Z.eqb_spec b' i) as [->|Hne].
      * rewrite Z.sub_diag. cbn [Z.to_nat nth_error]. apply H2.
        rewrite assoc_app, Hh by (apply (in_map snd) in Hin; auto). apply assoc_const.
        apply (in_map snd (filter _ refs) (i, c)). apply filter_In. cbn. rewrite Z.eqb_refl. auto.
      * rewrite (H4 b' c); [|apply filter_In; cbn; split; auto; destruct (Z.eqb_spec b' i); auto; congruence|lia].
        replace (Z.to_nat (b' - i)) with (S (Z.to_nat (b' - (i + 1)))) by lia. reflexivity.
Qed.

(** Cells are numbered in order of allocation, so each is registered once. *)
Definition rst_ok (s : rst) : Prop :=
  NoDup (map snd (r_refs s)) /\ Forall (fun r => u16 (fst r) /\ 0 <= snd r < r_next s) (r_refs s).
Theorem C26_resolve : forall s bs, rst_ok s -> len bs < 65536 ->
  (* every index has an entry: each registered cell gets that entry, no panic *)
  ((forall b c, In (b, c) (r_refs s) -> b < len bs) ->
   exists h, bootstrap_methods bs s [] = Ok h /\
     (forall b c, In (b, c) (r_refs s) -> assoc Z.eqb c h = nth_error bs (Z.to_nat b)) /\
     (forall c, ~ In c (map snd (r_refs s)) -> assoc Z.eqb c h = None)) /\
  (* some index has none: an error *)
  ((exists b c, In (b, c) (r_refs s) /\ len bs <= b) ->
   bootstrap_methods bs s [] = Err EInvalid).
Proof.
  intros s bs [Hn Hr] Hl.
  destruct (fill_ok bs 0 (r_refs s) []) as (refs' & h & Hfill & H1 & _ & H3 & H4); auto; try lia.
  unfold bootstrap_methods. rewrite Hfill. cbn [bind]. rewrite Forall_forall in Hr. split.
  - intros Hall. exists h. destruct refs' as [|r refs'].
    + split; auto. split.
      * intros b c Hin. rewrite (H4 b c Hin).
        -- f_equal. f_equal. lia.
        -- specialize (Hall _ _ Hin). apply Hr in Hin. cbn in Hin. unfold u16 in Hin. lia.
      * intros c Hc. rewrite (H3 c Hc). reflexivity.
    + exfalso. destruct (proj1 (H1 r) (or_introl eq_refl)) as [Hin Hni]. destruct r as [b c].
      specialize (Hall _ _ Hin). apply Hr in Hin. cbn in *. unfold u16 in Hin. lia.
  - intros (b & c & Hin & Hge). destruct refs' as [|r refs']; auto.
    exfalso. apply (proj2 (H1 (b, c))). split; auto. cbn. lia.
Qed.
(** Reading a dynamic entry registers a fresh cell under the index of that
    entry, and nothing else. *)
Theorem C26_register : forall md p i s b nt n t, rst_ok s -> 0 <= r_next s -> u16 b ->
  p i = Some (RDynamic b nt) \/ p i = Some (RInvokeDynamic b nt) ->
  is_nametype p nt n t -> wf_ty t ->
  exists s', rst_ok s' /\ r_refs s' = r_refs s ++ [(b, r_next s)] /\ r_next s' = r_next s + 1 /\
    let d := {| d_cell := r_next s; d_name := n; d_desc := t |} in
    (p i = Some (RDynamic b nt) -> read_dynamic md p i s = Ok (Some d, s') /\
       read_or_dynamic md p i s = Ok (Some (Dyn d), s') /\ read_invokedynamic md p i s = Ok (None, s)) /\
    (p i = Some (RInvokeDynamic b nt) -> read_invokedynamic md p i s = Ok (Some d, s') /\
       read_dynamic md p i s = Ok (None, s)).
Proof.
  intros md p i s b nt n t [Hn Hr] Hs Hb Hp Hnt Hw.
  pose proof (read_nametype_ok md p nt n t Hw Hnt) as Hrd.
  exists {| r_refs := r_refs s ++ [(b, r_next s)]; r_next := r_next s + 1 |}.
  split; [|split; [reflexivity|split; [reflexivity|]]].
  - split; cbn.
    + rewrite map_app. apply (NoDup_Add (a:=r_next s) (l:=map snd (r_refs s))).
      * rewrite <- (app_nil_r (map snd (r_refs s))) at 1. apply Add_app.
      * split; auto. intros Hin. apply in_map_iff in Hin as (x & Hx & Hin). rewrite Forall_forall in Hr.
        apply Hr in Hin. lia.
    + apply Forall_app. split.
      * eapply Forall_impl; [|exact Hr]. cbn. intros r [H1 H2]. split; [auto|lia].
      * constructor; [cbn; split; [auto|lia]|constructor].
  - cbn. unfold read_dynamic, read_invokedynamic, read_or_dynamic, read_dyn_at. split; intros Hpi; rewrite Hpi.
    + unfold read_dynamic. rewrite Hpi. unfold read_dyn_at. rewrite Hrd. cbn [bind]. auto.
    + rewrite Hrd. cbn. auto.
Qed.
Example C26_ex :
  let h := {| h_kind := InvokeStatic; h_member :=
     {| m_owner := [65]; m_name := [109]; m_desc := TMethod [TInt] None; m_itfs := true |} |} in
  let b := {| b_handle := h; b_args := [] |} in
  rst_ok {| r_refs := [(1, 0); (0, 1); (1, 2)]; r_next := 3 |} /\
  bootstrap_methods [b; b] {| r_refs := [(1, 0); (0, 1); (1, 2)]; r_next := 3 |} [] = Ok [(1, b); (0, b); (2, b)] /\
  bootstrap_methods [b] {| r_refs := [(1, 0); (0, 1); (1, 2)]; r_next := 3 |} [] = Err EInvalid.
Proof.
  split; [|split; reflexivity]. split.
  - repeat constructor; cbn; intuition discriminate.
  - repeat constructor; cbn; unfold u16; lia.
Qed.
Print Assumptions C26_resolve.
Print Assumptions C26_register.

(** C27: exact behaviour.  Missing for the full statement: the interface flag,
    see the refutation. *)
Lemma name_eqb a b : list_eqb Z.eqb a b = true <-> a = b.
Proof. apply (list_eqb_eq Z.eqb Z.eqb_eq). Qed.
Theorem C27_check_partial : forall h,
  (mh_check h = Ok tt <->
     match h_kind h with
     | GetField | GetStatic | PutField | PutStatic => ty_is_method (m_desc (h_member h)) = false
     | NewInvokeSpecial => ty_is_method (m_desc (h_member h)) = true /\ m_name (h_member h) = s_init
     | _ => ty_is_method (m_desc (h_member h)) = true /\
            m_name (h_member h) <> s_init /\ m_name (h_member h) <> s_clinit
     end) /\
  (mh_check h = Ok tt \/ mh_check h = Err EInvalid) /\
  (jvms_handle_ok h -> mh_check h = Ok tt) /\
  (mh_check h = Ok tt -> ty_is_method (m_desc (h_member h)) = true ->
   m_itfs (h_member h) = match h_kind h with InvokeInterface => true | _ => false end -> jvms_handle_ok h).
Proof.
  intros [k [o n t itf]]. unfold mh_check, jvms_handle_ok.
  cbn [h_kind h_member m_owner m_name m_desc m_itfs].
  assert (Hi : list_eqb Z.eqb n s_init = true <-> n = s_init) by apply name_eqb.
  assert (Hc : list_eqb Z.eqb n s_clinit = true <-> n = s_clinit) by apply name_eqb.
  destruct (list_eqb Z.eqb n s_init), (list_eqb Z.eqb n s_clinit), (ty_is_method t), k, itf; cbn;
    repeat split; intros; try tauto; try discriminate; try (left; reflexivity); try (right; reflexivity);
    try intuition (try congruence; try discriminate).
Qed.
Example C27_ex : mh_check {| h_kind := NewInvokeSpecial; h_member :=
  {| m_owner := [65]; m_name := s_init; m_desc := TMethod [] None; m_itfs := false |} |} = Ok tt.
Proof. reflexivity. Qed.
Print Assumptions C27_check_partial.

(** JVMS 4.4.8 (and the documentation of the kinds) tie REF_invokeVirtual and
    REF_newInvokeSpecial to Methodref and REF_invokeInterface to
    InterfaceMethodref; [check] ignores the flag. *)
Theorem C27_check_refuted : forall o n t itf,
  ty_is_method t = true -> n <> s_init -> n <> s_clinit ->
  let m := {| m_owner := o; m_name := n; m_desc := t; m_itfs := itf |} in
  mh_check {| h_kind := InvokeVirtual; h_member := m |} = Ok tt /\
  mh_check {| h_kind := InvokeInterface; h_member := m |} = Ok tt /\
  (~ jvms_handle_ok {| h_kind := InvokeVirtual; h_member := m |} \/
   ~ jvms_handle_ok {| h_kind := InvokeInterface; h_member := m |}).
Proof.
  intros o n t itf Ht H1 H2 m.
  split; [apply (proj1 (C27_check_partial _)); cbn; auto|]. split; [apply (proj1 (C27_check_partial _)); cbn; auto|].
  unfold jvms_handle_ok, m. cbn. destruct itf; [left|right]; intros (_ & H & _); discriminate.
Qed.
Print Assumptions C27_check_refuted.

(** The codec of MethodHandle applies the check in both directions. *)
Theorem C27_codec_checks : forall E md p h w,
  (mh_check h <> Ok tt -> wr_mhandle E h w = Err EInvalid) /\
  (forall l h' r, rd_mhandle md p l = Ok (h', r) -> mh_check h' = Ok tt).
Proof.
  intros E md p h w. split.
  - intros H. unfold wr_mhandle. destruct (proj1 (proj2 (C27_check_partial h))) as [Hc|Hc]; [congruence|].
    rewrite Hc. reflexivity.
  - intros l h' r H. unfold rd_mhandle in H. inv_bind H. destruct v as [k l1]. inv_bind H. destruct v as [m l2].
    inv_bind H. destruct v. inversion H; subst. auto.
Qed.
Example C27_codec_ex : let h := {| h_kind := GetField; h_member :=
  {| m_owner := [65]; m_name := s_init; m_desc := TMethod [] None; m_itfs := false |} |} in
  mh_check h <> Ok tt /\ wr_mhandle (wenv_class Debug (fun _ => None)) h wst_new = Err EInvalid.
Proof. split; [discriminate|reflexivity]. Qed.
Print Assumptions C27_codec_checks.

(** C18 (bootstrap arguments): the count is truncated to 16 bits. *)
Theorem C18_bootstrap_args_refuted : forall E b w, we_md E = Release -> w_inv w ->
  wf_member (h_member (b_handle b)) -> Forall (wf_ordyn (we_heap E)) (b_args b) ->
  65535 < len (b_args b) ->
  exists bs w', wr_bsm E b w = Ok (bs, w') /\
    forall md p s rest s' rest', rd_bsm md p s (bs ++ rest) <> Ok ((b, s'), rest').
Proof.
  intros E b w Hm Hi Hh Ha Hl.
  assert (HW : exists i xs w', wr_bsm E b w = Ok (be 2 i ++ be 2 (len (b_args b)) ++ xs, w')).
  { unfold wr_bsm, wr_idx at 1. pose proof (ins_mhandle_ok E (b_handle b) w Hh Hi) as H1.
    destruct (insert_method_handle E (b_handle b) w) as [[i w1]| |]; cbn in H1;
      [|tauto|destruct H1; congruence]. cbn [bind]. destruct H1 as (_ & Hi1 & _).
    pose proof (wr_each_ok _ _ _ (wr_idx_ok _ _ _ ins_ordyn_ok) E (b_args b) w1 Ha Hi1) as H2.
    destruct (wr_each (wr_idx (insert_ordynamic insert_constant)) E (b_args b) w1) as [[xb w2]| |]; cbn in H2;
      [|tauto|destruct H2; congruence]. cbn [bind]. eauto. }
  destruct HW as (i & xs0 & w' & HW). do 2 eexists. split; [exact HW|].
  intros md p s rest s' rest' Hrd. unfold rd_bsm in Hrd. inv_bind Hrd. destruct v as [h l1].
  unfold rd_idx in E0. inv_bind E0. destruct v as [j l]. rewrite <- app_assoc, <- be_mod, rd_u16_be in E1.
  2:{ unfold u16. change (256 ^ Z.of_nat 2) with 65536. lia. }
  assert (Hl' : (be 2 (len (b_args b)) ++ xs0) ++ rest = l) by congruence. clear E1.
  inv_bind E0. destruct v as [h'|]; [|discriminate]. assert (Hl1 : l = l1) by congruence. clear E0.
  rewrite <- Hl1, <- Hl' in Hrd. inv_bind Hrd. destruct v as [n l2]. rewrite <- ?app_assoc, <- (be_mod 2 (len _)), rd_u16_be in E0.
  2:{ unfold u16. change (256 ^ Z.of_nat 2) with 65536. lia. }
  inversion E0; subst. inv_bind Hrd. destruct v as [[xs s2] l3]. inversion Hrd; subst.
  assert (Hlen : forall k s l xs s' l', srd_times k (rd_bsm_arg md p) s l = Ok ((xs, s'), l') -> length xs = k).
  { clear. induction k as [|k IH]; intros s l xs s' l'; cbn [srd_times].
    - intros [= <- _ _]. reflexivity.
    - intros H. inv_bind H. destruct v as [[a s1] l1]. inv_bind H. destruct v as [[ys s2] l2].
      inversion H; subst. apply IH in E0. cbn. congruence. }
  apply Hlen in E2. cbn [b_args] in *. change (256 ^ Z.of_nat 2) with 65536 in E2. unfold len in *. lia.
Qed.
Example C18_bootstrap_ex :
  let m := {| m_owner := [65]; m_name := [109]; m_desc := TInt; m_itfs := false |} in
  wf_member m /\ Forall (wf_ordyn (fun _ => None)) (repeat (Stat (KI32 7)) (Z.to_nat 70000)) /\
  65535 < len (repeat (Stat (KI32 7) : ordyn constant) (Z.to_nat 70000)).
Proof.
  split; [|split].
  - assert (Hj : forall c, 65 <= c < 123 -> jstr [c]).
    { intros c Hc. exists [c]. split.
      - split; [split; [repeat constructor; unfold is_cp; lia|cbn; auto]|]. cbn [flat_map].
        rewrite utf8_ascii by lia. reflexivity.
      - cbn [flat_map]. unfold utf16. assert (c <? 65536 = true) as -> by lia. cbn.
        unfold mutf8_unit. assert ((1 <=? c) && (c <=? 127) = true) as -> by lia. vm_compute. discriminate. }
    repeat split; cbn; auto; try (apply Hj; lia); constructor.
  - apply Forall_forall. intros x Hx. apply repeat_spec in Hx. subst. cbn. unfold i32. lia.
  - unfold len. rewrite repeat_length. lia.
Qed.
Print Assumptions C18_bootstrap_args_refuted.
