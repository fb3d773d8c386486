(** Counts written by hand (C18) and the counter of the constant pool (C23)
    within their limits. *)
From Coq Require Import Lia.
From Verif Require Import Base BaseLemmas PrimModel PrimProofs TypeModel CpModel CpSpec CpProofs CpProps FileSpec AnnModel FrameModel FrameProps CodeProofs.

(** * C18 *)
Lemma each_parts {A} (f : cwr A) E xs : forall w bs w', wr_each f E xs w = Ok (bs, w') ->
  exists bss, bs = concat bss /\ Forall2 (fun x b => exists w1 w2, f E x w1 = Ok (b, w2)) xs bss.
Proof.
  induction xs as [|x xs IH]; intros w bs w' H; cbn [wr_each] in H.
  - apply ok_inj, pair_equal_spec in H as [<- _]. exists []. auto.
  - destruct (f E x w) as [[b w1]| |] eqn:Ef; cbn [bind] in H; try discriminate.
    destruct (wr_each f E xs w1) as [[bs1 w2]| |] eqn:Ee; cbn [bind] in H; try discriminate.
    apply ok_inj, pair_equal_spec in H as [<- _]. destruct (IH _ _ _ Ee) as (bss & -> & HF).
    exists (b :: bss). split; [reflexivity|]. constructor; eauto.
Qed.
Lemma count_read n rest : 0 <= n -> rd_u16 (be 2 n ++ rest) = Ok (n mod 65536, rest).
Proof.
  intros Hn. rewrite <- (be_mod 2 n). change (256 ^ Z.of_nat 2) with 65536.
  pose proof (Z.mod_pos_bound n 65536 ltac:(lia)). rewrite be2_u2. apply rd_u16_u2. unfold u16. lia.
Qed.

(** Whatever the lengths are: the elements are written one by one, behind a
    count that reads as their number modulo 65536.  The count is the number
    of elements for up to 65535 of them; missing for the full claim is a
    failure for more ([C18_..._refuted]). *)
Theorem C18_counts_partial : forall E w,
  (forall b bs w', wr_bsm E b w = Ok (bs, w') -> exists h es, bs = h ++ be 2 (len (b_args b)) ++ concat es /\ len h = 2 /\
     length es = length (b_args b) /\ rd_u16 (skipn 2 bs) = Ok (len (b_args b) mod 65536, concat es)) /\
  (forall vs bs w', wr_aval E (VArray vs) w = Ok (bs, w') -> exists es,
     length es = length vs /\ rd_u16 (skipn 1 bs) = Ok (len vs mod 65536, concat es)) /\
  (forall vs bs w', wr_vals E vs w = Ok (bs, w') -> exists es,
     length es = length vs /\ rd_u16 bs = Ok (len vs mod 65536, concat es)) /\
  (forall d ls ss bs w', wr_frame E (FFull d ls ss) w = Ok (bs, w') -> exists es fs rest,
     length es = length ls /\ length fs = length ss /\ rd_u16 (skipn 3 bs) = Ok (len ls mod 65536, concat es ++ rest) /\
     rd_u16 rest = Ok (len ss mod 65536, concat fs)) /\
  (forall n, 0 <= n <= 65535 -> n mod 65536 = n).
Proof.
  intros E w. split; [|split; [|split; [|split]]].
  - intros b bs w' H. unfold wr_bsm in H.
    destruct (wr_idx insert_method_handle E (b_handle b) w) as [[h w1]| |] eqn:Eh; cbn [bind] in H; try discriminate.
    destruct (wr_each _ E (b_args b) w1) as [[xs w2]| |] eqn:Ee; cbn [bind] in H; try discriminate.
    apply ok_inj, pair_equal_spec in H as [<- _]. destruct (each_parts _ _ _ _ _ _ Ee) as (es & -> & HF).
    unfold wr_idx in Eh. destruct (insert_method_handle E (b_handle b) w) as [[i w3]| |]; cbn [bind] in Eh; try discriminate.
    apply ok_inj, pair_equal_spec in Eh as [<- _]. exists (be 2 i), es. split; [reflexivity|]. split; [reflexivity|].
    split; [symmetry; apply (Forall2_len _ _ _ HF)|]. change (skipn 2 (be 2 i ++ be 2 (len (b_args b)) ++ concat es)) with (be 2 (len (b_args b)) ++ concat es).
    apply count_read, len_nonneg.
  - intros vs bs w' H. cbn [wr_aval] in H. destruct (wr_each wr_aval E vs w) as [[xs w2]| |] eqn:Ee; cbn [bind] in H; try discriminate.
    apply ok_inj, pair_equal_spec in H as [<- _]. destruct (each_parts _ _ _ _ _ _ Ee) as (es & -> & HF). exists es.
    split; [symmetry; apply (Forall2_len _ _ _ HF)|]. change (skipn 1 (be 1 91 ++ be 2 (len vs) ++ concat es)) with (be 2 (len vs) ++ concat es).
    apply count_read, len_nonneg.
  - intros vs bs w' H. unfold wr_vals, wr_vals_with in H. destruct (wr_each _ E vs w) as [[xs w2]| |] eqn:Ee; cbn [bind] in H; try discriminate.
    apply ok_inj, pair_equal_spec in H as [<- _]. destruct (each_parts _ _ _ _ _ _ Ee) as (es & -> & HF). exists es.
    split; [symmetry; apply (Forall2_len _ _ _ HF)|]. apply count_read, len_nonneg.
  - intros d ls ss bs w' H. cbn [wr_frame] in H. destruct (wr_each wr_vtype E ls w) as [[xs w2]| |] eqn:Ee; cbn [bind] in H; try discriminate.
    destruct (wr_each wr_vtype E ss w2) as [[ys w3]| |] eqn:Ey; cbn [bind] in H; try discriminate.
    apply ok_inj, pair_equal_spec in H as [<- _]. destruct (each_parts _ _ _ _ _ _ Ee) as (es & -> & HF). destruct (each_parts _ _ _ _ _ _ Ey) as (fs & -> & HG).
    exists es, fs, (be 2 (len ss) ++ concat fs). split; [symmetry; apply (Forall2_len _ _ _ HF)|]. split; [symmetry; apply (Forall2_len _ _ _ HG)|]. split.
    + change (skipn 3 (be 1 255 ++ be 2 d ++ be 2 (len ls) ++ concat es ++ be 2 (len ss) ++ concat fs)) with (be 2 (len ls) ++ concat es ++ be 2 (len ss) ++ concat fs).
      apply count_read, len_nonneg.
    + apply count_read, len_nonneg.
  - intros n Hn. apply Z.mod_small. lia.
Qed.
Example C18_counts_ex : exists bs w', wr_aval ex_env (VArray [VInt 7; VBoolean true]) wst_new = Ok (bs, w') /\ skipn 1 bs = [0; 2; 73; 0; 1; 90; 0; 2].
Proof. do 2 eexists. split; [vm_compute; reflexivity|]. reflexivity. Qed.
Print Assumptions C18_counts_partial.

(** * C23 *)
Lemma insert_all_within E es : NoDup es -> forall w, (forall e, In e es -> lookup w e = None) -> 0 <= w_len w ->
  w_len w + count_of es - 1 <= 65535 ->
  exists is w', insert_all E es w = Ok (is, w') /\ w_len w' = w_len w + count_of es - 1 /\ length is = length es /\
    forall pre e post, es = pre ++ e :: post -> nth_error is (length pre) = Some (w_len w + count_of pre - 1).
Proof.
  intros Hn. induction Hn as [|e es Hni Hn IH]; intros w Hl Hu Hc; cbn [insert_all].
  - exists [], w. split; [auto|]. split; [unfold count_of; cbn; lia|]. split; [auto|]. intros [|] ? ?; discriminate.
  - unfold insert_raw. rewrite (Hl e (or_introl eq_refl) : assoc raw_eqb e (w_cache w) = None).
    rewrite count_of_cons in *. pose proof (slots_pos e). pose proof (count_of_pos es). rewrite raw_size_slots.
    unfold chk_u. change (2 ^ 16) with 65536. assert ((0 <=? w_len w + slots_of e) && (w_len w + slots_of e <? 65536) = true) as -> by lia. cbn [bind].
    match goal with |- context [insert_all E es ?x] => set (w1 := x) end.
    destruct (IH w1) as (is & w' & -> & Hlen & Hli & Hnth); cbn [w1 w_len]; try lia.
    { intros x Hx. unfold lookup. cbn [w1 w_cache]. rewrite assoc_app. pose proof (Hl x (or_intror Hx)) as Hx'. unfold lookup in Hx'. rewrite Hx'. cbn.
      destruct (raw_eqb x e) eqn:Ex; auto. apply raw_eqb_eq in Ex. subst. contradiction. }
    cbn [bind]. exists (w_len w :: is), w'. split; [auto|]. cbn [w1 w_len] in *. split; [lia|]. split; [cbn; lia|].
    intros [|e0 pre] e' post Heq; inversion Heq; subst.
    + cbn. f_equal. unfold count_of. cbn. lia.
    + cbn [length nth_error]. rewrite (Hnth pre e' post eq_refl), count_of_cons. f_equal. lia.
Qed.
(** Within 65535 slots, in both build profiles: every entry is inserted, at the
    slot behind those of the entries before it, and no two share one.  Missing
    for the full claim: an error beyond ([C23_..._refuted]). *)
Theorem C23_within_partial : forall E es, NoDup es -> count_of es <= 65535 ->
  exists is w, insert_all E es wst_new = Ok (is, w) /\ w_len w = count_of es /\ length is = length es /\ NoDup is /\
    forall pre e post, es = pre ++ e :: post -> nth_error is (length pre) = Some (count_of pre).
Proof.
  intros E es Hn Hc. destruct (insert_all_within E es Hn wst_new) as (is & w & H1 & H2 & H3 & H4); cbn [wst_new w_len] in *; auto; try lia.
  assert (H5 : forall pre e post, es = pre ++ e :: post -> nth_error is (length pre) = Some (count_of pre)).
  { intros pre e post He. rewrite (H4 pre e post He). f_equal. lia. }
  exists is, w. split; [exact H1|]. split; [lia|]. split; [exact H3|]. split; [|exact H5].
  assert (HA : forall a, (a < length es)%nat -> nth_error is a = Some (count_of (firstn a es))).
  { intros a Ha. destruct (nth_error es a) as [e|] eqn:Ee; [|apply nth_error_None in Ee; lia].
    apply nth_error_split in Ee as (pre & post & -> & <-). rewrite (H5 pre e post eq_refl). f_equal. f_equal.
    rewrite firstn_app, Nat.sub_diag, firstn_all. cbn. rewrite app_nil_r. reflexivity. }
  assert (HM : forall a b, (a < b <= length es)%nat -> count_of (firstn a es) < count_of (firstn b es)).
  { clear. intros a b. revert a b. induction es as [|e es IH]; intros a b Hab; [cbn in Hab; lia|]. destruct b as [|b]; [lia|].
    cbn [firstn]. rewrite (count_of_cons e). pose proof (slots_pos e). destruct a as [|a].
    - pose proof (count_of_pos (firstn b es)). unfold count_of at 1. cbn. lia.
    - cbn [firstn]. rewrite count_of_cons. specialize (IH a b ltac:(cbn in Hab; lia)). lia. }
  apply NoDup_nth_error. intros a b Ha Hab. rewrite H3 in Ha. rewrite (HA a Ha) in Hab.
  destruct (Nat.lt_ge_cases b (length es)) as [Hb|Hb].
  - rewrite (HA b Hb) in Hab. injection Hab as Hab. destruct (Nat.lt_trichotomy a b) as [H|[H|H]]; auto; exfalso.
    + specialize (HM a b ltac:(lia)). lia.
    + specialize (HM b a ltac:(lia)). lia.
  - rewrite (proj2 (nth_error_None is b)) in Hab by lia. discriminate.
Qed.
Example C23_within_ex : NoDup [RLong 5; RInt 5; RWtf8 [65]] /\ count_of [RLong 5; RInt 5; RWtf8 [65]] = 5 /\
  exists w, insert_all ex_env [RLong 5; RInt 5; RWtf8 [65]] wst_new = Ok ([1; 3; 4], w).
Proof. split; [repeat constructor; cbn; intuition discriminate|]. split; [reflexivity|]. eexists. vm_compute. reflexivity. Qed.
Print Assumptions C23_within_partial.
