(** Values written into a file: what the theorems of the higher layers say
    about a writer and a reader. *)
From Verif Require Import Base BaseLemmas Wtf8Spec TypeModel TypeSpec TypeProofs PrimModel CpModel CpSpec CpProofs CpProps.

(** Serialising a class is a sequence of insertions into the constant pool
    interleaved with writing.  [in_file f E a bs p tbl]: after some insertions
    [f] wrote [a] as [bs], then some more insertions followed, and the finished
    constant pool, which did not overflow, was read back as [p] (with [tbl] the
    bootstrap methods collected). *)
Definition in_file {A} (f : cwr A) (E : wenv) (a : A) (bs : list Z) (p : pool) (tbl : list bsm) : Prop :=
  exists os1 is1 w0 w1 os2 is2 w2 pb md rest m,
    Forall (wf_op E) os1 /\ run E os1 wst_new = Ok (is1, w0) /\
    f E a w0 = Ok (bs, w1) /\
    Forall (wf_op E) os2 /\ run E os2 w1 = Ok (is2, w2) /\
    count_of (w_entries w2) <= 65535 /\ len (w_bsm w2) <= 65536 /\
    wr_pool w2 = Ok pb /\ rd_pool md (pb ++ rest) = Ok (m, rest) /\
    p = pool_of m /\ tbl = w_bsm w2.
(** [f] cannot fail on [a], whatever was inserted before, except by the
    overflow of the pool in a debug build (C23). *)
Definition writes {A} (f : cwr A) (E : wenv) (a : A) : Prop :=
  forall os is w, Forall (wf_op E) os -> run E os wst_new = Ok (is, w) ->
  (exists bs w', f E a w = Ok (bs, w')) \/ (we_md E = Debug /\ f E a w = Panic POverflow).
(** What [f] wrote is [F] and is read back by [r] as [a], whatever follows. *)
Definition exact {A} (f : cwr A) (r : pool -> rd A) (F : fmt A) (E : wenv) (a : A) : Prop :=
  writes f E a /\
  forall bs p tbl, in_file f E a bs p tbl ->
    F (world_of E p tbl) a bs /\ forall rest, r p (bs ++ rest) = Ok (a, rest).

Lemma run_inv E os is w : Forall (wf_op E) os -> run E os wst_new = Ok (is, w) -> w_inv w.
Proof.
  intros Ho Hr. pose proof (run_ok E os wst_new Ho w_inv_new) as H. rewrite Hr in H. apply H.
Qed.
Lemma wr_ok_writes {A} (f : cwr A) P F E a : wr_ok f P F -> P E a -> writes f E a.
Proof.
  intros Hf HP os is w Ho Hr. pose proof (run_inv _ _ _ _ Ho Hr) as Hi.
  specialize (Hf E a w HP Hi). destruct (f E a w) as [[bs w']| |]; cbn in Hf; [eauto|tauto|].
  destruct Hf as [? ->]. auto.
Qed.
Lemma wr_ok_file {A} (f : cwr A) P F E a bs p tbl : wr_ok f P F -> P E a -> in_file f E a bs p tbl ->
  F (world_of E p tbl) a bs.
Proof.
  intros Hf HP (os1 & is1 & w0 & w1 & os2 & is2 & w2 & pb & md & rest & m & Ho1 & Hr1 & Hw & Ho2 & Hr2 & Hfit & Hb & Hpb & Hrd & -> & ->).
  pose proof (run_inv _ _ _ _ Ho1 Hr1) as Hi. specialize (Hf E a w0 HP Hi). rewrite Hw in Hf. cbn in Hf.
  destruct Hf as (Hl1 & Hi1 & _ & HF). pose proof (run_ok E os2 w1 Ho2 Hi1) as H. rewrite Hr2 in H. cbn in H.
  destruct H as (Hl2 & Hi2 & _ & _). pose proof (later_le _ _ _ _ Hl2 HF) as HF'.
  destruct (pool_roundtrip w2 Hi2 Hfit) as (pb' & Hpb' & HR). assert (pb' = pb) by congruence. subst pb'.
  destruct (HR md rest) as (m' & Hm' & HP'). assert (m' = m) by congruence. subst m'.
  destruct (world_of_ok E m w2 Hi2 HP') as [Ha Hh]. apply HF'; auto.
Qed.
Lemma exact_intro {A} (f : cwr A) (r : pool -> rd A) P Q F E a :
  wr_ok f P F -> rd_ok r Q F -> P E a -> Q a -> exact f r F E a.
Proof.
  intros Hf Hr HP HQ. split; [eapply wr_ok_writes; eauto|].
  intros bs p tbl H. pose proof (wr_ok_file _ _ _ _ _ _ _ _ Hf HP H) as HF. split; auto.
  intros rest. apply (Hr (world_of E p tbl)); auto.
Qed.
(** [in_file] is reachable: a file that contains only what [f] wrote. *)
Lemma in_file_intro {A} (f : cwr A) E a bs w pb m : f E a wst_new = Ok (bs, w) ->
  wr_pool w = Ok pb -> rd_pool Debug (pb ++ []) = Ok (m, []) ->
  count_of (w_entries w) <= 65535 -> len (w_bsm w) <= 65536 ->
  in_file f E a bs (pool_of m) (w_bsm w).
Proof.
  intros Hw Hpb Hm Hf Hb.
  exists [], [], wst_new, w, [], [], w, pb, Debug, [], m. repeat split; auto.
Qed.

(** The same by computation, with a check of the pool. *)
Definition file_check {A} (f : cwr A) (E : wenv) (a : A) (bs : list Z) (k : pool -> bool) : bool :=
  match f E a wst_new with
  | Ok (b, w) =>
      list_eqb Z.eqb b bs && (count_of (w_entries w) <=? 65535) && (len (w_bsm w) <=? 65536) &&
      match wr_pool w with
      | Ok pb => match rd_pool Debug (pb ++ []) with Ok (m, []) => k (pool_of m) | _ => false end
      | _ => false
      end
  | _ => false
  end.
Lemma in_file_check {A} (f : cwr A) E a bs k : file_check f E a bs k = true ->
  exists p tbl, in_file f E a bs p tbl /\ k p = true.
Proof.
  unfold file_check. intros H. destruct (f E a wst_new) as [[b w]| |] eqn:Hw; try discriminate.
  destruct (wr_pool w) as [pb| |] eqn:Hpb; rewrite ?andb_false_r in H; try discriminate.
  destruct (rd_pool Debug (pb ++ [])) as [[m [|]]| |] eqn:Hm; rewrite ?andb_false_r in H; try discriminate.
  repeat rewrite andb_true_iff in H. destruct H as [[[H1 H2] H3] H4].
  apply (list_eqb_eq Z.eqb Z.eqb_eq) in H1. subst b.
  exists (pool_of m), (w_bsm w). split; auto. eapply in_file_intro; eauto; lia.
Qed.
Ltac file_eval := match goal with |- exists p tbl, in_file ?f ?E ?a ?bs p tbl =>
  destruct (in_file_check f E a bs (fun _ => true)) as (p & tbl & H & _); [vm_compute; reflexivity|exists p, tbl; exact H] end.

(** For the examples: ASCII strings. *)
Lemma jstr_ascii s : forallb (fun c => (1 <=? c) && (c <=? 127)) s = true -> len s <= 65535 -> jstr s.
Proof.
  intros H Hl. rewrite forallb_forall in H.
  assert (HA : forall c, In c s -> 1 <= c <= 127) by (intros c Hc; apply H in Hc; lia). clear H.
  exists s. split; [split; [split|]|].
  - apply Forall_forall. intros c Hc. apply HA in Hc. unfold is_cp. lia.
  - clear Hl. induction s as [|a s IH]; [exact I|]. destruct s as [|b s]; [cbn; auto|].
    cbn [no_pair]. split; [|apply IH; intros; apply HA; cbn; auto].
    intros [Hx _]. unfold is_lead in Hx. specialize (HA a). cbn in HA. intuition lia.
  - clear Hl. induction s as [|a s IH]; [reflexivity|]. cbn [flat_map].
    rewrite utf8_ascii by (specialize (HA a); cbn in HA; intuition lia).
    cbn [app]. rewrite <- IH; [reflexivity|intros; apply HA; cbn; auto].
  - replace (mutf8_of (flat_map utf16 s)) with s; auto. clear Hl.
    induction s as [|a s IH]; [reflexivity|]. unfold mutf8_of in *. cbn [flat_map].
    assert (1 <= a <= 127) by (apply HA; cbn; auto).
    rewrite flat_map_app, <- IH by (intros; apply HA; cbn; auto).
    unfold utf16. assert (a <? 65536 = true) as -> by lia. cbn [flat_map]. unfold mutf8_unit.
    assert ((1 <=? a) && (a <=? 127) = true) as -> by lia. reflexivity.
Qed.
Ltac ascii := apply jstr_ascii; [reflexivity|vm_compute; discriminate].
Lemma wf_name s : forallb (fun c => (1 <=? c) && (c <=? 127)) s = true -> wf_wtf8 s.
Proof.
  intros H. assert (forall c, In c s -> 1 <= c <= 127).
  { rewrite forallb_forall in H. intros c Hc. apply H in Hc. lia. }
  exists s. split; [split|].
  - apply Forall_forall. intros c Hc. apply H0 in Hc. unfold is_cp. lia.
  - clear H. induction s as [|a s IH]; [exact I|]. destruct s as [|b s]; [cbn; auto|].
    cbn [no_pair]. split; [|apply IH; intros; apply H0; cbn; auto].
    intros [Hx _]. unfold is_lead in Hx. specialize (H0 a). cbn in H0. intuition lia.
  - clear H. induction s as [|a s IH]; [reflexivity|]. cbn [flat_map].
    rewrite utf8_ascii by (specialize (H0 a); cbn in H0; intuition lia).
    cbn [app]. rewrite <- IH; [reflexivity|intros; apply H0; cbn; auto].
Qed.
