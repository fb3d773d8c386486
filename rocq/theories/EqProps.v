(** Properties of equality and hashing of constants: C79. *)
From Verif Require Import Base BaseLemmas Wtf8Spec PrimModel PrimProofs TypeModel TypeSpec TypeProofs CpModel CpProofs AnnProofs.
From Verif Require Import ClassModel ForeignClassSpec ForeignProps EqModel EqSpec.

Lemma ty_eqb_eq : forall a b, ty_eqb a b = true <-> a = b.
Proof.
  induction a as [| | | | | | | |n|d e IH|ps r Hps Hr] using ty_ind'; intros [| | | | | | | |n'|d' e'|ps' r']; cbn [ty_eqb];
    try (split; [discriminate|congruence]); try (split; reflexivity).
  - rewrite (list_eqb_eq Z.eqb Z.eqb_eq). split; congruence.
  - rewrite andb_true_iff, Z.eqb_eq, IH. split; [intros [-> ->]; auto|intros [= -> ->]; auto].
  - rewrite andb_true_iff.
    assert (H1 : (fix go (ps qs : list ty) : bool := match ps, qs with
         | [], [] => true | p :: ps, q :: qs => ty_eqb p q && go ps qs | _, _ => false end) ps ps' = true <-> ps = ps').
    { clear Hr. revert ps'. induction Hps as [|p ps Hp _ IHl]; intros [|q qs]; try (split; [discriminate|congruence]); [split; reflexivity|].
      rewrite andb_true_iff, Hp, IHl. split; [intros [-> ->]; auto|intros [= -> ->]; auto]. }
    rewrite H1.
    assert (H2 : match r, r' with None, None => true | Some x, Some y => ty_eqb x y | _, _ => false end = true <-> r = r').
    { destruct r as [x|], r' as [y|]; try (split; [discriminate|congruence]); [|split; reflexivity].
      rewrite (Hr x eq_refl). split; congruence. }
    rewrite H2. split; [intros [-> ->]; auto|intros [= -> ->]; auto].
Qed.
Lemma member_eqb_eq a b : member_eqb a b = true <-> a = b.
Proof.
  unfold member_eqb. rewrite !andb_true_iff, !(list_eqb_eq Z.eqb Z.eqb_eq), ty_eqb_eq, Bool.eqb_true_iff.
  destruct a, b; cbn. split; [intros [[[-> ->] ->] ->]; auto|intros [= -> -> -> ->]; auto].
Qed.
Lemma mhkind_u8_inj a b : mhkind_u8 a = mhkind_u8 b -> a = b.
Proof. destruct a, b; cbn; intros; try lia; reflexivity. Qed.
Lemma mhandle_eqb_eq a b : mhandle_eqb a b = true <-> a = b.
Proof.
  unfold mhandle_eqb. rewrite andb_true_iff, member_eqb_eq, Z.eqb_eq. destruct a as [k m], b as [k' m']; cbn.
  split; [intros [H ->]; apply mhkind_u8_inj in H; subst; auto|intros [= -> ->]; auto].
Qed.
Lemma constant_eqb_eq a b : constant_eqb a b = true <-> a = b.
Proof.
  destruct a, b; cbn [constant_eqb]; try (split; [discriminate|congruence]);
    rewrite ?Z.eqb_eq, ?(list_eqb_eq Z.eqb Z.eqb_eq), ?member_eqb_eq, ?ty_eqb_eq, ?mhandle_eqb_eq; split; congruence.
Qed.

(** * Equality *)

Lemma andr_true a b : andr a b = Ok true <-> a = Ok true /\ b = Ok true.
Proof. destruct a as [[|]| |]; cbn; split; try tauto; intuition discriminate. Qed.
Lemma andr_false a b : andr a b = Ok false -> a = Ok false \/ (a = Ok true /\ b = Ok false).
Proof. destruct a as [[|]| |]; cbn; auto; discriminate. Qed.

Definition arg_by (R : Z -> Z -> Prop) (o o' : ordyn constant) : Prop :=
  match o, o' with Dyn d, Dyn d' => dyn_by R d d' | Stat k, Stat k' => k' = k | _, _ => False end.

Lemma slice_eq_true {A} (f : A -> A -> res bool) (a b : list A) :
  slice_eq f a b = Ok true <-> Forall2 (fun x y => f x y = Ok true) a b.
Proof.
  unfold slice_eq. split.
  - destruct (len a =? len b) eqn:E; [|discriminate]. revert b E. induction a as [|x a IH]; intros [|y b] E; cbn [all_eq];
      rewrite ?len_cons, ?len_nil in E; try (pose proof (len_nonneg a)); try (pose proof (len_nonneg b)); try lia; [constructor|].
    rewrite andr_true. intros [H1 H2]. constructor; [auto|]. apply IH; [lia|auto].
  - intros H. assert (E : len a =? len b = true) by (apply Z.eqb_eq; unfold len; f_equal; eapply Forall2_len; eauto).
    rewrite E. clear E. induction H as [|x y a b Hx _ IH]; [reflexivity|]. cbn [all_eq]. rewrite Hx. exact IH.
Qed.
Lemma slice_eq_false {A} (f : A -> A -> res bool) (a b : list A) :
  slice_eq f a b = Ok false -> ~ Forall2 (fun x y => f x y <> Ok false) a b.
Proof.
  unfold slice_eq. destruct (len a =? len b) eqn:E.
  - intros H F. induction F as [|x y a b Hx _ IH]; cbn [all_eq] in H; [discriminate|].
    apply andr_false in H as [H|[_ H]]; [auto|]. apply IH; [rewrite !len_cons in E; lia|exact H].
  - intros _ F. apply Forall2_len in F. unfold len in E. lia.
Qed.

Lemma Forall2_flip {A B} (R : A -> B -> Prop) l l' : Forall2 R l l' -> Forall2 (fun b a => R a b) l' l.
Proof. induction 1; constructor; auto. Qed.

Section Eq.
Context (h : Z -> option bsm).
Definition cell_same (x y : Z) : Prop := x = y \/ exists n, cell_eq h (dyn_eq h n) x y = Ok true.
Lemma dyn_eq_by n a b : dyn_eq h n a b = Ok true -> dyn_by cell_same a b.
Proof using.
  destruct n as [|n]; [discriminate|]. cbn [dyn_eq]. rewrite !andr_true. intros [H1 [H2 H3]].
  injection H2 as H2. injection H3 as H3. apply (list_eqb_eq Z.eqb Z.eqb_eq) in H2. apply ty_eqb_eq in H3.
  split; [congruence|]. split; [congruence|]. right. eauto.
Qed.
Lemma dyn_by_refl (R : Z -> Z -> Prop) d : (forall x, R x x) -> dyn_by R d d.
Proof using. intros H. split; [reflexivity|]. split; [reflexivity|]. apply H. Qed.
Lemma bsm_by_refl (R : Z -> Z -> Prop) b : (forall x, R x x) -> bsm_by R b b.
Proof using.
  intros H. split; [reflexivity|]. induction (b_args b) as [|[d|k] l IH]; constructor; auto. apply dyn_by_refl, H.
Qed.
Lemma cell_same_alike : alike h cell_same.
Proof using.
  intros x y [<-|(n & Hn)].
  - destruct (h x) as [b|] eqn:E; [right; exists b, b|left]; auto. split; [auto|]. split; [auto|]. apply bsm_by_refl. intros. left. auto.
  - unfold cell_eq in Hn. destruct (x =? y) eqn:Exy.
    { apply Z.eqb_eq in Exy. subst. destruct (h y) as [b|] eqn:E; [right; exists b, b|left]; auto.
      split; [auto|]. split; [auto|]. apply bsm_by_refl. intros. left. auto. }
    destruct (h x) as [a|] eqn:Ex, (h y) as [b|] eqn:Ey; try discriminate; [|left; auto].
    right. exists a, b. split; [auto|]. split; [auto|]. unfold bsm_eq in Hn. rewrite andr_true in Hn. destruct Hn as [H1 H2].
    injection H1 as H1. apply mhandle_eqb_eq in H1. split; [congruence|]. apply slice_eq_true in H2.
    induction H2 as [|o o' l l' Ho _ IH]; constructor; auto.
    destruct o as [d|k], o' as [d'|k']; cbn [ordyn_eq] in Ho; try discriminate.
    + apply (dyn_eq_by n). auto.
    + injection Ho as Ho. symmetry. apply constant_eqb_eq. auto.
Qed.

(** An answer [false] is never given for constants that are the same. *)
Lemma dyn_eq_not_false R : alike h R -> forall n a b, dyn_by R a b -> dyn_eq h n a b <> Ok false.
Proof using.
  intros HR. induction n as [|n IH]; intros a b (Hn & Hd & Hc) H; [discriminate|]. cbn [dyn_eq] in H.
  apply andr_false in H as [H|[_ H]].
  - unfold cell_eq in H. destruct (d_cell a =? d_cell b); [discriminate|].
    destruct (HR _ _ Hc) as [[E1 E2]|(x & y & E1 & E2 & Hh & Ha)]; rewrite E1, E2 in H; [discriminate|].
    unfold bsm_eq in H. apply andr_false in H as [H|[_ H]].
    + injection H as H. rewrite Hh in H. assert (mhandle_eqb (b_handle x) (b_handle x) = true) by (apply mhandle_eqb_eq; reflexivity). congruence.
    + apply slice_eq_false in H. apply H. eapply Forall2_impl; [|exact Ha]. intros [d|k] [d'|k'] Ho; try tauto; cbn [ordyn_eq].
      * apply IH. auto.
      * subst. intros [= Hf]. assert (constant_eqb k k = true) by (apply constant_eqb_eq; reflexivity). congruence.
  - apply andr_false in H as [H|[_ H]]; injection H as H.
    + rewrite Hn in H. assert (list_eqb Z.eqb (d_name a) (d_name a) = true) by (apply (list_eqb_eq Z.eqb Z.eqb_eq); reflexivity). congruence.
    + rewrite Hd in H. assert (ty_eqb (d_desc a) (d_desc a) = true) by (apply ty_eqb_eq; reflexivity). congruence.
Qed.

(** C79: whenever [==] answers, the answer says whether the constants are the same. *)
Theorem C79_answer : forall n a b v, dyn_eq h n a b = Ok v -> (v = true <-> same h a b).
Proof using.
  intros n a b v H. split.
  - intros ->. exists cell_same. split; [apply cell_same_alike|]. eapply dyn_eq_by; eauto.
  - intros (R & HR & Hab). destruct v; [reflexivity|]. exfalso. exact (dyn_eq_not_false R HR n a b Hab H).
Qed.
End Eq.

Lemma all_eq_ok {A} (f g : A -> A -> res bool) : forall a b, (forall x y, In x a -> In y b -> forall v, f x y = Ok v -> g x y = Ok v) ->
  forall v, all_eq f a b = Ok v -> all_eq g a b = Ok v.
Proof.
  induction a as [|x a IH]; intros [|y b] H v; cbn [all_eq]; auto.
  destruct (f x y) as [[|]| |] eqn:E; cbn [andr]; try discriminate; rewrite (H x y (or_introl eq_refl) (or_introl eq_refl) _ E); cbn [andr]; auto.
  apply IH. intros x' y' Hx Hy. apply H; right; auto.
Qed.
(** More room never changes an answer. *)
Lemma dyn_eq_more h : forall n m a b v, (n <= m)%nat -> dyn_eq h n a b = Ok v -> dyn_eq h m a b = Ok v.
Proof.
  induction n as [|n IH]; intros m a b v Hm; [discriminate|]. destruct m as [|m]; [lia|]. cbn [dyn_eq].
  assert (Hc : forall w, cell_eq h (dyn_eq h n) (d_cell a) (d_cell b) = Ok w -> cell_eq h (dyn_eq h m) (d_cell a) (d_cell b) = Ok w).
  { intros w. unfold cell_eq. destruct (d_cell a =? d_cell b); auto. destruct (h (d_cell a)) as [x|], (h (d_cell b)) as [y|]; auto.
    unfold bsm_eq. destruct (mhandle_eqb (b_handle x) (b_handle y)); cbn [andr]; auto. unfold slice_eq. destruct (len (b_args x) =? len (b_args y)); auto.
    apply all_eq_ok. intros [d|k] [d'|k'] _ _ u; cbn [ordyn_eq]; auto. apply IH. lia. }
  destruct (cell_eq h (dyn_eq h n) (d_cell a) (d_cell b)) as [[|]| |]; cbn [andr]; try discriminate; rewrite (Hc _ eq_refl); auto.
Qed.

Lemma all_eq_total {A} (f : nat -> A -> A -> res bool)
  (Hm : forall n m x y v, (n <= m)%nat -> f n x y = Ok v -> f m x y = Ok v) : forall a b,
  (forall x y, In x a -> In y b -> exists n v, f n x y = Ok v) -> exists n v, all_eq (f n) a b = Ok v.
Proof.
  induction a as [|x a IH]; intros [|y b] H; cbn [all_eq]; try (exists O, true; reflexivity).
  destruct (H x y (or_introl eq_refl) (or_introl eq_refl)) as (n & v & E).
  destruct (IH b) as (m & w & E'); [intros x' y' Hx Hy; apply H; right; auto|].
  exists (Nat.max n m). rewrite (Hm n (Nat.max n m) x y v (Nat.le_max_l _ _) E).
  assert (E'' : all_eq (f (Nat.max n m)) a b = Ok w) by (revert E'; apply all_eq_ok; intros x' y' _ _ u; apply Hm, Nat.le_max_r).
  rewrite E''. destruct v; cbn [andr]; eauto.
Qed.

(** C79: [==] answers if either constant is finite, with any larger recursion
    depth the same. *)
Theorem C79_answers_partial : forall h a b, finite h (d_cell a) \/ finite h (d_cell b) ->
  exists N v, forall n, (N <= n)%nat -> dyn_eq h n a b = Ok v.
Proof.
  intros h.
  assert (HC : forall x y, finite h x \/ finite h y -> exists n v, cell_eq h (dyn_eq h n) x y = Ok v).
  { assert (Hstep : forall x y a b, h x = Some a -> h y = Some b ->
      (forall d e, In (Dyn d) (b_args a) -> In (Dyn e) (b_args b) -> exists n v, cell_eq h (dyn_eq h n) (d_cell d) (d_cell e) = Ok v) ->
      exists n v, cell_eq h (dyn_eq h n) x y = Ok v).
    { intros x y a b Ha Hb H.
      destruct (all_eq_total (fun n => ordyn_eq (dyn_eq h n))) with (a := b_args a) (b := b_args b) as (n & v & E).
      - intros n m [d|k] [e|k'] v Hnm; cbn [ordyn_eq]; auto. apply dyn_eq_more. auto.
      - intros [d|k] [e|k'] H1 H2; cbn [ordyn_eq]; try (exists O; eauto; fail).
        destruct (H d e H1 H2) as (n & v & E). exists (S n). cbn [dyn_eq]. rewrite E. destruct v; cbn [andr]; eauto.
        destruct (list_eqb Z.eqb (d_name d) (d_name e)); cbn [andr]; eauto.
      - exists n. unfold cell_eq. rewrite Ha, Hb. destruct (x =? y); eauto. unfold bsm_eq.
        destruct (mhandle_eqb (b_handle a) (b_handle b)); cbn [andr]; eauto. unfold slice_eq. rewrite E. destruct (len (b_args a) =? len (b_args b)); eauto. }
    assert (Hnone : forall x y, h x = None \/ h y = None -> exists n v, cell_eq h (dyn_eq h n) x y = Ok v).
    { intros x y H. exists O. unfold cell_eq. destruct (x =? y); eauto. destruct (h x), (h y); eauto. destruct H; discriminate. }
    intros x y [H|H].
    - revert y. induction H as [x _ IH]. intros y. destruct (h x) as [a|] eqn:Ha; [|apply Hnone; auto]. destruct (h y) as [b|] eqn:Hb; [|apply Hnone; auto].
      apply (Hstep x y a b Ha Hb). intros d e Hd _. apply (IH a d eq_refl Hd).
    - revert x. induction H as [y _ IH]. intros x. destruct (h y) as [b|] eqn:Hb; [|apply Hnone; auto]. destruct (h x) as [a|] eqn:Ha; [|apply Hnone; auto].
      apply (Hstep x y a b Ha Hb). intros d e _ He. apply (IH b e eq_refl He). }
  intros a b H. destruct (HC _ _ H) as (n & v & E).
  assert (exists w, dyn_eq h (S n) a b = Ok w) as (w & Ew).
  { cbn [dyn_eq]. rewrite E. destruct v; cbn [andr]; eauto. destruct (list_eqb Z.eqb (d_name a) (d_name b)); cbn [andr]; eauto. }
  exists (S n), w. intros m Hm. eapply dyn_eq_more; eauto.
Qed.

(** C79: a copy ([clone] shares the cell) is equal at once, whatever the cell holds. *)
Theorem C79_clone : forall h n d, dyn_eq h (S n) d d = Ok true.
Proof.
  intros h n d. cbn [dyn_eq]. unfold cell_eq. rewrite Z.eqb_refl. cbn [andr].
  assert (list_eqb Z.eqb (d_name d) (d_name d) = true) as -> by (apply (list_eqb_eq Z.eqb Z.eqb_eq); reflexivity).
  assert (ty_eqb (d_desc d) (d_desc d) = true) as -> by (apply ty_eqb_eq; reflexivity). reflexivity.
Qed.

(** C79: [==] is an equivalence on what it says about finite constants. *)
Lemma same_refl h d : same h d d.
Proof.
  exists eq. split; [|apply dyn_by_refl; auto]. intros x y <-. destruct (h x) as [b|] eqn:E; [right; exists b, b|left]; auto.
  split; [auto|]. split; [auto|]. apply bsm_by_refl. auto.
Qed.
Lemma same_sym h a b : same h a b -> same h b a.
Proof.
  intros (R & HR & Hn & Hd & Hc). exists (fun x y => R y x). split; [|split; [auto|split; auto]].
  intros x y Hxy. destruct (HR _ _ Hxy) as [[E1 E2]|(p & q & E1 & E2 & Hh & Ha)]; [left; auto|]. right. exists q, p. split; [auto|]. split; [auto|].
  split; [auto|]. apply Forall2_flip in Ha. eapply Forall2_impl; [|exact Ha]. intros [u|u] [v|v]; cbn; auto. intros (? & ? & ?). split; [auto|split; auto].
Qed.
Lemma same_trans h a b c : same h a b -> same h b c -> same h a c.
Proof.
  intros (R & HR & Hn & Hd & Hc) (Q & HQ & Hn' & Hd' & Hc'). exists (fun x z => exists y, R x y /\ Q y z).
  split; [|split; [congruence|split; [congruence|eauto]]].
  intros x z (y & Hxy & Hyz).
  destruct (HR _ _ Hxy) as [[E1 E2]|(p & q & E1 & E2 & Hh & Ha)], (HQ _ _ Hyz) as [[E3 E4]|(p' & q' & E3 & E4 & Hh' & Ha')]; try congruence; [left; auto|].
  assert (p' = q) as -> by congruence. right. exists p, q'. split; [auto|]. split; [auto|]. split; [congruence|].
  clear - Ha Ha'. revert Ha'. generalize (b_args q'). induction Ha as [|u v l l' Huv _ IH]; intros m H; inversion H; subst; constructor; auto.
  destruct u as [u|u], v as [v|v]; cbn in Huv; try tauto; destruct y as [w|w]; try tauto; [|congruence].
  destruct Huv as (? & ? & ?), H2 as (? & ? & ?). split; [congruence|]. split; [congruence|]. eauto.
Qed.
Theorem C79_equivalence : forall h a b c, finite h (d_cell a) \/ finite h (d_cell b) -> finite h (d_cell b) \/ finite h (d_cell c) ->
  finite h (d_cell a) \/ finite h (d_cell c) ->
  exists N, forall n, (N <= n)%nat -> dyn_eq h n a b = dyn_eq h n b a /\
    (dyn_eq h n a b = Ok true -> dyn_eq h n b c = Ok true -> dyn_eq h n a c = Ok true).
Proof.
  intros h a b c Hab Hbc Hac.
  destruct (C79_answers_partial h a b Hab) as (N1 & v1 & H1).
  destruct (C79_answers_partial h b a) as (N2 & v2 & H2); [tauto|].
  destruct (C79_answers_partial h a c Hac) as (N4 & v4 & H4).
  exists (N1 + N2 + N4)%nat. intros n Hn. rewrite H1, H2 by lia. split.
  - pose proof (C79_answer h _ _ _ _ (H1 N1 (le_n _))) as E1. pose proof (C79_answer h _ _ _ _ (H2 N2 (le_n _))) as E2.
    assert (v1 = true <-> v2 = true) by (rewrite E1, E2; split; apply same_sym). destruct v1, v2; intuition discriminate.
  - intros E1 E2. rewrite H4 by lia. apply f_equal. apply (C79_answer h _ _ _ _ (H4 N4 (le_n _))). rewrite <- (H1 n) in E1 by lia.
    apply (same_trans h a b c); [apply (C79_answer h n a b true E1)|apply (C79_answer h n b c true E2)]; reflexivity.
Qed.

(** * Hash *)

Lemma appr_ok a b r : appr a b = Ok r <-> exists x y, a = Ok x /\ b = Ok y /\ r = x ++ y.
Proof.
  unfold appr. destruct a as [x| |], b as [y| |]; cbn [bind]; split; try discriminate; intros H; try (destruct H as (? & ? & [= <-] & [= <-] & ->); reflexivity);
    try (destruct H as (? & ? & ? & ? & ?); discriminate).
  injection H as <-. eauto.
Qed.
Definition args_feed (hd : dynamic -> res (list Z)) (l : list (ordyn constant)) : res (list Z) :=
  fold_right (fun o r => appr (ordyn_feed hd o) r) (Ok []) l.
Lemma args_feed_in hd l f d : args_feed hd l = Ok f -> In (Dyn d) l -> exists g, hd d = Ok g.
Proof.
  revert f. induction l as [|o l IH]; intros f; cbn [args_feed fold_right In]; [tauto|]. rewrite appr_ok. intros (x & y & Ho & Hl & _) [->|Hi].
  - cbn [ordyn_feed] in Ho. apply appr_ok in Ho as (? & g & _ & Hg & _). eauto.
  - eapply IH; eauto.
Qed.
Lemma args_feed_ok hd l : (forall d, In (Dyn d) l -> exists g, hd d = Ok g) -> exists f, args_feed hd l = Ok f.
Proof.
  induction l as [|o l IH]; intros H; [exists []; reflexivity|]. destruct IH as (f & Hf); [intros d Hd; apply H; right; auto|].
  assert (exists g, ordyn_feed hd o = Ok g) as (g & Hg).
  { destruct o as [d|k]; cbn [ordyn_feed]; [|eauto]. destruct (H d (or_introl eq_refl)) as (g & ->). cbn. eauto. }
  exists (g ++ f). change (args_feed hd (o :: l)) with (appr (ordyn_feed hd o) (args_feed hd l)). rewrite Hg, Hf. reflexivity.
Qed.
Lemma args_feed_mono hd hd' l f : (forall d g, In (Dyn d) l -> hd d = Ok g -> hd' d = Ok g) -> args_feed hd l = Ok f -> args_feed hd' l = Ok f.
Proof.
  revert f. induction l as [|o l IH]; intros f H; cbn [args_feed fold_right]; auto. rewrite !appr_ok. intros (x & y & Ho & Hl & ->).
  exists x, y. split; [|split; [|reflexivity]].
  - destruct o as [d|k]; cbn [ordyn_feed] in *; auto. apply appr_ok in Ho as (p & g & Hp & Hg & ->). apply appr_ok. exists p, g. split; [auto|]. split; [|auto].
    apply H; [left; auto|auto].
  - apply IH; auto. intros d g Hd. apply H. right. auto.
Qed.
Lemma bsm_feed_args hd b f : bsm_feed hd b = Ok f <->
  exists g, args_feed hd (b_args b) = Ok g /\ f = (mhandle_feed (b_handle b) ++ le 8 (len (b_args b))) ++ g.
Proof.
  unfold bsm_feed. rewrite appr_ok. split.
  - intros (x & y & [= <-] & H & ->). eauto.
  - intros (g & H & ->). eauto.
Qed.
Lemma dyn_feed_more h : forall n m d f, (n <= m)%nat -> dyn_feed h n d = Ok f -> dyn_feed h m d = Ok f.
Proof.
  induction n as [|n IH]; intros m d f Hm; [discriminate|]. destruct m as [|m]; [lia|]. cbn [dyn_feed]. rewrite !appr_ok.
  intros (x & y & Hx & Hy & ->). exists x, y. split; [|auto]. destruct (h (d_cell d)) as [b|]; auto.
  apply appr_ok in Hx as (p & q & Hp & Hq & ->). apply appr_ok. exists p, q. split; [auto|]. split; [|auto].
  apply bsm_feed_args in Hq as (g & Hg & ->). apply bsm_feed_args. exists g. split; [|auto]. eapply args_feed_mono; [|exact Hg].
  intros e k _. apply IH. lia.
Qed.

(** C79: hashing ends exactly for finite constants. *)
Theorem C79_hash_ends : forall h d, (exists n f, dyn_feed h n d = Ok f) <-> finite h (d_cell d).
Proof.
  intros h d. split.
  - intros (n & f & H). revert d f H. induction n as [|n IH]; intros d f; [discriminate|]. cbn [dyn_feed]. rewrite appr_ok.
    intros (x & y & Hx & _). constructor. intros b e Hb He. rewrite Hb in Hx. apply appr_ok in Hx as (p & q & _ & Hq & _).
    apply bsm_feed_args in Hq as (g & Hg & _). destruct (args_feed_in _ _ _ _ Hg He) as (k & Hk). eapply IH; eauto.
  - intros H. remember (d_cell d) as c eqn:Ec. revert d Ec. induction H as [c _ IH]. intros d ->.
    destruct (h (d_cell d)) as [b|] eqn:Hb; [|exists 1%nat; cbn [dyn_feed]; rewrite Hb; eexists; reflexivity].
    assert (exists n, forall e, In (Dyn e) (b_args b) -> exists g, dyn_feed h n e = Ok g) as (n & Hn).
    { specialize (fun e He => IH b e eq_refl He e eq_refl). induction (b_args b) as [|o l IHl]; [exists O; intros e []|].
      destruct IHl as (n & Hn); [intros e He; apply IH; right; auto|]. destruct o as [e0|k].
      - destruct (IH e0 (or_introl eq_refl)) as (m & g & Hg). exists (Nat.max n m). intros e [[= <-]|He].
        + exists g. eapply dyn_feed_more; [apply Nat.le_max_r|exact Hg].
        + destruct (Hn e He) as (g' & Hg'). exists g'. eapply dyn_feed_more; [apply Nat.le_max_l|exact Hg'].
      - exists n. intros e [|He]; [discriminate|auto]. }
    destruct (args_feed_ok _ _ Hn) as (g & Hg). exists (S n). cbn [dyn_feed]. rewrite Hb.
    assert (bsm_feed (dyn_feed h n) b = Ok ((mhandle_feed (b_handle b) ++ le 8 (len (b_args b))) ++ g)) as -> by (apply bsm_feed_args; eauto).
    cbn. eauto.
Qed.

(** C79: constants that are the same give the hasher the same bytes. *)
Theorem C79_hash_same : forall h n a b f, same h a b -> dyn_feed h n a = Ok f -> dyn_feed h n b = Ok f.
Proof.
  intros h n a b f (R & HR & Hab). revert a b f Hab. induction n as [|n IH]; intros a b f (Hn & Hd & Hc); [discriminate|]. cbn [dyn_feed].
  rewrite !appr_ok, Hn, Hd. intros (x & y & Hx & Hy & ->). exists x, y. split; [|auto].
  destruct (HR _ _ Hc) as [[E1 E2]|(p & q & E1 & E2 & Hh & Ha)]; rewrite E1 in Hx; rewrite E2; [auto|].
  apply appr_ok in Hx as (u & v & Hu & Hv & ->). apply appr_ok. exists u, v. split; [auto|]. split; [|auto].
  apply bsm_feed_args in Hv as (g & Hg & ->). apply bsm_feed_args. exists g.
  assert (len (b_args q) = len (b_args p)) as -> by (unfold len; f_equal; symmetry; eapply Forall2_len; eauto). rewrite Hh. split; [|auto].
  clear - IH Ha Hg. revert g Hg. induction Ha as [|o o' l l' Ho _ IHl]; intros g; cbn [args_feed fold_right]; auto.
  rewrite !appr_ok. intros (x & y & Hx & Hy & ->). exists x, y. split; [|split; [apply IHl; auto|auto]].
  destruct o as [d|k], o' as [d'|k']; cbn in Ho; try tauto; cbn [ordyn_feed] in *; [|congruence].
  apply appr_ok in Hx as (s & t & Hs & Ht & ->). apply appr_ok. exists s, t. split; [auto|]. split; [eapply IH; eauto|auto].
Qed.

(** Bytes that can be told apart without knowing where they end. *)
Definition prefix_free {A} (P : A -> Prop) (f : A -> list Z) : Prop :=
  forall a b r r', P a -> P b -> f a ++ r = f b ++ r' -> a = b /\ r = r'.
Lemma le_length n x : length (le n x) = n.
Proof. unfold le. rewrite rev_length. apply be_length. Qed.
Lemma app_split {A} (a b r r' : list A) : length a = length b -> a ++ r = b ++ r' -> a = b /\ r = r'.
Proof.
  revert b. induction a as [|x a IH]; intros [|y b]; cbn; try discriminate; auto. intros [= H] [= -> E]. destruct (IH b H E) as [-> ->]. auto.
Qed.
Lemma le_eq n x y : 0 < 256 ^ Z.of_nat n -> le n x = le n y -> x mod 256 ^ Z.of_nat n = y mod 256 ^ Z.of_nat n.
Proof. intros _ H. unfold le in H. apply (f_equal (@rev Z)) in H. rewrite !rev_involutive in H. rewrite <- !from_be_be. congruence. Qed.
Lemma le_free n lo : prefix_free (fun x => lo <= x < lo + 256 ^ Z.of_nat n) (le n).
Proof.
  intros a b r r' Ha Hb H. apply app_split in H as [H ->]; [|rewrite !le_length; auto]. split; [|auto].
  assert (Hp : 0 < 256 ^ Z.of_nat n) by (apply Z.pow_pos_nonneg; lia). apply le_eq in H; [|auto].
  set (m := 256 ^ Z.of_nat n) in *. pose proof (Z.div_mod a m ltac:(lia)). pose proof (Z.div_mod b m ltac:(lia)).
  assert (a / m = b / m \/ a / m <> b / m) as [E|E] by lia; [nia|].
  exfalso. assert (a - b = m * (a / m - b / m)) by nia. assert (- m < a - b < m) by lia. nia.
Qed.
Ltac pow_norm := change (256 ^ Z.of_nat 1) with 256; change (256 ^ Z.of_nat 4) with 4294967296; change (256 ^ Z.of_nat 8) with 18446744073709551616.
Lemma utf8_low c : is_cp c -> Forall (fun x => x < 254) (utf8 c).
Proof.
  unfold is_cp, utf8. intros H.
  destruct (c <? 128) eqn:E1; [repeat constructor; lia|]. destruct (c <? 2048) eqn:E2.
  { repeat constructor; lia. }
  destruct (c <? 65536) eqn:E3; repeat constructor; try lia.
Qed.
Lemma wtf8_low s : wf_wtf8 s -> ~ In 254 s.
Proof.
  intros (cps & (Hc & _) & ->) H. apply in_flat_map in H as (c & H1 & H2). rewrite Forall_forall in Hc. specialize (Hc c H1).
  apply utf8_low in Hc. rewrite Forall_forall in Hc. specialize (Hc 254 H2). lia.
Qed.
Lemma str_free : prefix_free wf_wtf8 str_feed.
Proof.
  intros a b r r' Ha Hb. apply wtf8_low in Ha, Hb. unfold str_feed. rewrite <- !app_assoc. cbn [app]. revert b Ha Hb.
  induction a as [|x a IH]; intros [|y b]; cbn [app In]; intros Ha Hb H; injection H as H; subst; auto; try tauto.
  destruct (IH b) as [-> ->]; auto.
Qed.
Lemma tag_free a b r r' : 0 <= a < 256 -> 0 <= b < 256 -> le 8 a ++ r = le 8 b ++ r' -> a = b /\ r = r'.
Proof. intros Ha Hb H. apply (le_free 8 0) in H; auto; pow_norm; lia. Qed.
Lemma list_free {A} (P : A -> Prop) (f : A -> list Z) (l : list A) : Forall (fun a => forall b r r', P a -> P b -> f a ++ r = f b ++ r' -> a = b /\ r = r') l ->
  forall l' r r', Forall P l -> Forall P l' -> length l = length l' -> flat_map f l ++ r = flat_map f l' ++ r' -> l = l' /\ r = r'.
Proof.
  induction 1 as [|a l Ha _ IH]; intros [|b l'] r r' H1 H2 HL; try discriminate; cbn [flat_map app]; auto.
  rewrite <- !app_assoc. intros H. inversion H1; subst. inversion H2; subst. destruct (Ha b _ _ H4 H6 H) as [-> H']. injection HL as HL.
  destruct (IH l' r r') as [-> ->]; auto.
Qed.
Lemma sane_all ps : (fix all l := match l with [] => True | t :: l => sane_ty t /\ all l end) ps <-> Forall sane_ty ps.
Proof. induction ps as [|p ps IH]; [split; constructor|]. rewrite Forall_cons_iff, <- IH. tauto. Qed.
Lemma ty_free : prefix_free sane_ty ty_feed.
Proof.
  intros a. induction a as [| | | | | | | |n|d e IH|ps q Hps Hq] using ty_ind'; intros [| | | | | | | |n'|d' e'|ps' q'] r r' Ha Hb H; cbn [ty_feed] in H;
    rewrite <- ?app_assoc in H; apply tag_free in H as [Ht H]; try lia; try (clear -Ht; lia); auto.
  - apply str_free in H as [-> ->]; auto.
  - destruct Ha as [Ha1 Ha2], Hb as [Hb1 Hb2]. apply (le_free 1 0) in H as [-> H]; [|pow_norm; unfold u8 in *; lia ..].
    apply IH in H as [-> ->]; auto.
  - destruct Ha as (Ha1 & Ha2 & Ha3), Hb as (Hb1 & Hb2 & Hb3). apply sane_all in Ha2, Hb2. apply (le_free 8 0) in H as [HL H]; [|pow_norm; unfold u64 in *; lia ..].
    apply (list_free sane_ty) in H as [-> H]; auto; [|unfold len in HL; lia].
    destruct q as [t|], q' as [t'|]; rewrite <- ?app_assoc in H; apply tag_free in H as [Ht' H]; try lia; subst; auto.
    apply (Hq t eq_refl) in H as [-> ->]; auto.
Qed.
Lemma member_free : prefix_free sane_member member_feed.
Proof.
  intros [o n t i] [o' n' t' i'] r r' (H1 & H2 & H3) (H1' & H2' & H3') H. unfold member_feed in H. cbn [m_owner m_name m_desc m_itfs] in *. rewrite <- !app_assoc in H.
  apply str_free in H as [-> H]; auto. apply str_free in H as [-> H]; auto. apply ty_free in H as [-> H]; auto.
  apply (le_free 1 0) in H as [Hi ->]; [|pow_norm; destruct i, i'; lia ..]. destruct i, i'; try lia; auto.
Qed.
Lemma mhandle_free : prefix_free (fun x => sane_member (h_member x)) mhandle_feed.
Proof.
  intros [k m] [k' m'] r r' H1 H2 H. unfold mhandle_feed in H. cbn [h_kind h_member] in *. rewrite <- !app_assoc in H.
  apply (le_free 1 0) in H as [Hi H]; [|pow_norm; destruct k, k'; cbn; lia ..]. apply mhkind_u8_inj in Hi. apply member_free in H as [-> ->]; auto. subst. auto.
Qed.
Lemma constant_free : prefix_free sane_const constant_feed.
Proof.
  intros a b r r' Ha Hb H. destruct a, b; cbn [constant_feed sane_const] in *; rewrite <- ?app_assoc in H; apply tag_free in H as [Ht H]; try lia; try (clear -Ht; lia).
  - apply (le_free 4 (-2147483648)) in H as [-> ->]; auto; pow_norm; unfold i32 in *; lia.
  - apply (le_free 4 0) in H as [-> ->]; auto; pow_norm; unfold u32 in *; lia.
  - apply (le_free 8 (-9223372036854775808)) in H as [-> ->]; auto; pow_norm; unfold i64 in *; lia.
  - apply (le_free 8 0) in H as [-> ->]; auto; pow_norm; unfold u64 in *; lia.
  - apply str_free in H as [-> ->]; auto.
  - apply str_free in H as [-> ->]; auto.
  - apply member_free in H as [-> ->]; auto.
  - apply ty_free in H as [-> ->]; auto.
  - apply mhandle_free in H as [-> ->]; auto.
Qed.
Lemma dyn_free h : sane_heap h -> forall n m a b f g r r', sane_dyn a -> sane_dyn b ->
  dyn_feed h n a = Ok f -> dyn_feed h m b = Ok g -> f ++ r = g ++ r' -> dyn_eq h n a b = Ok true /\ r = r'.
Proof.
  intros HS. induction n as [|n IH]; intros m a b f g r r' Ha Hb; [discriminate|]. destruct m as [|m]; [discriminate|]. cbn [dyn_feed dyn_eq].
  rewrite !appr_ok. intros (x & y & Hx & [= <-] & ->) (x' & y' & Hx' & [= <-] & ->). rewrite <- !app_assoc. intros H.
  assert (exists s s', x ++ s = x' ++ s' /\ s = str_feed (d_name a) ++ ty_feed (d_desc a) ++ r /\ s' = str_feed (d_name b) ++ ty_feed (d_desc b) ++ r') as (s & s' & E & Es & Es') by eauto.
  assert (cell_eq h (dyn_eq h n) (d_cell a) (d_cell b) = Ok true /\ s = s') as [HC Hs].
  { clear - HS IH Hx Hx' E. unfold cell_eq. pose proof (HS (d_cell a)) as S1. pose proof (HS (d_cell b)) as S2.
    destruct (h (d_cell a)) as [p|], (h (d_cell b)) as [q|].
    - apply appr_ok in Hx as (u & v & [= <-] & Hv & ->). apply appr_ok in Hx' as (u' & v' & [= <-] & Hv' & ->). rewrite <- ?app_assoc in E.
      apply tag_free in E as [_ E]; [|lia ..]. apply bsm_feed_args in Hv as (g & Hg & ->). apply bsm_feed_args in Hv' as (g' & Hg' & ->).
      rewrite <- ?app_assoc in E. destruct (S1 p eq_refl) as (M1 & L1 & A1), (S2 q eq_refl) as (M2 & L2 & A2). apply mhandle_free in E as [EH E]; auto.
      apply (le_free 8 0) in E as [EL E]; [|pow_norm; unfold u64 in *; lia ..].
      assert (all_eq (ordyn_eq (dyn_eq h n)) (b_args p) (b_args q) = Ok true /\ s = s') as [HA ->].
      { clear - IH A1 A2 EL Hg Hg' E. revert EL g g' Hg Hg' E A2. generalize (b_args q). induction A1 as [|o l Ho _ IHl]; intros [|o' l'] EL g g' Hg Hg' E A2;
          rewrite ?len_cons, ?len_nil in EL; try (pose proof (len_nonneg l)); try (pose proof (len_nonneg l')); try lia.
        - injection Hg as <-. injection Hg' as <-. auto.
        - cbn [args_feed fold_right] in Hg, Hg'. apply appr_ok in Hg as (c & k & Hc & Hk & ->). apply appr_ok in Hg' as (c' & k' & Hc' & Hk' & ->).
          rewrite <- ?app_assoc in E. inversion A2; subst. cbn [all_eq].
          assert (ordyn_eq (dyn_eq h n) o o' = Ok true /\ k ++ s = k' ++ s') as [HO E'].
          { destruct o as [d|z], o' as [d'|z']; cbn [ordyn_feed ordyn_eq] in *.
            - apply appr_ok in Hc as (? & w & [= <-] & Hw & ->). apply appr_ok in Hc' as (? & w' & [= <-] & Hw' & ->). rewrite <- ?app_assoc in E.
              apply tag_free in E as [_ E]; [|lia ..]. eapply (IH m); eauto.
            - apply appr_ok in Hc as (? & w & [= <-] & Hw & ->). injection Hc' as <-. rewrite <- ?app_assoc in E. apply tag_free in E as [E _]; lia.
            - apply appr_ok in Hc' as (? & w & [= <-] & Hw & ->). injection Hc as <-. rewrite <- ?app_assoc in E. apply tag_free in E as [E _]; lia.
            - injection Hc as <-. injection Hc' as <-. rewrite <- ?app_assoc in E. apply tag_free in E as [_ E]; [|lia ..]. apply constant_free in E as [-> E]; auto.
              split; [|auto]. f_equal. apply constant_eqb_eq. auto. }
          destruct (IHl l') with (g := k) (g' := k') as [IH1 IH2]; auto; [lia|]. rewrite HO, IH1. auto. }
      split; [|auto]. destruct (d_cell a =? d_cell b); auto. unfold bsm_eq. rewrite EH. assert (mhandle_eqb (b_handle q) (b_handle q) = true) as -> by (apply mhandle_eqb_eq; auto).
      cbn [andr]. unfold slice_eq. rewrite EL, Z.eqb_refl. exact HA.
    - apply appr_ok in Hx as (u & v & [= <-] & Hv & ->). injection Hx' as <-. rewrite <- ?app_assoc in E. apply tag_free in E as [E _]; lia.
    - apply appr_ok in Hx' as (u & v & [= <-] & Hv & ->). injection Hx as <-. rewrite <- ?app_assoc in E. apply tag_free in E as [E _]; lia.
    - injection Hx as <-. injection Hx' as <-. apply tag_free in E as [_ E]; [|lia ..]. destruct (d_cell a =? d_cell b); auto. }
  rewrite HC. cbn [andr]. subst s s'. destruct Ha as [Ha1 Ha2], Hb as [Hb1 Hb2]. apply str_free in Hs as [EN Hs]; auto. apply ty_free in Hs as [ED ->]; auto.
  rewrite EN, ED. assert (list_eqb Z.eqb (d_name b) (d_name b) = true) as -> by (apply (list_eqb_eq Z.eqb Z.eqb_eq); auto).
  assert (ty_eqb (d_desc b) (d_desc b) = true) as -> by (apply ty_eqb_eq; auto). auto.
Qed.
(** C79: the bytes given to the hasher separate finite constants, even as the
    beginning of a longer key: equal input means [==]. *)
Theorem C79_hash_separates : forall h n m a b f g r r', sane_heap h -> sane_dyn a -> sane_dyn b ->
  dyn_feed h n a = Ok f -> dyn_feed h m b = Ok g -> f ++ r = g ++ r' -> same h a b /\ r = r'.
Proof.
  intros h n m a b f g r r' HS Ha Hb Hf Hg E. destruct (dyn_free h HS n m a b f g r r' Ha Hb Hf Hg E) as [H1 H2].
  split; [|auto]. apply (C79_answer h n a b true H1). reflexivity.
Qed.

(** Neither operation fails in any other way than by never ending. *)
Lemma all_eq_ends {A} (f : A -> A -> res bool) : (forall x y, (exists v, f x y = Ok v) \/ f x y = Panic PFuel) ->
  forall a b, (exists v, all_eq f a b = Ok v) \/ all_eq f a b = Panic PFuel.
Proof.
  intros H. induction a as [|x a IH]; intros [|y b]; cbn [all_eq]; eauto. destruct (H x y) as [([|] & ->)| ->]; cbn [andr]; eauto.
Qed.
Lemma dyn_eq_ends h : forall n a b, (exists v, dyn_eq h n a b = Ok v) \/ dyn_eq h n a b = Panic PFuel.
Proof.
  induction n as [|n IH]; intros a b; [auto|]. cbn [dyn_eq].
  assert ((exists v, cell_eq h (dyn_eq h n) (d_cell a) (d_cell b) = Ok v) \/ cell_eq h (dyn_eq h n) (d_cell a) (d_cell b) = Panic PFuel) as [([|] & ->)| ->]; cbn [andr]; eauto.
  - unfold cell_eq. destruct (_ =? _); eauto. destruct (h (d_cell a)) as [p|], (h (d_cell b)) as [q|]; eauto. unfold bsm_eq.
    destruct (mhandle_eqb _ _); cbn [andr]; eauto. unfold slice_eq. destruct (_ =? _); eauto. apply all_eq_ends. intros [d|k] [e|k']; cbn [ordyn_eq]; eauto.
  - destruct (list_eqb _ _ _); cbn [andr]; eauto.
Qed.
Lemma dyn_feed_ends h : forall n d, (exists v, dyn_feed h n d = Ok v) \/ dyn_feed h n d = Panic PFuel.
Proof.
  induction n as [|n IH]; intros d; [auto|]. cbn [dyn_feed]. destruct (h (d_cell d)) as [b|]; [|left; eexists; reflexivity].
  assert (HA : (exists v, args_feed (dyn_feed h n) (b_args b) = Ok v) \/ args_feed (dyn_feed h n) (b_args b) = Panic PFuel).
  { induction (b_args b) as [|o l IHl]; [left; eexists; reflexivity|]. cbn [args_feed fold_right]. fold (args_feed (dyn_feed h n) l).
    destruct o as [e|k]; cbn [ordyn_feed]; [destruct (IH e) as [(v & ->)| ->]|]; destruct IHl as [(w & ->)| ->]; cbn; eauto. }
  unfold bsm_feed. fold (args_feed (dyn_feed h n) (b_args b)). destruct HA as [(v & ->)| ->]; cbn; eauto.
Qed.

Lemma cycle_not_finite h c : reaches h c c -> ~ finite h c.
Proof.
  intros Hc Hf. induction Hf as [c _ IH].
  assert (HT : forall x y z, reaches h x y -> reaches h y z -> reaches h x z).
  { intros x y z H. revert z. induction H; intros; [eapply re_more; eauto|]. eapply re_more; eauto. }
  inversion Hc as [c' b d Hb Hi E1 E2|c' b d e Hb Hi Hr]; subst.
  - apply (IH b d Hb Hi). congruence.
  - apply (IH b d Hb Hi). eapply HT; [exact Hr|]. eapply re_one; eauto.
Qed.
(** C79: "hashing ends" is false: it recurses for ever on every constant from
    which its own cell is reached again, and such constants come out of class
    files that are read. *)
Theorem C79_hash_refuted :
  (forall h d, reaches h (d_cell d) (d_cell d) -> forall n, dyn_feed h n d = Panic PFuel) /\
  (exists bs c h b d, rd_classfile Release bs = Ok ((c, h), []) /\ In (AttrModel.CBootstrap [b]) (cl_attrs c) /\ In (Dyn d) (b_args b) /\
     forall n, dyn_feed (heap_of h) n d = Panic PFuel).
Proof.
  assert (H : forall h d, reaches h (d_cell d) (d_cell d) -> forall n, dyn_feed h n d = Panic PFuel).
  { intros h d Hc n. destruct (dyn_feed_ends h n d) as [(v & E)|E]; [|auto]. exfalso.
    apply (cycle_not_finite h (d_cell d) Hc). apply C79_hash_ends. eauto. }
  split; [exact H|]. exists fx_file. eexists _, _, _, _.
  split; [vm_compute; reflexivity|]. split; [left; reflexivity|]. split; [left; reflexivity|].
  apply H. eapply (re_one _ 1); [vm_compute; reflexivity|left; reflexivity].
Qed.
(** C79: so is "[==] answers": two self-referring constants in different cells,
    as reading one file twice makes them, are compared for ever. *)
Theorem C79_eq_refuted : forall h x y hd args args' n t, x <> y ->
  let d := {| d_cell := x; d_name := n; d_desc := t |} in
  let e := {| d_cell := y; d_name := n; d_desc := t |} in
  h x = Some {| b_handle := hd; b_args := Dyn d :: args |} ->
  h y = Some {| b_handle := hd; b_args := Dyn e :: args' |} -> len args = len args' ->
  forall k, dyn_eq h k d e = Panic PFuel.
Proof.
  intros h x y hd args args' nm t Hxy d e Hx Hy HL. induction k as [|k IH]; [reflexivity|]. cbn [dyn_eq]. unfold cell_eq. cbn [d_cell d e].
  assert (x =? y = false) as -> by lia. rewrite Hx, Hy. unfold bsm_eq. cbn [b_handle b_args].
  assert (mhandle_eqb hd hd = true) as -> by (apply mhandle_eqb_eq; auto). cbn [andr]. unfold slice_eq. rewrite !len_cons, HL, Z.eqb_refl. cbn [all_eq ordyn_eq].
  fold d e. rewrite IH. reflexivity.
Qed.
Example C79_eq_ex : let b x := {| b_handle := b_handle fx_bsm; b_args := [Dyn {| d_cell := x; d_name := [109]; d_desc := TInt |}] |} in
  let h := fun c => if c =? 1 then Some (b 1) else if c =? 3 then Some (b 3) else None in
  same h {| d_cell := 1; d_name := [109]; d_desc := TInt |} {| d_cell := 3; d_name := [109]; d_desc := TInt |} /\
  forall k, dyn_eq h k {| d_cell := 1; d_name := [109]; d_desc := TInt |} {| d_cell := 3; d_name := [109]; d_desc := TInt |} = Panic PFuel.
Proof.
  cbv zeta. split; [|eapply C79_eq_refuted; [lia|reflexivity|reflexivity|reflexivity]].
  exists (fun x y => x = 1 /\ y = 3). split; [|split; [reflexivity|split; [reflexivity|auto]]].
  intros x y [-> ->]. right. eexists _, _. split; [reflexivity|]. split; [reflexivity|]. split; [reflexivity|].
  constructor; [|constructor]. split; [reflexivity|]. split; [reflexivity|auto].
Qed.
(** Finite constants: one whose bootstrap method takes another constant. *)
Definition eq_heap : Z -> option bsm := fun c =>
  if (c =? 0) || (c =? 1) then Some {| b_handle := b_handle fx_bsm; b_args := [Dyn {| d_cell := c + 2; d_name := [109]; d_desc := TInt |}; Stat (KI32 7)] |}
  else if (c =? 2) || (c =? 3) then Some {| b_handle := b_handle fx_bsm; b_args := [] |} else None.
Example C79_finite_ex : let d c n := {| d_cell := c; d_name := n; d_desc := TInt |} in
  (forall c n, finite eq_heap (d_cell (d c n))) /\ sane_heap eq_heap /\ sane_dyn (d 0 [109]) /\
  dyn_eq eq_heap 5 (d 0 [109]) (d 1 [109]) = Ok true /\ dyn_eq eq_heap 5 (d 0 [109]) (d 1 [110]) = Ok false /\
  dyn_eq eq_heap 5 (d 0 [109]) (d 2 [109]) = Ok false /\ dyn_eq eq_heap 5 (d 0 [109]) (d 4 [109]) = Ok false.
Proof.
  cbv zeta.
  assert (HN : forall c, 4 <= c -> finite eq_heap c).
  { intros c Hc. constructor. intros b e Hb. unfold eq_heap in Hb. assert ((c =? 0) || (c =? 1) = false) as E by lia. rewrite E in Hb.
    assert ((c =? 2) || (c =? 3) = false) as E' by lia. rewrite E' in Hb. discriminate. }
  assert (H2 : forall c, 2 <= c -> finite eq_heap c).
  { intros c Hc. destruct (Z.le_gt_cases 4 c) as [H|H]; [auto|]. constructor. intros b e Hb. unfold eq_heap in Hb.
    assert ((c =? 0) || (c =? 1) = false) as E by lia. rewrite E in Hb. assert ((c =? 2) || (c =? 3) = true) as E' by lia. rewrite E' in Hb. injection Hb as <-. intros []. }
  split.
  { intros c n. cbn [d_cell]. constructor. intros b e Hb. unfold eq_heap in Hb. destruct ((c =? 0) || (c =? 1)) eqn:E.
    - injection Hb as <-. cbn [b_args In]. intros [[= <-]|[Hf|[]]]; [|discriminate]. cbn [d_cell]. apply H2. lia.
    - destruct ((c =? 2) || (c =? 3)); [|discriminate]. injection Hb as <-. intros []. }
  assert (HW : forall c, 0 <= c < 128 -> wf_wtf8 [c]).
  { intros c Hc. exists [c]. split; [split; [constructor; [unfold is_cp; lia|constructor]|cbn; auto]|]. cbn [flat_map]. unfold utf8. assert (c <? 128 = true) as -> by lia. reflexivity. }
  split.
  { assert (HM : sane_member (h_member (b_handle fx_bsm))).
    { unfold sane_member. cbn. split; [apply HW; lia|]. split; [apply HW; lia|]. split; [unfold u64; cbn; lia|]. auto. }
    intros c b Hb. unfold eq_heap in Hb. destruct ((c =? 0) || (c =? 1)).
    - injection Hb as <-. split; [exact HM|]. split; [unfold u64; cbn; lia|]. constructor; [split; [apply HW; lia|exact I]|]. constructor; [cbn; unfold i32; lia|constructor].
    - destruct ((c =? 2) || (c =? 3)); [|discriminate]. injection Hb as <-. split; [exact HM|]. split; [unfold u64; cbn; lia|]. constructor. }
  split; [split; [apply HW; lia|exact I]|]. vm_compute. auto.
Qed.
Print Assumptions C79_answer.
Print Assumptions C79_answers_partial.
Print Assumptions C79_clone.
Print Assumptions C79_equivalence.
Print Assumptions C79_hash_ends.
Print Assumptions C79_hash_same.
Print Assumptions C79_hash_separates.
Print Assumptions C79_hash_refuted.
Print Assumptions C79_eq_refuted.
