(** What the descriptor parser accepts. *)
From Verif Require Import Base BaseLemmas Wtf8Spec Wtf8Model TypeModel TypeSpec.
From Verif Require Import Wtf8Proofs Wtf8Proofs2 Wtf8Proofs3 TypeProofs.

Lemma count_dims_ok md : forall c d d' c', count_dims md d c = Ok (d', c') ->
  exists m, c = repeat 91 m ++ c' /\
    (forall r, c' <> 91 :: r) /\
    (0 <= d <= 255 -> (md = Debug \/ ~ long_run (repeat 91 (Z.to_nat d) ++ c)) -> d' = d + Z.of_nat m /\ d' <= 255).
Proof.
  induction c as [|ch c IH]; intros d d' c' H; cbn in H.
  - inversion H; subst. exists O. repeat split; try (intros; congruence); lia.
  - destruct (ch =? 91) eqn:E.
    + apply Z.eqb_eq in E. subst ch. inv_bind H. destruct (IH _ _ _ H) as (m & -> & Hn & Hd).
      exists (S m). split; [reflexivity|]. split; [auto|]. intros Hdr Hmd.
      unfold chk_u in E. change (2 ^ 8) with 256 in E.
      destruct (Z.eq_dec d 255) as [->|Hne].
      * exfalso. cbn in E. destruct md; [discriminate|]. destruct Hmd as [?|Hmd]; [discriminate|].
        apply Hmd. exists [], (repeat 91 m ++ c'). reflexivity.
      * assert ((0 <=? d + 1) && (d + 1 <? 256) = true) as Hb by lia. rewrite Hb in E.
        inversion E; subst v. destruct Hd as [Hd1 Hd2]; [lia| |split; lia].
        destruct Hmd as [->|Hmd]; [auto|]. right. intros Hl. apply Hmd.
        replace (Z.to_nat (d + 1)) with (S (Z.to_nat d)) in Hl by lia.
        cbn [repeat] in Hl. rewrite repeat_cons in Hl. rewrite <- app_assoc in Hl. exact Hl.
    + inversion H; subst. exists O. split; [reflexivity|]. split; [|lia].
      intros r [= -> _]. discriminate.
Qed.

Lemma count_dims_panic md : forall c d k, 1 <= d <= 255 -> count_dims md d c = Panic k ->
  md = Debug /\ exists q, c = repeat 91 (Z.to_nat (256 - d)) ++ q.
Proof.
  induction c as [|ch c IH]; intros d k Hd H; cbn in H; [discriminate|].
  destruct (ch =? 91) eqn:E; [|discriminate]. apply Z.eqb_eq in E. subst ch.
  unfold chk_u in H. change (2 ^ 8) with 256 in H.
  destruct ((0 <=? d + 1) && (d + 1 <? 256)) eqn:Eb.
  - cbn [bind] in H. apply IH in H as (-> & q & ->); [|lia]. split; auto. exists q.
    replace (Z.to_nat (256 - d)) with (S (Z.to_nat (256 - (d + 1)))) by lia. reflexivity.
  - assert (d = 255) by lia. subst d. destruct md; cbn [bind] in H.
    + split; auto. exists c. reflexivity.
    + exfalso. cbn in H.
      assert (Hr : forall c d, 0 <= d -> count_dims Release d c <> Panic k).
      { clear. induction c as [|ch c IH]; intros d Hd; cbn; [discriminate|].
        destruct (ch =? 91); [|discriminate]. unfold chk_u.
        destruct ((0 <=? d + 1) && (d + 1 <? 2 ^ 8)); cbn [bind]; apply IH; [lia|].
        unfold wrap_u. lia. }
      eapply Hr; [|exact H]. unfold wrap_u. lia.
Qed.

Lemma span_semi_spec c : forall a r, span_semi c = (a, r) ->
  c = a ++ r /\ ~ In 59 a /\ (r = [] \/ exists r', r = 59 :: r').
Proof.
  induction c as [|x c IH]; intros a r H; cbn in H.
  - inversion H; subst. auto.
  - destruct (x =? 59) eqn:E.
    + apply Z.eqb_eq in E. inversion H; subst. split; [auto|]. split; [auto|right; eauto].
    + destruct (span_semi c) as [a' r'] eqn:Es. inversion H; subst.
      destruct (IH _ _ eq_refl) as (-> & Hn & Hr). split; [reflexivity|]. split; [|auto].
      intros [->|Hi]; [lia|auto].
Qed.

Lemma long_run_suffix p s : long_run s -> long_run (p ++ s).
Proof. intros (a & b & ->). exists (p ++ a), b. rewrite <- app_assoc. reflexivity. Qed.

(** The text of [t] is what was consumed, except that the final V of a void
    method is left in the input. *)
Definition consumed (t : ty) (u r : list Z) : Prop :=
  flat_map utf8 u = ty_text t \/
  (exists r', r = 86 :: r' /\ flat_map utf8 (u ++ [86]) = ty_text t).

Lemma params_loop_inv get fuel : forall c ts r, params_loop get fuel c = Ok (ts, r) ->
  (r = [] \/ exists r', r = 41 :: r') /\
  ((c = r /\ ts = []) \/
   exists k t ts' c', fuel = S k /\ get c = Ok (t, c') /\ ts = t :: ts' /\
     params_loop get k c' = Ok (ts', r)).
Proof.
  induction fuel as [|k IH]; intros c ts r H; destruct c as [|ch c]; cbn in H.
  - inversion H; subst. auto.
  - destruct (ch =? 41) eqn:E; [|discriminate]. apply Z.eqb_eq in E. inversion H; subst.
    split; [right; eauto|auto].
  - inversion H; subst. auto.
  - destruct (ch =? 41) eqn:E.
    + apply Z.eqb_eq in E. inversion H; subst. split; [right; eauto|auto].
    + inv_bind H. destruct v as [t c']. inv_bind H. destruct v as [ts' r']. inversion H; subst.
      destruct (IH _ _ _ E1) as [Hr _]. split; [auto|]. right. exists k, t, ts', c'. auto.
Qed.

Ltac char_tests H :=
  repeat match type of H with
  | context [if ?c =? ?k then _ else _] => destruct (Z.eqb_spec c k)
  end.

Lemma get_type_V md n r : get_type md n (86 :: r) = (match n with O => Panic PFuel | _ => Err EInvalid end).
Proof. destruct n; reflexivity. Qed.

Lemma prim_consumed t ch (c1 : list Z) : ty_text t = [ch] -> 0 <= ch < 128 ->
  exists u, ch :: c1 = u ++ c1 /\ consumed t u c1.
Proof.
  intros Ht Hc. exists [ch]. split; [reflexivity|]. left. cbn. rewrite utf8_ascii by auto. auto.
Qed.

Lemma get_type_sound md n : forall c t r, wtf8_cps c -> (md = Debug \/ ~ long_run c) ->
  get_type md n c = Ok (t, r) ->
  loose_ty t /\ exists u, c = u ++ r /\ consumed t u r.
Proof.
  induction n as [|n IH]; intros c t r Hc Hmd H; [discriminate|].
  destruct c as [|ch c1]; [discriminate|]. cbn [get_type] in H.
  assert (Hc1 : wtf8_cps c1) by (eapply (wtf8_cps_app_r [ch]); exact Hc).
  assert (Hl1 : md = Debug \/ ~ long_run c1).
  { destruct Hmd as [|Hmd]; auto. right. intros Hl. apply Hmd. apply (long_run_suffix [ch]); auto. }
  destruct (Z.eqb_spec ch 66); [subst; inversion H; subst; split; [exact I|apply prim_consumed; [reflexivity|lia]]|].
  destruct (Z.eqb_spec ch 67); [subst; inversion H; subst; split; [exact I|apply prim_consumed; [reflexivity|lia]]|].
  destruct (Z.eqb_spec ch 68); [subst; inversion H; subst; split; [exact I|apply prim_consumed; [reflexivity|lia]]|].
  destruct (Z.eqb_spec ch 70); [subst; inversion H; subst; split; [exact I|apply prim_consumed; [reflexivity|lia]]|].
  destruct (Z.eqb_spec ch 73); [subst; inversion H; subst; split; [exact I|apply prim_consumed; [reflexivity|lia]]|].
  destruct (Z.eqb_spec ch 74); [subst; inversion H; subst; split; [exact I|apply prim_consumed; [reflexivity|lia]]|].
  destruct (Z.eqb_spec ch 90); [subst; inversion H; subst; split; [exact I|apply prim_consumed; [reflexivity|lia]]|].
  destruct (Z.eqb_spec ch 83); [subst; inversion H; subst; split; [exact I|apply prim_consumed; [reflexivity|lia]]|].
  destruct (Z.eqb_spec ch 76).
  { subst. destruct (span_semi c1) as [nm c2] eqn:Es.
    destruct (span_semi_spec _ _ _ Es) as (-> & Hn & Hr).
    destruct c2 as [|x c3]; [discriminate|]. inversion H; subst.
    destruct Hr as [Hr|(r' & Hr)]; [discriminate|]. inversion Hr; subst x r'.
    assert (Hnm : wtf8_cps nm) by (eapply wtf8_cps_app_l; eauto).
    rewrite from_cps_utf8 by auto. split.
    - split; [exists nm; split; auto|]. intros Hi. apply Hn. eapply in_ascii_utf8; eauto; [apply Hnm|lia].
    - exists (76 :: nm ++ [59]). split; [cbn; rewrite <- app_assoc; reflexivity|]. left.
      cbn [flat_map ty_text]. rewrite flat_map_app. reflexivity. }
  destruct (Z.eqb_spec ch 91).
  { subst. inv_bind H. destruct v as [dim c2]. inv_bind H. destruct v as [e c3]. inversion H; subst.
    destruct (count_dims_ok _ _ _ _ _ E) as (m & -> & Hne & Hd).
    destruct Hd as [Hd1 Hd2]; [lia| |].
    { destruct Hmd as [|Hmd]; auto. }
    destruct (IH c2 e r) as (He & u & -> & Hu); auto.
    { eapply wtf8_cps_app_r; eauto. }
    { destruct Hl1 as [|Hl1]; auto. right. intros Hl. apply Hl1. apply long_run_suffix; auto. }
    split.
    - cbn [loose_ty]. split; [lia|]. destruct e; auto.
      exfalso. clear - E0 Hne. destruct n; [discriminate|]. cbn in E0.
      destruct (u ++ r) as [|ch c1]; [discriminate|]. specialize (Hne c1).
      char_tests E0; try congruence;
        repeat match type of E0 with
        | context [match ?x with _ => _ end] => destruct x; try discriminate E0
        | bind _ _ = _ => inv_bind E0
        end; congruence.
    - exists (91 :: repeat 91 m ++ u). split; [cbn; rewrite <- app_assoc; reflexivity|].
      assert (Hz : Z.to_nat dim = S m) by lia. unfold consumed. cbn [ty_text]. rewrite Hz.
      cbn [repeat flat_map app]. rewrite <- app_assoc, !flat_map_app, flat_utf8_repeat.
      rewrite (utf8_ascii 91) by lia. cbn [app].
      destruct Hu as [->|(r' & Hr' & Hu)]; [left; reflexivity|right].
      exists r'. split; auto. rewrite <- Hu, flat_map_app. reflexivity. }
  destruct (Z.eqb_spec ch 40); [|discriminate].
  subst. inv_bind H. destruct v as [ts c2].
  assert (Hp : forall k c ts c2, wtf8_cps c -> (md = Debug \/ ~ long_run c) ->
     params_loop (get_type md n) k c = Ok (ts, c2) ->
     fold_right and True (map loose_ty ts) /\
     exists u, c = u ++ c2 /\ flat_map utf8 u = flat_map ty_text ts).
  { clear - IH. induction k as [|k IHk]; intros c ts c2 Hc Hmd Hp;
      destruct (params_loop_inv _ _ _ _ _ Hp) as [Hr [[-> ->]|(k' & t & ts' & c' & Hk & Hg & -> & Hp')]];
      try discriminate; try (split; [exact I|exists []; auto]).
    inversion Hk; subst k'. destruct (IH _ _ _ Hc Hmd Hg) as (Ht & u & -> & Hu).
    assert (Hc' : wtf8_cps c') by (eapply wtf8_cps_app_r; eauto).
    assert (Hl' : md = Debug \/ ~ long_run c').
    { destruct Hmd as [|Hmd]; auto. right. intros Hl. apply Hmd. apply long_run_suffix; auto. }
    destruct (IHk _ _ _ Hc' Hl' Hp') as (Hts & u' & -> & Hu').
    split; [cbn; auto|]. exists (u ++ u'). split; [rewrite app_assoc; reflexivity|].
    rewrite flat_map_app. cbn [flat_map]. rewrite Hu'. f_equal.
    destruct Hu as [Hu|(r' & Hr' & Hu)]; auto. exfalso.
    rewrite Hr' in Hp'.
    destruct (params_loop_inv _ _ _ _ _ Hp') as [Hr2 [[Hx _]|(k' & t' & ts'' & c'' & Hk' & Hg' & _)]].
    + rewrite <- Hx in Hr2. destruct Hr2 as [Hr2|(? & Hr2)]; discriminate.
    + rewrite get_type_V in Hg'. destruct n; discriminate. }
  destruct (Hp _ _ _ _ Hc1 Hl1 E) as (Hts & u & -> & Hu).
  destruct c2 as [|x c3]; [discriminate|].
  assert (x = 41) as ->.
  { destruct (params_loop_inv _ _ _ _ _ E) as [[?|(? & [=])] _]; [discriminate|auto]. }
  destruct (Z.eq_dec (hd 0 c3) 86) as [Hv|Hv].
  - destruct c3 as [|v c4]; [discriminate|]. cbn in Hv. subst v. inversion H; subst.
    split; [cbn; auto|]. exists (40 :: u ++ [41]). split; [cbn; rewrite <- app_assoc; reflexivity|].
    right. exists c4. split; auto. cbn [app flat_map ty_text]. rewrite !flat_map_app, Hu.
    rewrite <- app_assoc. reflexivity.
  - assert (Hg : exists t', get_type md n c3 = Ok (t', r) /\ t = TMethod ts (Some t')).
    { destruct c3 as [|v c4]; [|cbn in Hv].
      - inv_bind H. destruct v as [t' r']. inversion H; subst. eauto.
      - destruct v as [|[p|p|]|]; try (inv_bind H; destruct v as [t' r']; inversion H; subst; eauto; fail);
        repeat match type of H with
        | match ?p with _ => _ end = _ => destruct p as [p|p|]
        end; try lia; inv_bind H; destruct v as [t' r']; inversion H; subst; eauto. }
    destruct Hg as (t' & Hg & ->).
    assert (Hc3 : wtf8_cps c3).
    { apply wtf8_cps_app_r in Hc1. eapply (wtf8_cps_app_r [41]); exact Hc1. }
    destruct (IH c3 t' r) as (Ht & u' & -> & Hu'); auto.
    { destruct Hl1 as [|Hl1]; auto. right. intros Hl. apply Hl1.
      apply long_run_suffix. apply (long_run_suffix [41]); auto. }
    split; [cbn; auto|]. exists (40 :: u ++ 41 :: u'). split.
    { cbn. f_equal. rewrite <- app_assoc. reflexivity. }
    unfold consumed in *. cbn [ty_text flat_map app]. rewrite (utf8_ascii 40) by lia.
    cbn [app]. rewrite <- app_assoc. cbn [app]. rewrite !flat_map_app. cbn [flat_map].
    rewrite (utf8_ascii 41) by lia. cbn [app]. rewrite Hu.
    destruct Hu' as [->|(r' & Hr' & Hu')]; [left; reflexivity|right].
    exists r'. split; auto. rewrite Hu'. reflexivity.
Qed.

(** Consumption and panics, for any code points. *)
Lemma get_type_consumes md n : forall c t r, get_type md n c = Ok (t, r) ->
  exists u, u <> [] /\ c = u ++ r.
Proof.
  induction n as [|n IH]; intros c t r H; [discriminate|].
  destruct c as [|ch c1]; [discriminate|]. cbn [get_type] in H.
  assert (Hone : exists u, u <> [] /\ ch :: c1 = u ++ c1) by (exists [ch]; split; [discriminate|reflexivity]).
  assert (Hcons : forall r, (exists u, c1 = u ++ r) -> exists u, u <> [] /\ ch :: c1 = u ++ r).
  { intros r' (u & ->). exists (ch :: u). split; [discriminate|reflexivity]. }
  assert (Hp : forall k c ts c2, params_loop (get_type md n) k c = Ok (ts, c2) -> exists u, c = u ++ c2).
  { clear - IH. induction k as [|k IHk]; intros c ts c2 Hp;
      destruct (params_loop_inv _ _ _ _ _ Hp) as [Hr [[-> ->]|(k' & t & ts' & c' & Hk & Hg & -> & Hp')]];
      try discriminate; try (exists []; reflexivity).
    inversion Hk; subst. destruct (IH _ _ _ Hg) as (u & _ & ->). destruct (IHk _ _ _ Hp') as (u' & ->).
    exists (u ++ u'). rewrite app_assoc. reflexivity. }
  char_tests H; try (inversion H; subst; exact Hone); try discriminate; apply Hcons.
  - destruct (span_semi c1) as [nm c2] eqn:Es. destruct (span_semi_spec _ _ _ Es) as (-> & _ & Hr).
    destruct c2 as [|x c3]; [discriminate|]. inversion H; subst. exists (nm ++ [x]).
    rewrite <- app_assoc. reflexivity.
  - inv_bind H. destruct v as [dim c2]. inv_bind H. destruct v as [e' c3]. inversion H; subst.
    destruct (count_dims_ok _ _ _ _ _ E) as (m & -> & _). destruct (IH _ _ _ E0) as (u & _ & ->).
    exists (repeat 91 m ++ u). rewrite app_assoc. reflexivity.
  - inv_bind H. destruct v as [ts c2]. destruct (Hp _ _ _ _ E) as (u & ->).
    destruct c2 as [|x c3]; [discriminate|].
    assert (Hg : c3 = r \/ exists t', get_type md n c3 = Ok (t', r)).
    { destruct c3 as [|v c4].
      - inv_bind H. destruct v as [t' r']. inversion H; subst. eauto.
      - destruct v as [|[p|p|]|]; try (inv_bind H; destruct v as [t' r']; inversion H; subst; eauto; fail);
        repeat match type of H with
        | match ?p with _ => _ end = _ => destruct p as [p|p|]
        end; try (inversion H; subst; auto; fail);
        inv_bind H; destruct v as [t' r']; inversion H; subst; eauto. }
    destruct Hg as [->|(t' & Hg)]; [exists (u ++ [x]); rewrite <- app_assoc; reflexivity|].
    destruct (IH _ _ _ Hg) as (u' & _ & ->). exists (u ++ x :: u'). rewrite <- app_assoc. reflexivity.
Qed.

Lemma bind_panic {A B} (x : res A) (f : A -> res B) k :
  bind x f = Panic k -> x = Panic k \/ exists a, x = Ok a /\ f a = Panic k.
Proof. destruct x; cbn; intros H; try discriminate; eauto. left. congruence. Qed.

Lemma get_type_panic md n : forall c k, (length c < n)%nat -> get_type md n c = Panic k ->
  md = Debug /\ long_run c.
Proof.
  induction n as [|n IH]; intros c k Hn H; [lia|].
  destruct c as [|ch c1]; [discriminate|]. cbn [get_type] in H. cbn [length] in Hn.
  assert (Hcons : forall r, (exists u, c1 = u ++ r) -> long_run r -> long_run (ch :: c1)).
  { intros r' (u & ->) Hl. apply (long_run_suffix (ch :: u)). auto. }
  assert (Hp : forall m c k, (length c <= m)%nat -> (length c < n)%nat ->
     params_loop (get_type md n) m c = Panic k -> md = Debug /\ long_run c).
  { clear - IH. induction m as [|m IHm]; intros c k Hm Hn Hp; destruct c as [|ch c]; cbn in Hp, Hm;
      try discriminate; try lia.
    destruct (ch =? 41); [discriminate|].
    apply bind_panic in Hp as [Hp|([t c'] & Hg & Hp)]; [eapply IH; eauto|].
    destruct (get_type_consumes _ _ _ _ _ Hg) as (u & Hu & Ec).
    assert (length (ch :: c) = length u + length c')%nat by (rewrite Ec, app_length; lia).
    destruct u as [|z u]; [congruence|]. cbn [length] in *.
    apply bind_panic in Hp as [Hp|([ts c2] & _ & Hp)]; [|discriminate].
    destruct (IHm c' k ltac:(lia) ltac:(lia) Hp) as [-> Hl]. split; auto. rewrite Ec.
    apply (long_run_suffix (z :: u)); auto. }
  char_tests H; try discriminate.
  - destruct (span_semi c1) as [nm c2]. destruct c2; discriminate.
  - subst. apply bind_panic in H as [H|([dim c2] & Hd & H)].
    { apply count_dims_panic in H as (-> & q & ->); [|lia]. split; auto.
      exists [], q. reflexivity. }
    apply bind_panic in H as [H|([t r] & _ & H)]; [|discriminate].
    destruct (count_dims_ok _ _ _ _ _ Hd) as (m & -> & _). rewrite app_length in Hn.
    destruct (IH c2 k ltac:(lia) H) as [-> Hl]. split; auto. eapply Hcons; eauto.
  - apply bind_panic in H as [H|([ts c2] & Hg & H)].
    { destruct (Hp n c1 k ltac:(lia) ltac:(lia) H) as [-> Hl]. split; auto. eapply Hcons; eauto. exists []. auto. }
    destruct c2 as [|x c3]; [discriminate|].
    assert (Hc1 : exists u, c1 = u ++ x :: c3).
    { clear - Hg. revert c1 ts Hg. generalize n at 2. intros m. induction m as [|m IHm]; intros c ts Hg;
        destruct (params_loop_inv _ _ _ _ _ Hg) as [_ [[-> ->]|(k' & t & ts' & c' & Hk & Hg1 & -> & Hp')]];
        try discriminate; try (exists []; reflexivity).
      inversion Hk; subst. destruct (get_type_consumes _ _ _ _ _ Hg1) as (u & _ & ->).
      destruct (IHm _ _ Hp') as (u' & ->). exists (u ++ u'). rewrite app_assoc. reflexivity. }
    destruct Hc1 as (u & ->).
    assert (Hg' : get_type md n c3 = Panic k).
    { destruct c3 as [|v c4].
      - apply bind_panic in H as [H|([t r] & _ & H)]; [auto|discriminate].
      - destruct v as [|[p|p|]|];
          try (apply bind_panic in H as [H|([t r] & _ & H)]; [auto|discriminate]);
        repeat match type of H with
        | match ?p with _ => _ end = _ => destruct p as [p|p|]
        end; try discriminate;
        apply bind_panic in H as [H|([t r] & _ & H)]; auto; discriminate. }
    rewrite app_length in Hn. cbn [length] in Hn.
    destruct (IH c3 k ltac:(lia) Hg') as [-> Hl]. split; auto.
    apply (long_run_suffix (ch :: u)). apply (long_run_suffix [x]). auto.
Qed.

(** Every string the validator accepts (even with the holes of C06) can be
    iterated without running off its end. *)
Lemma vstep_next h l n h' : vstep h l = VOk n h' ->
  exists c, next_code_point l = Ok (Some (c, skipn n l)).
Proof.
  intros H. destruct l as [|b l1]; [discriminate|]. unfold vstep in H.
  vstep_cases H; inversion H; subst; clear H; unfold next_code_point, between, tail_byte in *;
  repeat match goal with
  | |- context [if ?x then _ else _] => destruct x eqn:?
  end; try (exfalso; lia); cbn [skipn]; eauto.
Qed.

Lemma validate_codepoints n : forall i h l, (length l <= n)%nat ->
  validate_from i h l = Ok tt -> exists cs, codepoints_fuel n l = Ok cs.
Proof.
  induction n as [|n IH]; intros i h l Hn H.
  - destruct l; [|cbn in Hn; lia]. exists []. reflexivity.
  - rewrite validate_step in H. destruct (vstep h l) as [|k h'|d e] eqn:E; try discriminate.
    + destruct l; [|exfalso; clear - E; unfold vstep in E; vstep_cases E]. exists []. reflexivity.
    + destruct (vstep_next _ _ _ _ E) as (c & Hc). destruct (vstep_ok _ _ _ _ E) as (Hk & Hkl & _).
      cbn [codepoints_fuel]. rewrite Hc. destruct (IH _ _ (skipn k l) ltac:(rewrite skipn_length; lia) H) as (cs & Hcs).
      rewrite Hcs. cbn. eauto.
Qed.

Lemma valid_codepoints l : validate_wtf8 l = Ok tt -> exists cs, codepoints l = Ok cs.
Proof. intros H. eapply validate_codepoints; [|exact H]. lia. Qed.
