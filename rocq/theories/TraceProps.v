(** C81: a string behaves as a sequence of 16-bit units under any sequence of calls. *)
From Verif Require Import Base BaseLemmas Wtf8Spec Wtf8Model Wtf8Proofs Wtf8Proofs2 Wtf8Proofs3 Wtf8Props TraceModel.

(** What the types and the documentation ask of arguments. *)
Definition arg_ok (o : scall) : Prop :=
  match o with
  | SPush c => is_cp c
  | SPushChar c => is_cp c /\ ~ is_surrogate c
  | SPushStr t => exists cs, Forall is_cp cs /\ Forall (fun c => ~ is_surrogate c) cs /\ t = flat_map utf8 cs
  | SPushWtf8 t | SCloneInto t => wf_wtf8 t
  | SExtend cs => Forall is_cp cs
  | SFromWide v => Forall u16 v
  | SFromBytes b => bytes b
  | _ => True
  end.
(** The units of a string. *)
Definition units (s us : list Z) : Prop := exists cps, wtf8_of cps s /\ us = flat_map utf16 cps.
(** Offset [n] in bytes lies between the units [a] and [b] of a string. *)
Definition cut (n : nat) (a b : list Z) : Prop := exists p q, wtf8_cps (p ++ q) /\
  a = flat_map utf16 p /\ b = flat_map utf16 q /\ n = length (flat_map utf8 p).
Definition lower_unit (u : Z) : Z := if (65 <=? u) && (u <=? 90) then u + 32 else u.
Definition upper_unit (u : Z) : Z := if (97 <=? u) && (u <=? 122) then u - 32 else u.
(** Effect of a call on the units. *)
Definition effect (o : scall) (us us' : list Z) : Prop :=
  match o with
  | SPush c | SPushChar c => us' = us ++ utf16 c
  | SPushStr t | SPushWtf8 t => forall ts, units t ts -> us' = us ++ ts
  | SExtend cs => us' = us ++ flat_map utf16 cs
  | SClear => us' = []
  | STruncate n => exists r, us = us' ++ r /\ cut n us' r
  | SRange a b => exists x y, us = x ++ us' ++ y /\ cut a x (us' ++ y) /\ cut b (x ++ us') y
  | SLower => us' = map lower_unit us
  | SUpper => us' = map upper_unit us
  | SFromWide v => us' = v
  | SFromBytes b => (forall ts, units b ts -> us' = ts) /\ (~ wf_wtf8 b -> us' = us)
  | SCloneInto t => units t us'
  end.
(** The calls whose documentation says that they may panic. *)
Definition may_panic (o : scall) : Prop := match o with STruncate _ | SRange _ _ => True | _ => False end.
(** [from_bytes] accepts some ill-formed bytes (C06); these are excluded here. *)
Definition no_hole (o : scall) : Prop :=
  match o with
  | SFromBytes s => forall p n x r, s = p ++ 0xED :: n :: x :: r -> 0xA0 <= n <= 0xAF -> 0x80 <= x <= 0xBF
  | _ => True
  end.

Lemma units_inj s a b : units s a -> units s b -> a = b.
Proof. intros (ca & [Ha ->] & ->) (cb & [Hb E] & ->). apply utf8_inj in E; [congruence|apply Ha|apply Hb]. Qed.
Lemma units_wf s us : units s us -> wf_wtf8 s.
Proof. intros (c & H & _). exists c. exact H. Qed.
Lemma utf16_low (f : Z -> Z) c : (forall u, 128 <= u -> f u = u) -> (0 <= c < 128 -> 0 <= f c < 128) -> is_cp c -> utf16 (f c) = map f (utf16 c).
Proof.
  intros Hf Hr Hc. unfold is_cp in Hc. destruct (Z.ltb_spec c 128).
  - specialize (Hr ltac:(lia)). unfold utf16. assert (c <? 65536 = true) as -> by lia. assert (f c <? 65536 = true) as -> by lia. reflexivity.
  - rewrite Hf by lia. unfold utf16. destruct (c <? 65536) eqn:E; cbn [map]; rewrite !Hf; auto; lia.
Qed.
Lemma map_units (f : Z -> Z) cps : (forall u, 128 <= u -> f u = u) -> (forall c, 0 <= c < 128 -> 0 <= f c < 128) -> Forall is_cp cps ->
  flat_map utf16 (map f cps) = map f (flat_map utf16 cps).
Proof. intros Hf Hr. induction 1 as [|c l Hc _ IH]; [reflexivity|]. cbn [map flat_map]. rewrite map_app, IH, (utf16_low f) by auto. reflexivity. Qed.
Lemma clone_into_ok s buf : clone_into s buf = Ok s.
Proof.
  unfold clone_into. rewrite firstn_length. assert ((length s <? Nat.min (length s) (length buf))%nat = false) as -> by (apply Nat.ltb_ge; lia).
  rewrite firstn_length. assert ((Nat.min (length s) (length buf) =? Nat.min (Nat.min (length s) (length buf)) (length s))%nat = true) as -> by (apply Nat.eqb_eq; lia).
  rewrite firstn_skipn. reflexivity.
Qed.
Lemma extend_units cs : forall s us, Forall is_cp cs -> units s us -> units (extend_cps s cs) (us ++ flat_map utf16 cs).
Proof.
  unfold extend_cps. induction cs as [|c cs IH]; intros s us H1 (cps & Hw & ->); cbn [fold_left flat_map].
  - rewrite app_nil_r. exists cps. auto.
  - inversion H1; subst. destruct (C09_push s c cps Hw H2) as (r & Hr & E). rewrite app_assoc. apply IH; [auto|]. exists r. auto.
Qed.

Lemma call_units o s us : arg_ok o -> no_hole o -> units s us ->
  (exists s' us', call o s = Ok s' /\ units s' us' /\ effect o us us') \/
  (may_panic o /\ is_panic (call o s) = true /\ call o s <> Panic PUB /\ ~ exists us', effect o us us').
Proof.
  intros Ha Hn Hu. pose proof Hu as (cps & Hw & Eu). destruct o as [c|c|t|t|cs| |n|a b| | |v|b|t]; cbn [call arg_ok no_hole effect may_panic] in *.
  - left. destruct (C09_push s c cps Hw Ha) as (r & Hr & E). exists (push s c), (us ++ utf16 c). split; [auto|]. split; [exists r; subst; auto|auto].
  - left. exists (push_char s c), (us ++ utf16 c). split; [auto|]. split; [|auto]. exists (cps ++ [c]). split; [apply C09_push_char; tauto|].
    subst. rewrite flat_map_app. cbn [flat_map]. rewrite app_nil_r. auto.
  - left. destruct Ha as (cs & Hc & Hs & ->). exists (s ++ flat_map utf8 cs), (us ++ flat_map utf16 cs). split; [auto|].
    assert (HN : no_pair cs).
    { clear - Hs. induction Hs as [|x l Hx Hl IH]; cbn; auto. split; auto. destruct Hl; auto. unfold is_surrogate, is_lead in *. lia. }
    split.
    + exists (cps ++ cs). destruct Hw as [[Hw1 Hw2] ->]. split; [split; [split|]|].
      * apply Forall_app. auto.
      * apply no_pair_app; auto. intros x a' y b' _ E [_ Hy]. subst cs. inversion Hs; subst. unfold is_surrogate, is_trail in *. lia.
      * rewrite flat_map_app. auto.
      * subst. rewrite flat_map_app. auto.
    + intros ts Ht. f_equal. apply (units_inj (flat_map utf8 cs)); [|auto]. exists cs. split; [split; [split; auto|auto]|auto].
  - left. destruct Ha as (ct & Ht). destruct (C09_push_wtf8 s t cps ct Hw Ht) as (r & Hr & E). exists (push_wtf8 s t), (us ++ flat_map utf16 ct).
    split; [auto|]. split; [exists r; subst; auto|]. intros ts Hts. f_equal. apply (units_inj t); [|auto]. exists ct. auto.
  - left. eexists _, _. split; [reflexivity|]. split; [apply extend_units; eauto|auto].
  - left. exists [], []. split; [auto|]. split; [|auto]. exists []. split; [split; [split; cbn; auto|auto]|auto].
  - destruct (C12_truncate s cps n Hw) as [(x & y & E & Hi & Ht & _)|[Ht Hno]].
    + left. assert (HW : wtf8_cps (x ++ y)) by (rewrite <- E; apply Hw). exists (flat_map utf8 x), (flat_map utf16 x). split; [auto|]. split.
      * exists x. split; [split; [eapply wtf8_cps_app_l; eauto|auto]|auto].
      * exists (flat_map utf16 y). split; [subst; apply flat_map_app|]. exists x, y. auto.
    + right. split; [auto|]. rewrite Ht. split; [reflexivity|]. split; [discriminate|]. intros (us' & r & E & p & q & HW & -> & -> & Hl). apply Hno.
      exists p, q. split; [|auto]. apply utf16_inj; [apply Hw|apply HW|]. rewrite flat_map_app. congruence.
  - destruct (C12_index_range s cps a b Hw) as [HI _]. destruct (index_range s a b) as [t|e|e] eqn:E.
    + left. destruct (proj1 (HI t) eq_refl) as (x & y & z & Ec & Hi & Hj & ->). assert (HW : wtf8_cps (x ++ y ++ z)) by (rewrite <- Ec; apply Hw).
      exists (flat_map utf8 y), (flat_map utf16 y). split; [auto|]. split.
      * exists y. split; [split; [|auto]|auto]. eapply wtf8_cps_app_l. eapply wtf8_cps_app_r. exact HW.
      * exists (flat_map utf16 x), (flat_map utf16 z). split; [subst; rewrite !flat_map_app; auto|]. split.
        -- exists x, (y ++ z). split; [auto|]. split; [auto|]. split; [rewrite flat_map_app; auto|auto].
        -- exists (x ++ y), z. rewrite <- app_assoc. split; [auto|]. split; [rewrite flat_map_app; auto|]. split; [auto|]. rewrite flat_map_app, app_length. lia.
    + exfalso. unfold index_range in E. destruct (_ && _); discriminate.
    + right. split; [auto|]. split; [reflexivity|]. split; [unfold index_range in E; destruct (_ && _); congruence|].
      intros (us' & x & y & Ex & (p & q & HW & -> & Eq & Hl) & (p' & q' & HW' & Ep' & -> & Hl')).
      assert (Hpq : cps = p ++ q) by (apply utf16_inj; [apply Hw|apply HW|]; rewrite flat_map_app; congruence).
      assert (Hpq' : cps = p' ++ q').
      { apply utf16_inj; [apply Hw|apply HW'|]. rewrite flat_map_app, <- Ep', <- app_assoc. congruence. }
      assert (exists m, p' = p ++ m /\ us' = flat_map utf16 m) as (m & -> & Em).
      { subst cps. clear - Hpq' Ep' HW. revert p' Hpq' Ep'. induction p as [|z p IH]; intros p' Hpq' Ep'; [exists p'; auto|].
        destruct p' as [|z' p'].
        - exfalso. cbn [flat_map] in Ep'. rewrite <- app_assoc in Ep'. apply app_eq_nil in Ep' as [Ez _]. unfold utf16 in Ez. destruct (z <? 65536); discriminate.
        - cbn [app] in Hpq'. injection Hpq' as <- Hpq'. cbn [flat_map] in Ep'. rewrite <- app_assoc in Ep'. apply app_inv_head in Ep'.
          destruct (IH) with (p' := p') as (m & -> & Em); auto.
          + destruct HW as [H1 H2]. split; [inversion H1; auto|apply H2].
          + exists m. auto. }
      assert (HP : Panic e = Ok (flat_map utf8 m)); [|discriminate]. apply HI. exists p, m, q'. split; [rewrite app_assoc; auto|].
      split; [auto|]. split; [|auto]. rewrite Hl', flat_map_app, app_length. lia.
  - left. destruct (C68_ascii_case s cps Hw) as [H _]. eexists _, _. split; [reflexivity|]. split; [exists (map lower_cp cps); split; [exact H|reflexivity]|].
    subst. change lower_cp with lower_unit. apply map_units; [| |apply Hw]; unfold lower_unit; intros; destruct (_ && _) eqn:E; lia.
  - left. destruct (C68_ascii_case s cps Hw) as [_ H]. eexists _, _. split; [reflexivity|]. split; [exists (map upper_cp cps); split; [exact H|reflexivity]|].
    subst. change upper_cp with upper_unit. apply map_units; [| |apply Hw]; unfold upper_unit; intros; destruct (_ && _) eqn:E; lia.
  - left. destruct (C08_wide_lossless v Ha) as [(c & Hc) He]. rewrite (C08_wide_units _ c Hc) in He. injection He as He.
    eexists _, _. split; [reflexivity|]. split; [exists c; split; [exact Hc|reflexivity]|auto].
  - left. destruct (C06_validator_total b) as [E|(j & e & E)]; rewrite E.
    + destruct (C06_validator_sound_partial b Ha Hn E) as (c & Hc). exists b, (flat_map utf16 c). split; [auto|]. split; [exists c; auto|].
      split; [intros ts Ht; apply (units_inj b); [exists c; auto|auto]|]. intros Hx. exfalso. apply Hx. exists c. auto.
    + exists s, us. split; [auto|]. split; [auto|]. split; [|auto]. intros ts Ht. apply units_wf in Ht. apply C05_validator_complete in Ht. congruence.
  - left. rewrite clone_into_ok. destruct Ha as (c & Hc). exists t, (flat_map utf16 c). split; [auto|]. split; exists c; auto.
Qed.

(** Effects of a sequence of calls. *)
Inductive effects : list scall -> list Z -> list Z -> Prop :=
| ef_nil us : effects [] us us
| ef_cons o os us us' us'' : effect o us us' -> effects os us' us'' -> effects (o :: os) us us''.

(** C81: from the empty string, any sequence of calls with arguments of the right
    type gives the well-formed string of the units the calls describe; the only
    other outcome is the documented panic, when a position is not between two
    code points.  Never undefined behaviour. *)
Theorem C81_trace_partial : forall os, Forall arg_ok os -> Forall no_hole os ->
  (exists s us, run os [] = Ok s /\ wf_wtf8 s /\ effects os [] us /\ encode_wide s = Ok us /\ from_wide us = s) \/
  (exists before o after us, os = before ++ o :: after /\ may_panic o /\ effects before [] us /\ (~ exists us', effect o us us') /\
     is_panic (run os []) = true /\ run os [] <> Panic PUB).
Proof.
  assert (HG : forall os s us, Forall arg_ok os -> Forall no_hole os -> units s us ->
    (exists s' us', run os s = Ok s' /\ units s' us' /\ effects os us us') \/
    (exists before o after us', os = before ++ o :: after /\ may_panic o /\ effects before us us' /\ (~ exists us'', effect o us' us'') /\
       is_panic (run os s) = true /\ run os s <> Panic PUB)).
  { induction os as [|o os IH]; intros s us H1 H2 Hu; [left; exists s, us; split; [auto|]; split; [auto|constructor]|].
    inversion H1; subst. inversion H2; subst. cbn [run].
    destruct (call_units o s us H3 H5 Hu) as [(s' & us' & E & Hu' & He)|(Hm & Hp & HU & Hno)].
    - rewrite E. cbn [bind]. destruct (IH s' us' H4 H6 Hu') as [(t & ut & Et & Hut & Hef)|(be & o' & af & ux & -> & Hm & Hbe & Hno & Hp & HU)].
      + left. exists t, ut. split; [auto|]. split; [auto|]. econstructor; eauto.
      + right. exists (o :: be), o', af, ux. split; [auto|]. split; [auto|]. split; [econstructor; eauto|]. auto.
    - right. exists [], o, os, us. split; [auto|]. split; [auto|]. split; [constructor|]. split; [auto|].
      destruct (call o s); try discriminate. cbn [bind]. split; [auto|]. congruence. }
  intros os H1 H2. destruct (HG os [] [] H1 H2) as [(s & us & E & Hu & He)|H]; [exists []; split; [split; [split; cbn; auto|auto]|auto]| |right; auto].
  left. exists s, us. split; [auto|]. split; [eapply units_wf; eauto|]. split; [auto|]. destruct Hu as (c & Hc & ->). split; [apply C08_wide_units; auto|].
  destruct Hc as [Hc ->]. apply from_wide_utf16. auto.
Qed.
Example C81_ex : let os := [SPush 0xD83D; SPushStr [0x41]; STruncate 3; SPushWtf8 [0xED; 0xB8; 0x80; 0xC3; 0xA9]; SExtend [0x5A; 0xD800]; SRange 4 7; SLower; SCloneInto [0x42]; SFromBytes [0xFF]] in
  Forall arg_ok os /\ Forall no_hole os /\ run os [] = Ok [0x42] /\ run (firstn 7 os) [] = Ok [0xC3; 0xA9; 0x7A] /\ run (os ++ [STruncate 2]) [] = Panic PAssert.
Proof.
  cbv zeta. split; [|split; [|split; [reflexivity|split; reflexivity]]].
  { do 9 (apply Forall_cons; [shelve|]). apply Forall_nil. Unshelve. all: cbn [arg_ok]; try exact I.
    - unfold is_cp. lia.
    - exists [0x41]. unfold is_cp, is_surrogate. split; [repeat constructor; lia|]. split; [repeat constructor; lia|reflexivity].
    - exists [0xDE00; 0xE9]. unfold wtf8_of, wtf8_cps, is_cp. split; [split; [repeat constructor; lia|cbn; unfold is_lead; lia]|reflexivity].
    - unfold is_cp. repeat constructor; lia.
    - exists [0x42]. unfold wtf8_of, wtf8_cps, is_cp. split; [split; [repeat constructor; lia|cbn; auto]|reflexivity].
    - unfold bytes. repeat constructor; lia. }
  repeat (apply Forall_cons; [cbn [no_hole]; try exact I|]); [|apply Forall_nil].
  intros [|a p] n x r H; [discriminate|]. destruct p; discriminate.
Qed.
(** C81: false for all calls: bytes that [from_bytes] accepts, shortened at a
    position that passes as boundary, and iterating over the code points runs
    past the end ([unwrap_unchecked] on [None]), all in safe code. *)
Theorem C81_undefined_refuted : forall n x, 0xA0 <= n <= 0xAF -> 0 <= x < 0x80 \/ 0xC0 <= x < 0x100 ->
  exists s, run [SFromBytes [0xED; n; x]; STruncate 2] [] = Ok s /\ codepoints s = Panic PUB /\ encode_wide s = Panic PUB.
Proof.
  intros n x Hn Hx. exists [0xED; n]. split.
  - cbn [run call]. unfold from_bytes, validate_wtf8. cbn [validate_from between Z.leb Z.compare Pos.compare Pos.compare_cont andb orb Z.eqb Pos.eqb].
    unfold between. assert ((160 <=? n) && (n <=? 175) = true) as -> by lia. cbn [bind run call]. unfold truncate, is_code_point_boundary. cbn [length Nat.eqb nth_error].
    assert ((128 <=? x) && (x <? 192) = false) as -> by lia. reflexivity.
  - split; [|unfold encode_wide]; cbn; reflexivity.
Qed.
Print Assumptions C81_trace_partial.
Print Assumptions C81_undefined_refuted.
