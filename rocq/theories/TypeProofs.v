(** Proofs about descriptors. *)
From Verif Require Import Base BaseLemmas Wtf8Spec Wtf8Model TypeModel TypeSpec.
From Verif Require Import Wtf8Proofs Wtf8Proofs2.

(** Induction on types, through the parameter list. *)
Lemma ty_ind' (P : ty -> Prop) :
  P TByte -> P TChar -> P TDouble -> P TFloat -> P TInt -> P TLong -> P TBoolean -> P TShort ->
  (forall n, P (TRef n)) ->
  (forall d e, P e -> P (TArray d e)) ->
  (forall ps r, Forall P ps -> (forall t, r = Some t -> P t) -> P (TMethod ps r)) ->
  forall t, P t.
Proof.
  intros H1 H2 H3 H4 H5 H6 H7 H8 Hr Ha Hm.
  fix IH 1. intros [| | | | | | | |n|d e|ps r];
    [exact H1|exact H2|exact H3|exact H4|exact H5|exact H6|exact H7|exact H8|apply Hr|apply Ha, IH|].
  apply Hm.
  - induction ps; constructor; auto.
  - intros t. destruct r as [t'|]; [|discriminate]. intros [= <-]. apply IH.
Qed.

(** Texts end in an ASCII byte. *)
Definition ascii_end (s : list Z) : Prop := exists p c, s = p ++ [c] /\ 0 <= c < 128.
Definition ok_start (s : list Z) : Prop := s = [] \/ ascii_end s.

Lemma ascii_end_app a b : ascii_end b -> ascii_end (a ++ b).
Proof. intros (p & c & -> & H). exists (a ++ p), c. rewrite app_assoc. auto. Qed.
Lemma ascii_end_1 c : 0 <= c < 128 -> ascii_end [c].
Proof. intros H. exists [], c. auto. Qed.
Lemma ascii_end_cons c s : ascii_end s -> ascii_end (c :: s).
Proof. apply (ascii_end_app [c]). Qed.
Lemma ascii_end_snoc s c : 0 <= c < 128 -> ascii_end (s ++ [c]).
Proof. intros. exists s, c. auto. Qed.

Lemma ty_text_end t : ascii_end (ty_text t).
Proof.
  induction t as [| | | | | | | |n|d e IH|ps r Hps Hr] using ty_ind'; cbn [ty_text];
    try (apply ascii_end_1; lia).
  - apply ascii_end_cons, ascii_end_snoc. lia.
  - apply ascii_end_app; auto.
  - apply ascii_end_cons, ascii_end_app, ascii_end_cons. destruct r; auto. apply ascii_end_1; lia.
Qed.

Lemma push_ascii s c : 0 <= c < 128 -> push_char s c = s ++ [c].
Proof.
  intros H. unfold push_char, push_code_point_unchecked.
  rewrite encode_utf8_raw_spec by (unfold is_cp; lia). unfold utf8.
  assert (c <? 128 = true) as -> by lia. reflexivity.
Qed.

Lemma push_wtf8_after_L s n : ok_start s -> push_wtf8 (s ++ [76]) n = s ++ [76] ++ n.
Proof.
  intros Hs. unfold push_wtf8.
  assert (final_lead_surrogate (s ++ [76]) = None) as ->; [|rewrite <- app_assoc; reflexivity].
  unfold final_lead_surrogate. rewrite rev_app_distr. cbn [rev app].
  destruct Hs as [->|(p & c & -> & Hc)]; [reflexivity|].
  rewrite rev_app_distr. cbn [rev app]. destruct (rev p) as [|x r]; auto.
  unfold between. assert (((160 <=? c) && (c <=? 175)) = false) as -> by lia.
  rewrite andb_false_r. reflexivity.
Qed.

Lemma fold_push_char s n : fold_left (fun s (_ : unit) => push_char s 91) (repeat tt n) s
  = s ++ repeat 91 n.
Proof.
  revert s. induction n as [|n IH]; intros s; cbn [repeat fold_left]; [rewrite app_nil_r; auto|].
  rewrite IH, push_ascii by lia. rewrite <- app_assoc. reflexivity.
Qed.

Lemma ok_start_repeat s n : ok_start s -> ok_start (s ++ repeat 91 n).
Proof.
  destruct n; [rewrite app_nil_r; auto|]. intros _. right.
  replace (repeat 91 (S n)) with (repeat 91 n ++ [91]) by (rewrite <- repeat_cons; reflexivity).
  apply ascii_end_app, ascii_end_snoc. lia.
Qed.

Lemma write_type_text t : forall s, ok_start s -> write_type t s = s ++ ty_text t.
Proof.
  induction t as [| | | | | | | |n|d e IH|ps r Hps Hr] using ty_ind'; intros s Hs;
    cbn [write_type ty_text]; try (apply push_ascii; lia).
  - rewrite !push_ascii by lia. rewrite push_wtf8_after_L by auto. rewrite <- app_assoc. reflexivity.
  - rewrite fold_push_char. rewrite IH by (apply ok_start_repeat; auto). rewrite app_assoc. reflexivity.
  - rewrite !push_ascii by lia.
    assert (Hf : forall l s, Forall (fun t => forall s, ok_start s -> write_type t s = s ++ ty_text t) l ->
       ok_start s -> fold_left (fun s t => write_type t s) l s = s ++ flat_map ty_text l).
    { clear. induction l as [|t l IH]; intros s Hl Hs; cbn; [rewrite app_nil_r; auto|].
      inversion Hl; subst. rewrite H1 by auto. rewrite IH; auto.
      - rewrite app_assoc. reflexivity.
      - right. apply ascii_end_app, ty_text_end. }
    rewrite Hf; auto; [|right; apply ascii_end_snoc; lia].
    assert (Hok : ok_start (((s ++ [40]) ++ flat_map ty_text ps) ++ [41]))
      by (right; apply ascii_end_snoc; lia).
    destruct r as [t|].
    + rewrite (Hr t eq_refl) by auto. rewrite <- !app_assoc. reflexivity.
    + rewrite <- !app_assoc. reflexivity.
Qed.

Lemma type_to_wtf8_text t : type_to_wtf8 t = ty_text t.
Proof. unfold type_to_wtf8. rewrite write_type_text by (left; auto). reflexivity. Qed.

(** Texts as code points. *)
Definition cps_ok (cps : list Z) : Prop := wtf8_cps cps.

Lemma wtf8_cps_app a b : wtf8_cps a -> wtf8_cps b ->
  (a = [] \/ exists p c, a = p ++ [c] /\ 0 <= c < 128) -> wtf8_cps (a ++ b).
Proof.
  intros [Ha1 Ha2] [Hb1 Hb2] He. split; [apply Forall_app; auto|].
  apply no_pair_app; auto. intros x a' y b' E _ [Hl _]. unfold is_lead in Hl.
  destruct He as [->|(p & c & -> & Hc)]; [destruct a'; discriminate|].
  apply app_inj_tail in E as [_ ->]. lia.
Qed.

Lemma wtf8_cps_cons c b : 0 <= c < 128 -> wtf8_cps b -> wtf8_cps (c :: b).
Proof.
  intros Hc Hb. apply (wtf8_cps_app [c]); auto.
  - split; [repeat constructor; unfold is_cp; lia|cbn; auto].
  - right. exists [], c. auto.
Qed.

Lemma utf8_ascii c : 0 <= c < 128 -> utf8 c = [c].
Proof. intros H. unfold utf8. assert (c <? 128 = true) as -> by lia. reflexivity. Qed.

Lemma wtf8_cps_snoc a c : 0 <= c < 128 -> wtf8_cps a -> wtf8_cps (a ++ [c]).
Proof.
  intros Hc [Ha Hn]. split.
  - apply Forall_app. split; auto. repeat constructor; unfold is_cp; lia.
  - apply no_pair_app_last. split; auto. intros d p _ [_ Ht]. unfold is_trail in Ht. lia.
Qed.

Lemma in_ascii_utf8 cps c : Forall is_cp cps -> 0 <= c < 128 ->
  In c (flat_map utf8 cps) -> In c cps.
Proof.
  intros Hc H Hi. apply in_flat_map in Hi as (x & Hx & Hi).
  rewrite Forall_forall in Hc. specialize (Hc x Hx). unfold is_cp, utf8 in *.
  destruct (x <? 128) eqn:E1.
  { destruct Hi as [->|[]]. auto. }
  exfalso. destruct (x <? 2048) eqn:E2; [cbn in Hi; lia|].
  destruct (x <? 65536) eqn:E3; cbn in Hi; lia.
Qed.

Lemma span_semi_app cps r : ~ In 59 cps -> span_semi (cps ++ 59 :: r) = (cps, 59 :: r).
Proof.
  induction cps as [|c cps IH]; intros Hn; cbn [app span_semi].
  - reflexivity.
  - assert (c =? 59 = false) as -> by (apply Z.eqb_neq; intros ->; apply Hn; left; auto).
    rewrite IH; auto. intros Hi. apply Hn. right. auto.
Qed.

Lemma from_cps_utf8 cps : wtf8_cps cps -> from_cps cps = flat_map utf8 cps.
Proof.
  intros Hc. unfold from_cps, extend_cps.
  assert (Hgen : forall b a, wtf8_cps (a ++ b) ->
            fold_left push b (flat_map utf8 a) = flat_map utf8 (a ++ b)).
  { induction b as [|c b IH]; intros a Hab; [rewrite app_nil_r; reflexivity|].
    replace (a ++ c :: b) with ((a ++ [c]) ++ b) in * by (rewrite <- app_assoc; reflexivity).
    cbn [fold_left].
    assert (Hac : wtf8_cps (a ++ [c])) by (eapply wtf8_cps_app_l; eauto).
    assert (Ha : wtf8_cps a) by (eapply wtf8_cps_app_l; eauto).
    assert (Hcc : is_cp c) by (destruct Hac as [Hac _]; apply Forall_app in Hac as [_ Hac]; inversion Hac; auto).
    destruct (push_spec a c Ha Hcc) as (r & Hr & Ep & Er). rewrite Ep.
    replace r with (a ++ [c]); [apply IH; auto|].
    apply utf16_inj; auto. rewrite Er, flat_map_app. cbn. rewrite app_nil_r. reflexivity. }
  apply (Hgen cps []). auto.
Qed.

Lemma count_dims_app md d n c r : 1 <= d -> d + Z.of_nat n <= 255 -> c <> 91 ->
  count_dims md d (repeat 91 n ++ c :: r) = Ok (d + Z.of_nat n, c :: r).
Proof.
  revert d. induction n as [|n IH]; intros d H1 H2 H3; cbn [repeat app count_dims].
  - assert (c =? 91 = false) as -> by lia. f_equal. f_equal. lia.
  - change (91 =? 91) with true. cbv iota. unfold chk_u.
    change (2 ^ 8) with 256.
    assert ((0 <=? d + 1) && (d + 1 <? 256) = true) as -> by lia. cbn [bind].
    rewrite IH by lia. f_equal. f_equal. lia.
Qed.

(** What a type's text looks like as code points. *)
Record text_cps (t : ty) (cps : list Z) : Prop := {
  tc_wf : wtf8_cps cps;
  tc_text : ty_text t = flat_map utf8 cps;
  tc_ascii : exists p c, cps = p ++ [c] /\ 0 <= c < 128;
  tc_head : exists c r, cps = c :: r /\ c <> 41 /\ c <> 86 /\ c <> 59 /\
              (c = 91 -> exists d e, t = TArray d e);
}.

Lemma text_cps_1 t c : ty_text t = [c] -> 0 <= c < 128 -> c <> 41 -> c <> 86 -> c <> 59 -> c <> 91 ->
  text_cps t [c].
Proof.
  intros H Hc H1 H2 H3 H4. split.
  - split; [repeat constructor; unfold is_cp; lia|cbn; auto].
  - cbn. rewrite utf8_ascii by auto. auto.
  - exists [], c. auto.
  - exists c, []. repeat split; auto. intros ->. congruence.
Qed.

Lemma flat_utf8_repeat n : flat_map utf8 (repeat 91 n) = repeat 91 n.
Proof. induction n; cbn; congruence. Qed.

Lemma field_text_cps t : wf_field_ty t -> exists cps, text_cps t cps /\
  (forall md n rest, (length cps < n)%nat -> get_type md n (cps ++ rest) = Ok (t, rest)).
Proof.
  induction t as [| | | | | | | |nm|d e IH|ps r Hps Hr] using ty_ind'; cbn [wf_field_ty]; intros Hw;
    try (eexists [_]; split; [apply text_cps_1; try reflexivity; lia|
           intros md [|k] rest Hk; [cbn in Hk; lia|reflexivity]]).
  - destruct Hw as [(cps & Hc & ->) Hn]. exists (76 :: cps ++ [59]).
    assert (Hni : ~ In 59 cps).
    { intros Hi. apply Hn. apply in_flat_map. exists 59. split; auto. cbn. auto. }
    split; [split|].
    + apply wtf8_cps_cons; [lia|]. apply wtf8_cps_snoc; [lia|auto].
    + cbn [ty_text flat_map]. rewrite flat_map_app. reflexivity.
    + exists (76 :: cps), 59. split; [reflexivity|lia].
    + exists 76, (cps ++ [59]). repeat split; try lia.
    + intros md [|k] rest Hk; [cbn in Hk; lia|]. cbn [app get_type].
      change (76 =? 66) with false. change (76 =? 67) with false. change (76 =? 68) with false.
      change (76 =? 70) with false. change (76 =? 73) with false. change (76 =? 74) with false.
      change (76 =? 90) with false. change (76 =? 83) with false. change (76 =? 76) with true.
      cbv iota. rewrite <- app_assoc. cbn [app]. rewrite span_semi_app by auto.
      rewrite from_cps_utf8 by auto. reflexivity.
  - destruct Hw as [Hd He]. destruct (Z.to_nat d) as [|k0] eqn:Ed; [lia|].
    assert (Hwe : wf_field_ty e) by (destruct e; auto; contradiction).
    destruct (IH Hwe) as (cps & [Hc Ht Ha (h & tl & -> & H1 & H2 & H3 & H4)] & Hg).
    assert (Hne : h <> 91).
    { intros ->. destruct (H4 eq_refl) as (d' & e' & ->). contradiction. }
    exists (repeat 91 (S k0) ++ h :: tl). split; [split|].
    + clear - Hc. generalize (S k0). induction n; cbn; auto. apply wtf8_cps_cons; [lia|auto].
    + cbn [ty_text]. rewrite Ed, flat_map_app, flat_utf8_repeat. rewrite Ht. reflexivity.
    + destruct Ha as (p & c & Hp & Hcc). exists (repeat 91 (S k0) ++ p), c.
      rewrite Hp, app_assoc. auto.
    + exists 91, (repeat 91 k0 ++ h :: tl). repeat split; try lia. eauto.
    + intros md [|k] rest Hk; [cbn in Hk; lia|]. cbn [repeat app get_type].
      change (91 =? 66) with false. change (91 =? 67) with false. change (91 =? 68) with false.
      change (91 =? 70) with false. change (91 =? 73) with false. change (91 =? 74) with false.
      change (91 =? 90) with false. change (91 =? 83) with false. change (91 =? 76) with false.
      change (91 =? 91) with true. cbv iota.
      rewrite <- app_assoc. cbn [app]. rewrite count_dims_app by lia. cbn [bind].
      change (h :: tl ++ rest) with ((h :: tl) ++ rest).
      rewrite Hg by (rewrite app_length, repeat_length in Hk; cbn in *; lia). cbn [bind].
      repeat f_equal. lia.
  - contradiction.
Qed.

Lemma wf_ty_text_cps t : wf_ty t -> exists cps, wtf8_cps cps /\ ty_text t = flat_map utf8 cps /\
  (exists p c, cps = p ++ [c] /\ 0 <= c < 128) /\
  (exists c r, cps = c :: r /\ c <> 59 /\ (c = 91 -> exists d e, t = TArray d e)) /\
  (forall md n rest, (length cps < n)%nat -> exists rest', get_type md n (cps ++ rest) = Ok (t, rest')
     /\ (rest' = rest \/ rest' = 86 :: rest)).
Proof.
  intros Hw. destruct (ty_is_method t) eqn:Em.
  2:{ assert (Hf : wf_field_ty t) by (destruct t; auto; discriminate).
      destruct (field_text_cps t Hf) as (cps & [Hc Ht Ha (c & r & Hh & H1 & H2 & H3 & H4)] & Hg).
      exists cps. split; [exact Hc|]. split; [exact Ht|]. split; [exact Ha|]. split; [eauto 6|].
      intros. exists rest. split; auto. }
  destruct t as [| | | | | | | | | |ps r]; try discriminate. destruct Hw as [Hps Hr].
  assert (Hp : exists pcps, wtf8_cps pcps /\ flat_map ty_text ps = flat_map utf8 pcps /\
     (pcps = [] \/ exists p c, pcps = p ++ [c] /\ 0 <= c < 128) /\
     forall md n k rest, (length pcps <= n)%nat -> (length pcps <= k)%nat ->
       params_loop (get_type md (S n)) k (pcps ++ 41 :: rest) = Ok (ps, 41 :: rest)).
  { clear Hr Em. induction Hps as [|t ps Ht _ IH].
    - exists []. split; [split; cbn; auto|]. split; [auto|]. split; [auto|].
      intros md n [|k] rest _ _; reflexivity.
    - destruct (field_text_cps t Ht) as (cps & [Hc Htx Ha (c & r0 & Hh & H1 & H2 & H3 & H4)] & Hg).
      destruct IH as (pcps & Hpc & Hpt & Hpa & Hpl). exists (cps ++ pcps).
      split; [apply wtf8_cps_app; auto|]. split; [cbn; rewrite flat_map_app; congruence|].
      split.
      + right. destruct Hpa as [->|(p & c' & -> & Hc')]; [rewrite app_nil_r; auto|].
        exists (cps ++ p), c'. rewrite app_assoc. auto.
      + intros md n k rest Hn Hk. rewrite app_length in *. rewrite <- app_assoc.
        rewrite Hh in *. cbn [app length] in *. destruct k as [|k]; [lia|]. cbn [params_loop].
        assert (c =? 41 = false) as -> by lia.
        rewrite Hg by (cbn; lia). cbn [bind]. rewrite Hpl by lia. reflexivity. }
  destruct Hp as (pcps & Hpc & Hpt & Hpa & Hpl).
  assert (Hparen : forall x, wtf8_cps x -> wtf8_cps (40 :: pcps ++ 41 :: x)).
  { intros x Hx. apply wtf8_cps_cons; [lia|]. apply wtf8_cps_app; auto. apply wtf8_cps_cons; [lia|auto]. }
  destruct r as [t|].
  - destruct (field_text_cps t Hr) as (cps & [Hc Htx Ha (c & r0 & Hh & H1 & H2 & H3 & H4)] & Hg).
    exists (40 :: pcps ++ 41 :: cps). split; [auto|]. split.
    { cbn [ty_text flat_map]. rewrite flat_map_app. cbn [flat_map].
      rewrite Hpt, Htx. rewrite (utf8_ascii 40), (utf8_ascii 41) by lia. reflexivity. }
    split.
    { destruct Ha as (p & c' & -> & Hc'). exists (40 :: pcps ++ 41 :: p), c'. split; auto.
      cbn [app]. f_equal. rewrite <- app_assoc. reflexivity. }
    split; [exists 40, (pcps ++ 41 :: cps); repeat split; lia|].
    intros md [|k] rest Hk; [cbn in Hk; lia|]. exists rest. split; [|auto].
    cbn [app get_type].
    change (40 =? 66) with false. change (40 =? 67) with false. change (40 =? 68) with false.
    change (40 =? 70) with false. change (40 =? 73) with false. change (40 =? 74) with false.
    change (40 =? 90) with false. change (40 =? 83) with false. change (40 =? 76) with false.
    change (40 =? 91) with false. change (40 =? 40) with true. cbv iota.
    rewrite <- app_assoc. cbn [app]. cbn [length] in Hk. rewrite app_length in Hk. cbn [length] in Hk.
    destruct k as [|k]; [lia|]. rewrite Hpl by lia. cbn [bind].
    rewrite Hh in *. cbn [app].
    assert (Hm : forall (A : Type) (x y : A), match c with 86 => x | _ => y end = y).
    { intros. destruct c as [|[p|p|]|]; auto; repeat (destruct p as [p|p|]; auto); lia. }
    rewrite Hm. change (c :: r0 ++ rest) with ((c :: r0) ++ rest).
    rewrite Hg by (cbn in *; lia). reflexivity.
  - exists (40 :: pcps ++ [41; 86]). split.
    { apply Hparen. apply wtf8_cps_cons; [lia|split; cbn; auto]. }
    split.
    { cbn [ty_text flat_map]. rewrite flat_map_app. rewrite Hpt. reflexivity. }
    split; [exists (40 :: pcps ++ [41]), 86; split; [cbn; rewrite <- app_assoc; reflexivity|lia]|].
    split; [exists 40, (pcps ++ [41; 86]); repeat split; lia|].
    intros md [|k] rest Hk; [cbn in Hk; lia|]. exists (86 :: rest). split; [|auto].
    cbn [app get_type].
    change (40 =? 66) with false. change (40 =? 67) with false. change (40 =? 68) with false.
    change (40 =? 70) with false. change (40 =? 73) with false. change (40 =? 74) with false.
    change (40 =? 90) with false. change (40 =? 83) with false. change (40 =? 76) with false.
    change (40 =? 91) with false. change (40 =? 40) with true. cbv iota.
    rewrite <- app_assoc. cbn [app]. cbn [length] in Hk. rewrite app_length in Hk. cbn [length] in Hk.
    destruct k as [|k]; [lia|]. rewrite Hpl by lia. reflexivity.
Qed.

Lemma parse_type_text md t : wf_ty t -> parse_type md (ty_text t) = Ok t.
Proof.
  intros Hw. destruct (wf_ty_text_cps t Hw) as (cps & Hc & Ht & _ & _ & Hg).
  unfold parse_type. rewrite Ht, codepoints_utf8 by apply Hc. cbn [bind].
  destruct (Hg md (S (length cps)) [] ltac:(lia)) as (r & Hr & _). rewrite app_nil_r in Hr.
  rewrite Hr. reflexivity.
Qed.

Lemma ty_text_wf t : wf_ty t -> wf_wtf8 (ty_text t).
Proof.
  intros Hw. destruct (wf_ty_text_cps t Hw) as (cps & Hc & Ht & _). exists cps. split; auto.
Qed.

(** Display. *)
Lemma to_string_lossy_utf8 n : is_utf8 n -> to_string_lossy n = Ok n.
Proof.
  intros (cps & [[Hc _] ->] & Hs). rewrite to_string_lossy_spec by auto. f_equal. f_equal.
  clear Hc. induction Hs as [|c cps H _ IH]; cbn; auto. rewrite IH. f_equal.
  unfold replace_surrogate, is_surrogate in *.
  assert ((55296 <=? c) && (c <=? 57343) = false) as -> by lia. reflexivity.
Qed.

Lemma display_type_text t : Forall is_utf8 (ty_names t) -> display_type t = Ok (ty_text t).
Proof.
  induction t as [| | | | | | | |n|d e IH|ps r Hps Hr] using ty_ind'; intros Hu;
    cbn [display_type ty_text ty_names] in *; auto.
  - inversion Hu; subst. rewrite to_string_lossy_utf8 by auto. reflexivity.
  - rewrite IH by auto. reflexivity.
  - apply Forall_app in Hu as [Hu1 Hu2].
    assert (Hss : (fix go l := match l with
                         | [] => Ok []
                         | t :: l => s <- display_type t ;; r <- go l ;; Ok (s ++ r)
                         end) ps = Ok (flat_map ty_text ps)).
    { clear Hr Hu2. induction Hps as [|t ps Ht _ IH]; auto. cbn in Hu1.
      apply Forall_app in Hu1 as [Ha Hb]. rewrite Ht by auto. cbn [bind].
      rewrite IH by auto. reflexivity. }
    rewrite Hss. cbn [bind]. destruct r as [t|].
    + rewrite (Hr t eq_refl) by auto. reflexivity.
    + reflexivity.
Qed.
