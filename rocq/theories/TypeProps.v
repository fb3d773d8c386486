(** Properties C28-C32: descriptors. *)
From Verif Require Import Base BaseLemmas Wtf8Spec Wtf8Model TypeModel TypeSpec.
From Verif Require Import Wtf8Proofs Wtf8Proofs2 TypeProofs TypeProofs2.

(** C28. *)
Theorem C28_write_is_jvms_text : forall t, type_to_wtf8 t = ty_text t.
Proof. exact type_to_wtf8_text. Qed.
Example C28_write_ex :
  type_to_wtf8 (TMethod [TArray 2 (TRef [97; 47; 98]); TLong] None)
  = [40; 91; 91; 76; 97; 47; 98; 59; 74; 41; 86]. (* ([[La/b;J)V *)
Proof. reflexivity. Qed.
Print Assumptions C28_write_is_jvms_text.

Theorem C28_print_parse : forall md t, wf_ty t ->
  wf_wtf8 (type_to_wtf8 t) /\ parse_type md (type_to_wtf8 t) = Ok t.
Proof.
  intros md t Hw. rewrite type_to_wtf8_text. split; [apply ty_text_wf|apply parse_type_text]; auto.
Qed.
Example C28_print_parse_ex :
  wf_ty (TMethod [TArray 255 (TRef [97; 47; 98]); TLong] (Some (TArray 1 TByte))).
Proof.
  split; [|cbn; lia]. repeat constructor; cbn; try lia.
  - exists [97; 47; 98]. repeat split; try reflexivity; cbn; try (repeat constructor; unfold is_cp; lia);
      unfold is_lead; lia.
Qed.
Print Assumptions C28_print_parse.

(** C29 is false: everything after a descriptor is ignored. *)
Theorem C29_trailing_input_refuted : forall md t junk, wf_ty t -> wf_wtf8 junk ->
  parse_type md (ty_text t ++ junk) = Ok t.
Proof.
  intros md t junk Hw (jc & [Hj _] & ->).
  destruct (wf_ty_text_cps t Hw) as (cps & Hc & Ht & _ & _ & Hg).
  unfold parse_type. rewrite Ht, <- flat_map_app, codepoints_utf8 by (apply Forall_app; split; auto; apply Hc).
  cbn [bind]. destruct (Hg md (S (length (cps ++ jc))) jc) as (r & Hr & _).
  { rewrite app_length. lia. }
  rewrite Hr. reflexivity.
Qed.
Example C29_trailing_ex : parse_type Debug [73; 33; 33] = Ok TInt. (* "I!!" *)
Proof. reflexivity. Qed.
Print Assumptions C29_trailing_input_refuted.

(** ... and method types are accepted where JVMS 4.3 allows field types only. *)
Theorem C29_nested_method_refuted : forall md,
  parse_type md [91; 40; 41; 86] = Ok (TArray 1 (TMethod [] None)) /\      (* [()V *)
  parse_type md [40; 40; 41; 73; 41; 73]
    = Ok (TMethod [TMethod [] (Some TInt)] (Some TInt)).                   (* (()I)I *)
Proof. intros []; split; reflexivity. Qed.
Print Assumptions C29_nested_method_refuted.

(** What remains true: an accepted string starts with the text of the returned
    type, whose names, dimensions and arrays are well formed.  Missing for the
    full claim: no trailing input, no nested method types. *)
Theorem C29_accepts_prefix_partial : forall md s t, wf_wtf8 s ->
  (md = Debug \/ ~ long_run s) -> parse_type md s = Ok t ->
  loose_ty t /\ exists rest, s = ty_text t ++ rest.
Proof.
  intros md s t (cps & Hc & ->) Hmd H. unfold parse_type in H.
  rewrite codepoints_utf8 in H by apply Hc. cbn [bind] in H. inv_bind H. destruct v as [t' r].
  inversion H; subst t'. apply get_type_sound in E; auto.
  - destruct E as (Hl & u & -> & Hu). split; auto. destruct Hu as [Hu|(r' & -> & Hu)].
    + exists (flat_map utf8 r). rewrite flat_map_app, Hu. reflexivity.
    + exists (flat_map utf8 r'). rewrite <- Hu, flat_map_app, flat_map_app. cbn [flat_map].
      rewrite (utf8_ascii 86) by lia. rewrite <- app_assoc. reflexivity.
  - destruct Hmd as [|Hmd]; auto. right. intros (p & q & ->). apply Hmd.
    exists (flat_map utf8 p), (flat_map utf8 q). rewrite !flat_map_app, flat_utf8_repeat. reflexivity.
Qed.
Example C29_accepts_ex : parse_type Debug [91; 91; 74; 90] = Ok (TArray 2 TLong).
Proof. reflexivity. Qed.
Print Assumptions C29_accepts_prefix_partial.

(** C30. *)
Lemma codepoints_91 s cs : codepoints (91 :: s) = Ok cs -> exists c, cs = 91 :: c.
Proof.
  unfold codepoints. cbn [length codepoints_fuel]. unfold next_code_point.
  change (91 <? 128) with true. cbv iota. intros H. inv_bind H. inversion H. eauto.
Qed.

Theorem C30_array_safety : forall md s t, parse_type md (91 :: s) = Ok t ->
  exists d e, t = TArray d e /\ match e with TArray _ _ => False | _ => True end.
Proof.
  intros md s t H. unfold parse_type in H. inv_bind H. apply codepoints_91 in E as (c & ->).
  inv_bind H. destruct v as [t' r]. inversion H; subst t'. cbn [get_type] in E.
  change (91 =? 66) with false in E. change (91 =? 67) with false in E. change (91 =? 68) with false in E.
  change (91 =? 70) with false in E. change (91 =? 73) with false in E. change (91 =? 74) with false in E.
  change (91 =? 90) with false in E. change (91 =? 83) with false in E. change (91 =? 76) with false in E.
  change (91 =? 91) with true in E. cbv iota in E. inv_bind E. destruct v as [d c2].
  inv_bind E. destruct v as [e c3]. inversion E; subst. exists d, e. split; auto.
  destruct (count_dims_ok _ _ _ _ _ E0) as (m & _ & Hne & _). destruct e; auto.
  cbn [length get_type] in E1. destruct c2 as [|ch c1]; [discriminate|]. specialize (Hne c1).
  char_tests E1; try congruence;
    repeat match type of E1 with
    | context [match ?x with _ => _ end] => destruct x; try discriminate E1
    | bind _ _ = _ => inv_bind E1
    end; congruence.
Qed.
Example C30_ex : parse_type Release [91; 91; 76; 97; 59] = Ok (TArray 2 (TRef [97])).
Proof. reflexivity. Qed.
Print Assumptions C30_array_safety.

(** C31 is false in a build with overflow checks: 256 leading '['. *)
Theorem C31_no_panic_refuted : forall rest, wf_wtf8 rest ->
  parse_type Debug (repeat 91 256 ++ rest) = Panic POverflow.
Proof.
  intros rest (cps & [Hc _] & ->). unfold parse_type.
  rewrite <- flat_utf8_repeat, <- flat_map_app, codepoints_utf8.
  2:{ apply Forall_app. split; auto. apply Forall_forall. intros x Hx. apply repeat_spec in Hx.
      subst. unfold is_cp. lia. }
  cbn [bind]. generalize (length (repeat 91 256 ++ cps)) as n. intros n.
  change (repeat 91 256 ++ cps) with (91 :: repeat 91 255 ++ cps). cbn [get_type].
  change (91 =? 66) with false. change (91 =? 67) with false. change (91 =? 68) with false.
  change (91 =? 70) with false. change (91 =? 73) with false. change (91 =? 74) with false.
  change (91 =? 90) with false. change (91 =? 83) with false. change (91 =? 76) with false.
  change (91 =? 91) with true. cbv iota. reflexivity.
Qed.
Print Assumptions C31_no_panic_refuted.

(** In a release build the dimension wraps to zero instead. *)
Theorem C31_release_wraps_refuted :
  parse_type Release (repeat 91 256 ++ [73]) = Ok (TArray 0 TInt).
Proof. vm_compute. reflexivity. Qed.
Print Assumptions C31_release_wraps_refuted.

(** No other panic, for every string the validator accepts. *)
Theorem C31_no_panic_partial : forall md s k, validate_wtf8 s = Ok tt ->
  parse_type md s = Panic k ->
  md = Debug /\ exists cs, codepoints s = Ok cs /\ long_run cs.
Proof.
  intros md s k Hv H. destruct (valid_codepoints s Hv) as (cs & Hcs).
  unfold parse_type in H. rewrite Hcs in H. cbn [bind] in H.
  apply bind_panic in H as [H|([t r] & _ & H)]; [|discriminate].
  apply get_type_panic in H as [-> Hl]; [|lia]. eauto.
Qed.
Example C31_no_panic_ex : validate_wtf8 [76; 0xED; 0xA0; 0x41; 59] = Ok tt /\
  parse_type Debug [76; 97] = Err EInvalid.
Proof. split; reflexivity. Qed.
Print Assumptions C31_no_panic_partial.

(** C32 holds for names without surrogates ... *)
Theorem C32_display_agrees_partial : forall t, Forall is_utf8 (ty_names t) ->
  display_type t = Ok (type_to_wtf8 t).
Proof. intros. rewrite type_to_wtf8_text. apply display_type_text. auto. Qed.
Example C32_display_ex :
  display_type (TMethod [TRef [0xC3; 0xA9]] (Some (TArray 2 TInt)))
  = Ok [40; 76; 0xC3; 0xA9; 59; 41; 91; 91; 73].
Proof. reflexivity. Qed.
Print Assumptions C32_display_agrees_partial.

(** ... and fails otherwise: a lone surrogate (ED A0 80) is printed as U+FFFD,
    so two different types have the same Display text. *)
Theorem C32_display_refuted : forall c, is_surrogate c ->
  wf_ty (TRef (utf8 c)) /\
  display_type (TRef (utf8 c)) = Ok [76; 0xEF; 0xBF; 0xBD; 59] /\
  type_to_wtf8 (TRef (utf8 c)) = 76 :: utf8 c ++ [59] /\ utf8 c <> [0xEF; 0xBF; 0xBD].
Proof.
  intros c Hc. unfold is_surrogate in Hc.
  assert (Hcp : Forall is_cp [c]) by (repeat constructor; unfold is_cp; lia).
  assert (H3 : utf8 c = [0xED; 0x80 + c / 64 mod 64; 0x80 + c mod 64]).
  { unfold utf8. assert (c <? 128 = false) as -> by lia. assert (c <? 2048 = false) as -> by lia.
    assert (c <? 65536 = true) as -> by lia. replace (0xE0 + c / 4096) with 0xED by lia. reflexivity. }
  split; [|split; [|split]].
  - split.
    + exists [c]. split; [split; auto|cbn; rewrite app_nil_r; reflexivity]. cbn. auto.
    + rewrite H3. cbn. lia.
  - cbn [display_type]. pose proof (to_string_lossy_spec [c] Hcp) as Hl. cbn [flat_map map] in Hl.
    rewrite !app_nil_r in Hl. rewrite Hl. cbn [bind].
    unfold replace_surrogate. assert ((55296 <=? c) && (c <=? 57343) = true) as -> by lia. reflexivity.
  - rewrite type_to_wtf8_text. reflexivity.
  - rewrite H3. intros [= ?].
Qed.
Example C32_surrogate_ex : is_surrogate 0xD800. Proof. unfold is_surrogate. lia. Qed.
Print Assumptions C32_display_refuted.
