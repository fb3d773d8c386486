(** Annotations: properties C39, C40, C41 and the annotation part of C18. *)
From Verif Require Import Base BaseLemmas Wtf8Spec PrimModel PrimProofs TypeModel TypeSpec TypeProofs
  CpModel CpSpec CpProofs CpProps FileSpec AnnModel AnnSpec AnnProofs.

(** C39 *)
Theorem C39_annotation_roundtrip : forall md E a, wf_annot a ->
  exact wr_annot (rd_annot md) fmt_annot E a.
Proof. intros. apply (exact_intro _ _ _ _ _ _ _ wr_annot_ok (rd_annot_ok md)); auto. Qed.
(** ... and the values of AnnotationDefault. *)
Theorem C39_value_roundtrip : forall md E v, wf_aval v ->
  exact wr_aval (rd_aval md) fmt_aval E v.
Proof. intros. apply (exact_intro _ _ _ _ _ _ _ wr_aval_ok (rd_aval_ok md)); auto. Qed.

(** @A(x = {(byte) -1, @A, void.class}) *)
Definition ex_annot : annot :=
  {| an_type := TRef [65]; an_vals := [([120], VArray [VByte (-1); VAnnotation (TRef [65]) []; VClass None])] |}.
Lemma ex_desc : wf_desc (TRef [65]).
Proof. split; [|ascii]. cbn. split; [apply wf_name; reflexivity|]. cbn. intuition lia. Qed.
Example C39_ex : wf_annot ex_annot /\
  exists bs p tbl, in_file wr_annot (wenv_class Debug (fun _ => None)) ex_annot bs p tbl /\
    bs = [0;1; 0;1; 0;2; 91; 0;3; 66;0;3; 64;0;1;0;0; 99;0;4].
Proof.
  split.
  - split; [apply ex_desc|]. split; [cbn; lia|]. split.
    + cbn. repeat constructor; auto.
    + repeat constructor; cbn; try ascii; try (unfold i8; lia); try (vm_compute; reflexivity); try apply ex_desc.
  - do 3 eexists. split; [|reflexivity].
    eapply in_file_intro; [reflexivity|reflexivity|reflexivity| |]; vm_compute; discriminate.
Qed.
Print Assumptions C39_annotation_roundtrip.
Print Assumptions C39_value_roundtrip.

(** C40: tag byte, then the index of an Integer entry holding [x]. *)
Theorem C40_constant_range : forall md p i x rest, 0 <= i < 65536 -> p i = Some (RInt x) ->
  let read t := rd_aval md p (t :: u2 i ++ rest) in
  (* B *) (if (-128 <=? x) && (x <=? 127) then read 66 = Ok (VByte x, rest) else read 66 = Err EInvalid) /\
  (* C *) (if (0 <=? x) && (x <=? 65535) then read 67 = Ok (VChar x, rest) else read 67 = Err EInvalid) /\
  (* S *) (if (-32768 <=? x) && (x <=? 32767) then read 83 = Ok (VShort x, rest) else read 83 = Err EInvalid) /\
  (* Z *) (if x =? 0 then read 90 = Ok (VBoolean false, rest)
           else if x =? 1 then read 90 = Ok (VBoolean true, rest) else read 90 = Err EInvalid) /\
  (* I *) read 73 = Ok (VInt x, rest).
Proof.
  intros md p i x rest Hi Hp read.
  assert (HC : rd_cint p (u2 i ++ rest) = Ok (x, rest)).
  { unfold rd_cint, rd_idx', rd_idx. rewrite (rd_u16_u2 i rest) by exact Hi. cbn [bind]. unfold read_int. rewrite Hp. reflexivity. }
  subst read. cbv beta. unfold rd_aval. cbn [length rd_aval_n].
  rewrite !rd_u8_c by lia. cbn [bind Z.eqb Pos.eqb]. rewrite HC. cbn [bind]. unfold in_range.
  repeat split; try (destruct (_ && _); reflexivity).
  destruct (x =? 0) eqn:E0; [apply Z.eqb_eq in E0; subst; reflexivity|]. destruct (x =? 1); reflexivity.
Qed.
Example C40_ex :
  rd_aval Debug (fun i => if i =? 7 then Some (RInt 128) else None) [66; 0; 7] = Err EInvalid /\
  rd_aval Debug (fun i => if i =? 7 then Some (RInt 128) else None) [67; 0; 7] = Ok (VChar 128, []).
Proof. split; reflexivity. Qed.
Print Assumptions C40_constant_range.

(** C41: classes, methods and fields (the targets inside code, which depend on
    labels, are in CodeProps). *)
Theorem C41_class_type_annotation : forall md E a, wf_tannot wf_class_target a ->
  exact (wr_tannot (wr_plain wr_class_target)) (rd_tannot rd_class_target md)
        (fmt_tannot (fmt_bytes class_target_bytes)) E a.
Proof.
  intros. apply (exact_intro _ _ _ _ _ _ _ (wr_tannot_ok _ _ _ wr_class_target_ok)
    (rd_tannot_ok md _ _ _ rd_class_target_ok)); auto.
Qed.
Theorem C41_method_type_annotation : forall md E a, wf_tannot wf_method_target a ->
  exact (wr_tannot (wr_plain wr_method_target)) (rd_tannot rd_method_target md)
        (fmt_tannot (fmt_bytes method_target_bytes)) E a.
Proof.
  intros. apply (exact_intro _ _ _ _ _ _ _ (wr_tannot_ok _ _ _ wr_method_target_ok)
    (rd_tannot_ok md _ _ _ rd_method_target_ok)); auto.
Qed.
Theorem C41_field_type_annotation : forall md E a, wf_tannot (fun _ => True) a ->
  exact (wr_tannot (wr_plain wr_field_target)) (rd_tannot rd_field_target md)
        (fmt_tannot (fmt_bytes field_target_bytes)) E a.
Proof.
  intros. apply (exact_intro _ _ _ _ _ _ _ (wr_tannot_ok _ _ _ wr_field_target_ok)
    (rd_tannot_ok md _ _ _ rd_field_target_ok)); auto.
Qed.
Example C41_ex :
  let a := {| ta_target := MtBound 1 2; ta_path := [PArray 0; PArgument 3]; ta_type := TRef [65]; ta_vals := [] |} in
  wf_tannot wf_method_target a /\
  exists bs p tbl, in_file (wr_tannot (wr_plain wr_method_target)) (wenv_class Release (fun _ => None)) a bs p tbl /\
    bs = [0x12; 1; 2; 2; 0; 0; 3; 3; 0; 1; 0; 0].
Proof.
  split.
  - repeat split; cbn; try (unfold u8; lia); try apply ex_desc; repeat constructor; cbn; unfold u8; lia.
  - do 3 eexists. split; [|reflexivity].
    eapply in_file_intro; [reflexivity|reflexivity|reflexivity| |]; vm_compute; discriminate.
Qed.
Print Assumptions C41_class_type_annotation.
Print Assumptions C41_method_type_annotation.
Print Assumptions C41_field_type_annotation.
(** A target of one kind is not accepted where another kind is read. *)
Theorem C41_targets_disjoint : forall rest,
  (forall t, wf_method_target t ->
     rd_class_target (method_target_bytes t ++ rest) = Err EInvalid /\
     rd_field_target (method_target_bytes t ++ rest) = Err EInvalid) /\
  (forall t, wf_class_target t ->
     rd_method_target (class_target_bytes t ++ rest) = Err EInvalid /\
     rd_field_target (class_target_bytes t ++ rest) = Err EInvalid) /\
  (forall t, rd_method_target (field_target_bytes t ++ rest) = Err EInvalid /\
     rd_class_target (field_target_bytes t ++ rest) = Err EInvalid).
Proof.
  intros rest. repeat split; try destruct t; unfold method_target_bytes, class_target_bytes, field_target_bytes;
    cbn [app]; unfold rd_class_target, rd_field_target, rd_method_target;
    rewrite rd_u8_c by lia; reflexivity.
Qed.
Example C41_disjoint_ex : wf_method_target (MtThrows 258) /\ method_target_bytes (MtThrows 258) = [23; 1; 2] /\
  rd_method_target [23; 1; 2; 9] = Ok (MtThrows 258, [9]) /\
  rd_class_target [23; 1; 2; 9] = Err EInvalid /\ rd_field_target [23; 1; 2; 9] = Err EInvalid.
Proof. split; [cbn; unfold u16; lia|repeat split; reflexivity]. Qed.
Print Assumptions C41_targets_disjoint.

(** * C18 *)
Lemma rd_times_length {A} (r : rd A) n : forall l xs l', rd_times n r l = Ok (xs, l') -> length xs = n.
Proof.
  induction n as [|n IH]; intros l xs l'; cbn [rd_times].
  - intros [= <- _]. reflexivity.
  - intros H. inv_bind H. destruct v as [a l1]. inv_bind H. destruct v as [ys l2].
    inversion H; subst. apply IH in E0. cbn. congruence.
Qed.
Lemma assoc_set_le {V} k (v : V) m : (length (assoc_set (list_eqb Z.eqb) k v m) <= S (length m))%nat.
Proof. induction m as [|[k' v'] m IH]; cbn; auto. destruct (list_eqb Z.eqb k k'); cbn; lia. Qed.
Lemma rd_pairs_length p r n : forall m l xs l', rd_pairs p r n m l = Ok (xs, l') ->
  (length xs <= length m + n)%nat.
Proof.
  induction n as [|n IH]; intros m l xs l'; cbn [rd_pairs].
  - intros [= <- _]. lia.
  - intros H. inv_bind H. destruct v as [k l1]. inv_bind H. destruct v as [v l2].
    apply IH in H. pose proof (assoc_set_le k v m). lia.
Qed.
Lemma rd_u16_len n l : rd_u16 (be 2 n ++ l) = Ok (n mod 65536, l).
Proof.
  rewrite <- be_mod, rd_u16_be; [reflexivity|]. unfold u16. change (256 ^ Z.of_nat 2) with 65536. lia.
Qed.

(** The count of an array value is truncated to 16 bits: an array with more
    than 65535 elements is written (in a release build) as something that does
    not read back as that array, whatever the pool and whatever follows. *)
Theorem C18_annotation_array_refuted : forall E vs w, we_md E = Release -> w_inv w ->
  Forall wf_aval vs -> 65535 < len vs ->
  exists bs w', wr_aval E (VArray vs) w = Ok (bs, w') /\
    forall md p rest rest', rd_aval md p (bs ++ rest) <> Ok (VArray vs, rest').
Proof.
  intros E vs w Hm Hi Hv Hl. cbn [wr_aval].
  pose proof (wr_each_ok _ _ _ wr_aval_ok E vs w Hv Hi) as H.
  destruct (wr_each wr_aval E vs w) as [[xb w2]| |]; cbn in H; [|tauto|destruct H; congruence].
  cbn [bind]. do 2 eexists. split; [reflexivity|]. intros md p rest rest' Hrd. unfold rd_aval in Hrd.
  rewrite be1_u1 in Hrd. cbn [rd_aval_n] in Hrd. rewrite <- !app_assoc, rd_u8_u1 in Hrd by (unfold u8; lia).
  cbn [bind Z.eqb Pos.eqb] in Hrd. rewrite rd_u16_len in Hrd. cbn [bind] in Hrd.
  inv_bind Hrd. destruct v as [ys l2]. inversion Hrd; subst. apply rd_times_length in E0. unfold len in *. lia.
Qed.
Theorem C18_annotation_map_refuted : forall E vs w, we_md E = Release -> w_inv w ->
  Forall (fun kv => jstr (fst kv) /\ wf_aval (snd kv)) vs -> 65535 < len vs ->
  exists bs w', wr_vals E vs w = Ok (bs, w') /\
    forall md p rest rest', rd_vals md p (bs ++ rest) <> Ok (vs, rest').
Proof.
  intros E vs w Hm Hi Hv Hl. unfold wr_vals, wr_vals_with.
  assert (HF : wr_ok (fun E (kv : list Z * aval) w => let (k, v) := kv in
                '(a, w) <- wr_cow E k w ;; '(b, w) <- wr_aval E v w ;; Ok (a ++ b, w))
               (fun _ kv => jstr (fst kv) /\ wf_aval (snd kv)) (fun _ _ _ => True)).
  { intros E' [k v] w' [Hk Hv'] Hi'. cbn [fst snd] in *.
    eapply post_bind; [apply wr_cow_ok; auto|]. cbn beta. intros x w1 Hl1 Hi1 _.
    eapply post_bind; [apply wr_aval_ok; auto|]. cbn beta. intros y w2 Hl2 Hi2 _. apply post_ret; auto.
    intros _ _ W _ _. exact I. }
  pose proof (wr_each_ok _ _ _ HF E vs w Hv Hi) as H.
  match goal with |- context [wr_each ?f ?a ?b ?c] => destruct (wr_each f a b c) as [[xb w2]| |] end;
    cbn in H; [|tauto|destruct H; congruence].
  cbn [bind]. do 2 eexists. split; [reflexivity|]. intros md p rest rest' Hrd. unfold rd_vals, rd_vals_with in Hrd.
  rewrite <- !app_assoc, rd_u16_len in Hrd. cbn [bind] in Hrd.
  apply rd_pairs_length in Hrd. cbn in Hrd. unfold len in *. lia.
Qed.
Example C18_annotation_ex :
  Forall wf_aval (repeat (VInt 7) (Z.to_nat 70000)) /\ 65535 < len (repeat (VInt 7) (Z.to_nat 70000)).
Proof.
  split.
  - apply Forall_forall. intros x Hx. apply repeat_spec in Hx. subst. constructor. unfold i32. lia.
  - unfold len. rewrite repeat_length. lia.
Qed.
Print Assumptions C18_annotation_array_refuted.
Print Assumptions C18_annotation_map_refuted.
