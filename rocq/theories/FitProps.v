(** Signatures do not grow when they are parsed and shown again (C97); a file with
    proper texts is written again with texts that fit (C95). *)
From Coq Require Import String.
From Verif Require Import Base BaseLemmas Wtf8Spec Wtf8Model Wtf8Proofs Wtf8Proofs2 Wtf8Props MutfModel MutfProofs PrimModel PrimProofs TypeModel TypeSpec TypeProofs TypeProps CpModel CpSpec
  SigModel SigSpec SigProofs AnnModel AttrModel FrameModel InsnModel CodeModel CodeProofs ClassModel WriteSpec LaxProofs WriteKinds ReadText ReadTyped TidyProps FileSpec DrawnSpec DrawnProofs FitProofs DrawnProps PutSpec PutProofs PutProps.
From Coq Require Import Lia.

Lemma again_fits md l s b : bytes l -> proper_file md l -> put_again md l s -> string_to_modified_utf8 s = Ok b -> len b < 65536.
Proof.
  intros Hl HP HS HE. pose proof HP as [HV Hmd]. assert (HT : forall s, text_of l s -> jstr s) by (intros s0; apply text_jstr; auto).
  assert (HD : forall t, desc_of md l t -> proper_desc t).
  { intros t (s0 & H1 & H2). eapply parsed_proper; [apply HT, H1| |exact H2]. destruct Hmd as [Hmd|[_ Hmd]]; [left; exact Hmd|right; apply Hmd, H1]. }
  destruct HS as [s Hi|s Ht|t Ht|t s Ht Hd|g Hg|g Hg|g Hg].
  - revert b HE. pattern s. revert s Hi. apply Forall_forall. repeat (apply Forall_cons; [intros b E; vm_compute in E; injection E as <-; vm_compute; reflexivity|]). apply Forall_nil.
  - eapply jstr_fit; eauto.
  - eapply jstr_fit; [apply (HD t Ht)|exact HE].
  - destruct (HD t Ht) as [H1 H2]. eapply lossy_fit; [exact H2| |exact HE]. destruct (display_lossy t (loose_names t H1)) as (s1 & E1 & H3). congruence.
  - destruct Hg as (s & Hs & Hg). eapply jstr_fit; [eapply field_jstr; eauto|exact HE].
  - destruct Hg as (s & Hs & Hg). eapply jstr_fit; [eapply method_jstr; eauto|exact HE].
  - destruct Hg as (s & Hs & Hg). eapply jstr_fit; [eapply class_jstr; eauto|exact HE].
Qed.

(** ** A file with proper texts, read and written again: its texts are told

    As [C95_rewrite], without the hypothesis on lengths: what is shown again fits. *)
Theorem C95_rewrite_proper : forall fuel md md' l c h rest out, bytes l -> rd_classfile md l = Ok ((c, h), rest) -> proper_file md l ->
  wr_classfile fuel md' (heap_of h) c = Ok out ->
  forall x, In x (pool_texts out) -> exists s, put_again md l s /\ string_to_modified_utf8 s = Ok x.
Proof.
  intros fuel md md' l c h rest out Hl H HP HW. eapply C95_rewrite; [exact Hl|exact H| | |exact HW].
  - destruct HP as [_ [Hmd|[Hmd _]]]; [left|right]; exact Hmd.
  - intros s b. apply again_fits; auto.
Qed.
Example C95_rewrite_proper_ex : exists c h out, bytes ex_foreign /\ rd_classfile Debug ex_foreign = Ok ((c, h), []) /\ proper_file Debug ex_foreign /\
  wr_classfile 1 Release (heap_of h) c = Ok out /\ pool_texts out <> [].
Proof.
  do 3 eexists. split; [apply C94_ex|]. split; [vm_compute; reflexivity|]. split; [apply C94_proper_ex|]. split; [vm_compute; reflexivity|vm_compute; discriminate].
Qed.
Print Assumptions C95_rewrite_proper.

(** ** Signatures do not grow

    A signature that was parsed and is shown again is no longer than the part of
    the text that it was parsed from: in characters, in bytes of a Rust string,
    and in bytes of an entry of the constant pool. *)
Inductive size_of_text : (list Z -> Z) -> Prop :=
| in_chars : size_of_text (fun cps => len cps)
| in_utf8 : size_of_text (fun cps => len (flat_map utf8 cps))
| in_pool : size_of_text (fun cps => len (mutf8_of (flat_map utf16 cps))).
Definition no_longer {A} (q : sp A) (show : A -> list Z) : Prop :=
  forall size cps a rest, size_of_text size -> q cps = Ok (a, rest) -> size (show a) + size rest <= size cps.
Lemma size_weight size : size_of_text size -> exists wt, (forall c, 0 <= wt c) /\ wt 76 = wt 84 /\ forall cps, size cps = W wt cps.
Proof.
  intros [| |].
  - exists (fun _ => 1). split; [lia|]. split; [reflexivity|]. induction cps as [|c cps IH]; [reflexivity|]. rewrite W_cons, <- IH. unfold len. cbn [List.length]. lia.
  - exists (fun c => len (utf8 c)). split; [intros; apply len_nonneg|]. split; [reflexivity|]. induction cps as [|c cps IH]; [reflexivity|]. rewrite W_cons, <- IH. cbn [flat_map]. apply len_app.
  - exists wt. split; [apply wt_pos|]. split; [reflexivity|]. intros cps. symmetry. apply W_bytes.
Qed.
Theorem C97_no_longer : forall md, no_longer (p_rsig md) d_rsig /\ no_longer (p_method md) d_method /\ no_longer (p_classsig md) d_class.
Proof.
  intros md. split; [|split]; intros size cps a rest HS H; destruct (size_weight size HS) as (w & H1 & H2 & HW); rewrite !HW.
  - rewrite d_r. apply (s_rsig w H1 md _ _ _ H).
  - rewrite d_method_text. apply (s_method w H1 H2 md _ _ _ H).
  - rewrite d_class_text. apply (s_classsig w H1 md _ _ _ H).
Qed.
(** Empty brackets are dropped; a thrown variable is shown as a class; what
    follows is left. *)
Example C97_ex : exists a b,
  p_method Debug (str "<T:Ljava/lang/Object;>(Lp/A<>;[TT;)V^TE;rest") = Ok (a, str "rest") /\ d_method a = str "<T:Ljava/lang/Object;>(Lp/A;[TT;)V^LE;" /\
  p_classsig Release (str "<T::Lp/I<TT;>;>Lp/A<>.B<*>;Lp/I<+TT;>;") = Ok (b, []) /\ d_class b = str "<T::Lp/I<TT;>;>Lp/A.B<*>;Lp/I<+TT;>;".
Proof. do 2 eexists. vm_compute. repeat split. Qed.
Print Assumptions C97_no_longer.

(** ** How [Display] of a type differs from the descriptor: lone surrogates are
    replaced by U+FFFD, nothing else *)
Theorem C32_display_lossy : forall t, Forall wf_wtf8 (ty_names t) -> display_type t = to_string_lossy (type_to_wtf8 t).
Proof.
  intros t H. destruct (display_lossy t H) as (s & -> & cps & Hc & HE & ->). rewrite type_to_wtf8_text, HE, to_string_lossy_spec by auto. reflexivity.
Qed.
Example C32_lossy_ex : Forall wf_wtf8 (ty_names (TMethod [TArray 2 (TRef (utf8 0xD800))] (Some (TRef [65])))) /\
  display_type (TMethod [TArray 2 (TRef (utf8 0xD800))] (Some (TRef [65]))) = Ok [40; 91; 91; 76; 0xEF; 0xBF; 0xBD; 59; 41; 76; 65; 59].
Proof.
  split; [|reflexivity]. constructor; [|constructor; [|constructor]]; [exists [0xD800]|exists [65]]; (split; [split; [repeat constructor; unfold is_cp; lia|cbn; auto]|reflexivity]).
Qed.
Print Assumptions C32_display_lossy.

(** ** Descriptors do not grow either *)
Theorem C97_descriptor : forall md s t, wf_wtf8 s -> md = Debug \/ ~ long_run s -> parse_type md s = Ok t ->
  exists s', display_type t = Ok s' /\ len s' <= len s /\ len (type_to_wtf8 t) = len s'.
Proof.
  intros md s t Hs Hmd H. destruct (C29_accepts_prefix_partial _ _ _ Hs Hmd H) as [HL [r ->]]. destruct (display_lossy t (loose_names t HL)) as (s' & E & cps & Hc & HE & ->).
  eexists. split; [exact E|]. rewrite type_to_wtf8_text. assert (HN : len (flat_map utf8 (map replace_surrogate cps)) = len (ty_text t)).
  { rewrite HE. clear. induction cps as [|c cps IH]; [reflexivity|]. cbn [map flat_map]. rewrite !len_app, IH. f_equal.
    unfold replace_surrogate. destruct ((0xD800 <=? c) && (c <=? 0xDFFF)) eqn:E; [|reflexivity]. apply andb_prop in E as [E1 E2]. apply Z.leb_le in E1, E2.
    unfold utf8 at 2. replace (c <? 128) with false by (symmetry; apply Z.ltb_ge; lia). replace (c <? 2048) with false by (symmetry; apply Z.ltb_ge; lia). replace (c <? 65536) with true by (symmetry; apply Z.ltb_lt; lia). reflexivity. }
  split; [|lia]. rewrite HN, len_app. pose proof (len_nonneg r). lia.
Qed.
Example C97_descriptor_ex : exists t, parse_type Release ([40; 91; 91; 76] ++ utf8 0xD800 ++ [59; 41; 86; 88]) = Ok t /\
  display_type t = Ok [40; 91; 91; 76; 0xEF; 0xBF; 0xBD; 59; 41; 86].
Proof. eexists. split; reflexivity. Qed.
Print Assumptions C97_descriptor.
