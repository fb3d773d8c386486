(** What comes of writing a class that was read from a file. *)
From Coq Require Import Lia String Relations.
From Verif Require Import Base BaseLemmas Wtf8Spec PrimModel TypeModel TypeSpec CpModel CpSpec FileSpec SigModel SigSpec AnnModel AttrModel FrameModel
  InsnModel InsnSpec CodeModel CodeSpec CodeProps ClassModel ClassSpec ClassProofs ClassProps ClassStable ClassCodeStable WriteSpec LaxProofs WriteKinds WriteProps
  ReadTyped.

(** * C87: what was read can be written *)

(** A class without a [BootstrapMethods] attribute. *)
Definition no_table (c : class) : Prop := forall t, ~ In (CBootstrap t) (cl_attrs c).
Lemma first_table_none attrs : first_table attrs = None <-> (forall t, ~ In (CBootstrap t) attrs).
Proof.
  split.
  - intros H t Ht. induction attrs as [|a attrs IH]; [exact Ht|]. destruct Ht as [->|Ht]; [discriminate|]. destruct a; try discriminate; auto.
  - intros H. destruct (first_table attrs) eqn:E; [|reflexivity]. apply first_table_in in E. destruct (H _ E).
Qed.

(** A file whose one method is [invokedynamic x:(I)J; return], with no
    [BootstrapMethods] attribute in the file.  (Entry 16 of the pool names
    bootstrap method 0.)  [ClassFile] is read (src/clazz.rs 46-55 looks at the
    dynamic constants only if there is such an attribute), and writing it
    unwraps the cell that was never filled. *)
Definition ex_orphan : list Z :=
  [202; 254; 186; 190; 0; 0; 0; 52; 0; 17;
   1; 0; 1; 65;  7; 0; 1;  1; 0; 1; 66;  7; 0; 3;  1; 0; 1; 67;  7; 0; 5;  1; 0; 1; 102;  1; 0; 1; 74;
   1; 0; 10; 68; 101; 112; 114; 101; 99; 97; 116; 101; 100;  1; 0; 1; 109;  1; 0; 3; 40; 41; 86;
   1; 0; 4; 67; 111; 100; 101;  1; 0; 1; 120;  1; 0; 4; 40; 73; 41; 74;  12; 0; 13; 0; 14;  18; 0; 0; 0; 15;
   0; 33; 0; 2; 0; 4; 0; 1; 0; 6;
   0; 1; 0; 1; 0; 7; 0; 8; 0; 1; 0; 9; 0; 0; 0; 0;
   0; 1; 0; 9; 0; 10; 0; 11; 0; 1; 0; 12; 0; 0; 0; 18; 0; 2; 0; 1; 0; 0; 0; 6; 186; 0; 16; 0; 0; 177; 0; 0; 0; 0;
   0; 0].
Theorem C87_refuted : exists c h, bytes ex_orphan /\ (forall md, rd_classfile md ex_orphan = Ok ((c, h), [])) /\
  (forall fuel md, wr_classfile fuel md (heap_of h) c = Panic PUnwrap).
Proof.
  do 2 eexists. split; [repeat constructor; unfold u8; lia|]. split; [intros []; vm_compute; reflexivity|].
  intros fuel []; vm_compute; reflexivity.
Qed.
Print Assumptions C87_refuted.

(** A debug build also panics for a file with a [tableswitch] without cases
    ([low = 0], [high = -1]). *)
Definition ex_caseless : list Z :=
  [202; 254; 186; 190; 0; 0; 0; 52; 0; 8;
   1; 0; 1; 65;  7; 0; 1;  1; 0; 1; 66;  7; 0; 3;  1; 0; 1; 109;  1; 0; 3; 40; 41; 86;  1; 0; 4; 67; 111; 100; 101;
   0; 33; 0; 2; 0; 4; 0; 0; 0; 0;
   0; 1; 0; 9; 0; 5; 0; 6; 0; 1; 0; 7; 0; 0; 0; 28; 0; 1; 0; 0; 0; 0; 0; 16;
   170; 0; 0; 0; 0; 0; 0; 0; 0; 0; 0; 0; 255; 255; 255; 255; 0; 0; 0; 0;
   0; 0].
Theorem C87_debug_refuted : exists c h, bytes ex_caseless /\ (forall md, rd_classfile md ex_caseless = Ok ((c, h), [])) /\
    (forall fuel, wr_classfile fuel Debug (heap_of h) c = Panic POverflow) /\
    (forall fuel, wr_classfile fuel Release (heap_of h) c = Ok ex_caseless).
Proof.
  do 2 eexists. split; [repeat constructor; unfold u8; lia|]. split; [intros []; vm_compute; reflexivity|].
  split; [intros fuel; vm_compute; reflexivity|intros fuel; vm_compute; reflexivity].
Qed.
Print Assumptions C87_debug_refuted.

(** What is read is of the right types: every string is one the writers take,
    every label that handlers, variables and annotations use is in the code,
    and every dynamic constant has its bootstrap method, if the file has a
    table of them. *)
Theorem C87_typed : forall md l c h rest, bytes l -> rd_classfile md l = Ok ((c, h), rest) ->
  t_class c /\ t_heap (heap_of h) /\ labels_defined c /\ (cells_set (heap_of h) c \/ (no_table c /\ class_dyns c <> [])).
Proof.
  intros md l c h rest Hl H. destruct (read_typed _ _ _ _ _ Hl H) as (H1 & H2 & H3 & H4 & H5). do 3 (split; [assumption|]).
  destruct (first_table (cl_attrs c)) eqn:E; [left; apply H4; discriminate|]. specialize (H5 eq_refl). pose proof (proj1 (first_table_none _) E) as HN.
  destruct (class_dyns c) eqn:ED; [left|right; split; [exact HN|discriminate]].
  split; [rewrite ED; intros d []|]. split; [intros t b Ht; destruct (HN _ Ht)|]. intros cell b Hb. rewrite H5 in Hb. discriminate.
Qed.
Print Assumptions C87_typed.

(** Whatever file was read, and in whichever profile: writing the class again
    gives a file or the error [Invalid], or it panics for one of three reasons. *)
Theorem C87_kinds_partial : forall md' l c h rest, bytes l -> rd_classfile md' l = Ok ((c, h), rest) ->
  forall fuel md, match wr_classfile fuel md (heap_of h) c with
  | Ok out => bytes out
  | Err e => e = EInvalid
  | Panic k => (k = POverflow /\ md = Debug) \/ (k = PUnwrap /\ no_table c /\ class_dyns c <> []) \/ k = PFuel
  end.
Proof.
  intros md' l c h rest Hl H fuel md. destruct (C87_typed _ _ _ _ _ Hl H) as (H1 & H2 & H3 & H4).
  pose proof (C83_kinds fuel md (heap_of h) c H1 H2) as HK. destruct (wr_classfile fuel md (heap_of h) c) as [o|e|k]; auto.
  destruct HK as [HK|[[HK HN]|HK]]; auto. destruct H4 as [H4|H4]; auto. destruct HN. auto.
Qed.
Print Assumptions C87_kinds_partial.

(** ** Bootstrap methods that depend on themselves *)
Definition depends (heap : Z -> option bsm) (b b' : bsm) : Prop := exists d, In (Dyn d) (b_args b) /\ heap (d_cell d) = Some b'.
Definition acyclic (heap : Z -> option bsm) : Prop := forall b, ~ clos_trans _ (depends heap) b b.
Lemma acyclic_nested heap : acyclic heap -> forall S b, (forall b', clos_trans _ (depends heap) b b' -> In b' S) -> nested heap (List.length S) b.
Proof.
  intros HA S. remember (List.length S) as n eqn:E. revert S E. induction n as [|n IH]; intros S E b Hb; cbn [nested]; intros d b' Hd Hd'.
  - destruct S; [|discriminate]. exact (Hb b' (t_step _ _ _ _ (ex_intro _ d (conj Hd Hd')))).
  - pose proof (t_step _ _ _ _ (ex_intro _ d (conj Hd Hd')) : clos_trans _ (depends heap) b b') as HD.
    destruct (in_split _ _ (Hb _ HD)) as (S1 & S2 & ->). apply (IH (S1 ++ S2)).
    + rewrite List.app_length in *. cbn [List.length] in E. lia.
    + intros x Hx. specialize (Hb x (t_trans _ _ _ _ _ HD Hx)). apply in_app_or in Hb as [Hb|[Hb|Hb]]; apply in_or_app; auto.
      subst x. destruct (HA _ Hx).
Qed.
Lemma trans_refl_trans {A} (R : A -> A -> Prop) x y : clos_trans _ R x y -> clos_refl_trans _ R x y.
Proof. induction 1; [apply rt_step; assumption|eapply rt_trans; eassumption]. Qed.
Lemma nested_acyclic heap n b b' : nested heap n b -> clos_refl_trans _ (depends heap) b b' -> ~ clos_trans _ (depends heap) b' b'.
Proof.
  intros Hn Hr Hc.
  assert (HR : forall x y, clos_refl_trans _ (depends heap) x y -> forall m, nested heap m x -> exists m', (m' <= m)%nat /\ nested heap m' y).
  { intros x y Hxy. apply clos_rt_rt1n in Hxy. induction Hxy as [|x y z (d & Hd & Hd') _ IH]; intros m Hm; [eauto|].
    destruct m as [|m]; cbn [nested] in Hm; specialize (Hm d y Hd Hd'); [destruct Hm|]. destruct (IH m Hm) as (m' & ? & ?). exists m'. split; [lia|assumption]. }
  assert (HT : forall x y, clos_trans _ (depends heap) x y -> forall m, nested heap m x -> exists m', (m' < m)%nat /\ nested heap m' y).
  { intros x y Hxy m Hm. apply clos_trans_t1n in Hxy. destruct Hxy as [y (d & Hd & Hd')|y z (d & Hd & Hd') Hyz].
    - destruct m as [|m]; cbn [nested] in Hm; specialize (Hm d y Hd Hd'); [destruct Hm|]. exists m. auto.
    - destruct m as [|m]; cbn [nested] in Hm; specialize (Hm d y Hd Hd'); [destruct Hm|].
      apply clos_t1n_trans, trans_refl_trans in Hyz. destruct (HR _ _ Hyz m Hm) as (m' & ? & ?). exists m'. split; [lia|assumption]. }
  destruct (HR _ _ Hr n Hn) as (m & _ & Hm). clear -HT Hc Hm. induction m as [m IH] using (well_founded_induction Wf_nat.lt_wf).
  destruct (HT _ _ Hc m Hm) as (m' & Hlt & Hm'). exact (IH m' Hlt Hm').
Qed.

(** A class with a table, read from any file whatever: unless a bootstrap
    method depends on itself, a release build writes it or refuses it with
    [Invalid]. *)
Theorem C87_release_partial : forall md l c h rest, bytes l -> rd_classfile md l = Ok ((c, h), rest) ->
  ~ (no_table c /\ class_dyns c <> []) -> acyclic (heap_of h) ->
  exists n, forall fuel, (n < fuel)%nat -> (exists out, wr_classfile fuel Release (heap_of h) c = Ok out /\ bytes out) \/
    wr_classfile fuel Release (heap_of h) c = Err EInvalid.
Proof.
  intros md l c h rest Hl H HT HA. destruct (C87_typed _ _ _ _ _ Hl H) as (H1 & H2 & H3 & [H4|H4]); [|destruct (HT H4)].
  assert (HS : exists S, forall cell b, heap_of h cell = Some b -> In b S).
  { clear. induction h as [|[a b] h [S IH]]; [exists []; discriminate|]. exists (b :: S). intros cell b' Hb. unfold heap_of in *. cbn [assoc] in Hb.
    destruct (_ =? _) in Hb; [injection Hb as ->; left; reflexivity|right; eauto]. }
  destruct HS as [S HS]. exists (List.length S). intros fuel Hf.
  pose proof (C87_kinds_partial _ _ _ _ _ Hl H fuel Release) as HK.
  destruct (C83_release (List.length S) fuel (heap_of h) c H1 H2 H4 H3) as [(o & E & HB)|E]; eauto.
  apply Forall_forall. intros b _. apply acyclic_nested; [exact HA|]. intros b' Hb'. apply clos_trans_tn1 in Hb'.
  destruct Hb' as [b' (d & _ & Hd)|y b' (d & _ & Hd) _]; eauto.
Qed.
Print Assumptions C87_release_partial.

(** If one that the class uses depends on itself, there is no end to it: a
    release build goes on for ever, if it does not refuse the class. *)
Theorem C87_endless : forall md' l c h rest b b', bytes l -> rd_classfile md' l = Ok ((c, h), rest) ->
  In b (class_table (heap_of h) c) -> clos_refl_trans _ (depends (heap_of h)) b b' -> clos_trans _ (depends (heap_of h)) b' b' ->
  forall fuel, (1 <= fuel)%nat -> (forall md out, wr_classfile fuel md (heap_of h) c <> Ok out) /\
    (wr_classfile fuel Release (heap_of h) c = Panic PFuel \/ wr_classfile fuel Release (heap_of h) c = Err EInvalid).
Proof.
  intros md' l c h rest b b' Hl H Hb Hr Hc fuel Hf. destruct (C87_typed _ _ _ _ _ Hl H) as (H1 & H2 & _).
  assert (HF : forall md out, wr_classfile fuel md (heap_of h) c <> Ok out).
  { intros md out Ho. destruct fuel as [|n]; [lia|]. apply (proj2 (C72_nesting n md (heap_of h) c H1 H2)) in Ho.
    rewrite Forall_forall in Ho. exact (nested_acyclic _ _ _ _ (Ho _ Hb) Hr Hc). }
  split; [exact HF|]. pose proof (C87_kinds_partial _ _ _ _ _ Hl H fuel Release) as HK. specialize (HF Release).
  destruct (wr_classfile fuel Release (heap_of h) c) as [o|e|k]; [destruct (HF _ eq_refl)|right; congruence|].
  destruct HK as [[_ HK]|[(_ & HN & _)|HK]]; [discriminate| |subst k; auto]. exfalso.
  destruct (read_typed _ _ _ _ _ Hl H) as (_ & _ & _ & _ & H5). specialize (H5 (proj2 (first_table_none _) HN)).
  apply clos_trans_t1n in Hc. destruct Hc as [y (d & _ & Hd)|y z (d & _ & Hd) _]; rewrite H5 in Hd; discriminate.
Qed.
Print Assumptions C87_endless.

(** Both cases occur: [ex_nest]'s file depends on itself (C63, C72); the file
    of a class with one dynamic constant does not, and is written again. *)
Definition ex_cell (cell : Z) : option bsm := if cell =? 3 then Some ex_inner else None.
Example C87_release_ex : exists l c h out, bytes l /\ wr_classfile 2 Release ex_cell (ex_class 1 [CBootstrap []]) = Ok l /\
  rd_classfile Release l = Ok ((c, h), []) /\ class_dyns c <> [] /\ ~ no_table c /\ acyclic (heap_of h) /\
  wr_classfile 2 Release (heap_of h) c = Ok out.
Proof.
  do 4 eexists. match goal with |- ?A /\ ?B /\ ?C => cut (B /\ A /\ C); [intros (? & ? & ?); auto|] end.
  split; [vm_compute; reflexivity|]. split; [repeat constructor; unfold u8; lia|].
  split; [vm_compute; reflexivity|]. split; [discriminate|]. split; [intros HN; eapply HN; cbn; left; reflexivity|]. split; [|vm_compute; reflexivity].
  intros b Hb. apply clos_trans_t1n in Hb.
  match type of Hb with clos_trans_1n _ ?R _ _ => assert (HD : forall x y z, R x y -> ~ R y z) end.
  { intros x y z (d & _ & Hd) (d' & Hd' & _). revert Hd. unfold heap_of. cbn [assoc]. destruct (_ =? _); [|discriminate]. intros [= <-]. exact Hd'. }
  inversion Hb as [? H1|y ? H1 Hy]; subst; [exact (HD _ _ _ H1 H1)|]. inversion Hy as [? H2|? ? H2 _]; subst; exact (HD _ _ _ H1 H2).
Qed.
Example C87_endless_ex : exists l c h b, bytes l /\ (forall md, wr_classfile 2 md ex_nest (ex_class 1 [CBootstrap []]) = Ok l) /\
  rd_classfile Release l = Ok ((c, h), []) /\ In b (class_table (heap_of h) c) /\ clos_trans _ (depends (heap_of h)) b b.
Proof.
  do 4 eexists. match goal with |- ?A /\ ?B /\ ?C => cut (B /\ A /\ C); [intros (? & ? & ?); auto|] end.
  split; [intros []; vm_compute; reflexivity|]. split; [repeat constructor; unfold u8; lia|].
  split; [vm_compute; reflexivity|]. split; [cbn; left; reflexivity|]. apply t_step. eexists. split; [left; reflexivity|vm_compute; reflexivity].
Qed.
