(** Writing classes: the two build profiles, and what can come of it. *)
From Coq Require Import Lia String.
From Verif Require Import Base BaseLemmas Wtf8Spec PrimModel TypeModel TypeSpec CpModel CpSpec FileSpec SigModel SigSpec AnnModel AttrModel FrameModel
  InsnModel InsnSpec CodeModel CodeSpec CodeUndef CodeProps ClassModel ClassSpec ClassProofs ClassProps ClassStable ClassCodeStable DebugSim WriteSim WriteSpec LaxProofs WriteKinds.

(** * C82: debug and release builds *)

(** What a debug build writes, or refuses with an error, a release build writes
    or refuses likewise; the one thing only a debug build does is to panic
    because of an integer overflow. *)
Theorem C82_profiles : forall fuel heap c,
  wr_classfile fuel Debug heap c = wr_classfile fuel Release heap c \/ wr_classfile fuel Debug heap c = Panic POverflow.
Proof. intros. apply w_classfile. Qed.
Corollary C82_written : forall fuel heap c out, wr_classfile fuel Debug heap c = Ok out -> wr_classfile fuel Release heap c = Ok out.
Proof. intros fuel heap c out H. destruct (C82_profiles fuel heap c) as [E|E]; congruence. Qed.
Example C82_written_ex : exists out, wr_classfile 1 Debug no_heap ex_tame_class = Ok out /\ len out = 410.
Proof. eexists. split; vm_compute; reflexivity. Qed.
Print Assumptions C82_profiles.
Print Assumptions C82_written.

(** They do differ: a switch without cases has its highest case computed as the
    number of cases minus one; the length of a variable that ends before it
    begins is negative.  A release build writes the numbers that remain. *)
Definition ex_no_cases : code := {| cd_stack := 1; cd_locals := 0; cd_code := [ILabel 7; ITableSwitch 7 0 []]; cd_catches := []; cd_attrs := [] |}.
Definition ex_backward : code := {| cd_stack := 1; cd_locals := 1; cd_code := [ILabel 7; IReturn None; ILabel 9]; cd_catches := [];
  cd_attrs := [KLocals [{| v_start := 9; v_end := 7; v_name := [120]; v_desc := Some TInt; v_sig := None; v_index := 0 |}]] |}.
Theorem C82_differ : Forall (fun k => wr_classfile 1 Debug no_heap (ex_with k) = Panic POverflow /\
  exists out, wr_classfile 1 Release no_heap (ex_with k) = Ok out) [ex_no_cases; ex_backward].
Proof. apply Forall_cons; [|apply Forall_cons; [|apply Forall_nil]]; (split; [vm_compute; reflexivity|eexists; vm_compute; reflexivity]). Qed.
Print Assumptions C82_differ.

(** * What writing can come to *)
Definition dangling (heap : Z -> option bsm) (c : class) : Prop := ~ (cells_set heap c /\ labels_defined c).
Lemma in_label l is : In (ILabel l) is \/ ~ In (ILabel l) is.
Proof.
  induction is as [|i is [IH|IH]]; cbn; auto. destruct i; try (right; intros [H|H]; [discriminate H|auto]; fail).
  destruct (Z.eq_dec l0 l) as [->|N]; auto. right. intros [H|H]; [congruence|auto].
Qed.
Lemma args_good heap c cell b : heap cell = Some b -> set_args heap (dangling heap c) b.
Proof.
  intros Hb. apply Forall_forall. intros [d|] Hd; [|exact I]. intros Hn [(_ & _ & H) _]. exact (H cell b Hb d Hd Hn).
Qed.
Lemma class_good heap c : t_class c -> good_class heap (dangling heap c) c.
Proof.
  intros H. split; [exact H|]. destruct H as (_ & _ & _ & _ & Hm & _). split.
  - rewrite Forall_forall in Hm. apply Forall_forall. intros m Hin. destruct (Hm m Hin) as (H1 & H2 & H3). split; auto. split; auto.
    rewrite Forall_forall in H3. apply Forall_forall. intros a Ha. split; auto. destruct a as [k| | | | | | | | | | | | |]; auto. split; [apply (H3 _ Ha)|]. split.
    + apply Forall_forall. intros d Hd Hn [(Hc & _) _]. refine (Hc d _ Hn). unfold class_dyns, method_dyns. apply in_flat_map. exists m. split; auto.
      apply in_flat_map. exists (MCode k). auto.
    + intros l Hl. destruct (in_label l (cd_code k)) as [Hi|Hi]; auto. right. intros [_ HL]. exact (Hi (HL m k l Hin Ha Hl)).
  - apply Forall_forall. intros b Hb. unfold initial_bsms in Hb. apply in_flat_map in Hb as (a & Ha & Hb). destruct a; try destruct Hb.
    apply Forall_forall. intros [d|] Hd; [|exact I]. intros Hn [(_ & H & _) _]. exact (H _ b Ha Hb d Hd Hn).
Qed.
Lemma written_ends md heap c (endless : Prop) fuel : t_class c -> t_heap heap ->
  endless \/ match fuel with O => class_table heap c = [] | S n => Forall (nested heap n) (class_table heap c) end ->
  quiet md (dangling heap c) endless bytes (wr_classfile fuel md heap c).
Proof. intros Hc Hh He. apply q_classfile; auto using class_good. intros. eapply args_good; eauto. Qed.

(** * C83 *)

(** Writing a class gives bytes, an error, or a panic: because of an overflow
    in a debug build, because of a cell that is not set or a label that is not
    defined, or because there is no end to the table (the model then runs out of
    fuel). *)
Theorem C83_kinds : forall fuel md heap c, t_class c -> t_heap heap ->
  match wr_classfile fuel md heap c with
  | Ok out => bytes out
  | Err e => e = EInvalid
  | Panic k => (k = POverflow /\ md = Debug) \/ (k = PUnwrap /\ ~ (cells_set heap c /\ labels_defined c)) \/ k = PFuel
  end.
Proof.
  intros fuel md heap c Hc Hh. pose proof (written_ends md heap c True fuel Hc Hh (or_introl I)) as H.
  destruct (wr_classfile fuel md heap c); cbn in H; [exact H|exact H|]. unfold allowed, dangling in H. tauto.
Qed.
Print Assumptions C83_kinds.

(** A release build does not panic if no cell and no label is missing, and the
    arguments of bootstrap methods are nested finitely. *)
Theorem C83_release : forall n fuel heap c, t_class c -> t_heap heap -> cells_set heap c -> labels_defined c ->
  Forall (nested heap n) (class_table heap c) -> (n < fuel)%nat ->
  (exists out, wr_classfile fuel Release heap c = Ok out /\ bytes out) \/ wr_classfile fuel Release heap c = Err EInvalid.
Proof.
  intros n fuel heap c Hc Hh H1 H2 Hn Hf.
  assert (HN : forall n m b, nested heap n b -> (n <= m)%nat -> nested heap m b).
  { clear. induction n as [|n IH]; intros m b H Hm.
    - destruct m as [|m]; auto. cbn in *. intros d b' Hd Hb. destruct (H d b' Hd Hb).
    - destruct m as [|m]; [lia|]. cbn in *. intros d b' Hd Hb. apply IH; [eapply H; eauto|lia]. }
  assert (HE : False \/ match fuel with O => class_table heap c = [] | S n => Forall (nested heap n) (class_table heap c) end).
  { right. destruct fuel as [|fuel]; [lia|]. eapply Forall_impl; [|exact Hn]. intros b Hb. eapply HN; [exact Hb|lia]. }
  pose proof (written_ends Release heap c False fuel Hc Hh HE) as H. destruct (wr_classfile fuel Release heap c) as [o|e|k]; cbn in H.
  - left. eauto.
  - right. congruence.
  - destruct H as [[_ H]|[[_ H]|[_ H]]]; [discriminate|exfalso; apply H; auto|destruct H].
Qed.
Lemma ex_nest_typed : t_class (ex_class 1 [CBootstrap []]) /\ t_heap ex_nest /\ cells_set ex_nest (ex_class 1 [CBootstrap []]) /\
  labels_defined (ex_class 1 [CBootstrap []]) /\ Forall (nested ex_nest 1) (class_table ex_nest (ex_class 1 [CBootstrap []])).
Proof.
  assert (HM : forall s, forallb (fun c => (1 <=? c) && (c <=? 127)) s = true -> lax s) by (intros; apply wf_lax, wf_name; assumption).
  assert (HN : forall s, forallb (fun c => (1 <=? c) && (c <=? 127)) s = true -> wf_wtf8 s) by exact wf_name.
  split; [|split; [|split; [|split]]].
  - split; [apply HM; reflexivity|]. split; [apply HM; reflexivity|]. split; [repeat constructor; first [apply HM|apply HN]; reflexivity|].
    split; [|split].
    + apply Forall_cons; [|apply Forall_nil]. split; [apply HM; reflexivity|]. split; [constructor|repeat constructor].
    + apply Forall_cons; [|apply Forall_nil]. split; [apply HM; reflexivity|]. split; [constructor|]. apply Forall_cons; [|apply Forall_nil].
      split; [|split; constructor]. apply Forall_cons; [|apply Forall_cons; [exact I|apply Forall_nil]]. cbn. split; [apply HM; reflexivity|repeat constructor; first [apply HM|apply HN]; reflexivity].
    + repeat constructor.
  - intros cell b H. unfold ex_nest in H. destruct (cell =? 3); [|destruct (cell =? 4); [|discriminate]]; injection H as <-.
    + split; [split; [apply HM; reflexivity|split; [apply HM; reflexivity|repeat constructor; first [apply HM|apply HN]; reflexivity]]|].
      repeat constructor; cbn; try (first [apply HM|apply HN]; reflexivity).
    + split; [split; [apply HM; reflexivity|split; [apply HM; reflexivity|repeat constructor; first [apply HM|apply HN]; reflexivity]]|constructor].
  - split; [|split].
    + intros d [<-|[]]. discriminate.
    + intros l b [H|[]] Hb. injection H as <-. destruct Hb.
    + intros cell b H d Hd. unfold ex_nest in H. destruct (cell =? 3); [|destruct (cell =? 4); [|discriminate]]; injection H as <-; cbn in Hd; [|destruct Hd].
      destruct Hd as [Hd|[]]. injection Hd as <-. discriminate.
  - intros m k l [<-|[]] [H|[]] Hl. injection H as <-. destruct Hl.
  - apply Forall_cons; [|apply Forall_nil]. cbn. intros d b' [H|[]] Hb. injection H as <-. injection Hb as <-. cbn. intros d b' [].
Qed.
Example C83_ex : t_class (ex_class 1 [CBootstrap []]) /\ t_heap ex_nest /\ cells_set ex_nest (ex_class 1 [CBootstrap []]) /\
  labels_defined (ex_class 1 [CBootstrap []]) /\ Forall (nested ex_nest 1) (class_table ex_nest (ex_class 1 [CBootstrap []])) /\
  exists out, wr_classfile 2 Release ex_nest (ex_class 1 [CBootstrap []]) = Ok out.
Proof. destruct ex_nest_typed as (H1 & H2 & H3 & H4 & H5). do 5 (split; [assumption|]). eexists. vm_compute. reflexivity. Qed.
Print Assumptions C83_release.

(** Each of the panics happens, and the error does. *)
Definition ex_loose : code := {| cd_stack := 1; cd_locals := 1; cd_code := [IReturn None]; cd_catches := [ex_catch]; cd_attrs := [] |}.
Theorem C83_each : forall md,
  wr_classfile 1 md no_heap (ex_class 1 []) = Panic PUnwrap /\
  wr_classfile 1 md no_heap (ex_with ex_loose) = Panic PUnwrap /\
  wr_classfile 1 md no_heap (ex_with {| cd_stack := 1; cd_locals := 1; cd_code := [IJump JcAlways 7]; cd_catches := []; cd_attrs := [] |}) = Err EInvalid /\
  wr_classfile 1 Debug no_heap (ex_with ex_no_cases) = Panic POverflow.
Proof. intros []; repeat (split; [vm_compute; reflexivity|]); vm_compute; reflexivity. Qed.
Print Assumptions C83_each.

(** * C72: the table comes to an end exactly if the arguments are nested finitely *)
Theorem C72_nesting : forall n md heap c, t_class c -> t_heap heap ->
  (Forall (nested heap n) (class_table heap c) -> wr_classfile (S n) md heap c <> Panic PFuel) /\
  (forall out, wr_classfile (S n) md heap c = Ok out -> Forall (nested heap n) (class_table heap c)).
Proof.
  intros n md heap c Hc Hh. split.
  - intros Hn H. pose proof (written_ends md heap c False (S n) Hc Hh (or_intror Hn)) as HQ. rewrite H in HQ. cbn in HQ.
    destruct HQ as [[H1 _]|[[H1 _]|[_ H1]]]; [discriminate|discriminate|destruct H1].
  - intros out H. eapply file_nested; eauto.
Qed.
Example C72_nesting_ex : t_class (ex_class 1 [CBootstrap []]) /\ t_heap ex_nest /\
  Forall (nested ex_nest 1) (class_table ex_nest (ex_class 1 [CBootstrap []])) /\ ~ Forall (nested ex_nest 0) (class_table ex_nest (ex_class 1 [CBootstrap []])) /\
  wr_classfile 1 Release ex_nest (ex_class 1 [CBootstrap []]) = Panic PFuel.
Proof.
  destruct ex_nest_typed as (H1 & H2 & _ & _ & H5). do 3 (split; [assumption|]). split; [|vm_compute; reflexivity].
  intros H. inversion H as [|? ? H6 _]; subst. exact (H6 _ ex_inner (or_introl eq_refl) eq_refl).
Qed.
Print Assumptions C72_nesting.

(** * C64: what is written is bytes if the class is one that can be built in Rust *)
Corollary C64_code_typed_partial : forall fuel md c out, (1 <= fuel)%nat ->
  wf_class no_heap c -> t_class c -> tame_class c -> len (class_table no_heap c) < 65536 -> count_ok no_heap c ->
  wr_classfile fuel md no_heap c = Ok out -> md = Debug \/ pool_fits fuel md no_heap c -> len out < 4294967296 ->
  forall md', exists c', rd_classfile md' out = Ok ((c', []), []) /\ wr_classfile fuel md (heap_of []) c' = Ok out /\
  forall n, Nat.iter n (fun r => l <- r ;; rewrite_file fuel md md' l) (Ok out) = Ok out.
Proof.
  intros fuel md c out Hf Hw Ht Hk Hl Hc Ho Hp Hs. apply (C64_code_stable_partial fuel md c out); auto.
  assert (Hh : t_heap no_heap) by (intros cell b H; discriminate H). pose proof (C83_kinds fuel md no_heap c Ht Hh) as H. rewrite Ho in H. exact H.
Qed.
Example C64_code_typed_ex : t_class ex_tame_class.
Proof.
  assert (HM : forall s, forallb (fun c => (1 <=? c) && (c <=? 127)) s = true -> lax s) by (intros; apply wf_lax, wf_name; assumption).
  assert (HN : forall s, forallb (fun c => (1 <=? c) && (c <=? 127)) s = true -> wf_wtf8 s) by exact wf_name.
  split; [apply HM; reflexivity|]. split; [apply HM; reflexivity|]. split; [repeat constructor; first [apply HM|apply HN]; reflexivity|]. split; [|split].
  - apply Forall_cons; [|apply Forall_nil]. split; [apply HM; reflexivity|]. split; [constructor|repeat constructor].
  - apply Forall_cons; [|apply Forall_nil]. split; [apply HM; reflexivity|]. split; [constructor|]. apply Forall_cons; [|apply Forall_cons; [exact I|apply Forall_nil]].
    split; [|split].
    + repeat constructor.
    + apply Forall_cons; [|apply Forall_nil]. apply HM. reflexivity.
    + apply Forall_cons; [|apply Forall_cons; [|apply Forall_cons; [|apply Forall_nil]]].
      * apply Forall_cons; [|apply Forall_nil]. split; [repeat constructor; first [apply HM|apply HN]; reflexivity|constructor].
      * split; [apply HM; reflexivity|]. repeat (apply Forall_cons; [unfold u8; lia|]). apply Forall_nil.
      * apply Forall_cons; [|apply Forall_nil]. split; [apply HM; reflexivity|]. split; [cbn; repeat constructor; first [apply HM|apply HN]; reflexivity|exact I].
  - apply Forall_cons; [|apply Forall_cons; [apply HM; reflexivity|apply Forall_nil]]. apply Forall_cons; [|apply Forall_nil].
    split; [split; [apply HM; reflexivity|split; [apply HM; reflexivity|repeat constructor; first [apply HM|apply HN]; reflexivity]]|constructor].
Qed.
Print Assumptions C64_code_typed_partial.
