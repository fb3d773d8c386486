(** C92: what a file says and what it does not.  Two classes written to the same
    bytes should be the same class. *)
From Coq Require Import String.
From Verif Require Import Base BaseLemmas Wtf8Spec PrimModel TypeModel CpModel CpSpec FileSpec AnnModel AttrModel AttrSpec InsnModel InsnSpec CodeModel CodeSpec CodeRead CodeProps
  ClassModel ClassSpec ClassProofs ClassProps WriteSpec.
From Coq Require Import Lia.

(** What is left of an instruction in the file: nothing of a line number and of
    the creation of an array; a store to a static field is a load from it. *)
Definition kept (i : insn) : list insn :=
  match i with
  | ILineNumber _ | INewArray _ _ => []
  | IField GpPut MtStatic m => [IField GpGet MtStatic m]
  | _ => [i]
  end.
Definition kept_code (k : code) : code :=
  {| cd_stack := cd_stack k; cd_locals := cd_locals k; cd_code := flat_map kept (cd_code k); cd_catches := cd_catches k; cd_attrs := cd_attrs k |}.
Definition kept_mattr (a : mattr code) : mattr code := match a with MCode k => MCode (kept_code k) | _ => a end.
Definition kept_method (m : method code) : method code :=
  {| me_access := me_access m; me_name := me_name m; me_desc := me_desc m; me_attrs := map kept_mattr (me_attrs m) |}.
Definition kept_class (c : class) : class :=
  {| cl_version := cl_version c; cl_access := cl_access c; cl_name := cl_name c; cl_super := cl_super c; cl_itfs := cl_itfs c;
     cl_fields := cl_fields c; cl_methods := map kept_method (cl_methods c); cl_attrs := cl_attrs c |}.

Lemma write_kept E i is y w : write_insns E (kept i ++ is) y w = ('(y, w) <- write_insn E i y w ;; write_insns E is y w).
Proof.
  destruct i; try reflexivity.
  - (* array creation *) cbn [kept app]. cbn [write_insn emit bind]. rewrite app_nil_r. destruct y; reflexivity.
  - (* field *) match goal with |- context [IField ?a ?b _] => destruct a, b; reflexivity end.
Qed.
Lemma write_all_kept E is : forall y w, write_insns E (flat_map kept is) y w = write_insns E is y w.
Proof.
  induction is as [|i is IH]; intros y w; [reflexivity|]. cbn [flat_map]. rewrite write_kept. 
  change (write_insns E (i :: is) y w) with ('(y, w) <- write_insn E i y w ;; write_insns E is y w).
  destruct (write_insn E i y w) as [[y' w']| |]; cbn [bind]; auto.
Qed.
Lemma code_kept E k w : wr_code E (kept_code k) w = wr_code E k w.
Proof. unfold wr_code. cbn [kept_code cd_code cd_stack cd_locals cd_catches cd_attrs]. rewrite write_all_kept. reflexivity. Qed.
Lemma each_kept {A} (f : A -> A) (g : cwr A) E : (forall x w, g E (f x) w = g E x w) -> forall xs w, wr_each g E (map f xs) w = wr_each g E xs w.
Proof. intros H xs. induction xs as [|x xs IH]; intros w; [reflexivity|]. cbn [map wr_each]. rewrite H. destruct (g E x w) as [[b w']| |]; cbn [bind]; auto. rewrite IH. reflexivity. Qed.
Lemma cvec_kept {A} n (f : A -> A) (g : cwr A) E : (forall x w, g E (f x) w = g E x w) -> forall xs w, wr_cvec n g E (map f xs) w = wr_cvec n g E xs w.
Proof. intros H xs w. unfold wr_cvec. rewrite (each_kept f g E H). unfold len. rewrite map_length. reflexivity. Qed.
Lemma list16_kept {A} (f : A -> A) (g : cwr A) E : (forall x w, g E (f x) w = g E x w) -> forall xs w, wr_list16 g E (map f xs) w = wr_list16 g E xs w.
Proof. intros H xs w. unfold wr_list16. rewrite (each_kept f g E H). unfold len. rewrite map_length. reflexivity. Qed.
Lemma mattr_kept E a w : wr_mattr wr_code E (kept_mattr a) w = wr_mattr wr_code E a w.
Proof.
  destruct a; try reflexivity. cbn [kept_mattr wr_mattr]. unfold wr_attr.
  destruct (insert_wtf8 E (str "Code") w) as [[i w']| |]; cbn [bind]; auto. rewrite code_kept. reflexivity.
Qed.
Lemma method_kept E m w : wr_method wr_code E (kept_method m) w = wr_method wr_code E m w.
Proof.
  unfold wr_method, wr_via, wr_pair. cbn [kept_method me_access me_name me_desc me_attrs fst snd].
  destruct (wr_cflags E (me_access m) w) as [[? w1]| |]; cbn [bind]; auto. destruct (wr_cow E (me_name m) w1) as [[? w2]| |]; cbn [bind]; auto.
  destruct (wr_type E (me_desc m) w2) as [[? w3]| |]; cbn [bind]; auto. rewrite (cvec_kept 2 kept_mattr _ E (mattr_kept E)). reflexivity.
Qed.
Lemma members_kept E c w : wr_members E (kept_class c) w = wr_members E c w.
Proof.
  unfold wr_members, wr_via, wr_pair. cbn [kept_class cl_access cl_name cl_super cl_itfs cl_fields cl_methods cl_attrs fst snd].
  destruct (wr_cflags E (cl_access c) w) as [[? w1]| |]; cbn [bind]; auto. destruct (wr_idx insert_class E (cl_name c) w1) as [[? w2]| |]; cbn [bind]; auto.
  destruct (wr_opt (wr_idx insert_class) E (cl_super c) w2) as [[? w3]| |]; cbn [bind]; auto. destruct (wr_list16 (wr_idx insert_class) E (cl_itfs c) w3) as [[? w4]| |]; cbn [bind]; auto.
  destruct (wr_list16 wr_field E (cl_fields c) w4) as [[? w5]| |]; cbn [bind]; auto. rewrite (list16_kept kept_method _ E (method_kept E)). reflexivity.
Qed.

(** ** What is lost: whatever the class, however it is written *)
Theorem C92_refuted : forall fuel md heap c, wr_classfile fuel md heap (kept_class c) = wr_classfile fuel md heap c.
Proof.
  intros fuel md heap c. unfold wr_classfile, wr_body. rewrite members_kept. reflexivity.
Qed.
Print Assumptions C92_refuted.
(** A method with a line number, an array and a store to a static field: the
    file is that of a method which only loads from the field, and holds it. *)
Definition ex_store : class :=
  {| cl_version := {| minor := 0; maj := J8 |}; cl_access := 0x21; cl_name := [65]; cl_super := Some [66]; cl_itfs := []; cl_fields := [];
     cl_methods := [{| me_access := 9; me_name := [109]; me_desc := TMethod [] None;
       me_attrs := [MCode {| cd_stack := 1; cd_locals := 0; cd_catches := []; cd_attrs := [];
         cd_code := [ILineNumber 7; IPush (Stat (KI32 3)); INewArray (Stat TInt) 1;
           IField GpPut MtStatic (Stat {| m_owner := [65]; m_name := [120]; m_desc := TArray 1 TInt; m_itfs := false |}); IReturn None] |}] |}];
     cl_attrs := [] |}.
Example C92_refuted_ex : kept_class ex_store <> ex_store /\ exists out, (forall md, wr_classfile 0 md (fun _ => None) ex_store = Ok out) /\
  forall md, rd_classfile md out = Ok ((kept_class ex_store, []), []).
Proof.
  split; [discriminate|]. eexists. split; [intros []; vm_compute; reflexivity|]. intros []; vm_compute; reflexivity.
Qed.

(** ** What is not lost *)

(** Two bodies that are the same code up to the names of labels and cells: both
    are the same as a third. *)
Definition alike_mattr (heap1 heap2 : Z -> option bsm) (a1 a2 : mattr code) : Prop :=
  exists heap a, same_mattr heap1 heap a1 a /\ same_mattr heap2 heap a2 a.
Definition alike_method (heap1 heap2 : Z -> option bsm) (m1 m2 : method code) : Prop :=
  me_access m1 = me_access m2 /\ me_name m1 = me_name m2 /\ me_desc m1 = me_desc m2 /\ Forall2 (alike_mattr heap1 heap2) (me_attrs m1) (me_attrs m2).
Definition alike_class (heap1 heap2 : Z -> option bsm) (c1 c2 : class) : Prop :=
  cl_version c1 = cl_version c2 /\ cl_access c1 = cl_access c2 /\ cl_name c1 = cl_name c2 /\ cl_super c1 = cl_super c2 /\ cl_itfs c1 = cl_itfs c2 /\
  cl_fields c1 = cl_fields c2 /\ Forall2 (alike_method heap1 heap2) (cl_methods c1) (cl_methods c2) /\
  others (cl_attrs c1) = others (cl_attrs c2) /\ class_table heap1 c1 = class_table heap2 c2.
Lemma meet2 {A B} (P Q : A -> B -> Prop) (R : A -> A -> Prop) xs ys zs : (forall x y z, P x z -> Q y z -> R x y) ->
  Forall2 P xs zs -> Forall2 Q ys zs -> Forall2 R xs ys.
Proof.
  intros H H1. revert ys. induction H1 as [|x z xs zs Hx _ IH]; intros ys H2; inversion H2; subst; constructor; eauto.
Qed.
Lemma tail_table (a b : list cattr) (s t : list bsm) : Forall (fun x => is_table x = false) a -> Forall (fun x => is_table x = false) b ->
  a ++ match s with [] => [] | _ => [CBootstrap s] end = b ++ match t with [] => [] | _ => [CBootstrap t] end -> a = b /\ s = t.
Proof.
  intros Ha. revert b. induction Ha as [|x a Hx _ IH]; intros b Hb E.
  - destruct Hb as [|y b Hy Hb]; cbn [app] in E; [split; [reflexivity|]; destruct s, t; congruence|].
    destruct s; [discriminate|]. injection E as <- _. discriminate.
  - destruct Hb as [|y b Hy Hb]; cbn [app] in E; [destruct t; [discriminate|]; injection E as -> _; discriminate|].
    injection E as -> E. destruct (IH b Hb E) as [-> ->]. auto.
Qed.
Lemma others_not (l : list cattr) : Forall (fun x => is_table x = false) (others l).
Proof. apply Forall_forall. intros x Hx. apply filter_In in Hx as [_ Hx]. destruct (is_table x); [discriminate|reflexivity]. Qed.

Theorem C92_partial : forall fuel1 fuel2 md1 md2 heap1 heap2 c1 c2 out, (1 <= fuel1)%nat -> (1 <= fuel2)%nat ->
  wf_class heap1 c1 -> len (class_table heap1 c1) < 65536 -> count_ok heap1 c1 ->
  wf_class heap2 c2 -> len (class_table heap2 c2) < 65536 -> count_ok heap2 c2 ->
  wr_classfile fuel1 md1 heap1 c1 = Ok out -> md1 = Debug \/ pool_fits fuel1 md1 heap1 c1 ->
  wr_classfile fuel2 md2 heap2 c2 = Ok out -> md2 = Debug \/ pool_fits fuel2 md2 heap2 c2 -> len out < 4294967296 ->
  alike_class heap1 heap2 c1 c2.
Proof.
  intros fuel1 fuel2 md1 md2 heap1 heap2 c1 c2 out F1 F2 W1 L1 K1 W2 L2 K2 O1 P1 O2 P2 HS.
  destruct (proj2 (C61_roundtrip_partial _ _ _ _ F1 W1 L1 K1) _ O1 P1 HS Release []) as (c & h & HR & S1).
  destruct (proj2 (C61_roundtrip_partial _ _ _ _ F2 W2 L2 K2) _ O2 P2 HS Release []) as (c' & h' & HR' & S2).
  rewrite HR in HR'. injection HR' as <- <-.
  destruct S1 as (A1 & A2 & A3 & A4 & A5 & A6 & A7 & A8), S2 as (B1 & B2 & B3 & B4 & B5 & B6 & B7 & B8).
  rewrite A8 in B8. apply tail_table in B8 as [B8 B9]; try apply others_not.
  unfold alike_class. rewrite <- A1, <- A2, <- A3, <- A4, <- A5, <- A6. do 6 (split; [assumption|]). split; [|split; assumption].
  eapply meet2; [|exact A7|exact B7]. intros x y z (X1 & X2 & X3 & X4) (Y1 & Y2 & Y3 & Y4). unfold alike_method. rewrite <- X1, <- X2, <- X3.
  do 3 (split; [assumption|]). eapply meet2; [|exact X4|exact Y4]. intros a b d Ha Hb. exists (heap_of h), d. auto.
Qed.
Print Assumptions C92_partial.
(** An endless loop, under any name of the label. *)
Definition ex_loop (l : Z) : class :=
  {| cl_version := {| minor := 0; maj := J8 |}; cl_access := 0x21; cl_name := [65]; cl_super := Some [66]; cl_itfs := []; cl_fields := [];
     cl_methods := [{| me_access := 9; me_name := [109]; me_desc := TMethod [] None;
       me_attrs := [MCode {| cd_stack := 1; cd_locals := 0; cd_catches := []; cd_attrs := []; cd_code := [INoOp; ILabel l; IJump JcAlways l] |}] |}];
     cl_attrs := [] |}.
Example C92_ex : ex_loop 5 <> ex_loop 9 /\ (forall l, wf_class (fun _ => None) (ex_loop l) /\ count_ok (fun _ => None) (ex_loop l)) /\
  exists out, wr_classfile 1 Debug (fun _ => None) (ex_loop 5) = Ok out /\ wr_classfile 1 Debug (fun _ => None) (ex_loop 9) = Ok out /\ len out < 4294967296.
Proof.
  split; [discriminate|]. split; [|eexists; split; [vm_compute; reflexivity|split; vm_compute; reflexivity]].
  intros l. split; [|reflexivity]. unfold wf_class, ex_loop. cbn [cl_version cl_access cl_name cl_super cl_itfs cl_fields cl_methods cl_attrs minor].
  split; [unfold u16; lia|]. split; [split; [unfold u16; lia|reflexivity]|]. split; [ascii|]. split; [cbn; ascii|].
  split; [split; [cbn; lia|constructor]|]. split; [split; [cbn; lia|constructor]|]. split; [split; [cbn; lia|]|split; [split; [cbn; lia|constructor]|discriminate]].
  constructor; [|constructor]. split; [split; [cbn; unfold u16; lia|reflexivity]|]. split; [cbn; ascii|].
  split; [split; [cbn; repeat constructor|ascii]|]. split; [cbn; lia|]. constructor; [|constructor]. cbn [wf_mattr].
  assert (HT : Forall (fun i => incl (targets i) (labels_in [INoOp; ILabel l; IJump JcAlways l])) [INoOp; ILabel l; IJump JcAlways l]).
  { repeat (apply Forall_cons || apply Forall_nil); intros x Hx; cbn in *; tauto. }
  split; [|split; [apply in_range_small; [vm_compute; discriminate|exact HT]|split; repeat constructor; cbn; discriminate]].
  split; [cbn; unfold u16; lia|]. split; [cbn; unfold u16; lia|]. split; [|repeat split; constructor].
  split; [repeat constructor; cbn; intuition lia|]. rewrite Forall_forall in HT. apply Forall_forall. intros i Hi. specialize (HT i Hi).
  cbn in Hi. repeat destruct Hi as [<-|Hi]; try destruct Hi; cbn; repeat split; auto.
Qed.
