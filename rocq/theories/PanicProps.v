(** Reading arbitrary bytes (C65) and the two build profiles (C73). *)
From Coq Require Import Lia String.
From Verif Require Import Base BaseLemmas Wtf8Model TypeModel SigModel PrimModel CpModel AnnModel AttrModel FrameModel InsnModel CodeModel ClassModel PanicProofs PanicCode DebugSim.

(** The panics left: the sum of two numbers (only with overflow checks), a line
    number at no instruction, a switch table of negative size. *)
Definition read_panic (md : mode) (k : pkind) : Prop :=
  (md = Debug /\ k = POverflow) \/ k = PIndex \/ k = PCapacity.

(** * C73 *)
Theorem C73_profiles : forall l, rd_classfile Debug l = rd_classfile Release l \/ rd_classfile Debug l = Panic POverflow.
Proof. exact sim_classfile. Qed.
Print Assumptions C73_profiles.
(** so a debug build accepts nothing a release build does not accept, with the same value *)
Theorem C73_accepted : forall l c h rest, rd_classfile Debug l = Ok ((c, h), rest) -> rd_classfile Release l = Ok ((c, h), rest).
Proof. intros l c h rest H. destruct (C73_profiles l) as [E|E]; congruence. Qed.
Print Assumptions C73_accepted.

(** * C65 *)
Theorem C65_partial : forall md l k, bytes l -> rd_classfile md l = Panic k -> read_panic md k.
Proof.
  intros md l k Hl H.
  assert (HR : rd_classfile Release l = Panic k -> k = PIndex \/ k = PCapacity).
  { intros E. pose proof (qb_classfile (S (List.length l)) l Hl (Nat.lt_succ_diag_r _)) as HQ. rewrite E in HQ. exact HQ. }
  destruct md; [|right; auto]. destruct (C73_profiles l) as [E|E]; [right; apply HR; congruence|left; split; congruence].
Qed.
Print Assumptions C65_partial.

(** A class with the constants "A", class A, "Code", the descriptor [d],
    "LineNumberTable"; its only method has the given code and, as attributes of
    the code, [attrs] (with their count in front). *)
Definition utf8 (s : list Z) : list Z := 1 :: be 2 (len s) ++ s.
Definition with_method (d code attrs : list Z) : list Z :=
  let body := [0; 1; 0; 1] ++ be 4 (len code) ++ code ++ [0; 0] ++ attrs in
  [202; 254; 186; 190; 0; 0; 0; 52; 0; 6] ++
  utf8 [65] ++ [7; 0; 1] ++ utf8 (str "Code") ++ utf8 d ++ utf8 (str "LineNumberTable") ++
  [0; 1; 0; 2; 0; 0; 0; 0; 0; 0; 0; 1; 0; 1; 0; 1; 0; 4; 0; 1; 0; 3] ++ be 4 (len body) ++ body ++ [0; 0].
(** nop, return; line 7 at offset [off] *)
Definition with_line (off : Z) : list Z :=
  with_method (str "()V") [0; 177] ([0; 1; 0; 5] ++ be 4 6 ++ [0; 1] ++ be 2 off ++ [0; 7]).
(** tableswitch from 0 to [high], no offsets *)
Definition with_switch (high : Z) : list Z :=
  with_method (str "()V") ([170; 0; 0; 0; 0; 0; 0; 0; 0; 0; 0; 0] ++ be 4 (high mod 4294967296)) [0; 0].
(** a method whose descriptor is an array of [n] dimensions *)
Definition with_dims (n : nat) : list Z := with_method (repeat 91 n ++ [73]) [177] [0; 0].

Definition is_bytes (l : list Z) : bool := forallb (fun x => (0 <=? x) && (x <? 256)) l.
Lemma is_bytes_ok l : is_bytes l = true -> bytes l.
Proof. intros H. apply Forall_forall. intros x Hx. apply (proj1 (forallb_forall _ _) H) in Hx. unfold u8. lia. Qed.

Theorem C65_line_refuted : forall md, bytes (with_line 3) /\ rd_classfile md (with_line 3) = Panic PIndex.
Proof. intros md. split; [apply is_bytes_ok; vm_compute; reflexivity|]. destruct md; vm_compute; reflexivity. Qed.
Print Assumptions C65_line_refuted.
Theorem C65_switch_refuted : forall md, bytes (with_switch (-2)) /\ rd_classfile md (with_switch (-2)) = Panic PCapacity.
Proof. intros md. split; [apply is_bytes_ok; vm_compute; reflexivity|]. destruct md; vm_compute; reflexivity. Qed.
Theorem C65_dimensions_refuted : bytes (with_dims 256) /\ rd_classfile Debug (with_dims 256) = Panic POverflow.
Proof. split; [apply is_bytes_ok; vm_compute; reflexivity|]. vm_compute; reflexivity. Qed.
Print Assumptions C65_switch_refuted.
Print Assumptions C65_dimensions_refuted.

(** What is panic-free is more than errors: these are read. *)
Example C65_ex : forall md, (exists v, rd_classfile md (with_line 1) = Ok (v, [])) /\ (exists v, rd_classfile md (with_dims 255) = Ok (v, [])).
Proof. intros md. split; (destruct md; eexists; vm_compute; reflexivity). Qed.
(** and the two profiles do differ where the debug build panics *)
Example C73_ex : rd_classfile Debug (with_dims 256) = Panic POverflow /\ exists v, rd_classfile Release (with_dims 256) = Ok (v, []).
Proof. split; [vm_compute; reflexivity|]. eexists. vm_compute. reflexivity. Qed.
