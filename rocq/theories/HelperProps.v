(** The instruction constructors named after mnemonics, src/code/structure.rs
    327-376: C80. *)
From Coq Require Import String.
From Verif Require Import Base BaseLemmas PrimModel PrimProofs TypeModel CpModel InsnModel InsnSpec CodeModel InsnProofs InsnProps.

(** structure.rs 328-336 *)
Definition i_getstatic (r : ordyn member) : insn := IField GpGet MtStatic r.
Definition i_invokevirtual (r : ordyn member) : insn := IInvokeExact MtVirtual r.
Definition i_invokestatic (r : ordyn member) : insn := IInvokeExact MtStatic r.
(** structure.rs 337-342 *)
Definition i_store (t : lty) (i : Z) : insn := ILocalVariable LsStore t i.
Definition i_load (t : lty) (i : Z) : insn := ILocalVariable LsLoad t i.
(** structure.rs 343-360 *)
Definition i_iop (o : iop) : insn := IIntOperation ItInt o.
Definition i_iadd : insn := i_iop IoAdd.
Definition i_isub : insn := i_iop IoSubtract.
Definition i_irem : insn := i_iop IoRemainder.
Definition i_imul : insn := i_iop IoMultiply.
Definition i_ineg : insn := i_iop IoNegate.
(** structure.rs 361-375 *)
Definition i_ifeq (l : Z) : insn := IJump JcIntegerEqualsZero l.
Definition i_if_icmpeq (l : Z) : insn := IJump JcIntegerEquals l.
Definition i_if_icmpne (l : Z) : insn := IJump JcIntegerNotEquals l.
Definition i_if_icmple (l : Z) : insn := IJump JcIntegerLessThanOrEquals l.
Definition i_if_icmpgt (l : Z) : insn := IJump JcIntegerGreaterThan l.

Definition opcode (op : Z) (m : string) : Prop := 0 <= op /\ nth_error mnemonics (Z.to_nat op) = Some m.

Definition op_num (m : string) : Z := index_of (plain_name m) mnemonics 0.
Ltac op_of := match goal with |- exists op, opcode op ?m /\ _ =>
  let n := eval vm_compute in (op_num m) in exists n; split; [split; [lia|reflexivity]|] end.

Lemma be1 x : 0 <= x < 256 -> be 1 x = [x].
Proof. intros H. cbn [be]. change (256 ^ Z.of_nat 0) with 1. rewrite Z.div_1_r, Z.mod_small by lia. reflexivity. Qed.

(** C80: the arithmetic instructions. *)
Theorem C80_arithmetic : forall m i,
  In (m, i) [("iadd", i_iadd); ("isub", i_isub); ("irem", i_irem); ("imul", i_imul); ("ineg", i_ineg)]%string ->
  exists op, opcode op m /\ (forall E w, emit E i w = Ok ([op], w)) /\
    forall md p pos s rest, rd_insn_at md p pos s (op :: rest) = Ok ((i, s), rest).
Proof.
  cbn [In]. intros m i H. repeat destruct H as [[= <- <-]|H]; try tauto; op_of;
    (split; [reflexivity|intros md p pos s rest; rewrite rd_insn_plain by lia; reflexivity]).
Qed.
(** C80: members: opcode and index of the member in the pool. *)
Theorem C80_members : forall m f,
  In (m, f) [("getstatic", i_getstatic); ("invokevirtual", i_invokevirtual); ("invokestatic", i_invokestatic)]%string ->
  exists op, opcode op m /\
    (forall E r w bs w', emit E (f r) w = Ok (bs, w') ->
       exists i, insert_ordynamic insert_member E r w = Ok (i, w') /\ bs = op :: be 2 i) /\
    forall md p pos s s' i r rest, u16 i -> conv_member md p i s = Ok (r, s') ->
      rd_insn_at md p pos s (op :: be 2 i ++ rest) = Ok ((f r, s'), rest).
Proof.
  cbn [In]. intros m f H. repeat destruct H as [[= <- <-]|H]; try tauto; op_of; (split;
    [intros E r w bs w' He; cbn [emit i_getstatic i_invokevirtual i_invokestatic] in He; unfold emit_idx in He;
     inv_bind He; destruct v as [i w1]; injection He as <- <-; exists i; split; [exact E0|reflexivity]
    |intros md p pos s s' i r rest Hi Hc; rewrite rd_insn_plain by lia; cbn [rd_raw_op]; rewrite rd_u16_be by exact Hi; cbn [bind conv]; rewrite Hc; reflexivity]).
Qed.
(** C80: local variables: the opcode of the type, with [wide] from 256 on. *)
Definition letter (t : lty) : string :=
  match t with LtInt => "i" | LtLong => "l" | LtFloat => "f" | LtDouble => "d" | LtReference => "a" end.
Theorem C80_locals : forall m f t,
  In (m, f) [("load", i_load); ("store", i_store)]%string ->
  exists op, opcode op (letter t ++ m) /\
    forall E i w, u16 i -> emit E (f t i) w = Ok (if i <? 256 then [op; i] else 196 :: op :: be 2 i, w).
Proof.
  cbn [In]. intros m f t H. repeat destruct H as [[= <- <-]|H]; try tauto; destruct t; cbn [letter]; op_of;
    (intros E i w Hi; unfold u16 in Hi; cbn [emit i_load i_store]; unfold wide_or_normal; cbn [load_op];
     destruct (i <? 256) eqn:Hlt;
     [assert ((0 <=? i) && (i <=? 255) = true) as -> by lia; rewrite (be1 i) by lia; reflexivity
     |assert ((0 <=? i) && (i <=? 255) = false) as -> by lia; reflexivity]).
Qed.
(** C80: jumps: the opcode and the offset if it fits. *)
Theorem C80_jumps : forall m f,
  In (m, f) [("ifeq", i_ifeq); ("if_icmpeq", i_if_icmpeq); ("if_icmpne", i_if_icmpne); ("if_icmple", i_if_icmple); ("if_icmpgt", i_if_icmpgt)]%string ->
  exists op, opcode op m /\
    (forall md labels ends idx size l bs, emit_jump md labels ends idx size (f l) = Ok bs ->
       exists o, resolve md labels ends idx size l = Ok o /\ (fits_i16 o = true -> bs = op :: be 2 o)) /\
    forall md p pos s o rest, i16 o -> rd_insn_at md p pos s (op :: be 2 o ++ rest) =
      let (l, s') := lbl_at pos o s in Ok ((f l, s'), rest).
Proof.
  cbn [In]. intros m f H. repeat destruct H as [[= <- <-]|H]; try tauto; op_of; (split;
    [intros md labels ends idx size l bs He; cbn [emit_jump i_ifeq i_if_icmpeq i_if_icmpne i_if_icmple i_if_icmpgt] in He; inv_bind He; exists v; split; [exact E|];
     intros Hf; rewrite Hf in He; injection He as <-; reflexivity
    |intros md p pos s o rest Ho; rewrite rd_insn_plain by lia; cbn [rd_raw_op]; rewrite rd_i16_be by exact Ho; cbn [bind conv]; destruct (lbl_at pos o s); reflexivity]).
Qed.

Example C80_ex : opcode 96 "iadd" /\ opcode 178 "getstatic" /\ opcode 54 "istore" /\ opcode 161 "if_icmplt".
Proof. repeat split; lia. Qed.
(** A jump 300 bytes forward, written and read. *)
Example C80_jump_ex :
  emit_jump Debug [(7, (1, 297))] [3] 3 3 (i_if_icmple 7) = Ok (164 :: be 2 300) /\
  rd_insn_at Debug (fun _ => None) 0 {| FrameModel.k_refs := {| r_refs := []; r_next := 0 |}; FrameModel.k_labels := []; FrameModel.k_catches := [] |} (164 :: be 2 300)
  = let (l, s) := lbl_at 0 300 {| FrameModel.k_refs := {| r_refs := []; r_next := 0 |}; FrameModel.k_labels := []; FrameModel.k_catches := [] |} in Ok ((i_if_icmple l, s), []).
Proof. split; vm_compute; reflexivity. Qed.
Print Assumptions C80_arithmetic.
Print Assumptions C80_members.
Print Assumptions C80_locals.
Print Assumptions C80_jumps.
