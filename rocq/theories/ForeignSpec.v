(** Code attributes as compilers write them: with tables of line numbers and
    stack maps between the other attributes, tables of variables split and
    ordered in any way. *)
From Coq Require Import String Permutation.
From Verif Require Import Base Wtf8Spec PrimModel TypeModel TypeSpec CpModel CpSpec SigModel SigSpec AnnModel AnnSpec AttrModel AttrSpec
  FrameModel FrameSpec InsnModel InsnSpec CodeModel CodeSpec.

(** The last value for a key. *)
Definition last_for (k : Z) (t : list (Z * Z)) : option Z :=
  match filter (fun e => fst e =? k) (rev t) with e :: _ => Some (snd e) | [] => None end.

(** The line numbers in a list of instructions, each with the number of
    instructions in front of it. *)
Fixpoint line_places (n : Z) (is : list insn) : list (Z * Z) :=
  match is with
  | [] => []
  | ILineNumber x :: is => (n, x) :: line_places n is
  | i :: is => line_places (if realb i then n + 1 else n) is
  end.
(** The line of the [n]-th instruction, as a debugger sees it. *)
Definition line_of (n : Z) (is : list insn) : option Z := last_for n (line_places 0 is).

(** Well-formed code, of any instructions: labels are distinct; operands,
    handlers and attributes are well-formed. *)
Definition wf_any_code (E : wenv) (c : code) : Prop :=
  NoDup (labels_in (cd_code c)) /\ Forall (wf_insn (we_heap E)) (cd_code c) /\
  Forall (wf_catch (cd_code c)) (cd_catches c) /\ Forall (wf_kattr E c) (cd_attrs c).

(** What the attributes of the file say. *)
Definition line_rows (fs : list fcattr) : list (Z * Z) := flat_map (fun f => match f with CaLines t => t | _ => [] end) fs.
Definition desc_rows (fs : list fcattr) : list (lvrow ty) := flat_map (fun f => match f with CaLocals t => t | _ => [] end) fs.
Definition sig_rows (fs : list fcattr) : list (lvrow rsig) := flat_map (fun f => match f with CaLocalTypes t => t | _ => [] end) fs.
Definition frame_rows (fs : list fcattr) : list frame := flat_map (fun f => match f with CaFrames t => t | _ => [] end) fs.
Definition other_rows (fs : list fcattr) : list kattr :=
  flat_map (fun f => match f with CaVisible l => [KVisible l] | CaInvisible l => [KInvisible l] | CaRaw r => [KRaw r] | _ => [] end) fs.

(** Variables and other attributes are those of the code. *)
Definition tells (W : world) (c : code) (fs : list fcattr) : Prop :=
  other_rows fs = others_of (cd_attrs c) /\
  (exists us, Permutation (descs (locals_of (cd_attrs c))) us /\ Forall2 (row_for W) us (desc_rows fs)) /\
  (exists us, Permutation (sigs (locals_of (cd_attrs c))) us /\ Forall2 (row_for W) us (sig_rows fs)).
(** Line numbers are at instructions (or the end) and those of the code; stack
    maps are well-formed. *)
Definition fmt_code_lines (E : wenv) : fmt code := fun W c bs =>
  exists L K fs ps body, fmt_code_with enc W c L K fs ps body bs /\
    tells (in_code W L K) c fs /\ Forall (wf_frame (place_env E c)) (frame_rows fs) /\
    Forall (fun e => In (fst e) (ps ++ [len body])) (line_rows fs) /\
    forall n o, nth_error (ps ++ [len body]) n = Some o -> last_for o (line_rows fs) = line_of (Z.of_nat n) (cd_code c).
(** The same code, with the same line numbers; each instruction has at most one. *)
Definition code_rel_lines (D : dynamic -> dynamic -> Prop) (c c' : code) : Prop :=
  code_rel D c c' /\ NoDup (map fst (line_places 0 (cd_code c'))) /\
  forall n, 0 <= n <= len (strip (cd_code c)) -> line_of n (cd_code c') = line_of n (cd_code c).
