(** What is left to ask of a class that was read for it to be well formed: its
    strings, descriptors, signatures and bodies of methods (C91).  Numbers,
    flags, lengths, attribute names and the like are not mentioned: they are
    what they should be because the class was read. *)
From Coq Require Import String.
From Verif Require Import Base Wtf8Spec PrimModel TypeModel TypeSpec CpModel CpSpec SigModel SigSpec AnnModel AnnSpec AttrModel AttrSpec
  FrameModel FrameSpec InsnModel InsnSpec CodeModel CodeSpec CodeRead ClassModel ClassSpec.

Inductive leaf : Type :=
| LStr (s : list Z)              (* a string that has an entry of its own *)
| LText (s : list Z)             (* a string of any length *)
| LDesc (t : ty)                 (* a descriptor *)
| LShown (t : ty)                (* a descriptor that is written through [Display] *)
| LMember (m : member)
| LNested (d : dynamic)          (* a dynamic constant among the arguments of a bootstrap method *)
| LFieldSig (s : rsig)
| LMethodSig (s : method_sig)
| LClassSig (s : class_sig)
| LCode (k : code).
Section Leaves.
Context (P : code -> Prop).
Definition leaf_ok (x : leaf) : Prop :=
  match x with
  | LStr s => jstr s
  | LText s => wf_wtf8 s
  | LDesc t => wf_desc t
  | LShown t => utf8_desc t
  | LMember m => wf_member m
  | LNested _ => False
  | LFieldSig s => wf_field_signature s
  | LMethodSig s => wf_method_signature s
  | LClassSig s => wf_class_signature s
  | LCode k => P k
  end.
End Leaves.

Definition of_opt {A} (f : A -> list leaf) (o : option A) : list leaf := match o with Some a => f a | None => [] end.
Definition str_leaf (s : list Z) : list leaf := [LStr s].
Definition const_leaves (k : constant) : list leaf :=
  match k with
  | KI32 _ | KF32 _ | KI64 _ | KF64 _ => []
  | KString s | KClass s => [LStr s]
  | KMember m => [LMember m]
  | KMethodType t => [LShown t]
  | KMethodHandle h => [LMember (h_member h)]
  end.
Definition bsm_leaves (b : bsm) : list leaf :=
  LMember (h_member (b_handle b)) :: flat_map (fun o => match o with Dyn d => [LNested d] | Stat k => const_leaves k end) (b_args b).
Fixpoint aval_leaves (v : aval) : list leaf :=
  match v with
  | VString s => [LStr s]
  | VEnum t n => [LDesc t; LStr n]
  | VClass o => of_opt (fun t => [LShown t]) o
  | VAnnotation t vs => LDesc t :: flat_map (fun kv => LStr (fst kv) :: aval_leaves (snd kv)) vs
  | VArray vs => flat_map aval_leaves vs
  | _ => []
  end.
Definition vals_leaves (vs : list (list Z * aval)) : list leaf := flat_map (fun kv => LStr (fst kv) :: aval_leaves (snd kv)) vs.
Definition annot_leaves (a : annot) : list leaf := LDesc (an_type a) :: vals_leaves (an_vals a).
Definition tannot_leaves {T} (a : tannot T) : list leaf := LDesc (ta_type a) :: vals_leaves (ta_vals a).
Definition raw_leaves (r : raw_attr) : list leaf := [LStr (ra_name r)].
Definition fattr_leaves (a : fattr) : list leaf :=
  match a with
  | FDeprecated | FSynthetic => []
  | FSignature s => [LFieldSig s]
  | FConstantValue k => const_leaves k
  | FVisible l | FInvisible l => flat_map annot_leaves l
  | FVisibleT l | FInvisibleT l => flat_map tannot_leaves l
  | FRaw r => raw_leaves r
  end.
Definition field_leaves (f : field) : list leaf := LStr (f_name f) :: LDesc (f_desc f) :: flat_map fattr_leaves (f_attrs f).
Definition mparam_leaves (m : mparam) : list leaf := of_opt str_leaf (mp_name m).
Definition mattr_leaves (a : mattr code) : list leaf :=
  match a with
  | MCode k => [LCode k]
  | MDeprecated | MSynthetic => []
  | MSignature s => [LMethodSig s]
  | MVisible l | MInvisible l => flat_map annot_leaves l
  | MVisibleT l | MInvisibleT l => flat_map tannot_leaves l
  | MVisibleP l | MInvisibleP l => flat_map (flat_map annot_leaves) l
  | MExceptions l => flat_map str_leaf l
  | MDefault v => aval_leaves v
  | MParameters l => flat_map mparam_leaves l
  | MRaw r => raw_leaves r
  end.
Definition method_leaves (m : method code) : list leaf := LStr (me_name m) :: LDesc (me_desc m) :: flat_map mattr_leaves (me_attrs m).
Definition require_leaves (r : require) : list leaf := LStr (rq_module r) :: of_opt str_leaf (rq_version r).
Definition exopen_leaves (r : exopen) : list leaf := LStr (eo_package r) :: flat_map str_leaf (eo_to r).
Definition provide_leaves (r : provide) : list leaf := LStr (pv_class r) :: flat_map str_leaf (pv_with r).
Definition module_leaves (m : module) : list leaf :=
  LStr (mo_name m) :: of_opt str_leaf (mo_version m) ++ flat_map require_leaves (mo_requires m) ++ flat_map exopen_leaves (mo_exports m) ++
  flat_map exopen_leaves (mo_opens m) ++ flat_map str_leaf (mo_uses m) ++ flat_map provide_leaves (mo_provides m).
Definition inner_leaves (c : inner_class) : list leaf := LStr (ic_inner c) :: of_opt str_leaf (ic_outer c) ++ of_opt str_leaf (ic_name c).
Definition cattr_leaves (a : cattr) : list leaf :=
  match a with
  | CSignature s => [LClassSig s]
  | CSynthetic | CDeprecated => []
  | CSourceFile s | CModuleMainClass s | CNestHost s => [LStr s]
  | CInnerClasses l => flat_map inner_leaves l
  | CEnclosingMethod c m => LStr c :: of_opt (fun nt => [LStr (fst nt); LShown (snd nt)]) m
  | CDebugExtension s => [LText s]
  | CBootstrap l => flat_map bsm_leaves l
  | CModule m => module_leaves m
  | CModulePackages l | CNestMembers l => flat_map str_leaf l
  | CVisible l | CInvisible l => flat_map annot_leaves l
  | CVisibleT l | CInvisibleT l => flat_map tannot_leaves l
  | CRaw r => raw_leaves r
  end.
Definition class_leaves (c : class) : list leaf :=
  LStr (cl_name c) :: of_opt str_leaf (cl_super c) ++ flat_map str_leaf (cl_itfs c) ++ flat_map field_leaves (cl_fields c) ++
  flat_map method_leaves (cl_methods c) ++ flat_map cattr_leaves (cl_attrs c).

(** * Bodies of methods

    What is left to ask of code that was read.  Not mentioned: the sizes of
    stack and locals, the operands of the other instructions, the keys of
    switches, the labels and handlers that are named anywhere, the number of
    handlers, the targets and paths of annotations, the slots of variables and
    that these differ from each other, names of raw attributes that collide with
    those of the crate. *)
Definition tidy_dyn (m : bool) (d : dynamic) : Prop := jstr (d_name d) /\ utf8_desc (d_desc d) /\ ty_is_method (d_desc d) = m.
Definition tidy_or {A} (P : A -> Prop) (o : ordyn A) : Prop := match o with Dyn d => tidy_dyn false d | Stat a => P a end.
Definition tidy_insn (i : insn) : Prop :=
  match i with
  | IPush (Stat k) => Forall (leaf_ok (fun _ => True)) (const_leaves k)
  | IPush (Dyn _) | INewArray _ _ | IField GpPut MtStatic _ => False
  | ICheckCast c | IInstanceOf c => tidy_or wf_ctype c
  | INew c => tidy_or jstr c
  | IField _ _ m | IInvokeExact _ m | IInvokeSpecial m | IInvokeInterface m _ => tidy_or wf_member m
  | IInvokeDynamic d => tidy_dyn true d
  | ITableSwitch _ low ls => 1 <= len ls /\ low + len ls - 1 < 2147483648
  | _ => True
  end.
(** Annotations: their types and values.  Variables: the range does not end
    before it starts (the end was computed in 16 bits). *)
Definition not_before (is : list insn) (a b : Z) : Prop := forall m n, place a is = Some m -> place b is = Some n -> m <= n.
Definition tidy_var (is : list insn) (v : localvar) : Prop :=
  not_before is (v_start v) (v_end v) /\ jstr (v_name v) /\
  match v_desc v with Some d => wf_desc d | None => True end /\
  match v_sig v with Some g => wf_field_signature g | None => True end.
Definition tidy_kattr (is : list insn) (a : kattr) : Prop :=
  match a with
  | KVisible l | KInvisible l => Forall (fun x => Forall (leaf_ok (fun _ => True)) (tannot_leaves x)) l
  | KLocals vs => len vs < 65536 /\ Forall (tidy_var is) vs
  | KRaw r => jstr (ra_name r)
  end.
Definition tidy_code (k : code) : Prop :=
  Forall tidy_insn (cd_code k) /\ in_range (cd_code k) /\
  Forall (fun x => match c_type x with Some t => jstr t | None => True end) (cd_catches k) /\
  len (cd_attrs k) < 32768 /\ Forall (tidy_kattr (cd_code k)) (cd_attrs k).
(** Every call site of the class has its bootstrap method. *)
Definition linked (heap : Z -> option bsm) (k : code) : Prop := forall d, In d (code_dyns k) -> heap (d_cell d) <> None.
(** The table of bootstrap methods: none, and then no call sites; or one. *)
Definition tidy_table (c : class) : Prop :=
  match tables (cl_attrs c) with
  | [] => class_dyns c = []
  | [CBootstrap t] => t <> [] /\ len t + len (class_dyns c) < 65536
  | _ => False
  end.
Definition tidy_class (c : class) : Prop := Forall (leaf_ok tidy_code) (class_leaves c) /\ tidy_table c.
