(** When a value is a value of its Rust type, and what else a class has to
    satisfy to be written without a panic (C83).  Numbers may be anything: they
    are written modulo the size of their field. *)
From Coq Require Import String.
From Verif Require Import Base Wtf8Spec TypeModel TypeSpec CpModel SigModel SigSpec AnnModel AttrModel FrameModel InsnModel CodeModel CodeUndef ClassModel ClassSpec.

(** * Values of their type: strings are as the checks of the crate leave them,
    bodies of unknown attributes are bytes *)

(** A [Wtf8Str]: a sequence of encoded characters and of surrogates.  The third
    byte of a surrogate may be anything, because [from_bytes] does not always
    look at it (C06). *)
Inductive lax : list Z -> Prop :=
| lax_nil : lax []
| lax_char c s : is_cp c -> ~ is_surrogate c -> lax s -> lax (utf8 c ++ s)
| lax_surrogate n x s : 0xA0 <= n <= 0xBF -> u8 x -> lax s -> lax (0xED :: n :: x :: s).
Definition t_opt {A} (P : A -> Prop) (o : option A) : Prop := match o with Some a => P a | None => True end.
Definition t_ty (t : ty) : Prop := Forall wf_wtf8 (ty_names t).
Definition t_member (m : member) : Prop := lax (m_owner m) /\ lax (m_name m) /\ t_ty (m_desc m).
Definition t_const (k : constant) : Prop :=
  match k with
  | KI32 _ | KF32 _ | KI64 _ | KF64 _ => True
  | KString s | KClass s => lax s
  | KMember m => t_member m
  | KMethodType t => t_ty t
  | KMethodHandle h => t_member (h_member h)
  end.
Definition t_dyn (d : dynamic) : Prop := lax (d_name d) /\ t_ty (d_desc d).
Definition t_or {A} (P : A -> Prop) (o : ordyn A) : Prop := match o with Dyn d => t_dyn d | Stat a => P a end.
Definition t_bsm (b : bsm) : Prop := t_member (h_member (b_handle b)) /\ Forall (t_or t_const) (b_args b).
(** A Rust [str]: scalar values. *)
Definition chars (s : list Z) : Prop := Forall (fun c => is_cp c /\ ~ is_surrogate c) s.
Definition t_raw (r : raw_attr) : Prop := lax (ra_name r) /\ bytes (ra_body r).
Inductive t_aval : aval -> Prop :=
| ta_byte x : t_aval (VByte x) | ta_char x : t_aval (VChar x) | ta_double x : t_aval (VDouble x)
| ta_float x : t_aval (VFloat x) | ta_int x : t_aval (VInt x) | ta_long x : t_aval (VLong x)
| ta_short x : t_aval (VShort x) | ta_bool b : t_aval (VBoolean b)
| ta_string s : lax s -> t_aval (VString s)
| ta_enum t n : t_ty t -> lax n -> t_aval (VEnum t n)
| ta_class o : t_opt t_ty o -> t_aval (VClass o)
| ta_annotation t vs : t_ty t -> Forall (fun kv => lax (fst kv) /\ t_aval (snd kv)) vs -> t_aval (VAnnotation t vs)
| ta_array vs : Forall t_aval vs -> t_aval (VArray vs).
Definition t_vals (vs : list (list Z * aval)) : Prop := Forall (fun kv => lax (fst kv) /\ t_aval (snd kv)) vs.
Definition t_annot (a : annot) : Prop := t_ty (an_type a) /\ t_vals (an_vals a).
Definition t_tannot {T} (a : tannot T) : Prop := t_ty (ta_type a) /\ t_vals (ta_vals a).
Definition t_fattr (a : fattr) : Prop :=
  match a with
  | FDeprecated | FSynthetic => True
  | FSignature s => chars (rsig_text s)
  | FConstantValue k => t_const k
  | FVisible l | FInvisible l => Forall t_annot l
  | FVisibleT l | FInvisibleT l => Forall t_tannot l
  | FRaw r => t_raw r
  end.
Definition t_field (f : field) : Prop := lax (f_name f) /\ t_ty (f_desc f) /\ Forall t_fattr (f_attrs f).
Definition t_ctype (c : ctype) : Prop := match c with CtObject s => lax s | CtArray _ t => t_ty t end.
Definition t_insn (i : insn) : Prop :=
  match i with
  | IPush c => t_or t_const c
  | ICheckCast c | IInstanceOf c => t_or t_ctype c
  | INew c => t_or lax c
  | IField _ _ m | IInvokeExact _ m | IInvokeSpecial m | IInvokeInterface m _ => t_or t_member m
  | IInvokeDynamic d => t_dyn d
  | _ => True
  end.
Definition t_var (v : localvar) : Prop :=
  lax (v_name v) /\ t_opt t_ty (v_desc v) /\ t_opt (fun g => chars (rsig_text g)) (v_sig v).
Definition t_kattr (a : kattr) : Prop :=
  match a with
  | KVisible l | KInvisible l => Forall t_tannot l
  | KLocals vs => Forall t_var vs
  | KRaw r => t_raw r
  end.
Definition t_code (c : code) : Prop :=
  Forall t_insn (cd_code c) /\ Forall (fun x => t_opt lax (c_type x)) (cd_catches c) /\ Forall t_kattr (cd_attrs c).
Definition t_mattr (a : mattr code) : Prop :=
  match a with
  | MCode c => t_code c
  | MDeprecated | MSynthetic => True
  | MSignature s => chars (method_sig_text s)
  | MVisible l | MInvisible l => Forall t_annot l
  | MVisibleT l | MInvisibleT l => Forall t_tannot l
  | MVisibleP l | MInvisibleP l => Forall (Forall t_annot) l
  | MExceptions l => Forall lax l
  | MDefault v => t_aval v
  | MParameters l => Forall (fun m => t_opt lax (mp_name m)) l
  | MRaw r => t_raw r
  end.
Definition t_method (m : method code) : Prop := lax (me_name m) /\ t_ty (me_desc m) /\ Forall t_mattr (me_attrs m).
Definition t_require (r : require) : Prop := lax (rq_module r) /\ t_opt lax (rq_version r).
Definition t_exopen (r : exopen) : Prop := lax (eo_package r) /\ Forall lax (eo_to r).
Definition t_provide (r : provide) : Prop := lax (pv_class r) /\ Forall lax (pv_with r).
Definition t_module (m : module) : Prop :=
  lax (mo_name m) /\ t_opt lax (mo_version m) /\ Forall t_require (mo_requires m) /\
  Forall t_exopen (mo_exports m) /\ Forall t_exopen (mo_opens m) /\ Forall lax (mo_uses m) /\ Forall t_provide (mo_provides m).
Definition t_inner (c : inner_class) : Prop := lax (ic_inner c) /\ t_opt lax (ic_outer c) /\ t_opt lax (ic_name c).
Definition t_cattr (a : cattr) : Prop :=
  match a with
  | CSignature s => chars (class_sig_text s)
  | CSynthetic | CDeprecated => True
  | CSourceFile s | CDebugExtension s | CModuleMainClass s | CNestHost s => lax s
  | CInnerClasses l => Forall t_inner l
  | CEnclosingMethod c m => lax c /\ t_opt (fun nt => lax (fst nt) /\ t_ty (snd nt)) m
  | CBootstrap l => Forall t_bsm l
  | CModule m => t_module m
  | CModulePackages l | CNestMembers l => Forall lax l
  | CVisible l | CInvisible l => Forall t_annot l
  | CVisibleT l | CInvisibleT l => Forall t_tannot l
  | CRaw r => t_raw r
  end.
Definition t_class (c : class) : Prop :=
  lax (cl_name c) /\ t_opt lax (cl_super c) /\ Forall lax (cl_itfs c) /\ Forall t_field (cl_fields c) /\
  Forall t_method (cl_methods c) /\ Forall t_cattr (cl_attrs c).
Definition t_heap (heap : Z -> option bsm) : Prop := forall cell b, heap cell = Some b -> t_bsm b.

(** * Nothing dangling *)

(** The cells of all dynamic constants are set: those in code, and those among
    the arguments of bootstrap methods. *)
Definition args_set (heap : Z -> option bsm) (b : bsm) : Prop :=
  forall d, In (Dyn d) (b_args b) -> heap (d_cell d) <> None.
Definition cells_set (heap : Z -> option bsm) (c : class) : Prop :=
  (forall d, In d (class_dyns c) -> heap (d_cell d) <> None) /\
  (forall l b, In (CBootstrap l) (cl_attrs c) -> In b l -> args_set heap b) /\
  (forall cell b, heap cell = Some b -> args_set heap b).

(** The labels that handlers, local variables and type annotations refer to. *)
Definition code_labels (c : code) : list Z :=
  flat_map (fun x => [c_start x; c_end x; c_handler x]) (cd_catches c) ++ flat_map attr_labels (cd_attrs c).
Definition labels_defined (c : class) : Prop :=
  forall m k l, In m (cl_methods c) -> In (MCode k) (me_attrs m) -> In l (code_labels k) -> In (ILabel l) (cd_code k).

(** The dynamic constants among the arguments of a bootstrap method are nested
    at most [n] deep. *)
Fixpoint nested (heap : Z -> option bsm) (n : nat) (b : bsm) : Prop :=
  forall d b', In (Dyn d) (b_args b) -> heap (d_cell d) = Some b' ->
    match n with O => False | S n => nested heap n b' end.
