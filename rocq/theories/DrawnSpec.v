(** What the strings of a class that was read are (C94): those of the constant
    pool of the file. *)
From Coq Require Import String.
From Verif Require Import Base Wtf8Spec Wtf8Model MutfModel PrimModel TypeModel TypeSpec CpModel CpSpec SigModel SigSpec AnnModel AnnSpec AttrModel AttrSpec FrameModel InsnModel InsnSpec CodeModel CodeSpec
  ClassModel ClassSpec WriteSpec TidySpec.

(** * The texts of a file: the contents of the CONSTANT_Utf8_info entries

    JVMS 4.1: magic and version take eight bytes, [constant_pool_count] two.
    JVMS 4.4: every entry is a tag and a body; long and double take two indices. *)
Definition body_sizes : list (Z * Z) :=
  [(3, 4); (4, 4); (5, 8); (6, 8); (7, 2); (8, 2); (9, 4); (10, 4); (11, 4); (12, 4); (15, 3); (16, 2); (17, 4); (18, 4); (19, 2); (20, 2)].
Fixpoint texts_from (fuel : nat) (left : Z) (l : list Z) : list (list Z) :=
  match fuel, l with
  | S n, t :: r =>
      if left <=? 0 then []
      else if t =? 1 then
        match r with
        | a :: b :: r => let k := Z.to_nat (256 * a + b) in firstn k r :: texts_from n (left - 1) (skipn k r)
        | _ => []
        end
      else match assoc Z.eqb t body_sizes with
           | Some k => texts_from n (if (t =? 5) || (t =? 6) then left - 2 else left - 1) (skipn (Z.to_nat k) r)
           | None => []
           end
  | _, _ => []
  end.
Definition pool_count (l : list Z) : Z := match skipn 8 l with a :: b :: _ => 256 * a + b | _ => 0 end.
Definition pool_texts (l : list Z) : list (list Z) := texts_from (List.length l) (pool_count l - 1) (skipn 10 l).

(** * What all strings, descriptors and signatures of a class satisfy

    [Txt]: strings; [Dsc]: descriptors; [Fsg], [Msg], [Csg]: signatures of
    fields, methods and classes.  Not among the strings: the contents of
    SourceDebugExtension, which are not in the pool. *)
Section Drawn.
Context (Txt : list Z -> Prop) (Dsc : ty -> Prop) (Fsg : rsig -> Prop) (Msg : method_sig -> Prop) (Csg : class_sig -> Prop).
Definition n_member (m : member) : Prop := Txt (m_owner m) /\ Txt (m_name m) /\ Dsc (m_desc m).
Definition n_const (k : constant) : Prop :=
  match k with
  | KI32 _ | KF32 _ | KI64 _ | KF64 _ => True
  | KString s | KClass s => Txt s
  | KMember m => n_member m
  | KMethodType t => Dsc t
  | KMethodHandle h => n_member (h_member h)
  end.
Definition n_dyn (d : dynamic) : Prop := Txt (d_name d) /\ Dsc (d_desc d).
Definition n_or {A} (P : A -> Prop) (o : ordyn A) : Prop := match o with Dyn d => n_dyn d | Stat a => P a end.
Definition n_bsm (b : bsm) : Prop := n_member (h_member (b_handle b)) /\ Forall (n_or n_const) (b_args b).
Definition n_raw (r : raw_attr) : Prop := Txt (ra_name r).
Inductive n_aval : aval -> Prop :=
| na_byte x : n_aval (VByte x) | na_char x : n_aval (VChar x) | na_double x : n_aval (VDouble x)
| na_float x : n_aval (VFloat x) | na_int x : n_aval (VInt x) | na_long x : n_aval (VLong x)
| na_short x : n_aval (VShort x) | na_bool b : n_aval (VBoolean b)
| na_string s : Txt s -> n_aval (VString s)
| na_enum t n : Dsc t -> Txt n -> n_aval (VEnum t n)
| na_class o : t_opt Dsc o -> n_aval (VClass o)
| na_annotation t vs : Dsc t -> Forall (fun kv => Txt (fst kv) /\ n_aval (snd kv)) vs -> n_aval (VAnnotation t vs)
| na_array vs : Forall n_aval vs -> n_aval (VArray vs).
Definition n_vals (vs : list (list Z * aval)) : Prop := Forall (fun kv => Txt (fst kv) /\ n_aval (snd kv)) vs.
Definition n_annot (a : annot) : Prop := Dsc (an_type a) /\ n_vals (an_vals a).
Definition n_tannot {T} (a : tannot T) : Prop := Dsc (ta_type a) /\ n_vals (ta_vals a).
Definition n_fattr (a : fattr) : Prop :=
  match a with
  | FDeprecated | FSynthetic => True
  | FSignature s => Fsg s
  | FConstantValue k => n_const k
  | FVisible l | FInvisible l => Forall n_annot l
  | FVisibleT l | FInvisibleT l => Forall n_tannot l
  | FRaw r => n_raw r
  end.
Definition n_field (f : field) : Prop := Txt (f_name f) /\ Dsc (f_desc f) /\ Forall n_fattr (f_attrs f).
(** A name that starts with '[' is read as the type of an array. *)
Definition n_ctype (c : ctype) : Prop := match c with CtObject s => Txt s /\ hd 0 s <> 91 | CtArray d t => Dsc (TArray d t) end.
(** The element type of a new array: a primitive type, a descriptor or the name
    of a class. *)
Definition n_elem (t : ty) : Prop :=
  match t with
  | TRef _ | TArray _ _ | TMethod _ _ => Dsc t \/ exists s, t = TRef s /\ Txt s
  | _ => True
  end.
Definition n_insn (i : insn) : Prop :=
  match i with
  | IPush c => n_or n_const c
  | ICheckCast c | IInstanceOf c => n_or n_ctype c
  | INew c => n_or Txt c
  | INewArray c _ => n_or n_elem c
  | IField _ _ m | IInvokeExact _ m | IInvokeSpecial m | IInvokeInterface m _ => n_or n_member m
  | IInvokeDynamic d => n_dyn d
  | _ => True
  end.
Definition n_var (v : localvar) : Prop :=
  Txt (v_name v) /\ t_opt Dsc (v_desc v) /\ t_opt Fsg (v_sig v).
Definition n_kattr (a : kattr) : Prop :=
  match a with
  | KVisible l | KInvisible l => Forall n_tannot l
  | KLocals vs => Forall n_var vs
  | KRaw r => n_raw r
  end.
Definition n_code (c : code) : Prop :=
  Forall n_insn (cd_code c) /\ Forall (fun x => t_opt Txt (c_type x)) (cd_catches c) /\ Forall n_kattr (cd_attrs c).
Definition n_mattr (a : mattr code) : Prop :=
  match a with
  | MCode c => n_code c
  | MDeprecated | MSynthetic => True
  | MSignature s => Msg s
  | MVisible l | MInvisible l => Forall n_annot l
  | MVisibleT l | MInvisibleT l => Forall n_tannot l
  | MVisibleP l | MInvisibleP l => Forall (Forall n_annot) l
  | MExceptions l => Forall Txt l
  | MDefault v => n_aval v
  | MParameters l => Forall (fun m => t_opt Txt (mp_name m)) l
  | MRaw r => n_raw r
  end.
Definition n_method (m : method code) : Prop := Txt (me_name m) /\ Dsc (me_desc m) /\ Forall n_mattr (me_attrs m).
Definition n_require (r : require) : Prop := Txt (rq_module r) /\ t_opt Txt (rq_version r).
Definition n_exopen (r : exopen) : Prop := Txt (eo_package r) /\ Forall Txt (eo_to r).
Definition n_provide (r : provide) : Prop := Txt (pv_class r) /\ Forall Txt (pv_with r).
Definition n_module (m : module) : Prop :=
  Txt (mo_name m) /\ t_opt Txt (mo_version m) /\ Forall n_require (mo_requires m) /\
  Forall n_exopen (mo_exports m) /\ Forall n_exopen (mo_opens m) /\ Forall Txt (mo_uses m) /\ Forall n_provide (mo_provides m).
Definition n_inner (c : inner_class) : Prop := Txt (ic_inner c) /\ t_opt Txt (ic_outer c) /\ t_opt Txt (ic_name c).
Definition n_cattr (a : cattr) : Prop :=
  match a with
  | CSignature s => Csg s
  | CSynthetic | CDeprecated => True
  | CDebugExtension _ => True
  | CSourceFile s | CModuleMainClass s | CNestHost s => Txt s
  | CInnerClasses l => Forall n_inner l
  | CEnclosingMethod c m => Txt c /\ t_opt (fun nt => Txt (fst nt) /\ Dsc (snd nt)) m
  | CBootstrap l => Forall n_bsm l
  | CModule m => n_module m
  | CModulePackages l | CNestMembers l => Forall Txt l
  | CVisible l | CInvisible l => Forall n_annot l
  | CVisibleT l | CInvisibleT l => Forall n_tannot l
  | CRaw r => n_raw r
  end.
Definition n_class (c : class) : Prop :=
  Txt (cl_name c) /\ t_opt Txt (cl_super c) /\ Forall Txt (cl_itfs c) /\ Forall n_field (cl_fields c) /\
  Forall n_method (cl_methods c) /\ Forall n_cattr (cl_attrs c).
End Drawn.

(** * Drawn from a file

    A string is the decoding of a text, a descriptor and a signature are parsed
    from such a string; signatures go through [to_string_lossy]. *)
Definition text_of (l : list Z) (s : list Z) : Prop := exists b, In b (pool_texts l) /\ modified_utf8_to_string b = Ok s.
Definition desc_of (md : mode) (l : list Z) (t : ty) : Prop := exists s, text_of l s /\ parse_type md s = Ok t.
(** src/rw.rs 389-413 (the part after the string is there). *)
Definition sig_of {A} (q : sp A) (s : list Z) : res A := t <- to_string_lossy s ;; c <- codepoints t ;; from_str q c.
Definition sig_from {A} (q : sp A) (l : list Z) (g : A) : Prop := exists s, text_of l s /\ sig_of q s = Ok g.
Definition drawn (md : mode) (l : list Z) (c : class) : Prop :=
  n_class (text_of l) (desc_of md l) (sig_from (p_rsig md) l) (sig_from (p_method md) l) (sig_from (p_classsig md) l) c.

(** * What is left to ask of a class that was read from a file with proper texts

    As [tidy_class] (TidySpec), without the strings: [LStr], names of members,
    classes, variables, raw attributes; and without the lengths of descriptors
    and signatures. *)
Definition rest_method_sig (m : method_sig) : Prop :=
  (exists ps, ms_params m = flat_map split_param ps /\
    wf_method_sig {| ms_params := ps; ms_args := ms_args m; ms_ret := ms_ret m; ms_throws := ms_throws m |}) /\
  Forall (fun t => match t with ThVar _ => False | ThCls _ => True end) (ms_throws m).
Definition rest_class_sig (c : class_sig) : Prop :=
  exists ps, cs_params c = flat_map split_param ps /\ wf_class_sig {| cs_params := ps; cs_super := cs_super c; cs_itfs := cs_itfs c |}.
Definition shown (t : ty) : Prop := wf_ty t /\ Forall is_utf8 (ty_names t).
Definition rest_member (m : member) : Prop := shown (m_desc m) /\ (ty_is_method (m_desc m) = false -> m_itfs m = false).
Definition rest_leaf (P : code -> Prop) (x : leaf) : Prop :=
  match x with
  | LStr _ => True
  | LText s => wf_wtf8 s
  | LDesc t => wf_ty t
  | LShown t => shown t
  | LMember m => rest_member m
  | LNested _ => False
  | LFieldSig s => wf_rsig s
  | LMethodSig s => rest_method_sig s
  | LClassSig s => rest_class_sig s
  | LCode k => P k
  end.
Definition rest_dyn (m : bool) (d : dynamic) : Prop := shown (d_desc d) /\ ty_is_method (d_desc d) = m.
Definition rest_or {A} (P : A -> Prop) (o : ordyn A) : Prop := match o with Dyn d => rest_dyn false d | Stat a => P a end.
Definition rest_ctype (c : ctype) : Prop := match c with CtObject _ => True | CtArray d t => shown (TArray d t) end.
Definition rest_insn (i : insn) : Prop :=
  match i with
  | IPush (Stat k) => Forall (rest_leaf (fun _ => True)) (const_leaves k)
  | IPush (Dyn _) | INewArray _ _ | IField GpPut MtStatic _ => False
  | ICheckCast c | IInstanceOf c => rest_or rest_ctype c
  | INew c => rest_or (fun _ => True) c
  | IField _ _ m | IInvokeExact _ m | IInvokeSpecial m | IInvokeInterface m _ => rest_or rest_member m
  | IInvokeDynamic d => rest_dyn true d
  | ITableSwitch _ low ls => 1 <= len ls /\ low + len ls - 1 < 2147483648
  | _ => True
  end.
Definition rest_var (is : list insn) (v : localvar) : Prop :=
  not_before is (v_start v) (v_end v) /\
  match v_desc v with Some d => wf_ty d | None => True end /\
  match v_sig v with Some g => wf_rsig g | None => True end.
Definition rest_kattr (is : list insn) (a : kattr) : Prop :=
  match a with
  | KVisible l | KInvisible l => Forall (fun x => Forall (rest_leaf (fun _ => True)) (tannot_leaves x)) l
  | KLocals vs => len vs < 65536 /\ Forall (rest_var is) vs
  | KRaw _ => True
  end.
Definition rest_code (k : code) : Prop :=
  Forall rest_insn (cd_code k) /\ CodeSpec.in_range (cd_code k) /\ len (cd_attrs k) < 32768 /\ Forall (rest_kattr (cd_code k)) (cd_attrs k).
Definition rest_class (c : class) : Prop := Forall (rest_leaf rest_code) (class_leaves c) /\ tidy_table c.
