(** JVMS 4.5, 4.6, 4.7: layouts of fields, methods and their attributes. *)
From Coq Require Import String.
From Verif Require Import Base Wtf8Spec PrimModel TypeModel TypeSpec CpModel CpSpec SigModel SigSpec
  AnnModel AnnSpec AttrModel.

Definition fmt_none : fmt unit := fun _ _ bs => bs = [].
Definition fmt_via {A B} (h : A -> B) (F : fmt B) : fmt A := fun W a bs => F W (h a) bs.

(** 4.7 attribute_info: attribute_name_index, attribute_length, info. *)
Definition fmt_attr {A} (name : list Z) (F : fmt A) : fmt A := fun W a bs =>
  exists i body, 0 < i < 65536 /\ is_utf8_at (W_pool W) i name /\
    bs = u2 i ++ u4 (len body) ++ body /\ F W a body.
Definition fmt_raw : fmt raw_attr := fun W r bs =>
  fmt_attr (ra_name r) (fun _ r body => body = ra_body r) W r bs.

(** 4.7.16, 4.7.18, 4.7.20 *)
Definition fmt_annots : fmt (list annot) := fmt_table2 fmt_annot.
Definition fmt_pannots : fmt (list (list annot)) := fmt_table1 fmt_annots.
Definition fmt_tannots {T} (f : T -> list Z) : fmt (list (tannot T)) :=
  fmt_table2 (fmt_tannot (fmt_bytes f)).
Definition wf_annots (l : list annot) : Prop := len l < 65536 /\ Forall wf_annot l.
Definition wf_pannots (l : list (list annot)) : Prop := len l < 256 /\ Forall wf_annots l.
Definition wf_tannots {T} (P : T -> Prop) (l : list (tannot T)) : Prop :=
  len l < 65536 /\ Forall (wf_tannot P) l.
(** Unknown attributes. *)
Definition wf_raw (known : list (list Z)) (r : raw_attr) : Prop :=
  jstr (ra_name r) /\ ~ In (ra_name r) known.

(** Signatures that survive (C33-C35), with a text that fits the pool. *)
Definition wf_field_signature (r : rsig) : Prop :=
  wf_rsig r /\ jstr (flat_map utf8 (rsig_text r)).
(** The type parameters as the crate reads them from a text of the grammar: the
    bounds after the first one as parameters without a name (C33).  Parameters
    with at most one bound each are of this form themselves. *)
Definition wf_method_signature (m : method_sig) : Prop :=
  (exists ps, ms_params m = flat_map split_param ps /\
    wf_method_sig {| ms_params := ps; ms_args := ms_args m; ms_ret := ms_ret m; ms_throws := ms_throws m |}) /\
  Forall (fun t => match t with ThVar _ => False | ThCls _ => True end) (ms_throws m) /\
  jstr (flat_map utf8 (method_sig_text m)).
Definition wf_class_signature (c : class_sig) : Prop :=
  (exists ps, cs_params c = flat_map split_param ps /\
    wf_class_sig {| cs_params := ps; cs_super := cs_super c; cs_itfs := cs_itfs c |}) /\
  jstr (flat_map utf8 (class_sig_text c)).

(** 4.5 field_info *)
Definition fmt_fattr : fmt fattr := fun W a =>
  match a with
  | FDeprecated => fmt_attr (str "Deprecated") fmt_none W tt
  | FSynthetic => fmt_attr (str "Synthetic") fmt_none W tt
  | FSignature s => fmt_attr (str "Signature") (fmt_sig rsig_text) W s
  | FConstantValue k => fmt_attr (str "ConstantValue") fmt_constant W k
  | FVisible l => fmt_attr (str "RuntimeVisibleAnnotations") fmt_annots W l
  | FInvisible l => fmt_attr (str "RuntimeInvisibleAnnotations") fmt_annots W l
  | FVisibleT l => fmt_attr (str "RuntimeVisibleTypeAnnotations") (fmt_tannots field_target_bytes) W l
  | FInvisibleT l => fmt_attr (str "RuntimeInvisibleTypeAnnotations") (fmt_tannots field_target_bytes) W l
  | FRaw r => fmt_raw W r
  end.
Definition field_attr_names : list (list Z) := map str
  ["Deprecated"; "Synthetic"; "Signature"; "ConstantValue"; "RuntimeVisibleAnnotations";
   "RuntimeInvisibleAnnotations"; "RuntimeVisibleTypeAnnotations"; "RuntimeInvisibleTypeAnnotations"]%string.
Definition wf_fattr (a : fattr) : Prop :=
  match a with
  | FDeprecated | FSynthetic => True
  | FSignature s => wf_field_signature s
  | FConstantValue k => wf_constant k
  | FVisible l | FInvisible l => wf_annots l
  | FVisibleT l | FInvisibleT l => wf_tannots (fun _ => True) l
  | FRaw r => wf_raw field_attr_names r
  end.
Definition fmt_field : fmt field := fun W f bs =>
  fmt_pair fmt_u2 (fmt_pair fmt_utf8 (fmt_pair fmt_desc (fmt_table2 fmt_fattr))) W
    (f_access f, (f_name f, (f_desc f, f_attrs f))) bs.
Definition wf_field (f : field) : Prop :=
  flags_of FieldFlags (f_access f) /\ jstr (f_name f) /\ wf_desc (f_desc f) /\
  len (f_attrs f) < 65536 /\ Forall wf_fattr (f_attrs f).

(** 4.6 method_info *)
Definition opt_ok {A} (P : A -> Prop) (o : option A) : Prop :=
  match o with Some a => P a | None => True end.
Definition fmt_mparam : fmt mparam := fun W m bs =>
  fmt_pair (fmt_opt fmt_utf8) fmt_u2 W (mp_name m, mp_access m) bs.
Definition wf_mparam (m : mparam) : Prop :=
  opt_ok jstr (mp_name m) /\ flags_of MethodParameterFlags (mp_access m).
Definition fmt_mattr {C} (F : fmt C) : fmt (mattr C) := fun W a =>
  match a with
  | MCode c => fmt_attr (str "Code") F W c
  | MDeprecated => fmt_attr (str "Deprecated") fmt_none W tt
  | MSynthetic => fmt_attr (str "Synthetic") fmt_none W tt
  | MSignature s => fmt_attr (str "Signature") (fmt_sig method_sig_text) W s
  | MVisible l => fmt_attr (str "RuntimeVisibleAnnotations") fmt_annots W l
  | MInvisible l => fmt_attr (str "RuntimeInvisibleAnnotations") fmt_annots W l
  | MVisibleT l => fmt_attr (str "RuntimeVisibleTypeAnnotations") (fmt_tannots method_target_bytes) W l
  | MInvisibleT l => fmt_attr (str "RuntimeInvisibleTypeAnnotations") (fmt_tannots method_target_bytes) W l
  | MVisibleP l => fmt_attr (str "RuntimeVisibleParameterAnnotations") fmt_pannots W l
  | MInvisibleP l => fmt_attr (str "RuntimeInvisibleParameterAnnotations") fmt_pannots W l
  | MExceptions l => fmt_attr (str "Exceptions") (fmt_table2 fmt_class) W l
  | MDefault v => fmt_attr (str "AnnotationDefault") fmt_aval W v
  | MParameters l => fmt_attr (str "MethodParameters") (fmt_table1 fmt_mparam) W l
  | MRaw r => fmt_raw W r
  end.
Definition method_attr_names : list (list Z) := map str
  ["Code"; "Deprecated"; "Synthetic"; "Signature"; "RuntimeVisibleAnnotations"; "RuntimeInvisibleAnnotations";
   "RuntimeVisibleTypeAnnotations"; "RuntimeInvisibleTypeAnnotations"; "RuntimeVisibleParameterAnnotations";
   "RuntimeInvisibleParameterAnnotations"; "Exceptions"; "AnnotationDefault"; "MethodParameters"]%string.
Definition wf_mattr {C} (P : C -> Prop) (a : mattr C) : Prop :=
  match a with
  | MCode c => P c
  | MDeprecated | MSynthetic => True
  | MSignature s => wf_method_signature s
  | MVisible l | MInvisible l => wf_annots l
  | MVisibleT l | MInvisibleT l => wf_tannots wf_method_target l
  | MVisibleP l | MInvisibleP l => wf_pannots l
  | MExceptions l => len l < 65536 /\ Forall jstr l
  | MDefault v => wf_aval v
  | MParameters l => len l < 256 /\ Forall wf_mparam l
  | MRaw r => wf_raw method_attr_names r
  end.
Definition fmt_method {C} (F : fmt C) : fmt (method C) := fun W m bs =>
  fmt_pair fmt_u2 (fmt_pair fmt_utf8 (fmt_pair fmt_desc (fmt_table2 (fmt_mattr F)))) W
    (me_access m, (me_name m, (me_desc m, me_attrs m))) bs.
Definition wf_method {C} (P : C -> Prop) (m : method C) : Prop :=
  flags_of MethodFlags (me_access m) /\ jstr (me_name m) /\ wf_desc (me_desc m) /\
  len (me_attrs m) < 65536 /\ Forall (wf_mattr P) (me_attrs m).

(** 4.7.25 Module; 4.4.11 and 4.4.12: module and package entries have tags 19
    and 20. *)
Definition fmt_require : fmt require := fun W r bs =>
  fmt_pair (fmt_indirect 19) (fmt_pair fmt_u2 (fmt_opt fmt_utf8)) W (rq_module r, (rq_flags r, rq_version r)) bs.
Definition fmt_exopen : fmt exopen := fun W r bs =>
  fmt_pair (fmt_indirect 20) (fmt_pair fmt_u2 (fmt_table2 (fmt_indirect 19))) W
    (eo_package r, (eo_flags r, eo_to r)) bs.
Definition fmt_provide : fmt provide := fun W r bs =>
  fmt_pair fmt_class (fmt_table2 fmt_class) W (pv_class r, pv_with r) bs.
Definition fmt_module : fmt module := fun W m bs =>
  fmt_pair (fmt_indirect 19) (fmt_pair fmt_u2 (fmt_pair (fmt_opt fmt_utf8) (fmt_pair (fmt_table2 fmt_require)
    (fmt_pair (fmt_table2 fmt_exopen) (fmt_pair (fmt_table2 fmt_exopen)
      (fmt_pair (fmt_table2 fmt_class) (fmt_table2 fmt_provide))))))) W
    (mo_name m, (mo_flags m, (mo_version m, (mo_requires m, (mo_exports m, (mo_opens m, (mo_uses m, mo_provides m))))))) bs.
Definition wf_names (l : list (list Z)) : Prop := len l < 65536 /\ Forall jstr l.
Definition wf_require (r : require) : Prop :=
  jstr (rq_module r) /\ flags_of RequireFlags (rq_flags r) /\ opt_ok jstr (rq_version r).
Definition wf_exopen (r : exopen) : Prop :=
  jstr (eo_package r) /\ flags_of ExOpFlags (eo_flags r) /\ wf_names (eo_to r).
Definition wf_provide (r : provide) : Prop := jstr (pv_class r) /\ wf_names (pv_with r).
Definition wf_module (m : module) : Prop :=
  jstr (mo_name m) /\ flags_of ModuleFlags (mo_flags m) /\ opt_ok jstr (mo_version m) /\
  (len (mo_requires m) < 65536 /\ Forall wf_require (mo_requires m)) /\
  (len (mo_exports m) < 65536 /\ Forall wf_exopen (mo_exports m)) /\
  (len (mo_opens m) < 65536 /\ Forall wf_exopen (mo_opens m)) /\
  wf_names (mo_uses m) /\
  (len (mo_provides m) < 65536 /\ Forall wf_provide (mo_provides m)).

(** 4.7.6 InnerClasses; 4.7.11 SourceDebugExtension: modified UTF-8 without a
    terminator or length. *)
Definition fmt_inner_class : fmt inner_class := fun W c bs =>
  fmt_pair fmt_class (fmt_pair (fmt_opt fmt_class) (fmt_pair (fmt_opt fmt_utf8) fmt_u2)) W
    (ic_inner c, (ic_outer c, (ic_name c, ic_access c))) bs.
Definition wf_inner_class (c : inner_class) : Prop :=
  jstr (ic_inner c) /\ opt_ok jstr (ic_outer c) /\ opt_ok jstr (ic_name c) /\
  flags_of InnerClassFlags (ic_access c).
Definition fmt_mutf8 : fmt (list Z) := fun _ s bs =>
  exists cps, wtf8_of cps s /\ bs = mutf8_of (flat_map utf16 cps).
Definition fmt_cattr : fmt cattr := fun W a =>
  match a with
  | CSignature s => fmt_attr (str "Signature") (fmt_sig class_sig_text) W s
  | CSynthetic => fmt_attr (str "Synthetic") fmt_none W tt
  | CDeprecated => fmt_attr (str "Deprecated") fmt_none W tt
  | CSourceFile s => fmt_attr (str "SourceFile") fmt_utf8 W s
  | CInnerClasses l => fmt_attr (str "InnerClasses") (fmt_table2 fmt_inner_class) W l
  | CEnclosingMethod c m => fmt_attr (str "EnclosingMethod") (fmt_pair fmt_class (fmt_opt fmt_nametype)) W (c, m)
  | CDebugExtension s => fmt_attr (str "SourceDebugExtension") fmt_mutf8 W s
  | CBootstrap l => fmt_attr (str "BootstrapMethods") (fmt_table2 fmt_bsm) W l
  | CModule m => fmt_attr (str "Module") fmt_module W m
  | CModulePackages l => fmt_attr (str "ModulePackages") (fmt_table2 (fmt_indirect 20)) W l
  | CModuleMainClass c => fmt_attr (str "ModuleMainClass") fmt_class W c
  | CNestHost c => fmt_attr (str "NestHost") fmt_class W c
  | CNestMembers l => fmt_attr (str "NestMembers") (fmt_table2 fmt_class) W l
  | CVisible l => fmt_attr (str "RuntimeVisibleAnnotations") fmt_annots W l
  | CInvisible l => fmt_attr (str "RuntimeInvisibleAnnotations") fmt_annots W l
  | CVisibleT l => fmt_attr (str "RuntimeVisibleTypeAnnotations") (fmt_tannots class_target_bytes) W l
  | CInvisibleT l => fmt_attr (str "RuntimeInvisibleTypeAnnotations") (fmt_tannots class_target_bytes) W l
  | CRaw r => fmt_raw W r
  end.
Definition class_attr_names : list (list Z) := map str
  ["Signature"; "Synthetic"; "Deprecated"; "SourceFile"; "InnerClasses"; "EnclosingMethod"; "SourceDebugExtension";
   "BootstrapMethods"; "Module"; "ModulePackages"; "ModuleMainClass"; "NestHost"; "NestMembers";
   "RuntimeVisibleAnnotations"; "RuntimeInvisibleAnnotations"; "RuntimeVisibleTypeAnnotations";
   "RuntimeInvisibleTypeAnnotations"]%string.
(** without bootstrap methods (those are C26, C27 and the class level) *)
Definition wf_cattr (a : cattr) : Prop :=
  match a with
  | CSignature s => wf_class_signature s
  | CSynthetic | CDeprecated => True
  | CSourceFile s | CModuleMainClass s | CNestHost s => jstr s
  | CInnerClasses l => len l < 65536 /\ Forall wf_inner_class l
  | CEnclosingMethod c m => jstr c /\ opt_ok (fun nt => jstr (fst nt) /\ utf8_desc (snd nt)) m
  | CDebugExtension s => wf_wtf8 s
  | CBootstrap l => False
  | CModule m => wf_module m
  | CModulePackages l | CNestMembers l => wf_names l
  | CVisible l | CInvisible l => wf_annots l
  | CVisibleT l | CInvisibleT l => wf_tannots wf_class_target l
  | CRaw r => wf_raw class_attr_names r
  end.
