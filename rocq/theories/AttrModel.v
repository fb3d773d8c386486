(** Attributes, fields, methods and modules: coffer_macros/src/derive.rs
    (attr_enum, derived structs), src/attr.rs, src/member.rs, src/module.rs. *)
From Coq Require Import String Ascii.
From Verif Require Import Base Wtf8Model MutfModel PrimModel TypeModel SigModel CpModel AnnModel.

(** The bytes of an ASCII literal. *)
Fixpoint str (s : string) : list Z :=
  match s with
  | EmptyString => []
  | String c s => Z.of_nat (nat_of_ascii c) :: str s
  end.

(** derive.rs 279-330, 420-494 (structs): the fields are written and read in
    order.  A struct is the tuple of its fields. *)
Definition wr_pair {A B} (f : cwr A) (g : cwr B) : cwr (A * B) := fun E ab w =>
  '(x, w) <- f E (fst ab) w ;; '(y, w) <- g E (snd ab) w ;; Ok (x ++ y, w).
Definition wr_via {A B} (h : A -> B) (f : cwr B) : cwr A := fun E a w => f E (h a) w.
Definition wr_none : cwr unit := fun _ _ w => Ok ([], w).
Definition rd_pair {A B} (r : rd A) (q : rd B) : rd (A * B) := fun l =>
  '(a, l) <- r l ;; '(b, l) <- q l ;; Ok ((a, b), l).
Definition rd_map {A B} (h : A -> B) (r : rd A) : rd B := fun l =>
  '(a, l) <- r l ;; Ok (h a, l).
Definition rd_none : rd unit := fun l => Ok (tt, l).
(** The same with the references waiting for resolution. *)
Definition srd_pair {S A B} (r : srd S A) (q : srd S B) : srd S (A * B) := fun s l =>
  '((a, s), l) <- r s l ;; '((b, s), l) <- q s l ;; Ok (((a, b), s), l).
Definition srd_map {S A B} (h : A -> B) (r : srd S A) : srd S B := fun s l =>
  '((a, s), l) <- r s l ;; Ok ((h a, s), l).

(** src/attr.rs 8-15 *)
Record raw_attr : Type := { ra_name : list Z; ra_body : list Z }.

(** derive.rs 156-206 (attr_enum, write): the name is inserted first, then the
    body is written to a buffer; [vec.len() as u32]. *)
Definition wr_attr {A} (name : list Z) (f : cwr A) : cwr A := fun E a w =>
  '(i, w) <- insert_wtf8 E name w ;;
  '(b, w) <- f E a w ;;
  Ok (be 2 i ++ be 4 (len b) ++ b, w).
Definition wr_raw_attr : cwr raw_attr := fun E r w =>
  '(i, w) <- insert_wtf8 E (ra_name r) w ;;
  Ok (be 2 i ++ be 4 (len (ra_body r)) ++ ra_body r, w).

(** derive.rs 207-262 (attr_enum, read).  The body is copied out of the input
    before it is parsed. *)
Definition rd_attr {B} (p : pool) (known : list (list Z * rd B)) (raw : raw_attr -> B) : rd B := fun l =>
  '(i, l) <- rd_u16 l ;;
  match read_wtf8 p i with
  | None => Err EInvalid
  | Some name =>
      '(n, l) <- rd_u32 l ;;
      '(body, l) <- take n l ;;
      match assoc (list_eqb Z.eqb) name known with
      | Some r =>
          '(b, rest) <- r body ;;
          match rest with [] => Ok (b, l) | _ => Err (EAttrLen n (n - len rest)) end
      | None => Ok (raw {| ra_name := name; ra_body := body |}, l)
      end
  end.

(** [h::Normal] of a flag type, [h::Class], [h::Module], [h::Package]. *)
Definition wr_cflags : cwr Z := wr_plain wr_flags.
Definition wr_class : cwr (list Z) := wr_strcp 7.
Definition rd_class (p : pool) : rd (list Z) := rd_strcp 7 p.
(** Vec16 of annotations *)
Definition wr_annots : cwr (list annot) := wr_cvec 2 wr_annot.
Definition rd_annots (md : mode) (p : pool) : rd (list annot) := rd_vec 2 (rd_annot md p).

(** * Fields: src/member.rs 49-72 *)
Inductive fattr : Type :=
| FDeprecated
| FSynthetic
| FSignature (s : rsig)
| FConstantValue (k : constant)
| FVisible (l : list annot)
| FInvisible (l : list annot)
| FVisibleT (l : list (tannot field_target))
| FInvisibleT (l : list (tannot field_target))
| FRaw (r : raw_attr).
Definition wr_fattr : cwr fattr := fun E a w =>
  match a with
  | FDeprecated => wr_attr (str "Deprecated") wr_none E tt w
  | FSynthetic => wr_attr (str "Synthetic") wr_none E tt w
  | FSignature s => wr_attr (str "Signature") (wr_sig d_rsig) E s w
  | FConstantValue k => wr_attr (str "ConstantValue") wr_constant E k w
  | FVisible l => wr_attr (str "RuntimeVisibleAnnotations") wr_annots E l w
  | FInvisible l => wr_attr (str "RuntimeInvisibleAnnotations") wr_annots E l w
  | FVisibleT l =>
      wr_attr (str "RuntimeVisibleTypeAnnotations") (wr_cvec 2 (wr_tannot (wr_plain wr_field_target))) E l w
  | FInvisibleT l =>
      wr_attr (str "RuntimeInvisibleTypeAnnotations") (wr_cvec 2 (wr_tannot (wr_plain wr_field_target))) E l w
  | FRaw r => wr_raw_attr E r w
  end.
Definition fattr_known (md : mode) (p : pool) : list (list Z * rd fattr) :=
  [(str "Deprecated", rd_map (fun _ => FDeprecated) rd_none);
   (str "Synthetic", rd_map (fun _ => FSynthetic) rd_none);
   (str "Signature", rd_map FSignature (rd_sig (p_rsig md) p));
   (str "ConstantValue", rd_map FConstantValue (rd_constant md p));
   (str "RuntimeVisibleAnnotations", rd_map FVisible (rd_annots md p));
   (str "RuntimeInvisibleAnnotations", rd_map FInvisible (rd_annots md p));
   (str "RuntimeVisibleTypeAnnotations", rd_map FVisibleT (rd_vec 2 (rd_tannot rd_field_target md p)));
   (str "RuntimeInvisibleTypeAnnotations", rd_map FInvisibleT (rd_vec 2 (rd_tannot rd_field_target md p)))].
Definition rd_fattr (md : mode) (p : pool) : rd fattr := rd_attr p (fattr_known md p) FRaw.

Record field : Type := { f_access : Z; f_name : list Z; f_desc : ty; f_attrs : list fattr }.
Definition wr_field : cwr field :=
  wr_via (fun f => (f_access f, (f_name f, (f_desc f, f_attrs f))))
    (wr_pair wr_cflags (wr_pair wr_cow (wr_pair wr_type (wr_cvec 2 wr_fattr)))).
Definition rd_field (md : mode) (p : pool) : rd field :=
  rd_map (fun '(a, (n, (d, t))) => {| f_access := a; f_name := n; f_desc := d; f_attrs := t |})
    (rd_pair (rd_flags FieldFlags) (rd_pair (rd_cow p) (rd_pair (rd_type md p) (rd_vec 2 (rd_fattr md p))))).

(** * Methods: src/member.rs 74-110, over the type of code *)
Record mparam : Type := { mp_name : option (list Z); mp_access : Z }.
Definition wr_mparam : cwr mparam :=
  wr_via (fun m => (mp_name m, mp_access m)) (wr_pair (wr_opt wr_cow) wr_cflags).
Definition rd_mparam (p : pool) : rd mparam :=
  rd_map (fun '(n, a) => {| mp_name := n; mp_access := a |})
    (rd_pair (rd_opt_cow p) (rd_flags MethodParameterFlags)).

Inductive mattr (C : Type) : Type :=
| MCode (c : C)
| MDeprecated
| MSynthetic
| MSignature (s : method_sig)
| MVisible (l : list annot)
| MInvisible (l : list annot)
| MVisibleT (l : list (tannot method_target))
| MInvisibleT (l : list (tannot method_target))
| MVisibleP (l : list (list annot))
| MInvisibleP (l : list (list annot))
| MExceptions (l : list (list Z))
| MDefault (v : aval)
| MParameters (l : list mparam)
| MRaw (r : raw_attr).
Arguments MCode {C}. Arguments MDeprecated {C}. Arguments MSynthetic {C}. Arguments MSignature {C}.
Arguments MVisible {C}. Arguments MInvisible {C}. Arguments MVisibleT {C}. Arguments MInvisibleT {C}.
Arguments MVisibleP {C}. Arguments MInvisibleP {C}. Arguments MExceptions {C}. Arguments MDefault {C}.
Arguments MParameters {C}. Arguments MRaw {C}.
Definition wr_mtannots : cwr (list (tannot method_target)) :=
  wr_cvec 2 (wr_tannot (wr_plain wr_method_target)).
Definition rd_mtannots (md : mode) (p : pool) : rd (list (tannot method_target)) :=
  rd_vec 2 (rd_tannot rd_method_target md p).
(** src/annotation/mod.rs 18-19 [ParameterAnnotations] is a Vec16. *)
Definition wr_pannots : cwr (list (list annot)) := wr_cvec 1 wr_annots.
Definition rd_pannots (md : mode) (p : pool) : rd (list (list annot)) := rd_vec 1 (rd_annots md p).
Definition wr_mattr {C} (wc : cwr C) : cwr (mattr C) := fun E a w =>
  match a with
  | MCode c => wr_attr (str "Code") wc E c w
  | MDeprecated => wr_attr (str "Deprecated") wr_none E tt w
  | MSynthetic => wr_attr (str "Synthetic") wr_none E tt w
  | MSignature s => wr_attr (str "Signature") (wr_sig d_method) E s w
  | MVisible l => wr_attr (str "RuntimeVisibleAnnotations") wr_annots E l w
  | MInvisible l => wr_attr (str "RuntimeInvisibleAnnotations") wr_annots E l w
  | MVisibleT l => wr_attr (str "RuntimeVisibleTypeAnnotations") wr_mtannots E l w
  | MInvisibleT l => wr_attr (str "RuntimeInvisibleTypeAnnotations") wr_mtannots E l w
  | MVisibleP l => wr_attr (str "RuntimeVisibleParameterAnnotations") wr_pannots E l w
  | MInvisibleP l => wr_attr (str "RuntimeInvisibleParameterAnnotations") wr_pannots E l w
  | MExceptions l => wr_attr (str "Exceptions") (wr_cvec 2 wr_class) E l w
  | MDefault v => wr_attr (str "AnnotationDefault") wr_aval E v w
  | MParameters l => wr_attr (str "MethodParameters") (wr_cvec 1 wr_mparam) E l w
  | MRaw r => wr_raw_attr E r w
  end.
(** Only the code refers to dynamic constants. *)
Definition mattr_known {C} (rc : pool -> srd rst C) (md : mode) (p : pool) (s : rst)
  : list (list Z * rd (mattr C * rst)) :=
  let just {A} (h : A -> mattr C) (r : rd A) := rd_map (fun a => (h a, s)) r in
  [(str "Code", rd_map (fun '(c, s) => (MCode c, s)) (rc p s));
   (str "Deprecated", just (fun _ => MDeprecated) rd_none);
   (str "Synthetic", just (fun _ => MSynthetic) rd_none);
   (str "Signature", just MSignature (rd_sig (p_method md) p));
   (str "RuntimeVisibleAnnotations", just MVisible (rd_annots md p));
   (str "RuntimeInvisibleAnnotations", just MInvisible (rd_annots md p));
   (str "RuntimeVisibleTypeAnnotations", just MVisibleT (rd_mtannots md p));
   (str "RuntimeInvisibleTypeAnnotations", just MInvisibleT (rd_mtannots md p));
   (str "RuntimeVisibleParameterAnnotations", just MVisibleP (rd_pannots md p));
   (str "RuntimeInvisibleParameterAnnotations", just MInvisibleP (rd_pannots md p));
   (str "Exceptions", just MExceptions (rd_vec 2 (rd_class p)));
   (str "AnnotationDefault", just MDefault (rd_aval md p));
   (str "MethodParameters", just MParameters (rd_vec 1 (rd_mparam p)))].
Definition rd_mattr {C} (rc : pool -> srd rst C) (md : mode) (p : pool) : srd rst (mattr C) := fun s =>
  rd_attr p (mattr_known rc md p s) (fun r => (MRaw r, s)).

Record method (C : Type) : Type :=
  { me_access : Z; me_name : list Z; me_desc : ty; me_attrs : list (mattr C) }.
Arguments me_access {C}. Arguments me_name {C}. Arguments me_desc {C}. Arguments me_attrs {C}.
Definition wr_method {C} (wc : cwr C) : cwr (method C) :=
  wr_via (fun m => (me_access m, (me_name m, (me_desc m, me_attrs m))))
    (wr_pair wr_cflags (wr_pair wr_cow (wr_pair wr_type (wr_cvec 2 (wr_mattr wc))))).
Definition rd_method {C} (rc : pool -> srd rst C) (md : mode) (p : pool) : srd rst (method C) :=
  srd_map (fun '(a, (n, (d, t))) => {| me_access := a; me_name := n; me_desc := d; me_attrs := t |})
    (srd_pair (lift (rd_flags MethodFlags)) (srd_pair (lift (rd_cow p)) (srd_pair (lift (rd_type md p))
       (srd_vec 2 (rd_mattr rc md p))))).

(** * Modules: src/module.rs *)
Record require : Type := { rq_module : list Z; rq_flags : Z; rq_version : option (list Z) }.
Record exopen : Type := { eo_package : list Z; eo_flags : Z; eo_to : list (list Z) }. (* Export, Open *)
Record provide : Type := { pv_class : list Z; pv_with : list (list Z) }.
Record module : Type := {
  mo_name : list Z; mo_flags : Z; mo_version : option (list Z); mo_requires : list require;
  mo_exports : list exopen; mo_opens : list exopen; mo_uses : list (list Z); mo_provides : list provide }.
Definition wr_require : cwr require :=
  wr_via (fun r => (rq_module r, (rq_flags r, rq_version r)))
    (wr_pair (wr_strcp 19) (wr_pair wr_cflags (wr_opt wr_cow))).
Definition rd_require (p : pool) : rd require :=
  rd_map (fun '(m, (f, v)) => {| rq_module := m; rq_flags := f; rq_version := v |})
    (rd_pair (rd_strcp 19 p) (rd_pair (rd_flags RequireFlags) (rd_opt_cow p))).
Definition wr_exopen : cwr exopen :=
  wr_via (fun r => (eo_package r, (eo_flags r, eo_to r)))
    (wr_pair (wr_strcp 20) (wr_pair wr_cflags (wr_cvec 2 (wr_strcp 19)))).
Definition rd_exopen (p : pool) : rd exopen :=
  rd_map (fun '(m, (f, v)) => {| eo_package := m; eo_flags := f; eo_to := v |})
    (rd_pair (rd_strcp 20 p) (rd_pair (rd_flags ExOpFlags) (rd_vec 2 (rd_strcp 19 p)))).
Definition wr_provide : cwr provide :=
  wr_via (fun r => (pv_class r, pv_with r)) (wr_pair wr_class (wr_cvec 2 wr_class)).
Definition rd_provide (p : pool) : rd provide :=
  rd_map (fun '(c, x) => {| pv_class := c; pv_with := x |}) (rd_pair (rd_class p) (rd_vec 2 (rd_class p))).
Definition wr_module : cwr module :=
  wr_via (fun m => (mo_name m, (mo_flags m, (mo_version m, (mo_requires m,
                   (mo_exports m, (mo_opens m, (mo_uses m, mo_provides m))))))))
    (wr_pair (wr_strcp 19) (wr_pair wr_cflags (wr_pair (wr_opt wr_cow) (wr_pair (wr_cvec 2 wr_require)
      (wr_pair (wr_cvec 2 wr_exopen) (wr_pair (wr_cvec 2 wr_exopen)
        (wr_pair (wr_cvec 2 wr_class) (wr_cvec 2 wr_provide)))))))).
Definition rd_module (p : pool) : rd module :=
  rd_map (fun '(n, (f, (v, (r, (e, (o, (u, pr))))))) =>
    {| mo_name := n; mo_flags := f; mo_version := v; mo_requires := r; mo_exports := e; mo_opens := o;
       mo_uses := u; mo_provides := pr |})
    (rd_pair (rd_strcp 19 p) (rd_pair (rd_flags ModuleFlags) (rd_pair (rd_opt_cow p)
      (rd_pair (rd_vec 2 (rd_require p)) (rd_pair (rd_vec 2 (rd_exopen p)) (rd_pair (rd_vec 2 (rd_exopen p))
        (rd_pair (rd_vec 2 (rd_class p)) (rd_vec 2 (rd_provide p))))))))).

(** * Class attributes: src/attr.rs 66-122 *)
Record inner_class : Type := {
  ic_inner : list Z; ic_outer : option (list Z); ic_name : option (list Z); ic_access : Z }.
Definition wr_inner_class : cwr inner_class :=
  wr_via (fun c => (ic_inner c, (ic_outer c, (ic_name c, ic_access c))))
    (wr_pair wr_class (wr_pair (wr_opt wr_class) (wr_pair (wr_opt wr_cow) wr_cflags))).
Definition rd_inner_class (p : pool) : rd inner_class :=
  rd_map (fun '(i, (o, (n, a))) => {| ic_inner := i; ic_outer := o; ic_name := n; ic_access := a |})
    (rd_pair (rd_class p) (rd_pair (rd_opt_strcp 7 p) (rd_pair (rd_opt_cow p) (rd_flags InnerClassFlags)))).

(** 66-84: the rest of the body, without a length. *)
Definition wr_debug_ext : wr (list Z) := string_to_modified_utf8.
Definition rd_debug_ext : rd (list Z) := fun l => s <- modified_utf8_to_string l ;; Ok (s, []).

Inductive cattr : Type :=
| CSignature (s : class_sig)
| CSynthetic
| CDeprecated
| CSourceFile (s : list Z)
| CInnerClasses (l : list inner_class)
| CEnclosingMethod (c : list Z) (m : option (list Z * ty))
| CDebugExtension (s : list Z)
| CBootstrap (l : list bsm)
| CModule (m : module)
| CModulePackages (l : list (list Z))
| CModuleMainClass (c : list Z)
| CNestHost (c : list Z)
| CNestMembers (l : list (list Z))
| CVisible (l : list annot)
| CInvisible (l : list annot)
| CVisibleT (l : list (tannot class_target))
| CInvisibleT (l : list (tannot class_target))
| CRaw (r : raw_attr).
Definition wr_ctannots : cwr (list (tannot class_target)) :=
  wr_cvec 2 (wr_tannot (wr_plain wr_class_target)).
Definition rd_ctannots (md : mode) (p : pool) : rd (list (tannot class_target)) :=
  rd_vec 2 (rd_tannot rd_class_target md p).
Definition wr_cattr : cwr cattr := fun E a w =>
  match a with
  | CSignature s => wr_attr (str "Signature") (wr_sig d_class) E s w
  | CSynthetic => wr_attr (str "Synthetic") wr_none E tt w
  | CDeprecated => wr_attr (str "Deprecated") wr_none E tt w
  | CSourceFile s => wr_attr (str "SourceFile") wr_cow E s w
  | CInnerClasses l => wr_attr (str "InnerClasses") (wr_cvec 2 wr_inner_class) E l w
  | CEnclosingMethod c m =>
      wr_attr (str "EnclosingMethod") (wr_pair wr_class (wr_opt wr_nametype)) E (c, m) w
  | CDebugExtension s => wr_attr (str "SourceDebugExtension") (wr_plain wr_debug_ext) E s w
  | CBootstrap l => wr_attr (str "BootstrapMethods") (wr_cvec 2 wr_bsm) E l w
  | CModule m => wr_attr (str "Module") wr_module E m w
  | CModulePackages l => wr_attr (str "ModulePackages") (wr_cvec 2 (wr_strcp 20)) E l w
  | CModuleMainClass c => wr_attr (str "ModuleMainClass") wr_class E c w
  | CNestHost c => wr_attr (str "NestHost") wr_class E c w
  | CNestMembers l => wr_attr (str "NestMembers") (wr_cvec 2 wr_class) E l w
  | CVisible l => wr_attr (str "RuntimeVisibleAnnotations") wr_annots E l w
  | CInvisible l => wr_attr (str "RuntimeInvisibleAnnotations") wr_annots E l w
  | CVisibleT l => wr_attr (str "RuntimeVisibleTypeAnnotations") wr_ctannots E l w
  | CInvisibleT l => wr_attr (str "RuntimeInvisibleTypeAnnotations") wr_ctannots E l w
  | CRaw r => wr_raw_attr E r w
  end.
Definition cattr_known (md : mode) (p : pool) (s : rst) : list (list Z * rd (cattr * rst)) :=
  let just {A} (h : A -> cattr) (r : rd A) := rd_map (fun a => (h a, s)) r in
  [(str "Signature", just CSignature (rd_sig (p_classsig md) p));
   (str "Synthetic", just (fun _ => CSynthetic) rd_none);
   (str "Deprecated", just (fun _ => CDeprecated) rd_none);
   (str "SourceFile", just CSourceFile (rd_cow p));
   (str "InnerClasses", just CInnerClasses (rd_vec 2 (rd_inner_class p)));
   (str "EnclosingMethod",
      just (fun '(c, m) => CEnclosingMethod c m) (rd_pair (rd_class p) (rd_opt_nametype md p)));
   (str "SourceDebugExtension", just CDebugExtension rd_debug_ext);
   (str "BootstrapMethods", rd_map (fun '(b, s) => (CBootstrap b, s)) (srd_vec 2 (rd_bsm md p) s));
   (str "Module", just CModule (rd_module p));
   (str "ModulePackages", just CModulePackages (rd_vec 2 (rd_strcp 20 p)));
   (str "ModuleMainClass", just CModuleMainClass (rd_class p));
   (str "NestHost", just CNestHost (rd_class p));
   (str "NestMembers", just CNestMembers (rd_vec 2 (rd_class p)));
   (str "RuntimeVisibleAnnotations", just CVisible (rd_annots md p));
   (str "RuntimeInvisibleAnnotations", just CInvisible (rd_annots md p));
   (str "RuntimeVisibleTypeAnnotations", just CVisibleT (rd_ctannots md p));
   (str "RuntimeInvisibleTypeAnnotations", just CInvisibleT (rd_ctannots md p))].
Definition rd_cattr (md : mode) (p : pool) : srd rst cattr := fun s =>
  rd_attr p (cattr_known md p s) (fun r => (CRaw r, s)).
