(** The options of the derive macros: coffer_macros/src/derive.rs 6-158, and the
    first steps of the three macros (160-163, 278-354, 414-518).

    The input of a macro is what syn 1 and synstructure 0.12 make of a
    declaration; both are modelled by the data they hand over.  A compile error
    ([syn::Error]) is [Err EInvalid]; a panic inside the macro is [Panic]. *)
From Coq Require Import String.
From Verif Require Import Base.

(** [syn::Path] inside attributes: the segments; a leading [::] is an empty first
    segment. *)
Definition path : Type := list string.
(** [Path::get_ident], [Path::is_ident] *)
Definition get_ident (p : path) : option string := match p with [i] => Some i | _ => None end.
Definition is_ident (s : string) (p : path) : bool := match p with [i] => String.eqb i s | _ => false end.
(** [syn::Lit]: an integer literal is its value (a natural number of any size;
    suffixes and radix play no role for [base10_parse]). *)
Inductive lit : Type := LitInt (n : N) | LitStr (s : string) | LitOther.
(** [syn::Meta]; what is nested in a list is [NestedMeta]. *)
Inductive meta : Type :=
| MPath (p : path)
| MList (p : path) (nested : list (meta + lit))
| MValue (p : path) (l : lit).
(** [syn::Attribute]: its path and what [parse_meta] makes of it ([None]: an
    error). *)
Record attribute : Type := { a_path : path; a_meta : option meta }.

(** [LitInt::base10_parse] into an unsigned type of [w] bits. *)
Definition base10 (w : Z) (n : N) : option Z := if Z.of_N n <? 2 ^ w then Some (Z.of_N n) else None.

(** derive.rs 31-54 [parse_common]: attributes with other paths are skipped. *)
Fixpoint parse_nested {C} (f : C -> meta -> res C) (ns : list (meta + lit)) (c : C) : res C :=
  match ns with
  | [] => Ok c
  | inr _ :: _ => Err EInvalid
  | inl m :: ns => c <- f c m ;; parse_nested f ns c
  end.
Fixpoint parse_common {C} (f : C -> meta -> res C) (ats : list attribute) (c : C) : res C :=
  match ats with
  | [] => Ok c
  | a :: ats =>
      if is_ident "coffer" (a_path a) then
        match a_meta a with
        | Some (MList _ ns) => c <- parse_nested f ns c ;; parse_common f ats c
        | _ => Err EInvalid
        end
      else parse_common f ats c
  end.

(** What follows [discriminant] 338-345: an integer literal, or another
    expression. *)
Inductive disc : Type := DInt (n : N) | DExpr.
(** The declaration: attributes of the type, variants with their attributes,
    discriminants and the attributes of their fields. *)
Record vdecl : Type := { vd_attrs : list attribute; vd_disc : option disc; vd_fields : list (list attribute) }.
Inductive decl : Type :=
| DStruct (attrs : list attribute) (fields : list (list attribute))
| DEnum (attrs : list attribute) (variants : list vdecl).
(** [synstructure::Structure]: a struct has one variant, with the attributes of
    the struct. *)
Definition type_attrs (d : decl) : list attribute := match d with DStruct a _ => a | DEnum a _ => a end.
Definition variants (d : decl) : list vdecl :=
  match d with DStruct a fs => [{| vd_attrs := a; vd_disc := None; vd_fields := fs |}] | DEnum _ vs => vs end.

(** derive.rs 6-23; [T] is [syn::Type], [parse_ty] is [syn::parse_str]. *)
Section Config.
Context {T : Type} (parse_ty : string -> option T).
Record variant_cfg : Type := { vc_size : option Z; vc_tag : option Z; vc_fields : list (option T) }.
Record config : Type := { cf_variants : list variant_cfg; cf_raw : option Z; cf_tag_type : option string }.

(** derive.rs 136-157 *)
Definition field_option (c : option T) (m : meta) : res (option T) :=
  match m with
  | MValue p (LitStr s) => if is_ident "as" p then match parse_ty s with Some t => Ok (Some t) | None => Err EInvalid end else Err EInvalid
  | _ => Err EInvalid
  end.
Definition parse_field (ats : list attribute) : res (option T) := parse_common field_option ats None.
Fixpoint parse_fields (fs : list (list attribute)) : res (list (option T)) :=
  match fs with [] => Ok [] | f :: fs => c <- parse_field f ;; cs <- parse_fields fs ;; Ok (c :: cs) end.
(** derive.rs 99-132: size, tag, raw variant *)
Definition variant_option (c : option Z * option Z * bool) (m : meta) : res (option Z * option Z * bool) :=
  let '(size, tag, raw) := c in
  match m with
  | MPath p => if is_ident "raw_variant" p then Ok (size, tag, true) else Err EInvalid
  | MValue p (LitInt n) =>
      if is_ident "tag" p then match base10 128 n with Some t => Ok (size, Some t, raw) | None => Err EInvalid end
      else if is_ident "estimated_size" p then match base10 64 n with Some s => Ok (Some s, tag, raw) | None => Err EInvalid end
      else Err EInvalid
  | _ => Err EInvalid
  end.
Definition parse_variant (v : vdecl) : res (variant_cfg * bool) :=
  '(size, tag, raw) <- parse_common variant_option (vd_attrs v) (None, None, false) ;;
  fs <- parse_fields (vd_fields v) ;;
  Ok ({| vc_size := size; vc_tag := tag; vc_fields := fs |}, raw).
(** derive.rs 57-80: [tag_type(a::b)] is neither taken nor refused (67-68). *)
Definition type_option (c : option string) (m : meta) : res (option string) :=
  match m with
  | MList p ns =>
      if is_ident "tag_type" p then
        match ns with
        | [inl (MPath q)] => match get_ident q with Some i => Ok (Some i) | None => Ok c end
        | _ => Err EInvalid
        end
      else Err EInvalid
  | _ => Err EInvalid
  end.
(** derive.rs 81-94 *)
Fixpoint parse_variants (i : Z) (vs : list vdecl) (cs : list variant_cfg) (raw : option Z) : res (list variant_cfg * option Z) :=
  match vs with
  | [] => Ok (cs, raw)
  | v :: vs =>
      '(c, r) <- parse_variant v ;;
      match r, raw with
      | true, Some _ => Err EInvalid
      | true, None => parse_variants (i + 1) vs (cs ++ [c]) (Some i)
      | false, _ => parse_variants (i + 1) vs (cs ++ [c]) raw
      end
  end.
Definition parse_config (d : decl) : res config :=
  t <- parse_common type_option (type_attrs d) None ;;
  '(cs, raw) <- parse_variants 0 (variants d) [] None ;;
  Ok {| cf_variants := cs; cf_raw := raw; cf_tag_type := t |}.

(** derive.rs 331-353 (495-517): [fallback] is a u128. *)
Fixpoint scan_tags (md : mode) (fallback : Z) (vs : list vdecl) (cs : list variant_cfg) : res (list Z) :=
  match vs, cs with
  | v :: vs, c :: cs =>
      tag <- match vc_tag c with
             | Some t => Ok t
             | None => match vd_disc v with
                       | Some (DInt n) => match base10 128 n with Some t => Ok t | None => Panic PUnwrap end
                       | _ => Ok fallback
                       end
             end ;;
      next <- chk_u md 128 (tag + 1) ;;
      tags <- scan_tags md next vs cs ;;
      Ok (tag :: tags)
  | v :: vs, [] => Panic PIndex
  | [], _ => Ok []
  end.
(** What the generated code is made of: the fields of a struct, or the type of
    the tag, and tag and fields of every variant. *)
Inductive plan : Type :=
| PStruct (fields : list (option T))
| PEnum (tag_type : string) (arms : list (Z * list (option T))).
(** derive.rs 278-354 [derive_readwrite_impl], 414-518 [derive_constant_pool_readwrite_impl];
    [md] is the profile in which the macros were compiled. *)
Definition derive_rw (md : mode) (d : decl) : res plan :=
  cfg <- parse_config d ;;
  match d with
  | DStruct _ _ => match cf_variants cfg with c :: _ => Ok (PStruct (vc_fields c)) | [] => Panic PIndex end
  | DEnum _ vs =>
      tags <- scan_tags md 0 vs (cf_variants cfg) ;;
      match cf_tag_type cfg with
      | None => Panic PUnwrap
      | Some t => Ok (PEnum t (combine tags (map vc_fields (cf_variants cfg))))
      end
  end.
(** derive.rs 160-244 [attr_enum]: what is written for the variants (the raw one
    takes its first field), what is read for those that are not raw: the [k]-th of
    them with the [k]-th configuration of all (213, 243), whose fields are indexed
    by those of the variant. *)
Fixpoint take_fields (fs : list (list attribute)) (cfg : list (option T)) : res (list (option T)) :=
  match fs, cfg with
  | [], _ => Ok []
  | _ :: _, [] => Panic PIndex
  | _ :: fs, c :: cfg => cs <- take_fields fs cfg ;; Ok (c :: cs)
  end.
Fixpoint attr_write (raw i : Z) (vs : list vdecl) (cs : list variant_cfg) : res (list (list (option T))) :=
  match vs, cs with
  | [], _ => Ok []
  | _ :: _, [] => Panic PIndex
  | v :: vs, c :: cs =>
      f <- (if i =? raw then match vd_fields v with [] => Panic PIndex | _ => Ok [] end else take_fields (vd_fields v) (vc_fields c)) ;;
      fs <- attr_write raw (i + 1) vs cs ;;
      Ok (f :: fs)
  end.
Fixpoint attr_read (raw i : Z) (vs : list vdecl) (cs : list variant_cfg) : res (list (list (option T))) :=
  match vs with
  | [] => Ok []
  | v :: vs =>
      if i =? raw then attr_read raw (i + 1) vs cs
      else match cs with
           | [] => Panic PIndex
           | c :: cs => f <- take_fields (vd_fields v) (vc_fields c) ;; fs <- attr_read raw (i + 1) vs cs ;; Ok (f :: fs)
           end
  end.
Definition derive_attr (d : decl) : res (Z * list (list (option T)) * list (list (option T))) :=
  cfg <- parse_config d ;;
  match d with
  | DStruct _ _ => Err EInvalid
  | DEnum _ vs =>
      match cf_raw cfg with
      | None => Panic PUnwrap
      | Some raw =>
          w <- attr_write raw 0 vs (cf_variants cfg) ;;
          r <- attr_read raw 0 vs (cf_variants cfg) ;;
          Ok (raw, w, r)
      end
  end.
End Config.
Arguments variant_cfg : clear implicits.
Arguments config : clear implicits.
Arguments plan : clear implicits.
