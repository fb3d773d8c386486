(** What the options of the derive macros should mean (C93).  Nothing here
    refers to the functions of ConfigModel.v, only to its data. *)
From Coq Require Import String.
From Verif Require Import Base ConfigModel.

(** The path is the one word [s]. *)
Definition named (s : string) (p : path) : bool := if list_eq_dec string_dec p [s] then true else false.
(** The options of an item: what is listed in its attributes named [coffer]. *)
Definition opts (ats : list attribute) : list meta :=
  flat_map (fun a => if named "coffer" (a_path a)
                     then match a_meta a with Some (MList _ ns) => flat_map (fun x => match x with inl m => [m] | inr _ => [] end) ns | _ => [] end
                     else []) ats.
(** Attributes named [coffer] are lists of options, without literals. *)
Definition listed (ats : list attribute) : Prop :=
  forall a, In a ats -> a_path a = ["coffer"%string] -> exists p ns, a_meta a = Some (MList p ns) /\ forall x, In (inr x) ns -> False.
(** The value of an option that may be given more than once: the last one. *)
Definition last_of {X} (f : meta -> option X) (l : list meta) (o : option X) : Prop :=
  match o with
  | None => forall m, In m l -> f m = None
  | Some x => exists l1 m l2, l = l1 ++ m :: l2 /\ f m = Some x /\ forall m', In m' l2 -> f m' = None
  end.

Section Spec.
Context {T : Type} (parse_ty : string -> option T).
(** Fields: [as = ".."], a type. *)
Definition as_of (m : meta) : option T := match m with MValue p (LitStr s) => if named "as" p then parse_ty s else None | _ => None end.
(** Variants: [raw_variant], [tag = n] (128 bits), [estimated_size = n] (64 bits). *)
Definition tag_of (m : meta) : option Z := match m with MValue p (LitInt n) => if named "tag" p then Some (Z.of_N n) else None | _ => None end.
Definition size_of (m : meta) : option Z := match m with MValue p (LitInt n) => if named "estimated_size" p then Some (Z.of_N n) else None | _ => None end.
Definition variant_ok (m : meta) : Prop :=
  m = MPath ["raw_variant"%string] \/ (exists n, tag_of m = Some n /\ n < 2 ^ 128) \/ (exists n, size_of m = Some n /\ n < 2 ^ 64).
(** Types: [tag_type(x)]. *)
Definition type_ok (m : meta) : Prop := exists q, m = MList ["tag_type"%string] [inl (MPath q)].
Definition type_of (m : meta) : option string := match m with MList p [inl (MPath [i])] => if named "tag_type" p then Some i else None | _ => None end.

Definition field_read (ats : list attribute) (o : option T) : Prop :=
  listed ats /\ (forall m, In m (opts ats) -> as_of m <> None) /\ last_of as_of (opts ats) o.
Definition raw_variant (v : vdecl) : Prop := In (MPath ["raw_variant"%string]) (opts (vd_attrs v)).
Definition variant_read (v : vdecl) (c : variant_cfg T) : Prop :=
  listed (vd_attrs v) /\ (forall m, In m (opts (vd_attrs v)) -> variant_ok m) /\
  last_of tag_of (opts (vd_attrs v)) (vc_tag c) /\ last_of size_of (opts (vd_attrs v)) (vc_size c) /\
  Forall2 field_read (vd_fields v) (vc_fields c).
(** One variant at most is raw. *)
Definition raw_read (vs : list vdecl) (o : option Z) : Prop :=
  match o with
  | None => forall v, In v vs -> ~ raw_variant v
  | Some i => exists l1 v l2, vs = l1 ++ v :: l2 /\ len l1 = i /\ raw_variant v /\ forall v', In v' (l1 ++ l2) -> ~ raw_variant v'
  end.
Definition config_read (d : decl) (c : config T) : Prop :=
  listed (type_attrs d) /\ (forall m, In m (opts (type_attrs d)) -> type_ok m) /\
  last_of type_of (opts (type_attrs d)) (cf_tag_type c) /\
  Forall2 variant_read (variants d) (cf_variants c) /\ raw_read (variants d) (cf_raw c).
End Spec.

(** A declaration without the attributes that are not named [coffer]. *)
Definition only (ats : list attribute) : list attribute :=
  filter (fun a => named "coffer" (a_path a)) ats.
Definition only_v (v : vdecl) : vdecl := {| vd_attrs := only (vd_attrs v); vd_disc := vd_disc v; vd_fields := map only (vd_fields v) |}.
Definition only_d (d : decl) : decl :=
  match d with DStruct a fs => DStruct (only a) (map only fs) | DEnum a vs => DEnum (only a) (map only_v vs) end.

(** Tags: the option, else the discriminant if it is a number, else one more than
    the tag before, the first 0. *)
Definition tag_declared {T} (v : vdecl) (c : variant_cfg T) : option Z :=
  match vc_tag c with Some t => Some t | None => match vd_disc v with Some (DInt n) => Some (Z.of_N n) | _ => None end end.
Definition tags_right (ds : list (option Z)) (ts : list Z) : Prop :=
  List.length ts = List.length ds /\
  forall i t, nth_error ts i = Some t ->
    match nth_error ds i with
    | Some (Some x) => t = x
    | _ => match i with O => t = 0 | S j => exists u, nth_error ts j = Some u /\ t = u + 1 end
    end.
(** Variants without the discriminants that are not numbers. *)
Definition forget (v : vdecl) : vdecl :=
  {| vd_attrs := vd_attrs v; vd_disc := match vd_disc v with Some DExpr => None | o => o end; vd_fields := vd_fields v |}.
