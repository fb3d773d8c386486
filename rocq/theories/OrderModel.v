(** The orders hash maps are walked in.

    Two programs walk over a [std::collections::HashMap], whose order is
    arbitrary and differs between two maps with the same contents:
    - writing an annotation (annotation/mod.rs 240-250) walks over its
      [element_values];
    - reading code (code.rs 219-222) collects the local variables with
      [local_vars.into_values()].
    AnnModel and CodeModel take the order of the list.  Here every order is
    possible, so that writing and reading are relations.  The other walks
    (code.rs 231, over the labels) do not depend on the order: each label has
    its own place. *)
From Coq Require Import Permutation.
From Verif Require Import Base PrimModel TypeModel CpModel SigModel AnnModel AttrModel FrameModel InsnModel CodeModel ClassModel.

(** * Writing: the pairs of every map in any order *)
Inductive val_order : aval -> aval -> Prop :=
| vo_same v : val_order v v
| vo_array vs ws : Forall2 val_order vs ws -> val_order (VArray vs) (VArray ws)
| vo_annotation t vs us ws : Permutation vs us ->
    Forall2 (fun a b => fst b = fst a /\ val_order (snd a) (snd b)) us ws ->
    val_order (VAnnotation t vs) (VAnnotation t ws).
Definition vals_order (vs ws : list (list Z * aval)) : Prop :=
  exists us, Permutation vs us /\ Forall2 (fun a b => fst b = fst a /\ val_order (snd a) (snd b)) us ws.
(** annotation/mod.rs 213-220, type_annotation.rs 126-172 *)
Definition annot_order (a b : annot) : Prop := an_type b = an_type a /\ vals_order (an_vals a) (an_vals b).
Definition tannot_order {T} (a b : tannot T) : Prop :=
  ta_target b = ta_target a /\ ta_path b = ta_path a /\ ta_type b = ta_type a /\ vals_order (ta_vals a) (ta_vals b).
(** member.rs 50-110, clazz.rs 8-23, code/structure.rs 428-436: whatever holds annotations *)
Definition fattr_order (a b : fattr) : Prop :=
  match a, b with
  | FVisible x, FVisible y | FInvisible x, FInvisible y => Forall2 annot_order x y
  | FVisibleT x, FVisibleT y | FInvisibleT x, FInvisibleT y => Forall2 tannot_order x y
  | _, _ => b = a
  end.
Definition kattr_order (a b : kattr) : Prop :=
  match a, b with
  | KVisible x, KVisible y | KInvisible x, KInvisible y => Forall2 tannot_order x y
  | _, _ => b = a
  end.
Definition code_order (a b : code) : Prop :=
  cd_stack b = cd_stack a /\ cd_locals b = cd_locals a /\ cd_code b = cd_code a /\ cd_catches b = cd_catches a /\
  Forall2 kattr_order (cd_attrs a) (cd_attrs b).
Definition mattr_order (a b : mattr code) : Prop :=
  match a, b with
  | MCode x, MCode y => code_order x y
  | MVisible x, MVisible y | MInvisible x, MInvisible y => Forall2 annot_order x y
  | MVisibleT x, MVisibleT y | MInvisibleT x, MInvisibleT y => Forall2 tannot_order x y
  | MVisibleP x, MVisibleP y | MInvisibleP x, MInvisibleP y => Forall2 (Forall2 annot_order) x y
  | MDefault x, MDefault y => val_order x y
  | _, _ => b = a
  end.
Definition cattr_order (a b : cattr) : Prop :=
  match a, b with
  | CVisible x, CVisible y | CInvisible x, CInvisible y => Forall2 annot_order x y
  | CVisibleT x, CVisibleT y | CInvisibleT x, CInvisibleT y => Forall2 tannot_order x y
  | _, _ => b = a
  end.
Definition field_order (a b : field) : Prop :=
  f_access b = f_access a /\ f_name b = f_name a /\ f_desc b = f_desc a /\ Forall2 fattr_order (f_attrs a) (f_attrs b).
Definition method_order (a b : method code) : Prop :=
  me_access b = me_access a /\ me_name b = me_name a /\ me_desc b = me_desc a /\ Forall2 mattr_order (me_attrs a) (me_attrs b).
Definition class_order (a b : class) : Prop :=
  cl_version b = cl_version a /\ cl_access b = cl_access a /\ cl_name b = cl_name a /\ cl_super b = cl_super a /\
  cl_itfs b = cl_itfs a /\ Forall2 field_order (cl_fields a) (cl_fields b) /\
  Forall2 method_order (cl_methods a) (cl_methods b) /\ Forall2 cattr_order (cl_attrs a) (cl_attrs b).
(** [c.write_to] may come to [r] *)
Definition writes (fuel : nat) (md : mode) (heap : Z -> option bsm) (c : class) (r : res (list Z)) : Prop :=
  exists c1, class_order c c1 /\ wr_classfile fuel md heap c1 = r.

(** * Reading: the variables of each code attribute in any order *)
Definition kattr_collect (a b : kattr) : Prop :=
  match a, b with KLocals x, KLocals y => Permutation x y | _, _ => b = a end.
Definition code_collect (a b : code) : Prop :=
  cd_stack b = cd_stack a /\ cd_locals b = cd_locals a /\ cd_code b = cd_code a /\ cd_catches b = cd_catches a /\
  Forall2 kattr_collect (cd_attrs a) (cd_attrs b).
Definition mattr_collect (a b : mattr code) : Prop :=
  match a, b with MCode x, MCode y => code_collect x y | _, _ => b = a end.
Definition method_collect (a b : method code) : Prop :=
  me_access b = me_access a /\ me_name b = me_name a /\ me_desc b = me_desc a /\ Forall2 mattr_collect (me_attrs a) (me_attrs b).
Definition class_collect (a b : class) : Prop :=
  cl_version b = cl_version a /\ cl_access b = cl_access a /\ cl_name b = cl_name a /\ cl_super b = cl_super a /\
  cl_itfs b = cl_itfs a /\ cl_fields b = cl_fields a /\ Forall2 method_collect (cl_methods a) (cl_methods b) /\
  cl_attrs b = cl_attrs a.
(** [Class::read_from] may come to [c] with the cells [h], [rest] being left *)
Definition reads (md : mode) (l : list Z) (c : class) (h : list (Z * bsm)) (rest : list Z) : Prop :=
  exists c0, rd_classfile md l = Ok ((c0, h), rest) /\ class_collect c0 c.
