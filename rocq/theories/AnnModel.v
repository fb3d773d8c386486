(** Annotations: src/annotation/mod.rs, src/annotation/type_annotation.rs
    (the targets inside code, which refer to labels, are in CodeModel). *)
From Verif Require Import Base Wtf8Model PrimModel TypeModel CpModel.

(** src/annotation/mod.rs 36-69 [AnnotationValue].  Floats are bit patterns,
    a [HashMap] is the list of its pairs in iteration order; the [Annotation]
    inside the variant of that name is spelled out. *)
Inductive aval : Type :=
| VByte (x : Z) | VChar (x : Z) | VDouble (bits : Z) | VFloat (bits : Z) | VInt (x : Z)
| VLong (x : Z) | VShort (x : Z) | VBoolean (b : bool)
| VString (s : list Z)
| VEnum (t : ty) (n : list Z)
| VClass (t : option ty)
| VAnnotation (t : ty) (vs : list (list Z * aval))
| VArray (vs : list aval).

(** src/annotation/mod.rs 213-220 [Annotation]. *)
Record annot : Type := { an_type : ty; an_vals : list (list Z * aval) }.

(** "V" (mod.rs 112, 185). *)
Definition s_V : list Z := [86].

(** mod.rs 135-211 [write_to]: [cp_int] writes the index of an Integer entry;
    the class is the Display text; [v.len() as u16]. *)
Section WrVals.
Variable f : cwr aval.
(** mod.rs 240-250: [self.len() as u16], then name and value of each pair. *)
Definition wr_vals_with : cwr (list (list Z * aval)) := fun E vs w =>
  '(bs, w) <- wr_each (fun E (kv : list Z * aval) w =>
                let (k, v) := kv in
                '(a, w) <- wr_cow E k w ;; '(b, w) <- f E v w ;; Ok (a ++ b, w)) E vs w ;;
  Ok (be 2 (len vs) ++ bs, w).
End WrVals.
Definition wr_tagged {A} (tag : Z) (f : cwr A) : cwr A := fun E a w =>
  '(b, w) <- f E a w ;; Ok (be 1 tag ++ b, w).
Fixpoint wr_aval (E : wenv) (v : aval) (w : wst) {struct v} : res (list Z * wst) :=
  match v with
  | VByte x => wr_tagged 66 wr_cint E x w
  | VChar x => wr_tagged 67 wr_cint E x w
  | VDouble x => wr_tagged 68 wr_cdouble E x w
  | VFloat x => wr_tagged 70 wr_cfloat E x w
  | VInt x => wr_tagged 73 wr_cint E x w
  | VLong x => wr_tagged 74 wr_clong E x w
  | VShort x => wr_tagged 83 wr_cint E x w
  | VBoolean b => wr_tagged 90 wr_cint E (if b then 1 else 0) w
  | VString s => wr_tagged 115 wr_cow E s w
  | VEnum t n =>
      '(a, w) <- wr_type E t w ;; '(b, w) <- wr_cow E n w ;; Ok (be 1 101 ++ a ++ b, w)
  | VClass o =>
      s <- match o with None => Ok s_V | Some t => display_type t end ;;
      wr_tagged 99 wr_cow E s w
  | VAnnotation t vs =>
      '(a, w) <- wr_type E t w ;;
      '(b, w) <- wr_vals_with wr_aval E vs w ;;
      Ok (be 1 64 ++ a ++ b, w)
  | VArray vs =>
      '(bs, w) <- wr_each wr_aval E vs w ;;
      Ok (be 1 91 ++ be 2 (len vs) ++ bs, w)
  end.
Definition wr_vals : cwr (list (list Z * aval)) := wr_vals_with wr_aval.
(** derived: fields in order *)
Definition wr_annot : cwr annot := fun E a w =>
  '(x, w) <- wr_type E (an_type a) w ;;
  '(y, w) <- wr_vals E (an_vals a) w ;;
  Ok (x ++ y, w).

(** mod.rs 223-238: a repeated name replaces the earlier value. *)
Fixpoint rd_pairs (p : pool) (r : rd aval) (n : nat) (m : list (list Z * aval))
  : rd (list (list Z * aval)) := fun l =>
  match n with
  | O => Ok (m, l)
  | S n =>
      '(k, l) <- rd_cow p l ;;
      '(v, l) <- r l ;;
      rd_pairs p r n (assoc_set (list_eqb Z.eqb) k v m) l
  end.
Definition rd_vals_with (p : pool) (r : rd aval) : rd (list (list Z * aval)) := fun l =>
  '(n, l) <- rd_u16 l ;; rd_pairs p r (Z.to_nat n) [] l.
(** [i32::try_into] to a type with the given range. *)
Definition in_range (lo hi : Z) (f : Z -> aval) : Z * list Z -> res (aval * list Z) :=
  fun '(x, l) => if (lo <=? x) && (x <=? hi) then Ok (f x, l) else Err EInvalid.
(** mod.rs 72-133 [read_from].  Every nested value takes at least its tag byte,
    so the length of the input bounds the depth. *)
Fixpoint rd_aval_n (md : mode) (p : pool) (fuel : nat) : rd aval := fun l =>
  match fuel with
  | O => Panic PFuel
  | S n =>
      '(t, l) <- rd_u8 l ;;
      if t =? 66 then r <- rd_cint p l ;; in_range (-128) 127 VByte r
      else if t =? 67 then r <- rd_cint p l ;; in_range 0 65535 VChar r
      else if t =? 68 then '(x, l) <- rd_cdouble p l ;; Ok (VDouble x, l)
      else if t =? 70 then '(x, l) <- rd_cfloat p l ;; Ok (VFloat x, l)
      else if t =? 73 then '(x, l) <- rd_cint p l ;; Ok (VInt x, l)
      else if t =? 74 then '(x, l) <- rd_clong p l ;; Ok (VLong x, l)
      else if t =? 83 then r <- rd_cint p l ;; in_range (-32768) 32767 VShort r
      else if t =? 90 then
        '(x, l) <- rd_cint p l ;;
        if x =? 1 then Ok (VBoolean true, l)
        else if x =? 0 then Ok (VBoolean false, l) else Err EInvalid
      else if t =? 115 then '(s, l) <- rd_cow p l ;; Ok (VString s, l)
      else if t =? 101 then
        '(t, l) <- rd_type md p l ;; '(n, l) <- rd_cow p l ;; Ok (VEnum t n, l)
      else if t =? 99 then
        '(s, l) <- rd_cow p l ;;
        if list_eqb Z.eqb s s_V then Ok (VClass None, l)
        else t <- parse_type md s ;; Ok (VClass (Some t), l)
      else if t =? 64 then
        '(t, l) <- rd_type md p l ;;
        '(vs, l) <- rd_vals_with p (rd_aval_n md p n) l ;; Ok (VAnnotation t vs, l)
      else if t =? 91 then
        '(k, l) <- rd_u16 l ;;
        '(vs, l) <- rd_times (Z.to_nat k) (rd_aval_n md p n) l ;; Ok (VArray vs, l)
      else Err EInvalid
  end.
Definition rd_aval (md : mode) (p : pool) : rd aval := fun l => rd_aval_n md p (S (length l)) l.
Definition rd_vals (md : mode) (p : pool) : rd (list (list Z * aval)) :=
  fun l => rd_vals_with p (rd_aval_n md p (length l)) l.
Definition rd_annot (md : mode) (p : pool) : rd annot := fun l =>
  '(t, l) <- rd_type md p l ;;
  '(vs, l) <- rd_vals md p l ;;
  Ok ({| an_type := t; an_vals := vs |}, l).

(** * Type annotations *)

(** type_annotation.rs 11-32, 34-48, 147-152. *)
Inductive class_target : Type :=
| CtParam (i : Z) | CtSuper (i : Z) | CtBound (i b : Z).
Inductive method_target : Type :=
| MtParam (i : Z) | MtBound (i b : Z) | MtReturn | MtReceiver | MtFormal (i : Z) | MtThrows (i : Z).
Inductive field_target : Type := FtField.
(** 117-124 *)
Inductive tpath : Type := PArray (i : Z) | PNested (i : Z) | PBound (i : Z) | PArgument (i : Z).

(** Derived [ReadWrite]: tag byte, then the fields. *)
Definition wr_class_target : wr class_target := fun t =>
  match t with
  | CtParam i => Ok (be 1 0 ++ be 1 i)
  | CtSuper i => Ok (be 1 16 ++ be 2 i)
  | CtBound i b => Ok (be 1 17 ++ be 1 i ++ be 1 b)
  end.
Definition rd_class_target : rd class_target := fun l =>
  '(t, l) <- rd_u8 l ;;
  if t =? 0 then '(i, l) <- rd_u8 l ;; Ok (CtParam i, l)
  else if t =? 16 then '(i, l) <- rd_u16 l ;; Ok (CtSuper i, l)
  else if t =? 17 then '(i, l) <- rd_u8 l ;; '(b, l) <- rd_u8 l ;; Ok (CtBound i b, l)
  else Err EInvalid.
Definition wr_method_target : wr method_target := fun t =>
  match t with
  | MtParam i => Ok (be 1 1 ++ be 1 i)
  | MtBound i b => Ok (be 1 18 ++ be 1 i ++ be 1 b)
  | MtReturn => Ok (be 1 20)
  | MtReceiver => Ok (be 1 21)
  | MtFormal i => Ok (be 1 22 ++ be 1 i)
  | MtThrows i => Ok (be 1 23 ++ be 2 i)
  end.
Definition rd_method_target : rd method_target := fun l =>
  '(t, l) <- rd_u8 l ;;
  if t =? 1 then '(i, l) <- rd_u8 l ;; Ok (MtParam i, l)
  else if t =? 18 then '(i, l) <- rd_u8 l ;; '(b, l) <- rd_u8 l ;; Ok (MtBound i b, l)
  else if t =? 20 then Ok (MtReturn, l)
  else if t =? 21 then Ok (MtReceiver, l)
  else if t =? 22 then '(i, l) <- rd_u8 l ;; Ok (MtFormal i, l)
  else if t =? 23 then '(i, l) <- rd_u16 l ;; Ok (MtThrows i, l)
  else Err EInvalid.
Definition wr_field_target : wr field_target := fun t => match t with FtField => Ok (be 1 19) end.
Definition rd_field_target : rd field_target := fun l =>
  '(t, l) <- rd_u8 l ;; if t =? 19 then Ok (FtField, l) else Err EInvalid.
(** no explicit tags: 0, 1, 2, 3 *)
Definition wr_tpath : wr tpath := fun t =>
  match t with
  | PArray i => Ok (be 1 0 ++ be 1 i)
  | PNested i => Ok (be 1 1 ++ be 1 i)
  | PBound i => Ok (be 1 2 ++ be 1 i)
  | PArgument i => Ok (be 1 3 ++ be 1 i)
  end.
Definition rd_tpath : rd tpath := fun l =>
  '(t, l) <- rd_u8 l ;;
  if t =? 0 then '(i, l) <- rd_u8 l ;; Ok (PArray i, l)
  else if t =? 1 then '(i, l) <- rd_u8 l ;; Ok (PNested i, l)
  else if t =? 2 then '(i, l) <- rd_u8 l ;; Ok (PBound i, l)
  else if t =? 3 then '(i, l) <- rd_u8 l ;; Ok (PArgument i, l)
  else Err EInvalid.

(** 126-172: the four type annotation structures, over the type of target. *)
Record tannot (T : Type) : Type := {
  ta_target : T; ta_path : list tpath; ta_type : ty; ta_vals : list (list Z * aval) }.
Arguments ta_target {T}. Arguments ta_path {T}. Arguments ta_type {T}. Arguments ta_vals {T}.
Definition wr_tannot {T} (f : cwr T) : cwr (tannot T) := fun E a w =>
  '(x1, w) <- f E (ta_target a) w ;;
  '(x2, w) <- wr_cvec 1 (wr_plain wr_tpath) E (ta_path a) w ;;
  '(x3, w) <- wr_type E (ta_type a) w ;;
  '(x4, w) <- wr_vals E (ta_vals a) w ;;
  Ok (x1 ++ x2 ++ x3 ++ x4, w).
(** after the target *)
Definition rd_tannot_rest {T} (md : mode) (p : pool) (t : T) : rd (tannot T) := fun l =>
  '(pa, l) <- rd_vec 1 rd_tpath l ;;
  '(ty, l) <- rd_type md p l ;;
  '(vs, l) <- rd_vals md p l ;;
  Ok ({| ta_target := t; ta_path := pa; ta_type := ty; ta_vals := vs |}, l).
Definition rd_tannot {T} (r : rd T) (md : mode) (p : pool) : rd (tannot T) := fun l =>
  '(t, l) <- r l ;; rd_tannot_rest md p t l.
