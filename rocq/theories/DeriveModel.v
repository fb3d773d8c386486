(** What the derive macros generate: coffer_macros/src/derive.rs. *)
From Coq Require Import String.
From Verif Require Import Base PrimModel.

(** ** Fields

    Every field is written and read by the trait implementation of its type, or
    by the helper named in [#[coffer(as = ..)]].  [W] and [R] are the state of
    the constant pool on the writing and the reading side ([unit] for
    [derive(ReadWrite)]: derive.rs 278-412, the same text as 414-580 without
    [cp]); values of all field types are in one type [V]. *)
Record codec (W R V : Type) : Type := {
  fw : V -> W -> res (list Z * W);
  fr : R -> list Z -> res ((V * R) * list Z) }.
Arguments fw {W R V}.
Arguments fr {W R V}.

(** derive.rs 287-311 (423-447): the fields of a struct are written and read in
    the order of the declaration.  Numbers of fields and values that differ are
    ill-typed in Rust. *)
Fixpoint wr_fields {W R V} (fs : list (codec W R V)) (xs : list V) (w : W) : res (list Z * W) :=
  match fs, xs with
  | [], [] => Ok ([], w)
  | f :: fs, x :: xs => '(b, w) <- fw f x w ;; '(bs, w) <- wr_fields fs xs w ;; Ok (b ++ bs, w)
  | _, _ => Panic PUB
  end.
Fixpoint rd_fields {W R V} (fs : list (codec W R V)) (r : R) (l : list Z) : res ((list V * R) * list Z) :=
  match fs with
  | [] => Ok (([], r), l)
  | f :: fs => '((x, r), l) <- fr f r l ;; '((xs, r), l) <- rd_fields fs r l ;; Ok ((x :: xs, r), l)
  end.

(** ** Tagged enums *)

(** One variant: [#[coffer(tag = ..)]] (derive.rs 104-110), the discriminant if
    it is an integer literal (338-345), the fields. *)
Record variant (W R V : Type) : Type := {
  v_tag : option Z; v_disc : option Z; v_fields : list (codec W R V) }.
Arguments v_tag {W R V}.
Arguments v_disc {W R V}.
Arguments v_fields {W R V}.

(** derive.rs 331-353 (495-517). *)
Definition declared {W R V} (v : variant W R V) : option Z :=
  match v_tag v with Some t => Some t | None => v_disc v end.
Definition tags_of {W R V} (vs : list (variant W R V)) : list Z := derive_tags (map declared vs).

(** derive.rs 356-380 (520-542): the tag as an unsigned number of [n] bytes (a
    literal that does not fit [tag_type] is rejected by rustc), then the fields.
    A value is the number of its variant and the values of its fields. *)
Definition wr_enum {W R V} (n : nat) (vs : list (variant W R V)) (x : nat * list V) (w : W) : res (list Z * W) :=
  match nth_error vs (fst x), nth_error (tags_of vs) (fst x) with
  | Some v, Some t => '(b, w) <- wr_fields (v_fields v) (snd x) w ;; Ok (be n t ++ b, w)
  | _, _ => Panic PUB
  end.
(** derive.rs 381-404 (543-563): a [match] on the tag with one arm per variant,
    in the order of the declaration (of two arms with the same literal, rustc
    takes the first and warns that the second is unreachable). *)
Fixpoint arm {W R V} (t : Z) (k : nat) (ts : list Z) (vs : list (variant W R V)) : option (nat * variant W R V) :=
  match ts, vs with
  | t' :: ts, v :: vs => if t =? t' then Some (k, v) else arm t (S k) ts vs
  | _, _ => None
  end.
Definition rd_enum {W R V} (n : nat) (vs : list (variant W R V)) (r : R) (l : list Z) : res (((nat * list V) * R) * list Z) :=
  '(t, l) <- rd_u n l ;;
  match arm t 0 (tags_of vs) vs with
  | Some (k, v) => '((xs, r), l) <- rd_fields (v_fields v) r l ;; Ok (((k, xs), r), l)
  | None => Err EInvalid
  end.

(** ** The tagged enums of the crate: where, bytes of the tag, what is declared
    per variant. *)
Definition crate_enums : list (string * nat * list (option Z)) :=
  [ ("src/annotation/type_annotation.rs 12-27 ClassTypeAnnotationTarget", 1%nat, [Some 0; Some 0x10; Some 0x11]);
    ("src/annotation/type_annotation.rs 30-45 MethodTypeAnnotationTarget", 1%nat,
      [Some 1; Some 0x12; Some 0x14; Some 0x15; Some 0x16; Some 0x17]);
    ("src/annotation/type_annotation.rs 83-111 CodeTypeAnnotationTarget", 1%nat, Some 0x40 :: repeat None 11);
    ("src/annotation/type_annotation.rs 113-120 TypePath", 1%nat, repeat None 4);
    ("src/annotation/type_annotation.rs 142-147 FieldTarget", 1%nat, [Some 0x13]);
    ("src/cp.rs 33-54 ConstEntryRef", 1%nat, None :: Some 3 :: repeat None 9 ++ Some 15 :: repeat None 5);
    ("src/cp.rs 58-81 RawConstantEntry", 1%nat, Some 1 :: Some 3 :: repeat None 9 ++ Some 15 :: repeat None 5);
    ("src/version.rs 22-56 MajorVersion", 2%nat, Some 45 :: repeat None 14);
    ("src/insn.rs 10-28 Wide", 1%nat, Some 0x15 :: repeat None 4 ++ Some 0x36 :: repeat None 4 ++ [Some 0x84; Some 0xA9]);
    ("src/insn.rs 60-467 Instruction", 1%nat, map (fun k => Some (Z.of_nat k)) (seq 0 202));
    ("src/loadable.rs 15-37 MethodHandleKind", 1%nat, Some 1 :: repeat None 8) ]%string.

(** ** Two declarations of the crate as input of the macro *)
Inductive val : Type := VN (x : Z) | VS (s : list Z).
Definition num (n : nat) (rd : rd Z) : codec unit unit val := {|
  fw := fun x w => match x with VN x => b <- wr_n n x ;; Ok (b, w) | VS _ => Panic PUB end;
  fr := fun r l => '(x, l) <- rd l ;; Ok ((VN x, r), l) |}.
Definition txt : codec unit unit val := {|
  fw := fun x w => match x with VS s => b <- wr_string s ;; Ok (b, w) | VN _ => Panic PUB end;
  fr := fun r l => '(s, l) <- rd_string l ;; Ok ((VS s, r), l) |}.
Definition c_u8 := num 1 rd_u8.   Definition c_u16 := num 2 rd_u16.  Definition c_i16 := num 2 rd_i16.
Definition c_i32 := num 4 rd_i32. Definition c_f32 := num 4 rd_f32.
Definition c_i64 := num 8 rd_i64. Definition c_f64 := num 8 rd_f64.
Definition at_tag (t : Z) (fs : list (codec unit unit val)) : variant unit unit val := {| v_tag := Some t; v_disc := None; v_fields := fs |}.
Definition next (fs : list (codec unit unit val)) : variant unit unit val := {| v_tag := None; v_disc := None; v_fields := fs |}.

(** src/cp.rs 58-81. *)
Definition raw_decl : list (variant unit unit val) :=
  [ at_tag 1 [txt]; at_tag 3 [c_i32]; next [c_f32]; next [c_i64]; next [c_f64]; next [c_u16]; next [c_u16]; next [c_u16; c_u16];
    next [c_u16; c_u16]; next [c_u16; c_u16]; next [c_u16; c_u16]; at_tag 15 [c_u8; c_u16]; next [c_u16]; next [c_u16; c_u16];
    next [c_u16; c_u16]; next [c_u16]; next [c_u16] ].
(** src/insn.rs 10-28. *)
Definition wide_decl : list (variant unit unit val) :=
  [ at_tag 0x15 [c_u16]; next [c_u16]; next [c_u16]; next [c_u16]; next [c_u16];
    at_tag 0x36 [c_u16]; next [c_u16]; next [c_u16]; next [c_u16]; next [c_u16]; at_tag 0x84 [c_u16; c_i16]; at_tag 0xA9 [c_u16] ].

(** ** [derive(AttributeEnum)]: derive.rs 160-276

    A field is given by its type, that is, a codec for each way to be read and
    written (none, or the helper named by [as]), and by the [as] written at it. *)
Record afield (A C : Type) : Type := { af_as : option A; af_codec : option A -> C }.
Arguments af_as {A C}.
Arguments af_codec {A C}.
(** derive.rs 171-211: variants are written with the configuration at their own
    index ([variant_index] counts all variants). *)
Definition write_codecs {A C} (vs : list (list (afield A C))) (i : nat) : option (list C) :=
  match nth_error vs i with
  | Some fs => Some (map (fun f => af_codec f (af_as f)) fs)
  | None => None
  end.
(** derive.rs 212-244: for reading, [variant_index] counts the variants without
    the raw one, but indexes the configurations of all.  [None]: the index [i]
    into the fields is out of range, the macro panics and nothing is compiled. *)
Fixpoint with_config {A C} (fs cfg : list (afield A C)) : option (list C) :=
  match fs, cfg with
  | [], _ => Some []
  | f :: fs, c :: cfg => match with_config fs cfg with Some cs => Some (af_codec f (af_as c) :: cs) | None => None end
  | _ :: _, [] => None
  end.
Definition read_codecs {A C} (raw : nat) (vs : list (list (afield A C))) (i : nat) : option (list C) :=
  match nth_error vs i, nth_error vs (if (i <? raw)%nat then i else i - 1)%nat with
  | Some fs, Some cfg => with_config fs cfg
  | _, _ => None
  end.
(** The attribute enums of the crate: where, number of variants, index of the
    raw one. *)
Definition crate_attr_enums : list (string * nat * nat) :=
  [ ("src/member.rs 50-62 FieldAttribute", 9%nat, 8%nat); ("src/member.rs 81-98 MethodAttribute", 14%nat, 13%nat);
    ("src/attr.rs 98-122 ClassAttribute", 18%nat, 17%nat); ("src/code/structure.rs 416-426 CodeAttr", 7%nat, 6%nat) ]%string.
