(** JVMS 4.7.16 and 4.7.20: layout of annotations. *)
From Verif Require Import Base Wtf8Spec TypeModel TypeSpec CpModel CpSpec AnnModel.

(** JVMS table 4.7.16.1-A: [tag] is the character named there. *)
Section Aval.
Variable W : world.
Inductive fmt_aval : aval -> list Z -> Prop :=
| fa_byte x i : fmt_pidx is_constant W (KI32 x) i -> fmt_aval (VByte x) ([66] ++ i)
| fa_char x i : fmt_pidx is_constant W (KI32 x) i -> fmt_aval (VChar x) ([67] ++ i)
| fa_double x i : fmt_pidx is_constant W (KF64 x) i -> fmt_aval (VDouble x) ([68] ++ i)
| fa_float x i : fmt_pidx is_constant W (KF32 x) i -> fmt_aval (VFloat x) ([70] ++ i)
| fa_int x i : fmt_pidx is_constant W (KI32 x) i -> fmt_aval (VInt x) ([73] ++ i)
| fa_long x i : fmt_pidx is_constant W (KI64 x) i -> fmt_aval (VLong x) ([74] ++ i)
| fa_short x i : fmt_pidx is_constant W (KI32 x) i -> fmt_aval (VShort x) ([83] ++ i)
| fa_true i : fmt_pidx is_constant W (KI32 1) i -> fmt_aval (VBoolean true) ([90] ++ i)
| fa_false i : fmt_pidx is_constant W (KI32 0) i -> fmt_aval (VBoolean false) ([90] ++ i)
| fa_string s i : fmt_utf8 W s i -> fmt_aval (VString s) ([115] ++ i)
| fa_enum t n i j : fmt_desc W t i -> fmt_utf8 W n j -> fmt_aval (VEnum t n) ([101] ++ i ++ j)
| fa_class t i : fmt_desc W t i -> fmt_aval (VClass (Some t)) ([99] ++ i)
| fa_void i : fmt_utf8 W [86] i -> fmt_aval (VClass None) ([99] ++ i)
| fa_annotation t vs i bs : fmt_desc W t i -> fmt_avals vs bs ->
    fmt_aval (VAnnotation t vs) ([64] ++ i ++ bs)
| fa_array vs bss : len vs < 65536 -> Forall2 fmt_aval vs bss ->
    fmt_aval (VArray vs) ([91] ++ u2 (len vs) ++ concat bss)
(** [num_element_value_pairs], then name and value of each pair *)
with fmt_avals : list (list Z * aval) -> list Z -> Prop :=
| fas vs bss : len vs < 65536 ->
    Forall2 (fun kv bs => exists i b,
      bs = i ++ b /\ fmt_utf8 W (fst kv) i /\ fmt_aval (snd kv) b) vs bss ->
    fmt_avals vs (u2 (len vs) ++ concat bss).
End Aval.
Definition fmt_annot : fmt annot := fun W a bs =>
  exists i b, bs = i ++ b /\ fmt_desc W (an_type a) i /\ fmt_avals W (an_vals a) b.

(** Values that can be represented. *)
Inductive wf_aval : aval -> Prop :=
| wa_byte x : i8 x -> wf_aval (VByte x)
| wa_char x : u16 x -> wf_aval (VChar x)
| wa_double x : u64 x -> wf_aval (VDouble x)
| wa_float x : u32 x -> wf_aval (VFloat x)
| wa_int x : i32 x -> wf_aval (VInt x)
| wa_long x : i64 x -> wf_aval (VLong x)
| wa_short x : i16 x -> wf_aval (VShort x)
| wa_bool b : wf_aval (VBoolean b)
| wa_string s : jstr s -> wf_aval (VString s)
| wa_enum t n : wf_desc t -> jstr n -> wf_aval (VEnum t n)
| wa_class t : utf8_desc t -> wf_aval (VClass (Some t))
| wa_void : wf_aval (VClass None)
| wa_annotation t vs : wf_desc t -> len vs < 65536 -> NoDup (map fst vs) ->
    Forall (fun kv => jstr (fst kv) /\ wf_aval (snd kv)) vs -> wf_aval (VAnnotation t vs)
| wa_array vs : len vs < 65536 -> Forall wf_aval vs -> wf_aval (VArray vs).
Definition wf_vals (vs : list (list Z * aval)) : Prop :=
  len vs < 65536 /\ NoDup (map fst vs) /\ Forall (fun kv => jstr (fst kv) /\ wf_aval (snd kv)) vs.
Definition wf_annot (a : annot) : Prop := wf_desc (an_type a) /\ wf_vals (an_vals a).

(** JVMS tables 4.7.20-A/B: [target_type] and [target_info]. *)
Definition class_target_bytes (t : class_target) : list Z :=
  match t with
  | CtParam i => 0x00 :: u1 i            (* type_parameter_target *)
  | CtSuper i => 0x10 :: u2 i            (* supertype_target *)
  | CtBound i b => 0x11 :: u1 i ++ u1 b  (* type_parameter_bound_target *)
  end.
Definition wf_class_target (t : class_target) : Prop :=
  match t with CtParam i => u8 i | CtSuper i => u16 i | CtBound i b => u8 i /\ u8 b end.
Definition method_target_bytes (t : method_target) : list Z :=
  match t with
  | MtParam i => 0x01 :: u1 i
  | MtBound i b => 0x12 :: u1 i ++ u1 b
  | MtReturn => [0x14]
  | MtReceiver => [0x15]
  | MtFormal i => 0x16 :: u1 i
  | MtThrows i => 0x17 :: u2 i
  end.
Definition wf_method_target (t : method_target) : Prop :=
  match t with
  | MtParam i | MtFormal i => u8 i | MtBound i b => u8 i /\ u8 b
  | MtThrows i => u16 i | _ => True
  end.
Definition field_target_bytes (t : field_target) : list Z := [0x13].
(** JVMS table 4.7.20.2-A: deeper in an array type, deeper in a nested type,
    bound of a wildcard, type argument; [type_argument_index]. *)
Definition tpath_bytes (t : tpath) : list Z :=
  match t with PArray i => 0 :: u1 i | PNested i => 1 :: u1 i | PBound i => 2 :: u1 i | PArgument i => 3 :: u1 i end.
Definition wf_tpath (t : tpath) : Prop :=
  match t with PArray i | PNested i | PBound i | PArgument i => u8 i end.
Definition fmt_bytes {A} (f : A -> list Z) : fmt A := fun _ a bs => bs = f a.
Definition fmt_tannot {T} (f : fmt T) : fmt (tannot T) := fun W a bs =>
  exists x1 x2 x3 x4, bs = x1 ++ x2 ++ x3 ++ x4 /\ f W (ta_target a) x1 /\
    fmt_table1 (fmt_bytes tpath_bytes) W (ta_path a) x2 /\
    fmt_desc W (ta_type a) x3 /\ fmt_avals W (ta_vals a) x4.
Definition wf_tannot {T} (P : T -> Prop) (a : tannot T) : Prop :=
  P (ta_target a) /\ len (ta_path a) < 256 /\ Forall wf_tpath (ta_path a) /\
  wf_desc (ta_type a) /\ wf_vals (ta_vals a).
