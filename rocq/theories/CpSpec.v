(** JVMS 4.4 constant pool: layout of entries and meaning of indices,
    independent of the reading and writing functions. *)
From Verif Require Import Base Wtf8Spec TypeModel TypeSpec CpModel.

(** Big-endian u1, u2, u4 and 8 bytes (two's complement for signed numbers). *)
Definition u1 (x : Z) : list Z := [x mod 256].
Definition u2 (x : Z) : list Z := [x / 256 mod 256; x mod 256].
Definition u4 (x : Z) : list Z :=
  [x / 16777216 mod 256; x / 65536 mod 256; x / 256 mod 256; x mod 256].
Definition u8_ (x : Z) : list Z := u4 (x / 4294967296) ++ u4 x.

(** A string a CONSTANT_Utf8 entry can hold. *)
Definition jstr (s : list Z) : Prop :=
  exists cps, wtf8_of cps s /\ len (mutf8_of (flat_map utf16 cps)) <= 65535.

(** The field values an entry can hold. *)
Definition entry_wf (e : raw_entry) : Prop :=
  match e with
  | RWtf8 s => jstr s
  | RInt i => i32 i
  | RFloat b => u32 b
  | RLong i => i64 i
  | RDouble b => u64 b
  | RClass a | RString a | RMType a | RModule a | RPackage a => u16 a
  | RField a b | RMethod a b | RItfMethod a b | RNameType a b
  | RDynamic a b | RInvokeDynamic a b => u16 a /\ u16 b
  | RMHandle k m => u8 k /\ u16 m
  end.

(** JVMS 4.4.1-4.4.12: tag and fields of an entry. *)
Inductive entry_fmt : raw_entry -> list Z -> Prop :=
| f_utf8 s cps : wtf8_of cps s -> let b := mutf8_of (flat_map utf16 cps) in len b <= 65535 ->
    entry_fmt (RWtf8 s) ([1] ++ u2 (len b) ++ b)
| f_int i : entry_fmt (RInt i) ([3] ++ u4 i)
| f_float b : entry_fmt (RFloat b) ([4] ++ u4 b)
| f_long i : entry_fmt (RLong i) ([5] ++ u8_ i)
| f_double b : entry_fmt (RDouble b) ([6] ++ u8_ b)
| f_class i : entry_fmt (RClass i) ([7] ++ u2 i)
| f_string i : entry_fmt (RString i) ([8] ++ u2 i)
| f_field c nt : entry_fmt (RField c nt) ([9] ++ u2 c ++ u2 nt)
| f_method c nt : entry_fmt (RMethod c nt) ([10] ++ u2 c ++ u2 nt)
| f_itf c nt : entry_fmt (RItfMethod c nt) ([11] ++ u2 c ++ u2 nt)
| f_nt n t : entry_fmt (RNameType n t) ([12] ++ u2 n ++ u2 t)
| f_mh k m : entry_fmt (RMHandle k m) ([15] ++ u1 k ++ u2 m)
| f_mt d : entry_fmt (RMType d) ([16] ++ u2 d)
| f_dyn b nt : entry_fmt (RDynamic b nt) ([17] ++ u2 b ++ u2 nt)
| f_indy b nt : entry_fmt (RInvokeDynamic b nt) ([18] ++ u2 b ++ u2 nt)
| f_module n : entry_fmt (RModule n) ([19] ++ u2 n)
| f_package n : entry_fmt (RPackage n) ([20] ++ u2 n).

(** JVMS 4.4.5: long and double take two slots. *)
Definition slots_of (e : raw_entry) : Z :=
  match e with RLong _ | RDouble _ => 2 | _ => 1 end.
(** [constant_pool_count] of a table: one more than the slots used. *)
Definition count_of (es : list raw_entry) : Z := 1 + fold_right (fun e n => slots_of e + n) 0 es.

(** What an index stands for. *)
Definition is_utf8_at (p : pool) (i : Z) (s : list Z) : Prop := p i = Some (RWtf8 s).
Definition is_class (p : pool) (i : Z) (s : list Z) : Prop :=
  exists j, p i = Some (RClass j) /\ is_utf8_at p j s.
Definition is_string (p : pool) (i : Z) (s : list Z) : Prop :=
  exists j, p i = Some (RString j) /\ is_utf8_at p j s.
Definition is_module (p : pool) (i : Z) (s : list Z) : Prop :=
  exists j, p i = Some (RModule j) /\ is_utf8_at p j s.
Definition is_package (p : pool) (i : Z) (s : list Z) : Prop :=
  exists j, p i = Some (RPackage j) /\ is_utf8_at p j s.
(** the entry of the given tag that wraps a string *)
Definition is_indirect (tag : Z) (p : pool) (i : Z) (s : list Z) : Prop :=
  tag = 7 /\ is_class p i s \/ tag = 8 /\ is_string p i s \/
  tag = 19 /\ is_module p i s \/ tag = 20 /\ is_package p i s.
Definition is_nametype (p : pool) (i : Z) (n : list Z) (t : ty) : Prop :=
  exists a b, p i = Some (RNameType a b) /\ is_utf8_at p a n /\ is_utf8_at p b (ty_text t).
(** JVMS 4.4.2: Fieldref for field descriptors; Methodref or InterfaceMethodref
    for method descriptors. *)
Definition is_member (p : pool) (i : Z) (m : member) : Prop :=
  exists c nt,
    p i = Some (match m_desc m with
                | TMethod _ _ => if m_itfs m then RItfMethod c nt else RMethod c nt
                | _ => RField c nt
                end) /\
    is_class p c (m_owner m) /\ is_nametype p nt (m_name m) (m_desc m).
(** JVMS table 5.4.3.5-A. *)
Definition kind_number (k : mhkind) (n : Z) : Prop :=
  nth_error [GetField; GetStatic; PutField; PutStatic; InvokeVirtual; InvokeStatic;
             InvokeSpecial; NewInvokeSpecial; InvokeInterface] (Z.to_nat (n - 1)) = Some k /\ 1 <= n.
Definition is_mhandle (p : pool) (i : Z) (h : mhandle) : Prop :=
  exists k m, p i = Some (RMHandle k m) /\ kind_number (h_kind h) k /\ is_member p m (h_member h).
Definition is_constant (p : pool) (i : Z) (k : constant) : Prop :=
  match k with
  | KI32 x => p i = Some (RInt x)
  | KF32 x => p i = Some (RFloat x)
  | KI64 x => p i = Some (RLong x)
  | KF64 x => p i = Some (RDouble x)
  | KString s => is_string p i s
  | KClass s => is_class p i s
  | KMember m => is_member p i m
  | KMethodType t => exists j, p i = Some (RMType j) /\ is_utf8_at p j (ty_text t)
  | KMethodHandle h => is_mhandle p i h
  end.
(** JVMS 4.4.10: a dynamically computed constant (or call site); its bootstrap
    method is an entry of the table [tbl]. *)
Definition is_dynamic (p : pool) (tbl : list bsm) (i : Z) (b : bsm) (n : list Z) (t : ty) : Prop :=
  exists k nt,
    p i = Some (if ty_is_method t then RInvokeDynamic k nt else RDynamic k nt) /\
    0 <= k /\ nth_error tbl (Z.to_nat k) = Some b /\ is_nametype p nt n t.

(** Well-formed symbolic data: strings fit an entry, descriptors are well
    formed.  [utf8_desc]: the descriptor goes through [Display], which needs
    class names without surrogates. *)
Definition wf_desc (t : ty) : Prop := wf_ty t /\ jstr (ty_text t).
Definition utf8_desc (t : ty) : Prop := wf_desc t /\ Forall is_utf8 (ty_names t).
(** ... the interface flag of a field cannot be represented. *)
Definition wf_member (m : member) : Prop :=
  jstr (m_owner m) /\ jstr (m_name m) /\ utf8_desc (m_desc m) /\
  (ty_is_method (m_desc m) = false -> m_itfs m = false).
Definition wf_constant (k : constant) : Prop :=
  match k with
  | KI32 x => i32 x
  | KF32 x => u32 x
  | KI64 x => i64 x
  | KF64 x => u64 x
  | KString s | KClass s => jstr s
  | KMember m => wf_member m
  | KMethodType t => utf8_desc t
  | KMethodHandle h => wf_member (h_member h)
  end.

(** Layouts of values that refer to the pool: [fmt W a bs] says that [bs] is a
    representation of [a] in a class file [W] with the given constant pool and
    bootstrap table; [W_heap] gives the bootstrap methods of the dynamic
    constants in memory, [W_label] and [W_catch] (inside a Code attribute) the
    code offsets of labels and the exception table index of catches. *)
Record world : Type := {
  W_pool : pool;
  W_tbl : list bsm;
  W_heap : Z -> option bsm;
  W_label : Z -> option Z;
  W_catch : catch -> option Z }.
Definition fmt (A : Type) : Type := world -> A -> list Z -> Prop.
(** a u2 index to an entry *)
Definition fmt_idx {A} (R : world -> Z -> A -> Prop) : fmt A := fun W a bs =>
  exists i, 0 < i < 65536 /\ bs = u2 i /\ R W i a.
Definition fmt_pidx {A} (R : pool -> Z -> A -> Prop) : fmt A := fmt_idx (fun W => R (W_pool W)).
(** an optional entry: index 0 for none *)
Definition fmt_opt {A} (f : fmt A) : fmt (option A) := fun W o bs =>
  match o with Some a => f W a bs | None => bs = u2 0 end.
(** one after the other *)
Definition fmt_pair {A B} (f : fmt A) (g : fmt B) : fmt (A * B) := fun W ab bs =>
  exists x y, bs = x ++ y /\ f W (fst ab) x /\ g W (snd ab) y.
(** a table: its length in a u1, u2 or u4, then the elements *)
Definition fmt_table {A} (size : Z -> list Z) (limit : Z) (f : fmt A) : fmt (list A) :=
  fun W xs bs => exists bss,
    len xs < limit /\ bs = size (len xs) ++ concat bss /\ Forall2 (f W) xs bss.
Definition fmt_table1 {A} := @fmt_table A u1 256.
Definition fmt_table2 {A} := @fmt_table A u2 65536.
(** numbers *)
Definition fmt_u1 : fmt Z := fun _ x bs => u8 x /\ bs = u1 x.
Definition fmt_u2 : fmt Z := fun _ x bs => u16 x /\ bs = u2 x.
Definition fmt_utf8 : fmt (list Z) := fmt_pidx is_utf8_at.
Definition fmt_desc : fmt ty := fmt_pidx (fun p i t => is_utf8_at p i (ty_text t)).
Definition fmt_indirect (tag : Z) : fmt (list Z) := fmt_pidx (is_indirect tag).
Definition fmt_class : fmt (list Z) := fmt_pidx is_class.
Definition fmt_nametype : fmt (list Z * ty) :=
  fmt_pidx (fun p i nt => is_nametype p i (fst nt) (snd nt)).
Definition fmt_member : fmt member := fmt_pidx is_member.
Definition fmt_constant : fmt constant := fmt_pidx is_constant.
(** the method handle of [MethodHandle]'s own codec: kind inline, then member *)
Definition fmt_mhandle : fmt mhandle := fun W h bs =>
  exists k x, kind_number (h_kind h) k /\ bs = u1 k ++ x /\ fmt_member W (h_member h) x.
(** dynamic constants and bootstrap methods (JVMS 4.7.23) *)
Definition is_dyn (W : world) (i : Z) (d : dynamic) : Prop :=
  exists b, W_heap W (d_cell d) = Some b /\
    is_dynamic (W_pool W) (W_tbl W) i b (d_name d) (d_desc d).
Definition is_ordyn (W : world) (i : Z) (o : ordyn constant) : Prop :=
  match o with Dyn d => is_dyn W i d | Stat k => is_constant (W_pool W) i k end.
Definition fmt_bsm : fmt bsm := fun W b bs =>
  exists h xs, bs = h ++ xs /\
    fmt_pidx is_mhandle W (b_handle b) h /\ fmt_table2 (fmt_idx is_ordyn) W (b_args b) xs.
Definition wf_dynamic (heap : Z -> option bsm) (d : dynamic) : Prop :=
  heap (d_cell d) <> None /\ jstr (d_name d) /\ utf8_desc (d_desc d).
Definition wf_ordyn (heap : Z -> option bsm) (o : ordyn constant) : Prop :=
  match o with Dyn d => wf_dynamic heap d | Stat k => wf_constant k end.
Definition wf_bsm (heap : Z -> option bsm) (b : bsm) : Prop :=
  wf_member (h_member (b_handle b)) /\ len (b_args b) < 65536 /\ Forall (wf_ordyn heap) (b_args b).

(** JVMS 4.4.8: what a method handle may refer to. *)
Definition jvms_handle_ok (h : mhandle) : Prop :=
  let m := h_member h in
  let meth := ty_is_method (m_desc m) = true in
  let special := m_name m = s_init \/ m_name m = s_clinit in
  match h_kind h with
  | GetField | GetStatic | PutField | PutStatic => ~ meth
  | InvokeVirtual => meth /\ m_itfs m = false /\ ~ special
  | NewInvokeSpecial => meth /\ m_itfs m = false /\ m_name m = s_init
  | InvokeStatic | InvokeSpecial => meth /\ ~ special
  | InvokeInterface => meth /\ m_itfs m = true /\ ~ special
  end.
