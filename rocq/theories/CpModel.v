(** Constant pool: src/cp.rs, the default methods of src/rw.rs,
    src/loadable.rs, src/dynamic.rs, and the pool codecs of src/helper.rs. *)
From Verif Require Import Base Wtf8Model MutfModel PrimModel TypeModel.

(** src/cp.rs 58-81 [RawConstantEntry].  Floats are bit patterns. *)
Inductive raw_entry : Type :=
| RWtf8 (s : list Z)
| RInt (i : Z)
| RFloat (bits : Z)
| RLong (i : Z)
| RDouble (bits : Z)
| RClass (i : Z)
| RString (i : Z)
| RField (c nt : Z)
| RMethod (c nt : Z)
| RItfMethod (c nt : Z)
| RNameType (n t : Z)
| RMHandle (k m : Z)
| RMType (d : Z)
| RDynamic (b nt : Z)
| RInvokeDynamic (b nt : Z)
| RModule (n : Z)
| RPackage (n : Z).

(** Derived [PartialEq]/[Hash] (the key of the writer's cache).  TotalF32 and
    TotalF64 compare by bit pattern (C14_total_eq_bits). *)
Definition raw_eqb (a b : raw_entry) : bool :=
  match a, b with
  | RWtf8 s, RWtf8 s' => list_eqb Z.eqb s s'
  | RInt x, RInt y | RFloat x, RFloat y | RLong x, RLong y | RDouble x, RDouble y
  | RClass x, RClass y | RString x, RString y | RMType x, RMType y
  | RModule x, RModule y | RPackage x, RPackage y => x =? y
  | RField x x', RField y y' | RMethod x x', RMethod y y' | RItfMethod x x', RItfMethod y y'
  | RNameType x x', RNameType y y' | RMHandle x x', RMHandle y y'
  | RDynamic x x', RDynamic y y' | RInvokeDynamic x x', RInvokeDynamic y y' =>
      (x =? y) && (x' =? y')
  | _, _ => false
  end.

(** src/cp.rs 86-92 [size]. *)
Definition raw_size (e : raw_entry) : Z :=
  match e with RLong _ | RDouble _ => 2 | _ => 1 end.

(** Derived tags: explicit 1, 3 and 15, the others count up. *)
Definition raw_tag (e : raw_entry) : Z :=
  match e with
  | RWtf8 _ => 1 | RInt _ => 3 | RFloat _ => 4 | RLong _ => 5 | RDouble _ => 6
  | RClass _ => 7 | RString _ => 8 | RField _ _ => 9 | RMethod _ _ => 10
  | RItfMethod _ _ => 11 | RNameType _ _ => 12 | RMHandle _ _ => 15 | RMType _ => 16
  | RDynamic _ _ => 17 | RInvokeDynamic _ _ => 18 | RModule _ => 19 | RPackage _ => 20
  end.
Example raw_tags_derived :
  map raw_tag [RWtf8 []; RInt 0; RFloat 0; RLong 0; RDouble 0; RClass 0; RString 0; RField 0 0;
    RMethod 0 0; RItfMethod 0 0; RNameType 0 0; RMHandle 0 0; RMType 0; RDynamic 0 0;
    RInvokeDynamic 0 0; RModule 0; RPackage 0]
  = derive_tags (Some 1 :: Some 3 :: repeat None 9 ++ Some 15 :: repeat None 5).
Proof. reflexivity. Qed.

(** Derived [ReadWrite] (coffer_macros/src/derive.rs 278-480): tag byte, fields
    in order; an unknown tag is [Error::Invalid]. *)
Definition wr_raw : wr raw_entry := fun e =>
  body <- match e with
          | RWtf8 s => wr_string s
          | RInt i => wr_n 4 i
          | RFloat b => wr_n 4 b
          | RLong i => wr_n 8 i
          | RDouble b => wr_n 8 b
          | RClass a | RString a | RMType a | RModule a | RPackage a => wr_n 2 a
          | RField a b | RMethod a b | RItfMethod a b | RNameType a b
          | RDynamic a b | RInvokeDynamic a b =>
              x <- wr_n 2 a ;; y <- wr_n 2 b ;; Ok (x ++ y)
          | RMHandle k m => x <- wr_n 1 k ;; y <- wr_n 2 m ;; Ok (x ++ y)
          end ;;
  Ok (be 1 (raw_tag e) ++ body).

Definition rd_1 (f : Z -> raw_entry) : rd raw_entry := fun l =>
  '(a, l) <- rd_u16 l ;; Ok (f a, l).
Definition rd_2 (f : Z -> Z -> raw_entry) : rd raw_entry := fun l =>
  '(a, l) <- rd_u16 l ;; '(b, l) <- rd_u16 l ;; Ok (f a b, l).
Definition rd_raw : rd raw_entry := fun l =>
  '(t, l) <- rd_u8 l ;;
  if t =? 1 then '(s, l) <- rd_string l ;; Ok (RWtf8 s, l)
  else if t =? 3 then '(i, l) <- rd_i32 l ;; Ok (RInt i, l)
  else if t =? 4 then '(i, l) <- rd_f32 l ;; Ok (RFloat i, l)
  else if t =? 5 then '(i, l) <- rd_i64 l ;; Ok (RLong i, l)
  else if t =? 6 then '(i, l) <- rd_f64 l ;; Ok (RDouble i, l)
  else if t =? 7 then rd_1 RClass l
  else if t =? 8 then rd_1 RString l
  else if t =? 9 then rd_2 RField l
  else if t =? 10 then rd_2 RMethod l
  else if t =? 11 then rd_2 RItfMethod l
  else if t =? 12 then rd_2 RNameType l
  else if t =? 15 then '(k, l) <- rd_u8 l ;; '(m, l) <- rd_u16 l ;; Ok (RMHandle k m, l)
  else if t =? 16 then rd_1 RMType l
  else if t =? 17 then rd_2 RDynamic l
  else if t =? 18 then rd_2 RInvokeDynamic l
  else if t =? 19 then rd_1 RModule l
  else if t =? 20 then rd_1 RPackage l
  else Err EInvalid.

(** * Symbolic constants *)

(** src/member.rs 14-30 [MemberRef]. *)
Record member : Type := {
  m_owner : list Z; m_name : list Z; m_desc : ty; m_itfs : bool }.

(** src/loadable.rs 18-37 [MethodHandleKind]. *)
Inductive mhkind : Type :=
| GetField | GetStatic | PutField | PutStatic | InvokeVirtual | InvokeStatic
| InvokeSpecial | NewInvokeSpecial | InvokeInterface.
(** [kind as u8]; [GetField = 1], the others count up. *)
Definition mhkind_u8 (k : mhkind) : Z :=
  match k with
  | GetField => 1 | GetStatic => 2 | PutField => 3 | PutStatic => 4 | InvokeVirtual => 5
  | InvokeStatic => 6 | InvokeSpecial => 7 | NewInvokeSpecial => 8 | InvokeInterface => 9
  end.
(** src/loadable.rs 39-57 [TryFrom<u8>]; [Err] as [None]. *)
Definition mhkind_of (x : Z) : option mhkind :=
  if x =? 1 then Some GetField else if x =? 2 then Some GetStatic
  else if x =? 3 then Some PutField else if x =? 4 then Some PutStatic
  else if x =? 5 then Some InvokeVirtual else if x =? 6 then Some InvokeStatic
  else if x =? 7 then Some InvokeSpecial else if x =? 8 then Some NewInvokeSpecial
  else if x =? 9 then Some InvokeInterface else None.

(** src/loadable.rs 62-68 [MethodHandle]. *)
Record mhandle : Type := { h_kind : mhkind; h_member : member }.

(** "<init>" and "<clinit>". *)
Definition s_init : list Z := [60; 105; 110; 105; 116; 62].
Definition s_clinit : list Z := [60; 99; 108; 105; 110; 105; 116; 62].

(** src/loadable.rs 80-139 [MethodHandle::check]. *)
Definition mh_check (h : mhandle) : res unit :=
  let m := h_member h in
  let meth := ty_is_method (m_desc m) in
  _ <- match h_kind h with
       | GetField | GetStatic | PutField | PutStatic =>
           if meth then Err EInvalid else Ok tt
       | _ => Ok tt
       end ;;
  _ <- match h_kind h with
       | InvokeInterface | InvokeSpecial | InvokeStatic | InvokeVirtual | NewInvokeSpecial =>
           if meth then Ok tt else Err EInvalid
       | _ => Ok tt
       end ;;
  match h_kind h with
  | InvokeVirtual | InvokeStatic | InvokeSpecial | InvokeInterface =>
      if list_eqb Z.eqb (m_name m) s_init || list_eqb Z.eqb (m_name m) s_clinit
      then Err EInvalid else Ok tt
  | NewInvokeSpecial =>
      if negb (list_eqb Z.eqb (m_name m) s_init) then Err EInvalid else Ok tt
  | _ => Ok tt
  end.

(** src/loadable.rs 167-186 [Constant]. *)
Inductive constant : Type :=
| KI32 (i : Z) | KF32 (b : Z) | KI64 (i : Z) | KF64 (b : Z)
| KString (s : list Z) | KClass (s : list Z) | KMember (m : member)
| KMethodType (t : ty) | KMethodHandle (h : mhandle).

(** src/dynamic.rs 52-60 [Dynamic]; the [Arc<OnceCell<BootstrapMethod>>] is a
    cell number, its content lives in a heap. *)
Record dynamic : Type := { d_cell : Z; d_name : list Z; d_desc : ty }.
(** src/dynamic.rs 100-104 [OrDynamic]. *)
Inductive ordyn (A : Type) : Type := Dyn (d : dynamic) | Stat (a : A).
Arguments Dyn {A}. Arguments Stat {A}.
(** src/dynamic.rs 9-13 [BootstrapMethod]. *)
Record bsm : Type := { b_handle : mhandle; b_args : list (ordyn constant) }.

(** src/code/structure.rs 434-440 [Catch]; labels are their [u32]. *)
Record catch : Type := {
  c_start : Z; c_end : Z; c_handler : Z; c_type : option (list Z) }.

(** * Writer *)

(** src/cp.rs 110-117 [VecCp]. *)
Record wst : Type := {
  w_entries : list raw_entry;
  w_cache : list (raw_entry * Z);
  w_len : Z;
  w_bsm : list bsm }.
(** src/cp.rs 118-129 [VecCp::new]. *)
Definition wst_new : wst := {| w_entries := []; w_cache := []; w_len := 1; w_bsm := [] |}.

(** What the writing code can look up: overflow checks on or off, contents of
    the bootstrap method cells ([OnceCell::get]), and - inside a Code attribute
    only - the code offset of a label and the index of a catch
    (src/rw.rs 164-180; elsewhere they are [unreachable!()]). *)
Record wenv : Type := {
  we_md : mode;
  we_heap : Z -> option bsm;
  we_label : Z -> res Z;
  we_catch : catch -> res (option Z) }.
Definition wenv_class (md : mode) (heap : Z -> option bsm) : wenv :=
  {| we_md := md; we_heap := heap;
     we_label := fun _ => Panic PAssert; we_catch := fun _ => Panic PAssert |}.

(** Writers append bytes and may insert pool entries. *)
Definition cwr (A : Type) : Type := wenv -> A -> wst -> res (list Z * wst).
Definition cins (A : Type) : Type := wenv -> A -> wst -> res (Z * wst).

(** src/cp.rs 218-229 [insert_raw]. *)
Definition insert_raw : cins raw_entry := fun E e w =>
  match assoc raw_eqb e (w_cache w) with
  | Some i => Ok (i, w)
  | None =>
      l <- chk_u (we_md E) 16 (w_len w + raw_size e) ;;
      Ok (w_len w, {| w_entries := w_entries w ++ [e];
                      w_cache := w_cache w ++ [(e, w_len w)];
                      w_len := l; w_bsm := w_bsm w |})
  end.

(** src/cp.rs 231-235 [insert_bsm]; [len() as u16]. *)
Definition insert_bsm : cins bsm := fun E b w =>
  Ok (len (w_bsm w) mod 65536,
      {| w_entries := w_entries w; w_cache := w_cache w; w_len := w_len w;
         w_bsm := w_bsm w ++ [b] |}).

(** src/rw.rs 109-111. *)
Definition insert_wtf8 : cins (list Z) := fun E s w => insert_raw E (RWtf8 s) w.

(** src/rw.rs 112-121: name first. *)
Definition insert_nameandtype : cins (list Z * list Z) := fun E nd w =>
  '(a, w) <- insert_wtf8 E (fst nd) w ;;
  '(b, w) <- insert_wtf8 E (snd nd) w ;;
  insert_raw E (RNameType a b) w.

(** src/rw.rs 95-108 [insert_indirect_str]; only the tags 7, 8, 19, 20 are used. *)
Definition insert_indirect_str (tag : Z) : cins (list Z) := fun E s w =>
  '(i, w) <- insert_wtf8 E s w ;;
  if tag =? 7 then insert_raw E (RClass i) w
  else if tag =? 8 then insert_raw E (RString i) w
  else if tag =? 19 then insert_raw E (RModule i) w
  else if tag =? 20 then insert_raw E (RPackage i) w
  else Panic PAssert.

(** src/rw.rs 122-129. *)
Definition insert_class : cins (list Z) := fun E s w =>
  '(i, w) <- insert_wtf8 E s w ;; insert_raw E (RClass i) w.
Definition insert_package : cins (list Z) := fun E s w =>
  '(i, w) <- insert_wtf8 E s w ;; insert_raw E (RPackage i) w.

(** src/rw.rs 142-152 [insert_member]: the entry kind is chosen by descriptor
    and interface flag; the class goes in before the name and type; the
    descriptor text is the Display text. *)
Definition insert_member : cins member := fun E m w =>
  '(c, w) <- insert_class E (m_owner m) w ;;
  d <- display_type (m_desc m) ;;
  '(nt, w) <- insert_nameandtype E (m_name m, d) w ;;
  insert_raw E (match m_desc m, m_itfs m with
                | TMethod _ _, true => RItfMethod c nt
                | TMethod _ _, false => RMethod c nt
                | _, _ => RField c nt
                end) w.

(** src/rw.rs 153-156. *)
Definition insert_method_handle : cins mhandle := fun E h w =>
  '(m, w) <- insert_member E (h_member h) w ;;
  insert_raw E (RMHandle (mhkind_u8 (h_kind h)) m) w.

(** src/rw.rs 32-51 [insert_constant]. *)
Definition insert_constant : cins constant := fun E k w =>
  match k with
  | KI32 i => insert_raw E (RInt i) w
  | KF32 b => insert_raw E (RFloat b) w
  | KI64 i => insert_raw E (RLong i) w
  | KF64 b => insert_raw E (RDouble b) w
  | KString s => insert_indirect_str 8 E s w
  | KClass s => insert_indirect_str 7 E s w
  | KMember m => insert_member E m w
  | KMethodType t =>
      d <- display_type t ;;
      '(i, w) <- insert_wtf8 E d w ;;
      insert_raw E (RMType i) w
  | KMethodHandle h => insert_method_handle E h w
  end.

(** src/rw.rs 83-93 [insert_dynamic]; src/dynamic.rs 75-79 [get_bsm] panics on
    an unresolved cell. *)
Definition insert_dynamic : cins dynamic := fun E d w =>
  match we_heap E (d_cell d) with
  | None => Panic PUnwrap
  | Some b =>
      '(bi, w) <- insert_bsm E b w ;;
      t <- display_type (d_desc d) ;;
      '(nt, w) <- insert_nameandtype E (d_name d, t) w ;;
      insert_raw E (if ty_is_method (d_desc d) then RInvokeDynamic bi nt else RDynamic bi nt) w
  end.

(** src/rw.rs 58-66 [insert_ordynamic]. *)
Definition insert_ordynamic {A} (f : cins A) : cins (ordyn A) := fun E o w =>
  match o with Dyn d => insert_dynamic E d w | Stat a => f E a w end.

(** src/cp.rs 208-214 [VecCp::write_to]. *)
Definition wr_pool : wr wst := fun w =>
  es <- mapM wr_raw (w_entries w) ;;
  Ok (be 2 (w_len w) ++ concat es).

(** Index followed by [write_to(writer)] of a u16. *)
Definition wr_idx {A} (f : cins A) : cwr A := fun E a w =>
  '(i, w) <- f E a w ;; Ok (be 2 i, w).

(** src/helper.rs 27-40 [Normal]: no pool involved. *)
Definition wr_plain {A} (f : wr A) : cwr A := fun E a w => bs <- f a ;; Ok (bs, w).

(** Writing a sequence of elements. *)
Section WrEach.
Context {A : Type} (f : cwr A).
Fixpoint wr_each (E : wenv) (xs : list A) (w : wst) : res (list Z * wst) :=
  match xs with
  | [] => Ok ([], w)
  | a :: xs =>
      '(b, w) <- f E a w ;;
      '(bs, w) <- wr_each E xs w ;;
      Ok (b ++ bs, w)
  end.
End WrEach.

(** src/helper.rs 152-181 [ConstantPoolReadWriteAs<Vec<T>> for VecLen]. *)
Definition wr_cvec {A} (k : nat) (f : cwr A) : cwr (list A) := fun E xs w =>
  if len xs <? 256 ^ Z.of_nat k then
    '(bs, w) <- wr_each f E xs w ;; Ok (be k (len xs) ++ bs, w)
  else Err EInvalid.

(** [Option] with index 0 for [None]: src/ty.rs 170-200, src/helper.rs 63-89,
    src/attr.rs 39-64. *)
Definition wr_opt {A} (f : cwr A) : cwr (option A) := fun E o w =>
  match o with Some a => f E a w | None => Ok (be 2 0, w) end.

(** src/ty.rs 153-168, 202-210; src/helper.rs 42-61; src/attr.rs 52-64;
    src/member.rs 32-47; src/loadable.rs 142-163, 204-215; src/rw.rs 492-529;
    src/dynamic.rs 33-46. *)
Definition wr_cow : cwr (list Z) := wr_idx insert_wtf8.
Definition wr_type : cwr ty := wr_idx (fun E t w => insert_wtf8 E (type_to_wtf8 t) w).
Definition wr_strcp (tag : Z) : cwr (list Z) := wr_idx (insert_indirect_str tag).
Definition wr_nametype : cwr (list Z * ty) := wr_idx (fun E nt w =>
  t <- display_type (snd nt) ;; insert_nameandtype E (fst nt, t) w).
Definition wr_member : cwr member := wr_idx insert_member.
Definition wr_constant : cwr constant := wr_idx insert_constant.
Definition wr_cint : cwr Z := wr_idx (fun E i w => insert_raw E (RInt i) w).
Definition wr_clong : cwr Z := wr_idx (fun E i w => insert_raw E (RLong i) w).
Definition wr_cfloat : cwr Z := wr_idx (fun E i w => insert_raw E (RFloat i) w).
Definition wr_cdouble : cwr Z := wr_idx (fun E i w => insert_raw E (RDouble i) w).
Definition wr_mhandle : cwr mhandle := fun E h w =>
  _ <- mh_check h ;;
  '(b, w) <- wr_member E (h_member h) w ;;
  Ok (be 1 (mhkind_u8 (h_kind h)) ++ b, w).
(** src/dynamic.rs 33-46: [arguments.len() as u16]. *)
Definition wr_bsm : cwr bsm := fun E b w =>
  '(h, w) <- wr_idx insert_method_handle E (b_handle b) w ;;
  '(bs, w) <- wr_each (wr_idx (insert_ordynamic insert_constant)) E (b_args b) w ;;
  Ok (h ++ be 2 (len (b_args b)) ++ bs, w).

(** * Reader *)

(** The entries of [MapCp] (src/cp.rs 100-108) as a partial map. *)
Definition pool : Type := Z -> option raw_entry.

(** src/cp.rs 157-168 [MapCp::read_from]; [i += size] in u16.  Each round reads
    at least one byte, so the input length bounds the number of rounds. *)
Fixpoint rd_pool_loop (md : mode) (fuel : nat) (i count : Z) (m : list (Z * raw_entry))
  : rd (list (Z * raw_entry)) := fun l =>
  if i <? count then
    match fuel with
    | O => Panic PFuel
    | S n =>
        '(e, l) <- rd_raw l ;;
        i' <- chk_u md 16 (i + raw_size e) ;;
        rd_pool_loop md n i' count (assoc_set Z.eqb i e m) l
    end
  else Ok (m, l).
Definition rd_pool (md : mode) : rd (list (Z * raw_entry)) := fun l =>
  '(count, l) <- rd_u16 l ;;
  rd_pool_loop md (S (length l)) 1 count [] l.
(** src/cp.rs 176-178 [read_raw]. *)
Definition pool_of (m : list (Z * raw_entry)) : pool := fun i => assoc Z.eqb i m.

(** [Option]-returning default methods of [ConstantPoolReader] (src/rw.rs
    185-345); parsing a descriptor may panic, hence [res (option A)]. *)
Definition read_wtf8 (p : pool) (i : Z) : option (list Z) :=
  match p i with Some (RWtf8 s) => Some s | _ => None end.

(** src/rw.rs 241-253 *)
Definition read_indirect_str (tag : Z) (p : pool) (i : Z) : option (list Z) :=
  match p i with
  | Some (RModule u) => if tag =? 19 then read_wtf8 p u else None
  | Some (RPackage u) => if tag =? 20 then read_wtf8 p u else None
  | Some (RString u) => if tag =? 8 then read_wtf8 p u else None
  | Some (RClass u) => if tag =? 7 then read_wtf8 p u else None
  | _ => None
  end.

(** [parse_type(..).ok()] *)
Definition parse_ok (md : mode) (s : list Z) : res (option ty) :=
  match parse_type md s with
  | Ok t => Ok (Some t)
  | Err _ => Ok None
  | Panic k => Panic k
  end.

(** src/rw.rs 182-193 *)
Definition read_nameandtype (md : mode) (p : pool) (i : Z) : res (option (list Z * ty)) :=
  match p i with
  | Some (RNameType n t) =>
      match read_wtf8 p n with
      | None => Ok None
      | Some n =>
          match read_wtf8 p t with
          | None => Ok None
          | Some d =>
              t <- parse_ok md d ;;
              Ok (match t with Some t => Some (n, t) | None => None end)
          end
      end
  | _ => Ok None
  end.

(** src/rw.rs 319-343 *)
Definition read_member (md : mode) (p : pool) (i : Z) : res (option member) :=
  let go o nt itfs :=
    match read_indirect_str 7 p o with
    | None => Ok None
    | Some o =>
        r <- read_nameandtype md p nt ;;
        Ok (match r with
            | Some (n, t) => Some {| m_owner := o; m_name := n; m_desc := t; m_itfs := itfs |}
            | None => None
            end)
    end in
  match p i with
  | Some (RMethod o nt) | Some (RField o nt) => go o nt false
  | Some (RItfMethod o nt) => go o nt true
  | _ => Ok None
  end.

Definition zip_handle (k : option mhkind) (m : option member) : option mhandle :=
  match k, m with
  | Some k, Some m => Some {| h_kind := k; h_member := m |}
  | _, _ => None
  end.

(** src/rw.rs 306-318 *)
Definition read_method_handle (md : mode) (p : pool) (i : Z) : res (option mhandle) :=
  match p i with
  | Some (RMHandle k m) => m <- read_member md p m ;; Ok (zip_handle (mhkind_of k) m)
  | _ => Ok None
  end.

(** src/rw.rs 194-218 *)
Definition read_constant (md : mode) (p : pool) (i : Z) : res (option constant) :=
  match p i with
  | Some (RInt x) => Ok (Some (KI32 x))
  | Some (RLong x) => Ok (Some (KI64 x))
  | Some (RFloat x) => Ok (Some (KF32 x))
  | Some (RDouble x) => Ok (Some (KF64 x))
  | Some (RString s) => Ok (option_map KString (read_wtf8 p s))
  | Some (RClass s) => Ok (option_map KClass (read_wtf8 p s))
  | Some (RMType d) =>
      match read_wtf8 p d with
      | None => Ok None
      | Some s => t <- parse_ok md s ;; Ok (option_map KMethodType t)
      end
  | Some (RMHandle k m) =>
      m <- read_member md p m ;; Ok (option_map KMethodHandle (zip_handle (mhkind_of k) m))
  | _ => m <- read_member md p i ;; Ok (option_map KMember m)
  end.

Definition read_int (p : pool) (i : Z) : option Z :=
  match p i with Some (RInt x) => Some x | _ => None end.
Definition read_long (p : pool) (i : Z) : option Z :=
  match p i with Some (RLong x) => Some x | _ => None end.
Definition read_float (p : pool) (i : Z) : option Z :=
  match p i with Some (RFloat x) => Some x | _ => None end.
Definition read_double (p : pool) (i : Z) : option Z :=
  match p i with Some (RDouble x) => Some x | _ => None end.

(** src/rw.rs 365-385 [try_cp_read!]: a u16 index, [None] is [Error::Invalid]. *)
Definition rd_idx {A} (f : Z -> res (option A)) : rd A := fun l =>
  '(i, l) <- rd_u16 l ;;
  o <- f i ;;
  match o with Some a => Ok (a, l) | None => Err EInvalid end.
Definition rd_idx' {A} (f : Z -> option A) : rd A := rd_idx (fun i => Ok (f i)).
(** index 0 is [None]. *)
Definition rd_opt {A} (f : Z -> res (option A)) : rd (option A) := fun l =>
  '(i, l) <- rd_u16 l ;;
  if i =? 0 then Ok (None, l)
  else o <- f i ;; match o with Some a => Ok (Some a, l) | None => Err EInvalid end.

Definition rd_cow (p : pool) : rd (list Z) := rd_idx' (read_wtf8 p).
Definition rd_opt_cow (p : pool) : rd (option (list Z)) := rd_opt (fun i => Ok (read_wtf8 p i)).
Definition rd_type (md : mode) (p : pool) : rd ty := fun l =>
  '(s, l) <- rd_cow p l ;; t <- parse_type md s ;; Ok (t, l).
Definition rd_strcp (tag : Z) (p : pool) : rd (list Z) := rd_idx' (read_indirect_str tag p).
Definition rd_opt_strcp (tag : Z) (p : pool) : rd (option (list Z)) :=
  rd_opt (fun i => Ok (read_indirect_str tag p i)).
Definition rd_opt_nametype (md : mode) (p : pool) : rd (option (list Z * ty)) :=
  rd_opt (read_nameandtype md p).
Definition rd_member (md : mode) (p : pool) : rd member := rd_idx (read_member md p).
Definition rd_constant (md : mode) (p : pool) : rd constant := rd_idx (read_constant md p).
Definition rd_cint (p : pool) : rd Z := rd_idx' (read_int p).
Definition rd_clong (p : pool) : rd Z := rd_idx' (read_long p).
Definition rd_cfloat (p : pool) : rd Z := rd_idx' (read_float p).
Definition rd_cdouble (p : pool) : rd Z := rd_idx' (read_double p).
(** derived [ReadWrite for MethodHandleKind] *)
Definition rd_mhkind : rd mhkind := fun l =>
  '(k, l) <- rd_u8 l ;;
  match mhkind_of k with Some k => Ok (k, l) | None => Err EInvalid end.
Definition rd_mhandle (md : mode) (p : pool) : rd mhandle := fun l =>
  '(k, l) <- rd_mhkind l ;;
  '(m, l) <- rd_member md p l ;;
  let h := {| h_kind := k; h_member := m |} in
  _ <- mh_check h ;; Ok (h, l).

(** Stateful readers: bootstrap references waiting for resolution
    ([MapCp::refs]: bsm index -> cells, kept as pairs in registration order)
    and the number of cells allocated. *)
Record rst : Type := { r_refs : list (Z * Z); r_next : Z }.
Definition srd (S A : Type) : Type := S -> rd (A * S).
Definition lift {S A} (r : rd A) : srd S A := fun s l => '(a, l) <- r l ;; Ok ((a, s), l).

(** src/rw.rs 276-305 [read_invokedynamic] / [read_dynamic]: the name and type
    are read before the cell is registered (src/cp.rs 180-182 [resolve_later]). *)
Definition read_dyn_at (md : mode) (p : pool) (b nt : Z) (s : rst) : res (option dynamic * rst) :=
  r <- read_nameandtype md p nt ;;
  match r with
  | None => Ok (None, s)
  | Some (n, t) =>
      Ok (Some {| d_cell := r_next s; d_name := n; d_desc := t |},
          {| r_refs := r_refs s ++ [(b, r_next s)]; r_next := r_next s + 1 |})
  end.
Definition read_dynamic (md : mode) (p : pool) (i : Z) (s : rst) : res (option dynamic * rst) :=
  match p i with Some (RDynamic b nt) => read_dyn_at md p b nt s | _ => Ok (None, s) end.
Definition read_invokedynamic (md : mode) (p : pool) (i : Z) (s : rst)
  : res (option dynamic * rst) :=
  match p i with Some (RInvokeDynamic b nt) => read_dyn_at md p b nt s | _ => Ok (None, s) end.

(** src/rw.rs 265-275 [read_or_dynamic] with [read_constant]. *)
Definition read_or_dynamic (md : mode) (p : pool) (i : Z) (s : rst)
  : res (option (ordyn constant) * rst) :=
  '(d, s) <- read_dynamic md p i s ;;
  match d with
  | Some d => Ok (Some (Dyn d), s)
  | None => k <- read_constant md p i ;; Ok (option_map Stat k, s)
  end.

(** [n] stateful reads. *)
Fixpoint srd_times {S A} (n : nat) (r : srd S A) : srd S (list A) := fun s l =>
  match n with
  | O => Ok (([], s), l)
  | Datatypes.S k =>
      '((a, s), l) <- r s l ;; '((xs, s), l) <- srd_times k r s l ;; Ok ((a :: xs, s), l)
  end.
Definition srd_vec {S A} (k : nat) (r : srd S A) : srd S (list A) := fun s l =>
  '(n, l) <- rd_u k l ;; srd_times (Z.to_nat n) r s l.

(** src/dynamic.rs 15-31 *)
Definition rd_bsm_arg (md : mode) (p : pool) : srd rst (ordyn constant) := fun s l =>
  '(i, l) <- rd_u16 l ;;
  '(o, s) <- read_or_dynamic md p i s ;;
  match o with Some a => Ok ((a, s), l) | None => Err EInvalid end.
Definition rd_bsm (md : mode) (p : pool) : srd rst bsm := fun s l =>
  '(h, l) <- rd_idx (read_method_handle md p) l ;;
  '(n, l) <- rd_u16 l ;;
  '((xs, s), l) <- srd_times (Z.to_nat n) (rd_bsm_arg md p) s l ;;
  Ok (({| b_handle := h; b_args := xs |}, s), l).

(** src/cp.rs 184-200 [bootstrap_methods]: entry [i] of the table fills the
    cells registered for [i as u16] ([OnceCell::set(..).unwrap()] panics on a
    cell already set); a reference left over is an error. *)
Fixpoint set_cells (cells : list Z) (b : bsm) (h : list (Z * bsm)) : res (list (Z * bsm)) :=
  match cells with
  | [] => Ok h
  | c :: cells =>
      match assoc Z.eqb c h with
      | Some _ => Panic PUnwrap
      | None => set_cells cells b (h ++ [(c, b)])
      end
  end.
Fixpoint fill_bsms (i : Z) (bs : list bsm) (refs : list (Z * Z)) (h : list (Z * bsm))
  : res (list (Z * Z) * list (Z * bsm)) :=
  match bs with
  | [] => Ok (refs, h)
  | b :: bs =>
      let mine := filter (fun r => fst r =? i mod 65536) refs in
      let rest := filter (fun r => negb (fst r =? i mod 65536)) refs in
      h <- set_cells (map snd mine) b h ;;
      fill_bsms (i + 1) bs rest h
  end.
Definition bootstrap_methods (bs : list bsm) (s : rst) (h : list (Z * bsm))
  : res (list (Z * bsm)) :=
  '(refs, h) <- fill_bsms 0 bs (r_refs s) h ;;
  match refs with [] => Ok h | _ :: _ => Err EInvalid end.
