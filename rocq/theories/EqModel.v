(** Equality and hashing of symbolic constants: the derived [PartialEq]/[Hash] of
    src/ty.rs, src/member.rs, src/loadable.rs and the hand-written ones of
    src/dynamic.rs, wtf8/src/lib.rs. *)
From Verif Require Import Base PrimModel TypeModel CpModel.

(** src/ty.rs 10-40, derived [PartialEq]: same variant, then the fields in order. *)
Fixpoint ty_eqb (a b : ty) : bool :=
  match a, b with
  | TByte, TByte | TChar, TChar | TDouble, TDouble | TFloat, TFloat | TInt, TInt | TLong, TLong
  | TBoolean, TBoolean | TShort, TShort => true
  | TRef n, TRef m => list_eqb Z.eqb n m
  | TArray d x, TArray d' y => (d =? d') && ty_eqb x y
  | TMethod ps r, TMethod qs s =>
      (fix go ps qs := match ps, qs with
         | [], [] => true | p :: ps, q :: qs => ty_eqb p q && go ps qs | _, _ => false end) ps qs &&
      match r, s with None, None => true | Some x, Some y => ty_eqb x y | _, _ => false end
  | _, _ => false
  end.
(** src/member.rs 15-30, derived. *)
Definition member_eqb (a b : member) : bool :=
  list_eqb Z.eqb (m_owner a) (m_owner b) && list_eqb Z.eqb (m_name a) (m_name b) &&
  ty_eqb (m_desc a) (m_desc b) && Bool.eqb (m_itfs a) (m_itfs b).
(** src/loadable.rs 62-68, derived; kinds by their number. *)
Definition mhandle_eqb (a b : mhandle) : bool :=
  (mhkind_u8 (h_kind a) =? mhkind_u8 (h_kind b)) && member_eqb (h_member a) (h_member b).
(** src/loadable.rs 165-186, derived; floats by their bits (C14). *)
Definition constant_eqb (a b : constant) : bool :=
  match a, b with
  | KI32 x, KI32 y | KF32 x, KF32 y | KI64 x, KI64 y | KF64 x, KF64 y => x =? y
  | KString x, KString y | KClass x, KClass y => list_eqb Z.eqb x y
  | KMember x, KMember y => member_eqb x y
  | KMethodType x, KMethodType y => ty_eqb x y
  | KMethodHandle x, KMethodHandle y => mhandle_eqb x y
  | _, _ => false
  end.

(** [a && b]: the right side is not looked at after [false]. *)
Definition andr (a b : res bool) : res bool := match a with Ok true => b | r => r end.
(** Slices: lengths first, then the elements from left to right. *)
Fixpoint all_eq {A} (f : A -> A -> res bool) (a b : list A) : res bool :=
  match a, b with
  | x :: a, y :: b => andr (f x y) (all_eq f a b)
  | _, _ => Ok true
  end.
Definition slice_eq {A} (f : A -> A -> res bool) (a b : list A) : res bool :=
  if len a =? len b then all_eq f a b else Ok false.

(** src/dynamic.rs 100-104 [OrDynamic], derived. *)
Definition ordyn_eq (eqd : dynamic -> dynamic -> res bool) (a b : ordyn constant) : res bool :=
  match a, b with
  | Dyn x, Dyn y => eqd x y
  | Stat x, Stat y => Ok (constant_eqb x y)
  | _, _ => Ok false
  end.
(** src/dynamic.rs 9-13 [BootstrapMethod], derived. *)
Definition bsm_eq (eqd : dynamic -> dynamic -> res bool) (a b : bsm) : res bool :=
  andr (Ok (mhandle_eqb (b_handle a) (b_handle b))) (slice_eq (ordyn_eq eqd) (b_args a) (b_args b)).
(** [Arc<OnceCell<BootstrapMethod>> == _]: the same allocation is equal without
    looking inside ([BootstrapMethod] is [Eq]), otherwise [OnceCell] compares
    the two [get()]. *)
Definition cell_eq (h : Z -> option bsm) (eqd : dynamic -> dynamic -> res bool) (x y : Z) : res bool :=
  if x =? y then Ok true
  else match h x, h y with
       | None, None => Ok true
       | Some a, Some b => bsm_eq eqd a b
       | _, _ => Ok false
       end.
(** src/dynamic.rs 82-88 [Dynamic::eq]; [n] bounds the depth of the recursion. *)
Fixpoint dyn_eq (h : Z -> option bsm) (n : nat) (a b : dynamic) : res bool :=
  match n with
  | O => Panic PFuel
  | S n =>
      andr (cell_eq h (dyn_eq h n) (d_cell a) (d_cell b))
     (andr (Ok (list_eqb Z.eqb (d_name a) (d_name b))) (Ok (ty_eqb (d_desc a) (d_desc b))))
  end.

(** * Hash.  The value is the byte string given to the hasher.  Integers are
    little endian, [usize] and discriminants of enums without [repr] 8 bytes. *)
Definition le (n : nat) (x : Z) : list Z := rev (be n x).
(** wtf8/src/lib.rs 745-751 and 1326-1332: bytes, then 0xFE; [Cow] as its content. *)
Definition str_feed (s : list Z) : list Z := s ++ [254].
(** src/ty.rs 10-40, derived. *)
Fixpoint ty_feed (t : ty) : list Z :=
  match t with
  | TByte => le 8 0 | TChar => le 8 1 | TDouble => le 8 2 | TFloat => le 8 3 | TInt => le 8 4
  | TLong => le 8 5 | TBoolean => le 8 6 | TShort => le 8 7
  | TRef n => le 8 8 ++ str_feed n
  | TArray d e => le 8 9 ++ le 1 d ++ ty_feed e
  | TMethod ps r => le 8 10 ++ (le 8 (len ps) ++ flat_map ty_feed ps) ++
      match r with None => le 8 0 | Some t => le 8 1 ++ ty_feed t end
  end.
(** src/member.rs 15-30, derived. *)
Definition member_feed (m : member) : list Z :=
  str_feed (m_owner m) ++ str_feed (m_name m) ++ ty_feed (m_desc m) ++ le 1 (if m_itfs m then 1 else 0).
(** src/loadable.rs 16-37 (repr(u8)), 62-68, derived. *)
Definition mhandle_feed (h : mhandle) : list Z := le 1 (mhkind_u8 (h_kind h)) ++ member_feed (h_member h).
(** src/loadable.rs 165-186, derived; src/total_floats.rs 87-97. *)
Definition constant_feed (k : constant) : list Z :=
  match k with
  | KI32 i => le 8 0 ++ le 4 i | KF32 b => le 8 1 ++ le 4 b
  | KI64 i => le 8 2 ++ le 8 i | KF64 b => le 8 3 ++ le 8 b
  | KString s => le 8 4 ++ str_feed s | KClass s => le 8 5 ++ str_feed s
  | KMember m => le 8 6 ++ member_feed m | KMethodType t => le 8 7 ++ ty_feed t
  | KMethodHandle h => le 8 8 ++ mhandle_feed h
  end.
Definition appr (a b : res (list Z)) : res (list Z) := x <- a ;; y <- b ;; Ok (x ++ y).
(** src/dynamic.rs 100-104, derived. *)
Definition ordyn_feed (hd : dynamic -> res (list Z)) (o : ordyn constant) : res (list Z) :=
  match o with
  | Dyn d => appr (Ok (le 8 0)) (hd d)
  | Stat k => Ok (le 8 1 ++ constant_feed k)
  end.
(** src/dynamic.rs 9-13, derived. *)
Definition bsm_feed (hd : dynamic -> res (list Z)) (b : bsm) : res (list Z) :=
  appr (Ok (mhandle_feed (b_handle b) ++ le 8 (len (b_args b))))
    (fold_right (fun o r => appr (ordyn_feed hd o) r) (Ok []) (b_args b)).
(** src/dynamic.rs 92-98 [Dynamic::hash]: [bsm.get()] is an [Option]. *)
Fixpoint dyn_feed (h : Z -> option bsm) (n : nat) (d : dynamic) : res (list Z) :=
  match n with
  | O => Panic PFuel
  | S n =>
      appr (match h (d_cell d) with
            | None => Ok (le 8 0)
            | Some b => appr (Ok (le 8 1)) (bsm_feed (dyn_feed h n) b)
            end)
           (Ok (str_feed (d_name d) ++ ty_feed (d_desc d)))
  end.
