(** Common definitions: results, panics, build profiles, integer ranges.

    The Rust code returns [Result<T>]; some paths panic.  Both are data here.
    [Panic] also stands for undefined behaviour reached through an
    [unwrap_unchecked]/[unreachable_unchecked] ([PUB]). *)
From Coq Require Export ZArith List Bool Lia.
From Coq Require Export ZifyBool.
Export ListNotations.
Open Scope Z_scope.
Open Scope list_scope.
Open Scope bool_scope.

Ltac Zify.zify_post_hook ::= Z.div_mod_to_equations.

(** Kinds of abnormal termination. *)
Inductive pkind : Type :=
| POverflow      (* arithmetic overflow in a build with overflow checks *)
| PUnwrap        (* unwrap/expect on None or Err *)
| PIndex         (* index out of bounds, missing map key, bad slice *)
| PCapacity      (* capacity overflow in Vec::with_capacity *)
| PUnimplemented (* unimplemented!() *)
| PAssert        (* assert!, panic!, explicit *)
| PUB            (* undefined behaviour: unwrap_unchecked etc. *)
| PFuel.         (* model artefact: fuel exhausted; excluded by theorems *)

(** src/error.rs 9-34 (ErrorBase): error kinds; the message payloads are dropped except
    for the data a caller can match on. *)
Inductive err : Type :=
| EIo                              (* Error::IO, here always UnexpectedEof *)
| EInvalid                         (* Error::Invalid(kind, message) *)
| EWtf8 (valid_up_to : Z) (error_len : option Z)  (* via MutfError::WTF8Error *)
| EMutfAround (index : Z)          (* MutfError::AroundByte *)
| EAttrLen (expected read : Z)     (* Error::AttributeLength *)
| ECustom.                         (* Error::Custom *)

Inductive res (A : Type) : Type :=
| Ok (a : A)
| Err (e : err)
| Panic (p : pkind).
Arguments Ok {A}. Arguments Err {A}. Arguments Panic {A}.

Definition bind {A B} (x : res A) (f : A -> res B) : res B :=
  match x with Ok a => f a | Err e => Err e | Panic p => Panic p end.

Declare Scope res_scope.
Delimit Scope res_scope with res.
Notation "x <- a ;; b" := (bind a (fun x => b))
  (at level 61, a at next level, right associativity) : res_scope.
Notation "' p <- a ;; b" := (bind a (fun p => b))
  (at level 61, p pattern, a at next level, right associativity) : res_scope.
Open Scope res_scope.

Definition is_ok {A} (x : res A) : bool := match x with Ok _ => true | _ => false end.
Definition is_panic {A} (x : res A) : bool := match x with Panic _ => true | _ => false end.

(** Build profile: Cargo's dev profile checks integer overflow, the release
    profile wraps (no [overflow-checks] override in Cargo.toml). *)
Inductive mode : Type := Debug | Release.

(** Arithmetic result [x] in a type of [2^w] values starting at [lo]. *)
Definition wrap_u (w : Z) (x : Z) : Z := x mod 2 ^ w.
Definition wrap_s (w : Z) (x : Z) : Z :=
  (x + 2 ^ (w - 1)) mod 2 ^ w - 2 ^ (w - 1).

Definition chk_u (md : mode) (w x : Z) : res Z :=
  if (0 <=? x) && (x <? 2 ^ w) then Ok x
  else match md with Debug => Panic POverflow | Release => Ok (wrap_u w x) end.
Definition chk_s (md : mode) (w x : Z) : res Z :=
  if (- 2 ^ (w - 1) <=? x) && (x <? 2 ^ (w - 1)) then Ok x
  else match md with Debug => Panic POverflow | Release => Ok (wrap_s w x) end.

(** Ranges of the Rust integer types. *)
Definition u8 (x : Z) : Prop := 0 <= x < 256.
Definition u16 (x : Z) : Prop := 0 <= x < 65536.
Definition u32 (x : Z) : Prop := 0 <= x < 4294967296.
Definition u64 (x : Z) : Prop := 0 <= x < 18446744073709551616.
Definition i8 (x : Z) : Prop := -128 <= x < 128.
Definition i16 (x : Z) : Prop := -32768 <= x < 32768.
Definition i32 (x : Z) : Prop := -2147483648 <= x < 2147483648.
Definition i64 (x : Z) : Prop := -9223372036854775808 <= x < 9223372036854775808.

Definition bytes (l : list Z) : Prop := Forall u8 l.

Definition len {A} (l : list A) : Z := Z.of_nat (length l).

Fixpoint list_eqb {A} (eqb : A -> A -> bool) (a b : list A) : bool :=
  match a, b with
  | [], [] => true
  | x :: a, y :: b => eqb x y && list_eqb eqb a b
  | _, _ => false
  end.

Definition opt_eqb {A} (eqb : A -> A -> bool) (a b : option A) : bool :=
  match a, b with
  | None, None => true
  | Some x, Some y => eqb x y
  | _, _ => false
  end.

(** Association lists standing for Rust hash maps. *)
Fixpoint assoc {K V} (eqb : K -> K -> bool) (k : K) (m : list (K * V)) : option V :=
  match m with
  | [] => None
  | (k', v) :: m => if eqb k k' then Some v else assoc eqb k m
  end.

(** HashMap::insert: replaces the value of an existing key, else adds. *)
Fixpoint assoc_set {K V} (eqb : K -> K -> bool) (k : K) (v : V) (m : list (K * V))
  : list (K * V) :=
  match m with
  | [] => [(k, v)]
  | (k', v') :: m => if eqb k k' then (k', v) :: m else (k', v') :: assoc_set eqb k v m
  end.

(** Bounds check used for match arms like [0xA0..=0xAF]. *)
Definition between (lo hi x : Z) : bool := (lo <=? x) && (x <=? hi).

Fixpoint mapM {A B} (f : A -> res B) (l : list A) : res (list B) :=
  match l with
  | [] => Ok []
  | a :: l => b <- f a ;; bs <- mapM f l ;; Ok (b :: bs)
  end.

Definition opt_res {A} (e : res A) (o : option A) : res A :=
  match o with Some a => Ok a | None => e end.

(** Keep integer arithmetic folded during simplification. *)
Global Arguments Z.add : simpl never.
Global Arguments Z.sub : simpl never.
Global Arguments Z.mul : simpl never.
Global Arguments Z.opp : simpl never.
Global Arguments Z.div : simpl never.
Global Arguments Z.modulo : simpl never.
Global Arguments Z.pow : simpl never.
Global Arguments Z.land : simpl never.
Global Arguments Z.lor : simpl never.
Global Arguments Z.shiftl : simpl never.
Global Arguments Z.shiftr : simpl never.
