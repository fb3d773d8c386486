(** Borrowed constant pool entries: src/cp.rs 15-54. *)
From Verif Require Import Base Wtf8Model MutfModel PrimModel CpModel.

(** src/cp.rs 34-54 [ConstEntryRef] (public, unused by the crate).  [StrRef]
    (16-17) wraps a borrowed WTF-8 string; floats are their bit patterns. *)
Inductive cref : Type :=
| FUtf8 (s : list Z)
| FInt (i : Z)
| FFloat (bits : Z)
| FLong (i : Z)
| FDouble (bits : Z)
| FClass (i : Z)
| FString (i : Z)
| FField (c nt : Z)
| FMethod (c nt : Z)
| FItfMethod (c nt : Z)
| FNameType (n t : Z)
| FMHandle (k m : Z)
| FMType (d : Z)
| FDynamic (b nt : Z)
| FInvokeDynamic (b nt : Z)
| FModule (n : Z)
| FPackage (n : Z).

(** Tags as derived (coffer_macros/src/derive.rs, PrimModel [derive_tags]): the
    first variant has no explicit tag, [Int] has 3, [MethodHandle] has 15. *)
Definition cref_tags : list Z := derive_tags (None :: Some 3 :: repeat None 9 ++ Some 15 :: repeat None 5).
Definition cref_variant (e : cref) : nat :=
  match e with
  | FUtf8 _ => 0 | FInt _ => 1 | FFloat _ => 2 | FLong _ => 3 | FDouble _ => 4 | FClass _ => 5 | FString _ => 6
  | FField _ _ => 7 | FMethod _ _ => 8 | FItfMethod _ _ => 9 | FNameType _ _ => 10 | FMHandle _ _ => 11 | FMType _ => 12
  | FDynamic _ _ => 13 | FInvokeDynamic _ _ => 14 | FModule _ => 15 | FPackage _ => 16
  end%nat.
Definition cref_tag (e : cref) : Z := nth (cref_variant e) cref_tags 0.

(** src/cp.rs 27-30: [StrRef::write_to] writes the bytes and no length;
    src/cp.rs 20-25: [StrRef::read_from] always is an error. *)
Definition wr_strref : wr (list Z) := string_to_modified_utf8.
Definition rd_strref : rd (list Z) := fun _ => Err EInvalid.

(** src/cp.rs 33 [derive(ReadWrite)] (coffer_macros/src/derive.rs 278-480): tag
    byte, then the fields in order. *)
Definition wr_cref : wr cref := fun e =>
  body <- match e with
          | FUtf8 s => wr_strref s
          | FInt a | FFloat a => wr_n 4 a
          | FLong a | FDouble a => wr_n 8 a
          | FClass a | FString a | FMType a | FModule a | FPackage a => wr_n 2 a
          | FField a b | FMethod a b | FItfMethod a b | FNameType a b | FDynamic a b | FInvokeDynamic a b =>
              x <- wr_n 2 a ;; y <- wr_n 2 b ;; Ok (x ++ y)
          | FMHandle k m => x <- wr_n 1 k ;; y <- wr_n 2 m ;; Ok (x ++ y)
          end ;;
  Ok (be 1 (cref_tag e) ++ body).

Definition rd_f1 (f : Z -> cref) : rd cref := fun l => '(a, l) <- rd_u16 l ;; Ok (f a, l).
Definition rd_f2 (f : Z -> Z -> cref) : rd cref := fun l => '(a, l) <- rd_u16 l ;; '(b, l) <- rd_u16 l ;; Ok (f a b, l).
Definition cref_readers : list (rd cref) :=
  [ (fun l => '(s, l) <- rd_strref l ;; Ok (FUtf8 s, l));
    (fun l => '(i, l) <- rd_i32 l ;; Ok (FInt i, l)); (fun l => '(i, l) <- rd_f32 l ;; Ok (FFloat i, l));
    (fun l => '(i, l) <- rd_i64 l ;; Ok (FLong i, l)); (fun l => '(i, l) <- rd_f64 l ;; Ok (FDouble i, l));
    rd_f1 FClass; rd_f1 FString; rd_f2 FField; rd_f2 FMethod; rd_f2 FItfMethod; rd_f2 FNameType;
    (fun l => '(k, l) <- rd_u8 l ;; '(m, l) <- rd_u16 l ;; Ok (FMHandle k m, l));
    rd_f1 FMType; rd_f2 FDynamic; rd_f2 FInvokeDynamic; rd_f1 FModule; rd_f1 FPackage ].
Fixpoint pick (t : Z) (ts : list Z) (rs : list (rd cref)) : rd cref :=
  match ts, rs with
  | t' :: ts, r :: rs => if t =? t' then r else pick t ts rs
  | _, _ => fun _ => Err EInvalid
  end.
Definition rd_cref : rd cref := fun l => '(t, l) <- rd_u8 l ;; pick t cref_tags cref_readers l.
