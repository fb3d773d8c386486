(** Primitive codecs: numbers, strings, flags, versions, length-prefixed
    vectors (src/rw.rs, src/helper.rs, src/flags.rs, src/version.rs,
    src/total_floats.rs) and the tag numbering of the derive macro. *)
From Verif Require Import Base Wtf8Model MutfModel.

(** A reader over a byte slice ([impl Read for &[u8]]): value and rest. *)
Definition rd (A : Type) : Type := list Z -> res (A * list Z).
(** A writer into a growing buffer: the bytes appended. *)
Definition wr (A : Type) : Type := A -> res (list Z).

(** [Read::read_exact] for a buffer of [n] bytes; too few bytes give
    UnexpectedEof (an [Error::IO]). *)
Fixpoint take (n : Z) (l : list Z) : res (list Z * list Z) :=
  if n <=? 0 then Ok ([], l)
  else match l with
       | [] => Err EIo
       | b :: l' => '(a, r) <- take (n - 1) l' ;; Ok (b :: a, r)
       end.

(** std [to_be_bytes] of an [n]-byte integer (two's complement for negative
    numbers: division and remainder round towards minus infinity). *)
Fixpoint be (n : nat) (x : Z) : list Z :=
  match n with
  | O => []
  | S k => (x / 256 ^ Z.of_nat k) mod 256 :: be k x
  end.
(** std [from_be_bytes], unsigned. *)
Definition from_be (l : list Z) : Z := fold_left (fun acc b => acc * 256 + b) l 0.

(** src/rw.rs 429-447 [impl_readwrite_nums], unsigned types of [n] bytes. *)
Definition rd_u (n : nat) : rd Z := fun l =>
  '(b, r) <- take (Z.of_nat n) l ;; Ok (from_be b, r).
(** ... signed types. *)
Definition rd_s (n : nat) : rd Z := fun l =>
  '(b, r) <- take (Z.of_nat n) l ;; Ok (wrap_s (8 * Z.of_nat n) (from_be b), r).
(** [write_all(&self.to_be_bytes())], for signed and unsigned types. *)
Definition wr_n (n : nat) : wr Z := fun x => Ok (be n x).

Definition rd_u8 := rd_u 1.   Definition rd_i8 := rd_s 1.
Definition rd_u16 := rd_u 2.  Definition rd_i16 := rd_s 2.
Definition rd_u32 := rd_u 4.  Definition rd_i32 := rd_s 4.
Definition rd_u64 := rd_u 8.  Definition rd_i64 := rd_s 8.
(** f32/f64 are represented by their bit patterns (a u32/u64); Rust's
    [from_be_bytes]/[to_be_bytes] on floats are [from_bits]/[to_bits] and keep
    every bit. src/rw.rs 449-464: TotalF32/TotalF64 delegate. *)
Definition rd_f32 := rd_u 4.  Definition rd_f64 := rd_u 8.

(** src/total_floats.rs 41-78: [total_cmp] of std:
    [left ^= (((left >> 31) as u32) >> 1) as i32], then signed comparison;
    [w] is 32 or 64. *)
Definition total_key (w bits : Z) : Z :=
  let s := wrap_s w bits in
  if s <? 0 then wrap_s w (Z.lxor (wrap_u w s) (2 ^ (w - 1) - 1)) else s.
Definition total_cmp (w a b : Z) : comparison := Z.compare (total_key w a) (total_key w b).
Definition total_eq (w a b : Z) : bool :=
  match total_cmp w a b with Eq => true | _ => false end.
(** src/total_floats.rs 82-92 [Hash]: the bits are what is hashed. *)
Definition total_hash_input (bits : Z) : Z := bits.

(** src/rw.rs 466-480 [ReadWrite for Wtf8String]; [len() as u16] truncates. *)
Definition rd_string : rd (list Z) := fun l =>
  '(n, l) <- rd_u16 l ;;
  '(b, l) <- take n l ;;
  s <- modified_utf8_to_string b ;;
  Ok (s, l).
Definition wr_string : wr (list Z) := fun s =>
  e <- string_to_modified_utf8 s ;;
  Ok (be 2 (len e) ++ e).

(** [(0..n).map(|_| read).collect::<Result<Vec<_>>>()]. *)
Fixpoint rd_times {A} (n : nat) (r : rd A) : rd (list A) := fun l =>
  match n with
  | O => Ok ([], l)
  | S k => '(a, l) <- r l ;; '(xs, l) <- rd_times k r l ;; Ok (a :: xs, l)
  end.

(** src/helper.rs 121-147 [ReadWriteAs<Vec<T>> for VecLen<Helper, L>] for the
    [k]-byte unsigned types u8, u16, u32 (these always fit a 64-bit usize, so
    the read-side length check cannot fail). *)
Definition rd_vec {A} (k : nat) (r : rd A) : rd (list A) := fun l =>
  '(n, l) <- rd_u k l ;; rd_times (Z.to_nat n) r l.
Definition wr_vec {A} (k : nat) (w : wr A) : wr (list A) := fun xs =>
  if len xs <? 256 ^ Z.of_nat k then
    ws <- mapM w xs ;; Ok (be k (len xs) ++ concat ws)
  else Err EInvalid.

(** coffer_macros/src/derive.rs 331-353 (and 495-517): the tag of a variant is
    the explicit [#[coffer(tag = n)]], else its discriminant, else the
    previous tag + 1 (0 for the first).  [Some n] stands for either explicit
    form. *)
Fixpoint derive_tags_from (fallback : Z) (l : list (option Z)) : list Z :=
  match l with
  | [] => []
  | o :: l =>
      let t := match o with Some t => t | None => fallback end in
      t :: derive_tags_from (t + 1) l
  end.
Definition derive_tags := derive_tags_from 0.

(** src/version.rs 23-56 [MajorVersion], tag type u16. *)
Inductive major : Type :=
| J1 | J1_2 | J1_3 | J1_4 | J5 | J6 | J7 | J8 | J9 | J10 | J11 | J12 | J13 | J14 | J15.
Definition majors : list major :=
  [J1; J1_2; J1_3; J1_4; J5; J6; J7; J8; J9; J10; J11; J12; J13; J14; J15].
Definition major_tag (m : major) : Z :=
  match m with
  | J1 => 45 | J1_2 => 46 | J1_3 => 47 | J1_4 => 48 | J5 => 49 | J6 => 50 | J7 => 51
  | J8 => 52 | J9 => 53 | J10 => 54 | J11 => 55 | J12 => 56 | J13 => 57 | J14 => 58
  | J15 => 59
  end.
(** [J1 = 45], the others without discriminant. *)
Example major_tags_derived :
  map major_tag majors = derive_tags (Some 45 :: repeat None 14).
Proof. reflexivity. Qed.
Definition rd_major : rd major := fun l =>
  '(t, l) <- rd_u16 l ;;
  if t =? 45 then Ok (J1, l) else if t =? 46 then Ok (J1_2, l)
  else if t =? 47 then Ok (J1_3, l) else if t =? 48 then Ok (J1_4, l)
  else if t =? 49 then Ok (J5, l) else if t =? 50 then Ok (J6, l)
  else if t =? 51 then Ok (J7, l) else if t =? 52 then Ok (J8, l)
  else if t =? 53 then Ok (J9, l) else if t =? 54 then Ok (J10, l)
  else if t =? 55 then Ok (J11, l) else if t =? 56 then Ok (J12, l)
  else if t =? 57 then Ok (J13, l) else if t =? 58 then Ok (J14, l)
  else if t =? 59 then Ok (J15, l) else Err EInvalid.
Definition wr_major : wr major := fun m => wr_n 2 (major_tag m).

(** src/version.rs 6-12 [JavaVersion], derived. *)
Record version : Type := { minor : Z; maj : major }.
Definition rd_version : rd version := fun l =>
  '(mi, l) <- rd_u16 l ;; '(ma, l) <- rd_major l ;; Ok ({| minor := mi; maj := ma |}, l).
Definition wr_version : wr version := fun v =>
  a <- wr_n 2 (minor v) ;; b <- wr_major (maj v) ;; Ok (a ++ b).

(** src/flags.rs 7-158: the declared bits of each flag type. *)
Inductive flagty : Type :=
| ClassFlags | FieldFlags | MethodFlags | InnerClassFlags | MethodParameterFlags
| ModuleFlags | RequireFlags | ExOpFlags.
Definition flag_consts (t : flagty) : list Z :=
  match t with
  | ClassFlags =>
      [0x0001; 0x0010; 0x0020; 0x0200; 0x0400; 0x1000; 0x2000; 0x4000; 0x8000]
  | FieldFlags =>
      [0x0001; 0x0002; 0x0004; 0x0008; 0x0010; 0x0040; 0x0080; 0x1000; 0x4000]
  | MethodFlags =>
      [0x0001; 0x0002; 0x0004; 0x0008; 0x0010; 0x0020; 0x0040; 0x0080; 0x0100;
       0x0400; 0x0800; 0x1000]
  | InnerClassFlags =>
      [0x0001; 0x0002; 0x0004; 0x0008; 0x0010; 0x0200; 0x0400; 0x1000; 0x2000; 0x4000]
  | MethodParameterFlags => [0x0010; 0x1000; 0x8000]
  | ModuleFlags => [0x0020; 0x1000; 0x8000]
  | RequireFlags => [0x0020; 0x0040; 0x1000; 0x8000]
  | ExOpFlags => [0x1000; 0x8000]
  end.
(** bitflags: [all()] is the union; [from_bits_truncate(x) = x & all]. *)
Definition flag_all (t : flagty) : Z := fold_left Z.lor (flag_consts t) 0.
Definition from_bits_truncate (t : flagty) (x : Z) : Z := Z.land x (flag_all t).
(** src/flags.rs 160-175 [rw_impls]. *)
Definition rd_flags (t : flagty) : rd Z := fun l =>
  '(x, l) <- rd_u16 l ;; Ok (from_bits_truncate t x, l).
Definition wr_flags : wr Z := wr_n 2.
(** The values of a flag type: subsets of the declared bits. *)
Definition flags_of (t : flagty) (x : Z) : Prop := u16 x /\ Z.land x (flag_all t) = x.
