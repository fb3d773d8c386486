(** Descriptors: src/ty.rs. *)
From Verif Require Import Base Wtf8Model.

(** src/ty.rs 11-40 [Type]. *)
Inductive ty : Type :=
| TByte | TChar | TDouble | TFloat | TInt | TLong | TBoolean | TShort
| TRef (name : list Z)
| TArray (dim : Z) (elem : ty)
| TMethod (params : list ty) (ret : option ty).

(** src/ty.rs 44-61. *)
Definition ty_is_wide (t : ty) : bool :=
  match t with TLong | TDouble => true | _ => false end.
Definition ty_is_method (t : ty) : bool := match t with TMethod _ _ => true | _ => false end.

(** src/ty.rs 80-88 [Type::array]: u8 addition. *)
Definition type_array (md : mode) (dim : Z) (t : ty) : res ty :=
  match t with
  | TArray d e => d' <- chk_u md 8 (d + dim) ;; Ok (TArray d' e)
  | _ => Ok (TArray dim t)
  end.

(** src/ty.rs 104-106: code points up to (excluding) ';' or the end. *)
Fixpoint span_semi (c : list Z) : list Z * list Z :=
  match c with
  | [] => ([], [])
  | ch :: c' =>
      if ch =? 59 then ([], c)
      else let '(a, r) := span_semi c' in (ch :: a, r)
  end.

(** src/ty.rs 114-118: count further '[' ([dim : u8]). *)
Fixpoint count_dims (md : mode) (dim : Z) (c : list Z) : res (Z * list Z) :=
  match c with
  | ch :: c' =>
      if ch =? 91 then d <- chk_u md 8 (dim + 1) ;; count_dims md d c'
      else Ok (dim, c)
  | [] => Ok (dim, c)
  end.

(** src/ty.rs 125-127: parameters up to (excluding) ')' or the end. *)
Fixpoint params_loop (get : list Z -> res (ty * list Z)) (fuel : nat) (c : list Z)
  : res (list ty * list Z) :=
  match c with
  | [] => Ok ([], [])
  | ch :: _ =>
      if ch =? 41 then Ok ([], c)
      else match fuel with
           | O => Panic PFuel
           | S k =>
               '(t, c) <- get c ;;
               '(ts, c) <- params_loop get k c ;;
               Ok (t :: ts, c)
           end
  end.

(** src/ty.rs 92-149 [get_type].  The iterator is the list of remaining code
    points.  [to_char_lossy] maps a surrogate to U+FFFD, which, like the
    surrogate itself here, is no type character.  The recursion depth is
    bounded by the text length, so fuel [length + 1] suffices (proved); stack
    exhaustion is not modelled. *)
Fixpoint get_type (md : mode) (fuel : nat) (c : list Z) : res (ty * list Z) :=
  match fuel with
  | O => Panic PFuel
  | S n =>
      match c with
      | [] => Err EInvalid
      | ch :: c1 =>
          if ch =? 66 then Ok (TByte, c1)
          else if ch =? 67 then Ok (TChar, c1)
          else if ch =? 68 then Ok (TDouble, c1)
          else if ch =? 70 then Ok (TFloat, c1)
          else if ch =? 73 then Ok (TInt, c1)
          else if ch =? 74 then Ok (TLong, c1)
          else if ch =? 90 then Ok (TBoolean, c1)
          else if ch =? 83 then Ok (TShort, c1)
          else if ch =? 76 then
            let '(nm, c2) := span_semi c1 in
            match c2 with
            | [] => Err EInvalid
            | _ :: c3 => Ok (TRef (from_cps nm), c3)
            end
          else if ch =? 91 then
            '(dim, c2) <- count_dims md 1 c1 ;;
            '(r, c3) <- get_type md n c2 ;;
            Ok (TArray dim r, c3)
          else if ch =? 40 then
            '(ts, c2) <- params_loop (get_type md n) n c1 ;;
            match c2 with
            | [] => Err EInvalid
            | _ :: c3 =>
                match c3 with
                | 86 :: _ => Ok (TMethod ts None, c3)
                | _ =>
                    '(r, c4) <- get_type md n c3 ;;
                    Ok (TMethod ts (Some r), c4)
                end
            end
          else Err EInvalid
      end
  end.

(** src/ty.rs 91, 150 [parse_type]: trailing code points are ignored. *)
Definition parse_type (md : mode) (s : list Z) : res ty :=
  c <- codepoints s ;;
  '(t, _) <- get_type md (S (length c)) c ;;
  Ok t.

(** src/ty.rs 212-249 [write_type]. *)
Fixpoint write_type (t : ty) (s : list Z) : list Z :=
  match t with
  | TByte => push_char s 66
  | TChar => push_char s 67
  | TDouble => push_char s 68
  | TFloat => push_char s 70
  | TInt => push_char s 73
  | TLong => push_char s 74
  | TBoolean => push_char s 90
  | TShort => push_char s 83
  | TRef n => push_char (push_wtf8 (push_char s 76) n) 59
  | TArray dim t =>
      write_type t (fold_left (fun s _ => push_char s 91) (repeat tt (Z.to_nat dim)) s)
  | TMethod ps r =>
      let s := push_char s 40 in
      let s := fold_left (fun s t => write_type t s) ps s in
      let s := push_char s 41 in
      match r with
      | Some t => write_type t s
      | None => push_char s 86
      end
  end.
(** src/ty.rs 204-210 [From<&Type> for Wtf8String]. *)
Definition type_to_wtf8 (t : ty) : list Z := write_type t [].

(** src/ty.rs 251-288 [Display for Type], the UTF-8 text appended. *)
Fixpoint display_type (t : ty) : res (list Z) :=
  match t with
  | TByte => Ok [66] | TChar => Ok [67] | TDouble => Ok [68] | TFloat => Ok [70]
  | TInt => Ok [73] | TLong => Ok [74] | TBoolean => Ok [90] | TShort => Ok [83]
  | TRef n => s <- to_string_lossy n ;; Ok ([76] ++ s ++ [59])
  | TArray dim t => s <- display_type t ;; Ok (repeat 91 (Z.to_nat dim) ++ s)
  | TMethod ps r =>
      ss <- (fix go l := match l with
                         | [] => Ok []
                         | t :: l => s <- display_type t ;; r <- go l ;; Ok (s ++ r)
                         end) ps ;;
      e <- match r with Some t => display_type t | None => Ok [86] end ;;
      Ok ([40] ++ ss ++ [41] ++ e)
  end.
