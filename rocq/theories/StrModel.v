(** The rest of the wtf-8 crate: order, iterator states, formatting, ASCII
    operations (wtf8/src/lib.rs). *)
From Coq Require Import String.
From Verif Require Import Base Wtf8Model.

(** lib.rs 132, 405: [Ord] derived for a byte slice, lexicographic. *)
Fixpoint cmp_bytes (a b : list Z) : comparison :=
  match a, b with
  | [], [] => Eq
  | [], _ => Lt
  | _, [] => Gt
  | x :: a, y :: b => match x ?= y with Eq => cmp_bytes a b | c => c end
  end.

(** lib.rs 1086-1094: [Wtf8CodePoints] after up to [n] calls of [next] (the
    iterator is the list of the bytes left, which is also what
    [Wtf8CodePoints::as_str], 1080-1083, returns). *)
Fixpoint cp_after (n : nat) (l : list Z) : res (list Z) :=
  match n with
  | O => Ok l
  | S n => r <- next_code_point l ;; match r with Some (_, l) => cp_after n l | None => Ok l end
  end.
(** lib.rs 1110-1130: [EncodeWide] after up to [n] calls of [next]. *)
Fixpoint wide_after (n : nat) (st : list Z * Z) : res (list Z * Z) :=
  match n with
  | O => Ok st
  | S n => r <- encode_wide_next st ;; match r with Some (_, st) => wide_after n st | None => Ok st end
  end.
Definition usize_max : Z := 2 ^ 64 - 1.
(** lib.rs 1096-1099 *)
Definition cp_hint (l : list Z) : Z * option Z := (Z.min (len l + 3) usize_max / 4, Some (len l)).
(** lib.rs 1132-1143 *)
Definition checked (x : Z) : option Z := if x <=? usize_max then Some x else None.
Definition wide_hint (st : list Z * Z) : Z * option Z :=
  let '(low, high) := cp_hint (fst st) in
  let ext := if negb (snd st =? 0) then 1 else 0 in
  (low + ext,
   match high with
   | Some n => match checked (n * 2) with Some n => checked (n + ext) | None => None end
   | None => None
   end).

(** [{:x}] of a number: digits from the last one, no leading zeros. *)
Definition hex_digit (d : Z) : Z := if d <? 10 then 48 + d else 87 + d.
Fixpoint hex_rev (fuel : nat) (x : Z) : list Z :=
  match fuel with
  | O => []
  | S n => hex_digit (x mod 16) :: (if x / 16 =? 0 then [] else hex_rev n (x / 16))
  end.
Definition hex (x : Z) : list Z := rev (hex_rev 16 x).

Section Debug.
(** [char::escape_debug] of the standard library, as the bytes written. *)
Variable esc : Z -> list Z.
(** lib.rs 143-149 [write_str_escaped] *)
Definition write_escaped (s : list Z) : res (list Z) := cs <- codepoints s ;; Ok (flat_map esc cs).
(** lib.rs 141-163 [Debug]; fuel bounds the number of surrogates. *)
Fixpoint debug_loop (fuel : nat) (s out : list Z) (pos : nat) : res (list Z) :=
  r <- next_surrogate s pos ;;
  match r with
  | Some (sp, x) =>
      match fuel with
      | O => Panic PFuel
      | S n =>
          t <- write_escaped (slice s pos sp) ;;
          debug_loop n s (out ++ t ++ [92; 117; 123] ++ hex x ++ [125]) (sp + 3)
      end
  | None => t <- write_escaped (skipn pos s) ;; Ok (out ++ t ++ [34])
  end.
Definition debug_str (s : list Z) : res (list Z) := debug_loop (List.length s) s [34] 0.
End Debug.
(** lib.rs 167-190 [Display] with the plain format "{}" (no width or precision,
    for which [s.fmt] is [write_str]). *)
Fixpoint display_loop (fuel : nat) (s out : list Z) (pos : nat) : res (list Z) :=
  r <- next_surrogate s pos ;;
  match r with
  | Some (sp, _) =>
      match fuel with
      | O => Panic PFuel
      | S n => display_loop n s (out ++ slice s pos sp ++ replacement) (sp + 3)
      end
  | None => Ok (out ++ skipn pos s)
  end.
Definition display_str (s : list Z) : res (list Z) := display_loop (List.length s) s [] 0.

(** lib.rs 271-276 *)
Definition ascii_byte_at (s : list Z) (pos : nat) : res Z :=
  match nth_error s pos with
  | Some b => Ok (if b <=? 127 then b else 255)
  | None => Panic PIndex
  end.
(** lib.rs 372-374: [<[u8]>::is_ascii] *)
Definition is_ascii (s : list Z) : bool := forallb (fun b => b <? 128) s.
(** lib.rs 377-379: [<[u8]>::eq_ignore_ascii_case] *)
Definition eq_ignore_ascii_case (a b : list Z) : bool :=
  list_eqb Z.eqb (map ascii_lower a) (map ascii_lower b).
