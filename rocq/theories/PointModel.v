(** Single code points: wtf8/src/lib.rs 36-126, 1319-1324.  A [Codepoint] is its
    value, a [char] its scalar value. *)
From Verif Require Import Base.

(** lib.rs 70-75 [from_u32] *)
Definition from_u32 (value : Z) : option Z := if (0 <=? value) && (value <=? 0x10FFFF) then Some value else None.
(** lib.rs 81-85 [from_char], 123-125 [From<char>]: [value as u32] *)
Definition from_char (value : Z) : Z := value.
(** lib.rs 97-104 [to_char] *)
Definition to_char (c : Z) : option Z := if (0xD800 <=? c) && (c <=? 0xDFFF) then None else Some c.
(** lib.rs 111-113 [to_char_lossy] *)
Definition to_char_lossy (c : Z) : Z := match to_char c with Some x => x | None => 0xFFFD end.
(** lib.rs 116-120 [PartialEq<char>] *)
Definition eq_char (c x : Z) : bool := c =? x.

(** lib.rs 49-54 [Debug]: [U+{:04X}].  The digits from the last one, as many as
    needed; filled up with zeros in front to four. *)
Definition upper_digit (d : Z) : Z := if d <? 10 then 48 + d else 55 + d.
Fixpoint upper_rev (fuel : nat) (x : Z) : list Z :=
  match fuel with
  | O => []
  | S n => upper_digit (x mod 16) :: (if x / 16 =? 0 then [] else upper_rev n (x / 16))
  end.
Definition upper_hex (x : Z) : list Z := rev (upper_rev 16 x).
Definition zero_fill (w : nat) (l : list Z) : list Z := repeat 48 (w - List.length l) ++ l.
Definition debug_point (c : Z) : list Z := [85; 43] ++ zero_fill 4 (upper_hex c).
