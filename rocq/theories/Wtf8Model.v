(** Model of the wtf-8 crate: wtf8/src/std_internal.rs and wtf8/src/lib.rs.
    A [Wtf8Str]/[Wtf8String] is its byte vector ([list Z]). *)
From Verif Require Import Base.

(** std_internal.rs 84-94 [len_utf8]. *)
Definition len_utf8 (code : Z) : Z :=
  if code <? 0x80 then 1
  else if code <? 0x800 then 2
  else if code <? 0x10000 then 3
  else 4.

(** std_internal.rs 17-46 [encode_utf8_raw], the destination buffer having 4
    bytes as at every call site (so the panic arm is not reached).  [as u8] is
    taken after the mask and so has no effect, except in the one-byte arm
    where the code is below 0x80. *)
Definition encode_utf8_raw (code : Z) : list Z :=
  if len_utf8 code =? 1 then [code]
  else if len_utf8 code =? 2 then
    [Z.lor (Z.land (Z.shiftr code 6) 0x1F) 0xC0;
     Z.lor (Z.land code 0x3F) 0x80]
  else if len_utf8 code =? 3 then
    [Z.lor (Z.land (Z.shiftr code 12) 0x0F) 0xE0;
     Z.lor (Z.land (Z.shiftr code 6) 0x3F) 0x80;
     Z.lor (Z.land code 0x3F) 0x80]
  else
    [Z.lor (Z.land (Z.shiftr code 18) 0x07) 0xF0;
     Z.lor (Z.land (Z.shiftr code 12) 0x3F) 0x80;
     Z.lor (Z.land (Z.shiftr code 6) 0x3F) 0x80;
     Z.lor (Z.land code 0x3F) 0x80].

(** std_internal.rs 59-81 [encode_utf16_raw] with a 2-unit buffer. *)
Definition encode_utf16_raw (code : Z) : list Z :=
  if Z.land code 0xFFFF =? code then [code]
  else
    let code := code - 0x10000 in
    [Z.lor 0xD800 (Z.land (Z.shiftr code 10) 0xFFFF);
     Z.lor 0xDC00 (Z.land code 0x3FF)].

(** std_internal.rs 100-102 [utf8_first_byte]. *)
Definition utf8_first_byte (byte width : Z) : Z :=
  Z.land byte (Z.shiftr 0x7F width).

(** std_internal.rs 106-108 [utf8_acc_cont_byte]. *)
Definition utf8_acc_cont_byte (ch byte : Z) : Z :=
  Z.lor (Z.shiftl ch 6) (Z.land byte 0x3F).

(** std_internal.rs 117-151 [next_code_point]: the iterator is the remaining
    byte list; [unwrap_unchecked] on an exhausted iterator is [Panic PUB]. *)
Definition next_code_point (l : list Z) : res (option (Z * list Z)) :=
  match l with
  | [] => Ok None
  | x :: l1 =>
      if x <? 128 then Ok (Some (x, l1))
      else
        let init := utf8_first_byte x 2 in
        match l1 with
        | [] => Panic PUB
        | y :: l2 =>
            let ch := utf8_acc_cont_byte init y in
            if 0xE0 <=? x then
              match l2 with
              | [] => Panic PUB
              | z :: l3 =>
                  let y_z := utf8_acc_cont_byte (Z.land y 0x3F) z in
                  let ch := Z.lor (Z.shiftl init 12) y_z in
                  if 0xF0 <=? x then
                    match l3 with
                    | [] => Panic PUB
                    | w :: l4 =>
                        let ch := Z.lor (Z.shiftl (Z.land init 7) 18)
                                        (utf8_acc_cont_byte y_z w) in
                        Ok (Some (ch, l4))
                    end
                  else Ok (Some (ch, l3))
              end
            else Ok (Some (ch, l2))
        end
  end.

(** lib.rs 1086-1100 [Wtf8CodePoints] run to exhaustion.  The fuel is the
    number of bytes; each step consumes at least one. *)
Fixpoint codepoints_fuel (fuel : nat) (l : list Z) : res (list Z) :=
  match next_code_point l with
  | Ok None => Ok []
  | Ok (Some (c, l')) =>
      match fuel with
      | O => Panic PFuel
      | S n => cs <- codepoints_fuel n l' ;; Ok (c :: cs)
      end
  | Err e => Err e
  | Panic p => Panic p
  end.
Definition codepoints (s : list Z) : res (list Z) := codepoints_fuel (length s) s.

(** lib.rs 1110-1135 [EncodeWide::next]: state is (remaining bytes, extra). *)
Definition encode_wide_next (st : list Z * Z) : res (option (Z * (list Z * Z))) :=
  let '(l, extra) := st in
  if negb (extra =? 0) then Ok (Some (extra, (l, 0)))
  else
    r <- next_code_point l ;;
    match r with
    | None => Ok None
    | Some (c, l') =>
        match encode_utf16_raw c with
        | [b0; b1] => Ok (Some (b0, (l', b1)))
        | [b0] => Ok (Some (b0, (l', 0)))
        | _ => Panic PIndex
        end
    end.

Fixpoint encode_wide_fuel (fuel : nat) (st : list Z * Z) : res (list Z) :=
  r <- encode_wide_next st ;;
  match r with
  | None => Ok []
  | Some (u, st') =>
      match fuel with
      | O => Panic PFuel
      | S n => us <- encode_wide_fuel n st' ;; Ok (u :: us)
      end
  end.
(** lib.rs 309-314 [encode_wide], collected. *)
Definition encode_wide (s : list Z) : res (list Z) :=
  encode_wide_fuel (2 * length s) (s, 0).

(** lib.rs 1028-1031 [decode_surrogate]. *)
Definition decode_surrogate (second third : Z) : Z :=
  Z.lor (Z.lor 0xD800 (Z.shiftl (Z.land second 0x3F) 6)) (Z.land third 0x3F).

(** lib.rs 1034-1037 [decode_surrogate_pair]; the callers pass values
    >= 0xD800 resp. >= 0xDC00, so the u16 subtractions do not underflow. *)
Definition decode_surrogate_pair (lead trail : Z) : Z :=
  0x10000 + Z.lor (Z.shiftl (lead - 0xD800) 10) (trail - 0xDC00).

(** lib.rs 316-343 [next_surrogate], on the bytes from [pos] on. *)
Fixpoint next_surrogate_from (pos : nat) (l : list Z) : option (nat * Z) :=
  match l with
  | [] => None
  | b :: l1 =>
      if b <? 0x80 then next_surrogate_from (pos + 1) l1
      else if b <? 0xE0 then
        match l1 with
        | _ :: l2 => next_surrogate_from (pos + 2) l2
        | [] => None
        end
      else if b =? 0xED then
        match l1 with
        | b2 :: b3 :: l3 =>
            if 0xA0 <=? b2 then Some (pos, decode_surrogate b2 b3)
            else next_surrogate_from (pos + 3) l3
        | _ => None
        end
      else if b <? 0xF0 then
        match l1 with
        | _ :: _ :: l3 => next_surrogate_from (pos + 3) l3
        | _ => None
        end
      else
        match l1 with
        | _ :: _ :: _ :: l4 => next_surrogate_from (pos + 4) l4
        | _ => None
        end
  end.
(** [&self.bytes[pos..]] panics when pos > len. *)
Definition next_surrogate (s : list Z) (pos : nat) : res (option (nat * Z)) :=
  if (pos <=? length s)%nat then Ok (next_surrogate_from pos (skipn pos s))
  else Panic PIndex.

(** lib.rs 346-351 [final_lead_surrogate]. *)
Definition final_lead_surrogate (s : list Z) : option Z :=
  match rev s with
  | b3 :: b2 :: b1 :: _ =>
      if (b1 =? 0xED) && between 0xA0 0xAF b2 then Some (decode_surrogate b2 b3)
      else None
  | _ => None
  end.

(** lib.rs 354-359 [initial_trail_surrogate]. *)
Definition initial_trail_surrogate (s : list Z) : option Z :=
  match s with
  | b1 :: b2 :: b3 :: _ =>
      if (b1 =? 0xED) && between 0xB0 0xBF b2 then Some (decode_surrogate b2 b3)
      else None
  | _ => None
  end.

(** lib.rs 531-535 [push_code_point_unchecked]. *)
Definition push_code_point_unchecked (s : list Z) (c : Z) : list Z :=
  s ++ encode_utf8_raw c.
(** lib.rs 654-657 [push_char]. *)
Definition push_char (s : list Z) (c : Z) : list Z := push_code_point_unchecked s c.

(** lib.rs 665-677 [push]. *)
Definition push (s : list Z) (c : Z) : list Z :=
  if between 0xDC00 0xDFFF c then
    match final_lead_surrogate s with
    | Some lead =>
        push_char (firstn (length s - 3) s) (decode_surrogate_pair lead c)
    | None => push_code_point_unchecked s c
    end
  else push_code_point_unchecked s c.

(** lib.rs 633-650 [push_wtf8]. *)
Definition push_wtf8 (s other : list Z) : list Z :=
  match final_lead_surrogate s, initial_trail_surrogate other with
  | Some lead, Some trail =>
      push_char (firstn (length s - 3) s) (decode_surrogate_pair lead trail)
      ++ skipn 3 other
  | _, _ => s ++ other
  end.

(** lib.rs 852-868 [Extend]/[FromIterator] for code points. *)
Definition extend_cps (s : list Z) (cs : list Z) : list Z := fold_left push cs s.
Definition from_cps (cs : list Z) : list Z := extend_cps [] cs.

(** std [char::decode_utf16] (not part of /repo): pairs are decoded, other
    surrogates are reported as errors; here [inl] = Ok(char), [inr] = Err. *)
Fixpoint decode_utf16 (l : list Z) : list (Z + Z) :=
  match l with
  | [] => []
  | u :: l1 =>
      if negb (between 0xD800 0xDFFF u) then inl u :: decode_utf16 l1
      else if 0xDC00 <=? u then inr u :: decode_utf16 l1
      else
        match l1 with
        | [] => [inr u]
        | u2 :: l2 =>
            if negb (between 0xDC00 0xDFFF u2) then inr u :: decode_utf16 l1
            else
              inl (Z.lor (Z.shiftl (Z.land u 0x3FF) 10) (Z.land u2 0x3FF) + 0x10000)
              :: decode_utf16 l2
        end
  end.

(** lib.rs 506-523 [from_wide]. *)
Definition from_wide (v : list Z) : list Z :=
  fold_left (fun s item =>
               match item with
               | inl ch => push_char s ch
               | inr sg => push_code_point_unchecked s sg
               end) (decode_utf16 v) [].

(** lib.rs 297-304 [as_str] / 698-705 [into_string]. *)
Definition as_str (s : list Z) : res (option (list Z)) :=
  r <- next_surrogate s 0 ;;
  match r with None => Ok (Some s) | Some _ => Ok None end.

(** "\u{FFFD}" in UTF-8 (lib.rs UTF8_REPLACEMENT_CHARACTER). *)
Definition replacement : list Z := [0xEF; 0xBF; 0xBD].

(** [self.bytes[a..b].copy_from_slice(r)]. *)
Definition overwrite (s : list Z) (a b : nat) (r : list Z) : list Z :=
  firstn a s ++ r ++ skipn b s.

(** lib.rs 711-724 [into_string_lossy]; fuel bounds the number of surrogates. *)
Fixpoint into_string_lossy_fuel (fuel : nat) (s : list Z) (pos : nat) : res (list Z) :=
  r <- next_surrogate s pos ;;
  match r with
  | None => Ok s
  | Some (sp, _) =>
      match fuel with
      | O => Panic PFuel
      | S n =>
          if (sp + 3 <=? length s)%nat then
            into_string_lossy_fuel n (overwrite s sp (sp + 3) replacement) (sp + 3)
          else Panic PIndex
      end
  end.
Definition into_string_lossy (s : list Z) : res (list Z) :=
  into_string_lossy_fuel (length s) s 0.

(** [&bytes[a..b]] of a byte slice. *)
Definition slice (s : list Z) (a b : nat) : list Z := firstn (b - a) (skipn a s).

(** lib.rs 778-805 [to_string_lossy]. *)
Fixpoint to_string_lossy_loop (fuel : nat) (s out : list Z) (pos : nat) : res (list Z) :=
  r <- next_surrogate s pos ;;
  match r with
  | Some (sp, _) =>
      match fuel with
      | O => Panic PFuel
      | S n => to_string_lossy_loop n s (out ++ slice s pos sp ++ replacement) (sp + 3)
      end
  | None => Ok (out ++ skipn pos s)
  end.
Definition to_string_lossy (s : list Z) : res (list Z) :=
  r <- next_surrogate s 0 ;;
  match r with
  | None => Ok s
  | Some (sp, _) =>
      to_string_lossy_loop (length s) s (firstn sp s ++ replacement) (sp + 3)
  end.

(** lib.rs 1041-1049 [is_code_point_boundary]. *)
Definition is_code_point_boundary (s : list Z) (index : nat) : bool :=
  if (index =? length s)%nat then true
  else match nth_error s index with
       | None => false
       | Some b => negb ((128 <=? b) && (b <? 192))
       end.

(** lib.rs 961-976 [Index<Range>]. *)
Definition index_range (s : list Z) (a b : nat) : res (list Z) :=
  if (a <=? b)%nat && is_code_point_boundary s a && is_code_point_boundary s b
  then Ok (slice s a b) else Panic PIndex.
(** lib.rs 984-997 [Index<RangeFrom>]. *)
Definition index_from (s : list Z) (a : nat) : res (list Z) :=
  if is_code_point_boundary s a then Ok (slice s a (length s)) else Panic PIndex.
(** lib.rs 1005-1017 [Index<RangeTo>]. *)
Definition index_to (s : list Z) (b : nat) : res (list Z) :=
  if is_code_point_boundary s b then Ok (slice s 0 b) else Panic PIndex.
(** lib.rs 686-689 [truncate]. *)
Definition truncate (s : list Z) (n : nat) : res (list Z) :=
  if is_code_point_boundary s n then Ok (firstn n s) else Panic PAssert.

(** lib.rs 1215-1317 [validate_wtf8].  [index] is the position of the first
    byte of [l]; [high] is [is_high_surrogate]. *)
Definition tail_byte (b : Z) : bool := between 0x80 0xBF b.

Fixpoint validate_from (index : Z) (high : bool) (l : list Z) {struct l} : res unit :=
  match l with
  | [] => Ok tt
  | b :: l1 =>
      let err := Err (EWtf8 index None) in
      let err_n n := Err (EWtf8 index (Some n)) in
      if between 0x00 0x7F b then validate_from (index + 1) false l1
      else if between 0xC2 0xDF b then
        match l1 with
        | [] => err
        | n :: l2 =>
            if negb (tail_byte n) then err_n 2
            else validate_from (index + 2) false l2
        end
      else if b =? 0xE0 then
        match l1 with
        | [] => err
        | n :: l2 =>
            if negb (between 0xA0 0xBF n) then err_n 3
            else match l2 with
                 | [] => err
                 | n1 :: l3 =>
                     if negb (tail_byte n1) then err_n 3
                     else validate_from (index + 3) false l3
                 end
        end
      else if between 0xE1 0xEC b || between 0xEE 0xEF b then
        match l1 with
        | [] => err
        | n :: l2 =>
            if negb (tail_byte n) then err_n 3
            else match l2 with
                 | [] => err
                 | n1 :: l3 =>
                     if negb (tail_byte n1) then err_n 3
                     else validate_from (index + 3) false l3
                 end
        end
      else if b =? 0xED then
        match l1 with
        | [] => err
        | n :: l2 =>
            if between 0xA0 0xAF n then
              match l2 with
              | [] => err
              | _ :: l3 => validate_from (index + 3) true l3
              end
            else if between 0xB0 0xBF n && high then
              Err (EWtf8 (index - 3) (Some 6))
            else if between 0x80 0x9F n || between 0xB0 0xBF n then
              match l2 with
              | [] => err
              | n1 :: l3 =>
                  if negb (tail_byte n1) then err_n 3
                  else validate_from (index + 3) false l3
              end
            else err_n 3
        end
      else if b =? 0xF0 then
        match l1 with
        | n :: n1 :: n2 :: l4 =>
            if between 0x90 0xBF n && tail_byte n1 && tail_byte n2
            then validate_from (index + 4) false l4 else err_n 4
        | _ => err
        end
      else if between 0xF1 0xF3 b then
        match l1 with
        | n :: n1 :: n2 :: l4 =>
            if between 0x80 0xBF n && tail_byte n1 && tail_byte n2
            then validate_from (index + 4) false l4 else err_n 4
        | _ => err
        end
      else if b =? 0xF4 then
        match l1 with
        | n :: n1 :: n2 :: l4 =>
            if between 0x80 0x8F n && tail_byte n1 && tail_byte n2
            then validate_from (index + 4) false l4 else err_n 4
        | _ => err
        end
      else err_n 1
  end.
Definition validate_wtf8 (l : list Z) : res unit := validate_from 0 false l.

(** lib.rs 232-236, 484-488 [from_bytes]. *)
Definition from_bytes (l : list Z) : res (list Z) :=
  _ <- validate_wtf8 l ;; Ok l.

(** std [u8::to_ascii_lowercase]/[to_ascii_uppercase], lib.rs 361-368, 820-832. *)
Definition ascii_lower (b : Z) : Z := if between 65 90 b then b + 32 else b.
Definition ascii_upper (b : Z) : Z := if between 97 122 b then b - 32 else b.
Definition to_ascii_lowercase (s : list Z) : list Z := map ascii_lower s.
Definition to_ascii_uppercase (s : list Z) : list Z := map ascii_upper s.
