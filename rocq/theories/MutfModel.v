(** Model of src/mod_utf8.rs. *)
From Verif Require Import Base Wtf8Model.

(** mod_utf8.rs 36-83: first pass; returns whether the buffer needs
    modification.  The guard [0xC0 if next!() == 0x80] consumes the next byte
    even when it is not 0x80. *)
Fixpoint mutf_pass1 (index : Z) (high : bool) (l : list Z) {struct l} : res bool :=
  match l with
  | [] => Ok false
  | b :: l1 =>
      let err := Err (EMutfAround index) in
      if b =? 0xC0 then
        match l1 with
        | [] => err
        | n :: l2 => if n =? 0x80 then Ok true else mutf_pass1 (index + 2) false l2
        end
      else if b =? 0xED then
        match l1 with
        | [] => err
        | n :: l2 =>
            if between 0xA0 0xAF n then
              match l2 with
              | [] => err
              | _ :: l3 => mutf_pass1 (index + 3) true l3
              end
            else if between 0xB0 0xBF n then
              if high then Ok true else mutf_pass1 (index + 2) false l2
            else mutf_pass1 (index + 2) false l2
        end
      else mutf_pass1 (index + 1) false l1
  end.

(** std [char::from_u32]. *)
Definition char_from_u32 (c : Z) : option Z :=
  if (0 <=? c) && (c <=? 0x10FFFF) && negb (between 0xD800 0xDFFF c) then Some c else None.

(** mod_utf8.rs 85-124: second pass.  [buf.get(index + k)] is the k-th byte of
    the remaining input; [iter.nth(4)] skips five bytes; all four bytes of the
    zero-initialised array are appended. *)
Definition pad4 (l : list Z) : list Z := firstn 4 (l ++ [0; 0; 0; 0]).

Fixpoint mutf_pass2 (l : list Z) : res (list Z) :=
  match l with
  | [] => Ok []
  | b :: l1 =>
      let keep := r <- mutf_pass2 l1 ;; Ok (b :: r) in
      if b =? 0xC0 then
        match l1 with
        | n :: l2 => if n =? 0x80 then r <- mutf_pass2 l2 ;; Ok (0 :: r) else keep
        | [] => keep
        end
      else if b =? 0xED then
        match l1 with
        | n :: n1 :: n2 :: n3 :: n4 :: l6 =>
            if between 0xA0 0xAF n && (n2 =? 0xED) && between 0xB0 0xBF n3 then
              let char := 0x10000
                          + Z.shiftl (Z.land n 0xF) 16
                          + Z.shiftl (Z.land n1 0x3F) 10
                          + Z.shiftl (Z.land n3 0xF) 6
                          + Z.land n4 0x3F in
              match char_from_u32 char with
              | None => Panic PUnwrap
              | Some ch => r <- mutf_pass2 l6 ;; Ok (pad4 (encode_utf8_raw ch) ++ r)
              end
            else keep
        | _ => keep
        end
      else keep
  end.

(** mod_utf8.rs 34-130 [modified_utf8_to_string]. *)
Definition modified_utf8_to_string (buf : list Z) : res (list Z) :=
  m <- mutf_pass1 0 false buf ;;
  if (m : bool) then out <- mutf_pass2 buf ;; from_bytes out
  else from_bytes buf.

(** mod_utf8.rs 149-175, the body of the second loop of
    [string_to_modified_utf8].  [as u8] keeps the low byte.  The first loop
    (141-148) only computes a capacity hint and is omitted. *)
Definition mutf_push (c : Z) : list Z :=
  if between 0x1 0x7F c then [Z.land c 0xFF]
  else if (c =? 0) || between 0x80 0x7FF c then
    [Z.lor (Z.land (Z.land (Z.shiftr c 6) 0xFF) 0x1F) 0xC0;
     Z.lor (Z.land (Z.land c 0xFF) 0x3F) 0x80]
  else if between 0x800 0xFFFF c then
    [Z.lor (Z.land (Z.land (Z.shiftr c 12) 0xFF) 0x0F) 0xE0;
     Z.lor (Z.land (Z.land (Z.shiftr c 6) 0xFF) 0x3F) 0x80;
     Z.lor (Z.land (Z.land c 0xFF) 0x3F) 0x80]
  else
    [0xED;
     Z.lor (Z.land (Z.land (Z.shiftr c 16) 0xFF) 0x1F - 1) 0xA0;
     Z.lor 0x80 (Z.land (Z.land (Z.shiftr c 10) 0xFF) 0x3F);
     0xED;
     Z.lor (Z.land (Z.land (Z.shiftr c 6) 0xFF) 0x0F) 0xB0;
     Z.lor (Z.land (Z.land c 0xFF) 0x3F) 0x80].

(** mod_utf8.rs 136-178 [string_to_modified_utf8].  The u8 subtraction in the
    six-byte arm cannot underflow: there c >= 0x10000. *)
Definition string_to_modified_utf8 (s : list Z) : res (list Z) :=
  cs <- codepoints s ;; Ok (flat_map mutf_push cs).
