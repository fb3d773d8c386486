(** Specification of WTF-8, ill-formed UTF-16 and modified UTF-8, written from
    the standards (simonsapin's WTF-8, RFC 3629, JVMS 4.4.7) with plain
    division and remainder, independently of the code. *)
From Verif Require Import Base.

(** Unicode code points, including surrogates. *)
Definition is_cp (c : Z) : Prop := 0 <= c <= 0x10FFFF.
Definition is_lead (c : Z) : Prop := 0xD800 <= c <= 0xDBFF.
Definition is_trail (c : Z) : Prop := 0xDC00 <= c <= 0xDFFF.
Definition is_surrogate (c : Z) : Prop := 0xD800 <= c <= 0xDFFF.

(** Generalized UTF-8 encoding of one code point. *)
Definition utf8 (c : Z) : list Z :=
  if c <? 0x80 then [c]
  else if c <? 0x800 then [0xC0 + c / 64; 0x80 + c mod 64]
  else if c <? 0x10000 then
    [0xE0 + c / 4096; 0x80 + c / 64 mod 64; 0x80 + c mod 64]
  else
    [0xF0 + c / 262144; 0x80 + c / 4096 mod 64; 0x80 + c / 64 mod 64; 0x80 + c mod 64].

(** No lead surrogate directly followed by a trail surrogate. *)
Fixpoint no_pair (l : list Z) : Prop :=
  match l with
  | a :: l' =>
      match l' with
      | b :: _ => ~ (is_lead a /\ is_trail b)
      | [] => True
      end /\ no_pair l'
  | [] => True
  end.

(** A sequence of code points that WTF-8 can represent. *)
Definition wtf8_cps (cps : list Z) : Prop := Forall is_cp cps /\ no_pair cps.

(** A byte string is well-formed WTF-8 for the code points [cps]. *)
Definition wtf8_of (cps : list Z) (s : list Z) : Prop :=
  wtf8_cps cps /\ s = flat_map utf8 cps.
Definition wf_wtf8 (s : list Z) : Prop := exists cps, wtf8_of cps s.

(** UTF-16 code units of a code point. *)
Definition utf16 (c : Z) : list Z :=
  if c <? 0x10000 then [c]
  else [0xD800 + (c - 0x10000) / 1024; 0xDC00 + (c - 0x10000) mod 1024].

(** JVMS 4.4.7: the bytes of one 16-bit code unit in modified UTF-8. *)
Definition mutf8_unit (u : Z) : list Z :=
  if (1 <=? u) && (u <=? 0x7F) then [u]
  else if u <=? 0x7FF then [0xC0 + u / 64; 0x80 + u mod 64]
  else [0xE0 + u / 4096; 0x80 + u / 64 mod 64; 0x80 + u mod 64].

(** Valid modified UTF-8: the encoding of some sequence of code units. *)
Definition mutf8_of (us : list Z) : list Z := flat_map mutf8_unit us.
Definition valid_mutf8 (b : list Z) : Prop :=
  exists us, Forall u16 us /\ b = mutf8_of us.

(** Lossy replacement of surrogates by U+FFFD. *)
Definition replace_surrogate (c : Z) : Z :=
  if (0xD800 <=? c) && (c <=? 0xDFFF) then 0xFFFD else c.
