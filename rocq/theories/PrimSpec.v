(** Independent specification of numbers and flags (JVMS chapter 4). *)
From Verif Require Import Base PrimModel.

(** Value of a big-endian digit string. *)
Fixpoint be_value (l : list Z) : Z :=
  match l with [] => 0 | b :: l' => b * 256 ^ len l' + be_value l' end.

(** Bit positions of the access and property flags: JVMS tables 4.1-B, 4.5-A,
    4.6-A, 4.7.6-A, 4.7.24, 4.7.25. *)
Definition jvms_flag_bits (t : flagty) : list Z :=
  match t with
  | ClassFlags => [0; 4; 5; 9; 10; 12; 13; 14; 15]
  | FieldFlags => [0; 1; 2; 3; 4; 6; 7; 12; 14]
  | MethodFlags => [0; 1; 2; 3; 4; 5; 6; 7; 8; 10; 11; 12]
  | InnerClassFlags => [0; 1; 2; 3; 4; 9; 10; 12; 13; 14]
  | MethodParameterFlags => [4; 12; 15]
  | ModuleFlags => [5; 12; 15]
  | RequireFlags => [5; 6; 12; 15]
  | ExOpFlags => [12; 15]
  end.

(** IEEE 754 totalOrder on bit patterns of width [w]: negative patterns (sign
    bit set) come first, larger magnitude first; then the positive ones. *)
Definition ieee_le (w a b : Z) : Prop :=
  let neg x := 2 ^ (w - 1) <= x in
  (neg a /\ ~ neg b) \/ (neg a /\ neg b /\ b <= a) \/ (~ neg a /\ ~ neg b /\ a <= b).
