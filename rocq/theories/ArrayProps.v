(** C71: building array types. *)
From Verif Require Import Base BaseLemmas Wtf8Spec TypeModel TypeSpec.

Definition dims (t : ty) : Z := match t with TArray d _ => d | _ => 0 end.

(** [dim] more dimensions than [t] has: [dim] times '[' in front of the
    descriptor, and the result is a field type if [t] is one. *)
Theorem C71_array_partial : forall md dim t, wf_field_ty t -> 1 <= dim -> dim + dims t <= 255 ->
  exists t', type_array md dim t = Ok t' /\ wf_field_ty t' /\ ty_text t' = repeat 91 (Z.to_nat dim) ++ ty_text t.
Proof.
  intros md dim t Hw Hd Hs.
  assert (HN : forall d e, dim + d <= 255 -> 1 <= d -> repeat 91 (Z.to_nat (d + dim)) ++ e = repeat 91 (Z.to_nat dim) ++ repeat 91 (Z.to_nat d) ++ e).
  { intros d e H1 H2. rewrite app_assoc, <- repeat_app. f_equal. f_equal. lia. }
  destruct t as [ | | | | | | | |n|d e|ps r]; cbn [type_array dims] in *; try (destruct Hw; fail);
    try (eexists; split; [reflexivity|]; split; [split; [lia|exact Hw]|reflexivity]).
  destruct Hw as [Hd1 He]. unfold chk_u. change (2 ^ 8) with 256.
  assert ((0 <=? d + dim) && (d + dim <? 256) = true) as -> by (apply andb_true_intro; split; [apply Z.leb_le|apply Z.ltb_lt]; lia).
  cbn [bind]. eexists. split; [reflexivity|]. split; [split; [lia|exact He]|]. cbn [ty_text]. apply HN; lia.
Qed.
Example C71_ex : type_array Debug 2 (TArray 253 TInt) = Ok (TArray 255 TInt) /\ wf_field_ty (TArray 253 TInt) /\ 2 + dims (TArray 253 TInt) <= 255.
Proof. repeat split; cbn; lia. Qed.
Print Assumptions C71_array_partial.

(** Twice is once with the sum. *)
Theorem C71_twice_partial : forall md a b t, wf_field_ty t -> 1 <= a -> 1 <= b -> a + b + dims t <= 255 ->
  exists t', type_array md a t = Ok t' /\ type_array md b t' = type_array md (a + b) t.
Proof.
  intros md a b t Hw Ha Hb Hs.
  assert (HC : forall x, 0 <= x <= 255 -> chk_u md 8 x = Ok x).
  { intros x Hx. unfold chk_u. change (2 ^ 8) with 256. assert ((0 <=? x) && (x <? 256) = true) as ->; auto.
    apply andb_true_intro; split; [apply Z.leb_le|apply Z.ltb_lt]; lia. }
  destruct t as [ | | | | | | | |n|d e|ps r]; cbn [type_array dims] in *; try (destruct Hw; fail);
    try (eexists; split; [reflexivity|]; cbn [type_array]; rewrite HC by lia; reflexivity).
  destruct Hw as [Hd1 He]. rewrite (HC (d + a)) by lia. eexists. split; [reflexivity|]. cbn [type_array]. rewrite !HC by lia. cbn [bind]. do 2 f_equal. lia.
Qed.
Example C71_twice_ex : exists t', type_array Debug 1 (TArray 3 TInt) = Ok t' /\ type_array Debug 2 t' = Ok (TArray 6 TInt).
Proof. eexists. split; reflexivity. Qed.
Print Assumptions C71_twice_partial.

(** With more than 255 dimensions in all: a panic, or without overflow checks
    256 too few of them, maybe none, in which case the descriptor is that of
    the element. *)
Theorem C71_too_many_refuted : forall dim d e, u8 dim -> u8 d -> 256 <= d + dim ->
  type_array Debug dim (TArray d e) = Panic POverflow /\
  exists t', type_array Release dim (TArray d e) = Ok t' /\ ty_text t' = repeat 91 (Z.to_nat (d + dim - 256)) ++ ty_text e.
Proof.
  intros dim d e Hx Hd Hs. unfold u8 in *. cbn [type_array]. unfold chk_u. change (2 ^ 8) with 256.
  assert ((0 <=? d + dim) && (d + dim <? 256) = false) as -> by (apply andb_false_intro2, Z.ltb_ge; lia).
  split; [reflexivity|]. cbn [bind]. eexists. split; [reflexivity|]. cbn [ty_text]. do 2 f_equal. f_equal.
  unfold wrap_u. change (2 ^ 8) with 256. rewrite <- (Z.mod_unique (d + dim) 256 1 (d + dim - 256)); lia.
Qed.
Example C71_too_many_ex : type_array Release 1 (TArray 255 TInt) = Ok (TArray 0 TInt) /\ ty_text (TArray 0 TInt) = ty_text TInt.
Proof. split; reflexivity. Qed.
Print Assumptions C71_too_many_refuted.
