(** JVMS 4.3: field and method descriptors. *)
From Verif Require Import Base Wtf8Spec TypeModel.

(** FieldType text; class names are any strings. *)
Fixpoint ty_text (t : ty) : list Z :=
  match t with
  | TByte => [66] (* B *) | TChar => [67] (* C *) | TDouble => [68] (* D *)
  | TFloat => [70] (* F *) | TInt => [73] (* I *) | TLong => [74] (* J *)
  | TBoolean => [90] (* Z *) | TShort => [83] (* S *)
  | TRef n => 76 :: n ++ [59] (* L n ; *)
  | TArray d t => repeat 91 (Z.to_nat d) ++ ty_text t (* [ ... *)
  | TMethod ps r =>
      40 :: flat_map ty_text ps ++ 41 :: (* ( ... ) *)
      match r with Some t => ty_text t | None => [86] end (* V *)
  end.

(** Well-formed field types: class names are well-formed WTF-8 strings without
    ';', arrays have 1..255 dimensions and a non-array element type. *)
Fixpoint wf_field_ty (t : ty) : Prop :=
  match t with
  | TRef n => wf_wtf8 n /\ ~ In 59 n
  | TArray d e =>
      1 <= d <= 255 /\ match e with TArray _ _ => False | _ => wf_field_ty e end
  | TMethod _ _ => False
  | _ => True
  end.

(** A type is a field type or a method of field types. *)
Definition wf_ty (t : ty) : Prop :=
  match t with
  | TMethod ps r =>
      Forall wf_field_ty ps /\ match r with Some t => wf_field_ty t | None => True end
  | _ => wf_field_ty t
  end.

(** The class names occurring in a type. *)
Fixpoint ty_names (t : ty) : list (list Z) :=
  match t with
  | TRef n => [n]
  | TArray _ t => ty_names t
  | TMethod ps r => flat_map ty_names ps ++ match r with Some t => ty_names t | None => [] end
  | _ => []
  end.

(** No surrogate code points. *)
Definition is_utf8 (s : list Z) : Prop :=
  exists cps, wtf8_of cps s /\ Forall (fun c => ~ is_surrogate c) cps.

(** What the parser can return: like [wf_ty], but method types may occur
    anywhere. *)
Fixpoint loose_ty (t : ty) : Prop :=
  match t with
  | TRef n => wf_wtf8 n /\ ~ In 59 n
  | TArray d e =>
      1 <= d <= 255 /\ match e with TArray _ _ => False | _ => loose_ty e end
  | TMethod ps r =>
      fold_right and True (map loose_ty ps) /\
      match r with Some t => loose_ty t | None => True end
  | _ => True
  end.

(** 256 or more '[' in a row. *)
Definition long_run (s : list Z) : Prop := exists p q, s = p ++ repeat 91 256 ++ q.
