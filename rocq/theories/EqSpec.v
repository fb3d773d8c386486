(** When two dynamic constants are the same, independently of [==]. *)
From Verif Require Import Base Wtf8Spec TypeModel TypeSpec CpModel ForeignClassSpec.

(** Cells may hold nothing yet; contents may refer to one another in cycles. *)
Definition alike (h : Z -> option bsm) (R : Z -> Z -> Prop) : Prop :=
  forall x y, R x y -> (h x = None /\ h y = None) \/
    exists a b, h x = Some a /\ h y = Some b /\ bsm_by R a b.
Definition same (h : Z -> option bsm) (a b : dynamic) : Prop := exists R, alike h R /\ dyn_by R a b.

(** Following bootstrap arguments from a cell comes to an end. *)
Inductive finite (h : Z -> option bsm) : Z -> Prop :=
| fin c : (forall b d, h c = Some b -> In (Dyn d) (b_args b) -> finite h (d_cell d)) -> finite h c.

(** Cells reached from a cell over one or more bootstrap arguments. *)
Inductive reaches (h : Z -> option bsm) : Z -> Z -> Prop :=
| re_one c b d : h c = Some b -> In (Dyn d) (b_args b) -> reaches h c (d_cell d)
| re_more c b d e : h c = Some b -> In (Dyn d) (b_args b) -> reaches h (d_cell d) e -> reaches h c e.

(** Values as Rust can hold them: strings are well-formed, numbers in range. *)
Fixpoint sane_ty (t : ty) : Prop :=
  match t with
  | TRef n => wf_wtf8 n
  | TArray d e => u8 d /\ sane_ty e
  | TMethod ps r => u64 (len ps) /\ (fix all l := match l with [] => True | t :: l => sane_ty t /\ all l end) ps /\
      match r with Some t => sane_ty t | None => True end
  | _ => True
  end.
Definition sane_member (m : member) : Prop := wf_wtf8 (m_owner m) /\ wf_wtf8 (m_name m) /\ sane_ty (m_desc m).
Definition sane_const (k : constant) : Prop :=
  match k with
  | KI32 i => i32 i | KF32 b => u32 b | KI64 i => i64 i | KF64 b => u64 b
  | KString s | KClass s => wf_wtf8 s
  | KMember m => sane_member m | KMethodType t => sane_ty t | KMethodHandle h => sane_member (h_member h)
  end.
Definition sane_dyn (d : dynamic) : Prop := wf_wtf8 (d_name d) /\ sane_ty (d_desc d).
Definition sane_bsm (b : bsm) : Prop :=
  sane_member (h_member (b_handle b)) /\ u64 (len (b_args b)) /\
  Forall (fun o => match o with Dyn d => sane_dyn d | Stat k => sane_const k end) (b_args b).
Definition sane_heap (h : Z -> option bsm) : Prop := forall c b, h c = Some b -> sane_bsm b.
