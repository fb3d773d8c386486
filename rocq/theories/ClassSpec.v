(** JVMS 4.1: the class file, and when two classes are the same. *)
From Coq Require Import String.
From Verif Require Import Base Wtf8Spec PrimModel TypeModel TypeSpec CpModel CpSpec SigModel AnnModel AnnSpec AttrModel AttrSpec
  FrameModel FrameSpec InsnModel InsnSpec CodeModel CodeSpec CodeRead ClassModel.

(** * Format *)

(** What follows the constant pool, all attributes included. *)
Definition fmt_members : fmt class :=
  fmt_via (fun c => (cl_access c, (cl_name c, (cl_super c, (cl_itfs c, (cl_fields c, (cl_methods c, cl_attrs c)))))))
    (fmt_pair fmt_u2 (fmt_pair fmt_class (fmt_pair (fmt_opt fmt_class) (fmt_pair (fmt_table2 fmt_class)
      (fmt_pair (fmt_table2 fmt_field) (fmt_pair (fmt_table2 (fmt_method fmt_code)) (fmt_table2 fmt_cattr))))))).

(** * The table of bootstrap methods *)
Definition is_table (a : cattr) : bool := match a with CBootstrap _ => true | _ => false end.
Definition others (attrs : list cattr) : list cattr := filter (fun a => negb (is_table a)) attrs.
Definition tables (attrs : list cattr) : list cattr := filter is_table attrs.

(** The dynamic constants of an instruction, of code, of a class. *)
Definition dyn_of {A} (o : ordyn A) : list dynamic := match o with Dyn d => [d] | Stat _ => [] end.
Definition insn_dyns (i : insn) : list dynamic :=
  match i with
  | IPush c => dyn_of c
  | ICheckCast c | IInstanceOf c => dyn_of c
  | INew c => dyn_of c
  | IField _ _ m | IInvokeExact _ m | IInvokeSpecial m | IInvokeInterface m _ => dyn_of m
  | IInvokeDynamic d => [d]
  | _ => []
  end.
Definition code_dyns (c : code) : list dynamic := flat_map insn_dyns (cd_code c).
Definition method_dyns (m : method code) : list dynamic :=
  flat_map (fun a => match a with MCode c => code_dyns c | _ => [] end) (me_attrs m).
Definition class_dyns (c : class) : list dynamic := flat_map method_dyns (cl_methods c).
Definition contents (heap : Z -> option bsm) (ds : list dynamic) : list bsm :=
  flat_map (fun d => match heap (d_cell d) with Some b => [b] | None => [] end) ds.
(** The bootstrap methods the class comes with, then one per use of a dynamic
    constant. *)
Definition class_table (heap : Z -> option bsm) (c : class) : list bsm :=
  flat_map (fun a => match a with CBootstrap b => b | _ => [] end) (cl_attrs c) ++ contents heap (class_dyns c).

(** * Well-formed classes *)
Definition static_args (b : bsm) : Prop :=
  Forall (fun o => match o with Stat _ => True | Dyn _ => False end) (b_args b).
Definition no_heap : Z -> option bsm := fun _ => None.
Definition wf_static (b : bsm) : Prop := wf_bsm no_heap b /\ static_args b.
Definition wf_class_attr (a : cattr) : Prop :=
  match a with CBootstrap l => Forall wf_static l | _ => wf_cattr a end.
Definition wf_class (heap : Z -> option bsm) (c : class) : Prop :=
  u16 (minor (cl_version c)) /\
  flags_of ClassFlags (cl_access c) /\ jstr (cl_name c) /\ opt_ok jstr (cl_super c) /\
  wf_names (cl_itfs c) /\
  (len (cl_fields c) < 65536 /\ Forall wf_field (cl_fields c)) /\
  (len (cl_methods c) < 65536 /\
   Forall (wf_method (fun k => wf_code (wenv_class Release heap) k /\ in_range (cd_code k) /\ code_readable k)) (cl_methods c)) /\
  (len (cl_attrs c) < 65536 /\ Forall wf_class_attr (cl_attrs c)) /\
  (forall cell b, heap cell = Some b -> wf_static b).

(** * The same class *)

(** Dynamic constants: name, type, and contents of the cell. *)
Definition same_dyn (heap heap' : Z -> option bsm) (d d' : dynamic) : Prop :=
  d_name d' = d_name d /\ d_desc d' = d_desc d /\
  exists b, heap (d_cell d) = Some b /\ heap' (d_cell d') = Some b.
Definition same_mattr (heap heap' : Z -> option bsm) (a a' : mattr code) : Prop :=
  match a, a' with
  | MCode c, MCode c' => code_rel (same_dyn heap heap') c c'
  | MCode _, _ | _, MCode _ => False
  | a, a' => a = a'
  end.
Definition same_method (heap heap' : Z -> option bsm) (m m' : method code) : Prop :=
  me_access m' = me_access m /\ me_name m' = me_name m /\ me_desc m' = me_desc m /\
  Forall2 (same_mattr heap heap') (me_attrs m) (me_attrs m').
(** [c'] is [c], with the table [tbl] as its last attribute if there is one. *)
Definition same_class (heap heap' : Z -> option bsm) (tbl : list bsm) (c c' : class) : Prop :=
  cl_version c' = cl_version c /\ cl_access c' = cl_access c /\ cl_name c' = cl_name c /\
  cl_super c' = cl_super c /\ cl_itfs c' = cl_itfs c /\ cl_fields c' = cl_fields c /\
  Forall2 (same_method heap heap') (cl_methods c) (cl_methods c') /\
  cl_attrs c' = others (cl_attrs c) ++ match tbl with [] => [] | _ => [CBootstrap tbl] end.
