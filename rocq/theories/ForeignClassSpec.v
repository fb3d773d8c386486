(** JVMS 4.1: class files of any origin, and what it means to have read one. *)
From Coq Require Import String.
From Verif Require Import Base Wtf8Spec PrimModel TypeModel TypeSpec CpModel CpSpec SigModel AnnModel AnnSpec AttrModel AttrSpec
  FrameModel FrameSpec InsnModel InsnSpec CodeModel CodeSpec CodeRead ClassModel ClassSpec ForeignSpec.

(** * The file *)

(** JVMS 4.4: entries are numbered from 1, long and double take two numbers. *)
Fixpoint entry_at (n : Z) (es : list raw_entry) (i : Z) : option raw_entry :=
  match es with
  | [] => None
  | e :: es => if i =? n then Some e else entry_at (n + slots_of e) es i
  end.
Definition pool_bytes (es : list raw_entry) (bs : list Z) : Prop :=
  exists bss, Forall entry_wf es /\ Forall2 entry_fmt es bss /\ count_of es <= 65535 /\
    bs = u2 (count_of es) ++ concat bss.
(** JVMS table 4.1-A. *)
Definition release_number (m : major) (n : Z) : Prop :=
  45 <= n /\ nth_error [J1; J1_2; J1_3; J1_4; J5; J6; J7; J8; J9; J10; J11; J12; J13; J14; J15] (Z.to_nat (n - 45)) = Some m.
(** The bootstrap methods of the class. *)
Definition table_of (c : class) : list bsm :=
  flat_map (fun a => match a with CBootstrap b => b | _ => [] end) (cl_attrs c).
Definition fmt_compiled (heap : Z -> option bsm) : fmt class :=
  fmt_via (fun c => (cl_access c, (cl_name c, (cl_super c, (cl_itfs c, (cl_fields c, (cl_methods c, cl_attrs c)))))))
    (fmt_pair fmt_u2 (fmt_pair fmt_class (fmt_pair (fmt_opt fmt_class) (fmt_pair (fmt_table2 fmt_class)
      (fmt_pair (fmt_table2 fmt_field) (fmt_pair (fmt_table2 (fmt_method (fmt_code_lines (wenv_class Release heap))))
        (fmt_table2 fmt_cattr))))))).
(** [bs] is a class file with the contents [c]. *)
Definition class_file (heap : Z -> option bsm) (c : class) (bs : list Z) : Prop :=
  exists n es pb mb, bs = u4 0xCAFEBABE ++ u2 (minor (cl_version c)) ++ u2 n ++ pb ++ mb /\
    release_number (maj (cl_version c)) n /\ pool_bytes es pb /\
    forall p, (forall i, p i = entry_at 1 es i) ->
    fmt_compiled heap {| W_pool := p; W_tbl := table_of c; W_heap := heap; W_label := fun _ => None; W_catch := fun _ => None |} c mb.

(** Well-formed: in bootstrap methods, dynamic constants are constants (JVMS
    4.4.10), not call sites; there is at most one table (JVMS 4.7.23). *)
Definition wf_entry (heap : Z -> option bsm) (b : bsm) : Prop :=
  wf_bsm heap b /\ Forall (fun o => match o with Dyn d => ty_is_method (d_desc d) = false | Stat _ => True end) (b_args b).
Definition wf_compiled (heap : Z -> option bsm) (c : class) : Prop :=
  u16 (minor (cl_version c)) /\
  flags_of ClassFlags (cl_access c) /\ jstr (cl_name c) /\ opt_ok jstr (cl_super c) /\
  wf_names (cl_itfs c) /\
  (len (cl_fields c) < 65536 /\ Forall wf_field (cl_fields c)) /\
  (len (cl_methods c) < 65536 /\
   Forall (wf_method (fun k => wf_any_code (wenv_class Release heap) k /\ code_readable k)) (cl_methods c)) /\
  (len (cl_attrs c) < 65536 /\
   Forall (fun a => match a with CBootstrap l => len l < 65536 /\ Forall (wf_entry heap) l | _ => wf_cattr a end) (cl_attrs c)) /\
  (length (tables (cl_attrs c)) <= 1)%nat.

(** * The same class

    Dynamic constants may refer to each other, even in circles: they are the
    same if some relation on cells that connects them is a bisimulation. *)
Definition dyn_by (S : Z -> Z -> Prop) (d d' : dynamic) : Prop :=
  d_name d' = d_name d /\ d_desc d' = d_desc d /\ S (d_cell d) (d_cell d').
Definition bsm_by (S : Z -> Z -> Prop) (b b' : bsm) : Prop :=
  b_handle b' = b_handle b /\
  Forall2 (fun o o' => match o, o' with Dyn d, Dyn d' => dyn_by S d d' | Stat k, Stat k' => k' = k | _, _ => False end)
    (b_args b) (b_args b').
Definition bisimulation (heap heap' : Z -> option bsm) (S : Z -> Z -> Prop) : Prop :=
  forall x y, S x y -> exists b b', heap x = Some b /\ heap' y = Some b' /\ bsm_by S b b'.
Definition mattr_by (S : Z -> Z -> Prop) (a a' : mattr code) : Prop :=
  match a, a' with
  | MCode c, MCode c' => code_rel_lines (dyn_by S) c c'
  | MCode _, _ | _, MCode _ => False
  | a, a' => a' = a
  end.
Definition method_by (S : Z -> Z -> Prop) (m m' : method code) : Prop :=
  me_access m' = me_access m /\ me_name m' = me_name m /\ me_desc m' = me_desc m /\
  Forall2 (mattr_by S) (me_attrs m) (me_attrs m').
Definition cattr_by (S : Z -> Z -> Prop) (a a' : cattr) : Prop :=
  match a, a' with
  | CBootstrap l, CBootstrap l' => Forall2 (bsm_by S) l l'
  | CBootstrap _, _ | _, CBootstrap _ => False
  | a, a' => a' = a
  end.
Definition the_class (heap heap' : Z -> option bsm) (c c' : class) : Prop :=
  exists S, bisimulation heap heap' S /\
  cl_version c' = cl_version c /\ cl_access c' = cl_access c /\ cl_name c' = cl_name c /\
  cl_super c' = cl_super c /\ cl_itfs c' = cl_itfs c /\ cl_fields c' = cl_fields c /\
  Forall2 (method_by S) (cl_methods c) (cl_methods c') /\
  Forall2 (cattr_by S) (cl_attrs c) (cl_attrs c').
