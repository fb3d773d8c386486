(** JVMS 4.7.4 (stack map frames) and 4.7.20 (type annotation targets in code). *)
From Verif Require Import Base Wtf8Spec TypeModel TypeSpec CpModel CpSpec AnnModel AnnSpec AttrModel AttrSpec FrameModel.

(** The code offset of a label. *)
Definition fmt_label : fmt Z := fun W l bs => exists o, W_label W l = Some o /\ u16 o /\ bs = u2 o.

(** ITEM_Top 0, ITEM_Integer 1, ITEM_Float 2, ITEM_Double 3, ITEM_Long 4,
    ITEM_Null 5, ITEM_UninitializedThis 6, ITEM_Object 7, ITEM_Uninitialized 8. *)
Definition fmt_vtype : fmt vtype := fun W v bs =>
  match v with
  | VtTop => bs = [0]
  | VtInt => bs = [1]
  | VtFloat => bs = [2]
  | VtDouble => bs = [3]
  | VtLong => bs = [4]
  | VtNull => bs = [5]
  | VtThis => bs = [6]
  | VtObject c => exists i, bs = 7 :: i /\ fmt_class W c i
  | VtNew l => exists i, bs = 8 :: i /\ fmt_label W l i
  end.
(** same_frame, same_locals_1_stack_item_frame, their extended forms,
    chop_frame, append_frame, full_frame *)
Definition fmt_frame : fmt frame := fun W f bs =>
  match f with
  | FSame d => (0 <= d <= 63 /\ bs = [d]) \/ (u16 d /\ bs = 251 :: u2 d)
  | FSame1 d v => exists b, fmt_vtype W v b /\
      ((0 <= d <= 63 /\ bs = (64 + d) :: b) \/ (u16 d /\ bs = 247 :: u2 d ++ b))
  | FChop d k => 1 <= k <= 3 /\ u16 d /\ bs = (251 - k) :: u2 d
  | FAppend d vs => 1 <= len vs <= 3 /\ u16 d /\
      exists bss, bs = (251 + len vs) :: u2 d ++ concat bss /\ Forall2 (fmt_vtype W) vs bss
  | FFull d ls ss => u16 d /\ exists b c, bs = 255 :: u2 d ++ b ++ c /\
      fmt_table2 fmt_vtype W ls b /\ fmt_table2 fmt_vtype W ss c
  end.
Definition vtypes_of (f : frame) : list vtype :=
  match f with
  | FSame _ | FChop _ _ => [] | FSame1 _ v => [v] | FAppend _ vs => vs | FFull _ ls ss => ls ++ ss
  end.
(** Frames the format can express. *)
Definition wf_label (E : wenv) (l : Z) : Prop := exists o, we_label E l = Ok o /\ u16 o.
Definition wf_vtype (E : wenv) (v : vtype) : Prop :=
  match v with VtObject c => jstr c | VtNew l => wf_label E l | _ => True end.
Definition wf_frame (E : wenv) (f : frame) : Prop :=
  Forall (wf_vtype E) (vtypes_of f) /\
  match f with
  | FSame d | FSame1 d _ => u16 d
  | FChop d k => u16 d /\ 1 <= k <= 3
  | FAppend d vs => u16 d /\ 1 <= len vs <= 3
  | FFull d ls ss => u16 d /\ len ls < 65536 /\ len ss < 65536
  end.

(** The two verification types the crate exchanges (C45). *)
Definition swap_v (v : vtype) : vtype :=
  match v with VtLong => VtDouble | VtDouble => VtLong | _ => v end.
Definition swap_frame (f : frame) : frame :=
  match f with
  | FSame1 d v => FSame1 d (swap_v v)
  | FAppend d vs => FAppend d (map swap_v vs)
  | FFull d ls ss => FFull d (map swap_v ls) (map swap_v ss)
  | _ => f
  end.

(** * Reading labels: a label of the file and the label handed out for its
    offset. *)
Definition label_sim (W : world) (s : cst) (l l' : Z) : Prop :=
  exists o, W_label W l = Some o /\ assoc Z.eqb o (k_labels s) = Some l'.
Definition vtype_sim (W : world) (s : cst) (v v' : vtype) : Prop :=
  match v, v' with
  | VtNew l, VtNew l' => label_sim W s l l'
  | VtNew _, _ => False
  | _, _ => v' = v
  end.
Definition frame_sim (W : world) (s : cst) (f f' : frame) : Prop :=
  match f, f' with
  | FSame d, FSame d' => d' = d
  | FSame1 d v, FSame1 d' v' => d' = d /\ vtype_sim W s v v'
  | FChop d k, FChop d' k' => d' = d /\ k' = k
  | FAppend d vs, FAppend d' vs' => d' = d /\ Forall2 (vtype_sim W s) vs vs'
  | FFull d ls ss, FFull d' ls' ss' =>
      d' = d /\ Forall2 (vtype_sim W s) ls ls' /\ Forall2 (vtype_sim W s) ss ss'
  | _, _ => False
  end.
(** The label table: distinct offsets, and the labels are 0, 1, 2, ... in the
    order of creation, so also distinct. *)
Definition cst_ok (s : cst) : Prop :=
  NoDup (map fst (k_labels s)) /\ Forall u32 (map fst (k_labels s)) /\
  map snd (k_labels s) = map Z.of_nat (seq 0 (length (k_labels s))).
Definition cst_ext (s s' : cst) : Prop :=
  (exists r, r_refs (k_refs s') = r_refs (k_refs s) ++ r) /\
  (exists m, k_labels s' = k_labels s ++ m) /\ k_catches s' = k_catches s.

(** * Targets: JVMS table 4.7.20-B, localvar_target .. type_argument_target. *)
Definition fmt_lvt : fmt lvt := fun W t bs =>
  exists a b, W_label W (lt_start t) = Some a /\ W_label W (lt_end t) = Some b /\
    u16 a /\ u16 b /\ a <= b /\ u16 (lt_idx t) /\ bs = u2 a ++ u2 (b - a) ++ u2 (lt_idx t).
Definition fmt_catch : fmt catch := fun W c bs => exists i, W_catch W c = Some i /\ u16 i /\ bs = u2 i.
Definition fmt_tag {A} (t : Z) (F : fmt A) : fmt A := fun W a bs => exists b, bs = t :: b /\ F W a b.
Definition fmt_label_u1 : fmt (Z * Z) := fmt_pair fmt_label fmt_u1.
Definition fmt_code_target : fmt code_target := fun W t bs =>
  match t with
  | KtLocal ts => fmt_tag 0x40 (fmt_table2 fmt_lvt) W ts bs
  | KtResource ts => fmt_tag 0x41 (fmt_table2 fmt_lvt) W ts bs
  | KtCatch c => fmt_tag 0x42 fmt_catch W c bs
  | KtInstanceOf l => fmt_tag 0x43 fmt_label W l bs
  | KtNew l => fmt_tag 0x44 fmt_label W l bs
  | KtNewRef l => fmt_tag 0x45 fmt_label W l bs
  | KtMethodRef l => fmt_tag 0x46 fmt_label W l bs
  | KtCast l i => fmt_tag 0x47 fmt_label_u1 W (l, i) bs
  | KtNewArg l i => fmt_tag 0x48 fmt_label_u1 W (l, i) bs
  | KtMethodArg l i => fmt_tag 0x49 fmt_label_u1 W (l, i) bs
  | KtNewRefArg l i => fmt_tag 0x4A fmt_label_u1 W (l, i) bs
  | KtMethodRefArg l i => fmt_tag 0x4B fmt_label_u1 W (l, i) bs
  end.
Definition wf_lvt (E : wenv) (t : lvt) : Prop :=
  exists a b, we_label E (lt_start t) = Ok a /\ we_label E (lt_end t) = Ok b /\
    u16 a /\ u16 b /\ a <= b /\ u16 (lt_idx t).
Definition wf_catch_ref (E : wenv) (c : catch) : Prop := exists i, we_catch E c = Ok (Some i) /\ u16 i.
Definition wf_code_target (E : wenv) (t : code_target) : Prop :=
  match t with
  | KtLocal ts | KtResource ts => len ts < 65536 /\ Forall (wf_lvt E) ts
  | KtCatch c => wf_catch_ref E c
  | KtInstanceOf l | KtNew l | KtNewRef l | KtMethodRef l => wf_label E l
  | KtCast l i | KtNewArg l i | KtMethodArg l i | KtNewRefArg l i | KtMethodRefArg l i =>
      wf_label E l /\ u8 i
  end.
Definition wf_code_tannot (E : wenv) (a : tannot code_target) : Prop :=
  wf_tannot (wf_code_target E) a.
Definition fmt_code_tannot : fmt (tannot code_target) := fmt_tannot fmt_code_target.

Definition lvt_sim (W : world) (s : cst) (t t' : lvt) : Prop :=
  label_sim W s (lt_start t) (lt_start t') /\ label_sim W s (lt_end t) (lt_end t') /\
  lt_idx t' = lt_idx t.
Definition catch_sim (W : world) (s : cst) (c c' : catch) : Prop :=
  label_sim W s (c_start c) (c_start c') /\ label_sim W s (c_end c) (c_end c') /\
  label_sim W s (c_handler c) (c_handler c') /\ c_type c' = c_type c.
Definition code_target_sim (W : world) (s : cst) (t t' : code_target) : Prop :=
  match t, t' with
  | KtLocal x, KtLocal y | KtResource x, KtResource y => Forall2 (lvt_sim W s) x y
  | KtCatch c, KtCatch c' => catch_sim W s c c'
  | KtInstanceOf l, KtInstanceOf l' | KtNew l, KtNew l' | KtNewRef l, KtNewRef l'
  | KtMethodRef l, KtMethodRef l' => label_sim W s l l'
  | KtCast l i, KtCast l' i' | KtNewArg l i, KtNewArg l' i' | KtMethodArg l i, KtMethodArg l' i'
  | KtNewRefArg l i, KtNewRefArg l' i' | KtMethodRefArg l i, KtMethodRefArg l' i' =>
      label_sim W s l l' /\ i' = i
  | _, _ => False
  end.
Definition code_tannot_sim (W : world) (s : cst) (a a' : tannot code_target) : Prop :=
  code_target_sim W s (ta_target a) (ta_target a') /\
  ta_path a' = ta_path a /\ ta_type a' = ta_type a /\ ta_vals a' = ta_vals a.
(** The exception table the reader has is that of the file. *)
Definition catches_ok (W : world) (s : cst) : Prop :=
  forall c i, W_catch W c = Some i ->
  exists c', nth_error (k_catches s) (Z.to_nat i) = Some c' /\ catch_sim W s c c'.
