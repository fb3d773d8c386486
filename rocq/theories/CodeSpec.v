(** JVMS 4.7.3 (Code), 4.7.12-4.7.14 (line numbers, local variables), and when
    two pieces of code are the same. *)
From Coq Require Import String Permutation.
From Verif Require Import Base Wtf8Spec PrimModel TypeModel TypeSpec CpModel CpSpec SigModel SigSpec AnnModel AnnSpec AttrModel AttrSpec
  FrameModel FrameSpec InsnModel InsnSpec CodeModel.

(** * Instruction lists *)

(** Does it stand for bytes?  (Labels, line numbers and conversions of a type
    to itself do not.) *)
Definition realb (i : insn) : bool :=
  match i with
  | ILabel _ | ILineNumber _ | IConvertInt BtInt
  | IConversion NtInt NtInt | IConversion NtLong NtLong | IConversion NtFloat NtFloat
  | IConversion NtDouble NtDouble => false
  | _ => true
  end.
Definition strip (is : list insn) : list insn := filter realb is.
Definition labels_in (is : list insn) : list Z :=
  flat_map (fun i => match i with ILabel l => [l] | _ => [] end) is.
Definition targets (i : insn) : list Z :=
  match i with
  | IJump _ l | IJsr l => [l]
  | ITableSwitch d _ ls => d :: ls
  | ILookupSwitch d t => d :: map snd t
  | _ => []
  end.
(** The number of instructions in front of a label. *)
Fixpoint place (l : Z) (is : list insn) : option Z :=
  match is with
  | [] => None
  | i :: is =>
      if match i with ILabel l' => l' =? l | _ => false end then Some 0
      else option_map (fun n => if realb i then n + 1 else n) (place l is)
  end.

(** [laid G W pos is ps bs]: [bs] are the instructions [is] from offset [pos]
    on, each represented as [G] says, and the offset of a label is where it is;
    [ps] are the offsets of the instructions. *)
Fixpoint laid (G : Z -> fmt insn) (W : world) (pos : Z) (is : list insn) (ps : list Z) (bs : list Z) : Prop :=
  match is with
  | [] => ps = [] /\ bs = []
  | i :: is =>
      match i with ILabel l => W_label W l = Some pos | _ => True end /\
      exists b rest, bs = b ++ rest /\ G pos W i b /\
        if realb i then exists ps', ps = pos :: ps' /\ laid G W (pos + len b) is ps' rest
        else laid G W (pos + len b) is ps rest
  end.
Definition laid_out := laid enc.
(** ... with zeros for the bytes that align a switch *)
Definition enc0 (pos : Z) : fmt insn := fun W i bs =>
  enc pos W i bs /\
  match i with
  | ITableSwitch _ _ _ | ILookupSwitch _ _ =>
      exists op rest, bs = op :: repeat 0 (Z.to_nat ((- (pos + 1)) mod 4)) ++ rest
  | _ => True
  end.

(** * The attribute *)
Definition fmt_handler : fmt catch := fun W c bs =>
  exists a b h t, fmt_label W (c_start c) a /\ fmt_label W (c_end c) b /\ fmt_label W (c_handler c) h /\
    fmt_opt fmt_class W (c_type c) t /\ bs = a ++ b ++ h ++ t.
Definition fmt_lvrow {A} (F : fmt A) : fmt (lvrow A) := fun W r bs =>
  fmt_pair fmt_u2 (fmt_pair fmt_u2 (fmt_pair fmt_utf8 (fmt_pair F fmt_u2))) W
    (lr_start r, (lr_len r, (lr_name r, (lr_type r, lr_index r)))) bs.
Definition fmt_fcattr : fmt fcattr := fun W a =>
  match a with
  | CaLines l => fmt_attr (str "LineNumberTable") (fmt_table2 (fmt_pair fmt_u2 fmt_u2)) W l
  | CaLocals l => fmt_attr (str "LocalVariableTable") (fmt_table2 (fmt_lvrow fmt_desc)) W l
  | CaLocalTypes l => fmt_attr (str "LocalVariableTypeTable") (fmt_table2 (fmt_lvrow (fmt_sig rsig_text))) W l
  | CaInvisible l => fmt_attr (str "RuntimeInvisibleTypeAnnotations") (fmt_table2 fmt_code_tannot) W l
  | CaVisible l => fmt_attr (str "RuntimeVisibleTypeAnnotations") (fmt_table2 fmt_code_tannot) W l
  (* long and double exchanged: C45 *)
  | CaFrames l => fmt_attr (str "StackMapTable") (fmt_table2 (fun W f bs => fmt_frame W (swap_frame f) bs)) W l
  | CaRaw r => fmt_raw W r
  end.
(** The row of a variable. *)
Definition row_for {A} (W : world) (vt : localvar * A) (r : lvrow A) : Prop :=
  W_label W (v_start (fst vt)) = Some (lr_start r) /\
  W_label W (v_end (fst vt)) = Some (lr_start r + lr_len r) /\ 0 <= lr_start r /\ 0 <= lr_len r /\ lr_start r + lr_len r < 65536 /\
  lr_name r = v_name (fst vt) /\ lr_index r = v_index (fst vt) /\ lr_type r = snd vt.
Definition descs (vs : list localvar) : list (localvar * ty) :=
  flat_map (fun v => match v_desc v with Some d => [(v, d)] | None => [] end) vs.
Definition sigs (vs : list localvar) : list (localvar * rsig) :=
  flat_map (fun v => match v_sig v with Some g => [(v, g)] | None => [] end) vs.
(** The attributes of the file for an attribute in memory: variables are in two
    tables, neither of which is empty. *)
Definition file_attrs (W : world) (a : kattr) (fs : list fcattr) : Prop :=
  match a with
  | KVisible l => fs = [CaVisible l]
  | KInvisible l => fs = [CaInvisible l]
  | KRaw r => fs = [CaRaw r]
  | KLocals vs =>
      exists ds gs, Forall2 (row_for W) (descs vs) ds /\ Forall2 (row_for W) (sigs vs) gs /\
        fs = (match ds with [] => [] | _ => [CaLocals ds] end) ++ (match gs with [] => [] | _ => [CaLocalTypes gs] end)
  end.

(** The code attribute of [c], with the attributes [fs]: labels are the offsets
    [L], references to handlers are [K]. *)
Definition in_code (W : world) (L : Z -> option Z) (K : catch -> option Z) : world :=
  {| W_pool := W_pool W; W_tbl := W_tbl W; W_heap := W_heap W; W_label := L; W_catch := K |}.
Definition fmt_code_with (G : Z -> fmt insn) (W : world) (c : code) (L : Z -> option Z) (K : catch -> option Z)
  (fs : list fcattr) (ps : list Z) (body bs : list Z) : Prop :=
  (forall l o, L l = Some o -> In l (labels_in (cd_code c))) /\
  (forall x i, K x = Some i -> 0 <= i /\ nth_error (cd_catches c) (Z.to_nat i) = Some x) /\
  u16 (cd_stack c) /\ u16 (cd_locals c) /\ len body < 4294967296 /\
  laid G (in_code W L K) 0 (cd_code c) ps body /\
  exists hs as_,
    fmt_table2 fmt_handler (in_code W L K) (cd_catches c) hs /\
    fmt_table2 fmt_fcattr (in_code W L K) fs as_ /\
    bs = u2 (cd_stack c) ++ u2 (cd_locals c) ++ u4 (len body) ++ body ++ hs ++ as_.
Definition fmt_code_as (G : Z -> fmt insn) : fmt code := fun W c bs =>
  exists L K fas ps body, fmt_code_with G W c L K (concat fas) ps body bs /\
    Forall2 (file_attrs (in_code W L K)) (cd_attrs c) fas.
Definition fmt_code : fmt code := fmt_code_as enc.

(** * Well-formed code *)

(** The largest number of bytes an instruction can take (a conditional jump
    that is too far: the opposite one and a goto_w). *)
Definition most_bytes (i : insn) : Z :=
  match i with
  | ILookupSwitch _ t => 12 + 8 * len t
  | ITableSwitch _ _ ls => 16 + 4 * len ls
  | IJump JcAlways _ | IJsr _ => 5
  | IJump _ _ => 8
  | IIntIncrement _ _ => 6
  | IInvokeInterface _ _ | IInvokeDynamic _ => 5
  | ILocalVariable _ _ _ | IRet _ => 4
  | IPush _ | ICheckCast _ | IInstanceOf _ | INew _ | IField _ _ _ | IInvokeExact _ _ | IInvokeSpecial _ => 3
  | ILabel _ | ILineNumber _ => 0
  | _ => 1
  end.
Fixpoint room (is : list insn) : Z := match is with [] => 0 | i :: is => most_bytes i + room is end.
(** The quantifier of C52: the code is no longer than 65535 bytes, and a jump
    and its label are no more than a 16-bit offset apart, even if all
    instructions between them are as long as they can be. *)
Definition short (i : insn) : Prop := match i with IJump _ _ | IJsr _ => True | _ => False end.
Definition in_range (is : list insn) : Prop :=
  room is <= 65535 /\
  forall a j b l, is = a ++ j :: b -> short j -> In l (targets j) ->
    (exists b1 b2, b = b1 ++ ILabel l :: b2 /\ 3 + room b1 <= 32767) \/
    (exists a1 a2, a = a1 ++ ILabel l :: a2 /\ room a2 <= 32768).
(** JVMS: the keys of a switch are distinct ints; a table has an entry. *)
Definition wf_switch (i : insn) : Prop :=
  match i with
  | ITableSwitch _ low ls => -2147483648 <= low /\ 1 <= len ls /\ low + len ls - 1 < 2147483648
  | ILookupSwitch _ t => NoDup (map fst t) /\ Forall i32 (map fst t) /\ len t < 2147483648
  | _ => True
  end.
Definition wf_insns (heap : Z -> option bsm) (is : list insn) : Prop :=
  NoDup (labels_in is) /\
  Forall (fun i => wf_insn heap i /\ sound i /\ wf_switch i /\ incl (targets i) (labels_in is)) is.

(** The labels and handlers in attributes: as if every instruction were one
    byte long. *)
Definition place_env (E : wenv) (c : code) : wenv :=
  {| we_md := we_md E; we_heap := we_heap E;
     we_label := fun l => match place l (cd_code c) with Some n => Ok n | None => Panic PUnwrap end;
     we_catch := fun x => Ok (if existsb (catch_eqb x) (cd_catches c) then Some 0 else None) |}.
Definition code_attr_names : list (list Z) :=
  map str ["LineNumberTable"; "LocalVariableTable"; "LocalVariableTypeTable"; "RuntimeInvisibleTypeAnnotations";
           "RuntimeVisibleTypeAnnotations"; "StackMapTable"]%string.
Definition wf_var (is : list insn) (v : localvar) : Prop :=
  (exists a b, place (v_start v) is = Some a /\ place (v_end v) is = Some b /\ a <= b) /\
  jstr (v_name v) /\ u16 (v_index v) /\
  match v_desc v with Some d => wf_desc d | None => True end /\
  match v_sig v with Some g => wf_field_signature g | None => True end /\
  (v_desc v <> None \/ v_sig v <> None).
Definition wf_kattr (E : wenv) (c : code) (a : kattr) : Prop :=
  match a with
  | KVisible l | KInvisible l => len l < 65536 /\ Forall (wf_code_tannot (place_env E c)) l
  | KLocals vs => vs <> [] /\ len vs < 65536 /\ Forall (wf_var (cd_code c)) vs
  | KRaw r => wf_raw code_attr_names r
  end.
Definition locals_of (l : list kattr) : list localvar :=
  flat_map (fun a => match a with KLocals vs => vs | _ => [] end) l.
Definition others_of (l : list kattr) : list kattr :=
  filter (fun a => match a with KLocals _ => false | _ => true end) l.
Definition wf_catch (is : list insn) (x : catch) : Prop :=
  In (c_start x) (labels_in is) /\ In (c_end x) (labels_in is) /\ In (c_handler x) (labels_in is) /\
  match c_type x with Some t => jstr t | None => True end.
Definition wf_code (E : wenv) (c : code) : Prop :=
  u16 (cd_stack c) /\ u16 (cd_locals c) /\
  wf_insns (we_heap E) (cd_code c) /\
  len (cd_catches c) < 65536 /\ Forall (wf_catch (cd_code c)) (cd_catches c) /\
  len (cd_attrs c) < 32768 /\ Forall (wf_kattr E c) (cd_attrs c).

(** * The same code, up to the names of labels *)
Definition same_place (is is' : list insn) (l l' : Z) : Prop :=
  exists n, place l is = Some n /\ place l' is' = Some n.
Section Same.
Context (R : Z -> Z -> Prop).                     (* labels *)
Context (D : dynamic -> dynamic -> Prop).         (* dynamic constants *)
Definition ordyn_rel {A} (Q : A -> A -> Prop) (o o' : ordyn A) : Prop :=
  match o, o' with Dyn d, Dyn d' => D d d' | Stat a, Stat a' => Q a a' | _, _ => False end.
Definition insn_rel (i i' : insn) : Prop :=
  match i, i' with
  | IPush c, IPush c' => ordyn_rel eq c c'
  | IJump c l, IJump c' l' => c' = c /\ R l l'
  | IJsr l, IJsr l' => R l l'
  | ICheckCast c, ICheckCast c' | IInstanceOf c, IInstanceOf c' =>
      ordyn_rel same_ctype c c'
  | INew c, INew c' => ordyn_rel eq c c'
  | IField o k m, IField o' k' m' => o' = o /\ k' = k /\ ordyn_rel eq m m'
  | IInvokeExact k m, IInvokeExact k' m' => k' = k /\ ordyn_rel eq m m'
  | IInvokeSpecial m, IInvokeSpecial m' => ordyn_rel eq m m'
  | IInvokeInterface m c, IInvokeInterface m' c' => ordyn_rel eq m m' /\ c' = c
  | IInvokeDynamic d, IInvokeDynamic d' => D d d'
  | ITableSwitch d low ls, ITableSwitch d' low' ls' => R d d' /\ low' = low /\ Forall2 R ls ls'
  | ILookupSwitch d t, ILookupSwitch d' t' =>
      R d d' /\ exists t0, Permutation t t0 /\ Forall2 (fun e e' => fst e' = fst e /\ R (snd e) (snd e')) t0 t'
  | (IPush _ | IJump _ _ | IJsr _ | ICheckCast _ | IInstanceOf _ | INew _ | IField _ _ _
     | IInvokeExact _ _ | IInvokeSpecial _ | IInvokeInterface _ _ | IInvokeDynamic _
     | ITableSwitch _ _ _ | ILookupSwitch _ _), _ => False
  | _, _ => canon i' = canon i
  end.
Definition catch_rel (c c' : catch) : Prop :=
  R (c_start c) (c_start c') /\ R (c_end c) (c_end c') /\ R (c_handler c) (c_handler c') /\ c_type c' = c_type c.
Definition lvt_rel (t t' : lvt) : Prop :=
  R (lt_start t) (lt_start t') /\ R (lt_end t) (lt_end t') /\ lt_idx t' = lt_idx t.
Definition code_target_rel (t t' : code_target) : Prop :=
  match t, t' with
  | KtLocal x, KtLocal y | KtResource x, KtResource y => Forall2 lvt_rel x y
  | KtCatch c, KtCatch c' => catch_rel c c'
  | KtInstanceOf l, KtInstanceOf l' | KtNew l, KtNew l' | KtNewRef l, KtNewRef l'
  | KtMethodRef l, KtMethodRef l' => R l l'
  | KtCast l i, KtCast l' i' | KtNewArg l i, KtNewArg l' i' | KtMethodArg l i, KtMethodArg l' i'
  | KtNewRefArg l i, KtNewRefArg l' i' | KtMethodRefArg l i, KtMethodRefArg l' i' => R l l' /\ i' = i
  | _, _ => False
  end.
Definition code_tannot_rel (a a' : tannot code_target) : Prop :=
  code_target_rel (ta_target a) (ta_target a') /\
  ta_path a' = ta_path a /\ ta_type a' = ta_type a /\ ta_vals a' = ta_vals a.
Definition kattr_rel (a a' : kattr) : Prop :=
  match a, a' with
  | KVisible x, KVisible y | KInvisible x, KInvisible y => Forall2 code_tannot_rel x y
  | KRaw x, KRaw y => y = x
  | _, _ => False
  end.
Definition var_rel (v v' : localvar) : Prop :=
  R (v_start v) (v_start v') /\ R (v_end v) (v_end v') /\
  v_name v' = v_name v /\ v_desc v' = v_desc v /\ v_sig v' = v_sig v /\ v_index v' = v_index v.
End Same.
(** The instructions are the same, in the same order, and labels are between
    the same instructions; so are the handlers; variables are the same up to
    their order, and moved behind the other attributes. *)
Definition code_rel (D : dynamic -> dynamic -> Prop) (c c' : code) : Prop :=
  let R := same_place (cd_code c) (cd_code c') in
  cd_stack c' = cd_stack c /\ cd_locals c' = cd_locals c /\
  Forall2 (insn_rel R D) (strip (cd_code c)) (strip (cd_code c')) /\
  Forall2 (catch_rel R) (cd_catches c) (cd_catches c') /\
  exists os vs vs0, Forall2 (kattr_rel R) (others_of (cd_attrs c)) os /\
    Permutation (locals_of (cd_attrs c)) vs0 /\ Forall2 (var_rel R) vs0 vs /\
    cd_attrs c' = os ++ match vs with [] => [] | _ => [KLocals vs] end.
(** What distinguishes variables: C58 needs them to be distinct. *)
Definition var_key (is : list insn) (v : localvar) : option Z * option Z * Z * list Z :=
  (place (v_start v) is, place (v_end v) is, v_index v, v_name v).
