(** Labels, stack map frames and the type annotation targets inside code.
    src/code/structure.rs 8-25, 436-465; src/code.rs 36-79 (label table of the
    reader), 610-746; src/annotation/type_annotation.rs 46-115. *)
From Verif Require Import Base PrimModel TypeModel CpModel AnnModel AttrModel.

(** src/code.rs 44-76, the [Labeler] of [Code::read_from]: the pool reader it
    wraps (its dynamic references), the labels handed out so far - code offset
    and label, in the order of creation - and the exception table. *)
Record cst : Type := {
  k_refs : rst;
  k_labels : list (Z * Z);
  k_catches : list catch }.
(** code.rs 63-71 [get_label]: a known offset gives its label again, a new one
    the label [labels.len() as u32]. *)
Definition get_label (off : Z) (s : cst) : Z * cst :=
  match assoc Z.eqb off (k_labels s) with
  | Some l => (l, s)
  | None =>
      let l := len (k_labels s) mod 4294967296 in
      (l, {| k_refs := k_refs s; k_labels := k_labels s ++ [(off, l)]; k_catches := k_catches s |})
  end.
(** code.rs 73-75 [get_catch]. *)
Definition get_catch (i : Z) (s : cst) : option catch := nth_error (k_catches s) (Z.to_nat i).

(** structure.rs 11-25 [Label]. *)
Definition wr_label : cwr Z := fun E l w => i <- we_label E l ;; Ok (be 2 i, w).
Definition rd_label : srd cst Z := fun s l =>
  '(i, l) <- rd_u16 l ;; Ok (get_label i s, l).
(** structure.rs 444-465 [Catch]; a catch that is not in the table writes
    nothing.  [try_cp_read!]: no such entry is [Error::Invalid]. *)
Definition wr_catch : cwr catch := fun E c w =>
  o <- we_catch E c ;;
  match o with Some i => Ok (be 2 i, w) | None => Ok ([], w) end.
Definition rd_catch : srd cst catch := fun s l =>
  '(i, l) <- rd_u16 l ;;
  match get_catch i s with Some c => Ok ((c, s), l) | None => Err EInvalid end.

(** * Frames *)

(** code.rs 610-623 [VerificationType]; no explicit tags: 0 to 8. *)
Inductive vtype : Type :=
| VtTop | VtInt | VtFloat | VtLong | VtDouble | VtNull | VtThis
| VtObject (c : list Z) | VtNew (l : Z).
Definition wr_vtype : cwr vtype := fun E v w =>
  match v with
  | VtTop => Ok (be 1 0, w)
  | VtInt => Ok (be 1 1, w)
  | VtFloat => Ok (be 1 2, w)
  | VtLong => Ok (be 1 3, w)
  | VtDouble => Ok (be 1 4, w)
  | VtNull => Ok (be 1 5, w)
  | VtThis => Ok (be 1 6, w)
  | VtObject c => '(b, w) <- wr_class E c w ;; Ok (be 1 7 ++ b, w)
  | VtNew l => '(b, w) <- wr_label E l w ;; Ok (be 1 8 ++ b, w)
  end.
Definition rd_vtype (p : pool) : srd cst vtype := fun s l =>
  '(t, l) <- rd_u8 l ;;
  if t =? 0 then Ok ((VtTop, s), l)
  else if t =? 1 then Ok ((VtInt, s), l)
  else if t =? 2 then Ok ((VtFloat, s), l)
  else if t =? 3 then Ok ((VtLong, s), l)
  else if t =? 4 then Ok ((VtDouble, s), l)
  else if t =? 5 then Ok ((VtNull, s), l)
  else if t =? 6 then Ok ((VtThis, s), l)
  else if t =? 7 then '(c, l) <- rd_class p l ;; Ok ((VtObject c, s), l)
  else if t =? 8 then '((b, s), l) <- rd_label s l ;; Ok ((VtNew b, s), l)
  else Err EInvalid.

(** code.rs 631-641 [RawFrame]. *)
Inductive frame : Type :=
| FSame (d : Z)
| FSame1 (d : Z) (v : vtype)
| FChop (d k : Z)
| FAppend (d : Z) (vs : list vtype)
| FFull (d : Z) (locals stack : list vtype).
(** code.rs 698-745 *)
Definition wr_frame : cwr frame := fun E f w =>
  match f with
  | FSame d => if (0 <=? d) && (d <=? 63) then Ok (be 1 d, w) else Ok (be 1 251 ++ be 2 d, w)
  | FSame1 d v =>
      '(b, w) <- wr_vtype E v w ;;
      Ok ((if (0 <=? d) && (d <=? 63) then be 1 (d + 64) else be 1 247 ++ be 2 d) ++ b, w)
  | FChop d k => if (1 <=? k) && (k <=? 3) then Ok (be 1 (251 - k) ++ be 2 d, w) else Err EInvalid
  | FAppend d vs =>
      if len vs <=? 3 then
        '(b, w) <- wr_each wr_vtype E vs w ;; Ok (be 1 (len vs + 251) ++ be 2 d ++ b, w)
      else Err EInvalid
  | FFull d ls ss =>
      '(b, w) <- wr_each wr_vtype E ls w ;;
      '(c, w) <- wr_each wr_vtype E ss w ;;
      Ok (be 1 255 ++ be 2 d ++ be 2 (len ls) ++ b ++ be 2 (len ss) ++ c, w)
  end.
(** code.rs 643-696 *)
Definition rd_frame (p : pool) : srd cst frame := fun s l =>
  '(t, l) <- rd_u8 l ;;
  if t <=? 63 then Ok ((FSame t, s), l)
  else if t <=? 127 then '((v, s), l) <- rd_vtype p s l ;; Ok ((FSame1 (t - 64) v, s), l)
  else if t <=? 246 then Err EInvalid
  else if t =? 247 then
    '(d, l) <- rd_u16 l ;; '((v, s), l) <- rd_vtype p s l ;; Ok ((FSame1 d v, s), l)
  else if t <=? 250 then '(d, l) <- rd_u16 l ;; Ok ((FChop d (251 - t), s), l)
  else if t =? 251 then '(d, l) <- rd_u16 l ;; Ok ((FSame d, s), l)
  else if t <=? 254 then
    '(d, l) <- rd_u16 l ;;
    '((vs, s), l) <- srd_times (Z.to_nat (t - 251)) (rd_vtype p) s l ;; Ok ((FAppend d vs, s), l)
  else
    '(d, l) <- rd_u16 l ;;
    '((ls, s), l) <- srd_vec 2 (rd_vtype p) s l ;;
    '((ss, s), l) <- srd_vec 2 (rd_vtype p) s l ;; Ok ((FFull d ls ss, s), l).

(** * Type annotation targets *)

(** type_annotation.rs 48-87 [LocalVarTarget]. *)
Record lvt : Type := { lt_start : Z; lt_end : Z; lt_idx : Z }.
(** [end - start] in u16 *)
Definition wr_lvt : cwr lvt := fun E t w =>
  a <- we_label E (lt_start t) ;;
  b <- we_label E (lt_end t) ;;
  d <- chk_u (we_md E) 16 (b - a) ;;
  Ok (be 2 a ++ be 2 d ++ be 2 (lt_idx t), w).
Definition rd_lvt : srd cst lvt := fun s l =>
  '(a, l) <- rd_u16 l ;;
  let '(la, s) := get_label a s in
  '(d, l) <- rd_u16 l ;;
  let '(lb, s) := get_label (a + d) s in
  '(i, l) <- rd_u16 l ;;
  Ok (({| lt_start := la; lt_end := lb; lt_idx := i |}, s), l).

(** type_annotation.rs 89-115: tag 0x40, the others count up. *)
Inductive code_target : Type :=
| KtLocal (ts : list lvt) | KtResource (ts : list lvt) | KtCatch (c : catch)
| KtInstanceOf (l : Z) | KtNew (l : Z) | KtNewRef (l : Z) | KtMethodRef (l : Z)
| KtCast (l i : Z) | KtNewArg (l i : Z) | KtMethodArg (l i : Z) | KtNewRefArg (l i : Z)
| KtMethodRefArg (l i : Z).
Definition wr_tagged {A} (t : Z) (f : cwr A) : cwr A := fun E a w =>
  '(b, w) <- f E a w ;; Ok (be 1 t ++ b, w).
Definition wr_label_u8 : cwr (Z * Z) := wr_pair wr_label (wr_plain (wr_n 1)).
Definition wr_code_target : cwr code_target := fun E t w =>
  match t with
  | KtLocal ts => wr_tagged 0x40 (wr_cvec 2 wr_lvt) E ts w
  | KtResource ts => wr_tagged 0x41 (wr_cvec 2 wr_lvt) E ts w
  | KtCatch c => wr_tagged 0x42 wr_catch E c w
  | KtInstanceOf l => wr_tagged 0x43 wr_label E l w
  | KtNew l => wr_tagged 0x44 wr_label E l w
  | KtNewRef l => wr_tagged 0x45 wr_label E l w
  | KtMethodRef l => wr_tagged 0x46 wr_label E l w
  | KtCast l i => wr_tagged 0x47 wr_label_u8 E (l, i) w
  | KtNewArg l i => wr_tagged 0x48 wr_label_u8 E (l, i) w
  | KtMethodArg l i => wr_tagged 0x49 wr_label_u8 E (l, i) w
  | KtNewRefArg l i => wr_tagged 0x4a wr_label_u8 E (l, i) w
  | KtMethodRefArg l i => wr_tagged 0x4b wr_label_u8 E (l, i) w
  end.
Definition rd_label_u8 : srd cst (Z * Z) := srd_pair rd_label (lift rd_u8).
Definition rd_code_target : srd cst code_target := fun s l =>
  '(t, l) <- rd_u8 l ;;
  if t =? 0x40 then srd_map KtLocal (srd_vec 2 rd_lvt) s l
  else if t =? 0x41 then srd_map KtResource (srd_vec 2 rd_lvt) s l
  else if t =? 0x42 then srd_map KtCatch rd_catch s l
  else if t =? 0x43 then srd_map KtInstanceOf rd_label s l
  else if t =? 0x44 then srd_map KtNew rd_label s l
  else if t =? 0x45 then srd_map KtNewRef rd_label s l
  else if t =? 0x46 then srd_map KtMethodRef rd_label s l
  else if t =? 0x47 then srd_map (fun x => KtCast (fst x) (snd x)) rd_label_u8 s l
  else if t =? 0x48 then srd_map (fun x => KtNewArg (fst x) (snd x)) rd_label_u8 s l
  else if t =? 0x49 then srd_map (fun x => KtMethodArg (fst x) (snd x)) rd_label_u8 s l
  else if t =? 0x4a then srd_map (fun x => KtNewRefArg (fst x) (snd x)) rd_label_u8 s l
  else if t =? 0x4b then srd_map (fun x => KtMethodRefArg (fst x) (snd x)) rd_label_u8 s l
  else Err EInvalid.

(** type_annotation.rs 163-170 [CodeTypeAnnotation]. *)
Definition wr_code_tannot : cwr (tannot code_target) := wr_tannot wr_code_target.
Definition rd_code_tannot (md : mode) (p : pool) : srd cst (tannot code_target) := fun s l =>
  '((t, s), l) <- rd_code_target s l ;;
  '(a, l) <- rd_tannot_rest md p t l ;;
  Ok ((a, s), l).
