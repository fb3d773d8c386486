(** Code attributes: src/code.rs 26-607, src/code/structure.rs 378-442 and the
    last arms of [write_insn] (src/code/convert.rs 797-810).

    [usize] arithmetic is unbounded here: the sums are sizes of what is in
    memory. *)
From Coq Require Import String.
From Verif Require Import Base PrimModel TypeModel CpModel SigModel AnnModel AttrModel FrameModel InsnModel.

(** structure.rs 379-387 [LocalVariable]. *)
Record localvar : Type := {
  v_start : Z; v_end : Z; v_name : list Z; v_desc : option ty; v_sig : option rsig; v_index : Z }.
(** structure.rs 429-434 [CodeAttribute]. *)
Inductive kattr : Type :=
| KVisible (l : list (tannot code_target))
| KInvisible (l : list (tannot code_target))
| KLocals (l : list localvar)
| KRaw (r : raw_attr).
(** code.rs 26-33 [Code]. *)
Record code : Type := {
  cd_stack : Z; cd_locals : Z; cd_code : list insn; cd_catches : list catch; cd_attrs : list kattr }.

(** structure.rs 392-416: [LocalVar] and [LocalVarType], the entries of the
    tables in the file; [A] is the descriptor or signature. *)
Record lvrow (A : Type) : Type := { lr_start : Z; lr_len : Z; lr_name : list Z; lr_type : A; lr_index : Z }.
Arguments lr_start {A}. Arguments lr_len {A}. Arguments lr_name {A}. Arguments lr_type {A}. Arguments lr_index {A}.
Definition wr_lvrow {A} (f : cwr A) : cwr (lvrow A) :=
  wr_via (fun r => (lr_start r, (lr_len r, (lr_name r, (lr_type r, lr_index r)))))
    (wr_pair (wr_plain (wr_n 2)) (wr_pair (wr_plain (wr_n 2)) (wr_pair wr_cow
      (wr_pair f (wr_plain (wr_n 2)))))).
Definition rd_lvrow {A} (p : pool) (r : rd A) : rd (lvrow A) :=
  rd_map (fun '(a, (n, (s, (t, i)))) => {| lr_start := a; lr_len := n; lr_name := s; lr_type := t; lr_index := i |})
    (rd_pair rd_u16 (rd_pair rd_u16 (rd_pair (rd_cow p) (rd_pair r rd_u16)))).

(** structure.rs 418-427 [CodeAttr], the attributes in the file. *)
Inductive fcattr : Type :=
| CaLines (l : list (Z * Z))                 (* structure.rs 390 [LineNumber]: offset, line *)
| CaLocals (l : list (lvrow ty))
| CaLocalTypes (l : list (lvrow rsig))
| CaInvisible (l : list (tannot code_target))
| CaVisible (l : list (tannot code_target))
| CaFrames (l : list frame)
| CaRaw (r : raw_attr).
Definition wr_fcattr : cwr fcattr := fun E a w =>
  match a with
  | CaLines l => wr_attr (str "LineNumberTable") (wr_cvec 2 (wr_pair (wr_plain (wr_n 2)) (wr_plain (wr_n 2)))) E l w
  | CaLocals l => wr_attr (str "LocalVariableTable") (wr_cvec 2 (wr_lvrow wr_type)) E l w
  | CaLocalTypes l => wr_attr (str "LocalVariableTypeTable") (wr_cvec 2 (wr_lvrow (wr_sig d_rsig))) E l w
  | CaInvisible l => wr_attr (str "RuntimeInvisibleTypeAnnotations") (wr_cvec 2 wr_code_tannot) E l w
  | CaVisible l => wr_attr (str "RuntimeVisibleTypeAnnotations") (wr_cvec 2 wr_code_tannot) E l w
  | CaFrames l => wr_attr (str "StackMapTable") (wr_cvec 2 wr_frame) E l w
  | CaRaw r => wr_raw_attr E r w
  end.
Definition fcattr_known (md : mode) (p : pool) (s : cst) : list (list Z * rd (fcattr * cst)) :=
  let just {A} (h : A -> fcattr) (r : rd A) := rd_map (fun a => (h a, s)) r in
  [(str "LineNumberTable", just CaLines (rd_vec 2 (rd_pair rd_u16 rd_u16)));
   (str "LocalVariableTable", just CaLocals (rd_vec 2 (rd_lvrow p (rd_type md p))));
   (str "LocalVariableTypeTable", just CaLocalTypes (rd_vec 2 (rd_lvrow p (rd_sig (p_rsig md) p))));
   (str "RuntimeInvisibleTypeAnnotations", srd_map CaInvisible (srd_vec 2 (rd_code_tannot md p)) s);
   (str "RuntimeVisibleTypeAnnotations", srd_map CaVisible (srd_vec 2 (rd_code_tannot md p)) s);
   (str "StackMapTable", srd_map CaFrames (srd_vec 2 (rd_frame p)) s)].
Definition rd_fcattr (md : mode) (p : pool) : srd cst fcattr := fun s =>
  rd_attr p (fcattr_known md p s) (fun r => (CaRaw r, s)).

(** * Writing *)

(** What code.rs 258-262 and [write_insn] keep: the buffers before the current
    one, the current one, the jumps between them, and where a label is (number
    of the buffer, offset in it; a later definition replaces an earlier one).
    Line numbers are also collected, but never used. *)
Record yst : Type := {
  y_bufs : list (list Z); y_cur : list Z; y_jumps : list insn; y_labels : list (Z * (Z * Z)) }.
Definition y_new : yst := {| y_bufs := []; y_cur := []; y_jumps := []; y_labels := [] |}.
(** convert.rs 415-813 *)
Definition write_insn (E : wenv) (i : insn) (y : yst) (w : wst) : res (yst * wst) :=
  match i with
  | ILineNumber _ => Ok (y, w)
  | ILookupSwitch _ _ | ITableSwitch _ _ _ | IJump _ _ | IJsr _ =>
      Ok ({| y_bufs := y_bufs y ++ [y_cur y]; y_cur := []; y_jumps := y_jumps y ++ [i];
             y_labels := y_labels y |}, w)
  | ILabel l =>
      Ok ({| y_bufs := y_bufs y; y_cur := y_cur y; y_jumps := y_jumps y;
             y_labels := assoc_set Z.eqb l (len (y_bufs y), len (y_cur y)) (y_labels y) |}, w)
  | _ =>
      '(b, w) <- emit E i w ;;
      Ok ({| y_bufs := y_bufs y; y_cur := y_cur y ++ b; y_jumps := y_jumps y;
             y_labels := y_labels y |}, w)
  end.
(** code.rs 271-281 *)
Fixpoint write_insns (E : wenv) (is : list insn) (y : yst) (w : wst) : res (yst * wst) :=
  match is with
  | [] => Ok (y, w)
  | i :: is => '(y, w) <- write_insn E i y w ;; write_insns E is y w
  end.

(** code.rs 288-300 *)
Definition max_size (j : insn) : Z :=
  1 + match j with
      | ILookupSwitch _ t => 11 + len t * 8
      | ITableSwitch _ _ ls => 15 + len ls * 4
      | IJsr _ | IJump JcAlways _ => 4
      | _ => 7
      end.
(** code.rs 283-303 [index_hints]: an upper bound of where the buffer after
    each jump begins.  There is one more buffer than jumps. *)
Fixpoint index_hints (js : list insn) (bufs : list (list Z)) (last : Z) : list Z :=
  match js, bufs with
  | j :: js, b :: bufs => let last := last + (max_size j + len b) in last :: index_hints js bufs last
  | _, _ => []
  end.

(** [v[i]] *)
Definition index {A} (l : list A) (i : Z) : res A :=
  match nth_error l (Z.to_nat i) with Some x => Ok x | None => Panic PIndex end.
(** code.rs 263-269 [get_label!] *)
Definition find_label (labels : list (Z * (Z * Z))) (l : Z) : res (Z * Z) :=
  match assoc Z.eqb l labels with Some x => Ok x | None => Err EInvalid end.
(** The beginning of buffer [b]. *)
Definition buf_start (ends : list Z) (b : Z) : res Z := if b =? 0 then Ok 0 else index ends (b - 1).
(** code.rs 348-353 *)
Definition hint_of (labels : list (Z * (Z * Z))) (hints : list Z) (l : Z) : res Z :=
  '(b, o) <- find_label labels l ;; x <- buf_start hints b ;; Ok (x + o).
(** code.rs 335-336 *)
Definition padding (i : Z) : Z := if i mod 4 =? 0 then 0 else 4 - i mod 4.
(** code.rs 323-373: the size of the jump [j] whose opcode is at [i]. *)
Definition jump_size (labels : list (Z * (Z * Z))) (hints : list Z) (i : Z) (j : insn) : res Z :=
  match j with
  | ILookupSwitch _ t => Ok (1 + (padding (i + 1) + 8 + len t * 8))
  | ITableSwitch _ _ ls => Ok (1 + (padding (i + 1) + 12 + len ls * 4))
  | IJsr l | IJump JcAlways l => h <- hint_of labels hints l ;; Ok (1 + if h <=? 65535 then 2 else 4)
  | IJump _ l => h <- hint_of labels hints l ;; Ok (1 + if h <=? 65535 then 2 else 7)
  | _ => Panic PAssert
  end.
(** code.rs 317-377 [actual_indices] (where the buffer after each jump begins)
    and [sizes_of_jump_insns]; the last component is [last_idx]. *)
Fixpoint actual (labels : list (Z * (Z * Z))) (hints : list Z) (js : list insn) (bufs : list (list Z)) (last : Z)
  : res (list (Z * Z) * Z) :=
  match js, bufs with
  | j :: js, b :: bufs =>
      let i := last + len b in
      n <- jump_size labels hints i j ;;
      '(r, e) <- actual labels hints js bufs (i + n) ;;
      Ok ((i + n, n) :: r, e)
  | _, _ => Ok ([], last)
  end.

(** code.rs 389-399 [resolve_label!]: [that_off] is u32, the difference wraps,
    the last addition does not. *)
Definition resolve (md : mode) (labels : list (Z * (Z * Z))) (ends : list Z) (idx size l : Z) : res Z :=
  '(b, o) <- find_label labels l ;;
  x <- buf_start ends b ;;
  t <- chk_u md 32 (wrap_u 32 x + wrap_u 32 o) ;;
  chk_s md 32 (wrap_s 32 (wrap_s 32 t - wrap_s 32 idx) + wrap_s 32 size).
Definition fits_i16 (x : Z) : bool := (-32768 <=? x) && (x <=? 32767).
(** [IndexMap::sort_keys] *)
Fixpoint insert_key (e : Z * Z) (t : list (Z * Z)) : list (Z * Z) :=
  match t with
  | [] => [e]
  | x :: t' => if fst e <=? fst x then e :: t else x :: insert_key e t'
  end.
Fixpoint sort_keys (t : list (Z * Z)) : list (Z * Z) :=
  match t with [] => [] | e :: t => insert_key e (sort_keys t) end.
(** code.rs 412-477: the jump [j] that ends at [idx]. *)
Definition emit_jump (md : mode) (labels : list (Z * (Z * Z))) (ends : list Z) (idx size : Z) (j : insn) : res (list Z) :=
  let target := resolve md labels ends idx size in
  match j with
  | ILookupSwitch d t =>
      o <- target d ;;
      es <- mapM (fun e => o <- target (snd e) ;; Ok (be 4 (fst e) ++ be 4 o)) (sort_keys t) ;;
      Ok (be 1 LOOKUPSWITCH ++ repeat 0 (Z.to_nat (padding (idx - size + 1))) ++ be 4 o ++
          be 4 (len t) ++ concat es)
  | ITableSwitch d low ls =>
      o <- target d ;;
      (* [offsets.len() - 1] as usize, then as i32, then added to [low] *)
      n <- chk_u md 64 (len ls - 1) ;;
      high <- chk_s md 32 (low + wrap_s 32 n) ;;
      os <- mapM (fun l => o <- target l ;; Ok (be 4 o)) ls ;;
      Ok (be 1 TABLESWITCH ++ repeat 0 (Z.to_nat (padding (idx - size + 1))) ++ be 4 o ++
          be 4 low ++ be 4 high ++ concat os)
  | IJsr l => o <- target l ;; Ok (if fits_i16 o then be 1 JSR ++ be 2 o else be 1 JSR_W ++ be 4 o)
  | IJump JcAlways l => o <- target l ;; Ok (if fits_i16 o then be 1 GOTO ++ be 2 o else be 1 GOTO_W ++ be 4 o)
  | IJump c l =>
      o <- target l ;;
      if fits_i16 o then Ok (be 1 (jcond_op c) ++ be 2 o)
      else match jcond_neg c with
           | Some c' => Ok (be 1 (jcond_op c') ++ be 4 5 ++ be 1 GOTO_W ++ be 4 o)
           | None => Panic PUnwrap
           end
  | _ => Panic PAssert
  end.
(** code.rs 383-480 (the loop): [rows] are the elements of [actual]. *)
Fixpoint emit_jumps (md : mode) (labels : list (Z * (Z * Z))) (ends : list Z) (js : list insn)
  (rows : list (Z * Z)) (bufs : list (list Z)) : res (list Z) :=
  match js, rows, bufs with
  | j :: js, (idx, size) :: rows, b :: bufs =>
      x <- emit_jump md labels ends idx size j ;;
      r <- emit_jumps md labels ends js rows bufs ;;
      Ok (x ++ b ++ r)
  | _, _, _ => Ok []
  end.
(** code.rs 282-480: the length written and the bytes written. *)
Definition assemble (md : mode) (y : yst) : res (Z * list Z * list Z) :=
  let bufs := y_bufs y ++ [y_cur y] in
  let hints := index_hints (y_jumps y) bufs 0 in
  '(rows, last) <- actual (y_labels y) hints (y_jumps y) bufs 0 ;;
  let ends := map fst rows in
  match bufs with
  | b :: rest =>
      r <- emit_jumps md (y_labels y) ends (y_jumps y) rows rest ;;
      Ok (last + len (y_cur y), ends, b ++ r)
  | [] => Panic PUnwrap
  end.

(** code.rs 500-507 [Labeler::label] *)
Definition label16 (md : mode) (labels : list (Z * (Z * Z))) (ends : list Z) (l : Z) : res Z :=
  match assoc Z.eqb l labels with
  | None => Panic PUnwrap
  | Some (b, o) => x <- buf_start ends b ;; chk_u md 16 (wrap_u 16 x + wrap_u 16 o)
  end.
(** derived [PartialEq] of [Catch]; code.rs 509-514 [Labeler::catch] *)
Definition catch_eqb (a b : catch) : bool :=
  (c_start a =? c_start b) && (c_end a =? c_end b) && (c_handler a =? c_handler b) &&
  match c_type a, c_type b with
  | None, None => true
  | Some x, Some y => list_eqb Z.eqb x y
  | _, _ => false
  end.
Fixpoint position (c : catch) (cs : list catch) (k : Z) : option Z :=
  match cs with
  | [] => None
  | x :: cs => if catch_eqb x c then Some k else position c cs (k + 1)
  end.
(** code.rs 482-515: the constant pool inside the code attribute. *)
Definition code_env (E : wenv) (labels : list (Z * (Z * Z))) (ends : list Z) (cs : list catch) : wenv :=
  {| we_md := we_md E; we_heap := we_heap E;
     we_label := label16 (we_md E) labels ends;
     we_catch := fun c => Ok (option_map (fun n => n mod 65536) (position c cs 0)) |}.

(** code.rs 524-541 *)
Definition wr_handler : cwr catch := fun E c w =>
  a <- we_label E (c_start c) ;;
  b <- we_label E (c_end c) ;;
  h <- we_label E (c_handler c) ;;
  match c_type c with
  | Some t => '(i, w) <- insert_class E t w ;; Ok (be 2 a ++ be 2 b ++ be 2 h ++ be 2 i, w)
  | None => Ok (be 2 a ++ be 2 b ++ be 2 h ++ be 2 0, w)
  end.
(** code.rs 554-578: a row of one of the tables, [labeler.label(&lc.end) - start] in u16. *)
Definition lv_row {A} (E : wenv) (v : localvar) (t : A) : res (lvrow A) :=
  a <- we_label E (v_start v) ;;
  b <- we_label E (v_end v) ;;
  n <- chk_u (we_md E) 16 (b - a) ;;
  Ok {| lr_start := a; lr_len := n; lr_name := v_name v; lr_type := t; lr_index := v_index v |}.
Fixpoint lv_rows (E : wenv) (vs : list localvar) : res (list (lvrow ty) * list (lvrow rsig)) :=
  match vs with
  | [] => Ok ([], [])
  | v :: vs =>
      d <- match v_desc v with Some d => r <- lv_row E v d ;; Ok [r] | None => Ok [] end ;;
      g <- match v_sig v with Some g => r <- lv_row E v g ;; Ok [r] | None => Ok [] end ;;
      '(ds, gs) <- lv_rows E vs ;;
      Ok (d ++ ds, g ++ gs)
  end.
(** code.rs 545-600: one attribute; the second result is whether it was written
    as two. *)
Definition wr_kattr (E : wenv) (a : kattr) (w : wst) : res (list Z * Z * wst) :=
  match a with
  | KVisible l => '(b, w) <- wr_fcattr E (CaVisible l) w ;; Ok (b, 0, w)
  | KInvisible l => '(b, w) <- wr_fcattr E (CaInvisible l) w ;; Ok (b, 0, w)
  | KRaw r => '(b, w) <- wr_fcattr E (CaRaw r) w ;; Ok (b, 0, w)
  | KLocals vs =>
      '(ds, gs) <- lv_rows E vs ;;
      match ds, gs with
      | [], [] => Err EInvalid
      | [], _ => '(b, w) <- wr_fcattr E (CaLocalTypes gs) w ;; Ok (b, 0, w)
      | _, [] => '(b, w) <- wr_fcattr E (CaLocals ds) w ;; Ok (b, 0, w)
      | _, _ =>
          '(b, w) <- wr_fcattr E (CaLocals ds) w ;;
          '(c, w) <- wr_fcattr E (CaLocalTypes gs) w ;;
          Ok (b ++ c, 1, w)
      end
  end.
(** code.rs 542-601: [extra_attrs] is u16. *)
Fixpoint wr_kattrs (E : wenv) (l : list kattr) (extra : Z) (w : wst) : res (list Z * Z * wst) :=
  match l with
  | [] => Ok ([], extra, w)
  | a :: l =>
      '(b, x, w) <- wr_kattr E a w ;;
      extra <- chk_u (we_md E) 16 (extra + x) ;;
      '(c, extra, w) <- wr_kattrs E l extra w ;;
      Ok (b ++ c, extra, w)
  end.
(** code.rs 250-605 *)
Definition wr_code : cwr code := fun E c w =>
  '(y, w) <- write_insns E (cd_code c) y_new w ;;
  '(n, ends, body) <- assemble (we_md E) y ;;
  let E' := code_env E (y_labels y) ends (cd_catches c) in
  '(hs, w) <- wr_each wr_handler E' (cd_catches c) w ;;
  '(bs, extra, w) <- wr_kattrs E' (cd_attrs c) 0 w ;;
  k <- chk_u (we_md E) 16 (wrap_u 16 (len (cd_attrs c)) + extra) ;;
  Ok (be 2 (cd_stack c) ++ be 2 (cd_locals c) ++ be 4 n ++ body ++
      be 2 (len (cd_catches c)) ++ hs ++ be 2 k ++ bs, w).

(** * Reading *)

(** code.rs 93-116: the instructions with their offsets. *)
Fixpoint rd_insns (fuel : nat) (md : mode) (p : pool) (pos : Z) (s : cst) (l : list Z)
  : res (list (Z * insn) * cst) :=
  match l with
  | [] => Ok ([], s)
  | _ =>
      match fuel with
      | O => Panic PFuel
      | S fuel =>
          '((i, s), r) <- rd_insn_at md p pos s l ;;
          '(is, s) <- rd_insns fuel md p (pos + (len l - len r)) s r ;;
          Ok ((pos, i) :: is, s)
      end
  end.
(** code.rs 91, 95, 117 [pos2idx]: the index of the instruction at an offset,
    the offset of the end included. *)
Fixpoint pos2idx (ps : list Z) (k : Z) (pos : Z) : option Z :=
  match ps with
  | [] => None
  | q :: ps => if q =? pos then Some k else pos2idx ps (k + 1) pos
  end.

(** code.rs 123-141 *)
Definition rd_handler (p : pool) : srd cst catch := fun s l =>
  '((a, s), l) <- rd_label s l ;;
  '((b, s), l) <- rd_label s l ;;
  '((h, s), l) <- rd_label s l ;;
  '(i, l) <- rd_u16 l ;;
  if i =? 0 then Ok (({| c_start := a; c_end := b; c_handler := h; c_type := None |}, s), l)
  else match read_indirect_str 7 p i with
       | Some t => Ok (({| c_start := a; c_end := b; c_handler := h; c_type := Some t |}, s), l)
       | None => Err EInvalid
       end.

(** code.rs 162-212: what is collected from the attributes: line numbers by
    instruction index ([to_insert], a later one replaces an earlier one), local
    variables ([local_vars], in the order of insertion instead of the one of
    the hash map), other attributes. *)
Record zst : Type := { z_lines : list (Z * Z); z_vars : list localvar; z_attrs : list kattr }.
(** code.rs 168-170 *)
Fixpoint add_lines (idx : Z -> option Z) (ln : list (Z * Z)) (m : list (Z * Z)) : res (list (Z * Z)) :=
  match ln with
  | [] => Ok m
  | (off, line) :: ln =>
      match idx off with
      | None => Panic PIndex
      | Some k => add_lines idx ln (assoc_set Z.eqb k line m)
      end
  end.
(** code.rs 163-164, 177-178, 198: the key, the entry under it *)
Definition same_key (a b : localvar) : bool :=
  (v_start a =? v_start b) && (v_end a =? v_end b) && (v_index a =? v_index b) &&
  list_eqb Z.eqb (v_name a) (v_name b).
Fixpoint add_var (f : localvar -> localvar) (v : localvar) (vs : list localvar) : list localvar :=
  match vs with
  | [] => [f v]
  | x :: vs => if same_key x v then f x :: vs else x :: add_var f v vs
  end.
(** code.rs 171-193, 194-215: [l.start + l.len] in u16 *)
Fixpoint add_vars {A} (md : mode) (set : A -> localvar -> localvar) (rows : list (lvrow A)) (s : cst) (vs : list localvar)
  : res (list localvar * cst) :=
  match rows with
  | [] => Ok (vs, s)
  | r :: rows =>
      let (a, s) := get_label (lr_start r) s in
      e <- chk_u md 16 (lr_start r + lr_len r) ;;
      let (b, s) := get_label e s in
      add_vars md set rows s
        (add_var (set (lr_type r))
           {| v_start := a; v_end := b; v_name := lr_name r; v_desc := None; v_sig := None; v_index := lr_index r |} vs)
  end.
Definition set_desc (d : ty) (v : localvar) : localvar :=
  {| v_start := v_start v; v_end := v_end v; v_name := v_name v; v_desc := Some d; v_sig := v_sig v; v_index := v_index v |}.
Definition set_sig (g : rsig) (v : localvar) : localvar :=
  {| v_start := v_start v; v_end := v_end v; v_name := v_name v; v_desc := v_desc v; v_sig := Some g; v_index := v_index v |}.
(** code.rs 166-227: stack maps are dropped. *)
Definition add_attr (md : mode) (idx : Z -> option Z) (a : fcattr) (s : cst) (z : zst) : res (zst * cst) :=
  let push k := Ok ({| z_lines := z_lines z; z_vars := z_vars z; z_attrs := z_attrs z ++ [k] |}, s) in
  let vars '(vs, s) := Ok ({| z_lines := z_lines z; z_vars := vs; z_attrs := z_attrs z |}, s) in
  match a with
  | CaLines ln =>
      m <- add_lines idx ln (z_lines z) ;;
      Ok ({| z_lines := m; z_vars := z_vars z; z_attrs := z_attrs z |}, s)
  | CaLocals rows => r <- add_vars md set_desc rows s (z_vars z) ;; vars r
  | CaLocalTypes rows => r <- add_vars md set_sig rows s (z_vars z) ;; vars r
  | CaFrames _ => Ok (z, s)
  | CaInvisible l => push (KInvisible l)
  | CaVisible l => push (KVisible l)
  | CaRaw r => push (KRaw r)
  end.
Fixpoint rd_kattrs (n : nat) (md : mode) (p : pool) (idx : Z -> option Z) (s : cst) (z : zst) (l : list Z)
  : res (zst * cst * list Z) :=
  match n with
  | O => Ok (z, s, l)
  | S n =>
      '((a, s), l) <- rd_fcattr md p s l ;;
      '(z, s) <- add_attr md idx a s z ;;
      rd_kattrs n md p idx s z l
  end.

(** code.rs 230-239: the labels are pushed behind the line numbers; an offset
    that is no instruction boundary is an error.  ([BTreeMap::entry] on a list
    of instructions by index; the order of the map is that of [weave].) *)
Fixpoint push_at (k : Z) (i : insn) (m : list (Z * list insn)) : list (Z * list insn) :=
  match m with
  | [] => [(k, [i])]
  | (k', v) :: m => if k' =? k then (k', v ++ [i]) :: m else (k', v) :: push_at k i m
  end.
Fixpoint add_labels (idx : Z -> option Z) (ls : list (Z * Z)) (m : list (Z * list insn)) : res (list (Z * list insn)) :=
  match ls with
  | [] => Ok m
  | (off, l) :: ls =>
      match idx off with
      | None => Err EInvalid
      | Some k => add_labels idx ls (push_at k (ILabel l) m)
      end
  end.
(** code.rs 240-244: from the last index to the first ([k] counts down from the
    number of instructions, which no index exceeds), every element is inserted
    in front of what is there. *)
Definition insert_at {A} (k : nat) (x : A) (l : list A) : list A := firstn k l ++ x :: skipn k l.
Fixpoint insert_all (k : nat) (m : list (Z * list insn)) (is : list insn) : list insn :=
  let is := match assoc Z.eqb (Z.of_nat k) m with
            | Some v => fold_left (fun is i => insert_at k i is) v is
            | None => is
            end in
  match k with O => is | S k => insert_all k m is end.

(** code.rs 36-248.  The constants are registered with the reader around it. *)
Definition rd_code (md : mode) (p : pool) : srd rst code := fun s l =>
  '(stack, l) <- rd_u16 l ;;
  '(locals, l) <- rd_u16 l ;;
  '(n, l) <- rd_u32 l ;;
  '(body, l) <- take n l ;;
  '(is, k) <- rd_insns (length body) md p 0 {| k_refs := s; k_labels := []; k_catches := [] |} body ;;
  let idx := pos2idx (map fst is ++ [n]) 0 in
  '(m, l) <- rd_u16 l ;;
  '((cs, k), l) <- srd_times (Z.to_nat m) (rd_handler p) k l ;;
  let k := {| k_refs := k_refs k; k_labels := k_labels k; k_catches := cs |} in
  '(a, l) <- rd_u16 l ;;
  '(z, k, l) <- rd_kattrs (Z.to_nat a) md p idx k {| z_lines := []; z_vars := []; z_attrs := [] |} l ;;
  ins <- add_labels idx (k_labels k) (map (fun '(i, line) => (i, [ILineNumber line])) (z_lines z)) ;;
  Ok (({| cd_stack := stack; cd_locals := locals;
          cd_code := insert_all (length is) ins (map snd is);
          cd_catches := cs;
          cd_attrs := z_attrs z ++ match z_vars z with [] => [] | vs => [KLocals vs] end |},
       k_refs k), l).
