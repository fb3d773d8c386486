(** JVMS chapter 6: the instruction set, written down independently of the
    crate's tables. *)
From Coq Require Import String Ascii Permutation Sorted.
From Verif Require Import Base Wtf8Spec TypeModel TypeSpec CpModel CpSpec FrameModel FrameSpec InsnModel.

(** * Mnemonics and operands (JVMS 6.5, 7) *)

(** The mnemonics in the order of their opcodes, 0 to 201. *)
Definition mnemonics : list string :=
  ["nop"; "aconst_null"; "iconst_m1"; "iconst_0"; "iconst_1"; "iconst_2"; "iconst_3"; "iconst_4";
   "iconst_5"; "lconst_0"; "lconst_1"; "fconst_0"; "fconst_1"; "fconst_2"; "dconst_0"; "dconst_1";
   "bipush"; "sipush"; "ldc"; "ldc_w"; "ldc2_w"; "iload"; "lload"; "fload"; "dload"; "aload";
   "iload_0"; "iload_1"; "iload_2"; "iload_3"; "lload_0"; "lload_1"; "lload_2"; "lload_3";
   "fload_0"; "fload_1"; "fload_2"; "fload_3"; "dload_0"; "dload_1"; "dload_2"; "dload_3";
   "aload_0"; "aload_1"; "aload_2"; "aload_3"; "iaload"; "laload"; "faload"; "daload"; "aaload";
   "baload"; "caload"; "saload"; "istore"; "lstore"; "fstore"; "dstore"; "astore";
   "istore_0"; "istore_1"; "istore_2"; "istore_3"; "lstore_0"; "lstore_1"; "lstore_2"; "lstore_3";
   "fstore_0"; "fstore_1"; "fstore_2"; "fstore_3"; "dstore_0"; "dstore_1"; "dstore_2"; "dstore_3";
   "astore_0"; "astore_1"; "astore_2"; "astore_3"; "iastore"; "lastore"; "fastore"; "dastore";
   "aastore"; "bastore"; "castore"; "sastore"; "pop"; "pop2"; "dup"; "dup_x1"; "dup_x2"; "dup2";
   "dup2_x1"; "dup2_x2"; "swap"; "iadd"; "ladd"; "fadd"; "dadd"; "isub"; "lsub"; "fsub"; "dsub";
   "imul"; "lmul"; "fmul"; "dmul"; "idiv"; "ldiv"; "fdiv"; "ddiv"; "irem"; "lrem"; "frem"; "drem";
   "ineg"; "lneg"; "fneg"; "dneg"; "ishl"; "lshl"; "ishr"; "lshr"; "iushr"; "lushr"; "iand"; "land";
   "ior"; "lor"; "ixor"; "lxor"; "iinc"; "i2l"; "i2f"; "i2d"; "l2i"; "l2f"; "l2d"; "f2i"; "f2l";
   "f2d"; "d2i"; "d2l"; "d2f"; "i2b"; "i2c"; "i2s"; "lcmp"; "fcmpl"; "fcmpg"; "dcmpl"; "dcmpg";
   "ifeq"; "ifne"; "iflt"; "ifge"; "ifgt"; "ifle"; "if_icmpeq"; "if_icmpne"; "if_icmplt";
   "if_icmpge"; "if_icmpgt"; "if_icmple"; "if_acmpeq"; "if_acmpne"; "goto"; "jsr"; "ret";
   "tableswitch"; "lookupswitch"; "ireturn"; "lreturn"; "freturn"; "dreturn"; "areturn"; "return";
   "getstatic"; "putstatic"; "getfield"; "putfield"; "invokevirtual"; "invokespecial";
   "invokestatic"; "invokeinterface"; "invokedynamic"; "new"; "newarray"; "anewarray";
   "arraylength"; "athrow"; "checkcast"; "instanceof"; "monitorenter"; "monitorexit"; "wide";
   "multianewarray"; "ifnull"; "ifnonnull"; "goto_w"; "jsr_w"]%string.
(** A mnemonic as an identifier: no underscores, all lower case. *)
Definition lower (a : ascii) : ascii :=
  let n := nat_of_ascii a in
  if (Nat.leb 65 n && Nat.leb n 90)%bool then ascii_of_nat (n + 32) else a.
Fixpoint plain_name (s : string) : string :=
  match s with
  | EmptyString => EmptyString
  | String a s => if Ascii.eqb a "_"%char then plain_name s else String (lower a) (plain_name s)
  end.

(** The operands following an opcode: signed and unsigned bytes and shorts,
    signed ints; [None] for the opcodes with operands of varying length. *)
Inductive operand : Type := U1 | S1 | U2 | S2 | S4.
Definition operands (op : Z) : option (list operand) :=
  if (op =? 170) || (op =? 171) || (op =? 196) then None else Some
  (if op =? 16 then [S1] else if op =? 17 then [S2]
   else if op =? 18 then [U1] else if op <=? 15 then [] else if op <=? 20 then [U2]
   else if op <=? 25 then [U1] else if op <=? 53 then [] else if op <=? 58 then [U1]
   else if op <=? 131 then [] else if op =? 132 then [U1; S1] else if op <=? 152 then []
   else if op <=? 168 then [S2] else if op =? 169 then [U1] else if op <=? 177 then []
   else if op <=? 184 then [U2] else if op =? 185 then [U2; U1; U1] else if op =? 186 then [U2; U2]
   else if op =? 187 then [U2] else if op =? 188 then [U1] else if op =? 189 then [U2]
   else if op <=? 191 then [] else if op <=? 193 then [U2] else if op <=? 195 then []
   else if op =? 197 then [U2; U1] else if op <=? 199 then [S2] else [S4]).
Definition operand_range (o : operand) (x : Z) : Prop :=
  match o with U1 => u8 x | S1 => i8 x | U2 => u16 x | S2 => i16 x | S4 => i32 x end.
Definition operand_bytes (o : operand) (x : Z) : list Z :=
  match o with U1 | S1 => u1 x | U2 | S2 => u2 x | S4 => u4 x end.
(** the operands of [wide] (JVMS 6.5.wide) by the opcode modified *)
Definition wide_operands (op : Z) : option (list operand) :=
  if ((21 <=? op) && (op <=? 25)) || ((54 <=? op) && (op <=? 58)) || (op =? 169) then Some [U2]
  else if op =? 132 then Some [U2; S2] else None.
Fixpoint operands_bytes (os : list operand) (xs : list Z) : option (list Z) :=
  match os, xs with
  | [], [] => Some []
  | o :: os, x :: xs => option_map (app (operand_bytes o x)) (operands_bytes os xs)
  | _, _ => None
  end.

(** The operands of a raw instruction, and of [wide]. *)
Definition raw_args (r : raw) : list Z :=
  match r with
  | XBipush a | XSipush a | XLdc a | XLdcW a | XLdc2W a | XILoad a | XLLoad a | XFLoad a
  | XDLoad a | XALoad a | XIStore a | XLStore a | XFStore a | XDStore a | XAStore a | XIfEq a
  | XIfNe a | XIfLt a | XIfGe a | XIfGt a | XIfLe a | XIfICmpEq a | XIfICmpNe a | XIfICmpLt a
  | XIfICmpGe a | XIfICmpGt a | XIfICmpLe a | XIfACmpEq a | XIfACmpNe a | XGoto a | XJsr a
  | XRet a | XGetStatic a | XPutStatic a | XGetField a | XPutField a | XInvokeVirtual a
  | XInvokeSpecial a | XInvokeStatic a | XNew a | XNewArray a | XANewArray a | XCheckCast a
  | XInstanceOf a | XIfNull a | XIfNonNull a | XGotoW a | XJsrW a => [a]
  | XIInc a b | XInvokeDynamic a b | XMultiANewArray a b => [a; b]
  | XInvokeInterface a b c => [a; b; c]
  | _ => []
  end.
Definition wide_parts (w : wide) : Z * list Z :=
  match w with
  | WILoad a => (21, [a]) | WLLoad a => (22, [a]) | WFLoad a => (23, [a]) | WDLoad a => (24, [a])
  | WALoad a => (25, [a]) | WIStore a => (54, [a]) | WLStore a => (55, [a]) | WFStore a => (56, [a])
  | WDStore a => (57, [a]) | WAStore a => (58, [a]) | WIInc a b => (132, [a; b]) | WRet a => (169, [a])
  end.
(** [raw_fmt r bs]: [bs] is the instruction [r] (JVMS 6.5); the alignment of
    the switches is up to the code they are in. *)
Definition raw_fmt (r : raw) (bs : list Z) : Prop :=
  exists op m tl, nth_error mnemonics (Z.to_nat op) = Some m /\ 0 <= op /\
    plain_name m = plain_name (raw_name r) /\ bs = op :: tl /\
    match r with
    | XWide w =>
        exists os b, wide_operands (fst (wide_parts w)) = Some os /\
          Forall2 operand_range os (snd (wide_parts w)) /\
          operands_bytes os (snd (wide_parts w)) = Some b /\ tl = fst (wide_parts w) :: b
    | XTableSwitch d t =>
        i32 d /\ i32 (t_low t) /\ i32 (t_high t) /\ Forall i32 (t_offs t) /\
        len (t_offs t) = t_high t - t_low t + 1 /\
        tl = u4 d ++ u4 (t_low t) ++ u4 (t_high t) ++ concat (map u4 (t_offs t))
    | XLookupSwitch d es =>
        i32 d /\ len es < 4294967296 /\ Forall (fun e => i32 (fst e) /\ i32 (snd e)) es /\
        tl = u4 d ++ u4 (len es) ++ concat (map (fun e => u4 (fst e) ++ u4 (snd e)) es)
    | _ => exists os, operands op = Some os /\ Forall2 operand_range os (raw_args r) /\
             operands_bytes os (raw_args r) = Some tl
    end.

(** * The encodings of a high-level instruction *)

(** int, long, float, double, reference *)
Definition lty_num (t : lty) : Z :=
  match t with LtInt => 0 | LtLong => 1 | LtFloat => 2 | LtDouble => 3 | LtReference => 4 end.
Definition aty_num (t : aty) : Z :=
  match t with
  | AtInt => 0 | AtLong => 1 | AtFloat => 2 | AtDouble => 3 | AtReference => 4
  | AtByteOrBool => 5 | AtChar => 6 | AtShort => 7
  end.
Definition ity_num (t : ity) : Z := match t with ItInt => 0 | ItLong => 1 end.
Definition fty_num (t : fty) : Z := match t with FtFloat => 2 | FtDouble => 3 end.
Definition nty_num (t : nty) : Z :=
  match t with NtInt => 0 | NtLong => 1 | NtFloat => 2 | NtDouble => 3 end.
(** add sub mul div rem neg, each for int, long, float, double; then shl shr
    ushr and or xor for int and long *)
Definition iop_base (o : iop) : Z :=
  match o with
  | IoAdd => 96 | IoSubtract => 100 | IoMultiply => 104 | IoDivide => 108 | IoRemainder => 112
  | IoNegate => 116 | IoShiftLeft => 120 | IoShiftRight => 122 | IoUnsignedShiftRight => 124
  | IoAnd => 126 | IoOr => 128 | IoExclusiveOr => 130
  end.
Definition fop_base (o : fop) : Z :=
  match o with
  | FoAdd => 96 | FoSubtract => 100 | FoMultiply => 104 | FoDivide => 108 | FoRemainder => 112
  | FoNegate => 116
  end.
(** i2l i2f i2d l2i l2f l2d f2i f2l f2d d2i d2l d2f from 133 *)
Definition nty_conv (a b : nty) : list Z :=
  let a := nty_num a in let b := nty_num b in
  if a =? b then [] else [133 + 3 * a + (if b <? a then b else b - 1)].
(** Conditions: what is popped and when the jump is taken. *)
Definition jcond_num (c : jcond) : Z :=
  match c with
  | JcIntegerEqualsZero => 153 | JcIntegerNotEqualsZero => 154 | JcIntegerLessThanZero => 155
  | JcIntegerGreaterThanOrEqualsZero => 156 | JcIntegerGreaterThanZero => 157
  | JcIntegerLessThanOrEqualsZero => 158
  | JcIntegerEquals => 159 | JcIntegerNotEquals => 160 | JcIntegerLessThan => 161
  | JcIntegerGreaterThanOrEquals => 162 | JcIntegerGreaterThan => 163
  | JcIntegerLessThanOrEquals => 164
  | JcReferenceEquals => 165 | JcReferenceNotEquals => 166 | JcAlways => 167
  | JcIsNull => 198 | JcIsNonNull => 199
  end.

(** An operand [i] that refers to [a] or to a dynamic constant. *)
Definition ref_ordyn {A} (R : pool -> Z -> A -> Prop) (W : world) (i : Z) (o : ordyn A) : Prop :=
  match o with Dyn d => is_dyn W i d | Stat a => R (W_pool W) i a end.
Definition op_ref {A} (op : Z) (R : world -> Z -> A -> Prop) (W : world) (a : A) (tail bs : list Z) : Prop :=
  exists b, fmt_idx R W a b /\ bs = op :: b ++ tail.
(** Class names of casts: an array class by its descriptor. *)
Definition ctype_text (c : ctype) : list Z :=
  match c with CtObject s => s | CtArray dim t => repeat 91 (Z.to_nat dim) ++ ty_text t end.
(** The same class; equal unless an array class is given by its name. *)
Definition same_ctype (a b : ctype) : Prop :=
  ctype_text b = ctype_text a /\
  match a with CtObject s => hd 0 s = 91 \/ b = a | CtArray _ _ => b = a end.

(** [ldc] for one-slot constants, [ldc_w], [ldc2_w] for long and double. *)
Definition two_slots (c : ordyn constant) : bool :=
  match c with
  | Dyn d => match d_desc d with TLong | TDouble => true | _ => false end
  | Stat (KI64 _) | Stat (KF64 _) => true
  | _ => false
  end.
Definition enc_ldc (W : world) (c : ordyn constant) (bs : list Z) : Prop :=
  exists i, is_ordyn W i c /\
    (if two_slots c then 0 < i < 65536 /\ bs = 20 :: u2 i
     else (0 < i < 256 /\ bs = [18; i]) \/ (0 < i < 65536 /\ bs = 19 :: u2 i)).
(** The forms without a constant: iconst, lconst, fconst, dconst, bipush,
    sipush. *)
Definition enc_small (k : constant) (bs : list Z) : Prop :=
  match k with
  | KI32 x =>
      (-1 <= x <= 5 /\ bs = [3 + x]) \/ (-128 <= x < 128 /\ bs = 16 :: u1 x) \/
      (-32768 <= x < 32768 /\ bs = 17 :: u2 x)
  | KI64 x => 0 <= x <= 1 /\ bs = [9 + x]
  (* 0.0f, 1.0f, 2.0f: sign, exponent biased by 127, fraction *)
  | KF32 x => (x = 0 /\ bs = [11]) \/ (x = 127 * 2 ^ 23 /\ bs = [12]) \/ (x = 128 * 2 ^ 23 /\ bs = [13])
  | KF64 x => (x = 0 /\ bs = [14]) \/ (x = 1023 * 2 ^ 52 /\ bs = [15])
  | _ => False
  end.
Definition enc_push (W : world) (c : ordyn constant) (bs : list Z) : Prop :=
  enc_ldc W c bs \/ match c with Stat k => enc_small k bs | Dyn _ => False end.
(** a local variable operand in a byte or, after [wide], in a short *)
Definition enc_var (op i : Z) (bs : list Z) : Prop :=
  (u8 i /\ bs = [op; i]) \/ (u16 i /\ bs = 196 :: op :: u2 i).
(** newarray type codes (JVMS table 6.5.newarray-A) *)
Definition newarray_code (t : ty) : option Z :=
  match t with
  | TBoolean => Some 4 | TChar => Some 5 | TFloat => Some 6 | TDouble => Some 7 | TByte => Some 8
  | TShort => Some 9 | TInt => Some 10 | TLong => Some 11 | _ => None
  end.
(** the name of the class constant for a component type *)
Definition component_name (t : ty) : list Z := match t with TRef n => n | _ => ty_text t end.
Definition enc_newarray (W : world) (t : ordyn ty) (dim : Z) (bs : list Z) : Prop :=
  (dim = 1 /\ exists t' k, t = Stat t' /\ newarray_code t' = Some k /\ bs = [188; k]) \/
  (dim = 1 /\ op_ref 189 (ref_ordyn (fun p i t => newarray_code t = None /\ is_class p i (component_name t))) W t [] bs) \/
  (u8 dim /\ op_ref 197 (ref_ordyn (fun p i t => is_class p i (component_name t))) W t [dim] bs).

(** The code offset of a label, relative to the instruction at [pos]. *)
Definition rel (W : world) (pos l o : Z) : Prop :=
  exists t, W_label W l = Some t /\ 0 <= t < 4294967296 /\ o = t - pos.
Definition enc_jump (W : world) (pos narrow : Z) (wide : option Z) (l : Z) (bs : list Z) : Prop :=
  exists o, rel W pos l o /\
    ((-32768 <= o < 32768 /\ bs = narrow :: u2 o) \/
     (-2147483648 <= o < 2147483648 /\ exists w, wide = Some w /\ bs = w :: u4 o)).
(** a 4-byte branch offset *)
Definition enc_off4 (W : world) (pos l : Z) (bs : list Z) : Prop :=
  exists o, rel W pos l o /\ -2147483648 <= o < 2147483648 /\ bs = u4 o.
(** tableswitch, lookupswitch: 0 to 3 bytes so that the default offset begins
    at a multiple of 4; the keys of a lookupswitch ascend. *)
Definition enc_table (W : world) (pos dflt low : Z) (ls : list Z) (bs : list Z) : Prop :=
  exists pad d oss,
    bs = 170 :: pad ++ d ++ u4 low ++ u4 (low + len ls - 1) ++ concat oss /\
    0 <= len pad <= 3 /\ (pos + 1 + len pad) mod 4 = 0 /\
    -2147483648 <= low < 2147483648 /\ 1 <= len ls /\ low + len ls - 1 < 2147483648 /\
    enc_off4 W pos dflt d /\ Forall2 (enc_off4 W pos) ls oss.
Definition enc_lookup (W : world) (pos dflt : Z) (t : list (Z * Z)) (bs : list Z) : Prop :=
  exists pad d t' ess,
    bs = 171 :: pad ++ d ++ u4 (len t) ++ concat ess /\
    0 <= len pad <= 3 /\ (pos + 1 + len pad) mod 4 = 0 /\
    len t < 2147483648 /\ Permutation t t' /\ StronglySorted Z.lt (map fst t') /\
    enc_off4 W pos dflt d /\
    Forall2 (fun e b => exists o, b = u4 (fst e) ++ o /\ -2147483648 <= fst e < 2147483648 /\
                          enc_off4 W pos (snd e) o) t' ess.

(** [enc pos W i bs]: [bs] at code offset [pos] is an instruction with the
    meaning of [i] (nothing for the conversions that have no effect, labels
    and line numbers). *)
Definition enc (pos : Z) : fmt insn := fun W i bs =>
  match i with
  | INoOp => bs = [0]
  | IPushNull => bs = [1]
  | IPush c => enc_push W c bs
  | IDup => bs = [89]
  | IDupX1 => bs = [90]
  | IDupX2 => bs = [91]
  | IDup2 => bs = [92]
  | IDup2X1 => bs = [93]
  | IDup2X2 => bs = [94]
  | IPop1 => bs = [87]
  | IPop2 => bs = [88]
  | ISwap => bs = [95]
  | IJump c l => enc_jump W pos (jcond_num c) (match c with JcAlways => Some 200 | _ => None end) l bs
  | IJsr l => enc_jump W pos 168 (Some 201) l bs
  | ICompareLongs => bs = [148]
  (* fcmpl dcmpl push -1 on NaN, fcmpg dcmpg push 1 *)
  | ICompareFloats FtFloat n => bs = [match n with NanReturnsNegativeOne => 149 | NanReturnsOne => 150 end]
  | ICompareFloats FtDouble n => bs = [match n with NanReturnsNegativeOne => 151 | NanReturnsOne => 152 end]
  | ILocalVariable o t i =>
      enc_var ((match o with LsLoad => 21 | LsStore => 54 end) + lty_num t) i bs \/
      (0 <= i <= 3 /\ bs = [(match o with LsLoad => 26 | LsStore => 59 end) + 4 * lty_num t + i])
  | IArray o t => bs = [(match o with LsLoad => 46 | LsStore => 79 end) + aty_num t]
  | IArrayLength => bs = [190]
  | IIntOperation t o => bs = [iop_base o + ity_num t]
  | IFloatOperation t o => bs = [fop_base o + fty_num t]
  | IThrow => bs = [191]
  | ICheckCast c => op_ref 192 (ref_ordyn (fun p i c => is_class p i (ctype_text c))) W c [] bs
  | IInstanceOf c => op_ref 193 (ref_ordyn (fun p i c => is_class p i (ctype_text c))) W c [] bs
  | INewArray t dim => enc_newarray W t dim bs
  | IMonitor o => bs = [match o with MoEnter => 194 | MoExit => 195 end]
  | INew c => op_ref 187 (ref_ordyn is_class) W c [] bs
  | IConversion a b => bs = nty_conv a b
  | IConvertInt t =>
      bs = match t with
           | BtInt => [] | BtLong => [133] | BtFloat => [134] | BtDouble => [135]
           | BtByte => [145] | BtChar => [146] | BtShort => [147]
           end
  | IReturn (Some t) => bs = [172 + lty_num t]
  | IReturn None => bs = [177]
  | IField o k m =>
      op_ref (match o, k with
              | GpGet, MtStatic => 178 | GpPut, MtStatic => 179
              | GpGet, MtVirtual => 180 | GpPut, MtVirtual => 181
              end) (ref_ordyn is_member) W m [] bs
  | IInvokeExact k m =>
      op_ref (match k with MtVirtual => 182 | MtStatic => 184 end) (ref_ordyn is_member) W m [] bs
  | IInvokeSpecial m => op_ref 183 (ref_ordyn is_member) W m [] bs
  | IInvokeInterface m c => u8 c /\ op_ref 185 (ref_ordyn is_member) W m [c; 0] bs
  | IInvokeDynamic d => ty_is_method (d_desc d) = true /\ op_ref 186 is_dyn W d [0; 0] bs
  | IRet i => enc_var 169 i bs
  | IIntIncrement i v =>
      (u8 i /\ i8 v /\ bs = 132 :: i :: u1 v) \/
      (u16 i /\ i16 v /\ bs = 196 :: 132 :: u2 i ++ u2 v)
  | ITableSwitch d low ls => enc_table W pos d low ls bs
  | ILookupSwitch d t => enc_lookup W pos d t bs
  | ILineNumber _ | ILabel _ => bs = []
  end.

(** * Well-formed instructions *)

(** Rust's types: operands in range; strings and descriptors as in the pool;
    a dynamic constant in place of a symbolic operand is not a call site. *)
Definition wf_or {A} (P : A -> Prop) (heap : Z -> option bsm) (o : ordyn A) : Prop :=
  match o with Dyn d => wf_dynamic heap d /\ ty_is_method (d_desc d) = false | Stat a => P a end.
(** A class to cast to: an object class, or an array of a component type that
    is no array, as the reader of the crate produces it. *)
Definition wf_ctype (c : ctype) : Prop :=
  jstr (ctype_text c) /\
  match c with
  | CtObject s => match s with 91 :: _ => exists t, wf_ty t /\ s = ty_text t | _ => True end
  | CtArray dim t => wf_ty (TArray dim t) /\ Forall is_utf8 (ty_names t)
  end.
Definition straight (i : insn) : Prop :=
  match i with IJump _ _ | IJsr _ | ITableSwitch _ _ _ | ILookupSwitch _ _ => False | _ => True end.
Definition wf_insn (heap : Z -> option bsm) (i : insn) : Prop :=
  match i with
  | IPush c => wf_or wf_constant heap c
  | ILocalVariable _ _ i => u16 i
  | ICheckCast c | IInstanceOf c => wf_or wf_ctype heap c
  | INewArray t dim => u8 dim
  | INew c => wf_or jstr heap c
  | IField _ _ m | IInvokeExact _ m | IInvokeSpecial m => wf_or wf_member heap m
  | IInvokeInterface m c => wf_or wf_member heap m /\ u8 c
  | IInvokeDynamic d => wf_dynamic heap d /\ ty_is_method (d_desc d) = true
  | IRet i => u16 i
  | IIntIncrement i v => u16 i /\ i16 v
  | _ => True
  end.

(** The two kinds of instruction the crate writes wrongly (C47). *)
Definition sound (i : insn) : Prop :=
  match i with INewArray _ _ | IField GpPut MtStatic _ => False | _ => True end.

(** * The same instruction in a file and in memory *)

(** A dynamic constant read back: name, descriptor, and a fresh cell that is
    registered for the entry of the bootstrap table. *)
Definition dyn_sim (W : world) (s : cst) (d d' : dynamic) : Prop :=
  d_name d' = d_name d /\ d_desc d' = d_desc d /\
  exists k b, u16 k /\ W_heap W (d_cell d) = Some b /\ nth_error (W_tbl W) (Z.to_nat k) = Some b /\
    In (k, d_cell d') (r_refs (k_refs s)).
Definition ordyn_sim {A} (R : A -> A -> Prop) (W : world) (s : cst) (o o' : ordyn A) : Prop :=
  match o, o' with
  | Dyn d, Dyn d' => dyn_sim W s d d'
  | Stat a, Stat a' => R a a'
  | _, _ => False
  end.
(** Conversions from int have two names. *)
Definition canon (i : insn) : insn :=
  match i with
  | IConversion NtInt NtLong => IConvertInt BtLong
  | IConversion NtInt NtFloat => IConvertInt BtFloat
  | IConversion NtInt NtDouble => IConvertInt BtDouble
  | _ => i
  end.
Definition insn_sim (W : world) (s : cst) (i i' : insn) : Prop :=
  match i, i' with
  | IPush c, IPush c' => ordyn_sim eq W s c c'
  | IJump c l, IJump c' l' => c' = c /\ label_sim W s l l'
  | IJsr l, IJsr l' => label_sim W s l l'
  | ICheckCast c, ICheckCast c' | IInstanceOf c, IInstanceOf c' =>
      ordyn_sim same_ctype W s c c'
  | INew c, INew c' => ordyn_sim eq W s c c'
  | IField o k m, IField o' k' m' => o' = o /\ k' = k /\ ordyn_sim eq W s m m'
  | IInvokeExact k m, IInvokeExact k' m' => k' = k /\ ordyn_sim eq W s m m'
  | IInvokeSpecial m, IInvokeSpecial m' => ordyn_sim eq W s m m'
  | IInvokeInterface m c, IInvokeInterface m' c' => ordyn_sim eq W s m m' /\ c' = c
  | IInvokeDynamic d, IInvokeDynamic d' => dyn_sim W s d d'
  | ITableSwitch d low ls, ITableSwitch d' low' ls' =>
      label_sim W s d d' /\ low' = low /\ Forall2 (label_sim W s) ls ls'
  | ILookupSwitch d t, ILookupSwitch d' t' =>
      label_sim W s d d' /\
      exists t0, Permutation t t0 /\ StronglySorted Z.lt (map fst t') /\
        Forall2 (fun e e' => fst e' = fst e /\ label_sim W s (snd e) (snd e')) t0 t'
  | (IPush _ | IJump _ _ | IJsr _ | ICheckCast _ | IInstanceOf _ | INew _ | IField _ _ _
     | IInvokeExact _ _ | IInvokeSpecial _ | IInvokeInterface _ _ | IInvokeDynamic _
     | ITableSwitch _ _ _ | ILookupSwitch _ _), _ => False
  | _, _ => canon i' = canon i
  end.

(** * Conditions as predicates on the operands *)
(** the two ints or references popped (ifnull and the comparisons with zero
    use the first only; null is the reference 0) *)
Definition taken (c : jcond) (a b : Z) : Prop :=
  match c with
  | JcReferenceEquals | JcIntegerEquals => a = b
  | JcReferenceNotEquals | JcIntegerNotEquals => a <> b
  | JcIntegerLessThan => a < b
  | JcIntegerGreaterThan => a > b
  | JcIntegerLessThanOrEquals => a <= b
  | JcIntegerGreaterThanOrEquals => a >= b
  | JcIntegerEqualsZero | JcIsNull => a = 0
  | JcIntegerNotEqualsZero | JcIsNonNull => a <> 0
  | JcIntegerLessThanZero => a < 0
  | JcIntegerGreaterThanZero => a > 0
  | JcIntegerLessThanOrEqualsZero => a <= 0
  | JcIntegerGreaterThanOrEqualsZero => a >= 0
  | JcAlways => True
  end.
(** what a condition pops *)
Definition pops (c : jcond) : Z * bool :=
  match c with
  | JcReferenceEquals | JcReferenceNotEquals => (2, true)
  | JcIsNull | JcIsNonNull => (1, true)
  | JcIntegerEquals | JcIntegerNotEquals | JcIntegerLessThan | JcIntegerGreaterThan
  | JcIntegerLessThanOrEquals | JcIntegerGreaterThanOrEquals => (2, false)
  | JcAlways => (0, false)
  | _ => (1, false)
  end.

(** Instructions that exist in bytecode. *)
Definition real (i : insn) : Prop :=
  match i with
  | ILabel _ | ILineNumber _ | IConvertInt BtInt
  | IConversion NtInt NtInt | IConversion NtLong NtLong | IConversion NtFloat NtFloat
  | IConversion NtDouble NtDouble => False
  | _ => True
  end.
(** ... and that the crate reads back (not: loads of dynamic constants, C60;
    arrays of classes whose names begin like a descriptor, C50). *)
Definition plain_elem (t : ty) : Prop :=
  match t with
  | TRef n => wf_wtf8 n /\ ~ long_run n /\ forall t r, loose_ty t -> n <> ty_text t ++ r
  | TMethod _ _ => False
  | _ => wf_ty t
  end.
Definition readable (i : insn) : Prop :=
  match i with
  | IPush (Dyn _) => False
  | INewArray (Stat t) _ => plain_elem t
  | INewArray (Dyn _) _ => False
  | _ => real i
  end.
