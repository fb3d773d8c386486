(** Instructions: the raw instruction set (src/insn.rs), the high-level
    instructions (src/code/structure.rs 30-325), reading (src/code/convert.rs
    18-413) and writing (415-813) of one instruction.

    The opcode tables below were transcribed mechanically from the sources. *)
From Coq Require Import String.
From Verif Require Import Base PrimModel TypeModel CpModel AttrModel FrameModel.

(** * Raw instructions *)

(** src/insn.rs 10-28 [Wide], tags by [coffer(tag = ..)]. *)
Inductive wide : Type :=
| WILoad (a : Z) | WLLoad (a : Z) | WFLoad (a : Z) | WDLoad (a : Z) | WALoad (a : Z)
| WIStore (a : Z) | WLStore (a : Z) | WFStore (a : Z) | WDStore (a : Z) | WAStore (a : Z)
| WIInc (a b : Z) | WRet (a : Z).
Definition wr_wide (w : wide) : list Z :=
  match w with
  | WILoad a => be 1 21 ++ be 2 a
  | WLLoad a => be 1 22 ++ be 2 a
  | WFLoad a => be 1 23 ++ be 2 a
  | WDLoad a => be 1 24 ++ be 2 a
  | WALoad a => be 1 25 ++ be 2 a
  | WIStore a => be 1 54 ++ be 2 a
  | WLStore a => be 1 55 ++ be 2 a
  | WFStore a => be 1 56 ++ be 2 a
  | WDStore a => be 1 57 ++ be 2 a
  | WAStore a => be 1 58 ++ be 2 a
  | WIInc a b => be 1 132 ++ be 2 a ++ be 2 b
  | WRet a => be 1 169 ++ be 2 a
  end.
Definition rd_wide : rd wide := fun l =>
  '(t, l) <- rd_u8 l ;;
  match t with
  | 21 => '(a, l) <- rd_u16 l ;; Ok (WILoad a, l)
  | 22 => '(a, l) <- rd_u16 l ;; Ok (WLLoad a, l)
  | 23 => '(a, l) <- rd_u16 l ;; Ok (WFLoad a, l)
  | 24 => '(a, l) <- rd_u16 l ;; Ok (WDLoad a, l)
  | 25 => '(a, l) <- rd_u16 l ;; Ok (WALoad a, l)
  | 54 => '(a, l) <- rd_u16 l ;; Ok (WIStore a, l)
  | 55 => '(a, l) <- rd_u16 l ;; Ok (WLStore a, l)
  | 56 => '(a, l) <- rd_u16 l ;; Ok (WFStore a, l)
  | 57 => '(a, l) <- rd_u16 l ;; Ok (WDStore a, l)
  | 58 => '(a, l) <- rd_u16 l ;; Ok (WAStore a, l)
  | 132 => '(a, l) <- rd_u16 l ;; '(b, l) <- rd_i16 l ;; Ok (WIInc a b, l)
  | 169 => '(a, l) <- rd_u16 l ;; Ok (WRet a, l)
  | _ => Err EInvalid
  end.

(** src/insn.rs 7-8 [SwitchEntry]. *)
Definition wr_switch_entry : wr (Z * Z) := fun e => Ok (be 4 (fst e) ++ be 4 (snd e)).
Definition rd_switch_entry : rd (Z * Z) := fun l =>
  '(a, l) <- rd_i32 l ;; '(b, l) <- rd_i32 l ;; Ok ((a, b), l).

(** src/insn.rs 30-58 [TableSwitch]: [(high - low + 1) as usize] in i32; a
    negative number of entries makes [Vec::with_capacity] panic. *)
Record table : Type := { t_low : Z; t_high : Z; t_offs : list Z }.
Definition wr_table (t : table) : list Z :=
  be 4 (t_low t) ++ be 4 (t_high t) ++ flat_map (be 4) (t_offs t).
Definition rd_table (md : mode) : rd table := fun l =>
  '(low, l) <- rd_i32 l ;;
  '(high, l) <- rd_i32 l ;;
  d <- chk_s md 32 (high - low) ;;
  n <- chk_s md 32 (d + 1) ;;
  if n <? 0 then Panic PCapacity
  else '(os, l) <- rd_times (Z.to_nat n) rd_i32 l ;;
       Ok ({| t_low := low; t_high := high; t_offs := os |}, l).

(** src/insn.rs 60-465 [Instruction]. *)
Inductive raw : Type :=
| XNop | XAConstNull | XIConstM1 | XIConst0 | XIConst1 | XIConst2 | XIConst3 | XIConst4
| XIConst5 | XLConst0 | XLConst1 | XFConst0 | XFConst1 | XFConst2 | XDConst0 | XDConst1
| XBipush (a : Z) | XSipush (a : Z) | XLdc (a : Z) | XLdcW (a : Z) | XLdc2W (a : Z)
| XILoad (a : Z) | XLLoad (a : Z) | XFLoad (a : Z) | XDLoad (a : Z) | XALoad (a : Z) | XILoad0
| XILoad1 | XILoad2 | XILoad3 | XLLoad0 | XLLoad1 | XLLoad2 | XLLoad3 | XFLoad0 | XFLoad1
| XFLoad2 | XFLoad3 | XDLoad0 | XDLoad1 | XDLoad2 | XDLoad3 | XALoad0 | XALoad1 | XALoad2
| XALoad3 | XIALoad | XLALoad | XFALoad | XDALoad | XAALoad | XBALoad | XCALoad | XSALoad
| XIStore (a : Z) | XLStore (a : Z) | XFStore (a : Z) | XDStore (a : Z) | XAStore (a : Z)
| XIStore0 | XIStore1 | XIStore2 | XIStore3 | XLStore0 | XLStore1 | XLStore2 | XLStore3
| XFStore0 | XFStore1 | XFStore2 | XFStore3 | XDStore0 | XDStore1 | XDStore2 | XDStore3
| XAStore0 | XAStore1 | XAStore2 | XAStore3 | XIAStore | XLAStore | XFAStore | XDAStore
| XAAStore | XBAStore | XCAStore | XSAStore | XPop | XPop2 | XDup | XDupx1 | XDupx2 | XDup2
| XDup2x1 | XDup2x2 | XSwap | XIAdd | XLAdd | XFAdd | XDAdd | XISub | XLSub | XFSub | XDSub
| XIMul | XLMul | XFMul | XDMul | XIDiv | XLDiv | XFDiv | XDDiv | XIRem | XLRem | XFRem
| XDRem | XINeg | XLNeg | XFNeg | XDNeg | XIShl | XLShl | XIShr | XLShr | XIUshr | XLUshr
| XIAnd | XLAnd | XIOr | XLOr | XIXor | XLXor | XIInc (a b : Z) | XI2L | XI2F | XI2D | XL2I
| XL2F | XL2D | XF2I | XF2L | XF2D | XD2I | XD2L | XD2F | XI2B | XI2C | XI2S | XLCmp | XFCmpL
| XFCmpG | XDCmpL | XDCmpG | XIfEq (a : Z) | XIfNe (a : Z) | XIfLt (a : Z) | XIfGe (a : Z)
| XIfGt (a : Z) | XIfLe (a : Z) | XIfICmpEq (a : Z) | XIfICmpNe (a : Z) | XIfICmpLt (a : Z)
| XIfICmpGe (a : Z) | XIfICmpGt (a : Z) | XIfICmpLe (a : Z) | XIfACmpEq (a : Z)
| XIfACmpNe (a : Z) | XGoto (a : Z) | XJsr (a : Z) | XRet (a : Z)
| XTableSwitch (dflt : Z) (t : table) | XLookupSwitch (dflt : Z) (es : list (Z * Z))
| XIReturn | XLReturn | XFReturn | XDReturn | XAReturn | XReturn | XGetStatic (a : Z)
| XPutStatic (a : Z) | XGetField (a : Z) | XPutField (a : Z) | XInvokeVirtual (a : Z)
| XInvokeSpecial (a : Z) | XInvokeStatic (a : Z) | XInvokeInterface (a b c : Z)
| XInvokeDynamic (a b : Z) | XNew (a : Z) | XNewArray (a : Z) | XANewArray (a : Z)
| XArrayLength | XAThrow | XCheckCast (a : Z) | XInstanceOf (a : Z) | XMonitorEnter
| XMonitorExit | XWide (w : wide) | XMultiANewArray (a b : Z) | XIfNull (a : Z)
| XIfNonNull (a : Z) | XGotoW (a : Z) | XJsrW (a : Z).
(** The variant names, for comparison with the JVMS mnemonics. *)
Definition raw_name (r : raw) : string :=
  match r with
  | XNop => "Nop"
  | XAConstNull => "AConstNull"
  | XIConstM1 => "IConstM1"
  | XIConst0 => "IConst0"
  | XIConst1 => "IConst1"
  | XIConst2 => "IConst2"
  | XIConst3 => "IConst3"
  | XIConst4 => "IConst4"
  | XIConst5 => "IConst5"
  | XLConst0 => "LConst0"
  | XLConst1 => "LConst1"
  | XFConst0 => "FConst0"
  | XFConst1 => "FConst1"
  | XFConst2 => "FConst2"
  | XDConst0 => "DConst0"
  | XDConst1 => "DConst1"
  | XBipush _ => "Bipush"
  | XSipush _ => "Sipush"
  | XLdc _ => "Ldc"
  | XLdcW _ => "LdcW"
  | XLdc2W _ => "Ldc2W"
  | XILoad _ => "ILoad"
  | XLLoad _ => "LLoad"
  | XFLoad _ => "FLoad"
  | XDLoad _ => "DLoad"
  | XALoad _ => "ALoad"
  | XILoad0 => "ILoad0"
  | XILoad1 => "ILoad1"
  | XILoad2 => "ILoad2"
  | XILoad3 => "ILoad3"
  | XLLoad0 => "LLoad0"
  | XLLoad1 => "LLoad1"
  | XLLoad2 => "LLoad2"
  | XLLoad3 => "LLoad3"
  | XFLoad0 => "FLoad0"
  | XFLoad1 => "FLoad1"
  | XFLoad2 => "FLoad2"
  | XFLoad3 => "FLoad3"
  | XDLoad0 => "DLoad0"
  | XDLoad1 => "DLoad1"
  | XDLoad2 => "DLoad2"
  | XDLoad3 => "DLoad3"
  | XALoad0 => "ALoad0"
  | XALoad1 => "ALoad1"
  | XALoad2 => "ALoad2"
  | XALoad3 => "ALoad3"
  | XIALoad => "IALoad"
  | XLALoad => "LALoad"
  | XFALoad => "FALoad"
  | XDALoad => "DALoad"
  | XAALoad => "AALoad"
  | XBALoad => "BALoad"
  | XCALoad => "CALoad"
  | XSALoad => "SALoad"
  | XIStore _ => "IStore"
  | XLStore _ => "LStore"
  | XFStore _ => "FStore"
  | XDStore _ => "DStore"
  | XAStore _ => "AStore"
  | XIStore0 => "IStore0"
  | XIStore1 => "IStore1"
  | XIStore2 => "IStore2"
  | XIStore3 => "IStore3"
  | XLStore0 => "LStore0"
  | XLStore1 => "LStore1"
  | XLStore2 => "LStore2"
  | XLStore3 => "LStore3"
  | XFStore0 => "FStore0"
  | XFStore1 => "FStore1"
  | XFStore2 => "FStore2"
  | XFStore3 => "FStore3"
  | XDStore0 => "DStore0"
  | XDStore1 => "DStore1"
  | XDStore2 => "DStore2"
  | XDStore3 => "DStore3"
  | XAStore0 => "AStore0"
  | XAStore1 => "AStore1"
  | XAStore2 => "AStore2"
  | XAStore3 => "AStore3"
  | XIAStore => "IAStore"
  | XLAStore => "LAStore"
  | XFAStore => "FAStore"
  | XDAStore => "DAStore"
  | XAAStore => "AAStore"
  | XBAStore => "BAStore"
  | XCAStore => "CAStore"
  | XSAStore => "SAStore"
  | XPop => "Pop"
  | XPop2 => "Pop2"
  | XDup => "Dup"
  | XDupx1 => "Dupx1"
  | XDupx2 => "Dupx2"
  | XDup2 => "Dup2"
  | XDup2x1 => "Dup2x1"
  | XDup2x2 => "Dup2x2"
  | XSwap => "Swap"
  | XIAdd => "IAdd"
  | XLAdd => "LAdd"
  | XFAdd => "FAdd"
  | XDAdd => "DAdd"
  | XISub => "ISub"
  | XLSub => "LSub"
  | XFSub => "FSub"
  | XDSub => "DSub"
  | XIMul => "IMul"
  | XLMul => "LMul"
  | XFMul => "FMul"
  | XDMul => "DMul"
  | XIDiv => "IDiv"
  | XLDiv => "LDiv"
  | XFDiv => "FDiv"
  | XDDiv => "DDiv"
  | XIRem => "IRem"
  | XLRem => "LRem"
  | XFRem => "FRem"
  | XDRem => "DRem"
  | XINeg => "INeg"
  | XLNeg => "LNeg"
  | XFNeg => "FNeg"
  | XDNeg => "DNeg"
  | XIShl => "IShl"
  | XLShl => "LShl"
  | XIShr => "IShr"
  | XLShr => "LShr"
  | XIUshr => "IUshr"
  | XLUshr => "LUshr"
  | XIAnd => "IAnd"
  | XLAnd => "LAnd"
  | XIOr => "IOr"
  | XLOr => "LOr"
  | XIXor => "IXor"
  | XLXor => "LXor"
  | XIInc _ _ => "IInc"
  | XI2L => "I2L"
  | XI2F => "I2F"
  | XI2D => "I2D"
  | XL2I => "L2I"
  | XL2F => "L2F"
  | XL2D => "L2D"
  | XF2I => "F2I"
  | XF2L => "F2L"
  | XF2D => "F2D"
  | XD2I => "D2I"
  | XD2L => "D2L"
  | XD2F => "D2F"
  | XI2B => "I2B"
  | XI2C => "I2C"
  | XI2S => "I2S"
  | XLCmp => "LCmp"
  | XFCmpL => "FCmpL"
  | XFCmpG => "FCmpG"
  | XDCmpL => "DCmpL"
  | XDCmpG => "DCmpG"
  | XIfEq _ => "IfEq"
  | XIfNe _ => "IfNe"
  | XIfLt _ => "IfLt"
  | XIfGe _ => "IfGe"
  | XIfGt _ => "IfGt"
  | XIfLe _ => "IfLe"
  | XIfICmpEq _ => "IfICmpEq"
  | XIfICmpNe _ => "IfICmpNe"
  | XIfICmpLt _ => "IfICmpLt"
  | XIfICmpGe _ => "IfICmpGe"
  | XIfICmpGt _ => "IfICmpGt"
  | XIfICmpLe _ => "IfICmpLe"
  | XIfACmpEq _ => "IfACmpEq"
  | XIfACmpNe _ => "IfACmpNe"
  | XGoto _ => "Goto"
  | XJsr _ => "Jsr"
  | XRet _ => "Ret"
  | XTableSwitch _ _ => "TableSwitch"
  | XLookupSwitch _ _ => "LookupSwitch"
  | XIReturn => "IReturn"
  | XLReturn => "LReturn"
  | XFReturn => "FReturn"
  | XDReturn => "DReturn"
  | XAReturn => "AReturn"
  | XReturn => "Return"
  | XGetStatic _ => "GetStatic"
  | XPutStatic _ => "PutStatic"
  | XGetField _ => "GetField"
  | XPutField _ => "PutField"
  | XInvokeVirtual _ => "InvokeVirtual"
  | XInvokeSpecial _ => "InvokeSpecial"
  | XInvokeStatic _ => "InvokeStatic"
  | XInvokeInterface _ _ _ => "InvokeInterface"
  | XInvokeDynamic _ _ => "InvokeDynamic"
  | XNew _ => "New"
  | XNewArray _ => "NewArray"
  | XANewArray _ => "ANewArray"
  | XArrayLength => "ArrayLength"
  | XAThrow => "AThrow"
  | XCheckCast _ => "CheckCast"
  | XInstanceOf _ => "InstanceOf"
  | XMonitorEnter => "MonitorEnter"
  | XMonitorExit => "MonitorExit"
  | XWide _ => "Wide"
  | XMultiANewArray _ _ => "MultiANewArray"
  | XIfNull _ => "IfNull"
  | XIfNonNull _ => "IfNonNull"
  | XGotoW _ => "GotoW"
  | XJsrW _ => "JsrW"
  end%string.
Definition wr_raw_insn : wr raw := fun r =>
  match r with
  | XNop => Ok (be 1 0)
  | XAConstNull => Ok (be 1 1)
  | XIConstM1 => Ok (be 1 2)
  | XIConst0 => Ok (be 1 3)
  | XIConst1 => Ok (be 1 4)
  | XIConst2 => Ok (be 1 5)
  | XIConst3 => Ok (be 1 6)
  | XIConst4 => Ok (be 1 7)
  | XIConst5 => Ok (be 1 8)
  | XLConst0 => Ok (be 1 9)
  | XLConst1 => Ok (be 1 10)
  | XFConst0 => Ok (be 1 11)
  | XFConst1 => Ok (be 1 12)
  | XFConst2 => Ok (be 1 13)
  | XDConst0 => Ok (be 1 14)
  | XDConst1 => Ok (be 1 15)
  | XBipush a => Ok (be 1 16 ++ be 1 a)
  | XSipush a => Ok (be 1 17 ++ be 2 a)
  | XLdc a => Ok (be 1 18 ++ be 1 a)
  | XLdcW a => Ok (be 1 19 ++ be 2 a)
  | XLdc2W a => Ok (be 1 20 ++ be 2 a)
  | XILoad a => Ok (be 1 21 ++ be 1 a)
  | XLLoad a => Ok (be 1 22 ++ be 1 a)
  | XFLoad a => Ok (be 1 23 ++ be 1 a)
  | XDLoad a => Ok (be 1 24 ++ be 1 a)
  | XALoad a => Ok (be 1 25 ++ be 1 a)
  | XILoad0 => Ok (be 1 26)
  | XILoad1 => Ok (be 1 27)
  | XILoad2 => Ok (be 1 28)
  | XILoad3 => Ok (be 1 29)
  | XLLoad0 => Ok (be 1 30)
  | XLLoad1 => Ok (be 1 31)
  | XLLoad2 => Ok (be 1 32)
  | XLLoad3 => Ok (be 1 33)
  | XFLoad0 => Ok (be 1 34)
  | XFLoad1 => Ok (be 1 35)
  | XFLoad2 => Ok (be 1 36)
  | XFLoad3 => Ok (be 1 37)
  | XDLoad0 => Ok (be 1 38)
  | XDLoad1 => Ok (be 1 39)
  | XDLoad2 => Ok (be 1 40)
  | XDLoad3 => Ok (be 1 41)
  | XALoad0 => Ok (be 1 42)
  | XALoad1 => Ok (be 1 43)
  | XALoad2 => Ok (be 1 44)
  | XALoad3 => Ok (be 1 45)
  | XIALoad => Ok (be 1 46)
  | XLALoad => Ok (be 1 47)
  | XFALoad => Ok (be 1 48)
  | XDALoad => Ok (be 1 49)
  | XAALoad => Ok (be 1 50)
  | XBALoad => Ok (be 1 51)
  | XCALoad => Ok (be 1 52)
  | XSALoad => Ok (be 1 53)
  | XIStore a => Ok (be 1 54 ++ be 1 a)
  | XLStore a => Ok (be 1 55 ++ be 1 a)
  | XFStore a => Ok (be 1 56 ++ be 1 a)
  | XDStore a => Ok (be 1 57 ++ be 1 a)
  | XAStore a => Ok (be 1 58 ++ be 1 a)
  | XIStore0 => Ok (be 1 59)
  | XIStore1 => Ok (be 1 60)
  | XIStore2 => Ok (be 1 61)
  | XIStore3 => Ok (be 1 62)
  | XLStore0 => Ok (be 1 63)
  | XLStore1 => Ok (be 1 64)
  | XLStore2 => Ok (be 1 65)
  | XLStore3 => Ok (be 1 66)
  | XFStore0 => Ok (be 1 67)
  | XFStore1 => Ok (be 1 68)
  | XFStore2 => Ok (be 1 69)
  | XFStore3 => Ok (be 1 70)
  | XDStore0 => Ok (be 1 71)
  | XDStore1 => Ok (be 1 72)
  | XDStore2 => Ok (be 1 73)
  | XDStore3 => Ok (be 1 74)
  | XAStore0 => Ok (be 1 75)
  | XAStore1 => Ok (be 1 76)
  | XAStore2 => Ok (be 1 77)
  | XAStore3 => Ok (be 1 78)
  | XIAStore => Ok (be 1 79)
  | XLAStore => Ok (be 1 80)
  | XFAStore => Ok (be 1 81)
  | XDAStore => Ok (be 1 82)
  | XAAStore => Ok (be 1 83)
  | XBAStore => Ok (be 1 84)
  | XCAStore => Ok (be 1 85)
  | XSAStore => Ok (be 1 86)
  | XPop => Ok (be 1 87)
  | XPop2 => Ok (be 1 88)
  | XDup => Ok (be 1 89)
  | XDupx1 => Ok (be 1 90)
  | XDupx2 => Ok (be 1 91)
  | XDup2 => Ok (be 1 92)
  | XDup2x1 => Ok (be 1 93)
  | XDup2x2 => Ok (be 1 94)
  | XSwap => Ok (be 1 95)
  | XIAdd => Ok (be 1 96)
  | XLAdd => Ok (be 1 97)
  | XFAdd => Ok (be 1 98)
  | XDAdd => Ok (be 1 99)
  | XISub => Ok (be 1 100)
  | XLSub => Ok (be 1 101)
  | XFSub => Ok (be 1 102)
  | XDSub => Ok (be 1 103)
  | XIMul => Ok (be 1 104)
  | XLMul => Ok (be 1 105)
  | XFMul => Ok (be 1 106)
  | XDMul => Ok (be 1 107)
  | XIDiv => Ok (be 1 108)
  | XLDiv => Ok (be 1 109)
  | XFDiv => Ok (be 1 110)
  | XDDiv => Ok (be 1 111)
  | XIRem => Ok (be 1 112)
  | XLRem => Ok (be 1 113)
  | XFRem => Ok (be 1 114)
  | XDRem => Ok (be 1 115)
  | XINeg => Ok (be 1 116)
  | XLNeg => Ok (be 1 117)
  | XFNeg => Ok (be 1 118)
  | XDNeg => Ok (be 1 119)
  | XIShl => Ok (be 1 120)
  | XLShl => Ok (be 1 121)
  | XIShr => Ok (be 1 122)
  | XLShr => Ok (be 1 123)
  | XIUshr => Ok (be 1 124)
  | XLUshr => Ok (be 1 125)
  | XIAnd => Ok (be 1 126)
  | XLAnd => Ok (be 1 127)
  | XIOr => Ok (be 1 128)
  | XLOr => Ok (be 1 129)
  | XIXor => Ok (be 1 130)
  | XLXor => Ok (be 1 131)
  | XIInc a b => Ok (be 1 132 ++ be 1 a ++ be 1 b)
  | XI2L => Ok (be 1 133)
  | XI2F => Ok (be 1 134)
  | XI2D => Ok (be 1 135)
  | XL2I => Ok (be 1 136)
  | XL2F => Ok (be 1 137)
  | XL2D => Ok (be 1 138)
  | XF2I => Ok (be 1 139)
  | XF2L => Ok (be 1 140)
  | XF2D => Ok (be 1 141)
  | XD2I => Ok (be 1 142)
  | XD2L => Ok (be 1 143)
  | XD2F => Ok (be 1 144)
  | XI2B => Ok (be 1 145)
  | XI2C => Ok (be 1 146)
  | XI2S => Ok (be 1 147)
  | XLCmp => Ok (be 1 148)
  | XFCmpL => Ok (be 1 149)
  | XFCmpG => Ok (be 1 150)
  | XDCmpL => Ok (be 1 151)
  | XDCmpG => Ok (be 1 152)
  | XIfEq a => Ok (be 1 153 ++ be 2 a)
  | XIfNe a => Ok (be 1 154 ++ be 2 a)
  | XIfLt a => Ok (be 1 155 ++ be 2 a)
  | XIfGe a => Ok (be 1 156 ++ be 2 a)
  | XIfGt a => Ok (be 1 157 ++ be 2 a)
  | XIfLe a => Ok (be 1 158 ++ be 2 a)
  | XIfICmpEq a => Ok (be 1 159 ++ be 2 a)
  | XIfICmpNe a => Ok (be 1 160 ++ be 2 a)
  | XIfICmpLt a => Ok (be 1 161 ++ be 2 a)
  | XIfICmpGe a => Ok (be 1 162 ++ be 2 a)
  | XIfICmpGt a => Ok (be 1 163 ++ be 2 a)
  | XIfICmpLe a => Ok (be 1 164 ++ be 2 a)
  | XIfACmpEq a => Ok (be 1 165 ++ be 2 a)
  | XIfACmpNe a => Ok (be 1 166 ++ be 2 a)
  | XGoto a => Ok (be 1 167 ++ be 2 a)
  | XJsr a => Ok (be 1 168 ++ be 2 a)
  | XRet a => Ok (be 1 169 ++ be 1 a)
  | XTableSwitch d t => Ok (be 1 170 ++ be 4 d ++ wr_table t)
  | XLookupSwitch d es => b <- wr_vec 4 wr_switch_entry es ;; Ok (be 1 171 ++ be 4 d ++ b)
  | XIReturn => Ok (be 1 172)
  | XLReturn => Ok (be 1 173)
  | XFReturn => Ok (be 1 174)
  | XDReturn => Ok (be 1 175)
  | XAReturn => Ok (be 1 176)
  | XReturn => Ok (be 1 177)
  | XGetStatic a => Ok (be 1 178 ++ be 2 a)
  | XPutStatic a => Ok (be 1 179 ++ be 2 a)
  | XGetField a => Ok (be 1 180 ++ be 2 a)
  | XPutField a => Ok (be 1 181 ++ be 2 a)
  | XInvokeVirtual a => Ok (be 1 182 ++ be 2 a)
  | XInvokeSpecial a => Ok (be 1 183 ++ be 2 a)
  | XInvokeStatic a => Ok (be 1 184 ++ be 2 a)
  | XInvokeInterface a b c => Ok (be 1 185 ++ be 2 a ++ be 1 b ++ be 1 c)
  | XInvokeDynamic a b => Ok (be 1 186 ++ be 2 a ++ be 2 b)
  | XNew a => Ok (be 1 187 ++ be 2 a)
  | XNewArray a => Ok (be 1 188 ++ be 1 a)
  | XANewArray a => Ok (be 1 189 ++ be 2 a)
  | XArrayLength => Ok (be 1 190)
  | XAThrow => Ok (be 1 191)
  | XCheckCast a => Ok (be 1 192 ++ be 2 a)
  | XInstanceOf a => Ok (be 1 193 ++ be 2 a)
  | XMonitorEnter => Ok (be 1 194)
  | XMonitorExit => Ok (be 1 195)
  | XWide w => Ok (be 1 196 ++ wr_wide w)
  | XMultiANewArray a b => Ok (be 1 197 ++ be 2 a ++ be 1 b)
  | XIfNull a => Ok (be 1 198 ++ be 2 a)
  | XIfNonNull a => Ok (be 1 199 ++ be 2 a)
  | XGotoW a => Ok (be 1 200 ++ be 4 a)
  | XJsrW a => Ok (be 1 201 ++ be 4 a)
  end.
Definition rd_raw_op (md : mode) (op : Z) : rd raw := fun l =>
  match op with
  | 0 => Ok (XNop, l)
  | 1 => Ok (XAConstNull, l)
  | 2 => Ok (XIConstM1, l)
  | 3 => Ok (XIConst0, l)
  | 4 => Ok (XIConst1, l)
  | 5 => Ok (XIConst2, l)
  | 6 => Ok (XIConst3, l)
  | 7 => Ok (XIConst4, l)
  | 8 => Ok (XIConst5, l)
  | 9 => Ok (XLConst0, l)
  | 10 => Ok (XLConst1, l)
  | 11 => Ok (XFConst0, l)
  | 12 => Ok (XFConst1, l)
  | 13 => Ok (XFConst2, l)
  | 14 => Ok (XDConst0, l)
  | 15 => Ok (XDConst1, l)
  | 16 => '(a, l) <- rd_i8 l ;; Ok (XBipush a, l)
  | 17 => '(a, l) <- rd_i16 l ;; Ok (XSipush a, l)
  | 18 => '(a, l) <- rd_u8 l ;; Ok (XLdc a, l)
  | 19 => '(a, l) <- rd_u16 l ;; Ok (XLdcW a, l)
  | 20 => '(a, l) <- rd_u16 l ;; Ok (XLdc2W a, l)
  | 21 => '(a, l) <- rd_u8 l ;; Ok (XILoad a, l)
  | 22 => '(a, l) <- rd_u8 l ;; Ok (XLLoad a, l)
  | 23 => '(a, l) <- rd_u8 l ;; Ok (XFLoad a, l)
  | 24 => '(a, l) <- rd_u8 l ;; Ok (XDLoad a, l)
  | 25 => '(a, l) <- rd_u8 l ;; Ok (XALoad a, l)
  | 26 => Ok (XILoad0, l)
  | 27 => Ok (XILoad1, l)
  | 28 => Ok (XILoad2, l)
  | 29 => Ok (XILoad3, l)
  | 30 => Ok (XLLoad0, l)
  | 31 => Ok (XLLoad1, l)
  | 32 => Ok (XLLoad2, l)
  | 33 => Ok (XLLoad3, l)
  | 34 => Ok (XFLoad0, l)
  | 35 => Ok (XFLoad1, l)
  | 36 => Ok (XFLoad2, l)
  | 37 => Ok (XFLoad3, l)
  | 38 => Ok (XDLoad0, l)
  | 39 => Ok (XDLoad1, l)
  | 40 => Ok (XDLoad2, l)
  | 41 => Ok (XDLoad3, l)
  | 42 => Ok (XALoad0, l)
  | 43 => Ok (XALoad1, l)
  | 44 => Ok (XALoad2, l)
  | 45 => Ok (XALoad3, l)
  | 46 => Ok (XIALoad, l)
  | 47 => Ok (XLALoad, l)
  | 48 => Ok (XFALoad, l)
  | 49 => Ok (XDALoad, l)
  | 50 => Ok (XAALoad, l)
  | 51 => Ok (XBALoad, l)
  | 52 => Ok (XCALoad, l)
  | 53 => Ok (XSALoad, l)
  | 54 => '(a, l) <- rd_u8 l ;; Ok (XIStore a, l)
  | 55 => '(a, l) <- rd_u8 l ;; Ok (XLStore a, l)
  | 56 => '(a, l) <- rd_u8 l ;; Ok (XFStore a, l)
  | 57 => '(a, l) <- rd_u8 l ;; Ok (XDStore a, l)
  | 58 => '(a, l) <- rd_u8 l ;; Ok (XAStore a, l)
  | 59 => Ok (XIStore0, l)
  | 60 => Ok (XIStore1, l)
  | 61 => Ok (XIStore2, l)
  | 62 => Ok (XIStore3, l)
  | 63 => Ok (XLStore0, l)
  | 64 => Ok (XLStore1, l)
  | 65 => Ok (XLStore2, l)
  | 66 => Ok (XLStore3, l)
  | 67 => Ok (XFStore0, l)
  | 68 => Ok (XFStore1, l)
  | 69 => Ok (XFStore2, l)
  | 70 => Ok (XFStore3, l)
  | 71 => Ok (XDStore0, l)
  | 72 => Ok (XDStore1, l)
  | 73 => Ok (XDStore2, l)
  | 74 => Ok (XDStore3, l)
  | 75 => Ok (XAStore0, l)
  | 76 => Ok (XAStore1, l)
  | 77 => Ok (XAStore2, l)
  | 78 => Ok (XAStore3, l)
  | 79 => Ok (XIAStore, l)
  | 80 => Ok (XLAStore, l)
  | 81 => Ok (XFAStore, l)
  | 82 => Ok (XDAStore, l)
  | 83 => Ok (XAAStore, l)
  | 84 => Ok (XBAStore, l)
  | 85 => Ok (XCAStore, l)
  | 86 => Ok (XSAStore, l)
  | 87 => Ok (XPop, l)
  | 88 => Ok (XPop2, l)
  | 89 => Ok (XDup, l)
  | 90 => Ok (XDupx1, l)
  | 91 => Ok (XDupx2, l)
  | 92 => Ok (XDup2, l)
  | 93 => Ok (XDup2x1, l)
  | 94 => Ok (XDup2x2, l)
  | 95 => Ok (XSwap, l)
  | 96 => Ok (XIAdd, l)
  | 97 => Ok (XLAdd, l)
  | 98 => Ok (XFAdd, l)
  | 99 => Ok (XDAdd, l)
  | 100 => Ok (XISub, l)
  | 101 => Ok (XLSub, l)
  | 102 => Ok (XFSub, l)
  | 103 => Ok (XDSub, l)
  | 104 => Ok (XIMul, l)
  | 105 => Ok (XLMul, l)
  | 106 => Ok (XFMul, l)
  | 107 => Ok (XDMul, l)
  | 108 => Ok (XIDiv, l)
  | 109 => Ok (XLDiv, l)
  | 110 => Ok (XFDiv, l)
  | 111 => Ok (XDDiv, l)
  | 112 => Ok (XIRem, l)
  | 113 => Ok (XLRem, l)
  | 114 => Ok (XFRem, l)
  | 115 => Ok (XDRem, l)
  | 116 => Ok (XINeg, l)
  | 117 => Ok (XLNeg, l)
  | 118 => Ok (XFNeg, l)
  | 119 => Ok (XDNeg, l)
  | 120 => Ok (XIShl, l)
  | 121 => Ok (XLShl, l)
  | 122 => Ok (XIShr, l)
  | 123 => Ok (XLShr, l)
  | 124 => Ok (XIUshr, l)
  | 125 => Ok (XLUshr, l)
  | 126 => Ok (XIAnd, l)
  | 127 => Ok (XLAnd, l)
  | 128 => Ok (XIOr, l)
  | 129 => Ok (XLOr, l)
  | 130 => Ok (XIXor, l)
  | 131 => Ok (XLXor, l)
  | 132 => '(a, l) <- rd_u8 l ;; '(b, l) <- rd_i8 l ;; Ok (XIInc a b, l)
  | 133 => Ok (XI2L, l)
  | 134 => Ok (XI2F, l)
  | 135 => Ok (XI2D, l)
  | 136 => Ok (XL2I, l)
  | 137 => Ok (XL2F, l)
  | 138 => Ok (XL2D, l)
  | 139 => Ok (XF2I, l)
  | 140 => Ok (XF2L, l)
  | 141 => Ok (XF2D, l)
  | 142 => Ok (XD2I, l)
  | 143 => Ok (XD2L, l)
  | 144 => Ok (XD2F, l)
  | 145 => Ok (XI2B, l)
  | 146 => Ok (XI2C, l)
  | 147 => Ok (XI2S, l)
  | 148 => Ok (XLCmp, l)
  | 149 => Ok (XFCmpL, l)
  | 150 => Ok (XFCmpG, l)
  | 151 => Ok (XDCmpL, l)
  | 152 => Ok (XDCmpG, l)
  | 153 => '(a, l) <- rd_i16 l ;; Ok (XIfEq a, l)
  | 154 => '(a, l) <- rd_i16 l ;; Ok (XIfNe a, l)
  | 155 => '(a, l) <- rd_i16 l ;; Ok (XIfLt a, l)
  | 156 => '(a, l) <- rd_i16 l ;; Ok (XIfGe a, l)
  | 157 => '(a, l) <- rd_i16 l ;; Ok (XIfGt a, l)
  | 158 => '(a, l) <- rd_i16 l ;; Ok (XIfLe a, l)
  | 159 => '(a, l) <- rd_i16 l ;; Ok (XIfICmpEq a, l)
  | 160 => '(a, l) <- rd_i16 l ;; Ok (XIfICmpNe a, l)
  | 161 => '(a, l) <- rd_i16 l ;; Ok (XIfICmpLt a, l)
  | 162 => '(a, l) <- rd_i16 l ;; Ok (XIfICmpGe a, l)
  | 163 => '(a, l) <- rd_i16 l ;; Ok (XIfICmpGt a, l)
  | 164 => '(a, l) <- rd_i16 l ;; Ok (XIfICmpLe a, l)
  | 165 => '(a, l) <- rd_i16 l ;; Ok (XIfACmpEq a, l)
  | 166 => '(a, l) <- rd_i16 l ;; Ok (XIfACmpNe a, l)
  | 167 => '(a, l) <- rd_i16 l ;; Ok (XGoto a, l)
  | 168 => '(a, l) <- rd_i16 l ;; Ok (XJsr a, l)
  | 169 => '(a, l) <- rd_u8 l ;; Ok (XRet a, l)
  | 170 => '(d, l) <- rd_i32 l ;; '(t, l) <- rd_table md l ;; Ok (XTableSwitch d t, l)
  | 171 => '(d, l) <- rd_i32 l ;; '(es, l) <- rd_vec 4 rd_switch_entry l ;; Ok (XLookupSwitch d es, l)
  | 172 => Ok (XIReturn, l)
  | 173 => Ok (XLReturn, l)
  | 174 => Ok (XFReturn, l)
  | 175 => Ok (XDReturn, l)
  | 176 => Ok (XAReturn, l)
  | 177 => Ok (XReturn, l)
  | 178 => '(a, l) <- rd_u16 l ;; Ok (XGetStatic a, l)
  | 179 => '(a, l) <- rd_u16 l ;; Ok (XPutStatic a, l)
  | 180 => '(a, l) <- rd_u16 l ;; Ok (XGetField a, l)
  | 181 => '(a, l) <- rd_u16 l ;; Ok (XPutField a, l)
  | 182 => '(a, l) <- rd_u16 l ;; Ok (XInvokeVirtual a, l)
  | 183 => '(a, l) <- rd_u16 l ;; Ok (XInvokeSpecial a, l)
  | 184 => '(a, l) <- rd_u16 l ;; Ok (XInvokeStatic a, l)
  | 185 => '(a, l) <- rd_u16 l ;; '(b, l) <- rd_u8 l ;; '(c, l) <- rd_u8 l ;; Ok (XInvokeInterface a b c, l)
  | 186 => '(a, l) <- rd_u16 l ;; '(b, l) <- rd_u16 l ;; Ok (XInvokeDynamic a b, l)
  | 187 => '(a, l) <- rd_u16 l ;; Ok (XNew a, l)
  | 188 => '(a, l) <- rd_u8 l ;; Ok (XNewArray a, l)
  | 189 => '(a, l) <- rd_u16 l ;; Ok (XANewArray a, l)
  | 190 => Ok (XArrayLength, l)
  | 191 => Ok (XAThrow, l)
  | 192 => '(a, l) <- rd_u16 l ;; Ok (XCheckCast a, l)
  | 193 => '(a, l) <- rd_u16 l ;; Ok (XInstanceOf a, l)
  | 194 => Ok (XMonitorEnter, l)
  | 195 => Ok (XMonitorExit, l)
  | 196 => '(w, l) <- rd_wide l ;; Ok (XWide w, l)
  | 197 => '(a, l) <- rd_u16 l ;; '(b, l) <- rd_u8 l ;; Ok (XMultiANewArray a b, l)
  | 198 => '(a, l) <- rd_i16 l ;; Ok (XIfNull a, l)
  | 199 => '(a, l) <- rd_i16 l ;; Ok (XIfNonNull a, l)
  | 200 => '(a, l) <- rd_i32 l ;; Ok (XGotoW a, l)
  | 201 => '(a, l) <- rd_i32 l ;; Ok (XJsrW a, l)
  | _ => Err EInvalid
  end.
Definition rd_raw_insn (md : mode) : rd raw := fun l =>
  '(op, l) <- rd_u8 l ;; rd_raw_op md op l.

(** * High-level instructions *)

(** src/code/structure.rs 30-243. *)
Inductive fty : Type := FtDouble | FtFloat.
Inductive nanb : Type := NanReturnsOne | NanReturnsNegativeOne.
Inductive jcond : Type :=
| JcReferenceEquals | JcReferenceNotEquals | JcIntegerEquals | JcIntegerNotEquals
| JcIntegerLessThan | JcIntegerGreaterThan | JcIntegerLessThanOrEquals
| JcIntegerGreaterThanOrEquals | JcIntegerEqualsZero | JcIntegerNotEqualsZero
| JcIntegerLessThanZero | JcIntegerGreaterThanZero | JcIntegerLessThanOrEqualsZero
| JcIntegerGreaterThanOrEqualsZero | JcIsNull | JcIsNonNull | JcAlways.
Inductive lors : Type := LsLoad | LsStore.
Inductive gorp : Type := GpGet | GpPut.
Inductive memty : Type := MtStatic | MtVirtual.
Inductive lty : Type := LtInt | LtLong | LtFloat | LtDouble | LtReference.
Inductive aty : Type :=
| AtByteOrBool | AtShort | AtChar | AtInt | AtLong | AtFloat | AtDouble | AtReference.
Inductive nty : Type := NtInt | NtLong | NtFloat | NtDouble.
Inductive bty : Type := BtByte | BtShort | BtChar | BtInt | BtLong | BtFloat | BtDouble.
Inductive ity : Type := ItInt | ItLong.
Inductive fop : Type := FoDivide | FoAdd | FoSubtract | FoMultiply | FoRemainder | FoNegate.
Inductive iop : Type :=
| IoDivide | IoAdd | IoSubtract | IoMultiply | IoRemainder | IoNegate | IoExclusiveOr | IoOr
| IoAnd | IoShiftLeft | IoShiftRight | IoUnsignedShiftRight.
Inductive mop : Type := MoEnter | MoExit.
(** structure.rs 245-258 [ClassType] and its conversion to a class name. *)
Inductive ctype : Type := CtObject (s : list Z) | CtArray (dim : Z) (t : ty).
Definition ctype_name (c : ctype) : res (list Z) :=
  match c with
  | CtObject s => Ok s
  | CtArray dim t => s <- display_type t ;; Ok (repeat 91 (Z.to_nat dim) ++ s)
  end.

(** Opcodes: src/constants/insn.rs 7-208. *)
Notation NOP := 0 (only parsing).
Notation ACONST_NULL := 1 (only parsing).
Notation ICONST_M1 := 2 (only parsing).
Notation ICONST_0 := 3 (only parsing).
Notation ICONST_1 := 4 (only parsing).
Notation ICONST_2 := 5 (only parsing).
Notation ICONST_3 := 6 (only parsing).
Notation ICONST_4 := 7 (only parsing).
Notation ICONST_5 := 8 (only parsing).
Notation LCONST_0 := 9 (only parsing).
Notation LCONST_1 := 10 (only parsing).
Notation FCONST_0 := 11 (only parsing).
Notation FCONST_1 := 12 (only parsing).
Notation FCONST_2 := 13 (only parsing).
Notation DCONST_0 := 14 (only parsing).
Notation DCONST_1 := 15 (only parsing).
Notation BIPUSH := 16 (only parsing).
Notation SIPUSH := 17 (only parsing).
Notation LDC := 18 (only parsing).
Notation LDC_W := 19 (only parsing).
Notation LDC2_W := 20 (only parsing).
Notation ILOAD := 21 (only parsing).
Notation LLOAD := 22 (only parsing).
Notation FLOAD := 23 (only parsing).
Notation DLOAD := 24 (only parsing).
Notation ALOAD := 25 (only parsing).
Notation IALOAD := 46 (only parsing).
Notation LALOAD := 47 (only parsing).
Notation FALOAD := 48 (only parsing).
Notation DALOAD := 49 (only parsing).
Notation AALOAD := 50 (only parsing).
Notation BALOAD := 51 (only parsing).
Notation CALOAD := 52 (only parsing).
Notation SALOAD := 53 (only parsing).
Notation ISTORE := 54 (only parsing).
Notation LSTORE := 55 (only parsing).
Notation FSTORE := 56 (only parsing).
Notation DSTORE := 57 (only parsing).
Notation ASTORE := 58 (only parsing).
Notation IASTORE := 79 (only parsing).
Notation LASTORE := 80 (only parsing).
Notation FASTORE := 81 (only parsing).
Notation DASTORE := 82 (only parsing).
Notation AASTORE := 83 (only parsing).
Notation BASTORE := 84 (only parsing).
Notation CASTORE := 85 (only parsing).
Notation SASTORE := 86 (only parsing).
Notation POP := 87 (only parsing).
Notation POP2 := 88 (only parsing).
Notation DUP := 89 (only parsing).
Notation DUP_X1 := 90 (only parsing).
Notation DUP_X2 := 91 (only parsing).
Notation DUP2 := 92 (only parsing).
Notation DUP2_X1 := 93 (only parsing).
Notation DUP2_X2 := 94 (only parsing).
Notation SWAP := 95 (only parsing).
Notation IADD := 96 (only parsing).
Notation LADD := 97 (only parsing).
Notation FADD := 98 (only parsing).
Notation DADD := 99 (only parsing).
Notation ISUB := 100 (only parsing).
Notation LSUB := 101 (only parsing).
Notation FSUB := 102 (only parsing).
Notation DSUB := 103 (only parsing).
Notation IMUL := 104 (only parsing).
Notation LMUL := 105 (only parsing).
Notation FMUL := 106 (only parsing).
Notation DMUL := 107 (only parsing).
Notation IDIV := 108 (only parsing).
Notation LDIV := 109 (only parsing).
Notation FDIV := 110 (only parsing).
Notation DDIV := 111 (only parsing).
Notation IREM := 112 (only parsing).
Notation LREM := 113 (only parsing).
Notation FREM := 114 (only parsing).
Notation DREM := 115 (only parsing).
Notation INEG := 116 (only parsing).
Notation LNEG := 117 (only parsing).
Notation FNEG := 118 (only parsing).
Notation DNEG := 119 (only parsing).
Notation ISHL := 120 (only parsing).
Notation LSHL := 121 (only parsing).
Notation ISHR := 122 (only parsing).
Notation LSHR := 123 (only parsing).
Notation IUSHR := 124 (only parsing).
Notation LUSHR := 125 (only parsing).
Notation IAND := 126 (only parsing).
Notation LAND := 127 (only parsing).
Notation IOR := 128 (only parsing).
Notation LOR := 129 (only parsing).
Notation IXOR := 130 (only parsing).
Notation LXOR := 131 (only parsing).
Notation IINC := 132 (only parsing).
Notation I2L := 133 (only parsing).
Notation I2F := 134 (only parsing).
Notation I2D := 135 (only parsing).
Notation L2I := 136 (only parsing).
Notation L2F := 137 (only parsing).
Notation L2D := 138 (only parsing).
Notation F2I := 139 (only parsing).
Notation F2L := 140 (only parsing).
Notation F2D := 141 (only parsing).
Notation D2I := 142 (only parsing).
Notation D2L := 143 (only parsing).
Notation D2F := 144 (only parsing).
Notation I2B := 145 (only parsing).
Notation I2C := 146 (only parsing).
Notation I2S := 147 (only parsing).
Notation LCMP := 148 (only parsing).
Notation FCMPL := 149 (only parsing).
Notation FCMPG := 150 (only parsing).
Notation DCMPL := 151 (only parsing).
Notation DCMPG := 152 (only parsing).
Notation IFEQ := 153 (only parsing).
Notation IFNE := 154 (only parsing).
Notation IFLT := 155 (only parsing).
Notation IFGE := 156 (only parsing).
Notation IFGT := 157 (only parsing).
Notation IFLE := 158 (only parsing).
Notation IFICMPEQ := 159 (only parsing).
Notation IFICMPNE := 160 (only parsing).
Notation IFICMPLT := 161 (only parsing).
Notation IFICMPGE := 162 (only parsing).
Notation IFICMPGT := 163 (only parsing).
Notation IFICMPLE := 164 (only parsing).
Notation IFACMPEQ := 165 (only parsing).
Notation IFACMPNE := 166 (only parsing).
Notation GOTO := 167 (only parsing).
Notation JSR := 168 (only parsing).
Notation RET := 169 (only parsing).
Notation TABLESWITCH := 170 (only parsing).
Notation LOOKUPSWITCH := 171 (only parsing).
Notation IRETURN := 172 (only parsing).
Notation LRETURN := 173 (only parsing).
Notation FRETURN := 174 (only parsing).
Notation DRETURN := 175 (only parsing).
Notation ARETURN := 176 (only parsing).
Notation RETURN := 177 (only parsing).
Notation GETSTATIC := 178 (only parsing).
Notation GETFIELD := 180 (only parsing).
Notation PUTFIELD := 181 (only parsing).
Notation INVOKEVIRTUAL := 182 (only parsing).
Notation INVOKESPECIAL := 183 (only parsing).
Notation INVOKESTATIC := 184 (only parsing).
Notation INVOKEINTERFACE := 185 (only parsing).
Notation INVOKEDYNAMIC := 186 (only parsing).
Notation NEW := 187 (only parsing).
Notation ARRAYLENGTH := 190 (only parsing).
Notation ATHROW := 191 (only parsing).
Notation CHECKCAST := 192 (only parsing).
Notation INSTANCEOF := 193 (only parsing).
Notation MONITORENTER := 194 (only parsing).
Notation MONITOREXIT := 195 (only parsing).
Notation WIDE := 196 (only parsing).
Notation IFNULL := 198 (only parsing).
Notation IFNONNULL := 199 (only parsing).
Notation GOTO_W := 200 (only parsing).
Notation JSR_W := 201 (only parsing).

(** structure.rs 88-111 [From<JumpCondition> for u8]. *)
Definition jcond_op (c : jcond) : Z :=
  match c with
  | JcReferenceEquals => IFACMPEQ
  | JcReferenceNotEquals => IFACMPNE
  | JcIntegerEquals => IFICMPEQ
  | JcIntegerNotEquals => IFICMPNE
  | JcIntegerLessThan => IFICMPLT
  | JcIntegerGreaterThan => IFICMPGT
  | JcIntegerLessThanOrEquals => IFICMPLE
  | JcIntegerGreaterThanOrEquals => IFICMPGE
  | JcIntegerEqualsZero => IFEQ
  | JcIntegerNotEqualsZero => IFNE
  | JcIntegerLessThanZero => IFLT
  | JcIntegerGreaterThanZero => IFGT
  | JcIntegerLessThanOrEqualsZero => IFLE
  | JcIntegerGreaterThanOrEqualsZero => IFGE
  | JcIsNull => IFNULL
  | JcIsNonNull => IFNONNULL
  | JcAlways => GOTO
  end.
(** structure.rs 113-138 [Neg for JumpCondition]. *)
Definition jcond_neg (c : jcond) : option jcond :=
  match c with
  | JcReferenceEquals => Some JcReferenceNotEquals
  | JcReferenceNotEquals => Some JcReferenceEquals
  | JcIntegerNotEquals => Some JcIntegerEquals
  | JcIntegerEquals => Some JcIntegerNotEquals
  | JcIntegerLessThan => Some JcIntegerGreaterThanOrEquals
  | JcIntegerGreaterThan => Some JcIntegerLessThanOrEquals
  | JcIntegerLessThanOrEquals => Some JcIntegerGreaterThan
  | JcIntegerGreaterThanOrEquals => Some JcIntegerLessThan
  | JcIntegerEqualsZero => Some JcIntegerNotEqualsZero
  | JcIntegerNotEqualsZero => Some JcIntegerEqualsZero
  | JcIntegerLessThanZero => Some JcIntegerGreaterThanOrEqualsZero
  | JcIntegerGreaterThanZero => Some JcIntegerLessThanOrEqualsZero
  | JcIntegerLessThanOrEqualsZero => Some JcIntegerGreaterThanZero
  | JcIntegerGreaterThanOrEqualsZero => Some JcIntegerLessThanZero
  | JcIsNull => Some JcIsNonNull
  | JcIsNonNull => Some JcIsNull
  | JcAlways => None
  end.

(** structure.rs 272-325 [Instruction]; labels are their u32, the [IndexMap] of
    [LookupSwitch] is its list of entries in order. *)
Inductive insn : Type :=
| INoOp | IPushNull | IPush (c : ordyn constant)
| IDup | IDupX1 | IDupX2 | IDup2 | IDup2X1 | IDup2X2 | IPop1 | IPop2
| IJump (c : jcond) (l : Z)
| ICompareLongs | ICompareFloats (t : fty) (n : nanb)
| ILocalVariable (o : lors) (t : lty) (i : Z)
| IArray (o : lors) (t : aty) | IArrayLength
| IIntOperation (t : ity) (o : iop) | IFloatOperation (t : fty) (o : fop)
| IThrow | ICheckCast (c : ordyn ctype) | IInstanceOf (c : ordyn ctype)
| INewArray (t : ordyn ty) (dim : Z)
| IMonitor (o : mop) | INew (c : ordyn (list Z))
| IConversion (a b : nty) | IConvertInt (t : bty)
| IReturn (t : option lty)
| IField (o : gorp) (k : memty) (m : ordyn member)
| IInvokeExact (k : memty) (m : ordyn member)
| IInvokeSpecial (m : ordyn member)
| IInvokeDynamic (d : dynamic)
| IInvokeInterface (m : ordyn member) (count : Z)
| IJsr (l : Z) | IRet (i : Z) | ISwap | IIntIncrement (i v : Z)
| ILineNumber (n : Z)
| ITableSwitch (dflt low : Z) (ls : list Z)
| ILookupSwitch (dflt : Z) (t : list (Z * Z))
| ILabel (l : Z).

(** The f32/f64 constants with an opcode of their own, as bits. *)
Definition f32_1 : Z := 0x3f800000.
Definition f32_2 : Z := 0x40000000.
Definition f64_1 : Z := 0x3ff0000000000000.

(** * Reading: convert.rs 18-413 [convert_direct_instruction] *)

(** src/rw.rs 265-275 [read_or_dynamic]: a dynamic constant first. *)
Definition read_ordyn {A} (md : mode) (p : pool) (f : Z -> res (option A)) (i : Z) (s : rst)
  : res (option (ordyn A) * rst) :=
  '(d, s) <- read_dynamic md p i s ;;
  match d with
  | Some d => Ok (Some (Dyn d), s)
  | None => a <- f i ;; Ok (option_map Stat a, s)
  end.
Definition with_refs (s : cst) (r : rst) : cst :=
  {| k_refs := r; k_labels := k_labels s; k_catches := k_catches s |}.
(** [try_cp_read!(i, labeler.read_or_dynamic(i, f))?] *)
Definition conv_ordyn {A} (md : mode) (p : pool) (f : Z -> res (option A)) (i : Z) (s : cst)
  : res (ordyn A * cst) :=
  '(o, r) <- read_ordyn md p f i (k_refs s) ;;
  match o with Some a => Ok (a, with_refs s r) | None => Err EInvalid end.
Definition conv_member (md : mode) (p : pool) (i : Z) (s : cst) : res (ordyn member * cst) :=
  conv_ordyn md p (read_member md p) i s.
(** src/rw.rs 255-257 [read_class] *)
Definition conv_class (md : mode) (p : pool) (i : Z) (s : cst) : res (ordyn (list Z) * cst) :=
  conv_ordyn md p (fun i => Ok (read_indirect_str 7 p i)) i s.
(** convert.rs 75-77: [read_constant] only. *)
Definition conv_constant (md : mode) (p : pool) (i : Z) (s : cst) : res (insn * cst) :=
  k <- read_constant md p i ;;
  match k with Some k => Ok (IPush (Stat k), s) | None => Err EInvalid end.
(** convert.rs 348-366: [parse_type(&c).unwrap_or(Type::Ref(c))]. *)
Definition conv_elem (md : mode) (p : pool) (i dim : Z) (s : cst) : res (insn * cst) :=
  '(o, s) <- conv_class md p i s ;;
  match o with
  | Dyn d => Ok (INewArray (Dyn d) dim, s)
  | Stat c =>
      match parse_type md c with
      | Ok t => Ok (INewArray (Stat t) dim, s)
      | Err _ => Ok (INewArray (Stat (TRef c)) dim, s)
      | Panic k => Panic k
      end
  end.
(** convert.rs 368-411: a name starting with '[' must parse; a result that is
    not an array would be undefined behaviour. *)
Definition conv_ctype (md : mode) (p : pool) (i : Z) (s : cst) : res (ordyn ctype * cst) :=
  '(o, s) <- conv_class md p i s ;;
  match o with
  | Dyn d => Ok (Dyn d, s)
  | Stat c =>
      match c with
      | 91 :: _ =>
          t <- parse_type md c ;;
          match t with TArray dim t => Ok (Stat (CtArray dim t), s) | _ => Panic PUB end
      | _ => Ok (Stat (CtObject c), s)
      end
  end.
(** convert.rs 23-27 [lbl!]: [(curpos + off as i64) as u32]. *)
Definition lbl_at (pos off : Z) (s : cst) : Z * cst := get_label ((pos + off) mod 4294967296) s.
Fixpoint lbls_at (pos : Z) (offs : list Z) (s : cst) : list Z * cst :=
  match offs with
  | [] => ([], s)
  | o :: offs =>
      let (l, s) := lbl_at pos o s in
      let (ls, s) := lbls_at pos offs s in (l :: ls, s)
  end.
(** [collect] into an [IndexMap]: a key seen before keeps its place and gets
    the new value. *)
Fixpoint lookup_at (pos : Z) (es : list (Z * Z)) (m : list (Z * Z)) (s : cst) : list (Z * Z) * cst :=
  match es with
  | [] => (m, s)
  | (k, o) :: es =>
      let (l, s) := lbl_at pos o s in lookup_at pos es (assoc_set Z.eqb k l m) s
  end.

Definition conv (md : mode) (p : pool) (pos : Z) (r : raw) (s : cst) : res (insn * cst) :=
  let lbl off := lbl_at pos off s in
  match r with
  | XAThrow => Ok (IThrow, s)
  | XNop => Ok (INoOp, s)
  | XAConstNull => Ok (IPushNull, s)
  | XSwap => Ok (ISwap, s)
  | XLCmp => Ok (ICompareLongs, s)
  | XArrayLength => Ok (IArrayLength, s)
  | XMonitorEnter => Ok (IMonitor MoEnter, s)
  | XMonitorExit => Ok (IMonitor MoExit, s)
  | XIInc idx val => Ok (IIntIncrement idx val, s)
  | XWide (WIInc idx val) => Ok (IIntIncrement idx val, s)
  | XPop => Ok (IPop1, s)
  | XPop2 => Ok (IPop2, s)
  | XDup => Ok (IDup, s)
  | XDup2 => Ok (IDup2, s)
  | XDupx1 => Ok (IDupX1, s)
  | XDupx2 => Ok (IDupX2, s)
  | XDup2x1 => Ok (IDup2X1, s)
  | XDup2x2 => Ok (IDup2X2, s)
  | XIConstM1 => Ok (IPush (Stat (KI32 (-1))), s)
  | XIConst0 => Ok (IPush (Stat (KI32 0)), s)
  | XIConst1 => Ok (IPush (Stat (KI32 1)), s)
  | XIConst2 => Ok (IPush (Stat (KI32 2)), s)
  | XIConst3 => Ok (IPush (Stat (KI32 3)), s)
  | XIConst4 => Ok (IPush (Stat (KI32 4)), s)
  | XIConst5 => Ok (IPush (Stat (KI32 5)), s)
  | XFConst0 => Ok (IPush (Stat (KF32 0)), s)
  | XFConst1 => Ok (IPush (Stat (KF32 f32_1)), s)
  | XFConst2 => Ok (IPush (Stat (KF32 f32_2)), s)
  | XDConst0 => Ok (IPush (Stat (KF64 0)), s)
  | XDConst1 => Ok (IPush (Stat (KF64 f64_1)), s)
  | XLConst0 => Ok (IPush (Stat (KI64 0)), s)
  | XLConst1 => Ok (IPush (Stat (KI64 1)), s)
  | XBipush b => Ok (IPush (Stat (KI32 b)), s)
  | XSipush v => Ok (IPush (Stat (KI32 v)), s)
  | XIALoad => Ok (IArray LsLoad AtInt, s)
  | XLALoad => Ok (IArray LsLoad AtLong, s)
  | XFALoad => Ok (IArray LsLoad AtFloat, s)
  | XDALoad => Ok (IArray LsLoad AtDouble, s)
  | XCALoad => Ok (IArray LsLoad AtChar, s)
  | XSALoad => Ok (IArray LsLoad AtShort, s)
  | XBALoad => Ok (IArray LsLoad AtByteOrBool, s)
  | XAALoad => Ok (IArray LsLoad AtReference, s)
  | XIAStore => Ok (IArray LsStore AtInt, s)
  | XLAStore => Ok (IArray LsStore AtLong, s)
  | XFAStore => Ok (IArray LsStore AtFloat, s)
  | XDAStore => Ok (IArray LsStore AtDouble, s)
  | XCAStore => Ok (IArray LsStore AtChar, s)
  | XSAStore => Ok (IArray LsStore AtShort, s)
  | XBAStore => Ok (IArray LsStore AtByteOrBool, s)
  | XAAStore => Ok (IArray LsStore AtReference, s)
  | XALoad0 => Ok (ILocalVariable LsLoad LtReference 0, s)
  | XALoad1 => Ok (ILocalVariable LsLoad LtReference 1, s)
  | XALoad2 => Ok (ILocalVariable LsLoad LtReference 2, s)
  | XALoad3 => Ok (ILocalVariable LsLoad LtReference 3, s)
  | XALoad i => Ok (ILocalVariable LsLoad LtReference i, s)
  | XWide (WALoad i) => Ok (ILocalVariable LsLoad LtReference i, s)
  | XILoad0 => Ok (ILocalVariable LsLoad LtInt 0, s)
  | XILoad1 => Ok (ILocalVariable LsLoad LtInt 1, s)
  | XILoad2 => Ok (ILocalVariable LsLoad LtInt 2, s)
  | XILoad3 => Ok (ILocalVariable LsLoad LtInt 3, s)
  | XILoad i => Ok (ILocalVariable LsLoad LtInt i, s)
  | XWide (WILoad i) => Ok (ILocalVariable LsLoad LtInt i, s)
  | XLLoad0 => Ok (ILocalVariable LsLoad LtLong 0, s)
  | XLLoad1 => Ok (ILocalVariable LsLoad LtLong 1, s)
  | XLLoad2 => Ok (ILocalVariable LsLoad LtLong 2, s)
  | XLLoad3 => Ok (ILocalVariable LsLoad LtLong 3, s)
  | XLLoad i => Ok (ILocalVariable LsLoad LtLong i, s)
  | XWide (WLLoad i) => Ok (ILocalVariable LsLoad LtLong i, s)
  | XFLoad0 => Ok (ILocalVariable LsLoad LtFloat 0, s)
  | XFLoad1 => Ok (ILocalVariable LsLoad LtFloat 1, s)
  | XFLoad2 => Ok (ILocalVariable LsLoad LtFloat 2, s)
  | XFLoad3 => Ok (ILocalVariable LsLoad LtFloat 3, s)
  | XFLoad i => Ok (ILocalVariable LsLoad LtFloat i, s)
  | XWide (WFLoad i) => Ok (ILocalVariable LsLoad LtFloat i, s)
  | XDLoad0 => Ok (ILocalVariable LsLoad LtDouble 0, s)
  | XDLoad1 => Ok (ILocalVariable LsLoad LtDouble 1, s)
  | XDLoad2 => Ok (ILocalVariable LsLoad LtDouble 2, s)
  | XDLoad3 => Ok (ILocalVariable LsLoad LtDouble 3, s)
  | XDLoad i => Ok (ILocalVariable LsLoad LtDouble i, s)
  | XWide (WDLoad i) => Ok (ILocalVariable LsLoad LtDouble i, s)
  | XAStore0 => Ok (ILocalVariable LsStore LtReference 0, s)
  | XAStore1 => Ok (ILocalVariable LsStore LtReference 1, s)
  | XAStore2 => Ok (ILocalVariable LsStore LtReference 2, s)
  | XAStore3 => Ok (ILocalVariable LsStore LtReference 3, s)
  | XAStore i => Ok (ILocalVariable LsStore LtReference i, s)
  | XWide (WAStore i) => Ok (ILocalVariable LsStore LtReference i, s)
  | XIStore0 => Ok (ILocalVariable LsStore LtInt 0, s)
  | XIStore1 => Ok (ILocalVariable LsStore LtInt 1, s)
  | XIStore2 => Ok (ILocalVariable LsStore LtInt 2, s)
  | XIStore3 => Ok (ILocalVariable LsStore LtInt 3, s)
  | XIStore i => Ok (ILocalVariable LsStore LtInt i, s)
  | XWide (WIStore i) => Ok (ILocalVariable LsStore LtInt i, s)
  | XLStore0 => Ok (ILocalVariable LsStore LtLong 0, s)
  | XLStore1 => Ok (ILocalVariable LsStore LtLong 1, s)
  | XLStore2 => Ok (ILocalVariable LsStore LtLong 2, s)
  | XLStore3 => Ok (ILocalVariable LsStore LtLong 3, s)
  | XLStore i => Ok (ILocalVariable LsStore LtLong i, s)
  | XWide (WLStore i) => Ok (ILocalVariable LsStore LtLong i, s)
  | XFStore0 => Ok (ILocalVariable LsStore LtFloat 0, s)
  | XFStore1 => Ok (ILocalVariable LsStore LtFloat 1, s)
  | XFStore2 => Ok (ILocalVariable LsStore LtFloat 2, s)
  | XFStore3 => Ok (ILocalVariable LsStore LtFloat 3, s)
  | XFStore i => Ok (ILocalVariable LsStore LtFloat i, s)
  | XWide (WFStore i) => Ok (ILocalVariable LsStore LtFloat i, s)
  | XDStore0 => Ok (ILocalVariable LsStore LtDouble 0, s)
  | XDStore1 => Ok (ILocalVariable LsStore LtDouble 1, s)
  | XDStore2 => Ok (ILocalVariable LsStore LtDouble 2, s)
  | XDStore3 => Ok (ILocalVariable LsStore LtDouble 3, s)
  | XDStore i => Ok (ILocalVariable LsStore LtDouble i, s)
  | XWide (WDStore i) => Ok (ILocalVariable LsStore LtDouble i, s)
  | XIAdd => Ok (IIntOperation ItInt IoAdd, s)
  | XIAnd => Ok (IIntOperation ItInt IoAnd, s)
  | XINeg => Ok (IIntOperation ItInt IoNegate, s)
  | XIXor => Ok (IIntOperation ItInt IoExclusiveOr, s)
  | XIOr => Ok (IIntOperation ItInt IoOr, s)
  | XISub => Ok (IIntOperation ItInt IoSubtract, s)
  | XIMul => Ok (IIntOperation ItInt IoMultiply, s)
  | XIDiv => Ok (IIntOperation ItInt IoDivide, s)
  | XIShr => Ok (IIntOperation ItInt IoShiftRight, s)
  | XIShl => Ok (IIntOperation ItInt IoShiftLeft, s)
  | XIUshr => Ok (IIntOperation ItInt IoUnsignedShiftRight, s)
  | XIRem => Ok (IIntOperation ItInt IoRemainder, s)
  | XLAdd => Ok (IIntOperation ItLong IoAdd, s)
  | XLAnd => Ok (IIntOperation ItLong IoAnd, s)
  | XLNeg => Ok (IIntOperation ItLong IoNegate, s)
  | XLXor => Ok (IIntOperation ItLong IoExclusiveOr, s)
  | XLOr => Ok (IIntOperation ItLong IoOr, s)
  | XLSub => Ok (IIntOperation ItLong IoSubtract, s)
  | XLMul => Ok (IIntOperation ItLong IoMultiply, s)
  | XLDiv => Ok (IIntOperation ItLong IoDivide, s)
  | XLShr => Ok (IIntOperation ItLong IoShiftRight, s)
  | XLShl => Ok (IIntOperation ItLong IoShiftLeft, s)
  | XLUshr => Ok (IIntOperation ItLong IoUnsignedShiftRight, s)
  | XLRem => Ok (IIntOperation ItLong IoRemainder, s)
  | XFAdd => Ok (IFloatOperation FtFloat FoAdd, s)
  | XFNeg => Ok (IFloatOperation FtFloat FoNegate, s)
  | XFSub => Ok (IFloatOperation FtFloat FoSubtract, s)
  | XFMul => Ok (IFloatOperation FtFloat FoMultiply, s)
  | XFDiv => Ok (IFloatOperation FtFloat FoDivide, s)
  | XFRem => Ok (IFloatOperation FtFloat FoRemainder, s)
  | XDAdd => Ok (IFloatOperation FtDouble FoAdd, s)
  | XDNeg => Ok (IFloatOperation FtDouble FoNegate, s)
  | XDSub => Ok (IFloatOperation FtDouble FoSubtract, s)
  | XDMul => Ok (IFloatOperation FtDouble FoMultiply, s)
  | XDDiv => Ok (IFloatOperation FtDouble FoDivide, s)
  | XDRem => Ok (IFloatOperation FtDouble FoRemainder, s)
  | XI2B => Ok (IConvertInt BtByte, s)
  | XI2C => Ok (IConvertInt BtChar, s)
  | XI2S => Ok (IConvertInt BtShort, s)
  | XI2F => Ok (IConvertInt BtFloat, s)
  | XI2L => Ok (IConvertInt BtLong, s)
  | XI2D => Ok (IConvertInt BtDouble, s)
  | XL2I => Ok (IConversion NtLong NtInt, s)
  | XL2D => Ok (IConversion NtLong NtDouble, s)
  | XL2F => Ok (IConversion NtLong NtFloat, s)
  | XF2I => Ok (IConversion NtFloat NtInt, s)
  | XF2D => Ok (IConversion NtFloat NtDouble, s)
  | XF2L => Ok (IConversion NtFloat NtLong, s)
  | XD2I => Ok (IConversion NtDouble NtInt, s)
  | XD2L => Ok (IConversion NtDouble NtLong, s)
  | XD2F => Ok (IConversion NtDouble NtFloat, s)
  | XFCmpG => Ok (ICompareFloats FtFloat NanReturnsOne, s)
  | XFCmpL => Ok (ICompareFloats FtFloat NanReturnsNegativeOne, s)
  | XDCmpG => Ok (ICompareFloats FtDouble NanReturnsOne, s)
  | XDCmpL => Ok (ICompareFloats FtDouble NanReturnsNegativeOne, s)
  | XGoto off => let (l, s) := lbl off in Ok (IJump JcAlways l, s)
  | XGotoW off => let (l, s) := lbl off in Ok (IJump JcAlways l, s)
  | XIfEq off => let (l, s) := lbl off in Ok (IJump JcIntegerEqualsZero l, s)
  | XIfNe off => let (l, s) := lbl off in Ok (IJump JcIntegerNotEqualsZero l, s)
  | XIfGt off => let (l, s) := lbl off in Ok (IJump JcIntegerGreaterThanZero l, s)
  | XIfGe off => let (l, s) := lbl off in Ok (IJump JcIntegerGreaterThanOrEqualsZero l, s)
  | XIfLt off => let (l, s) := lbl off in Ok (IJump JcIntegerLessThanZero l, s)
  | XIfLe off => let (l, s) := lbl off in Ok (IJump JcIntegerLessThanOrEqualsZero l, s)
  | XIfNull off => let (l, s) := lbl off in Ok (IJump JcIsNull l, s)
  | XIfNonNull off => let (l, s) := lbl off in Ok (IJump JcIsNonNull l, s)
  | XIfACmpEq off => let (l, s) := lbl off in Ok (IJump JcReferenceEquals l, s)
  | XIfACmpNe off => let (l, s) := lbl off in Ok (IJump JcReferenceNotEquals l, s)
  | XIfICmpEq off => let (l, s) := lbl off in Ok (IJump JcIntegerEquals l, s)
  | XIfICmpNe off => let (l, s) := lbl off in Ok (IJump JcIntegerNotEquals l, s)
  | XIfICmpGt off => let (l, s) := lbl off in Ok (IJump JcIntegerGreaterThan l, s)
  | XIfICmpGe off => let (l, s) := lbl off in Ok (IJump JcIntegerGreaterThanOrEquals l, s)
  | XIfICmpLt off => let (l, s) := lbl off in Ok (IJump JcIntegerLessThan l, s)
  | XIfICmpLe off => let (l, s) := lbl off in Ok (IJump JcIntegerLessThanOrEquals l, s)
  | XJsr off => let (l, s) := lbl off in Ok (IJsr l, s)
  | XJsrW off => let (l, s) := lbl off in Ok (IJsr l, s)
  | XRet l => Ok (IRet l, s)
  | XWide (WRet l) => Ok (IRet l, s)
  | XAReturn => Ok (IReturn (Some LtReference), s)
  | XIReturn => Ok (IReturn (Some LtInt), s)
  | XLReturn => Ok (IReturn (Some LtLong), s)
  | XDReturn => Ok (IReturn (Some LtDouble), s)
  | XFReturn => Ok (IReturn (Some LtFloat), s)
  | XReturn => Ok (IReturn None, s)
  | XLdc b => conv_constant md p b s
  | XLdcW i | XLdc2W i => conv_constant md p i s
  | XTableSwitch dflt t =>
      let (d, s) := lbl dflt in
      let (ls, s) := lbls_at pos (t_offs t) s in
      Ok (ITableSwitch d (t_low t) ls, s)
  | XLookupSwitch dflt es =>
      let (d, s) := lbl dflt in
      let (m, s) := lookup_at pos es [] s in
      Ok (ILookupSwitch d m, s)
  | XGetStatic i => '(m, s) <- conv_member md p i s ;; Ok (IField GpGet MtStatic m, s)
  | XPutStatic i => '(m, s) <- conv_member md p i s ;; Ok (IField GpPut MtStatic m, s)
  | XGetField i => '(m, s) <- conv_member md p i s ;; Ok (IField GpGet MtVirtual m, s)
  | XPutField i => '(m, s) <- conv_member md p i s ;; Ok (IField GpPut MtVirtual m, s)
  | XInvokeStatic i => '(m, s) <- conv_member md p i s ;; Ok (IInvokeExact MtStatic m, s)
  | XInvokeVirtual i => '(m, s) <- conv_member md p i s ;; Ok (IInvokeExact MtVirtual m, s)
  | XInvokeSpecial i => '(m, s) <- conv_member md p i s ;; Ok (IInvokeSpecial m, s)
  | XInvokeInterface i c _ => '(m, s) <- conv_member md p i s ;; Ok (IInvokeInterface m c, s)
  | XInvokeDynamic i _ =>
      '(d, r) <- read_invokedynamic md p i (k_refs s) ;;
      match d with Some d => Ok (IInvokeDynamic d, with_refs s r) | None => Err EInvalid end
  | XNew i => '(c, s) <- conv_class md p i s ;; Ok (INew c, s)
  | XNewArray n =>
      match n with
      | 4 => Ok (INewArray (Stat TBoolean) 1, s)
      | 5 => Ok (INewArray (Stat TChar) 1, s)
      | 6 => Ok (INewArray (Stat TFloat) 1, s)
      | 7 => Ok (INewArray (Stat TDouble) 1, s)
      | 8 => Ok (INewArray (Stat TByte) 1, s)
      | 9 => Ok (INewArray (Stat TShort) 1, s)
      | 10 => Ok (INewArray (Stat TInt) 1, s)
      | 11 => Ok (INewArray (Stat TLong) 1, s)
      | _ => Err EInvalid
      end
  | XANewArray i => conv_elem md p i 1 s
  | XMultiANewArray i dim => conv_elem md p i dim s
  | XCheckCast i => '(c, s) <- conv_ctype md p i s ;; Ok (ICheckCast c, s)
  | XInstanceOf i => '(c, s) <- conv_ctype md p i s ;; Ok (IInstanceOf c, s)
  end.

(** src/code.rs 97-113: one instruction at code offset [pos]; in front of the
    operands of a switch the reader skips to the next multiple of 4. *)
Definition rd_insn_at (md : mode) (p : pool) (pos : Z) : srd cst insn := fun s l =>
  match l with
  | [] => Panic PIndex
  | op :: _ =>
      '(r, l) <- (if (op =? TABLESWITCH) || (op =? LOOKUPSWITCH)
                  then rd_raw_insn md (op :: skipn (Z.to_nat (4 - pos mod 4)) l)
                  else rd_raw_insn md l) ;;
      '(i, s) <- conv md p pos r s ;;
      Ok ((i, s), l)
  end.

(** * Writing: convert.rs 415-813 [write_insn]

    [emit] gives the bytes one call appends to the cursor.  Jumps and switches
    append nothing here (793-800: they end the buffer, see CodeModel); labels
    and line numbers are recorded on the side. *)

(** convert.rs 424-442 [wide_or_normal!] with one operand. *)
Definition wide_or_normal (op i : Z) : list Z :=
  if (0 <=? i) && (i <=? 255) then be 1 op ++ be 1 i else be 1 WIDE ++ be 1 op ++ be 2 i.
Definition load_op (o : lors) (t : lty) : Z :=
  match o, t with
  | LsLoad, LtInt => ILOAD
  | LsLoad, LtFloat => FLOAD
  | LsLoad, LtDouble => DLOAD
  | LsLoad, LtLong => LLOAD
  | LsLoad, LtReference => ALOAD
  | LsStore, LtInt => ISTORE
  | LsStore, LtFloat => FSTORE
  | LsStore, LtDouble => DSTORE
  | LsStore, LtLong => LSTORE
  | LsStore, LtReference => ASTORE
  end.
(** convert.rs 496-512 (and src/loadable.rs 193-195, src/ty.rs 46-48 [is_wide]). *)
Definition emit_ldc : cwr (ordyn constant) := fun E c w =>
  '(i, w) <- insert_ordynamic insert_constant E c w ;;
  let wide := match c with
              | Dyn d => ty_is_wide (d_desc d)
              | Stat (KI64 _) | Stat (KF64 _) => true
              | Stat _ => false
              end in
  Ok ((if wide then be 1 LDC2_W ++ be 2 i
       else if i <=? 255 then be 1 LDC ++ be 1 i
       else be 1 LDC_W ++ be 2 i), w).
(** convert.rs 446-495, the arms in order. *)
Definition emit_push : cwr (ordyn constant) := fun E c w =>
  let op o := Ok (be 1 o, w) in
  match c with
  | Stat (KI32 x) =>
      if x =? 0 then op ICONST_0
      else if x =? 1 then op ICONST_1
      else if x =? 2 then op ICONST_2
      else if x =? 3 then op ICONST_3
      else if x =? 4 then op ICONST_4
      else if x =? 5 then op ICONST_5
      else if x =? -1 then op ICONST_M1
      else if (-128 <=? x) && (x <=? 127) then Ok (be 1 BIPUSH ++ be 1 x, w)
      else if (-32768 <=? x) && (x <=? 32767) then Ok (be 1 SIPUSH ++ be 2 x, w)
      else emit_ldc E c w
  | Stat (KI64 x) =>
      if x =? 0 then op LCONST_0 else if x =? 1 then op LCONST_1 else emit_ldc E c w
  | Stat (KF32 x) =>
      if x =? 0 then op FCONST_0
      else if x =? f32_1 then op FCONST_1
      else if x =? f32_2 then op FCONST_2
      else emit_ldc E c w
  | Stat (KF64 x) =>
      if x =? 0 then op DCONST_0 else if x =? f64_1 then op DCONST_1 else emit_ldc E c w
  | _ => emit_ldc E c w
  end.
(** an opcode and a u16 index *)
Definition emit_idx {A} (op : Z) (f : cins A) (tail : list Z) : cwr A := fun E a w =>
  '(i, w) <- f E a w ;; Ok (be 1 op ++ be 2 i ++ tail, w).
(** convert.rs 684-693: [w.insert_class(x.into())] *)
Definition insert_ctype : cins ctype := fun E c w =>
  n <- ctype_name c ;; insert_class E n w.

Definition emit : cwr insn := fun E i w =>
  let op o := Ok (be 1 o, w) in
  match i with
  | INoOp => op NOP
  | IPushNull => op ACONST_NULL
  | IPush c => emit_push E c w
  | IDup => op DUP
  | IDupX1 => op DUP_X1
  | IDupX2 => op DUP_X2
  | IDup2 => op DUP2
  | IDup2X1 => op DUP2_X1
  | IDup2X2 => op DUP2_X2
  | IPop1 => op POP
  | IPop2 => op POP2
  | ICompareLongs => op LCMP
  | ICompareFloats FtFloat NanReturnsOne => op FCMPG
  | ICompareFloats FtFloat NanReturnsNegativeOne => op FCMPL
  | ICompareFloats FtDouble NanReturnsOne => op DCMPG
  | ICompareFloats FtDouble NanReturnsNegativeOne => op DCMPL
  | IArray LsLoad AtInt => op IALOAD
  | IArray LsLoad AtByteOrBool => op BALOAD
  | IArray LsLoad AtShort => op SALOAD
  | IArray LsLoad AtChar => op CALOAD
  | IArray LsLoad AtFloat => op FALOAD
  | IArray LsLoad AtLong => op LALOAD
  | IArray LsLoad AtDouble => op DALOAD
  | IArray LsLoad AtReference => op AALOAD
  | IArray LsStore AtInt => op IASTORE
  | IArray LsStore AtByteOrBool => op BASTORE
  | IArray LsStore AtShort => op SASTORE
  | IArray LsStore AtChar => op CASTORE
  | IArray LsStore AtFloat => op FASTORE
  | IArray LsStore AtLong => op LASTORE
  | IArray LsStore AtDouble => op DASTORE
  | IArray LsStore AtReference => op AASTORE
  | IArrayLength => op ARRAYLENGTH
  | IIntOperation ItInt IoSubtract => op ISUB
  | IIntOperation ItInt IoAdd => op IADD
  | IIntOperation ItInt IoMultiply => op IMUL
  | IIntOperation ItInt IoDivide => op IDIV
  | IIntOperation ItInt IoRemainder => op IREM
  | IIntOperation ItInt IoNegate => op INEG
  | IIntOperation ItInt IoShiftRight => op ISHR
  | IIntOperation ItInt IoShiftLeft => op ISHL
  | IIntOperation ItInt IoUnsignedShiftRight => op IUSHR
  | IIntOperation ItInt IoOr => op IOR
  | IIntOperation ItInt IoExclusiveOr => op IXOR
  | IIntOperation ItInt IoAnd => op IAND
  | IIntOperation ItLong IoSubtract => op LSUB
  | IIntOperation ItLong IoAdd => op LADD
  | IIntOperation ItLong IoMultiply => op LMUL
  | IIntOperation ItLong IoDivide => op LDIV
  | IIntOperation ItLong IoRemainder => op LREM
  | IIntOperation ItLong IoNegate => op LNEG
  | IIntOperation ItLong IoShiftRight => op LSHR
  | IIntOperation ItLong IoShiftLeft => op LSHL
  | IIntOperation ItLong IoUnsignedShiftRight => op LUSHR
  | IIntOperation ItLong IoOr => op LOR
  | IIntOperation ItLong IoExclusiveOr => op LXOR
  | IIntOperation ItLong IoAnd => op LAND
  | IFloatOperation FtFloat FoSubtract => op FSUB
  | IFloatOperation FtFloat FoNegate => op FNEG
  | IFloatOperation FtFloat FoAdd => op FADD
  | IFloatOperation FtFloat FoMultiply => op FMUL
  | IFloatOperation FtFloat FoDivide => op FDIV
  | IFloatOperation FtFloat FoRemainder => op FREM
  | IFloatOperation FtDouble FoSubtract => op DSUB
  | IFloatOperation FtDouble FoNegate => op DNEG
  | IFloatOperation FtDouble FoAdd => op DADD
  | IFloatOperation FtDouble FoMultiply => op DMUL
  | IFloatOperation FtDouble FoDivide => op DDIV
  | IFloatOperation FtDouble FoRemainder => op DREM
  | IThrow => op ATHROW
  | IMonitor MoEnter => op MONITORENTER
  | IMonitor MoExit => op MONITOREXIT
  | IConversion NtLong NtInt => op L2I
  | IConversion NtLong NtFloat => op L2F
  | IConversion NtLong NtDouble => op L2D
  | IConversion NtDouble NtFloat => op D2F
  | IConversion NtDouble NtInt => op D2I
  | IConversion NtDouble NtLong => op D2L
  | IConversion NtInt NtDouble => op I2D
  | IConversion NtInt NtFloat => op I2F
  | IConversion NtInt NtLong => op I2L
  | IConversion NtFloat NtDouble => op F2D
  | IConversion NtFloat NtInt => op F2I
  | IConversion NtFloat NtLong => op F2L
  | IConvertInt BtLong => op I2L
  | IConvertInt BtShort => op I2S
  | IConvertInt BtByte => op I2B
  | IConvertInt BtChar => op I2C
  | IConvertInt BtDouble => op I2D
  | IConvertInt BtFloat => op I2F
  | IReturn None => op RETURN
  | IReturn (Some LtReference) => op ARETURN
  | IReturn (Some LtLong) => op LRETURN
  | IReturn (Some LtInt) => op IRETURN
  | IReturn (Some LtDouble) => op DRETURN
  | IReturn (Some LtFloat) => op FRETURN
  | ISwap => op SWAP
  | ILocalVariable o t l => Ok (wide_or_normal (load_op o t) l, w)
  | IInstanceOf c => emit_idx INSTANCEOF (insert_ordynamic insert_ctype) [] E c w
  | ICheckCast c => emit_idx CHECKCAST (insert_ordynamic insert_ctype) [] E c w
  | INew c => emit_idx NEW (insert_ordynamic insert_class) [] E c w
  | INewArray _ _ => Ok ([], w)
  | IConversion _ _ => Ok ([], w)
  | IConvertInt BtInt => Ok ([], w)
  | IField o k m =>
      emit_idx (match o, k with
                | GpGet, MtVirtual => GETFIELD
                | GpPut, MtVirtual => PUTFIELD
                | GpGet, MtStatic => GETSTATIC
                | GpPut, MtStatic => GETSTATIC
                end) (insert_ordynamic insert_member) [] E m w
  | IInvokeExact k m =>
      emit_idx (match k with MtStatic => INVOKESTATIC | MtVirtual => INVOKEVIRTUAL end)
        (insert_ordynamic insert_member) [] E m w
  | IInvokeSpecial m => emit_idx INVOKESPECIAL (insert_ordynamic insert_member) [] E m w
  | IInvokeDynamic d => emit_idx INVOKEDYNAMIC insert_dynamic [0; 0] E d w
  | IInvokeInterface m c =>
      emit_idx INVOKEINTERFACE (insert_ordynamic insert_member) (be 1 c ++ [0]) E m w
  | IRet i => Ok (wide_or_normal RET i, w)
  | IIntIncrement l v =>
      (* both operands must fit *)
      Ok (if ((0 <=? l) && (l <=? 255)) && ((-128 <=? v) && (v <=? 127))
          then be 1 IINC ++ be 1 l ++ be 1 v
          else be 1 WIDE ++ be 1 IINC ++ be 2 l ++ be 2 v, w)
  | ILineNumber _ | ILabel _ => Ok ([], w)
  | ITableSwitch _ _ _ | ILookupSwitch _ _ | IJump _ _ | IJsr _ => Ok ([], w)
  end.
