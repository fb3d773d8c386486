(** Generic signatures: src/signature.rs.

    A Rust [str] is the list of its code points (scalar values).  The parsers
    mix [chars()] with [as_bytes()]; the bytes they look for are all ASCII and
    UTF-8 has no ASCII byte inside a longer sequence, so scanning bytes and
    scanning characters agree, as do the slices [&i[1..]] after an ASCII
    character. *)
From Verif Require Import Base Wtf8Model TypeModel PrimModel CpModel.

(** src/signature.rs 17-38: the primitive cases of [TypeSignature]. *)
Inductive prim : Type := PByte | PChar | PDouble | PFloat | PInt | PLong | PBoolean | PShort.

(** src/signature.rs 17-38 [TypeSignature], 130-139 [RefTypeSignature],
    118-127 [ClassTypeSignature], 109-116 [SimpleClassTypeSignature],
    96-107 [TypeArgument]. *)
Inductive tsig : Type :=
| SPrim (p : prim)
| SRef (r : rsig)
with rsig : Type :=
| SVar (name : list Z)
| SArr (dim : Z) (t : tsig)
| SCls (c : csig)
with csig : Type :=
| CSig (package : list (list Z)) (name : ssig) (suffix : list ssig)
with ssig : Type :=
| SSig (name : list Z) (args : list targ)
with targ : Type :=
| AExtends (r : rsig)
| ASuper (r : rsig)
| AExact (r : rsig)
| AAny.

(** src/signature.rs 73-85 [TypeParameter]. *)
Record tparam : Type := { tp_name : list Z; tp_class : option rsig; tp_itfs : list rsig }.
(** src/signature.rs 87-94 [Throws]. *)
Inductive throws : Type := ThVar (name : list Z) | ThCls (c : csig).
(** src/signature.rs 49-58 [ClassSignature], 60-71 [MethodSignature]. *)
Record class_sig : Type := {
  cs_params : list tparam; cs_super : csig; cs_itfs : list csig }.
Record method_sig : Type := {
  ms_params : list tparam; ms_args : list tsig; ms_ret : option tsig; ms_throws : list throws }.

(** * Parsers: the remaining text and a value. *)
Definition sp (A : Type) : Type := list Z -> res (A * list Z).

(** src/signature.rs 156-172 [type_sig]. *)
Definition p_type (ref : sp rsig) : sp tsig := fun i =>
  match i with
  | [] => Err EInvalid
  | c :: r =>
      if c =? 66 then Ok (SPrim PByte, r)
      else if c =? 67 then Ok (SPrim PChar, r)
      else if c =? 68 then Ok (SPrim PDouble, r)
      else if c =? 70 then Ok (SPrim PFloat, r)
      else if c =? 73 then Ok (SPrim PInt, r)
      else if c =? 74 then Ok (SPrim PLong, r)
      else if c =? 83 then Ok (SPrim PShort, r)
      else if c =? 90 then Ok (SPrim PBoolean, r)
      else if (c =? 84) || (c =? 76) || (c =? 91) then
        '(x, i) <- ref i ;; Ok (SRef x, i)
      else Err EInvalid
  end.

(** src/signature.rs 204-213 [char]. *)
Definition p_char (c : Z) : sp unit := fun i =>
  match i with
  | x :: r => if x =? c then Ok (tt, r) else Err EInvalid
  | [] => Err EInvalid
  end.

(** [i.find(';')], the text before and after it (184-190, 222-226). *)
Fixpoint split_semi (i : list Z) : option (list Z * list Z) :=
  match i with
  | [] => None
  | c :: r =>
      if c =? 59 then Some ([], r)
      else match split_semi r with Some (a, b) => Some (c :: a, b) | None => None end
  end.

(** src/signature.rs 263-297 [packages]: [str] is the segment being collected,
    [last] the text after the last slash. *)
Fixpoint p_packages_loop (i str last : list Z) : res (list (list Z) * list Z) :=
  match i with
  | [] => Err EInvalid
  | c :: r =>
      if c =? 47 then
        '(v, l) <- p_packages_loop r [] r ;; Ok (str :: v, l)
      else if (c =? 59) || (c =? 60) || (c =? 46) then Ok ([], last)
      else p_packages_loop r (str ++ [c]) last
  end.
Definition p_packages : sp (list (list Z)) := fun i => p_packages_loop i [] i.

(** src/signature.rs 306-334 [type_arg]. *)
Definition p_arg (ref : sp rsig) : sp targ := fun i =>
  match i with
  | [] => Err EInvalid
  | c :: r =>
      if c =? 42 then Ok (AAny, r)
      else if c =? 45 then '(x, i) <- ref r ;; Ok (ASuper x, i)
      else if c =? 43 then '(x, i) <- ref r ;; Ok (AExtends x, i)
      else if (c =? 84) || (c =? 76) || (c =? 91) then '(x, i) <- ref i ;; Ok (AExact x, i)
      else Err EInvalid
  end.

(** Loops [while !i.is_empty() && first != '>'] (336-350, 398-412): every round
    consumes a character. *)
Fixpoint p_until_gt {A} (p : sp A) (fuel : nat) (i : list Z) : res (list A * list Z) :=
  match i with
  | [] => Ok ([], [])
  | c :: _ =>
      if c =? 62 then Ok ([], i)
      else match fuel with
           | O => Panic PFuel
           | S k =>
               '(a, i) <- p i ;; '(xs, i) <- p_until_gt p k i ;; Ok (a :: xs, i)
           end
  end.
(** src/signature.rs 336-350 [type_args], 398-412 [type_parameters]. *)
Definition p_bracketed {A} (p : sp A) : sp (list A) := fun i =>
  match i with
  | c :: r =>
      if c =? 60 then
        '(xs, i) <- p_until_gt p (length r) r ;; '(_, i) <- p_char 62 i ;; Ok (xs, i)
      else Ok ([], i)
  | [] => Ok ([], i)
  end.

(** src/signature.rs 353-364: the name up to '<', '.' or ';'. *)
Fixpoint span_name (i : list Z) : list Z * list Z :=
  match i with
  | [] => ([], [])
  | c :: r =>
      if (c =? 60) || (c =? 46) || (c =? 59) then ([], i)
      else let '(a, b) := span_name r in (c :: a, b)
  end.
(** src/signature.rs 352-372 [simple_type_sig]. *)
Definition p_simple (ref : sp rsig) : sp ssig := fun i =>
  let '(nm, i) := span_name i in
  '(args, i) <- p_bracketed (p_arg ref) i ;; Ok (SSig nm args, i).

(** src/signature.rs 240-246: the loop over '.'. *)
Fixpoint p_suffixes (p : sp ssig) (fuel : nat) (i : list Z) : res (list ssig * list Z) :=
  match i with
  | c :: r =>
      if c =? 46 then
        match fuel with
        | O => Panic PFuel
        | S k => '(a, i) <- p r ;; '(xs, i) <- p_suffixes p k i ;; Ok (a :: xs, i)
        end
      else Ok ([], i)
  | [] => Ok ([], i)
  end.
(** src/signature.rs 236-257 [class_type_sig]. *)
Definition p_class (ref : sp rsig) : sp csig := fun i =>
  '(_, i) <- p_char 76 i ;;
  '(pk, i) <- p_packages i ;;
  '(nm, i) <- p_simple ref i ;;
  '(sf, i) <- p_suffixes (p_simple ref) (length i) i ;;
  '(_, i) <- p_char 59 i ;;
  Ok (CSig pk nm sf, i).

(** src/signature.rs 173-201 [ref_type_sig].  The nesting depth is bounded by
    the text length (fuel excluded by a theorem); stack exhaustion is not
    modelled.  [dim] is a u8. *)
Fixpoint p_ref (md : mode) (fuel : nat) (i : list Z) : res (rsig * list Z) :=
  match fuel with
  | O => Panic PFuel
  | S n =>
      match i with
      | [] => Err EInvalid
      | c :: r =>
          if c =? 91 then
            '(dim, i) <- count_dims md 0 i ;;
            '(t, i) <- p_type (p_ref md n) i ;;
            Ok (SArr dim t, i)
          else if c =? 84 then
            match split_semi r with
            | Some (v, i) => Ok (SVar v, i)
            | None => Err EInvalid
            end
          else if c =? 76 then
            '(x, i) <- p_class (p_ref md n) i ;; Ok (SCls x, i)
          else Err EInvalid
      end
  end.
Definition p_rsig (md : mode) : sp rsig := fun i => p_ref md (S (length i)) i.
Definition p_tsig (md : mode) : sp tsig := p_type (p_rsig md).
Definition p_csig (md : mode) : sp csig := p_class (p_rsig md).

(** src/signature.rs 215-230 [throws]. *)
Definition p_throws (md : mode) : sp throws := fun i =>
  '(_, i) <- p_char 94 i ;;
  match i with
  | [] => Err EInvalid
  | c :: r =>
      if c =? 76 then '(x, i) <- p_csig md i ;; Ok (ThCls x, i)
      else if c =? 84 then
        match split_semi r with
        | Some (v, i) => Ok (ThVar v, i)
        | None => Err EInvalid
        end
      else Err EInvalid
  end.

(** src/signature.rs 376-380: [take_while] also consumes the ':'. *)
Fixpoint split_colon (i : list Z) : list Z * list Z :=
  match i with
  | [] => ([], [])
  | c :: r => if c =? 58 then ([], r) else let '(a, b) := split_colon r in (c :: a, b)
  end.
(** src/signature.rs 387-391: [chars] is never advanced over a bound, so after
    the first interface bound the loop sees that bound's first character.
    The text [chars] gets shorter each round. *)
Fixpoint p_itf_bounds (ref : sp rsig) (chars i : list Z) : res (list rsig * list Z) :=
  match chars with
  | c :: chars =>
      if c =? 58 then
        '(b, new_i) <- ref chars ;;
        '(bs, i) <- p_itf_bounds ref chars new_i ;;
        Ok (b :: bs, i)
      else Ok ([], i)
  | [] => Ok ([], i)
  end.
(** src/signature.rs 374-396 [type_parameter]. *)
Definition p_param (md : mode) : sp tparam := fun i =>
  let '(nm, chars) := split_colon i in
  '(cb, i) <- match chars with
              | c :: _ =>
                  if (c =? 84) || (c =? 91) || (c =? 76) then
                    '(r, i) <- p_rsig md chars ;; Ok (Some r, i)
                  else Ok (None, chars)
              | [] => Ok (None, chars)
              end ;;
  '(ib, i) <- p_itf_bounds (p_rsig md) chars i ;;
  Ok ({| tp_name := nm; tp_class := cb; tp_itfs := ib |}, i).
Definition p_params (md : mode) : sp (list tparam) := p_bracketed (p_param md).

(** src/signature.rs 414-420 [ret]. *)
Definition p_ret (md : mode) : sp (option tsig) := fun i =>
  match i with
  | c :: r => if c =? 86 then Ok (None, r) else '(t, i) <- p_tsig md i ;; Ok (Some t, i)
  | [] => '(t, i) <- p_tsig md i ;; Ok (Some t, i)
  end.

(** [while let Some(c) = next char, c in set] (428-434, 438-442, 458-462);
    every round consumes a character. *)
Fixpoint p_while {A} (set : Z -> bool) (p : sp A) (fuel : nat) (i : list Z) : res (list A * list Z) :=
  match i with
  | [] => Ok ([], [])
  | c :: _ =>
      if set c then
        match fuel with
        | O => Panic PFuel
        | S k => '(a, i) <- p i ;; '(xs, i) <- p_while set p k i ;; Ok (a :: xs, i)
        end
      else Ok ([], i)
  end.
Definition type_start (c : Z) : bool :=
  existsb (Z.eqb c) [66; 67; 68; 70; 73; 74; 83; 90; 84; 76; 91].

(** src/signature.rs 422-452 [method_sig]. *)
Definition p_method (md : mode) : sp method_sig := fun i =>
  '(tps, i) <- p_params md i ;;
  '(_, i) <- p_char 40 i ;;
  '(args, i) <- p_while type_start (p_tsig md) (length i) i ;;
  '(_, i) <- p_char 41 i ;;
  '(r, i) <- p_ret md i ;;
  '(th, i) <- p_while (fun c => c =? 94) (p_throws md) (length i) i ;;
  Ok ({| ms_params := tps; ms_args := args; ms_ret := r; ms_throws := th |}, i).

(** src/signature.rs 454-471 [class_sig]. *)
Definition p_classsig (md : mode) : sp class_sig := fun i =>
  '(tps, i) <- p_params md i ;;
  '(sup, i) <- p_csig md i ;;
  '(itfs, i) <- p_while (fun c => c =? 76) (p_csig md) (length i) i ;;
  Ok ({| cs_params := tps; cs_super := sup; cs_itfs := itfs |}, i).

(** src/signature.rs 473-485, 522-528 [FromStr]: the rest of the text is dropped. *)
Definition from_str {A} (p : sp A) (i : list Z) : res A := '(a, _) <- p i ;; Ok a.

(** * Display: src/signature.rs 541-692. *)
Definition d_prim (p : prim) : list Z :=
  match p with
  | PByte => [66] | PChar => [67] | PDouble => [68] | PFloat => [70] | PInt => [73]
  | PLong => [74] | PBoolean => [90] | PShort => [83]
  end.
Fixpoint d_tsig (t : tsig) : list Z :=
  match t with SPrim p => d_prim p | SRef r => d_rsig r end
with d_rsig (r : rsig) : list Z :=
  match r with
  | SVar n => [84] ++ n ++ [59]
  | SArr dim t => repeat 91 (Z.to_nat dim) ++ d_tsig t
  | SCls c => d_csig c
  end
with d_csig (c : csig) : list Z :=
  match c with
  | CSig pk nm sf =>
      [76] ++ flat_map (fun s => s ++ [47]) pk ++ d_ssig nm ++
      flat_map (fun s => [46] ++ d_ssig s) sf ++ [59]
  end
with d_ssig (s : ssig) : list Z :=
  match s with
  | SSig nm args =>
      nm ++ match args with [] => [] | _ => [60] ++ flat_map (fun a => d_targ a) args ++ [62] end
  end
with d_targ (a : targ) : list Z :=
  match a with
  | AExtends r => [43] ++ d_rsig r
  | ASuper r => [45] ++ d_rsig r
  | AExact r => d_rsig r
  | AAny => [42]
  end.
(** 624-634: a thrown type variable is printed with 'L'. *)
Definition d_throws (t : throws) : list Z :=
  [94] ++ match t with ThVar n => [76] ++ n ++ [59] | ThCls c => d_csig c end.
Definition d_param (p : tparam) : list Z :=
  tp_name p ++ [58] ++ match tp_class p with Some r => d_rsig r | None => [] end ++
  flat_map (fun r => [58] ++ d_rsig r) (tp_itfs p).
Definition d_params (ps : list tparam) : list Z :=
  match ps with [] => [] | _ => [60] ++ flat_map d_param ps ++ [62] end.
Definition d_method (m : method_sig) : list Z :=
  d_params (ms_params m) ++ [40] ++ flat_map d_tsig (ms_args m) ++ [41] ++
  match ms_ret m with Some t => d_tsig t | None => [86] end ++ flat_map d_throws (ms_throws m).
Definition d_class (c : class_sig) : list Z :=
  d_params (cs_params c) ++ d_csig (cs_super c) ++ flat_map d_csig (cs_itfs c).

(** * Class file: src/signature.rs 487-502. *)
Definition sig_utf8 (cps : list Z) : list Z := flat_map encode_utf8_raw cps.
Definition wr_sig {A} (d : A -> list Z) : cwr A := fun E a w => wr_cow E (sig_utf8 (d a)) w.
Definition rd_sig {A} (p : sp A) (po : pool) : rd A := fun l =>
  '(s, l) <- rd_cow po l ;;
  t <- to_string_lossy s ;;
  c <- codepoints t ;;
  a <- from_str p c ;;
  Ok (a, l).
