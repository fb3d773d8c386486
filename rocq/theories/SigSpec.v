(** JVMS 4.7.9.1: signatures as text. *)
From Verif Require Import Base Wtf8Spec TypeSpec CpModel CpSpec SigModel.

(** Identifier: not empty, none of  . ; [ / < > :  *)
Definition ident_char (c : Z) : Prop :=
  is_cp c /\ ~ is_surrogate c /\ ~ In c [46; 59; 91; 47; 60; 62; 58].
Definition ident (n : list Z) : Prop := n <> [] /\ Forall ident_char n.

Definition prim_text (p : prim) : Z :=
  match p with
  | PByte => 66 | PChar => 67 | PDouble => 68 | PFloat => 70 | PInt => 73
  | PLong => 74 | PBoolean => 90 | PShort => 83
  end.
(** JavaTypeSignature, ReferenceTypeSignature, ClassTypeSignature,
    SimpleClassTypeSignature, TypeArgument *)
Fixpoint tsig_text (t : tsig) : list Z :=
  match t with SPrim p => [prim_text p] | SRef r => rsig_text r end
with rsig_text (r : rsig) : list Z :=
  match r with
  | SVar n => 84 :: n ++ [59] (* T n ; *)
  | SArr dim t => repeat 91 (Z.to_nat dim) ++ tsig_text t (* [ *)
  | SCls c => csig_text c
  end
with csig_text (c : csig) : list Z :=
  match c with
  | CSig pk nm sf => (* L pk/pk/ nm . sf . sf ; *)
      76 :: concat (map (fun s => s ++ [47]) pk) ++ ssig_text nm ++
      concat (map (fun s => 46 :: ssig_text s) sf) ++ [59]
  end
with ssig_text (s : ssig) : list Z :=
  match s with
  | SSig nm [] => nm
  | SSig nm args => nm ++ 60 :: concat (map targ_text args) ++ [62] (* < > *)
  end
with targ_text (a : targ) : list Z :=
  match a with
  | AExtends r => 43 :: rsig_text r (* + *)
  | ASuper r => 45 :: rsig_text r (* - *)
  | AExact r => rsig_text r
  | AAny => [42] (* * *)
  end.
(** ThrowsSignature *)
Definition throws_text (t : throws) : list Z :=
  94 :: match t with ThVar n => 84 :: n ++ [59] | ThCls c => csig_text c end.
(** TypeParameter: Identifier ClassBound {InterfaceBound} *)
Definition param_text (p : tparam) : list Z :=
  tp_name p ++ 58 :: match tp_class p with Some r => rsig_text r | None => [] end ++
  concat (map (fun r => 58 :: rsig_text r) (tp_itfs p)).
Definition params_text (ps : list tparam) : list Z :=
  match ps with [] => [] | _ => 60 :: concat (map param_text ps) ++ [62] end.
Definition method_sig_text (m : method_sig) : list Z :=
  params_text (ms_params m) ++ 40 :: concat (map tsig_text (ms_args m)) ++ 41 ::
  match ms_ret m with Some t => tsig_text t | None => [86] end ++
  concat (map throws_text (ms_throws m)).
Definition class_sig_text (c : class_sig) : list Z :=
  params_text (cs_params c) ++ csig_text (cs_super c) ++ concat (map csig_text (cs_itfs c)).

(** Well-formed values: identifiers are identifiers, arrays have 1..255
    dimensions and a non-array element type. *)
Fixpoint wf_tsig (t : tsig) : Prop :=
  match t with SPrim _ => True | SRef r => wf_rsig r end
with wf_rsig (r : rsig) : Prop :=
  match r with
  | SVar n => ident n
  | SArr d t => 1 <= d <= 255 /\ match t with SRef (SArr _ _) => False | _ => wf_tsig t end
  | SCls c => wf_csig c
  end
with wf_csig (c : csig) : Prop :=
  match c with
  | CSig pk nm sf => Forall ident pk /\ wf_ssig nm /\ fold_right and True (map wf_ssig sf)
  end
with wf_ssig (s : ssig) : Prop :=
  match s with SSig nm args => ident nm /\ fold_right and True (map wf_targ args) end
with wf_targ (a : targ) : Prop :=
  match a with AExtends r | ASuper r | AExact r => wf_rsig r | AAny => True end.
Definition wf_throws (t : throws) : Prop :=
  match t with ThVar n => ident n | ThCls c => wf_csig c end.
Definition bounds (p : tparam) : list rsig :=
  match tp_class p with Some r => [r] | None => [] end ++ tp_itfs p.
Definition wf_param (p : tparam) : Prop := ident (tp_name p) /\ Forall wf_rsig (bounds p).
(** The grammar is ambiguous after a parameter without any bound (javac always
    writes one) if the next parameter's name starts like a bound. *)
Fixpoint clear (ps : list tparam) : Prop :=
  match ps with
  | p :: ((q :: _) as ps') =>
      (bounds p = [] -> forall c n, tp_name q = c :: n -> c <> 84 /\ c <> 76) /\ clear ps'
  | _ => True
  end.
Definition wf_params (ps : list tparam) : Prop := Forall wf_param ps /\ clear ps.
Definition wf_class_sig (c : class_sig) : Prop :=
  wf_params (cs_params c) /\ wf_csig (cs_super c) /\ Forall wf_csig (cs_itfs c).
Definition wf_method_sig (m : method_sig) : Prop :=
  wf_params (ms_params m) /\ Forall wf_tsig (ms_args m) /\
  match ms_ret m with Some t => wf_tsig t | None => True end /\ Forall wf_throws (ms_throws m).

(** At most one bound. *)
Definition single_bound (p : tparam) : Prop := (length (bounds p) <= 1)%nat.

(** The bounds after the first one end up as parameters without a name. *)
Definition anonymous (r : rsig) : tparam := {| tp_name := []; tp_class := Some r; tp_itfs := [] |}.
Definition split_param (p : tparam) : list tparam :=
  match tp_class p, tp_itfs p with
  | None, i :: is => {| tp_name := tp_name p; tp_class := None; tp_itfs := [i] |} :: map anonymous is
  | cb, is => {| tp_name := tp_name p; tp_class := cb; tp_itfs := [] |} :: map anonymous is
  end.
(** ... and thrown type variables as classes. *)
Definition throws_class (t : throws) : throws :=
  match t with ThVar n => ThCls (CSig [] (SSig n []) []) | _ => t end.

(** "<>" does not occur in a text. *)
Definition no_empty (s : list Z) : Prop := ~ exists p q, s = p ++ [60; 62] ++ q.

(** In the class file: index of the text. *)
Definition fmt_sig {A} (text : A -> list Z) : fmt A :=
  fmt_pidx (fun p i a => is_utf8_at p i (flat_map utf8 (text a))).
