(** Theorems about generic signatures: C33-C36, C69, C70. *)
From Verif Require Import Base BaseLemmas Wtf8Spec TypeModel TypeSpec CpModel CpSpec
  SigModel SigSpec SigProofs SigProofs2.

(** A few identifiers: "T", "A", "B", and L A ; *)
Definition cls (c : Z) : csig := CSig [] (SSig [c] []) [].
Lemma id1 c : 65 <= c < 91 -> ident [c].
Proof.
  intros H. split; [discriminate|]. constructor; [|constructor]. unfold ident_char, is_cp, is_surrogate. cbn. lia.
Qed.

Lemma cls_ok c : 65 <= c < 91 -> wf_csig (cls c).
Proof. intros H. cbn. split; [constructor|]. split; [split; [apply id1; auto|exact I]|exact I]. Qed.

(** C33 *)
(** Display is the JVMS text. *)
Theorem C33_class_display : forall c, d_class c = class_sig_text c.
Proof. exact d_class_text. Qed.
Print Assumptions C33_class_display.

(** What parsing the Display text gives: bounds after the first one become
    parameters of their own, with an empty name. *)
Theorem C33_class_sig_reparsed : forall md c, wf_class_sig c ->
  from_str (p_classsig md) (d_class c) =
  Ok {| cs_params := flat_map split_param (cs_params c); cs_super := cs_super c; cs_itfs := cs_itfs c |}.
Proof. intros md c H. unfold from_str. rewrite d_class_text, p_classsig_ok by auto. reflexivity. Qed.
Print Assumptions C33_class_sig_reparsed.

Lemma split_single ps : Forall single_bound ps -> flat_map split_param ps = ps.
Proof.
  induction 1 as [|[n cb is] ps H _ IH]; cbn [flat_map]; [reflexivity|]. rewrite IH.
  unfold single_bound, bounds in H. cbn in H. destruct cb, is as [|i [|j is]]; cbn in *; try lia; reflexivity.
Qed.
(** ... which have the same text. *)
Lemma split_text ps : params_text (flat_map split_param ps) = params_text ps.
Proof.
  unfold params_text. destruct ps as [|p ps]; [reflexivity|].
  assert (Hh : flat_map split_param (p :: ps) <> []).
  { cbn. destruct p as [n [r|] [|i is]]; cbn; discriminate. }
  destruct (flat_map split_param (p :: ps)) as [|q qs] eqn:E2; [congruence|]. rewrite <- E2. f_equal. f_equal.
  clear. remember (p :: ps) as l. clear. induction l as [|[n cb is] l IH]; [reflexivity|].
  cbn [flat_map map concat]. rewrite map_app, concat_app, IH. f_equal.
  assert (Ha : forall is, concat (map param_text (map anonymous is)) = concat (map (fun r => 58 :: rsig_text r) is)).
  { clear. induction is; cbn; [reflexivity|]. rewrite IHis. unfold param_text. cbn. rewrite app_nil_r. reflexivity. }
  destruct cb as [r|]; [|destruct is as [|i is]]; unfold split_param; cbn [tp_class tp_itfs tp_name map concat]; rewrite ?Ha;
    unfold param_text; cbn; rewrite ?app_nil_r, <- ?app_assoc; cbn; rewrite <- ?app_assoc; try reflexivity.
Qed.
(** After that it stays as it is, with any number of bounds. *)
Theorem C33_class_sig_stable : forall md c c', wf_class_sig c -> from_str (p_classsig md) (d_class c) = Ok c' ->
  d_class c' = class_sig_text c /\ from_str (p_classsig md) (d_class c') = Ok c'.
Proof.
  intros md c c' H E.
  assert (T : class_sig_text c' = class_sig_text c).
  { rewrite C33_class_sig_reparsed in E by auto. inversion E. unfold class_sig_text. cbn [cs_params cs_super cs_itfs].
    rewrite split_text. reflexivity. }
  rewrite d_class_text in E |- *. rewrite T. auto.
Qed.
(** <T:LA;:LB;>LA; with the second bound as a parameter without a name. *)
Example C33_stable_ex : exists c c', wf_class_sig c /\ from_str (p_classsig Debug) (d_class c) = Ok c' /\ c' <> c /\
  d_class c = [60; 84; 58; 76; 65; 59; 58; 76; 66; 59; 62; 76; 65; 59].
Proof.
  exists {| cs_params := [{| tp_name := [84]; tp_class := Some (SCls (cls 65)); tp_itfs := [SCls (cls 66)] |}];
            cs_super := cls 65; cs_itfs := [] |}. eexists.
  split; [|split; [vm_compute; reflexivity|split; [discriminate|reflexivity]]].
  split; [|split; [apply cls_ok; lia|constructor]]. split; [|cbn; auto]. constructor; [|constructor].
  split; [apply id1; lia|]. constructor; [|constructor; [|constructor]]; apply cls_ok; lia.
Qed.
Print Assumptions C33_class_sig_stable.

(** Missing: parameters with several bounds (refuted below). *)
Theorem C33_class_sig_roundtrip_partial : forall md c, wf_class_sig c -> Forall single_bound (cs_params c) ->
  from_str (p_classsig md) (d_class c) = Ok c.
Proof.
  intros md c H Hs. rewrite C33_class_sig_reparsed by auto. rewrite split_single by auto. destruct c; reflexivity.
Qed.
(** <T:LA;B::LA;>LA<TT;-[[I*>.B;LB; *)
Definition C33_ex_sig : class_sig :=
  {| cs_params := [ {| tp_name := [84]; tp_class := Some (SCls (cls 65)); tp_itfs := [] |};
                    {| tp_name := [66]; tp_class := None; tp_itfs := [SCls (cls 65)] |} ];
     cs_super := CSig [] (SSig [65] [AExact (SVar [84]); ASuper (SArr 2 (SPrim PInt)); AAny]) [SSig [66] []];
     cs_itfs := [cls 66] |}.
Example C33_ex : wf_class_sig C33_ex_sig /\ Forall single_bound (cs_params C33_ex_sig) /\
  d_class C33_ex_sig = [60; 84; 58; 76; 65; 59; 66; 58; 58; 76; 65; 59; 62; 76; 65; 60; 84; 84; 59; 45; 91; 91; 73; 42; 62; 46; 66; 59; 76; 66; 59].
Proof.
  assert (HA : ident [65]) by (apply id1; lia). assert (HB : ident [66]) by (apply id1; lia).
  assert (HT : ident [84]) by (apply id1; lia).
  split; [|split; [repeat constructor|reflexivity]].
  unfold wf_class_sig, wf_params, C33_ex_sig. cbn. repeat split; auto; try discriminate; try lia; try (apply id1; lia).
  all: repeat (constructor; try (split; cbn; auto)).
Qed.
Print Assumptions C33_class_sig_roundtrip_partial.

Theorem C33_class_sig_roundtrip_refuted : forall md n r1 r2 sup, ident n -> wf_rsig r1 -> wf_rsig r2 -> wf_csig sup ->
  let c := {| cs_params := [{| tp_name := n; tp_class := Some r1; tp_itfs := [r2] |}]; cs_super := sup; cs_itfs := [] |} in
  wf_class_sig c /\
  from_str (p_classsig md) (d_class c) =
  Ok {| cs_params := [{| tp_name := n; tp_class := Some r1; tp_itfs := [] |};
                      {| tp_name := []; tp_class := Some r2; tp_itfs := [] |}]; cs_super := sup; cs_itfs := [] |}.
Proof.
  intros md n r1 r2 sup Hn H1 H2 Hs c. assert (Hw : wf_class_sig c).
  { unfold wf_class_sig, wf_params, wf_param, bounds, c. cbn. repeat split; auto; repeat constructor; auto; apply Hn. }
  split; [auto|]. rewrite C33_class_sig_reparsed by auto. reflexivity.
Qed.
Print Assumptions C33_class_sig_roundtrip_refuted.

(** C34 *)
Theorem C34_method_sig_reparsed : forall md m, wf_method_sig m ->
  from_str (p_method md) (d_method m) =
  Ok {| ms_params := flat_map split_param (ms_params m); ms_args := ms_args m; ms_ret := ms_ret m;
        ms_throws := map throws_class (ms_throws m) |}.
Proof.
  intros md m (H1 & H2 & H3 & H4). unfold from_str. rewrite d_method_text, p_method_ok; [reflexivity|].
  repeat split; cbn; auto; try apply H1. apply Forall_map. eapply Forall_impl; [|exact H4].
  intros [n|c]; cbn; auto.
Qed.
Print Assumptions C34_method_sig_reparsed.

Definition no_var (t : throws) : Prop := match t with ThVar _ => False | ThCls _ => True end.
Lemma throws_class_id ts : Forall no_var ts -> map throws_class ts = ts.
Proof. induction 1 as [|[n|c] ts H _ IH]; cbn; [reflexivity|destruct H|]. rewrite IH. reflexivity. Qed.
(** After that it stays as it is, with any number of bounds and whatever is thrown. *)
Theorem C34_method_sig_stable : forall md m m', wf_method_sig m -> from_str (p_method md) (d_method m) = Ok m' ->
  d_method m' = d_method m /\ from_str (p_method md) (d_method m') = Ok m'.
Proof.
  intros md m m' H E. assert (T : d_method m' = d_method m); [|rewrite T; auto].
  rewrite C34_method_sig_reparsed in E by auto. inversion E. rewrite !d_method_text. unfold method_sig_text.
  cbn [ms_params ms_args ms_ret ms_throws]. rewrite split_text, (throws_class_id (map throws_class (ms_throws m))); [reflexivity|].
  apply Forall_map, Forall_forall. intros [n|c] _; exact I.
Qed.
(** <T:LA;:LB;>()V^TT; *)
Example C34_stable_ex : exists m m', wf_method_sig m /\ from_str (p_method Debug) (d_method m) = Ok m' /\
  ms_params m' <> ms_params m /\ ms_throws m' <> ms_throws m.
Proof.
  exists {| ms_params := [{| tp_name := [84]; tp_class := Some (SCls (cls 65)); tp_itfs := [SCls (cls 66)] |}];
            ms_args := []; ms_ret := None; ms_throws := [ThVar [84]] |}. eexists.
  split; [|split; [vm_compute; reflexivity|split; discriminate]].
  split; [|split; [constructor|split; [exact I|constructor; [apply id1; lia|constructor]]]].
  split; [|cbn; auto]. constructor; [|constructor].
  split; [apply id1; lia|]. constructor; [|constructor; [|constructor]]; apply cls_ok; lia.
Qed.
Print Assumptions C34_method_sig_stable.
(** Missing: several bounds and thrown type variables (refuted below). *)
Theorem C34_method_sig_roundtrip_partial : forall md m, wf_method_sig m -> Forall single_bound (ms_params m) ->
  Forall no_var (ms_throws m) ->
  d_method m = method_sig_text m /\ from_str (p_method md) (d_method m) = Ok m.
Proof.
  intros md m H Hs Ht. rewrite C34_method_sig_reparsed by auto. rewrite d_method_text, split_single, throws_class_id by auto.
  destruct m; auto.
Qed.
(** <T:LA;>(TT;[JI)V^LB; *)
Example C34_ex : let m := {| ms_params := [{| tp_name := [84]; tp_class := Some (SCls (cls 65)); tp_itfs := [] |}];
    ms_args := [SRef (SVar [84]); SRef (SArr 1 (SPrim PLong)); SPrim PInt]; ms_ret := None; ms_throws := [ThCls (cls 66)] |} in
  wf_method_sig m /\ Forall single_bound (ms_params m) /\ Forall no_var (ms_throws m) /\
  d_method m = [60; 84; 58; 76; 65; 59; 62; 40; 84; 84; 59; 91; 74; 73; 41; 86; 94; 76; 66; 59].
Proof.
  assert (HA : ident [65]) by (apply id1; lia). assert (HB : ident [66]) by (apply id1; lia).
  assert (HT : ident [84]) by (apply id1; lia).
  split; [|split; [repeat constructor|split; [repeat constructor|reflexivity]]].
  unfold wf_method_sig, wf_params. cbn. repeat split; auto; try discriminate; try lia.
  all: repeat (constructor; try exact HT; try (split; cbn; auto; try lia)).
Qed.
Print Assumptions C34_method_sig_roundtrip_partial.

(** A thrown type variable is displayed as a class: [throws T] becomes a class T. *)
Theorem C34_throws_variable_refuted : forall md n, ident n ->
  let m := {| ms_params := []; ms_args := []; ms_ret := None; ms_throws := [ThVar n] |} in
  wf_method_sig m /\ d_method m <> method_sig_text m /\
  from_str (p_method md) (d_method m) =
  Ok {| ms_params := []; ms_args := []; ms_ret := None; ms_throws := [ThCls (CSig [] (SSig n []) [])] |}.
Proof.
  intros md n Hn m. assert (Hw : wf_method_sig m).
  { unfold wf_method_sig, wf_params, m. cbn. repeat split; auto. }
  split; [auto|]. split; [|rewrite C34_method_sig_reparsed by auto; reflexivity]. cbn. discriminate.
Qed.
Print Assumptions C34_throws_variable_refuted.

(** C35: [FieldSignature] is a reference type signature. *)
Theorem C35_field_sig_roundtrip : forall md r, wf_rsig r ->
  d_rsig r = rsig_text r /\ from_str (p_rsig md) (d_rsig r) = Ok r.
Proof.
  intros md r H. split; [apply d_r|]. unfold from_str. rewrite d_r, <- (app_nil_r (rsig_text r)), p_rsig_ok by auto. reflexivity.
Qed.
Theorem C35_type_sig_roundtrip : forall md t, wf_tsig t ->
  d_tsig t = tsig_text t /\ from_str (p_tsig md) (d_tsig t) = Ok t.
Proof.
  intros md t H. split; [apply d_t|]. unfold from_str. rewrite d_t, <- (app_nil_r (tsig_text t)), p_tsig_ok by auto. reflexivity.
Qed.
(** [[LA<+TT;>.B<*>; *)
Example C35_ex : let r := SArr 2 (SRef (SCls (CSig [] (SSig [65] [AExtends (SVar [84])]) [SSig [66] [AAny]]))) in
  wf_rsig r /\ d_rsig r = [91; 91; 76; 65; 60; 43; 84; 84; 59; 62; 46; 66; 60; 42; 62; 59].
Proof.
  assert (HA : ident [65]) by (apply id1; lia). assert (HB : ident [66]) by (apply id1; lia).
  assert (HT : ident [84]) by (apply id1; lia).
  cbn. repeat split; auto; try lia; try discriminate; try apply HA; try apply HB; try apply HT.
Qed.
Print Assumptions C35_field_sig_roundtrip.
Print Assumptions C35_type_sig_roundtrip.

(** C36: whatever text is accepted is what is displayed again.  ["<>"] is not
    in the grammar, and 256 or more dimensions are not allowed by JVMS 4.3.2. *)
Theorem C36_class_text_preserved : forall md s c, p_classsig md s = Ok (c, []) -> no_empty s -> ~ long_run s -> d_class c = s.
Proof.
  intros md s c H Hn Hl. pose proof (p_classsig_good md s (or_intror Hl)) as Hg. rewrite H in Hg.
  destruct Hg as (u & E & _ & Hu). rewrite app_nil_r in E. subst u. rewrite d_class_text. symmetry. apply Hu. split; auto.
Qed.
Theorem C36_field_text_preserved : forall md s r, p_rsig md s = Ok (r, []) -> no_empty s -> ~ long_run s -> d_rsig r = s.
Proof.
  intros md s c H Hn Hl. pose proof (p_rsig_good md s (or_intror Hl)) as Hg. rewrite H in Hg.
  destruct Hg as (u & E & _ & Hu). rewrite app_nil_r in E. subst u. symmetry. apply Hu. split; auto.
Qed.
(** Missing: thrown type variables (refuted). *)
Theorem C36_method_text_preserved_partial : forall md s m, p_method md s = Ok (m, []) -> no_empty s -> ~ long_run s ->
  Forall no_var (ms_throws m) -> d_method m = s.
Proof.
  intros md s c H Hn Hl Hv. pose proof (p_method_good md s (or_intror Hl)) as Hg. rewrite H in Hg.
  destruct Hg as (u & E & _ & Hu). rewrite app_nil_r in E. subst u. rewrite d_method_text, throws_class_id by auto.
  symmetry. rewrite Hu at 1 by (split; auto). destruct c; reflexivity.
Qed.
(** For texts of the grammar: several bounds included. *)
Theorem C36_grammar_preserved : forall md c, wf_class_sig c ->
  exists c', p_classsig md (class_sig_text c) = Ok (c', []) /\ d_class c' = class_sig_text c.
Proof.
  intros md c H. eexists. split; [apply p_classsig_ok; auto|]. rewrite d_class_text. unfold class_sig_text, split_class.
  cbn [cs_params cs_super cs_itfs]. rewrite split_text. reflexivity.
Qed.
Theorem C36_throws_variable_refuted : forall md n, ident n ->
  let s := [40; 41; 86; 94; 84] ++ n ++ [59] in
  exists m, p_method md s = Ok (m, []) /\ d_method m = [40; 41; 86; 94; 76] ++ n ++ [59].
Proof.
  intros md n Hn s.
  pose proof (p_method_ok md {| ms_params := []; ms_args := []; ms_ret := None; ms_throws := [ThVar n] |}) as H.
  eexists. split; [unfold s|].
  - replace ([40; 41; 86; 94; 84] ++ n ++ [59]) with
      (method_sig_text {| ms_params := []; ms_args := []; ms_ret := None; ms_throws := [ThVar n] |}) by (cbn; rewrite app_nil_r; reflexivity).
    apply H. unfold wf_method_sig, wf_params. cbn. repeat split; auto.
  - cbn. rewrite app_nil_r. reflexivity.
Qed.
(** <T:LA;:LB;>LA; is accepted and preserved. *)
Example C36_ex : let s := [60; 84; 58; 76; 65; 59; 58; 76; 66; 59; 62; 76; 65; 59] in
  exists c, p_classsig Debug s = Ok (c, []) /\ no_empty s /\ ~ long_run s.
Proof.
  eexists. split; [reflexivity|]. split.
  - intros (p & q & E). do 14 (destruct p as [|? p]; [discriminate|]; injection E as E1 E; clear E1). destruct p; discriminate.
  - intros (p & q & E). apply (f_equal (@length Z)) in E. rewrite !app_length, repeat_length in E. cbn in E. lia.
Qed.
Print Assumptions C36_class_text_preserved.
Print Assumptions C36_field_text_preserved.
Print Assumptions C36_method_text_preserved_partial.
Print Assumptions C36_grammar_preserved.
Print Assumptions C36_throws_variable_refuted.

(** C69: no panic.  Missing: 256 '[' in a row with overflow checks (refuted below). *)
Theorem C69_signatures_total_partial : forall md s, md = Release \/ ~ long_run s ->
  is_panic (from_str (p_classsig md) s) = false /\ is_panic (from_str (p_method md) s) = false /\
  is_panic (from_str (p_rsig md) s) = false /\ is_panic (from_str (p_tsig md) s) = false /\
  is_panic (from_str (p_csig md) s) = false /\ is_panic (from_str (p_throws md) s) = false /\
  is_panic (from_str (p_param md) s) = false.
Proof.
  intros md s H. unfold from_str.
  pose proof (p_classsig_good md s H) as H1. pose proof (p_method_good md s H) as H2. pose proof (p_rsig_good md s H) as H3.
  pose proof (p_tsig_good md s H) as H4. pose proof (p_csig_good md s H) as H5. pose proof (p_throws_good md s H) as H6.
  repeat split.
  - destruct (p_classsig md s) as [[]| |]; auto; destruct H1.
  - destruct (p_method md s) as [[]| |]; auto; destruct H2.
  - destruct (p_rsig md s) as [[]| |]; auto; destruct H3.
  - destruct (p_tsig md s) as [[]| |]; auto; destruct H4.
  - destruct (p_csig md s) as [[]| |]; auto; destruct H5.
  - destruct (p_throws md s) as [[]| |]; auto; destruct H6.
  - destruct s as [|c s]; [reflexivity|]. pose proof (p_param_good md (c :: s) ltac:(discriminate) H) as H7.
    destruct (p_param md (c :: s)) as [[]| |]; auto; destruct H7.
Qed.
Example C69_ex : ~ long_run [91; 91; 60; 62; 59].
Proof. intros (p & q & E). apply (f_equal (@length Z)) in E. rewrite !app_length, repeat_length in E. cbn in E. lia. Qed.
Theorem C69_dimensions_refuted : forall rest, from_str (p_rsig Debug) (repeat 91 256 ++ rest) = Panic POverflow.
Proof. intros rest. reflexivity. Qed.
Print Assumptions C69_signatures_total_partial.
Print Assumptions C69_dimensions_refuted.

(** C70: trailing text is accepted. *)
Theorem C70_trailing_refuted : forall md r s, wf_rsig r -> from_str (p_rsig md) (rsig_text r ++ s) = Ok r.
Proof. intros md r s H. unfold from_str. rewrite p_rsig_ok by auto. reflexivity. Qed.
(** What is true: apart from the rest, an accepted text is one that Display prints. *)
Theorem C70_accepted_partial : forall md s r, from_str (p_rsig md) s = Ok r -> no_empty s -> ~ long_run s ->
  exists rest, s = rsig_text r ++ rest.
Proof.
  intros md s r H Hn Hl. unfold from_str in H. pose proof (p_rsig_good md s (or_intror Hl)) as Hg.
  destruct (p_rsig md s) as [[x rest]| |]; try discriminate. cbn in H. inversion H; subst.
  destruct Hg as (u & E & _ & Hu). exists rest. rewrite E at 1. f_equal. rewrite <- d_r. apply Hu. split; auto.
Qed.
Example C70_ex : let s := [84; 65; 59; 33] in from_str (p_rsig Debug) s = Ok (SVar [65]) /\ no_empty s /\ ~ long_run s.
Proof.
  split; [reflexivity|]. split.
  - intros (p & q & E). do 4 (destruct p as [|? p]; [discriminate|]; injection E as E1 E; clear E1). destruct p; discriminate.
  - intros (p & q & E). apply (f_equal (@length Z)) in E. rewrite !app_length, repeat_length in E. cbn in E. lia.
Qed.
Print Assumptions C70_trailing_refuted.
Print Assumptions C70_accepted_partial.
