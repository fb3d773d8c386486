(** Lemmas about signatures. *)
From Verif Require Import Base BaseLemmas Wtf8Spec Wtf8Model Wtf8Proofs Wtf8Proofs2 TypeModel TypeSpec
  TypeProofs CpModel CpSpec CpProofs SigModel SigSpec.

Lemma flat_map_concat' {A B} (f : A -> list B) l : flat_map f l = concat (map f l).
Proof. apply flat_map_concat_map. Qed.

  Fixpoint d_t (t : tsig) : d_tsig t = tsig_text t
  with d_r (r : rsig) : d_rsig r = rsig_text r
  with d_c (c : csig) : d_csig c = csig_text c
  with d_s (s : ssig) : d_ssig s = ssig_text s
  with d_a (a : targ) : d_targ a = targ_text a.
  Proof.
    - destruct t; cbn; [destruct p; reflexivity|apply d_r].
    - destruct r; cbn; [reflexivity|f_equal; apply d_t|apply d_c].
    - destruct c as [pk nm sf]; cbn. f_equal. rewrite flat_map_concat_map. f_equal. rewrite d_s. f_equal. f_equal.
      rewrite flat_map_concat_map. f_equal. induction sf; cbn; [reflexivity|]. rewrite d_s. f_equal. exact IHsf.
    - destruct s as [nm args]; cbn. destruct args as [|a args]; [apply app_nil_r|]. f_equal. cbn [app]. f_equal.
      f_equal. cbn. rewrite d_a. f_equal. rewrite flat_map_concat_map. f_equal.
      induction args; cbn; [reflexivity|]. rewrite d_a. f_equal. exact IHargs.
    - destruct a; cbn; f_equal; apply d_r.
  Qed.

Lemma d_throws_text t : d_throws t = throws_text (throws_class t).
Proof. destruct t; cbn; [reflexivity|]. rewrite d_c. reflexivity. Qed.
Lemma d_param_text p : d_param p = param_text p.
Proof.
  destruct p as [n cb is]. unfold d_param, param_text. cbn. f_equal. f_equal. f_equal.
  - destruct cb; [apply d_r|reflexivity].
  - rewrite flat_map_concat_map. f_equal. apply map_ext. intros r. rewrite d_r. reflexivity.
Qed.
Lemma d_params_text ps : d_params ps = params_text ps.
Proof.
  unfold d_params, params_text. destruct ps as [|p ps]; [reflexivity|]. cbn [app]. f_equal.
  rewrite flat_map_concat_map. f_equal. f_equal. apply map_ext. apply d_param_text.
Qed.
Lemma d_class_text c : d_class c = class_sig_text c.
Proof.
  unfold d_class, class_sig_text. rewrite d_params_text, d_c. f_equal. f_equal.
  rewrite flat_map_concat_map. f_equal. apply map_ext, d_c.
Qed.
Lemma d_method_text m : d_method m = method_sig_text
  {| ms_params := ms_params m; ms_args := ms_args m; ms_ret := ms_ret m;
     ms_throws := map throws_class (ms_throws m) |}.
Proof.
  unfold d_method, method_sig_text. cbn [ms_params ms_args ms_ret ms_throws]. rewrite d_params_text. f_equal.
  cbn [app]. f_equal. rewrite flat_map_concat_map. rewrite (map_ext _ _ d_t). f_equal. f_equal.
  f_equal; [destruct (ms_ret m); [apply d_t|reflexivity]|].
  rewrite flat_map_concat_map, map_map. f_equal. apply map_ext, d_throws_text.
Qed.

(** * Pieces *)
Definition stop (c : Z) : Prop := c = 60 \/ c = 46 \/ c = 59.

Lemma ident_neq c x : ident_char c -> In x [46; 59; 91; 47; 60; 62; 58] -> c =? x = false.
Proof. intros (_ & _ & H) Hx. apply Z.eqb_neq. intros ->. auto. Qed.
Ltac idc := repeat match goal with
  | H : ident_char ?c |- context [?c =? ?x] => rewrite (ident_neq c x H) by (cbn; tauto)
  end.
Lemma span_name_app n c rest : Forall ident_char n -> stop c -> span_name (n ++ c :: rest) = (n, c :: rest).
Proof.
  induction 1 as [|x n Hx Hn IH]; intros Hc; cbn [app span_name].
  - assert ((c =? 60) || (c =? 46) || (c =? 59) = true) as -> by (unfold stop in Hc; lia). reflexivity.
  - idc. cbn [orb]. rewrite IH by auto. reflexivity.
Qed.
Lemma split_semi_app n rest : Forall ident_char n -> split_semi (n ++ 59 :: rest) = Some (n, rest).
Proof. induction 1 as [|x n Hx Hn IH]; cbn [app split_semi]; [reflexivity|]. idc. rewrite IH. reflexivity. Qed.
Lemma split_colon_app n rest : Forall ident_char n -> split_colon (n ++ 58 :: rest) = (n, rest).
Proof. induction 1 as [|x n Hx Hn IH]; cbn [app split_colon]; [reflexivity|]. idc. rewrite IH. reflexivity. Qed.
Lemma packages_loop_app n : Forall ident_char n -> forall i str last,
  p_packages_loop (n ++ i) str last = p_packages_loop i (str ++ n) last.
Proof.
  induction 1 as [|x n Hx Hn IH]; intros i str last; cbn [app p_packages_loop].
  - rewrite app_nil_r. reflexivity.
  - idc. cbn [orb]. rewrite IH, <- app_assoc. reflexivity.
Qed.
Lemma packages_app pk n c rest : Forall ident pk -> Forall ident_char n -> stop c ->
  p_packages (concat (map (fun s => s ++ [47]) pk) ++ n ++ c :: rest) = Ok (pk, n ++ c :: rest).
Proof.
  intros Hp Hn Hc. unfold p_packages.
  assert (Hg : forall last, (pk = [] -> last = n ++ c :: rest) ->
    p_packages_loop (concat (map (fun s => s ++ [47]) pk) ++ n ++ c :: rest) [] last = Ok (pk, n ++ c :: rest)).
  2:{ apply Hg. intros ->. reflexivity. }
  induction Hp as [|s pk [_ Hs] Hp IH]; intros last Hl; cbn [map concat app].
  - rewrite packages_loop_app by auto. cbn [p_packages_loop].
    assert (c =? 47 = false) as -> by (unfold stop in Hc; lia).
    assert ((c =? 59) || (c =? 60) || (c =? 46) = true) as -> by (unfold stop in Hc; lia). rewrite Hl by auto. reflexivity.
  - rewrite <- !app_assoc, packages_loop_app by auto. cbn [app p_packages_loop].
    change (47 =? 47) with true. cbv iota. rewrite IH; [reflexivity|]. intros ->. reflexivity.
Qed.

Lemma count_dims0 md n c r : Z.of_nat n <= 255 -> c <> 91 ->
  count_dims md 0 (repeat 91 n ++ c :: r) = Ok (Z.of_nat n, c :: r).
Proof.
  intros Hn Hc. destruct n as [|n].
  - cbn [repeat app count_dims]. assert (c =? 91 = false) as -> by lia. reflexivity.
  - cbn [repeat app count_dims]. change (91 =? 91) with true. cbv iota.
    change (chk_u md 8 (0 + 1)) with (@Ok Z 1). cbn [bind]. rewrite count_dims_app by lia. f_equal. f_equal. lia.
Qed.

Lemma rsig_head r : wf_rsig r -> exists c t, rsig_text r = c :: t /\ (c = 84 \/ c = 91 \/ c = 76).
Proof.
  destruct r as [n|d t|[pk nm sf]]; cbn.
  - intros _. do 2 eexists. split; [reflexivity|lia].
  - intros [Hd _]. destruct (Z.to_nat d) as [|k] eqn:Ek; [lia|]. cbn. do 2 eexists. split; [reflexivity|lia].
  - intros _. do 2 eexists. split; [reflexivity|lia].
Qed.
Section Ref.
  Variable ref : sp rsig.
  Variable m : nat.
  Hypothesis Href : forall r rest, wf_rsig r -> (length (rsig_text r) <= m)%nat ->
    ref (rsig_text r ++ rest) = Ok (r, rest).

  Lemma p_type_ok t rest : wf_tsig t -> (length (tsig_text t) <= m)%nat ->
    p_type ref (tsig_text t ++ rest) = Ok (t, rest).
  Proof.
    destruct t as [p|r]; intros Hw Hl.
    - destruct p; reflexivity.
    - cbn [tsig_text] in *. destruct (rsig_head r Hw) as (c & u & Hr & Hc).
      specialize (Href r rest Hw Hl). rewrite Hr in Href |- *. cbn [app] in *. unfold p_type.
      destruct Hc as [-> | [-> | ->]]; rewrite Href; reflexivity.
  Qed.
  Lemma p_arg_ok a rest : wf_targ a -> (length (targ_text a) <= m)%nat ->
    p_arg ref (targ_text a ++ rest) = Ok (a, rest).
  Proof.
    destruct a as [r|r|r|]; cbn [targ_text wf_targ]; intros Hw Hl; cbn [app p_arg].
    - cbn [length] in Hl. rewrite Href by (auto; lia). reflexivity.
    - cbn [length] in Hl. rewrite Href by (auto; lia). reflexivity.
    - destruct (rsig_head r Hw) as (c & u & Hr & Hc).
      specialize (Href r rest Hw Hl). rewrite Hr in Href |- *. cbn [app] in *. unfold p_arg.
      destruct Hc as [-> | [-> | ->]]; rewrite Href; reflexivity.
    - reflexivity.
  Qed.
  Lemma targ_head a : wf_targ a -> exists c t, targ_text a = c :: t /\ c <> 62.
  Proof.
    destruct a as [r|r|r|]; cbn [targ_text wf_targ]; intros Hw; try (do 2 eexists; split; [reflexivity|lia]).
    destruct (rsig_head r Hw) as (c & u & -> & Hc). do 2 eexists. split; [reflexivity|lia].
  Qed.
  Lemma until_gt_args args : fold_right and True (map wf_targ args) ->
    (length (concat (map targ_text args)) <= m)%nat -> forall k rest, (length args <= k)%nat ->
    p_until_gt (p_arg ref) k (concat (map targ_text args) ++ 62 :: rest) = Ok (args, 62 :: rest).
  Proof.
    induction args as [|a args IH]; cbn [map fold_right concat length]; intros Hw Hl k rest Hk; cbn [app].
    - destruct k; reflexivity.
    - destruct Hw as [Ha Hw]. rewrite app_length in Hl. rewrite <- app_assoc.
      destruct (targ_head a Ha) as (c & t & Et & Hc).
      destruct k as [|k]; [lia|].
      pose proof (p_arg_ok a (concat (map targ_text args) ++ 62 :: rest) Ha ltac:(lia)) as Hp.
      rewrite Et in Hp |- *. cbn [app] in Hp |- *. cbn [p_until_gt].
      assert (c =? 62 = false) as -> by lia. rewrite Hp. cbn [bind]. rewrite IH by (auto; lia). reflexivity.
  Qed.
  Lemma args_length args : fold_right and True (map wf_targ args) ->
    (length args <= length (concat (map targ_text args)))%nat.
  Proof.
    induction args as [|a args IH]; cbn; [lia|]. intros [Ha Hw]. rewrite app_length.
    destruct (targ_head a Ha) as (c & t & -> & Hc). cbn. specialize (IH Hw). lia.
  Qed.
  Lemma p_simple_ok s c rest : wf_ssig s -> (length (ssig_text s) <= m)%nat -> c = 46 \/ c = 59 ->
    p_simple ref (ssig_text s ++ c :: rest) = Ok (s, c :: rest).
  Proof.
    destruct s as [nm args]. cbn [wf_ssig]. intros [[Hne Hn] Ha] Hl Hc. unfold p_simple.
    assert (Hs : stop c) by (unfold stop; tauto).
    destruct args as [|a args].
    - cbn [ssig_text] in *. rewrite span_name_app by auto. cbn [p_bracketed].
      assert (c =? 60 = false) as -> by lia. reflexivity.
    - remember (a :: args) as args'. assert (Et : ssig_text (SSig nm args') = nm ++ 60 :: concat (map targ_text args') ++ [62]).
      { subst. reflexivity. }
      rewrite Et in Hl |- *. rewrite <- app_assoc. cbn [app]. rewrite <- app_assoc. cbn [app].
      rewrite span_name_app by (unfold stop; tauto). cbn [p_bracketed]. change (60 =? 60) with true. cbv iota.
      rewrite app_length in Hl. cbn [length] in Hl. rewrite app_length in Hl.
      rewrite until_gt_args; [reflexivity|auto|lia|]. rewrite app_length. pose proof (args_length args' Ha). lia.
  Qed.
  Lemma p_suffixes_ok sf : fold_right and True (map wf_ssig sf) ->
    (length (concat (map (fun s => 46%Z :: ssig_text s) sf)) <= m)%nat -> forall k rest, (length sf <= k)%nat ->
    p_suffixes (p_simple ref) k (concat (map (fun s => 46%Z :: ssig_text s) sf) ++ 59 :: rest) = Ok (sf, 59 :: rest).
  Proof.
    induction sf as [|a sf IH]; cbn [map fold_right concat length]; intros Hw Hl k rest Hk; cbn [app].
    - destruct k; reflexivity.
    - destruct Hw as [Ha Hw]. rewrite app_length in Hl. rewrite <- app_assoc. cbn [length] in Hl.
      destruct k as [|k]; [lia|]. cbn [p_suffixes]. change (46 =? 46) with true. cbv iota.
      assert (Hd : exists c r, concat (map (fun s => 46%Z :: ssig_text s) sf) ++ 59 :: rest = c :: r /\ (c = 46 \/ c = 59)).
      { destruct sf; cbn; eauto. }
      destruct Hd as (c & r & Er & Hc). rewrite Er, p_simple_ok by (auto; lia). cbn [bind].
      rewrite <- Er, IH by (auto; lia). reflexivity.
  Qed.
  Lemma p_class_ok c rest : wf_csig c -> (length (csig_text c) <= S m)%nat ->
    p_class ref (csig_text c ++ rest) = Ok (c, rest).
  Proof.
    destruct c as [pk nm sf]. cbn [wf_csig csig_text length]. intros (Hp & Hn & Hs) Hl.
    unfold p_class. cbn [app p_char]. change (76 =? 76) with true. cbv iota. cbn [bind].
    rewrite <- !app_assoc. cbn [app]. rewrite !app_length in Hl.
    assert (Hd : exists c r, concat (map (fun s => 46%Z :: ssig_text s) sf) ++ 59 :: rest = c :: r /\ (c = 46 \/ c = 59)).
    { destruct sf; cbn; eauto. }
    destruct Hd as (c & r & Er & Hc).
    assert (Hpk : p_packages (concat (map (fun s => s ++ [47]) pk) ++ ssig_text nm ++ c :: r) = Ok (pk, ssig_text nm ++ c :: r)).
    { destruct nm as [n args]. destruct Hn as [[_ Hn] _]. destruct args as [|a args].
      - cbn [ssig_text]. apply packages_app; auto. unfold stop. tauto.
      - assert (Et : ssig_text (SSig n (a :: args)) = n ++ 60 :: concat (map targ_text (a :: args)) ++ [62]) by reflexivity.
        rewrite Et, <- !app_assoc. cbn [app]. apply packages_app; auto. unfold stop. tauto. }
    rewrite Er, Hpk. cbn [bind]. rewrite p_simple_ok by (auto; lia). cbn [bind]. rewrite <- Er.
    rewrite p_suffixes_ok; [reflexivity|auto|lia|]. rewrite app_length.
    assert ((length sf <= length (concat (map (fun s => 46%Z :: ssig_text s) sf)))%nat).
    { clear. induction sf; cbn; [lia|]. rewrite app_length. lia. } lia.
  Qed.
End Ref.

Lemma p_ref_ok md n : forall r rest, wf_rsig r -> (length (rsig_text r) <= n)%nat ->
  p_ref md n (rsig_text r ++ rest) = Ok (r, rest).
Proof.
  induction n as [|n IH]; intros r rest Hw Hl.
  - destruct (rsig_head r Hw) as (c & t & E & _). rewrite E in Hl. cbn in Hl. lia.
  - destruct r as [v|d t|c].
    + cbn [rsig_text wf_rsig] in *. cbn [app p_ref]. change (84 =? 91) with false. change (84 =? 84) with true.
      cbv iota. rewrite <- app_assoc. cbn [app]. rewrite split_semi_app by apply Hw. reflexivity.
    + cbn [rsig_text wf_rsig] in *. destruct Hw as [Hd Hw].
      assert (Hh : exists c u, tsig_text t = c :: u /\ c <> 91).
      { destruct t as [p|[v|d' t'|[pk nm sf]]]; cbn; try tauto.
        - destruct p; cbn; do 2 eexists; split; try reflexivity; lia.
        - do 2 eexists; split; [reflexivity|lia].
        - do 2 eexists; split; [reflexivity|lia]. }
      assert (Hwt : wf_tsig t) by (destruct t as [|[]]; tauto).
      destruct Hh as (c & u & Et & Hc). rewrite app_length, repeat_length in Hl.
      destruct (Z.to_nat d) as [|k] eqn:Ek; [lia|].
      assert (Hcd := count_dims0 md (S k) c (u ++ rest) ltac:(lia) Hc).
      rewrite <- app_assoc. rewrite Et at 1. cbn [app]. cbn [repeat app] in Hcd |- *. cbn [p_ref].
      change (91 =? 91) with true. cbv iota. rewrite Hcd. cbn [bind].
      change (c :: u ++ rest) with ((c :: u) ++ rest). rewrite <- Et.
      rewrite (p_type_ok (p_ref md n) n IH) by (auto; lia). cbn [bind]. f_equal. f_equal. f_equal. lia.
    + cbn [rsig_text wf_rsig] in *. assert (E : exists u, csig_text c = 76 :: u) by (destruct c; cbn; eauto).
      destruct E as (u & E). pose proof (p_class_ok (p_ref md n) n IH c rest Hw Hl) as Hp.
      rewrite E in Hp |- *. cbn [app] in Hp |- *. cbn [p_ref]. change (76 =? 91) with false. change (76 =? 84) with false.
      change (76 =? 76) with true. cbv iota. rewrite Hp. reflexivity.
Qed.
Lemma p_rsig_ok md r rest : wf_rsig r -> p_rsig md (rsig_text r ++ rest) = Ok (r, rest).
Proof. intros H. apply p_ref_ok; auto. rewrite app_length. lia. Qed.
Lemma p_csig_ok md c rest : wf_csig c -> p_csig md (csig_text c ++ rest) = Ok (c, rest).
Proof.
  intros H. apply (p_class_ok (p_rsig md) (length (csig_text c))); auto.
  intros. apply p_rsig_ok; auto.
Qed.
Lemma p_tsig_ok md t rest : wf_tsig t -> p_tsig md (tsig_text t ++ rest) = Ok (t, rest).
Proof.
  intros H. apply (p_type_ok (p_rsig md) (length (tsig_text t))); auto.
  intros. apply p_rsig_ok; auto.
Qed.

(** * Type parameters *)
Ltac napp := repeat (progress (rewrite <- ?app_assoc; cbn [app])).
Lemma bound_next md c rest : c <> 84 -> c <> 91 -> c <> 76 -> c <> 58 -> forall i nm, Forall ident_char nm ->
  i = nm ++ 58 :: c :: rest ->
  p_param md i = Ok ({| tp_name := nm; tp_class := None; tp_itfs := [] |}, c :: rest).
Proof.
  intros H1 H2 H3 H4 i nm Hn ->. unfold p_param. rewrite split_colon_app by auto.
  assert ((c =? 84) || (c =? 91) || (c =? 76) = false) as -> by lia. cbn [bind p_itf_bounds].
  assert (c =? 58 = false) as -> by lia. reflexivity.
Qed.
Lemma param_class md nm r rest : Forall ident_char nm -> wf_rsig r ->
  p_param md (nm ++ 58 :: rsig_text r ++ rest) = Ok ({| tp_name := nm; tp_class := Some r; tp_itfs := [] |}, rest).
Proof.
  intros Hn Hr. unfold p_param. rewrite split_colon_app by auto.
  pose proof (p_rsig_ok md r rest Hr) as Hp. destruct (rsig_head r Hr) as (c & t & Et & Hc).
  rewrite Et in Hp |- *. cbn [app] in Hp |- *.
  assert ((c =? 84) || (c =? 91) || (c =? 76) = true) as -> by lia. rewrite Hp. cbn [bind p_itf_bounds].
  assert (c =? 58 = false) as -> by lia. reflexivity.
Qed.
Lemma param_itf md nm r rest : Forall ident_char nm -> wf_rsig r ->
  p_param md (nm ++ 58 :: 58 :: rsig_text r ++ rest) = Ok ({| tp_name := nm; tp_class := None; tp_itfs := [r] |}, rest).
Proof.
  intros Hn Hr. unfold p_param. rewrite split_colon_app by auto.
  change ((58 =? 84) || (58 =? 91) || (58 =? 76)) with false. cbv iota. cbn [bind p_itf_bounds].
  change (58 =? 58) with true. cbv iota. rewrite p_rsig_ok by auto. cbn [bind].
  destruct (rsig_head r Hr) as (c & t & Et & Hc).
  rewrite Et. cbn [app p_itf_bounds]. assert (c =? 58 = false) as -> by lia. reflexivity.
Qed.

(** Parsing a sequence of parameter texts. *)
Definition parses md (k : nat) (s : list Z) (ps : list tparam) (rest : list Z) : Prop :=
  p_until_gt (p_param md) k s = Ok (ps, rest).
Lemma parses_step md k s p s' ps rest : p_param md s = Ok (p, s') -> (exists c r, s = c :: r /\ c <> 62) ->
  parses md k s' ps rest -> parses md (S k) s (p :: ps) rest.
Proof.
  unfold parses. intros Hp (c & r & -> & Hc) Hq. cbn [p_until_gt]. assert (c =? 62 = false) as -> by lia.
  rewrite Hp. cbn [bind]. rewrite Hq. reflexivity.
Qed.
Lemma parses_more md k s ps rest : parses md k s ps rest -> forall k', (k <= k')%nat -> parses md k' s ps rest.
Proof.
  unfold parses. revert s ps rest. induction k as [|k IH]; intros s ps rest H k' Hk.
  - destruct s as [|c s]; cbn [p_until_gt] in *; [destruct k'; auto|]. destruct k'; cbn [p_until_gt]; auto;
      destruct (c =? 62); auto; discriminate.
  - destruct k' as [|k']; [lia|]. destruct s as [|c s]; cbn [p_until_gt] in *; auto. destruct (c =? 62); auto.
    destruct (p_param md (c :: s)) as [[a i]| |]; try discriminate. cbn [bind] in *.
    destruct (p_until_gt (p_param md) k i) as [[xs j]| |] eqn:E; try discriminate. cbn [bind] in *.
    rewrite (IH _ _ _ E) by lia. auto.
Qed.
Lemma parses_anon md is : Forall wf_rsig is -> forall k s ps rest, parses md k s ps rest ->
  parses md (length is + k) (concat (map (fun r => 58 :: rsig_text r) is) ++ s) (map anonymous is ++ ps) rest.
Proof.
  induction 1 as [|r is Hr His IH]; intros k s ps rest Hp; cbn [map concat app length Nat.add]; auto.
  rewrite <- app_assoc. eapply parses_step; [|do 2 eexists; split; [reflexivity|lia]|apply IH; eauto].
  apply (param_class md []); auto.
Qed.
Lemma ident_head n : ident n -> exists c r, n = c :: r /\ ident_char c.
Proof. intros [H1 H2]. destruct n as [|c r]; [congruence|]. inversion H2; subst. eauto. Qed.
Lemma params_loop_ok md ps rest : wf_params ps -> exists k, (k <= length (concat (map param_text ps)))%nat /\
  parses md k (concat (map param_text ps) ++ 62 :: rest) (flat_map split_param ps) (62 :: rest).
Proof.
  intros [Hw Hc]. revert Hc. induction Hw as [|p ps Hp Hw IH]; intros Hc.
  - exists 0%nat. split; [cbn; lia|]. reflexivity.
  - assert (Hc' : clear ps) by (destruct ps; [exact I|apply Hc]). destruct (IH Hc') as (k & Hk & Hps). clear IH.
    destruct p as [nm cb is]. destruct Hp as [Hn Hb]. unfold bounds in Hb. cbn [tp_name tp_class tp_itfs] in *.
    destruct (ident_head nm Hn) as (x & nm' & -> & Hx). destruct Hn as [_ Hn].
    assert (Hx62 : x <> 62) by (intros ->; destruct Hx as (_ & _ & Hx); apply Hx; cbn; tauto).
    cbn [map concat]. unfold param_text at 1 3. cbn [tp_name tp_class tp_itfs]. rewrite app_length.
    destruct cb as [r|].
    + cbn [app] in Hb. inversion Hb as [|? ? Hr His]; subst.
      exists (S (length is + k)). split.
      * rewrite app_length. cbn [length]. rewrite app_length.
        assert (H : (length is <= length (concat (map (fun r => 58%Z :: rsig_text r) is)))%nat).
        { clear. induction is; cbn; [lia|]. rewrite app_length. lia. } lia.
      * cbn [flat_map split_param tp_class tp_itfs tp_name]. rewrite <- app_assoc. cbn [app].
        napp.
        eapply parses_step; [|do 2 eexists; split; [reflexivity|exact Hx62]|apply parses_anon; eauto].
        apply (param_class md (x :: nm')); auto.
    + destruct is as [|i is].
      * exists (S k). split; [rewrite app_length; cbn; lia|].
        cbn [flat_map split_param tp_class tp_itfs tp_name map concat app].
        napp.
        eapply parses_step; [|do 2 eexists; split; [reflexivity|exact Hx62]|exact Hps].
        assert (Hnext : exists c r, concat (map param_text ps) ++ 62 :: rest = c :: r /\
          c <> 84 /\ c <> 91 /\ c <> 76 /\ c <> 58).
        { destruct ps as [|q ps]; [cbn; do 2 eexists; split; [reflexivity|lia]|].
          cbn [clear] in Hc. destruct Hc as [Hc _]. inversion Hw as [|? ? [Hq _] _]; subst.
          destruct (ident_head _ Hq) as (y & m & Ey & Hy). cbn [map concat]. unfold param_text at 1. rewrite Ey.
          cbn [app]. exists y. eexists. split; [reflexivity|]. destruct (Hc eq_refl y m Ey).
          destruct Hy as (_ & _ & Hy). repeat split; auto; intros ->; apply Hy; cbn; tauto. }
        destruct Hnext as (c & r & -> & H1 & H2 & H3 & H4).
        exact (bound_next md c r H1 H2 H3 H4 _ (x :: nm') Hn eq_refl).
      * cbn [app] in Hb. inversion Hb as [|? ? Hr His]; subst.
        exists (S (length is + k)). split.
        -- rewrite app_length. cbn [length app map concat]. rewrite app_length.
           assert (H : (length is <= length (concat (map (fun r => 58%Z :: rsig_text r) is)))%nat).
           { clear. induction is; cbn; [lia|]. rewrite app_length. lia. } cbn [length]. lia.
        -- cbn [flat_map split_param tp_class tp_itfs tp_name map concat app].
           napp.
           eapply parses_step; [|do 2 eexists; split; [reflexivity|exact Hx62]|apply parses_anon; eauto].
           apply (param_itf md (x :: nm')); auto.
Qed.
Lemma p_params_ok md ps c rest : wf_params ps -> c <> 60 ->
  p_params md (params_text ps ++ c :: rest) = Ok (flat_map split_param ps, c :: rest).
Proof.
  intros Hw Hc. unfold p_params, p_bracketed, params_text. destruct ps as [|p ps].
  - cbn [app flat_map]. assert (c =? 60 = false) as -> by lia. reflexivity.
  - remember (p :: ps) as ps'. cbn [app]. change (60 =? 60) with true. cbv iota. rewrite <- app_assoc. cbn [app].
    destruct (params_loop_ok md ps' (c :: rest) Hw) as (k & Hk & Hp).
    eapply parses_more in Hp; [unfold parses in Hp; rewrite Hp|rewrite app_length; lia]. reflexivity.
Qed.

(** * Sequences *)
Lemma p_while_ok {A} (set : Z -> bool) (p : sp A) (text : A -> list Z) (P : A -> Prop) (g : A -> A) rest :
  (forall a r, P a -> p (text a ++ r) = Ok (g a, r)) ->
  (forall a, P a -> exists c r, text a = c :: r /\ set c = true) ->
  match rest with [] => True | c :: _ => set c = false end ->
  forall xs k, Forall P xs -> (length xs <= k)%nat ->
  p_while set p k (concat (map text xs) ++ rest) = Ok (map g xs, rest).
Proof.
  intros Hp Hh Hr xs. induction xs as [|a xs IH]; intros k Hx Hk; cbn [map concat app].
  - destruct rest as [|c r]; [destruct k; reflexivity|]. destruct k; cbn [p_while]; rewrite Hr; reflexivity.
  - inversion Hx as [|? ? Ha Hxs]; subst. rewrite <- app_assoc. destruct k as [|k]; cbn [length] in Hk; [lia|].
    specialize (Hp a (concat (map text xs) ++ rest) Ha). destruct (Hh a Ha) as (c & r & Et & Hc).
    rewrite Et in Hp |- *. cbn [app] in Hp |- *. cbn [p_while]. rewrite Hc, Hp. cbn [bind].
    rewrite IH by (auto; lia). reflexivity.
Qed.
Lemma concat_map_length {A} (text : A -> list Z) xs : Forall (fun a => exists c r, text a = c :: r) xs ->
  (length xs <= length (concat (map text xs)))%nat.
Proof.
  induction 1 as [|a xs (c & r & E) H IH]; cbn; [lia|]. rewrite app_length, E. cbn. lia.
Qed.
Lemma csig_head c : exists r, csig_text c = 76 :: r.
Proof. destruct c; cbn; eauto. Qed.
Lemma tsig_head t : wf_tsig t -> exists c u, tsig_text t = c :: u /\ type_start c = true.
Proof.
  destruct t as [p|r]; cbn [tsig_text wf_tsig].
  - intros _. destruct p; do 2 eexists; split; reflexivity.
  - intros H. destruct (rsig_head r H) as (c & t & -> & Hc). exists c, t. split; [auto|].
    destruct Hc as [-> | [-> | ->]]; reflexivity.
Qed.

Definition split_class (c : class_sig) : class_sig :=
  {| cs_params := flat_map split_param (cs_params c); cs_super := cs_super c; cs_itfs := cs_itfs c |}.
Lemma p_classsig_ok md c : wf_class_sig c -> p_classsig md (class_sig_text c) = Ok (split_class c, []).
Proof.
  destruct c as [ps su is]. intros (Hp & Hs & Hi). unfold p_classsig, class_sig_text, split_class.
  cbn [cs_params cs_super cs_itfs] in *. destruct (csig_head su) as (u & Eu).
  pose proof (p_params_ok md ps 76 (u ++ concat (map csig_text is)) Hp ltac:(lia)) as H1.
  change (76 :: u ++ concat (map csig_text is)) with ((76 :: u) ++ concat (map csig_text is)) in H1.
  rewrite <- Eu in H1. rewrite H1. cbn [bind]. rewrite p_csig_ok by auto. cbn [bind].
  rewrite <- (app_nil_r (concat (map csig_text is))) at 2.
  rewrite (p_while_ok _ _ csig_text wf_csig (fun x => x)).
  - cbn [bind]. rewrite map_id. reflexivity.
  - intros. apply p_csig_ok; auto.
  - intros a _. destruct (csig_head a) as (r & E). eauto.
  - exact I.
  - auto.
  - apply concat_map_length. apply Forall_forall. intros x _. destruct (csig_head x) as (r & E). eauto.
Qed.

Definition split_method (m : method_sig) : method_sig :=
  {| ms_params := flat_map split_param (ms_params m); ms_args := ms_args m; ms_ret := ms_ret m;
     ms_throws := ms_throws m |}.
Lemma p_throws_ok md t rest : wf_throws t -> p_throws md (throws_text t ++ rest) = Ok (t, rest).
Proof.
  destruct t as [n|c]; cbn [wf_throws]; intros H; unfold p_throws, throws_text; cbn [app p_char];
    change (94 =? 94) with true; cbv iota; cbn [bind].
  - change (84 =? 76) with false. change (84 =? 84) with true. cbv iota. rewrite <- app_assoc. cbn [app].
    rewrite split_semi_app by apply H. reflexivity.
  - pose proof (p_csig_ok md c rest H) as Hp. destruct (csig_head c) as (u & Eu). rewrite Eu in Hp |- *.
    cbn [app] in Hp |- *. change (76 =? 76) with true. cbv iota. rewrite Hp. reflexivity.
Qed.
Lemma p_ret_ok md o rest : match o with Some t => wf_tsig t | None => True end ->
  p_ret md (match o with Some t => tsig_text t | None => [86] end ++ rest) = Ok (o, rest).
Proof.
  destruct o as [t|]; [|reflexivity]. intros H. pose proof (p_tsig_ok md t rest H) as Hp.
  destruct (tsig_head t H) as (c & u & Eu & Hc). rewrite Eu in Hp |- *. cbn [app] in Hp |- *. unfold p_ret.
  assert (c =? 86 = false) as ->. { destruct (c =? 86) eqn:E; auto. apply Z.eqb_eq in E. subst. discriminate. }
  rewrite Hp. reflexivity.
Qed.
Lemma p_method_ok md m : wf_method_sig m -> p_method md (method_sig_text m) = Ok (split_method m, []).
Proof.
  destruct m as [ps args r th]. intros (Hp & Ha & Hr & Ht). unfold p_method, method_sig_text, split_method.
  cbn [ms_params ms_args ms_ret ms_throws] in *.
  rewrite p_params_ok by (auto; lia). cbn [bind p_char]. change (40 =? 40) with true. cbv iota. cbn [bind].
  rewrite (p_while_ok _ _ tsig_text wf_tsig (fun x => x)).
  2:{ intros. apply p_tsig_ok; auto. }
  2:{ intros a H. apply tsig_head; auto. }
  2:{ reflexivity. }
  2:{ auto. }
  2:{ rewrite app_length. etransitivity; [apply (concat_map_length tsig_text)|lia].
      eapply Forall_impl; [|exact Ha]. intros a H. destruct (tsig_head a H) as (c & u & E & _). eauto. }
  cbn [bind p_char]. change (41 =? 41) with true. cbv iota. cbn [bind].
  rewrite p_ret_ok by auto. cbn [bind].
  rewrite <- (app_nil_r (concat (map throws_text th))) at 2.
  rewrite (p_while_ok _ _ throws_text wf_throws (fun x => x)).
  - cbn [bind]. rewrite !map_id. reflexivity.
  - intros. apply p_throws_ok; auto.
  - intros a _. do 2 eexists. split; reflexivity.
  - exact I.
  - auto.
  - apply concat_map_length. apply Forall_forall. intros x _. do 2 eexists. reflexivity.
Qed.

(** * In the class file *)
Definition scalar (c : Z) : Prop := is_cp c /\ ~ is_surrogate c.
Lemma scalar_ascii c : 0 <= c < 128 -> scalar c.
Proof. unfold scalar, is_cp, is_surrogate. lia. Qed.
Lemma ident_scalar n : ident n -> Forall scalar n.
Proof. intros [_ H]. eapply Forall_impl; [|exact H]. intros c (H1 & H2 & _). split; auto. Qed.
Ltac sc := repeat first [apply Forall_app; split | apply Forall_cons; [apply scalar_ascii; lia|] | apply Forall_nil
  | apply ident_scalar; solve [auto] ].
Fixpoint sc_t (t : tsig) : wf_tsig t -> Forall scalar (tsig_text t)
with sc_r (r : rsig) : wf_rsig r -> Forall scalar (rsig_text r)
with sc_c (c : csig) : wf_csig c -> Forall scalar (csig_text c)
with sc_s (s : ssig) : wf_ssig s -> Forall scalar (ssig_text s)
with sc_a (a : targ) : wf_targ a -> Forall scalar (targ_text a).
Proof.
  - destruct t as [p|r]; cbn; [intros _; destruct p; cbn; sc|apply sc_r].
  - destruct r as [n|d t|c]; cbn; [intros H; sc| |apply sc_c]. intros [_ H]. apply Forall_app. split.
    + apply Forall_forall. intros x Hx. apply repeat_spec in Hx. subst. apply scalar_ascii. lia.
    + apply sc_t. destruct t as [|[]]; tauto.
  - destruct c as [pk nm sf]; cbn. intros (Hp & Hn & Hs). apply Forall_cons; [apply scalar_ascii; lia|].
    apply Forall_app. split; [|apply Forall_app; split; [auto|apply Forall_app; split; [|sc]]].
    + clear -Hp. induction Hp; cbn; sc. auto.
    + clear Hp Hn. induction sf as [|s sf IH]; cbn; [constructor|]. destruct Hs as [H1 H2].
      apply Forall_cons; [apply scalar_ascii; lia|]. apply Forall_app. split; [apply sc_s; auto|apply IH; auto].
  - destruct s as [nm args]; cbn. intros (Hn & Ha). destruct args as [|a args]; [sc|].
    apply Forall_app. split; [sc|]. apply Forall_cons; [apply scalar_ascii; lia|]. apply Forall_app. split; [|sc].
    cbn in *. destruct Ha as [Ha1 Ha2]. apply Forall_app. split; [apply sc_a; auto|]. clear Ha1.
    induction args as [|b args IH]; cbn; [constructor|]. destruct Ha2 as [H1 H2].
    apply Forall_app. split; [apply sc_a; auto|apply IH; auto].
  - destruct a as [r|r|r|]; cbn; intros H; sc; apply sc_r; auto.
Qed.
Lemma sc_list {A} (text : A -> list Z) xs : Forall (fun a => Forall scalar (text a)) xs -> Forall scalar (concat (map text xs)).
Proof. induction 1; cbn; [constructor|]. apply Forall_app. auto. Qed.
Lemma sc_params ps : wf_params ps -> Forall scalar (params_text ps).
Proof.
  intros [H _]. unfold params_text. destruct ps as [|p ps]; [constructor|]. remember (p :: ps) as l. clear Heql.
  apply Forall_cons; [apply scalar_ascii; lia|]. apply Forall_app. split; [|sc]. apply sc_list.
  eapply Forall_impl; [|exact H]. intros q [Hn Hb]. unfold param_text, bounds in *. apply Forall_app in Hb as [Hc Hi].
  apply Forall_app. split; [sc|]. apply Forall_cons; [apply scalar_ascii; lia|]. apply Forall_app. split.
  - destruct (tp_class q); [|constructor]. inversion Hc; subst. apply sc_r; auto.
  - apply sc_list. eapply Forall_impl; [|exact Hi]. intros r Hr. apply Forall_cons; [apply scalar_ascii; lia|]. apply sc_r; auto.
Qed.
Lemma sc_class c : wf_class_sig c -> Forall scalar (class_sig_text c).
Proof.
  intros (H1 & H2 & H3). unfold class_sig_text. apply Forall_app. split; [apply sc_params; auto|].
  apply Forall_app. split; [apply sc_c; auto|]. apply sc_list. eapply Forall_impl; [|exact H3]. intros. apply sc_c; auto.
Qed.
Lemma sc_method m : wf_method_sig m -> Forall scalar (method_sig_text m).
Proof.
  intros (H1 & H2 & H3 & H4). unfold method_sig_text. apply Forall_app. split; [apply sc_params; auto|].
  apply Forall_cons; [apply scalar_ascii; lia|]. apply Forall_app. split.
  { apply sc_list. eapply Forall_impl; [|exact H2]. intros. apply sc_t; auto. }
  apply Forall_cons; [apply scalar_ascii; lia|]. apply Forall_app. split.
  { destruct (ms_ret m); [apply sc_t; auto|sc]. }
  apply sc_list. eapply Forall_impl; [|exact H4]. intros t Ht. unfold throws_text. apply Forall_cons; [apply scalar_ascii; lia|].
  destruct t; cbn in Ht; [sc|apply sc_c; auto].
Qed.

Lemma sig_utf8_ok cps : Forall scalar cps -> sig_utf8 cps = flat_map utf8 cps.
Proof.
  unfold sig_utf8. induction 1 as [|c cps [Hc _] H IH]; cbn; [reflexivity|]. rewrite IH, encode_utf8_raw_spec; auto.
Qed.
Lemma scalars_wtf8 cps : Forall scalar cps -> wtf8_of cps (flat_map utf8 cps).
Proof.
  intros H. split; [|reflexivity]. split.
  - eapply Forall_impl; [|exact H]. intros c [Hc _]. auto.
  - induction H as [|c cps [_ Hc] H IH]; cbn; [exact I|]. split; [|exact IH]. destruct cps as [|c' cps']; [exact I|]. intros [Hl _]. apply Hc. unfold is_lead, is_surrogate in *. lia.
Qed.
Lemma wr_sig_ok {A} (d text : A -> list Z) : wr_ok (wr_sig d)
  (fun _ a => d a = text a /\ Forall scalar (text a) /\ jstr (flat_map utf8 (text a))) (fmt_sig text).
Proof.
  intros E a w (Hd & Hs & Hj) Hi. unfold wr_sig. rewrite Hd, sig_utf8_ok by auto.
  pose proof (wr_cow_ok E (flat_map utf8 (text a)) w Hj Hi) as H. exact H.
Qed.
Lemma rd_sig_ok {A} (p : sp A) (text : A -> list Z) : rd_ok (rd_sig p)
  (fun a => (exists rest, p (text a) = Ok (a, rest)) /\ Forall scalar (text a) /\ jstr (flat_map utf8 (text a))) (fmt_sig text).
Proof.
  intros W a bs rest ((r & Hp) & Hs & Hj) HF. unfold rd_sig.
  rewrite (rd_cow_ok W (flat_map utf8 (text a)) bs rest Hj HF). cbn [bind].
  rewrite to_string_lossy_utf8.
  2:{ exists (text a). split; [apply scalars_wtf8; auto|]. eapply Forall_impl; [|exact Hs]. intros c [_ H]. auto. }
  cbn [bind]. rewrite codepoints_utf8 by (eapply Forall_impl; [|exact Hs]; intros c [H _]; auto). cbn [bind].
  unfold from_str. rewrite Hp. reflexivity.
Qed.
