(** The options of the derive macros (C93). *)
From Coq Require Import String.
From Verif Require Import Base BaseLemmas PrimModel DeriveModel ConfigModel ConfigSpec.
From Coq Require Import Lia.

Lemma named_is s p : named s p = is_ident s p.
Proof.
  unfold named, is_ident. destruct (list_eq_dec string_dec p [s]) as [->|H]; [symmetry; apply String.eqb_refl|].
  destruct p as [|x [|y p]]; auto. destruct (String.eqb_spec x s); [subst; congruence|reflexivity].
Qed.
Lemma named_eq s p : named s p = true -> p = [s].
Proof. unfold named. destruct (list_eq_dec string_dec p [s]); auto; discriminate. Qed.

Lemma f2_len {A B} (R : A -> B -> Prop) l m : Forall2 R l m -> List.length l = List.length m.
Proof. induction 1; cbn; congruence. Qed.

(** * The last value of an option *)
Section Last.
Context {X : Type} (f : meta -> option X).
Fixpoint lastv (l : list meta) (o : option X) : option X :=
  match l with [] => o | m :: l => lastv l (match f m with Some x => Some x | None => o end) end.
Lemma lastv_app a b o : lastv (a ++ b) o = lastv b (lastv a o).
Proof. revert o. induction a as [|m a IH]; intros o; cbn; auto. Qed.
Lemma lastv_none l o : (forall m, In m l -> f m = None) -> lastv l o = o.
Proof. revert o. induction l as [|m l IH]; intros o H; cbn; auto. rewrite (H m (or_introl eq_refl)). apply IH. intros. apply H. right. assumption. Qed.
Lemma last_of_iff l o : last_of f l o <-> lastv l None = o.
Proof.
  split.
  - destruct o as [x|]; cbn [last_of]; [|intros H; apply lastv_none, H]. intros (l1 & m & l2 & -> & Hm & H2). rewrite lastv_app. cbn [lastv]. rewrite Hm. apply lastv_none, H2.
  - intros <-. induction l as [|m l IH] using rev_ind; [intros ? []|]. rewrite lastv_app. cbn [lastv]. destruct (f m) as [x|] eqn:E.
    + exists l, m, []. split; [reflexivity|]. split; [exact E|]. intros ? [].
    + destruct (lastv l None) as [x|]; cbn [last_of] in *.
      * destruct IH as (l1 & m1 & l2 & -> & H1 & H2). exists l1, m1, (l2 ++ [m]). split; [rewrite <- app_assoc; reflexivity|]. split; [exact H1|].
        intros m' Hm. apply in_app_or in Hm as [Hm|[<-|[]]]; auto.
      * intros m' Hm. apply in_app_or in Hm as [Hm|[<-|[]]]; auto.
Qed.
End Last.

(** * [parse_common] is a fold over the options *)
Fixpoint run {C} (f : C -> meta -> res C) (l : list meta) (c : C) : res C := match l with [] => Ok c | m :: l => c <- f c m ;; run f l c end.
Lemma run_app {C} (f : C -> meta -> res C) a b c : run f (a ++ b) c = (c <- run f a c ;; run f b c).
Proof. revert c. induction a as [|m a IH]; intros c; cbn; auto. destruct (f c m); cbn; auto. Qed.
Lemma nested_run {C} (f : C -> meta -> res C) ns : (forall x, In (inr x) ns -> False) -> forall c,
  parse_nested f ns c = run f (flat_map (fun x => match x with inl m => [m] | inr _ => [] end) ns) c.
Proof.
  induction ns as [|[m|x] ns IH]; intros H c; cbn; auto.
  - destruct (f c m); cbn; auto. apply IH. intros x Hx. apply (H x). right. exact Hx.
  - destruct (H x). left. reflexivity.
Qed.
Lemma nested_lit {C} (f : C -> meta -> res C) ns x : In (inr x) ns -> forall c c', parse_nested f ns c <> Ok c'.
Proof.
  induction ns as [|[m|y] ns IH]; intros H c c'; cbn; [destruct H| |discriminate]. destruct H as [H|H]; [discriminate|]. destruct (f c m); cbn; try discriminate. apply IH, H.
Qed.
Lemma common_run {C} (f : C -> meta -> res C) ats : listed ats -> forall c, parse_common f ats c = run f (opts ats) c.
Proof.
  induction ats as [|a ats IH]; intros H c; [reflexivity|]. cbn [parse_common opts flat_map]. fold (opts ats). rewrite named_is. assert (HL : listed ats) by (intros b Hb; apply H; right; exact Hb).
  destruct (is_ident "coffer" (a_path a)) eqn:E; [|cbn [app]; apply IH, HL]. rewrite <- named_is in E. apply named_eq in E. destruct (H a (or_introl eq_refl) E) as (p & ns & -> & HN).
  rewrite (nested_run f ns HN), run_app. destruct (run f _ c); cbn; auto.
Qed.
Lemma common_listed {C} (f : C -> meta -> res C) ats : forall c c', parse_common f ats c = Ok c' -> listed ats.
Proof.
  induction ats as [|a ats IH]; intros c c' H b Hb Hp; [destruct Hb|]. cbn [parse_common] in H. destruct Hb as [->|Hb].
  - rewrite Hp in H. change (is_ident "coffer" ["coffer"%string]) with true in H. cbn iota in H. destruct (a_meta b) as [[| p ns |]|]; try discriminate. exists p, ns. split; [reflexivity|].
    intros x Hx. destruct (parse_nested f ns c) as [c1| |] eqn:E; try discriminate. exact (nested_lit f ns x Hx _ _ E).
  - destruct (is_ident "coffer" (a_path a)); [|eapply IH; eauto]. destruct (a_meta a) as [[| p ns |]|]; try discriminate. destruct (parse_nested f ns c) as [c1| |]; try discriminate. eapply IH; eauto.
Qed.
Lemma common_iff {C} (f : C -> meta -> res C) ats c c' : parse_common f ats c = Ok c' <-> listed ats /\ run f (opts ats) c = Ok c'.
Proof. split; [intros H; pose proof (common_listed _ _ _ _ H) as HL; rewrite common_run in H by exact HL; auto|intros [HL H]; rewrite common_run; auto]. Qed.
Lemma common_calm {C} (f : C -> meta -> res C) ats : (forall c m, is_panic (f c m) = false) -> forall c, is_panic (parse_common f ats c) = false.
Proof.
  intros Hf. assert (HN : forall ns c, is_panic (parse_nested f ns c) = false).
  { induction ns as [|[m|x] ns IH]; intros c; cbn; auto. pose proof (Hf c m). destruct (f c m); cbn in *; auto. }
  induction ats as [|a ats IH]; intros c; cbn; auto. destruct (is_ident _ _); auto. destruct (a_meta a) as [[| p ns |]|]; cbn; auto. pose proof (HN ns c). destruct (parse_nested f ns c); cbn in *; auto.
Qed.

(** * Declarations for the examples *)
Local Open Scope string_scope.
(** Types are words. *)
Definition ty (s : string) : option string := if String.eqb s "" then None else Some s.
Definition coffer (ms : list meta) : attribute := {| a_path := ["coffer"]; a_meta := Some (MList ["coffer"] (map inl ms)) |}.
Definition doc : attribute := {| a_path := ["doc"]; a_meta := Some (MValue ["doc"] (LitStr "..")) |}.
Definition bare (p : path) (m : meta) : attribute := {| a_path := p; a_meta := Some m |}.
Definition t_u8 : meta := MList ["tag_type"] [inl (MPath ["u8"])].
Definition tag (n : N) : meta := MValue ["tag"] (LitInt n).
Definition vd a d f : vdecl := {| vd_attrs := a; vd_disc := d; vd_fields := f |}.
(** as in src/annotation/type_annotation.rs 12-27 *)
Definition ex_enum : decl := DEnum [doc; coffer [t_u8]]
  [vd [doc; coffer [tag 3]] None [[coffer [MValue ["as"] (LitStr "u16")]]]; vd [] (Some (DInt 9)) []; vd [] None [[]]].
Definition ex_attr : decl := DEnum [] [vd [] None [[coffer [MValue ["as"] (LitStr "u16")]]; []]; vd [] None []; vd [coffer [MPath ["raw_variant"]]] None [[]]].
Local Close Scope string_scope.

Section Props.
Context {T : Type} (parse_ty : string -> option T).
Lemma run_field l : forall c c', run (field_option parse_ty) l c = Ok c' <-> (forall m, In m l -> as_of parse_ty m <> None) /\ lastv (as_of parse_ty) l c = c'.
Proof.
  induction l as [|m l IH]; intros c c'; cbn [run lastv]; [split; [intros [= <-]; split; [intros ? []|reflexivity]|intros [_ <-]; reflexivity]|].
  assert (HM : field_option parse_ty c m = match as_of parse_ty m with Some t => Ok (Some t) | None => Err EInvalid end).
  { destruct m as [| |p []]; cbn; auto. rewrite named_is. destruct (is_ident "as" p); auto. }
  rewrite HM. destruct (as_of parse_ty m) as [t|] eqn:E; cbn [bind].
  - rewrite IH. split; intros [H1 H2]; (split; [|exact H2]); [intros m' [<-|Hm]; [congruence|auto]|intros m' Hm; apply H1; right; exact Hm].
  - split; [discriminate|]. intros [H1 _]. destruct (H1 m (or_introl eq_refl) E).
Qed.
Lemma field_iff ats o : parse_field parse_ty ats = Ok o <-> field_read parse_ty ats o.
Proof. unfold parse_field, field_read. rewrite common_iff, run_field, last_of_iff. reflexivity. Qed.
Lemma fields_iff fs os : parse_fields parse_ty fs = Ok os <-> Forall2 (field_read parse_ty) fs os.
Proof.
  revert os. induction fs as [|f fs IH]; intros os; cbn [parse_fields]; [split; [intros [= <-]; constructor|intros H; inversion H; reflexivity]|]. split.
  - destruct (parse_field parse_ty f) as [o| |] eqn:E; cbn; try discriminate. destruct (parse_fields parse_ty fs) as [os'| |]; cbn; try discriminate. intros [= <-]. constructor; [apply field_iff, E|apply IH; reflexivity].
  - intros H. inversion H as [|? o ? os' H1 H2]; subst. apply field_iff in H1. apply IH in H2. rewrite H1. cbn. rewrite H2. reflexivity.
Qed.
Definition raw_of (m : meta) : option unit := match m with MPath p => if named "raw_variant" p then Some tt else None | _ => None end.
Definition flag (o : option unit) : bool := match o with Some _ => true | None => false end.
Lemma variant_step m size tag raw : (variant_ok m /\ variant_option (size, tag, raw) m =
    Ok (match size_of m with Some x => Some x | None => size end, match tag_of m with Some x => Some x | None => tag end, match raw_of m with Some _ => true | None => raw end)) \/
  (~ variant_ok m /\ variant_option (size, tag, raw) m = Err EInvalid).
Proof.
  assert (HB : forall w n, base10 w n = if Z.of_N n <? 2 ^ w then Some (Z.of_N n) else None) by reflexivity.
  unfold variant_ok. destruct m as [p|p ns|p [n|s|]]; cbn [variant_option size_of tag_of raw_of]; try (right; split; [intros [H|[(n' & H & _)|(n' & H & _)]]; discriminate|reflexivity]).
  - rewrite named_is. destruct (is_ident "raw_variant" p) eqn:E.
    + left. rewrite <- named_is in E. apply named_eq in E. subst p. auto.
    + right. split; [|reflexivity]. intros [H|[(n' & H & _)|(n' & H & _)]]; try discriminate. injection H as ->. discriminate.
  - rewrite !named_is, !HB. destruct (is_ident "tag" p) eqn:E1.
    + assert (is_ident "estimated_size" p = false) as E2 by (rewrite <- named_is in E1; apply named_eq in E1; subst p; reflexivity). rewrite E2. destruct (Z.ltb_spec (Z.of_N n) (2 ^ 128)).
      * left. split; [right; left; eauto|reflexivity].
      * right. split; [|reflexivity]. intros [H1|[(n' & H1 & H2)|(n' & H1 & _)]]; try discriminate. injection H1 as <-. lia.
    + destruct (is_ident "estimated_size" p) eqn:E2.
      * destruct (Z.ltb_spec (Z.of_N n) (2 ^ 64)); [left; split; [right; right; eauto|reflexivity]|]. right. split; [|reflexivity]. intros [H1|[(n' & H1 & _)|(n' & H1 & H2)]]; try discriminate. injection H1 as <-. lia.
      * right. split; [|reflexivity]. intros [H|[(n' & H & _)|(n' & H & _)]]; discriminate.
Qed.
Lemma run_variant l : forall size tag raw c', run variant_option l (size, tag, flag raw) = Ok c' <->
  (forall m, In m l -> variant_ok m) /\ (lastv size_of l size, lastv tag_of l tag, flag (lastv raw_of l raw)) = c'.
Proof.
  induction l as [|m l IH]; intros size tag raw c'; cbn [run lastv]; [split; [intros [= <-]; split; [intros ? []|reflexivity]|intros [_ <-]; reflexivity]|].
  destruct (variant_step m size tag (flag raw)) as [[H ->]|[H ->]]; cbn [bind].
  - replace (match raw_of m with Some _ => true | None => flag raw end) with (flag (match raw_of m with Some x => Some x | None => raw end)) by (destruct (raw_of m); reflexivity).
    rewrite IH. split; intros [H1 H2]; (split; [|exact H2]); [intros m' [<-|Hm]; auto|intros m' Hm; apply H1; right; exact Hm].
  - split; [discriminate|]. intros [H1 _]. destruct (H (H1 m (or_introl eq_refl))).
Qed.
Lemma raw_flag l : flag (lastv raw_of l None) = true <-> In (MPath ["raw_variant"%string]) l.
Proof.
  assert (HR : forall m, raw_of m <> None <-> m = MPath ["raw_variant"%string]).
  { intros [p| |]; cbn; try (split; [congruence|discriminate]). destruct (named "raw_variant" p) eqn:E; [apply named_eq in E; subst; split; [reflexivity|discriminate]|]. split; [congruence|]. intros [= ->]. discriminate. }
  pose proof (proj2 (last_of_iff raw_of l _) eq_refl) as H. destruct (lastv raw_of l None) as [u|]; cbn [last_of flag] in *.
  - split; [|reflexivity]. intros _. destruct H as (l1 & m & l2 & -> & Hm & _). apply in_or_app. right. left. apply HR. congruence.
  - split; [discriminate|]. intros Hin. specialize (H _ Hin). discriminate H.
Qed.
Lemma variant_iff v c r : parse_variant parse_ty v = Ok (c, r) <-> variant_read parse_ty v c /\ (r = true <-> raw_variant v).
Proof.
  unfold parse_variant, variant_read, raw_variant. rewrite !last_of_iff. split.
  - destruct (parse_common variant_option (vd_attrs v) (None, None, false)) as [[[size tag] raw]| |] eqn:E; cbn [bind]; try discriminate.
    apply common_iff in E as [HL E]. change false with (flag None) in E. apply run_variant in E as [H1 H2]. injection H2 as <- <- <-.
    destruct (parse_fields parse_ty (vd_fields v)) as [fs| |] eqn:EF; cbn [bind]; try discriminate. intros [= <- <-]. cbn [vc_tag vc_size vc_fields]. apply fields_iff in EF. rewrite raw_flag. tauto.
  - intros ((HL & H1 & H2 & H3 & H4) & HR). assert (E : parse_common variant_option (vd_attrs v) (None, None, false) = Ok (vc_size c, vc_tag c, r)).
    { apply common_iff. split; [exact HL|]. change false with (flag None). apply run_variant. split; [exact H1|]. rewrite H2, H3. f_equal. rewrite <- raw_flag in HR. destruct r, (flag _); intuition congruence. }
    rewrite E. cbn [bind]. apply fields_iff in H4. rewrite H4. cbn. destruct c; reflexivity.
Qed.
Lemma run_type l : forall c c', run type_option l c = Ok c' <-> (forall m, In m l -> type_ok m) /\ lastv type_of l c = c'.
Proof.
  induction l as [|m l IH]; intros c c'; cbn [run lastv]; [split; [intros [= <-]; split; [intros ? []|reflexivity]|intros [_ <-]; reflexivity]|].
  assert (HM : (type_ok m /\ type_option c m = Ok (match type_of m with Some x => Some x | None => c end)) \/ (~ type_ok m /\ type_option c m = Err EInvalid)).
  { unfold type_ok. destruct m as [p|p ns|p x]; cbn [type_option type_of]; try (right; split; [intros (q & H); discriminate|reflexivity]).
    rewrite named_is. destruct (is_ident "tag_type" p) eqn:E.
    - rewrite <- named_is in E. apply named_eq in E. subst p.
      destruct ns as [|[[q| |]|] [|]]; try (right; split; [intros (q' & H); discriminate|reflexivity]). left. split; [exists q; reflexivity|]. destruct q as [|i [|]]; reflexivity.
    - right. split; [|reflexivity]. intros (q & H). injection H as -> _. discriminate. }
  destruct HM as [[H ->]|[H ->]]; cbn [bind].
  - rewrite IH. split; intros [H1 H2]; (split; [|exact H2]); [intros m' [<-|Hm]; auto|intros m' Hm; apply H1; right; exact Hm].
  - split; [discriminate|]. intros [H1 _]. destruct (H (H1 m (or_introl eq_refl))).
Qed.
Lemma variants_iff vs : forall i cs raw cs' raw', parse_variants parse_ty i vs cs raw = Ok (cs', raw') <->
  exists cs2, cs' = cs ++ cs2 /\ Forall2 (variant_read parse_ty) vs cs2 /\
    match raw with
    | Some j => raw' = Some j /\ forall v, In v vs -> ~ raw_variant v
    | None => match raw' with
              | None => forall v, In v vs -> ~ raw_variant v
              | Some k => exists l1 v l2, vs = l1 ++ v :: l2 /\ i + len l1 = k /\ raw_variant v /\ forall v', In v' (l1 ++ l2) -> ~ raw_variant v'
              end
    end.
Proof.
  induction vs as [|v vs IH]; intros i cs raw cs' raw'; cbn [parse_variants].
  - split.
    + intros [= <- <-]. exists []. rewrite app_nil_r. split; [reflexivity|]. split; [constructor|]. destruct raw; [split; [reflexivity|intros ? []]|intros ? []].
    + intros (cs2 & -> & HF & HR). inversion HF; subst. rewrite app_nil_r. destruct raw as [j|]; [destruct HR as [-> _]; reflexivity|]. destruct raw' as [k|]; [|reflexivity]. destruct HR as (l1 & v & l2 & E & _). destruct l1; discriminate.
  - destruct (parse_variant parse_ty v) as [[c r]| |] eqn:E; cbn [bind].
    + apply variant_iff in E as [HV HR]. destruct r.
      * assert (HRv : raw_variant v) by (apply HR; reflexivity). destruct raw as [j|].
        -- split; [discriminate|]. intros (cs2 & _ & _ & _ & HN). destruct (HN v (or_introl eq_refl) HRv).
        -- rewrite IH. split.
           ++ intros (cs2 & -> & HF & -> & HN). exists (c :: cs2). split; [rewrite <- app_assoc; reflexivity|]. split; [constructor; auto|]. exists [], v, vs. split; [reflexivity|]. split; [rewrite len_nil; lia|]. auto.
           ++ intros (cs2 & -> & HF & HX). inversion HF as [|? c2 ? cs3 HV2 HF2]; subst. assert (c2 = c) as ->.
              { destruct (proj2 (variant_iff v c2 true) (conj HV2 (conj (fun _ => HRv) (fun _ => eq_refl)))). destruct (proj2 (variant_iff v c true) (conj HV HR)). pose proof (proj2 (variant_iff v c2 true) (conj HV2 (conj (fun _ => HRv) (fun _ => eq_refl)))) as A. pose proof (proj2 (variant_iff v c true) (conj HV HR)) as B. congruence. }
              exists cs3. split; [rewrite <- app_assoc; reflexivity|]. split; [exact HF2|]. destruct raw' as [k|]; [|destruct (HX v (or_introl eq_refl) HRv)].
              destruct HX as (l1 & v1 & l2 & E & Hl & H1 & H2). destruct l1 as [|y l1]; cbn [app] in *; [|injection E as -> ->; destruct (H2 y (or_introl eq_refl) HRv)].
              injection E as -> ->. split; [f_equal; rewrite len_nil in Hl; lia|exact H2].
      * assert (HRv : ~ raw_variant v) by (intros H; apply HR in H; discriminate).
        assert (HU : forall c2, variant_read parse_ty v c2 -> c2 = c).
        { intros c2 HV2. assert (HQ : false = true <-> raw_variant v) by (split; [discriminate|intros H; contradiction]). pose proof (proj2 (variant_iff v c2 false) (conj HV2 HQ)). pose proof (proj2 (variant_iff v c false) (conj HV HQ)). congruence. }
        rewrite IH. split.
        -- intros (cs2 & -> & HF & HX). exists (c :: cs2). split; [rewrite <- app_assoc; reflexivity|]. split; [constructor; auto|]. destruct raw as [j|].
           ++ destruct HX as [-> HX]. split; [reflexivity|]. intros v' [<-|Hv]; auto.
           ++ destruct raw' as [k|]; [|intros v' [<-|Hv]; auto]. destruct HX as (l1 & v1 & l2 & -> & Hl & H1 & H2). exists (v :: l1), v1, l2. split; [reflexivity|]. split; [rewrite len_cons; lia|]. split; [exact H1|]. intros v' [<-|Hv]; auto.
        -- intros (cs2 & -> & HF & HX). inversion HF as [|? c2 ? cs3 HV2 HF2]; subst. rewrite (HU c2 HV2). exists cs3. split; [rewrite <- app_assoc; reflexivity|]. split; [exact HF2|]. destruct raw as [j|].
           ++ destruct HX as [-> HX]. split; [reflexivity|]. intros v' Hv. apply HX. right. exact Hv.
           ++ destruct raw' as [k|]; [|intros v' Hv; apply HX; right; exact Hv]. destruct HX as (l1 & v1 & l2 & E & Hl & H1 & H2). destruct l1 as [|y l1]; cbn [app] in E; injection E as E1 E2; [subst v1; contradiction|]. subst y vs.
              exists l1, v1, l2. split; [reflexivity|]. split; [rewrite len_cons in Hl; lia|]. split; [exact H1|]. intros v' Hv. apply H2. right. exact Hv.
    + split; [discriminate|]. intros (cs2 & _ & HF & _). inversion HF as [|? c2 ? cs3 HV2 HF2]; subst.
      assert (Hdec : exists r, r = true <-> raw_variant v) by (exists (flag (lastv raw_of (opts (vd_attrs v)) None)); apply raw_flag). destruct Hdec as [r Hr].
      pose proof (proj2 (variant_iff v c2 r) (conj HV2 Hr)). congruence.
    + split; [discriminate|]. intros (cs2 & _ & HF & _). inversion HF as [|? c2 ? cs3 HV2 HF2]; subst.
      assert (Hdec : exists r, r = true <-> raw_variant v) by (exists (flag (lastv raw_of (opts (vd_attrs v)) None)); apply raw_flag). destruct Hdec as [r Hr].
      pose proof (proj2 (variant_iff v c2 r) (conj HV2 Hr)). congruence.
Qed.

(** Which declarations are taken, and as what: exactly those whose options are the
    listed ones; everything else is a compile error, never a panic. *)
Theorem C93_partial : forall d, (forall c, parse_config parse_ty d = Ok c <-> config_read parse_ty d c) /\
  ((exists c, parse_config parse_ty d = Ok c) \/ parse_config parse_ty d = Err EInvalid).
Proof using.
  intros d. split.
  - intros c. unfold parse_config, config_read. rewrite last_of_iff. split.
    + destruct (parse_common type_option (type_attrs d) None) as [t| |] eqn:E; cbn [bind]; try discriminate. apply common_iff in E as [HL E]. apply run_type in E as [H1 H2].
      destruct (parse_variants parse_ty 0 (variants d) [] None) as [[cs raw]| |] eqn:EV; cbn [bind]; try discriminate. intros [= <-]. cbn [cf_tag_type cf_variants cf_raw].
      apply variants_iff in EV as (cs2 & -> & HF & HR). cbn [app]. split; [exact HL|]. split; [exact H1|]. split; [exact H2|]. split; [exact HF|]. unfold raw_read. destruct raw as [k|]; [|exact HR].
      destruct HR as (l1 & v & l2 & A & B & C). exists l1, v, l2. split; [exact A|]. split; [lia|exact C].
    + intros (HL & H1 & H2 & HF & HR). assert (E : parse_common type_option (type_attrs d) None = Ok (cf_tag_type c)) by (apply common_iff; split; [exact HL|]; apply run_type; auto). rewrite E. cbn [bind].
      assert (EV : parse_variants parse_ty 0 (variants d) [] None = Ok (cf_variants c, cf_raw c)).
      { apply variants_iff. exists (cf_variants c). split; [reflexivity|]. split; [exact HF|]. unfold raw_read in HR. destruct (cf_raw c); [|exact HR]. destruct HR as (l1 & v & l2 & A & B & C). exists l1, v, l2. split; [exact A|]. split; [lia|exact C]. }
      rewrite EV. cbn. destruct c; reflexivity.
  - assert (HE : forall A (x : res A), (exists a, x = Ok a) \/ x = Err EInvalid -> True) by auto.
    assert (HC : forall C (f : C -> meta -> res C) ats, (forall c m, (exists c', f c m = Ok c') \/ f c m = Err EInvalid) -> forall c, (exists c', parse_common f ats c = Ok c') \/ parse_common f ats c = Err EInvalid).
    { clear. intros C f ats Hf. assert (HN : forall ns c, (exists c', parse_nested f ns c = Ok c') \/ parse_nested f ns c = Err EInvalid).
      { induction ns as [|[m|x] ns IH]; intros c; cbn; eauto. destruct (Hf c m) as [[c' ->]| ->]; cbn; auto. }
      induction ats as [|a ats IH]; intros c; cbn; eauto. destruct (is_ident _ _); auto. destruct (a_meta a) as [[| p ns |]|]; cbn; auto. destruct (HN ns c) as [[c' ->]| ->]; cbn; auto. }
    assert (H1 : forall c m, (exists c', type_option c m = Ok c') \/ type_option c m = Err EInvalid).
    { intros c [|p ns|]; cbn; auto. destruct (is_ident _ _); auto. destruct ns as [|[[q| |]|] [|]]; cbn; auto. destruct (get_ident q); eauto. }
    assert (H2 : forall c m, (exists c', field_option parse_ty c m = Ok c') \/ field_option parse_ty c m = Err EInvalid).
    { intros c [| |p []]; cbn; auto. destruct (is_ident _ _); auto. destruct (parse_ty s); eauto. }
    assert (H3 : forall c m, (exists c', variant_option c m = Ok c') \/ variant_option c m = Err EInvalid).
    { intros [[s t] r] m. destruct (variant_step m s t r) as [[_ ->]|[_ ->]]; eauto. }
    assert (H4 : forall fs, (exists os, parse_fields parse_ty fs = Ok os) \/ parse_fields parse_ty fs = Err EInvalid).
    { induction fs as [|f fs IH]; cbn; eauto. destruct (HC _ _ f H2 None) as [[o E]|E]; unfold parse_field; rewrite E; cbn; auto. destruct IH as [[os ->]| ->]; cbn; eauto. }
    assert (H5 : forall v, (exists c, parse_variant parse_ty v = Ok c) \/ parse_variant parse_ty v = Err EInvalid).
    { intros v. unfold parse_variant. destruct (HC _ _ (vd_attrs v) H3 (None, None, false)) as [[[[s t] r] ->]| ->]; cbn [bind]; auto. destruct (H4 (vd_fields v)) as [[os ->]| ->]; cbn; eauto. }
    assert (H6 : forall vs i cs raw, (exists c, parse_variants parse_ty i vs cs raw = Ok c) \/ parse_variants parse_ty i vs cs raw = Err EInvalid).
    { induction vs as [|v vs IH]; intros i cs raw; cbn; eauto. destruct (H5 v) as [[[c r] ->]| ->]; cbn; auto. destruct r, raw; auto. }
    unfold parse_config. destruct (HC _ _ (type_attrs d) H1 None) as [[t ->]| ->]; cbn [bind]; auto. destruct (H6 (variants d) 0 [] None) as [[[cs raw] ->]| ->]; cbn; eauto.
Qed.
End Props.
Local Open Scope string_scope.
Example C93_partial_ex : exists c, parse_config ty ex_enum = Ok c /\ config_read ty ex_enum c /\ cf_tag_type c = Some "u8" /\ map vc_tag (cf_variants c) = [Some 3; None; None].
Proof. eexists. split; [vm_compute; reflexivity|]. split; [apply C93_partial; reflexivity|]. split; reflexivity. Qed.
(** An option on a field that belongs on a variant is refused. *)
Example C93_misplaced_ex : parse_config ty (DEnum [coffer [t_u8]] [vd [] None [[coffer [tag 3]]]]) = Err EInvalid.
Proof. reflexivity. Qed.
Local Close Scope string_scope.
Section Props.
Context {T : Type} (parse_ty : string -> option T).

(** ** Attributes with other names *)
Lemma only_common {C} (f : C -> meta -> res C) ats : forall c, parse_common f (only ats) c = parse_common f ats c.
Proof.
  unfold only. induction ats as [|a ats IH]; intros c; [reflexivity|]. cbn [filter parse_common]. rewrite named_is. destruct (is_ident "coffer" (a_path a)) eqn:E; [|apply IH].
  cbn [parse_common]. rewrite E. destruct (a_meta a) as [[| p ns |]|]; auto. destruct (parse_nested f ns c); cbn; auto.
Qed.
Lemma only_fields fs : parse_fields parse_ty (map only fs) = parse_fields parse_ty fs.
Proof. induction fs as [|f fs IH]; [reflexivity|]. cbn [map parse_fields]. unfold parse_field. rewrite only_common, IH. reflexivity. Qed.
Lemma only_variants vs : forall i cs raw, parse_variants parse_ty i (map only_v vs) cs raw = parse_variants parse_ty i vs cs raw.
Proof.
  induction vs as [|v vs IH]; intros i cs raw; [reflexivity|]. cbn [map parse_variants]. unfold parse_variant, only_v at 1 2. cbn [vd_attrs vd_fields]. rewrite only_common, only_fields.
  destruct (parse_common _ _ _) as [[[s t] r]| |]; cbn [bind]; auto. destruct (parse_fields _ _) as [os| |]; cbn [bind]; auto. destruct r, raw; auto.
Qed.
Lemma only_config d : parse_config parse_ty (only_d d) = parse_config parse_ty d.
Proof.
  unfold parse_config. assert (H : type_attrs (only_d d) = only (type_attrs d)) by (destruct d; reflexivity). rewrite H, only_common.
  assert (HV : variants (only_d d) = map only_v (variants d)) by (destruct d; reflexivity). rewrite HV, only_variants. reflexivity.
Qed.

(** The refutation: options that are written down and have no effect, nor are they
    refused. *)
Theorem C93_refuted :
  (* attributes of their own: [#[tag = 7]], [#[tag_type(u8)]], [#[vec_len_type(u32)]],
     which lib.rs 56-64 registers and documents *)
  (forall d, parse_config parse_ty (only_d d) = parse_config parse_ty d) /\
  (* a tag type that is a path of more than one word *)
  (forall p q a vs, (2 <= List.length p)%nat ->
     parse_config parse_ty (DEnum ({| a_path := ["coffer"%string]; a_meta := Some (MList q [inl (MList ["tag_type"%string] [inl (MPath p)])]) |} :: a) vs) = parse_config parse_ty (DEnum a vs)) /\
  (* a discriminant that is not a literal *)
  (forall md a vs, derive_rw parse_ty md (DEnum a (map forget vs)) = derive_rw parse_ty md (DEnum a vs)).
Proof using.
  split; [exact only_config|]. split.
  - intros [|x [|y p]] q a vs Hp; cbn [List.length] in Hp; try lia. reflexivity.
  - intros md a vs. unfold derive_rw, parse_config. cbn [type_attrs variants].
    assert (HV : forall vs i cs raw, parse_variants parse_ty i (map forget vs) cs raw = parse_variants parse_ty i vs cs raw).
    { clear. induction vs as [|v vs IH]; intros i cs raw; [reflexivity|]. cbn [map parse_variants]. change (parse_variant parse_ty (forget v)) with (parse_variant parse_ty v). destruct (parse_variant parse_ty v) as [[c r]| |]; cbn [bind]; auto. destruct r, raw; auto. }
    rewrite HV. destruct (parse_common _ _ _); cbn [bind]; auto. destruct (parse_variants _ _ _ _ _) as [[cs raw]| |]; cbn [bind cf_variants]; auto.
    assert (HS : scan_tags md 0 (map forget vs) cs = scan_tags md 0 vs cs); [|rewrite HS; reflexivity].
    clear. generalize 0 as fb. revert cs. induction vs as [|v vs IH]; intros [|c cs] fb; try reflexivity. cbn [map scan_tags]. unfold forget at 1. cbn [vd_disc].
    assert (HD : match vc_tag c with Some t => Ok t | None => match match vd_disc v with Some DExpr => None | o => o end with Some (DInt n) => match base10 128 n with Some t => Ok t | None => Panic PUnwrap end | _ => Ok fb end end
      = match vc_tag c with Some t => Ok t | None => match vd_disc v with Some (DInt n) => match base10 128 n with Some t => Ok t | None => Panic PUnwrap end | _ => Ok fb end end) by (destruct (vd_disc v) as [[n|]|]; reflexivity).
    rewrite HD. clear HD. destruct (vc_tag c) as [t|]; cbn [bind]; [destruct (chk_u md 128 (t + 1)); cbn [bind]; auto; rewrite IH; reflexivity|].
    destruct (match vd_disc v with Some _ => _ | None => _ end) as [t| |]; cbn [bind]; auto. destruct (chk_u md 128 (t + 1)); cbn [bind]; auto; rewrite IH; reflexivity.
Qed.
End Props.
Local Open Scope string_scope.
(** [#[tag(7)]] without [coffer] is dropped; the tag is 0. *)
Example C93_refuted_bare_ex : forall md, derive_rw ty md (DEnum [coffer [t_u8]] [vd [bare ["tag"] (MList ["tag"] [inr (LitInt 7)])] None []]) = Ok (PEnum "u8" [(0, [])]).
Proof. intros []; vm_compute; reflexivity. Qed.
(** A [const] or [1 + 1] as discriminant is dropped; the tag is 1, not 5. *)
Example C93_refuted_disc_ex : forall md, derive_rw ty md (DEnum [coffer [t_u8]] [vd [] None []; vd [] (Some DExpr) []]) = Ok (PEnum "u8" [(0, []); (1, [])]).
Proof. intros []; vm_compute; reflexivity. Qed.
(** Of two types, the path of two words is dropped. *)
Example C93_refuted_path_ex : forall md, derive_rw ty md (DEnum [coffer [t_u8]; coffer [MList ["tag_type"] [inl (MPath ["std"; "u64"])]]] [vd [] None []]) = Ok (PEnum "u8" [(0, [])]).
Proof. intros []; vm_compute; reflexivity. Qed.
Local Close Scope string_scope.
Section Props.
Context {T : Type} (parse_ty : string -> option T).

(** Options on a struct: none is taken. *)
Theorem C93_struct : forall md a fs, (forall os, derive_rw parse_ty md (DStruct a fs) = Ok (PStruct os) <-> listed a /\ opts a = [] /\ Forall2 (field_read parse_ty) fs os) /\
  ((exists os, derive_rw parse_ty md (DStruct a fs) = Ok (PStruct os)) \/ derive_rw parse_ty md (DStruct a fs) = Err EInvalid).
Proof using.
  intros md a fs. destruct (C93_partial parse_ty (DStruct a fs)) as [HI HT].
  assert (HK : forall c, config_read parse_ty (DStruct a fs) c -> opts a = [] /\ exists v, cf_variants c = [v] /\ Forall2 (field_read parse_ty) fs (vc_fields v)).
  { intros c (HL & H1 & _ & HF & _). cbn [type_attrs variants] in *. inversion HF as [|? v ? l HV HF2]; subst. inversion HF2; subst. destruct HV as (_ & K2 & _ & _ & K3). cbn [vd_attrs vd_fields] in *.
    split; [|exists v; auto]. destruct (opts a) as [|m l]; [reflexivity|]. destruct (H1 m (or_introl eq_refl)) as [q ->]. destruct (K2 _ (or_introl eq_refl)) as [E|[(n & E & _)|(n & E & _)]]; discriminate. }
  assert (HD : forall c, parse_config parse_ty (DStruct a fs) = Ok c -> exists v, cf_variants c = [v] /\ derive_rw parse_ty md (DStruct a fs) = Ok (PStruct (vc_fields v))).
  { intros c E. destruct (HK c (proj1 (HI c) E)) as [_ (v & Hv & _)]. exists v. split; [exact Hv|]. unfold derive_rw. rewrite E. cbn [bind]. rewrite Hv. reflexivity. }
  split.
  - intros os. split.
    + intros H. destruct (parse_config parse_ty (DStruct a fs)) as [c| |] eqn:E; [|unfold derive_rw in H; rewrite E in H; discriminate|unfold derive_rw in H; rewrite E in H; discriminate].
      destruct (HD c eq_refl) as (v & Hv & E2). rewrite E2 in H. injection H as <-. destruct (proj1 (HI c) eq_refl) as (HL & HR). destruct (HK c (conj HL HR)) as (HO & v' & Hv' & HF). rewrite Hv in Hv'. injection Hv' as <-. auto.
    + intros (HL & HO & HF). assert (HC : config_read parse_ty (DStruct a fs) {| cf_variants := [{| vc_size := None; vc_tag := None; vc_fields := os |}]; cf_raw := None; cf_tag_type := None |}).
      { unfold config_read, variant_read, raw_read, raw_variant. cbn [type_attrs variants cf_tag_type cf_variants cf_raw]. rewrite HO. split; [exact HL|]. split; [intros ? []|]. split; [intros ? []|]. split.
        - constructor; [|constructor]. cbn [vd_attrs vd_fields vc_tag vc_size vc_fields]. rewrite HO. split; [exact HL|]. split; [intros ? []|]. split; [intros ? []|]. split; [intros ? []|exact HF].
        - intros v [<-|[]]. cbn [vd_attrs]. rewrite HO. intros []. }
      apply HI in HC. unfold derive_rw. rewrite HC. reflexivity.
  - destruct HT as [[c E]|E]; [left; destruct (HD c E) as (v & _ & H); eauto|right; unfold derive_rw; rewrite E; reflexivity].
Qed.
End Props.
Local Open Scope string_scope.
Example C93_struct_ex : forall md, derive_rw ty md (DStruct [doc] [[coffer [MValue ["as"] (LitStr "u16")]]; []]) = Ok (PStruct [Some "u16"; None])
  /\ derive_rw ty md (DStruct [coffer [t_u8]] []) = Err EInvalid /\ derive_rw ty md (DStruct [coffer [tag 1]] []) = Err EInvalid.
Proof. intros []; repeat split. Qed.
Local Close Scope string_scope.
Section Props.
Context {T : Type} (parse_ty : string -> option T).

(** ** Tags *)
Definition declared_tags (vs : list vdecl) (cs : list (variant_cfg T)) : list (option Z) := map (fun x => tag_declared (fst x) (snd x)) (combine vs cs).
Definition too_big (vs : list vdecl) (cs : list (variant_cfg T)) : Prop :=
  exists v c n, In (v, c) (combine vs cs) /\ vc_tag c = None /\ vd_disc v = Some (DInt n) /\ 2 ^ 128 <= Z.of_N n.
Lemma scan_head md fb v (c : variant_cfg T) vs cs : 0 <= fb < 2 ^ 128 -> (forall t, vc_tag c = Some t -> 0 <= t < 2 ^ 128) ->
  (exists n, vc_tag c = None /\ vd_disc v = Some (DInt n) /\ 2 ^ 128 <= Z.of_N n /\ scan_tags md fb (v :: vs) (c :: cs) = Panic PUnwrap) \/
  (exists t, 0 <= t < 2 ^ 128 /\ (match tag_declared v c with Some t => t | None => fb end) = t /\ (forall n, vc_tag c = None -> vd_disc v = Some (DInt n) -> Z.of_N n < 2 ^ 128) /\
     scan_tags md fb (v :: vs) (c :: cs) = (next <- chk_u md 128 (t + 1) ;; tags <- scan_tags md next vs cs ;; Ok (t :: tags))).
Proof.
  intros Hfb Ht. cbn [scan_tags]. unfold tag_declared. destruct (vc_tag c) as [t|] eqn:E.
  - right. exists t. split; [apply Ht; reflexivity|]. split; [reflexivity|]. split; [discriminate|reflexivity].
  - destruct (vd_disc v) as [[n|]|].
    + unfold base10. destruct (Z.ltb_spec (Z.of_N n) (2 ^ 128)) as [Hn|Hn].
      * right. exists (Z.of_N n). split; [lia|]. split; [reflexivity|]. split; [intros n' _ [= <-]; exact Hn|reflexivity].
      * left. exists n. auto.
    + right. exists fb. split; [exact Hfb|]. split; [reflexivity|]. split; [discriminate|reflexivity].
    + right. exists fb. split; [exact Hfb|]. split; [reflexivity|]. split; [discriminate|reflexivity].
Qed.
Lemma chk_next md t : 0 <= t < 2 ^ 128 -> (t < 2 ^ 128 - 1 /\ chk_u md 128 (t + 1) = Ok (t + 1)) \/ (t = 2 ^ 128 - 1 /\ chk_u md 128 (t + 1) = match md with Debug => Panic POverflow | Release => Ok 0 end).
Proof.
  intros H. unfold chk_u. destruct (Z.leb_spec 0 (t + 1)); [|lia]. destruct (Z.ltb_spec (t + 1) (2 ^ 128)); cbn [andb]; [left; split; [lia|reflexivity]|].
  right. split; [lia|]. destruct md; [reflexivity|]. f_equal. unfold wrap_u. replace (t + 1) with (2 ^ 128) by lia. reflexivity.
Qed.
Lemma scan_ok md vs : forall (cs : list (variant_cfg T)) fb, 0 <= fb < 2 ^ 128 -> List.length cs = List.length vs -> (forall c t, In c cs -> vc_tag c = Some t -> 0 <= t < 2 ^ 128) ->
  (forall ts, scan_tags md fb vs cs = Ok ts -> List.length ts = List.length vs /\ (md = Debug \/ Forall (fun t => t < 2 ^ 128 - 1) ts -> ts = derive_tags_from fb (declared_tags vs cs))) /\
  (is_panic (scan_tags md fb vs cs) = true <-> too_big vs cs \/ (md = Debug /\ In (2 ^ 128 - 1) (derive_tags_from fb (declared_tags vs cs)))) /\
  (forall e, scan_tags md fb vs cs <> Err e).
Proof.
  induction vs as [|v vs IH]; intros [|c cs] fb Hfb HL HT; try discriminate HL.
  - cbn. split; [intros ts [= <-]; auto|]. split; [|discriminate]. split; [discriminate|]. intros [(? & ? & ? & [] & _)|[_ []]].
  - injection HL as HL. assert (HT2 : forall c t, In c cs -> vc_tag c = Some t -> 0 <= t < 2 ^ 128) by (intros c' t' Hc'; apply HT; right; exact Hc').
    assert (HB : forall P : Prop, (forall n, vc_tag c = None -> vd_disc v = Some (DInt n) -> Z.of_N n < 2 ^ 128) -> (too_big (v :: vs) (c :: cs) \/ P <-> too_big vs cs \/ P)).
    { intros P Hn. unfold too_big. cbn [combine]. split; (intros [(v' & c' & n & Hin & A)|HP]; [left|right; exact HP]).
      - destruct Hin as [[= <- <-]|Hin]; [destruct A as (A1 & A2 & A3); specialize (Hn n A1 A2); lia|]. exists v', c', n. auto.
      - exists v', c', n. split; [right; exact Hin|exact A]. }
    destruct (scan_head md fb v c vs cs Hfb (fun t => HT c t (or_introl eq_refl))) as [(n & A1 & A2 & A3 & ->)|(t & Ht & Hd & Hn & ->)].
    + split; [discriminate|]. split; [|discriminate]. split; [|reflexivity]. intros _. left. exists v, c, n. split; [left; reflexivity|auto].
    + rewrite (HB _ Hn). unfold declared_tags. cbn [combine map derive_tags_from fst snd]. fold (declared_tags vs cs). rewrite Hd.
      destruct (chk_next md t Ht) as [[Hl ->]|[Hl ->]]; cbn [bind].
      * destruct (IH cs (t + 1) ltac:(lia) HL HT2) as (I1 & I2 & I3). destruct (scan_tags md (t + 1) vs cs) as [ts| |] eqn:E; cbn [bind].
        -- split; [|split; [|discriminate]].
           ++ intros ts' [= <-]. destruct (I1 ts eq_refl) as [J1 J2]. split; [cbn; congruence|]. intros HQ. f_equal. apply J2. destruct HQ as [->|HQ]; [auto|]. inversion HQ; auto.
           ++ cbn [is_panic] in *. split; [discriminate|]. intros [H|[H1 [H2|H2]]]; [apply I2; auto|lia|apply I2; auto].
        -- destruct (I3 _ eq_refl).
        -- split; [discriminate|]. split; [|discriminate]. split; [|reflexivity]. intros _. destruct (proj1 I2 eq_refl) as [H|[H1 H2]]; [left; exact H|right; split; [exact H1|right; exact H2]].
      * destruct md; cbn [bind].
        -- split; [discriminate|]. split; [|discriminate]. split; [|reflexivity]. intros _. right. split; [reflexivity|left; exact Hl].
        -- destruct (IH cs 0 ltac:(lia) HL HT2) as (I1 & I2 & I3). destruct (scan_tags Release 0 vs cs) as [ts| |] eqn:E; cbn [bind].
           ++ split; [|split; [|discriminate]].
              ** intros ts' [= <-]. destruct (I1 ts eq_refl) as [J1 _]. split; [cbn; congruence|]. intros [HQ|HQ]; [discriminate|]. inversion HQ. lia.
              ** cbn [is_panic] in *. split; [discriminate|]. intros [H|[H1 _]]; [apply I2; auto|discriminate].
           ++ destruct (I3 _ eq_refl).
           ++ split; [discriminate|]. split; [|discriminate]. split; [|reflexivity]. intros _. destruct (proj1 I2 eq_refl) as [H|[H1 _]]; [auto|discriminate].
Qed.
Lemma read_tags d c : config_read parse_ty d c -> List.length (cf_variants c) = List.length (variants d) /\ forall v t, In v (cf_variants c) -> vc_tag v = Some t -> 0 <= t < 2 ^ 128.
Proof.
  intros (_ & _ & _ & HF & _). split; [symmetry; eapply f2_len; exact HF|]. induction HF as [|v cv vs cs HV HF IH]; intros v0 t Hin Ht; [destruct Hin|]. destruct Hin as [<-|Hin]; [|eapply IH; eauto].
  destruct HV as (_ & HO & HL & _). rewrite Ht in HL. cbn [last_of] in HL. destruct HL as (l1 & m & l2 & E & Hm & _). assert (Hi : In m (opts (vd_attrs v))) by (rewrite E; apply in_or_app; right; left; reflexivity).
  split; [destruct m as [| |p [n| |]]; cbn in Hm; try discriminate; destruct (named "tag" p); try discriminate; injection Hm as <-; lia|].
  destruct (HO m Hi) as [->|[(n & E1 & Hn)|(n & E1 & Hn)]]; [discriminate|congruence|]. destruct m as [| |p [n'| |]]; cbn in Hm, E1; try discriminate. destruct (named "tag" p) eqn:N1; try discriminate. apply named_eq in N1. subst p. discriminate.
Qed.
Lemma right_from ds : forall d, List.length (derive_tags_from d ds) = List.length ds /\
  forall i t, nth_error (derive_tags_from d ds) i = Some t ->
    match nth_error ds i with
    | Some (Some x) => t = x
    | _ => match i with O => t = d | S j => exists u, nth_error (derive_tags_from d ds) j = Some u /\ t = u + 1 end
    end.
Proof.
  induction ds as [|o ds IH]; intros d; cbn [derive_tags_from List.length]; [split; [reflexivity|]; intros [|i] t; discriminate|]. destruct (IH (match o with Some t => t | None => d end + 1)) as [IL IT].
  split; [congruence|]. intros [|i] t Hi; cbn [nth_error] in *; [injection Hi as <-; destruct o; reflexivity|]. specialize (IT i t Hi). destruct (nth_error ds i) as [[x|]|]; auto; destruct i; cbn [nth_error]; eauto.
Qed.

Lemma nth_error_ext {A} (l m : list A) : (forall i, nth_error l i = nth_error m i) -> l = m.
Proof.
  revert m. induction l as [|x l IH]; intros [|y m] H; auto; try (specialize (H O); discriminate). f_equal; [specialize (H O); injection H as ->; reflexivity|]. apply IH. intros i. exact (H (S i)).
Qed.
Lemma right_unique ds ts : tags_right ds ts -> ts = derive_tags_from 0 ds.
Proof.
  intros [HL HT]. destruct (right_from ds 0) as [DL DT]. apply nth_error_ext. intros i. induction i as [i IH] using (well_founded_induction lt_wf).
  destruct (nth_error ts i) as [t|] eqn:E.
  - assert (Hi : (i < List.length (derive_tags_from 0 ds))%nat) by (rewrite DL, <- HL; apply nth_error_Some; congruence). destruct (nth_error (derive_tags_from 0 ds) i) as [u|] eqn:Eu; [|apply nth_error_Some in Hi; congruence].
    specialize (HT i t E). specialize (DT i u Eu). f_equal. destruct (nth_error ds i) as [[x|]|]; try congruence; (destruct i as [|j]; [congruence|]; destruct HT as (a & A1 & ->), DT as (b & B1 & ->); specialize (IH j ltac:(lia)); congruence).
  - symmetry. apply nth_error_None. rewrite DL, <- HL. apply nth_error_None, E.
Qed.
(** What an enum is taken as: the tags that the options, the discriminants and the
    order of the variants give, and the fields of every variant. *)
Theorem C93_tags : forall md a vs t arms, derive_rw parse_ty md (DEnum a vs) = Ok (PEnum t arms) ->
  exists c, config_read parse_ty (DEnum a vs) c /\ cf_tag_type c = Some t /\ map snd arms = map vc_fields (cf_variants c) /\ List.length arms = List.length vs /\
    (md = Debug \/ Forall (fun x => fst x < 2 ^ 128 - 1) arms -> tags_right (map (fun x => tag_declared (fst x) (snd x)) (combine vs (cf_variants c))) (map fst arms)).
Proof using.
  intros md a vs t arms H. unfold derive_rw in H. destruct (parse_config parse_ty (DEnum a vs)) as [c| |] eqn:E; cbn [bind] in H; try discriminate. apply C93_partial in E. exists c. split; [exact E|].
  destruct (read_tags _ _ E) as [HL HT]. cbn [variants] in HL. destruct (scan_ok md vs (cf_variants c) 0 ltac:(lia) HL HT) as (S1 & _ & _). destruct (scan_tags md 0 vs (cf_variants c)) as [ts| |]; cbn [bind] in H; try discriminate.
  destruct (S1 ts eq_refl) as [L1 R1]. destruct (cf_tag_type c) as [t'|]; try discriminate. injection H as <- <-. split; [reflexivity|].
  assert (HF : map fst (combine ts (map vc_fields (cf_variants c))) = ts).
  { assert (List.length ts = List.length (map vc_fields (cf_variants c))) as Q by (rewrite map_length; congruence). revert Q. clear. generalize (map vc_fields (cf_variants c)). induction ts as [|x ts IH]; intros [|y l] Q; try discriminate Q; cbn; auto. f_equal. apply IH. injection Q as Q. exact Q. }
  split; [|split; [|intros HQ; rewrite HF]].
  - assert (List.length ts = List.length (map vc_fields (cf_variants c))) as Q by (rewrite map_length; congruence). revert Q. clear. generalize (map vc_fields (cf_variants c)). induction ts as [|x ts IH]; intros [|y l] Q; try discriminate Q; cbn; auto. f_equal. apply IH. injection Q as Q. exact Q.
  - rewrite combine_length, map_length, L1, HL. apply Nat.min_id.
  - assert (HQ2 : md = Debug \/ Forall (fun t => t < 2 ^ 128 - 1) ts) by (destruct HQ as [HQ|HQ]; [auto|right; rewrite <- HF; apply Forall_map; exact HQ]). rewrite (R1 HQ2).
    destruct (right_from (declared_tags vs (cf_variants c)) 0) as [A B]. unfold tags_right. split; [exact A|exact B].
Qed.
End Props.
Local Open Scope string_scope.
Example C93_tags_ex : forall md, derive_rw ty md ex_enum = Ok (PEnum "u8" [(3, [Some "u16"]); (9, []); (10, [None])]).
Proof. intros []; vm_compute; reflexivity. Qed.
Local Close Scope string_scope.
Section Props.
Context {T : Type} (parse_ty : string -> option T).

(** When the macros panic instead of reporting an error. *)
Theorem C93_panics : forall md d, is_panic (derive_rw parse_ty md d) = true <->
  exists a vs c, d = DEnum a vs /\ config_read parse_ty d c /\
    (cf_tag_type c = None \/
     (exists v cv n, In (v, cv) (combine vs (cf_variants c)) /\ vc_tag cv = None /\ vd_disc v = Some (DInt n) /\ 2 ^ 128 <= Z.of_N n) \/
     (md = Debug /\ exists ts, tags_right (map (fun x => tag_declared (fst x) (snd x)) (combine vs (cf_variants c))) ts /\ In (2 ^ 128 - 1) ts)).
Proof using.
  intros md [a fs|a vs].
  - split; [|intros (? & ? & ? & H & _); discriminate]. destruct (C93_struct parse_ty md a fs) as [_ [[os ->]| ->]]; discriminate.
  - unfold derive_rw. split.
    + destruct (parse_config parse_ty (DEnum a vs)) as [c| |] eqn:E; cbn [bind]; [|discriminate|destruct (C93_partial parse_ty (DEnum a vs)) as [_ [[c' E']|E']]; congruence].
      apply C93_partial in E. intros H. exists a, vs, c. split; [reflexivity|]. split; [exact E|]. destruct (read_tags parse_ty _ _ E) as [HL HT]. destruct (scan_ok md vs (cf_variants c) 0 ltac:(lia) HL HT) as (_ & S2 & _).
      destruct (scan_tags md 0 vs (cf_variants c)) as [ts| |]; cbn [bind] in H; [|discriminate|].
      * destruct (cf_tag_type c); [discriminate|left; reflexivity].
      * right. destruct (proj1 S2 eq_refl) as [HB|[HM HI]]; [left; exact HB|right]. split; [exact HM|]. exists (derive_tags_from 0 (declared_tags vs (cf_variants c))). split; [apply right_from|exact HI].
    + intros (a' & vs' & c & [= <- <-] & E & H). destruct (read_tags parse_ty _ _ E) as [HL HT]. destruct (scan_ok md vs (cf_variants c) 0 ltac:(lia) HL HT) as (_ & S2 & S3). apply C93_partial in E. rewrite E. cbn [bind].
      destruct (scan_tags md 0 vs (cf_variants c)) as [ts|e|] eqn:ES; cbn [bind]; [|destruct (S3 e eq_refl)|reflexivity]. destruct H as [->|H]; [reflexivity|].
      assert (HS : is_panic (Ok ts) = true); [|discriminate HS]. apply S2. destruct H as [H|(HM & ts' & HR & HI)]; [left; exact H|right]. split; [exact HM|]. apply right_unique in HR. subst ts'. exact HI.
Qed.
End Props.
Local Open Scope string_scope.
Example C93_panics_ex : is_panic (derive_rw ty Release (DEnum [] [vd [] None []])) = true
  /\ is_panic (derive_rw ty Release (DEnum [coffer [t_u8]] [vd [] (Some (DInt (2 ^ 128))) []])) = true
  /\ is_panic (derive_rw ty Debug (DEnum [coffer [t_u8]] [vd [coffer [tag (2 ^ 128 - 1)]] None []])) = true
  /\ is_panic (derive_rw ty Release (DEnum [coffer [t_u8]] [vd [coffer [tag (2 ^ 128 - 1)]] None []])) = false.
Proof. repeat split; vm_compute; reflexivity. Qed.
Local Close Scope string_scope.
Section Props.
Context {T : Type} (parse_ty : string -> option T).

(** ** Attribute enums *)
Lemma take_all fs : forall os, List.length os = List.length fs -> take_fields (T := T) fs os = Ok os.
Proof. induction fs as [|f fs IH]; intros [|o os] H; try discriminate H; [reflexivity|]. cbn [take_fields]. rewrite IH by (injection H as H; exact H). reflexivity. Qed.
Lemma attr_write_app raw vs : forall i cs v c, i + len vs = raw -> Forall2 (fun v c => List.length (vc_fields c) = List.length (vd_fields v)) vs cs -> vd_fields v <> [] ->
  attr_write (T := T) raw i (vs ++ [v]) (cs ++ [c]) = Ok (map vc_fields cs ++ [[]]).
Proof.
  induction vs as [|v0 vs IH]; intros i cs v c Hi HF Hv; inversion HF as [|? c0 ? cs' H1 H2]; subst; cbn [app attr_write map].
  - rewrite len_nil, Z.add_0_r, Z.eqb_refl. destruct (vd_fields v); [congruence|reflexivity].
  - pose proof (len_nonneg vs). pose proof (len_cons v0 vs). destruct (Z.eqb_spec i (i + len (v0 :: vs))); [lia|]. rewrite take_all by exact H1. cbn [bind]. rewrite IH; [reflexivity|lia|exact H2|exact Hv].
Qed.
Lemma attr_read_app raw vs : forall i cs v c, i + len vs = raw -> Forall2 (fun v c => List.length (vc_fields c) = List.length (vd_fields v)) vs cs ->
  attr_read (T := T) raw i (vs ++ [v]) (cs ++ [c]) = Ok (map vc_fields cs).
Proof.
  induction vs as [|v0 vs IH]; intros i cs v c Hi HF; inversion HF as [|? c0 ? cs' H1 H2]; subst; cbn [app attr_read map].
  - rewrite len_nil, Z.add_0_r, Z.eqb_refl. reflexivity.
  - pose proof (len_nonneg vs). pose proof (len_cons v0 vs). destruct (Z.eqb_spec i (i + len (v0 :: vs))); [lia|]. rewrite take_all by exact H1. cbn [bind]. rewrite IH; [reflexivity|lia|exact H2].
Qed.
(** With the raw variant in the last place, and holding something, the macro never
    panics, and every other variant is read as it is written. *)
Theorem C93_attr : forall a vs v c, config_read parse_ty (DEnum a (vs ++ [v])) c -> raw_variant v -> vd_fields v <> [] ->
  exists rs, derive_attr parse_ty (DEnum a (vs ++ [v])) = Ok (len vs, rs ++ [[]], rs) /\ Forall2 (fun v r => Forall2 (field_read parse_ty) (vd_fields v) r) vs rs.
Proof using.
  intros a vs v c HC HR Hv. pose proof HC as HC2. apply C93_partial in HC2. destruct HC as (_ & _ & _ & HF & HW). cbn [variants] in HF, HW.
  apply Forall2_app_inv_l in HF as (cs & cs2 & HF & HF2 & Ecs). inversion HF2 as [|? c0 ? cs3 HV HF3]; subst. inversion HF3; subst.
  assert (HI : cf_raw c = Some (len vs)).
  { unfold raw_read in HW. destruct (cf_raw c) as [k|]; [|destruct (HW v ltac:(apply in_or_app; right; left; reflexivity) HR)]. destruct HW as (l1 & v1 & l2 & E & Hk & _ & HN).
    destruct l2 as [|y l2] using rev_ind; [apply app_inj_tail in E as [-> _]; congruence|]. clear IHl2. rewrite app_comm_cons, app_assoc in E. apply app_inj_tail in E as [_ ->].
    destruct (HN y ltac:(apply in_or_app; right; apply in_or_app; right; left; reflexivity) HR). }
  assert (HL : Forall2 (fun v (c : variant_cfg T) => List.length (vc_fields c) = List.length (vd_fields v)) vs cs).
  { clear - HF. induction HF as [|v' c' vs cs (_ & _ & _ & _ & H) HF IH]; constructor; [|exact IH]. symmetry. eapply f2_len. exact H. }
  exists (map vc_fields cs). split.
  - unfold derive_attr. rewrite HC2. cbn [bind]. rewrite HI, Ecs, attr_write_app, attr_read_app; auto.
  - clear - HF. induction HF as [|v' c' vs cs (_ & _ & _ & _ & H) HF IH]; cbn; constructor; auto.
Qed.
End Props.
Local Open Scope string_scope.
Example C93_attr_ex : derive_attr ty ex_attr = Ok (2, [[Some "u16"; None]; []; []], [[Some "u16"; None]; []]).
Proof. vm_compute. reflexivity. Qed.
Local Close Scope string_scope.
Section Props.
Context {T : Type} (parse_ty : string -> option T).
(** With the raw variant in the first place, the second is read with the options of
    the raw one, and the macro panics if that has fewer fields. *)
Lemma take_first fs : forall os r, take_fields (T := T) fs os = Ok r -> r = firstn (List.length fs) os /\ (List.length fs <= List.length os)%nat.
Proof.
  induction fs as [|f fs IH]; intros [|o os] r H; cbn [take_fields] in H; try discriminate; try (injection H as <-; split; [reflexivity|cbn; lia]).
  destruct (take_fields fs os) as [r'| |] eqn:E; try discriminate. injection H as <-. destruct (IH _ _ E) as [-> HL]. split; [reflexivity|cbn; lia].
Qed.
Lemma f2_firstn {A B} (R : A -> B -> Prop) l m n : Forall2 R l m -> Forall2 R (firstn n l) (firstn n m).
Proof. intros H. revert n. induction H as [|x y l m HR H IH]; intros [|n]; cbn; constructor; auto. Qed.
Theorem C93_attr_refuted : forall a v w vs, raw_variant v ->
  (forall k ws rs, derive_attr parse_ty (DEnum a (v :: w :: vs)) = Ok (k, ws, rs) ->
     (List.length (vd_fields w) <= List.length (vd_fields v))%nat /\
     exists r rest, rs = r :: rest /\ Forall2 (field_read parse_ty) (firstn (List.length (vd_fields w)) (vd_fields v)) r) /\
  (forall c, config_read parse_ty (DEnum a (v :: w :: vs)) c -> (List.length (vd_fields v) < List.length (vd_fields w))%nat -> is_panic (derive_attr parse_ty (DEnum a (v :: w :: vs))) = true).
Proof using.
  intros a v w vs HR.
  assert (HW : forall c, config_read parse_ty (DEnum a (v :: w :: vs)) c -> cf_raw c = Some 0 /\ exists c1 cs, cf_variants c = c1 :: cs /\ Forall2 (field_read parse_ty) (vd_fields v) (vc_fields c1)).
  { intros c (_ & _ & _ & HF & HW). cbn [variants] in *. split.
    - unfold raw_read in HW. destruct (cf_raw c) as [k|]; [|destruct (HW v (or_introl eq_refl) HR)]. destruct HW as ([|y l1] & v1 & l2 & E & Hk & _ & HN); [rewrite len_nil in Hk; congruence|].
      injection E as <- _. destruct (HN v (or_introl eq_refl) HR).
    - inversion HF as [|? c1 ? cs HV HF2]; subst. exists c1, cs. split; [reflexivity|]. destruct HV as (_ & _ & _ & _ & H). exact H. }
  assert (HD : forall c, parse_config parse_ty (DEnum a (v :: w :: vs)) = Ok c -> exists c1 cs, Forall2 (field_read parse_ty) (vd_fields v) (vc_fields c1) /\
    derive_attr parse_ty (DEnum a (v :: w :: vs)) = (ws <- attr_write 0 0 (v :: w :: vs) (c1 :: cs) ;; f <- take_fields (vd_fields w) (vc_fields c1) ;; fs <- attr_read 0 2 vs cs ;; Ok (0, ws, f :: fs))).
  { intros c E. destruct (HW c (proj1 (proj1 (C93_partial parse_ty _) c) E)) as (HK & c1 & cs & HC & HF). exists c1, cs. split; [exact HF|]. unfold derive_attr. rewrite E. cbn [bind]. rewrite HK, HC. cbn [attr_read]. change (0 =? 0) with true. change (0 + 1 =? 0) with false. cbn iota.
    destruct (attr_write 0 0 (v :: w :: vs) (c1 :: cs)); cbn [bind]; auto. destruct (take_fields (vd_fields w) (vc_fields c1)); cbn [bind]; auto. change (0 + 1 + 1) with 2. destruct (attr_read 0 2 vs cs); reflexivity. }
  split.
  - intros k ws rs H. destruct (parse_config parse_ty (DEnum a (v :: w :: vs))) as [c| |] eqn:E; [|unfold derive_attr in H; rewrite E in H; discriminate|unfold derive_attr in H; rewrite E in H; discriminate].
    destruct (HD c eq_refl) as (c1 & cs & HF & ED). rewrite ED in H. destruct (attr_write _ _ _ _); cbn [bind] in H; try discriminate. destruct (take_fields (vd_fields w) (vc_fields c1)) as [r| |] eqn:ET; cbn [bind] in H; try discriminate.
    destruct (attr_read 0 2 vs cs) as [rest| |]; cbn [bind] in H; try discriminate. injection H as _ _ <-. apply take_first in ET as [-> HL]. rewrite <- (f2_len _ _ _ HF) in HL. split; [exact HL|]. eexists _, _. split; [reflexivity|]. apply f2_firstn, HF.
  - intros c HC HL. apply C93_partial in HC. destruct (HD c HC) as (c1 & cs & HF & ->). assert (HP : forall e, attr_write 0 0 (v :: w :: vs) (c1 :: cs) <> Err e).
    { assert (HT : forall fs os e, take_fields (T := T) fs os <> Err e) by (induction fs as [|f fs IH]; intros [|o os] e; cbn [take_fields]; try discriminate; specialize (IH os e); destruct (take_fields fs os); cbn [bind]; congruence).
      generalize 0 at 2 as i. generalize (v :: w :: vs) (c1 :: cs). clear - HT. induction l as [|x l IH]; intros [|y m] i e; cbn [attr_write]; try discriminate.
      assert (HH : forall e, (if i =? 0 then match vd_fields x with [] => Panic PIndex | _ :: _ => Ok [] end else take_fields (vd_fields x) (vc_fields y)) <> Err e) by (intros e'; destruct (i =? 0); [destruct (vd_fields x); discriminate|apply HT]).
      destruct (if i =? 0 then _ else _); cbn [bind]; [|intros [= <-]; exact (HH _ eq_refl)|discriminate]. specialize (IH m (i + 1) e). destruct (attr_write 0 (i + 1) l m); cbn [bind]; congruence. }
    destruct (attr_write _ _ _ _) as [ws|e|]; cbn [bind]; [|destruct (HP e eq_refl)|reflexivity]. rewrite (f2_len _ _ _ HF) in HL.
    destruct (take_fields (vd_fields w) (vc_fields c1)) as [r|e|] eqn:ET; cbn [bind]; [apply take_first in ET as [_ HQ]; lia| |reflexivity].
    exfalso. revert ET. generalize (vd_fields w) (vc_fields c1). clear. induction l as [|f fs IH]; intros [|o os]; cbn [take_fields]; try discriminate. specialize (IH os). destruct (take_fields fs os); cbn [bind]; congruence.
Qed.
End Props.
Local Open Scope string_scope.
(** The raw variant in front: the fields of the next are read with the options of the
    raw one, or the macro panics. *)
Example C93_attr_front_ex : derive_attr ty (DEnum [] [vd [coffer [MPath ["raw_variant"]]] None [[]]; vd [] None [[coffer [MValue ["as"] (LitStr "u16")]]]]) = Ok (0, [[]; [Some "u16"]], [[None]])
  /\ is_panic (derive_attr ty (DEnum [] [vd [coffer [MPath ["raw_variant"]]] None [[]]; vd [] None [[]; []]])) = true.
Proof. split; vm_compute; reflexivity. Qed.
Local Close Scope string_scope.
(** The tags of DeriveModel are the ones the declaration gives. *)
Theorem C89_tags : forall (W R V : Type) (vs : list (variant W R V)),
  tags_right (map (fun v => match v_tag v with Some t => Some t | None => v_disc v end) vs) (tags_of vs).
Proof using. intros W R V vs. exact (right_from (map declared vs) 0). Qed.
Example C89_tags_ex : let v t d : variant unit unit unit := {| v_tag := t; v_disc := d; v_fields := [] |} in
  tags_of [v None None; v (Some 4) (Some 2); v None None; v None (Some 9)] = [0; 4; 5; 9].
Proof. reflexivity. Qed.

Print Assumptions C93_partial.
Print Assumptions C93_refuted.
Print Assumptions C93_struct.
Print Assumptions C93_tags.
Print Assumptions C93_panics.
Print Assumptions C93_attr.
Print Assumptions C93_attr_refuted.
Print Assumptions C89_tags.
