(** Property C86: the order hash maps are walked in. *)
From Coq Require Import String Permutation.
From Verif Require Import Base BaseLemmas Wtf8Spec PrimModel PrimProofs PrimProps TypeModel TypeSpec CpModel CpSpec CpProofs CpProps FileSpec
  SigModel AnnModel AnnSpec AnnProofs AttrModel AttrSpec AttrProofs FrameModel FrameSpec InsnModel InsnSpec InsnProofs InsnProps
  CodeModel CodeSpec CodeProofs CodeWrite CodeRead CodeProps ReadProofs ClassModel ClassSpec ClassGrow ClassProofs ClassProps
  ClassStable CodeStable ClassCodeStable OrderModel.

(** * Well-formedness does not depend on the order *)
Lemma forall2_keep {A} (R : A -> A -> Prop) (P : A -> Prop) l l' :
  (forall a b, In a l -> R a b -> P a -> P b) -> Forall2 R l l' -> Forall P l -> Forall P l'.
Proof.
  intros H F. induction F as [|a b l l' Hab F IH]; intros HP; [constructor|]. inversion HP; subst.
  constructor; [apply (H a); cbn; auto|]. apply IH; auto. intros. eapply H; eauto. cbn; auto.
Qed.
Lemma forall2_len {A} (R : A -> A -> Prop) l l' : Forall2 R l l' -> len l' = len l.
Proof. intros H. unfold len. rewrite (Forall2_len _ _ _ H). reflexivity. Qed.
Lemma perm_len {A} (l l' : list A) : Permutation l l' -> len l' = len l.
Proof. intros H. unfold len. rewrite (Permutation_length H). reflexivity. Qed.
Lemma perm_forall {A} (P : A -> Prop) l l' : Permutation l l' -> Forall P l -> Forall P l'.
Proof. intros H F. rewrite Forall_forall in *. intros x Hx. apply F. eapply Permutation_in; [symmetry; exact H|exact Hx]. Qed.

Definition pair_order (a b : list Z * aval) : Prop := fst b = fst a /\ val_order (snd a) (snd b).
Lemma pair_names l l' : Forall2 pair_order l l' -> map fst l' = map fst l.
Proof. induction 1 as [|a b l l' [H _] _ IH]; [reflexivity|]. cbn. congruence. Qed.
Lemma pairs_wf vs : Forall (fun kv => forall w, val_order (snd kv) w -> wf_aval (snd kv) -> wf_aval w) vs ->
  forall us ws, Permutation vs us -> Forall2 pair_order us ws -> wf_vals vs -> wf_vals ws.
Proof.
  intros IH us ws HP HF (H1 & H2 & H3). split; [rewrite (forall2_len _ _ _ HF), (perm_len _ _ HP); exact H1|]. split.
  - rewrite (pair_names _ _ HF). eapply Permutation_NoDup; [apply Permutation_map; exact HP|exact H2].
  - apply (perm_forall _ _ _ HP) in H3. apply (perm_forall _ _ _ HP) in IH. rewrite Forall_forall in IH.
    eapply forall2_keep; [|exact HF|exact H3]. intros a b Ha [E1 E2] [W1 W2]. rewrite E1. split; [exact W1|].
    apply (IH a Ha); auto.
Qed.
Lemma val_wf v : forall w, val_order v w -> wf_aval v -> wf_aval w.
Proof.
  induction v using aval_ind'; intros w Ho Hw; inversion Ho; subst; auto.
  - inversion Hw; subst. destruct (pairs_wf vs H us ws) as (A1 & A2 & A3); auto. { split; [|split]; auto. }
    constructor; auto.
  - inversion Hw; subst. rewrite Forall_forall in H. constructor; [erewrite forall2_len; eauto|].
    eapply forall2_keep; eauto.
Qed.
Lemma vals_wf vs ws : vals_order vs ws -> wf_vals vs -> wf_vals ws.
Proof. intros (us & HP & HF). apply (pairs_wf vs) with (us := us); auto. apply Forall_forall. intros kv _. apply val_wf. Qed.
Lemma annot_wf a b : annot_order a b -> wf_annot a -> wf_annot b.
Proof. intros [E H] [W1 W2]. split; [rewrite E; exact W1|]. eapply vals_wf; eauto. Qed.
Lemma tannot_wf {T} (P : T -> Prop) a b : tannot_order a b -> wf_tannot P a -> wf_tannot P b.
Proof.
  intros (E1 & E2 & E3 & H) (W1 & W2 & W3 & W4 & W5). unfold wf_tannot. rewrite E1, E2, E3. split; auto. split; auto. split; auto. split; auto.
  eapply vals_wf; eauto.
Qed.
Lemma table_keep {A} (R : A -> A -> Prop) (P : A -> Prop) (n : Z) l l' : (forall a b, R a b -> P a -> P b) ->
  Forall2 R l l' -> len l < n /\ Forall P l -> len l' < n /\ Forall P l'.
Proof. intros H F [H1 H2]. split; [rewrite (forall2_len _ _ _ F); exact H1|]. eapply forall2_keep; eauto. Qed.
Lemma annots_wf x y : Forall2 annot_order x y -> wf_annots x -> wf_annots y.
Proof. apply table_keep, annot_wf. Qed.
Lemma tannots_wf {T} (P : T -> Prop) x y : Forall2 tannot_order x y -> wf_tannots P x -> wf_tannots P y.
Proof. apply table_keep, tannot_wf. Qed.
Lemma pannots_wf x y : Forall2 (Forall2 annot_order) x y -> wf_pannots x -> wf_pannots y.
Proof. apply table_keep, annots_wf. Qed.

Lemma fattr_wf a b : fattr_order a b -> wf_fattr a -> wf_fattr b.
Proof.
  intros H W. destruct a, b; cbn [fattr_order] in H; try (rewrite H; exact W); try discriminate; cbn [wf_fattr] in *;
    first [exact W|eapply annots_wf; eassumption|eapply tannots_wf; eassumption].
Qed.
Lemma field_wf a b : field_order a b -> wf_field a -> wf_field b.
Proof.
  intros (E1 & E2 & E3 & H) (W1 & W2 & W3 & W4). unfold wf_field. rewrite E1, E2, E3. split; auto. split; auto. split; auto.
  eapply table_keep; [apply fattr_wf|exact H|exact W4].
Qed.
Lemma kattrs_locals x y : Forall2 kattr_order x y -> locals_of y = locals_of x.
Proof.
  induction 1 as [|a b x y H _ IH]; [reflexivity|]. cbn [locals_of flat_map]. fold (locals_of x) (locals_of y). rewrite IH. f_equal.
  destruct a, b; cbn [kattr_order] in H; try reflexivity; try discriminate; congruence.
Qed.
Lemma code_wf E a b : code_order a b -> wf_code E a /\ in_range (cd_code a) /\ code_readable a ->
  wf_code E b /\ in_range (cd_code b) /\ code_readable b.
Proof.
  intros (E1 & E2 & E3 & E4 & H) ((W1 & W2 & W3 & W4 & W5 & W6) & R1 & R2 & R3).
  unfold wf_code, code_readable. rewrite E1, E2, E3, E4, (kattrs_locals _ _ H).
  split; [|split; [exact R1|split; [exact R2|exact R3]]]. split; auto. split; auto. split; auto. split; auto. split; auto.
  destruct W6 as [W6 W7]. split; [rewrite (forall2_len _ _ _ H); exact W6|].
  cut (Forall (wf_kattr E a) (cd_attrs b)).
  { apply Forall_impl. intros [] W; cbn [wf_kattr] in *; unfold place_env in *; rewrite ?E3, ?E4; exact W. }
  eapply forall2_keep; [|exact H|exact W7]. intros x y _ Ho W.
  destruct x, y; cbn [kattr_order] in Ho; try discriminate; cbn [wf_kattr] in *;
    try (injection Ho as ->; exact W); eapply table_keep; try eassumption; intros ? ?; apply tannot_wf.
Qed.
Lemma method_wf E a b : method_order a b -> wf_method (fun k => wf_code E k /\ in_range (cd_code k) /\ code_readable k) a ->
  wf_method (fun k => wf_code E k /\ in_range (cd_code k) /\ code_readable k) b.
Proof.
  intros (E1 & E2 & E3 & H) (W1 & W2 & W3 & W4). unfold wf_method. rewrite E1, E2, E3. split; auto. split; auto. split; auto.
  eapply table_keep; [|exact H|exact W4]. intros x y Ho W.
  destruct x, y; cbn [mattr_order] in Ho; try (rewrite Ho; exact W); try discriminate; cbn [wf_mattr] in *;
    first [exact W|eapply code_wf; eassumption|eapply annots_wf; eassumption|eapply tannots_wf; eassumption|eapply pannots_wf; eassumption|eapply val_wf; eassumption].
Qed.
Lemma cattr_wf a b : cattr_order a b -> wf_class_attr a -> wf_class_attr b.
Proof.
  intros H W. destruct a, b; cbn [cattr_order] in H; try (rewrite H; exact W); try discriminate; cbn [wf_class_attr wf_cattr] in *;
    first [exact W|eapply annots_wf; eassumption|eapply tannots_wf; eassumption].
Qed.
Lemma class_wf heap a b : class_order a b -> wf_class heap a -> wf_class heap b.
Proof.
  intros (E1 & E2 & E3 & E4 & E5 & H1 & H2 & H3) (W1 & W2 & W3 & W4 & W5 & W6 & W7 & W8 & W9).
  unfold wf_class. rewrite E1, E2, E3, E4, E5. do 5 (split; [assumption|]).
  split; [eapply table_keep; [apply field_wf|exact H1|exact W6]|].
  split; [eapply table_keep; [apply method_wf|exact H2|exact W7]|].
  split; [eapply table_keep; [apply cattr_wf|exact H3|exact W8]|exact W9].
Qed.

Lemma flat_keep {A B} (R : A -> A -> Prop) (f : A -> list B) l l' : (forall a b, R a b -> f b = f a) -> Forall2 R l l' ->
  flat_map f l' = flat_map f l.
Proof. intros H. induction 1 as [|a b l l' Hab _ IH]; [reflexivity|]. cbn. rewrite IH, (H a b Hab). reflexivity. Qed.
Lemma class_same_table heap a b : class_order a b -> class_table heap b = class_table heap a.
Proof.
  intros (_ & _ & _ & _ & _ & _ & H2 & H3). unfold class_table, class_dyns. f_equal.
  - eapply flat_keep; [|exact H3]. intros x y H. destruct x, y; cbn [cattr_order] in H; try reflexivity; try discriminate; congruence.
  - f_equal. eapply flat_keep; [|exact H2]. intros x y (_ & _ & _ & H). unfold method_dyns. eapply flat_keep; [|exact H].
    intros u v Huv. destruct u, v; cbn [mattr_order] in Huv; try reflexivity; try discriminate.
    destruct Huv as (_ & _ & E & _). unfold code_dyns. rewrite E. reflexivity.
Qed.
Lemma tables_same a b : class_order a b -> length (tables (cl_attrs b)) = length (tables (cl_attrs a)).
Proof.
  intros (_ & _ & _ & _ & _ & _ & _ & H). induction H as [|x y l l' H _ IH]; [reflexivity|]. cbn [tables filter].
  assert (E : is_table y = is_table x) by (destruct x, y; cbn [cattr_order] in H; try reflexivity; discriminate).
  rewrite E. destruct (is_table x); cbn [length]; unfold tables in IH; congruence.
Qed.

(** * The variables in another order *)
Lemma perm_forall2 {A B} (R : A -> B -> Prop) ys zs : Permutation ys zs -> forall xs, Forall2 R xs ys ->
  exists us, Permutation xs us /\ Forall2 R us zs.
Proof.
  induction 1 as [|y ys zs _ IH|y z ys|ys zs vs _ IH1 _ IH2]; intros xs F.
  - exists xs. auto.
  - inversion F as [|x ? xs' ? H1 H2]; subst. destruct (IH _ H2) as (us & P & F'). exists (x :: us). auto.
  - inversion F as [|x ? xs' ? H1 H2]; subst. inversion H2 as [|x' ? xs'' ? H3 H4]; subst. exists (x' :: x :: xs''). split; [constructor|auto].
  - destruct (IH1 _ F) as (us & P & F'). destruct (IH2 _ F') as (ws & P' & F''). exists ws. split; [etransitivity; eauto|auto].
Qed.
Lemma collect_tail os vs l : Forall2 kattr_collect (os ++ match vs with [] => [] | _ => [KLocals vs] end) l -> locals_of os = [] ->
  exists ws, Permutation vs ws /\ l = os ++ match ws with [] => [] | _ => [KLocals ws] end.
Proof.
  revert l. induction os as [|o os IH]; cbn [app]; intros l F Hos.
  - destruct vs as [|v vs].
    + inversion F; subst. exists []. auto.
    + inversion F as [|? b ? l' H F']; subst. inversion F'; subst. destruct b as [| |ws|]; cbn in H; try discriminate.
      exists ws. split; [exact H|]. destruct ws; [|reflexivity]. apply Permutation_sym, Permutation_nil in H. discriminate.
  - inversion F as [|? b ? l' H F']; subst. cbn [locals_of flat_map] in Hos. fold (locals_of os) in Hos. apply app_eq_nil in Hos as [Ho Hos].
    destruct (IH _ F' Hos) as (ws & P & ->). exists ws. split; [exact P|]. cbn [app]. f_equal.
    destruct o as [| |xs|]; cbn [kattr_collect] in H; try exact H.
    subst xs. destruct b; try exact H. apply Permutation_nil in H. congruence.
Qed.
Lemma others_no_locals R l os : Forall2 (kattr_rel R) (others_of l) os -> locals_of os = [].
Proof.
  remember (others_of l) as k eqn:Ek. intros F. clear Ek. induction F as [|a b k os H _ IH]; [reflexivity|].
  cbn [locals_of flat_map]. fold (locals_of os). rewrite IH. destruct a, b; cbn in H; try contradiction; reflexivity.
Qed.
Lemma code_collect_rel D c k k' : code_rel D c k -> code_collect k k' -> code_rel D c k'.
Proof.
  intros (E1 & E2 & H1 & H2 & os & vs & vs0 & F1 & P & F2 & Ea) (C1 & C2 & C3 & C4 & C5). unfold code_rel. rewrite C1, C2, C3, C4.
  split; auto. split; auto. split; auto. split; auto. rewrite Ea in C5.
  destruct (collect_tail os vs _ C5) as (ws & Pw & Ew). { eapply others_no_locals; exact F1. }
  destruct (perm_forall2 _ _ _ Pw _ F2) as (us & Pu & Fu). exists os, ws, us. split; auto. split; [etransitivity; eauto|]. split; auto.
Qed.
Lemma forall2_comp {A B} (P : A -> B -> Prop) (Q R : _ -> _ -> Prop) (l : list A) (l' : list B) (l'' : list B) :
  (forall a b c, P a b -> Q b c -> R a c) -> Forall2 P l l' -> Forall2 Q l' l'' -> Forall2 R l l''.
Proof.
  intros H F. revert l''. induction F as [|a b l l' Hab _ IH]; intros l'' G; inversion G; subst; constructor; eauto.
Qed.
Lemma collect_same heap heap' tbl c k k' : same_class heap heap' tbl c k -> class_collect k k' -> same_class heap heap' tbl c k'.
Proof.
  intros (S1 & S2 & S3 & S4 & S5 & S6 & S7 & S8) (C1 & C2 & C3 & C4 & C5 & C6 & C7 & C8). unfold same_class.
  rewrite C1, C2, C3, C4, C5, C6, C8. do 6 (split; [assumption|]). split; [|assumption].
  eapply forall2_comp; [|exact S7|exact C7]. intros m m' m'' (A1 & A2 & A3 & A4) (B1 & B2 & B3 & B4). unfold same_method. rewrite B1, B2, B3.
  do 3 (split; [assumption|]). eapply forall2_comp; [|exact A4|exact B4]. intros x y z Hxy Hyz.
  destruct x, y; cbn [same_mattr] in Hxy; try contradiction; try discriminate; destruct z; cbn [mattr_collect same_mattr] in *; try discriminate; try congruence.
  eapply code_collect_rel; eauto.
Qed.

Lemma forall2_self {A} (R : A -> A -> Prop) l : (forall a, R a a) -> Forall2 R l l.
Proof. intros H. induction l; constructor; auto. Qed.
Lemma collect_refl c : class_collect c c.
Proof.
  unfold class_collect. repeat (split; [reflexivity|]). split; [|reflexivity]. apply forall2_self. intros m. unfold method_collect.
  repeat (split; [reflexivity|]). apply forall2_self. intros [k| | | | | | | | | | | | |]; cbn [mattr_collect]; try reflexivity.
  unfold code_collect. repeat (split; [reflexivity|]). apply forall2_self. intros []; cbn [kattr_collect]; reflexivity.
Qed.

(** C86: whatever orders the maps are walked in when a class is written and
    read, the result is the class, with its annotations as maps (in some
    order) and the variables of each code attribute in some order.  The
    conditions are those of C61 and do not mention the order, except that
    every order's constant pool has to fit in a release build. *)
Theorem C86_any_order_partial : forall fuel md heap c, (1 <= fuel)%nat ->
  wf_class heap c -> len (class_table heap c) < 65536 -> count_ok heap c ->
  (forall r, writes fuel md heap c r -> (exists out, r = Ok out) \/ md = Debug /\ r = Panic POverflow) /\
  forall out, writes fuel md heap c (Ok out) ->
  md = Debug \/ (forall c1, class_order c c1 -> pool_fits fuel md heap c1) -> len out < 4294967296 ->
  forall md' rest,
    (exists c' h, reads md' (out ++ rest) c' h rest) /\
    forall c' h rest', reads md' (out ++ rest) c' h rest' ->
      rest' = rest /\ exists c1, class_order c c1 /\ same_class heap (heap_of h) (class_table heap c) c1 c'.
Proof.
  intros fuel md heap c Hfu Hw Hl Hc.
  assert (HA : forall c1, class_order c c1 -> wf_class heap c1 /\ len (class_table heap c1) < 65536 /\ count_ok heap c1).
  { intros c1 Ho. split; [eapply class_wf; eauto|]. unfold count_ok. rewrite (class_same_table heap _ _ Ho), (tables_same _ _ Ho). auto. }
  split.
  - intros r (c1 & Ho & <-). destruct (HA c1 Ho) as (A1 & A2 & A3). destruct (C61_roundtrip_partial fuel md heap c1 Hfu A1 A2 A3) as [[[out H]|[H1 H2]] _]; eauto.
  - intros out (c1 & Ho & Hout) Hfit Hsm md' rest. destruct (HA c1 Ho) as (A1 & A2 & A3).
    destruct (C61_roundtrip_partial fuel md heap c1 Hfu A1 A2 A3) as [_ HR].
    destruct (HR out Hout ltac:(destruct Hfit; auto) Hsm md' rest) as (c0 & h0 & H0 & S0). split.
    + exists c0, h0, c0. split; [exact H0|apply collect_refl].
    + intros c' h rest' (c2 & H2 & HC). rewrite H0 in H2. apply ok_inj in H2. injection H2 as <- <- <-. split; [reflexivity|].
      exists c1. split; [exact Ho|]. rewrite <- (class_same_table heap _ _ Ho). eapply collect_same; eauto.
Qed.
Print Assumptions C86_any_order_partial.

(** A class with two annotation elements on a field, in both orders; a method
    with two variables. *)
Definition two_vals : list (list Z * aval) := [([120], VInt 1); ([121], VArray [VString [65]])].
Definition two_field (vs : list (list Z * aval)) : field :=
  {| f_access := 1; f_name := [102]; f_desc := TLong; f_attrs := [FVisible [{| an_type := TRef [65]; an_vals := vs |}]] |}.
Definition var_x : localvar := {| v_start := 7; v_end := 9; v_name := [120]; v_desc := Some TInt; v_sig := None; v_index := 0 |}.
Definition var_y : localvar := {| v_start := 7; v_end := 9; v_name := [121]; v_desc := Some TInt; v_sig := None; v_index := 1 |}.
Definition two_vars : code := {| cd_stack := 1; cd_locals := 2; cd_code := [ILabel 7; IReturn None; ILabel 9]; cd_catches := [];
  cd_attrs := [KLocals [var_x; var_y]] |}.
Definition two_class (vs : list (list Z * aval)) : class := {|
  cl_version := {| minor := 0; maj := J8 |}; cl_access := 33; cl_name := [65]; cl_super := Some [66]; cl_itfs := [];
  cl_fields := [two_field vs];
  cl_methods := [{| me_access := 9; me_name := [109]; me_desc := TMethod [] None; me_attrs := [MCode two_vars] |}];
  cl_attrs := [] |}.
Lemma two_code_wf E : wf_code E two_vars /\ in_range (cd_code two_vars) /\ code_readable two_vars.
Proof.
  assert (HT : Forall (fun i => incl (targets i) (labels_in (cd_code two_vars))) (cd_code two_vars)).
  { unfold two_vars. cbn [cd_code]. repeat (apply Forall_cons || apply Forall_nil); intros l Hl; cbn in *; intuition (subst; auto). }
  split; [|split; [apply in_range_small; [cbn; lia|exact HT]|split]].
  - split; [cbn; unfold u16; lia|]. split; [cbn; unfold u16; lia|]. split.
    { split; [repeat constructor; cbn; intuition lia|]. rewrite Forall_forall in HT. apply Forall_forall. intros i Hi. specialize (HT i Hi).
      assert (wf_insn (we_heap E) i /\ sound i /\ wf_switch i); [|intuition auto].
      cbn in Hi. repeat destruct Hi as [<-|Hi]; try destruct Hi; cbn; auto. }
    split; [cbn; lia|]. split; [constructor|]. split; [cbn; lia|]. constructor; [|constructor].
    split; [discriminate|]. split; [cbn; lia|].
    repeat (apply Forall_cons || apply Forall_nil); (split; [exists 0, 1; repeat split; auto; lia|]; split; [ascii|];
      split; [cbn; unfold u16; lia|]; split; [split; [exact I|ascii]|]; split; [exact I|]; left; discriminate).
  - repeat constructor; cbn; intuition discriminate.
  - repeat constructor; cbn; try discriminate; intros; auto.
Qed.
Lemma two_class_wf : wf_class no_heap (two_class two_vals).
Proof.
  unfold wf_class, two_class. cbn [cl_version cl_access cl_name cl_super cl_itfs cl_fields cl_methods cl_attrs minor].
  split; [unfold u16; lia|]. split; [split; [unfold u16; lia|reflexivity]|]. split; [ascii|]. split; [cbn; ascii|].
  split; [split; [cbn; lia|constructor]|].
  split; [split; [cbn; lia|]|split; [split; [cbn; lia|]|split; [split; [cbn; lia|constructor]|discriminate]]].
  - constructor; [|constructor]. split; [split; [cbn; unfold u16; lia|reflexivity]|]. split; [cbn; ascii|].
    split; [split; [exact I|ascii]|]. split; [cbn; lia|]. constructor; [|constructor]. split; [cbn; lia|]. constructor; [|constructor].
    split; [split; [split; [apply wf_name; reflexivity|cbn; lia]|ascii]|]. split; [cbn; lia|]. split; [repeat constructor; cbn; intuition discriminate|].
    repeat (apply Forall_cons || apply Forall_nil); (split; [ascii|]); constructor; try (unfold i32; lia); try (cbn; lia).
    constructor; [|constructor]. constructor. ascii.
  - constructor; [|constructor]. split; [split; [cbn; unfold u16; lia|reflexivity]|]. split; [cbn; ascii|].
    split; [split; [cbn; repeat constructor|ascii]|]. split; [cbn; lia|]. constructor; [apply two_code_wf|constructor].
Qed.
Lemma order_refl c : class_order c c.
Proof.
  assert (HV : forall vs, vals_order vs vs). { intros vs. exists vs. split; [reflexivity|]. apply forall2_self. intros a. split; [reflexivity|constructor]. }
  assert (HA : forall x, Forall2 annot_order x x). { intros x. apply forall2_self. intros a. split; [reflexivity|apply HV]. }
  assert (HT : forall T (x : list (tannot T)), Forall2 tannot_order x x).
  { intros T x. apply forall2_self. intros a. repeat (split; [reflexivity|]). apply HV. }
  unfold class_order. do 5 (split; [reflexivity|]). split; [|split].
  - apply forall2_self. intros f. unfold field_order. do 3 (split; [reflexivity|]). apply forall2_self. intros []; cbn [fattr_order]; auto.
  - apply forall2_self. intros m. unfold method_order. do 3 (split; [reflexivity|]). apply forall2_self. intros []; cbn [mattr_order]; auto.
    + unfold code_order. do 4 (split; [reflexivity|]). apply forall2_self. intros []; cbn [kattr_order]; auto.
    + apply forall2_self. auto.
    + apply forall2_self. auto.
    + constructor.
  - apply forall2_self. intros []; cbn [cattr_order]; auto.
Qed.
Lemma two_order : class_order (two_class two_vals) (two_class (rev two_vals)).
Proof.
  destruct (order_refl (two_class two_vals)) as (A1 & A2 & A3 & A4 & A5 & A6 & A7 & A8). do 5 (split; [assumption|]). split; [|split; assumption].
  constructor; [|constructor]. unfold field_order. do 3 (split; [reflexivity|]). constructor; [|constructor]. constructor; [|constructor].
  split; [reflexivity|]. exists (rev two_vals). split; [apply Permutation_rev|]. apply forall2_self. intros a. split; [reflexivity|constructor].
Qed.
Example C86_any_order_ex : wf_class no_heap (two_class two_vals) /\ len (class_table no_heap (two_class two_vals)) < 65536 /\
  count_ok no_heap (two_class two_vals) /\
  Forall (fun vs => exists out, writes 1 Debug no_heap (two_class two_vals) (Ok out) /\
    wr_classfile 1 Debug no_heap (two_class vs) = Ok out /\ len out < 4294967296) [two_vals; rev two_vals].
Proof.
  split; [apply two_class_wf|]. split; [cbn; lia|]. split; [reflexivity|].
  repeat (apply Forall_cons || apply Forall_nil); eexists; (split; [|split; [vm_compute; reflexivity|vm_compute; reflexivity]]).
  - exists (two_class two_vals). split; [apply order_refl|vm_compute; reflexivity].
  - exists (two_class (rev two_vals)). split; [apply two_order|vm_compute; reflexivity].
Qed.

(** * The bytes written depend on the order *)
Definition bare_mattr (a : mattr code) : mattr unit :=
  match a with
  | MCode _ => MCode tt | MDeprecated => MDeprecated | MSynthetic => MSynthetic | MSignature s => MSignature s
  | MVisible l => MVisible l | MInvisible l => MInvisible l | MVisibleT l => MVisibleT l | MInvisibleT l => MInvisibleT l
  | MVisibleP l => MVisibleP l | MInvisibleP l => MInvisibleP l | MExceptions l => MExceptions l
  | MDefault v => MDefault v | MParameters l => MParameters l | MRaw r => MRaw r
  end.
(** everything of a class that holds annotations, except the code *)
Definition annotated (c : class) : list field * list (list (mattr unit)) * list cattr :=
  (cl_fields c, map (fun m => map bare_mattr (me_attrs m)) (cl_methods c), others (cl_attrs c)).
Lemma same_bare heap heap' tbl c k : same_class heap heap' tbl c k ->
  cl_fields k = cl_fields c /\ map (fun m => map bare_mattr (me_attrs m)) (cl_methods k) = map (fun m => map bare_mattr (me_attrs m)) (cl_methods c) /\
  others (cl_attrs k) = others (cl_attrs c).
Proof.
  intros (_ & _ & _ & _ & _ & S6 & S7 & S8). split; [exact S6|]. split.
  - induction S7 as [|m m' l l' (_ & _ & _ & H) _ IH]; [reflexivity|]. cbn [map]. rewrite IH. f_equal. clear -H.
    induction H as [|a b l l' H _ IH]; [reflexivity|]. cbn [map]. rewrite IH. f_equal. destruct a, b; cbn [same_mattr] in H; try contradiction; try discriminate; try congruence; reflexivity.
  - rewrite S8. unfold others. rewrite filter_app.
    assert (HO : forall l, filter (fun a => negb (is_table a)) (filter (fun a => negb (is_table a)) l) = filter (fun a => negb (is_table a)) l).
    { induction l as [|a l IH]; [reflexivity|]. cbn [filter]. destruct (is_table a) eqn:E; cbn [negb]; [exact IH|]. cbn [filter]. rewrite E. cbn [negb]. congruence. }
    rewrite HO. destruct tbl; cbn; rewrite app_nil_r; reflexivity.
Qed.
(** C86: two orders of the annotations of one and the same class that differ
    outside the code give different files: what is written is not a function
    of the class. *)
Theorem C86_write_refuted :
  (forall fuel md heap c c1 c2 out1 out2, (1 <= fuel)%nat ->
    wf_class heap c -> len (class_table heap c) < 65536 -> count_ok heap c ->
    class_order c c1 -> class_order c c2 ->
    wr_classfile fuel md heap c1 = Ok out1 -> wr_classfile fuel md heap c2 = Ok out2 ->
    md = Debug \/ pool_fits fuel md heap c1 /\ pool_fits fuel md heap c2 -> len out1 < 4294967296 ->
    annotated c1 <> annotated c2 -> out1 <> out2) /\
  exists c out1 out2, wf_class no_heap c /\ out1 <> out2 /\
    forall md, writes 1 md no_heap c (Ok out1) /\ writes 1 md no_heap c (Ok out2).
Proof.
  split.
  - intros fuel md heap c c1 c2 out1 out2 Hfu Hw Hl Hc O1 O2 W1 W2 Hfit Hsm Hne <-.
    assert (HA : forall c1, class_order c c1 -> wf_class heap c1 /\ len (class_table heap c1) < 65536 /\ count_ok heap c1).
    { intros c0 Ho. split; [eapply class_wf; eauto|]. unfold count_ok. rewrite (class_same_table heap _ _ Ho), (tables_same _ _ Ho). auto. }
    destruct (HA c1 O1) as (A1 & A2 & A3). destruct (HA c2 O2) as (B1 & B2 & B3).
    destruct (C61_roundtrip_partial fuel md heap c1 Hfu A1 A2 A3) as [_ R1]. destruct (C61_roundtrip_partial fuel md heap c2 Hfu B1 B2 B3) as [_ R2].
    destruct (R1 out1 W1 ltac:(tauto) Hsm Debug []) as (k1 & h1 & E1 & S1). destruct (R2 out1 W2 ltac:(tauto) Hsm Debug []) as (k2 & h2 & E2 & S2).
    rewrite E1 in E2. apply ok_inj in E2. injection E2 as <- <-. apply same_bare in S1 as (X1 & X2 & X3). apply same_bare in S2 as (Y1 & Y2 & Y3).
    apply Hne. unfold annotated. congruence.
  - exists (two_class two_vals).
    assert (H : exists o1 o2, o1 <> o2 /\ forall md, wr_classfile 1 md no_heap (two_class two_vals) = Ok o1 /\ wr_classfile 1 md no_heap (two_class (rev two_vals)) = Ok o2).
    { eexists; eexists; split; [|intros []; split; vm_compute; reflexivity]. vm_compute. discriminate. }
    destruct H as (o1 & o2 & Hne & H). exists o1, o2. split; [apply two_class_wf|]. split; [exact Hne|]. intros md. destruct (H md) as [H1 H2].
    split; [exists (two_class two_vals)|exists (two_class (rev two_vals))]; (split; [|assumption]); [apply order_refl|apply two_order].
Qed.
Print Assumptions C86_write_refuted.

(** * The class read depends on the order *)
Lemma forall2_in {A B} (R : A -> B -> Prop) a l l' : Forall2 R l l' -> In a l -> exists l1 b l2, l' = l1 ++ b :: l2 /\ R a b.
Proof.
  induction 1 as [|x y l l' Hxy _ IH]; intros Hin; [destruct Hin|]. destruct Hin as [->|Hin].
  - exists [], y, l'. auto.
  - destruct (IH Hin) as (l1 & b & l2 & -> & H). exists (y :: l1), b, l2. auto.
Qed.
Lemma var_rel_key (c k : list insn) v w : var_rel (same_place c k) v w -> var_key k w = var_key c v.
Proof. intros ((n & A1 & A2) & (m & B1 & B2) & E1 & _ & _ & E2). unfold var_key. rewrite A1, A2, B1, B2, E1, E2. reflexivity. Qed.
(** C86: if a method of a class that is written has two variables, what is
    read from the file is not a function of the bytes. *)
Theorem C86_read_refuted :
  (forall fuel md heap c m k, (1 <= fuel)%nat ->
    wf_class heap c -> len (class_table heap c) < 65536 -> count_ok heap c ->
    In m (cl_methods c) -> In (MCode k) (me_attrs m) -> (2 <= length (locals_of (cd_attrs k)))%nat ->
    forall out, wr_classfile fuel md heap c = Ok out -> md = Debug \/ pool_fits fuel md heap c -> len out < 4294967296 ->
    forall md' rest, exists c1 c2 h, c1 <> c2 /\ reads md' (out ++ rest) c1 h rest /\ reads md' (out ++ rest) c2 h rest) /\
  exists c out, wf_class no_heap c /\ wr_classfile 1 Debug no_heap c = Ok out /\
    exists c1 c2 h, c1 <> c2 /\ reads Debug out c1 h [] /\ reads Debug out c2 h [].
Proof.
  assert (HG : forall fuel md heap c m k, (1 <= fuel)%nat ->
    wf_class heap c -> len (class_table heap c) < 65536 -> count_ok heap c ->
    In m (cl_methods c) -> In (MCode k) (me_attrs m) -> (2 <= length (locals_of (cd_attrs k)))%nat ->
    forall out, wr_classfile fuel md heap c = Ok out -> md = Debug \/ pool_fits fuel md heap c -> len out < 4294967296 ->
    forall md' rest, exists c1 c2 h, c1 <> c2 /\ reads md' (out ++ rest) c1 h rest /\ reads md' (out ++ rest) c2 h rest).
  { intros fuel md heap c m k Hfu Hw Hl Hc Hm Hk H2 out Hout Hfit Hsm md' rest.
    destruct (C61_roundtrip_partial fuel md heap c Hfu Hw Hl Hc) as [_ R]. destruct (R out Hout Hfit Hsm md' rest) as (c1 & h & E & S). clear R.
    assert (Hkey : NoDup (map (var_key (cd_code k)) (locals_of (cd_attrs k)))).
    { destruct Hw as (_ & _ & _ & _ & _ & _ & [_ Hms] & _). rewrite Forall_forall in Hms. destruct (Hms m Hm) as (_ & _ & _ & _ & Ha).
      rewrite Forall_forall in Ha. apply (Ha _ Hk). }
    destruct S as (_ & _ & _ & _ & _ & _ & S7 & _). destruct (forall2_in _ _ _ _ S7 Hm) as (ms1 & m' & ms2 & Ems & (_ & _ & _ & Sa)).
    destruct (forall2_in _ _ _ _ Sa Hk) as (as1 & a' & as2 & Eas & Sk). destruct a' as [k'| | | | | | | | | | | | |]; cbn in Sk; try contradiction.
    destruct Sk as (_ & _ & _ & _ & os & vs & vs0 & _ & P & F & Ea).
    assert (Hd : NoDup (map (var_key (cd_code k')) vs)).
    { assert (EM : map (var_key (cd_code k')) vs = map (var_key (cd_code k)) vs0).
      { clear -F. induction F as [|v w vs0 vs H _ IH]; [reflexivity|]. cbn [map]. rewrite IH, (var_rel_key _ _ _ _ H). reflexivity. }
      rewrite EM. eapply Permutation_NoDup; [apply Permutation_map; exact P|exact Hkey]. }
    assert (Hlen : (2 <= length vs)%nat) by (rewrite <- (Forall2_len _ _ _ F), <- (Permutation_length P); exact H2).
    destruct vs as [|v [|v' vs]]; try (cbn in Hlen; lia).
    set (k2 := {| cd_stack := cd_stack k'; cd_locals := cd_locals k'; cd_code := cd_code k'; cd_catches := cd_catches k';
                  cd_attrs := os ++ [KLocals (v' :: v :: vs)] |}).
    set (m2 := {| me_access := me_access m'; me_name := me_name m'; me_desc := me_desc m'; me_attrs := as1 ++ MCode k2 :: as2 |}).
    set (c2 := {| cl_version := cl_version c1; cl_access := cl_access c1; cl_name := cl_name c1; cl_super := cl_super c1; cl_itfs := cl_itfs c1;
                  cl_fields := cl_fields c1; cl_methods := ms1 ++ m2 :: ms2; cl_attrs := cl_attrs c1 |}).
    assert (Hkk : code_collect k' k2).
    { unfold code_collect, k2. cbn. do 4 (split; [reflexivity|]). rewrite Ea. apply Forall2_app.
      - apply forall2_self. intros []; cbn [kattr_collect]; reflexivity.
      - constructor; [|constructor]. cbn. constructor. }
    destruct (collect_refl c1) as (_ & _ & _ & _ & _ & _ & HR & _).
    assert (Hma : forall a, mattr_collect a a).
    { intros [x| | | | | | | | | | | | |]; cbn [mattr_collect]; try reflexivity. unfold code_collect. do 4 (split; [reflexivity|]). apply forall2_self. intros []; cbn [kattr_collect]; reflexivity. }
    assert (HC : class_collect c1 c2).
    { unfold class_collect, c2. cbn. do 6 (split; [reflexivity|]). split; [|reflexivity]. rewrite Ems. apply Forall2_app; [|constructor].
      - apply forall2_self. intros x. unfold method_collect. do 3 (split; [reflexivity|]). apply forall2_self, Hma.
      - unfold method_collect, m2. cbn. do 3 (split; [reflexivity|]). rewrite Eas. apply Forall2_app; [apply forall2_self, Hma|].
        constructor; [exact Hkk|apply forall2_self, Hma].
      - apply forall2_self. intros x. unfold method_collect. do 3 (split; [reflexivity|]). apply forall2_self, Hma. }
    exists c1, c2, h. split; [|split; [exists c1; split; [exact E|apply collect_refl]|exists c1; split; [exact E|exact HC]]].
    intros Heq. assert (Hms : cl_methods c1 = cl_methods c2) by congruence. rewrite Ems in Hms. cbn in Hms. apply app_inv_head in Hms. injection Hms as Hmm.
    assert (Haa : me_attrs m' = me_attrs m2) by congruence. rewrite Eas in Haa. cbn in Haa. apply app_inv_head in Haa. injection Haa as Hkk'.
    assert (Hat : cd_attrs k' = cd_attrs k2) by congruence. rewrite Ea in Hat. cbn in Hat. apply app_inv_head in Hat. injection Hat as Hv _.
    subst v'. inversion Hd as [|? ? Hn _]. apply Hn. left. reflexivity. }
  split; [exact HG|]. exists (two_class two_vals). eexists. split; [apply two_class_wf|]. split; [vm_compute; reflexivity|].
  match goal with |- exists c1 c2 h, c1 <> c2 /\ reads Debug ?o c1 h [] /\ _ => set (out := o) end. 
  destruct (HG 1%nat Debug no_heap (two_class two_vals) _ two_vars ltac:(lia) two_class_wf ltac:(cbn; lia) eq_refl (or_introl eq_refl) (or_introl eq_refl) ltac:(cbn; lia) out
    ltac:(vm_compute; reflexivity) ltac:(auto) ltac:(vm_compute; reflexivity) Debug []) as (c1 & c2 & h & H). rewrite app_nil_r in H. eauto.
Qed.
Print Assumptions C86_read_refuted.

(** * Where there is only one order *)
Inductive single_val : aval -> Prop :=
| sv_leaf v : match v with VAnnotation _ _ | VArray _ => False | _ => True end -> single_val v
| sv_array vs : Forall single_val vs -> single_val (VArray vs)
| sv_annotation t vs : (length vs <= 1)%nat -> Forall (fun kv => single_val (snd kv)) vs -> single_val (VAnnotation t vs).
Definition single_vals (vs : list (list Z * aval)) : Prop := (length vs <= 1)%nat /\ Forall (fun kv => single_val (snd kv)) vs.
Definition single_annots (l : list annot) : Prop := Forall (fun a => single_vals (an_vals a)) l.
Definition single_tannots {T} (l : list (tannot T)) : Prop := Forall (fun a => single_vals (ta_vals a)) l.
Definition single_fattr (a : fattr) : Prop :=
  match a with FVisible l | FInvisible l => single_annots l | FVisibleT l | FInvisibleT l => single_tannots l | _ => True end.
Definition single_code (c : code) : Prop :=
  Forall (fun a => match a with KVisible l | KInvisible l => single_tannots l | _ => True end) (cd_attrs c).
Definition single_mattr (a : mattr code) : Prop :=
  match a with
  | MCode c => single_code c
  | MVisible l | MInvisible l => single_annots l | MVisibleT l | MInvisibleT l => single_tannots l
  | MVisibleP l | MInvisibleP l => Forall single_annots l | MDefault v => single_val v | _ => True
  end.
Definition single_cattr (a : cattr) : Prop :=
  match a with CVisible l | CInvisible l => single_annots l | CVisibleT l | CInvisibleT l => single_tannots l | _ => True end.
(** Every annotation of the class has at most one element. *)
Definition single_class (c : class) : Prop :=
  Forall (fun f => Forall single_fattr (f_attrs f)) (cl_fields c) /\
  Forall (fun m => Forall single_mattr (me_attrs m)) (cl_methods c) /\ Forall single_cattr (cl_attrs c).
(** Every list of variables has at most one element. *)
Definition single_vars (c : class) : Prop :=
  Forall (fun m => Forall (fun a => match a with MCode k => Forall (fun a => match a with KLocals vs => (length vs <= 1)%nat | _ => True end) (cd_attrs k) | _ => True end)
    (me_attrs m)) (cl_methods c).

Lemma forall2_eq {A} (R : A -> A -> Prop) (P : A -> Prop) l l' : (forall a b, In a l -> R a b -> P a -> b = a) -> Forall2 R l l' -> Forall P l -> l' = l.
Proof.
  intros H F. induction F as [|a b l l' Hab F IH]; intros HP; [reflexivity|]. inversion HP; subst. f_equal; [apply H; cbn; auto|].
  apply IH; auto. intros. apply H; cbn; auto.
Qed.
Lemma perm_single {A} (l l' : list A) : (length l <= 1)%nat -> Permutation l l' -> l' = l.
Proof.
  intros H P. destruct l as [|a [|b l]]; [apply Permutation_nil; auto|apply Permutation_length_1_inv; auto|cbn in H; lia].
Qed.
Lemma single_val_eq v : forall w, single_val v -> val_order v w -> w = v.
Proof.
  induction v using aval_ind'; intros w Hs Ho; inversion Ho as [|? ? HF|? ? us ws HP HF]; subst; auto.
  - inversion Hs as [? Hf| |? ? Hl Hv]; subst; [destruct Hf|]. f_equal.
    rewrite (perm_single _ _ Hl HP) in HF.
    rewrite Forall_forall in H. eapply (forall2_eq _ (fun kv => single_val (snd kv))); [|exact HF|exact Hv]. intros [x a] [y b] Hin [E1 E2] Hsv.
    cbn [fst snd] in *. subst y. f_equal. apply (H _ Hin); auto.
  - inversion Hs as [? Hf|? Hv|]; subst; [destruct Hf|]. f_equal. rewrite Forall_forall in H. eapply forall2_eq; [|exact HF|exact Hv]. intros a b Hin Hab Hsv. apply (H _ Hin); auto.
Qed.
Lemma single_vals_eq vs ws : single_vals vs -> vals_order vs ws -> ws = vs.
Proof.
  intros [Hl Hv] (us & P & F). rewrite (perm_single _ _ Hl P) in F. eapply (forall2_eq _ (fun kv => single_val (snd kv))); [|exact F|exact Hv].
  intros [x a] [y b] _ [E1 E2] Hsv. cbn [fst snd] in *. subst y. f_equal. apply single_val_eq; auto.
Qed.
Lemma single_annots_eq x y : single_annots x -> Forall2 annot_order x y -> y = x.
Proof.
  intros H F. eapply forall2_eq; [|exact F|exact H]. intros [t vs] [t' vs'] _ [E1 E2] Hs. cbn in *. subst. f_equal. apply single_vals_eq; auto.
Qed.
Lemma single_tannots_eq {T} (x y : list (tannot T)) : single_tannots x -> Forall2 tannot_order x y -> y = x.
Proof.
  intros H F. eapply forall2_eq; [|exact F|exact H]. intros [a b t vs] [a' b' t' vs'] _ (E1 & E2 & E3 & E4) Hs. cbn in *. subst. f_equal. apply single_vals_eq; auto.
Qed.
Ltac one_order := first
  [ assumption | discriminate
  | f_equal; first [apply single_annots_eq; assumption|apply single_tannots_eq; assumption|apply single_val_eq; assumption] ].
Lemma single_order c c1 : single_class c -> class_order c c1 -> c1 = c.
Proof.
  intros (H1 & H2 & H3) (E1 & E2 & E3 & E4 & E5 & F1 & F2 & F3). destruct c, c1. cbn in *. subst. f_equal.
  - eapply forall2_eq; [|exact F1|exact H1]. intros [] [] _ (A1 & A2 & A3 & A4) Hs. cbn in *. subst. f_equal.
    eapply forall2_eq; [|exact A4|exact Hs]. intros a b _ Hab Ha. destruct a, b; cbn [fattr_order single_fattr] in *; one_order.
  - eapply forall2_eq; [|exact F2|exact H2]. intros [] [] _ (A1 & A2 & A3 & A4) Hs. cbn in *. subst. f_equal.
    eapply forall2_eq; [|exact A4|exact Hs]. intros a b _ Hab Ha. destruct a, b; cbn [mattr_order single_mattr] in *; try one_order.
    + destruct Hab as (B1 & B2 & B3 & B4 & B5). destruct c, c0. cbn in *. subst. f_equal. f_equal. eapply forall2_eq; [|exact B5|exact Ha].
      intros x y _ Hxy Hx. destruct x, y; cbn [kattr_order] in *; one_order.
    + f_equal. eapply forall2_eq; [|exact Hab|exact Ha]. intros x y _ Hxy Hx. apply single_annots_eq; auto.
    + f_equal. eapply forall2_eq; [|exact Hab|exact Ha]. intros x y _ Hxy Hx. apply single_annots_eq; auto.
  - eapply forall2_eq; [|exact F3|exact H3]. intros a b _ Hab Ha. destruct a, b; cbn [cattr_order single_cattr] in *; one_order.
Qed.
Lemma single_collect c c1 : single_vars c -> class_collect c c1 -> c1 = c.
Proof.
  intros H (E1 & E2 & E3 & E4 & E5 & E6 & F & E7). destruct c, c1. cbn in *. subst. f_equal.
  eapply forall2_eq; [|exact F|exact H]. intros [] [] _ (A1 & A2 & A3 & A4) Hs. cbn in *. subst. f_equal.
  eapply forall2_eq; [|exact A4|exact Hs]. intros a b _ Hab Ha. destruct a, b; cbn [mattr_collect] in *; try one_order.
  destruct Hab as (B1 & B2 & B3 & B4 & B5). destruct c, c0. cbn in *. subst. f_equal. f_equal. eapply forall2_eq; [|exact B5|exact Ha].
  intros x y _ Hxy Hx. destruct x, y; cbn [kattr_collect] in *; try one_order. f_equal. apply perm_single; auto.
Qed.
(** C86: a class whose annotations have at most one element each is always
    written the same; if no method of a class that was read has two variables,
    every reading gives that class. *)
Theorem C86_single_partial :
  (forall fuel md heap c r1 r2, single_class c -> writes fuel md heap c r1 -> writes fuel md heap c r2 -> r1 = r2) /\
  (forall md l c h rest c' h' rest', single_vars c -> reads md l c h rest -> reads md l c' h' rest' -> c' = c /\ h' = h /\ rest' = rest).
Proof.
  split.
  - intros fuel md heap c r1 r2 Hs (c1 & O1 & <-) (c2 & O2 & <-). rewrite (single_order _ _ Hs O1), (single_order _ _ Hs O2). reflexivity.
  - intros md l c h rest c' h' rest' Hs (c0 & R0 & C0) (c1 & R1 & C1). rewrite R0 in R1. apply ok_inj in R1. injection R1 as <- <- <-.
    assert (HS : single_vars c0).
    { destruct C0 as (_ & _ & _ & _ & _ & _ & F & _). clear -F Hs. unfold single_vars in *. induction F as [|m m' l l' (_ & _ & _ & Ha) _ IH]; [constructor|].
      inversion Hs as [|? ? Hm Hs']; subst. constructor; [|apply IH; exact Hs']. clear -Ha Hm. induction Ha as [|a b l l' Hab _ IH]; [constructor|].
      inversion Hm as [|? ? Hb Hm']; subst. constructor; [|apply IH; exact Hm']. destruct a, b; cbn [mattr_collect] in Hab; try exact I; try discriminate.
      destruct Hab as (_ & _ & _ & _ & Hk). clear -Hk Hb. induction Hk as [|a b l l' Hab _ IH]; [constructor|]. inversion Hb as [|? ? Hx Hb']; subst.
      constructor; [|apply IH; exact Hb']. destruct a, b; cbn [kattr_collect] in Hab; try exact I; try discriminate.
      rewrite (Permutation_length Hab). exact Hx. }
    rewrite (single_collect _ _ HS C1), (single_collect _ _ HS C0). auto.
Qed.
Print Assumptions C86_single_partial.
(** One element, with an array inside; one variable. *)
Example C86_single_ex : single_class (two_class [([121], VArray [VString [65]; VInt 2])]) /\ single_vars ex_tame_class /\
  exists out, wr_classfile 1 Debug no_heap ex_tame_class = Ok out /\ exists c h, reads Debug out c h [] /\ single_vars c.
Proof.
  split; [|split].
  - split; [|split; repeat constructor]. constructor; [|constructor]. constructor; [|constructor]. constructor; [|constructor]. split; [cbn; lia|].
    constructor; [|constructor]. cbn [snd]. apply sv_array. repeat (apply Forall_cons || apply Forall_nil); apply sv_leaf; exact I.
  - repeat constructor; cbn; lia.
  - eexists. split; [vm_compute; reflexivity|]. eexists; eexists. split; [eexists; split; [vm_compute; reflexivity|apply collect_refl]|].
    repeat constructor; cbn; lia.
Qed.
