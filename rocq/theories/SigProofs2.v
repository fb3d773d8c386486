(** Signatures: behaviour of the parsers on arbitrary text. *)
From Verif Require Import Base BaseLemmas Wtf8Spec TypeModel TypeSpec CpModel CpSpec
  SigModel SigSpec SigProofs.

Definition suffix (r i : list Z) : Prop := exists u, i = u ++ r.
Lemma suffix_refl i : suffix i i.
Proof. exists []. reflexivity. Qed.
Lemma suffix_trans a b c : suffix a b -> suffix b c -> suffix a c.
Proof. intros (u & ->) (v & ->). exists (v ++ u). rewrite app_assoc. reflexivity. Qed.
Lemma suffix_cons c r : suffix r (c :: r).
Proof. exists [c]. reflexivity. Qed.
Lemma long_run_suffix r i : suffix r i -> ~ long_run i -> ~ long_run r.
Proof. intros (u & ->) H (p & q & E). apply H. exists (u ++ p), q. rewrite E, <- app_assoc. reflexivity. Qed.
Lemma no_empty_suffix r i : suffix r i -> no_empty i -> no_empty r.
Proof. intros (u & ->) H (p & q & E). apply H. exists (u ++ p), q. rewrite E, <- app_assoc. reflexivity. Qed.
Lemma suffix_app u r : suffix r (u ++ r).
Proof. exists u. reflexivity. Qed.

(** [o] is the result of parsing [i] : no panic; what is consumed is the text
    of the result. *)
Definition safe (md : mode) (i : list Z) : Prop := md = Release \/ ~ long_run i.
Lemma safe_suffix md r i : suffix r i -> safe md i -> safe md r.
Proof. intros H [->|H1]; [left; auto|right; eapply long_run_suffix; eauto]. Qed.
Definition plain (i : list Z) : Prop := ~ long_run i /\ no_empty i.
Lemma plain_suffix r i : suffix r i -> plain i -> plain r.
Proof. intros H [H1 H2]. split; [eapply long_run_suffix|eapply no_empty_suffix]; eauto. Qed.

Definition good {A} (min : nat) (d : A -> list Z) (i : list Z) (o : res (A * list Z)) : Prop :=
  match o with
  | Ok (a, rest) => exists u, i = u ++ rest /\ (min <= length u)%nat /\ (plain i -> u = d a)
  | Err _ => True
  | Panic _ => False
  end.
Lemma count_dims_good md i : forall dim, match count_dims md dim i with
  | Ok (d, rest) => exists k, i = repeat 91 k ++ rest /\ (0 <= dim -> dim + Z.of_nat k < 256 -> d = dim + Z.of_nat k) /\
      match rest with 91 :: _ => False | _ => True end
  | Err _ => False
  | Panic _ => md = Debug /\ exists k rest, i = repeat 91 k ++ rest /\ (dim + Z.of_nat k >= 256 \/ dim < 0)
  end.
Proof.
  induction i as [|c i IH]; intros dim; cbn [count_dims].
  - exists 0%nat. repeat split; auto. cbn. lia.
  - destruct (c =? 91) eqn:Ec.
    + apply Z.eqb_eq in Ec. subst c. unfold chk_u. change (2 ^ 8) with 256.
      destruct ((0 <=? dim + 1) && (dim + 1 <? 256)) eqn:Er.
      * cbn [bind]. specialize (IH (dim + 1)). destruct (count_dims md (dim + 1) i) as [[d rest]| |]; auto.
        -- destruct IH as (k & -> & Hk & Hh). exists (S k). repeat split; auto. intros. rewrite Hk by lia. lia.
        -- destruct IH as (Hm & k & rest & -> & Hk). split; [auto|]. exists (S k), rest. split; [auto|]. lia.
      * destruct md.
        -- cbn [bind]. split; [auto|]. exists 1%nat, i. split; [reflexivity|]. lia.
        -- cbn [bind]. specialize (IH (wrap_u 8 (dim + 1))).
           destruct (count_dims Release (wrap_u 8 (dim + 1)) i) as [[d rest]| |]; auto.
           ++ destruct IH as (k & -> & Hk & Hh). exists (S k). repeat split; auto. intros. lia.
           ++ destruct IH as (Hm & _). discriminate.
    + exists 0%nat. split; [reflexivity|]. split; [cbn; lia|].
      destruct c as [|p|p]; auto. do 7 (destruct p as [p|p|]; auto). discriminate.
Qed.
Lemma run_long k rest : (256 <= k)%nat -> long_run (repeat 91 k ++ rest).
Proof.
  intros H. exists [], (repeat 91 (k - 256) ++ rest). cbn [app]. rewrite app_assoc, <- repeat_app. f_equal. f_equal. lia.
Qed.

Lemma split_semi_good r : match split_semi r with
  | Some (v, rest) => r = v ++ [59] ++ rest
  | None => True end.
Proof.
  induction r as [|c r IH]; cbn [split_semi]; auto. destruct (c =? 59) eqn:E.
  - apply Z.eqb_eq in E. subst. reflexivity.
  - destruct (split_semi r) as [[a b]|]; auto. rewrite IH. reflexivity.
Qed.
Lemma span_name_good i : let '(a, b) := span_name i in i = a ++ b.
Proof.
  induction i as [|c r IH]; cbn [span_name]; auto. destruct ((c =? 60) || (c =? 46) || (c =? 59)); auto.
  destruct (span_name r). rewrite IH at 1. reflexivity.
Qed.
Lemma split_colon_good i : let '(a, b) := split_colon i in i = a ++ 58 :: b \/ i = a /\ b = [].
Proof.
  induction i as [|c r IH]; cbn [split_colon]; auto. destruct (c =? 58) eqn:E.
  - apply Z.eqb_eq in E. subst. auto.
  - destruct (split_colon r) as [a b]. destruct IH as [->|[-> ->]]; auto.
Qed.
Lemma packages_loop_good i : forall str last, 
  match p_packages_loop i str last with
  | Ok (v, rest) => (v = [] /\ rest = last) \/
      exists s v', v = (str ++ s) :: v' /\ i = s ++ [47] ++ flat_map (fun s => s ++ [47]) v' ++ rest
  | Err _ => True
  | Panic _ => False
  end.
Proof.
  induction i as [|c i IH]; intros str last; cbn [p_packages_loop]; auto.
  destruct (c =? 47) eqn:E.
  - apply Z.eqb_eq in E. subst c. specialize (IH [] i). destruct (p_packages_loop i [] i) as [[v rest]| |]; auto.
    cbn [bind]. right. exists [], v. rewrite app_nil_r. split; [auto|]. cbn [app]. f_equal.
    destruct IH as [[-> ->]|(s & v' & -> & ->)]; [reflexivity|]. cbn. rewrite <- !app_assoc. reflexivity.
  - destruct ((c =? 59) || (c =? 60) || (c =? 46)); [left; auto|].
    specialize (IH (str ++ [c]) last). destruct (p_packages_loop i (str ++ [c]) last) as [[v rest]| |]; auto.
    destruct IH as [H|(s & v' & -> & ->)]; [left; auto|]. right. exists (c :: s), v'. rewrite <- app_assoc. auto.
Qed.
Lemma packages_good i : good 0 (flat_map (fun s => s ++ [47])) i (p_packages i).
Proof.
  unfold p_packages. pose proof (packages_loop_good i [] i) as H. destruct (p_packages_loop i [] i) as [[v rest]| |]; auto.
  destruct H as [[-> ->]|(s & v' & -> & ->)]; cbn.
  - exists []. repeat split; auto.
  - eexists. rewrite !app_comm_cons, app_assoc. split; [reflexivity|]. split; [lia|]. intros _. cbn. rewrite <- app_assoc. reflexivity.
Qed.
Lemma p_char_good c i : good 1 (fun _ => [c]) i (p_char c i).
Proof.
  unfold p_char. destruct i as [|x r]; cbn; auto. destruct (x =? c) eqn:E; cbn; auto. apply Z.eqb_eq in E. subst.
  exists [c]. cbn. auto.
Qed.

(** weaker: only if something is left *)
Definition good' {A} (min : nat) (d : A -> list Z) (i : list Z) (o : res (A * list Z)) : Prop :=
  match o with
  | Ok (a, rest) => exists u, i = u ++ rest /\ (min <= length u)%nat /\ (plain i -> rest <> [] -> u = d a)
  | Err _ => True
  | Panic _ => False
  end.
Lemma good_good' {A} min (d : A -> list Z) i o : good min d i o -> good' min d i o.
Proof. destruct o as [[a r]| |]; cbn; auto. intros (u & H1 & H2 & H3). eauto. Qed.

Lemma until_gt_good {A} (p : sp A) (d : A -> list Z) i0 :
  (forall i, i <> [] -> suffix i i0 -> good' 1 d i (p i)) -> forall k i, suffix i i0 -> (length i <= k)%nat ->
  good' 0 (flat_map d) i (p_until_gt p k i).
Proof.
  intros Hp. induction k as [|k IH]; intros i Hi Hk.
  - destruct i; cbn [p_until_gt]; [|cbn in Hk; lia]. exists []. auto.
  - destruct i as [|c i]; cbn [p_until_gt]; [exists []; auto|].
    destruct (c =? 62); [exists []; auto|]. pose proof (Hp (c :: i) ltac:(discriminate) Hi) as Ha.
    destruct (p (c :: i)) as [[a r]| |]; cbn [good'] in Ha; auto. cbn [bind].
    destruct Ha as (u & Eu & Hu & Ha). assert (Hr : suffix r i0). { eapply suffix_trans; [|exact Hi]. rewrite Eu. apply suffix_app. }
    rewrite Eu, app_length in Hk. specialize (IH r Hr ltac:(lia)).
    destruct (p_until_gt p k r) as [[xs r']| |]; cbn [good'] in IH; auto. cbn [bind good'].
    destruct IH as (v & -> & _ & Hv). exists (u ++ v). rewrite Eu, <- app_assoc. split; [auto|]. split; [lia|].
    intros Hpl Hne. rewrite Eu in Ha. cbn. rewrite <- Ha, <- Hv; auto.
    + eapply plain_suffix; [apply suffix_app|exact Hpl].
    + destruct v; cbn; [auto|discriminate].
Qed.
Lemma until_gt_nil {A} (p : sp A) k i xs r : p_until_gt p k i = Ok (xs, r) -> xs = [] -> i = r.
Proof.
  intros H ->. destruct k; destruct i as [|c i]; cbn [p_until_gt] in H; try congruence.
  - destruct (c =? 62); [congruence|discriminate].
  - destruct (c =? 62); [congruence|]. destruct (p (c :: i)) as [[a j]| |]; cbn in H; try discriminate.
    destruct (p_until_gt p k j) as [[ys j']| |]; cbn in H; discriminate.
Qed.
Lemma bracketed_good {A} (p : sp A) (d : A -> list Z) i :
  (forall j, j <> [] -> suffix j i -> (length j < length i)%nat -> good' 1 d j (p j)) ->
  good 0 (fun xs => match xs with [] => [] | _ => [60] ++ flat_map d xs ++ [62] end) i (p_bracketed p i).
Proof.
  intros Hp. unfold p_bracketed. destruct i as [|c r]; [exists []; auto|].
  destruct (c =? 60) eqn:Ec; [|exists []; auto]. apply Z.eqb_eq in Ec. subst c.
  pose proof (until_gt_good p d r) as Hu.
  assert (Hg : good' 0 (flat_map d) r (p_until_gt p (length r) r)).
  { apply Hu; [|apply suffix_refl|lia]. intros j Hne Hj. apply Hp; auto.
    - eapply suffix_trans; [exact Hj|apply suffix_cons].
    - destruct Hj as (w & ->). cbn. rewrite app_length. lia. }
  clear Hu. destruct (p_until_gt p (length r) r) as [[xs r1]| |] eqn:Eu; cbn [good'] in Hg; auto. cbn [bind].
  pose proof (p_char_good 62 r1) as Hc. destruct (p_char 62 r1) as [[[] r2]| |]; cbn [good] in Hc; auto.
  cbn [bind good]. destruct Hg as (u & -> & _ & Hu). destruct Hc as (v & -> & Hlv & Hv).
  exists (60 :: u ++ v). split; [cbn; rewrite <- app_assoc; reflexivity|]. split; [lia|].
  intros Hpl. assert (Hp1 : plain (u ++ v ++ r2)) by (eapply plain_suffix; [apply suffix_cons|exact Hpl]).
  assert (Hp2 : plain (v ++ r2)) by (eapply plain_suffix; [apply suffix_app|exact Hp1]).
  specialize (Hv Hp2). subst v. specialize (Hu Hp1 ltac:(cbn; discriminate)).
  destruct xs as [|x xs].
  - exfalso. apply until_gt_nil in Eu; auto. destruct u; [|apply (f_equal (@length Z)) in Eu; rewrite !app_length in Eu; cbn in Eu; lia].
    destruct Hpl as [_ Hn]. apply Hn. exists [], r2. reflexivity.
  - rewrite Hu. reflexivity.
Qed.

Section Any.
  Variable md : mode.
  Variable ref : sp rsig.
  Variable m : nat.
  Hypothesis Href : forall i, (length i < m)%nat -> safe md i -> good 1 d_rsig i (ref i).

  Lemma p_type_good i : (length i < m)%nat -> safe md i -> good 1 d_tsig i (p_type ref i).
  Proof.
    intros Hl Hs. specialize (Href i Hl Hs). unfold p_type. destruct i as [|c r]; [exact I|].
    repeat (match goal with |- context [if (c =? ?k) then _ else _] =>
      destruct (c =? k) eqn:?; [match goal with H : (c =? k) = true |- _ => apply Z.eqb_eq in H; subst c end;
        exists [k]; cbn; auto|] end).
    destruct ((c =? 84) || (c =? 76) || (c =? 91)); [|exact I].
    destruct (ref (c :: r)) as [[x j]| |]; cbn [good] in Href; auto.
  Qed.
  Lemma p_arg_good i : (length i < m)%nat -> safe md i -> good 1 d_targ i (p_arg ref i).
  Proof.
    intros Hl Hs. pose proof (Href i Hl Hs) as Hi. unfold p_arg. destruct i as [|c r]; [exact I|].
    assert (Hr : good 1 d_rsig r (ref r)).
    { apply Href; [cbn in Hl; lia|]. eapply safe_suffix; [apply suffix_cons|exact Hs]. }
    assert (Hpl : plain (c :: r) -> plain r) by (apply plain_suffix, suffix_cons).
    destruct (c =? 42) eqn:E1; [apply Z.eqb_eq in E1; subst; exists [42]; cbn; auto|].
    destruct (c =? 45) eqn:E2.
    { apply Z.eqb_eq in E2. subst. destruct (ref r) as [[x j]| |]; cbn [good] in Hr; auto.
      destruct Hr as (u & -> & Hu & Hd). exists (45 :: u). split; [reflexivity|]. split; [cbn; lia|].
      intros H. cbn. f_equal. auto. }
    destruct (c =? 43) eqn:E3.
    { apply Z.eqb_eq in E3. subst. destruct (ref r) as [[x j]| |]; cbn [good] in Hr; auto.
      destruct Hr as (u & -> & Hu & Hd). exists (43 :: u). split; [reflexivity|]. split; [cbn; lia|].
      intros H. cbn. f_equal. auto. }
    destruct ((c =? 84) || (c =? 76) || (c =? 91)); [|exact I].
    destruct (ref (c :: r)) as [[x j]| |]; cbn [good] in Hi; auto.
  Qed.
  Lemma p_simple_good i : (length i < m)%nat -> safe md i -> good 0 d_ssig i (p_simple ref i).
  Proof.
    intros Hl Hs. unfold p_simple. pose proof (span_name_good i) as Hn. destruct (span_name i) as [nm j]. subst i.
    rewrite app_length in Hl.
    pose proof (bracketed_good (p_arg ref) d_targ j) as Hb.
    assert (Hb' : good 0 (fun xs => match xs with [] => [] | _ => [60] ++ flat_map d_targ xs ++ [62] end) j
      (p_bracketed (p_arg ref) j)).
    { apply Hb. intros k _ Hk Hlk. apply good_good', p_arg_good; [lia|].
      eapply safe_suffix; [eapply suffix_trans; [exact Hk|apply suffix_app]|exact Hs]. }
    clear Hb. destruct (p_bracketed (p_arg ref) j) as [[args r]| |]; cbn [good] in Hb'; auto. cbn [bind good].
    destruct Hb' as (u & -> & _ & Hu). exists (nm ++ u). rewrite <- app_assoc. split; [auto|]. split; [lia|].
    intros Hpl. rewrite Hu; [reflexivity|]. eapply plain_suffix; [apply suffix_app|exact Hpl].
  Qed.
  Lemma p_suffixes_good k : forall i, (length i < m)%nat -> (length i <= k)%nat -> safe md i ->
    good 0 (flat_map (fun s => [46] ++ d_ssig s)) i (p_suffixes (p_simple ref) k i).
  Proof.
    induction k as [|k IH]; intros i Hl Hk Hs.
    - destruct i; cbn in Hk; [|lia]. cbn [p_suffixes]. exists []. auto.
    - cbn [p_suffixes]. destruct i as [|c r]; [exists []; auto|]. destruct (c =? 46) eqn:Ec; [|exists []; auto].
      apply Z.eqb_eq in Ec. subst c. cbn [length] in *.
      assert (Hp : good 0 d_ssig r (p_simple ref r)).
      { apply p_simple_good; [lia|]. eapply safe_suffix; [apply suffix_cons|exact Hs]. }
      destruct (p_simple ref r) as [[a j]| |]; cbn [good] in Hp; auto. cbn [bind].
      destruct Hp as (u & -> & _ & Hu). rewrite app_length in *.
      specialize (IH j ltac:(lia) ltac:(lia)).
      assert (Hsj : safe md j). { eapply safe_suffix; [|exact Hs]. exists (46 :: u). reflexivity. }
      specialize (IH Hsj). destruct (p_suffixes (p_simple ref) k j) as [[xs j']| |]; cbn [good] in IH; auto.
      cbn [bind good]. destruct IH as (v & -> & _ & Hv). exists (46 :: u ++ v). cbn [app]. rewrite <- app_assoc.
      split; [auto|]. split; [lia|]. intros Hpl. rewrite Hu, Hv; [reflexivity| |].
      + eapply plain_suffix; [|exact Hpl]. exists (46 :: u). reflexivity.
      + eapply plain_suffix; [|exact Hpl]. apply suffix_cons.
  Qed.
  Lemma p_class_good i : (length i <= m)%nat -> safe md i -> good 1 d_csig i (p_class ref i).
  Proof.
    intros Hl Hs. unfold p_class. pose proof (p_char_good 76 i) as H1.
    destruct (p_char 76 i) as [[[] i1]| |]; cbn [good] in H1; auto. cbn [bind].
    destruct H1 as (u1 & -> & Hl1 & Hu1). pose proof (packages_good i1) as H2.
    destruct (p_packages i1) as [[pk i2]| |]; cbn [good] in H2; auto. cbn [bind].
    destruct H2 as (u2 & -> & _ & Hu2). rewrite !app_length in Hl.
    assert (Hs2 : safe md i2). { eapply safe_suffix; [|exact Hs]. exists (u1 ++ u2). rewrite app_assoc. reflexivity. }
    pose proof (p_simple_good i2 ltac:(lia) Hs2) as H3.
    destruct (p_simple ref i2) as [[nm i3]| |]; cbn [good] in H3; auto. cbn [bind].
    destruct H3 as (u3 & -> & _ & Hu3). rewrite !app_length in Hl.
    assert (Hs3 : safe md i3). { eapply safe_suffix; [|exact Hs2]. apply suffix_app. }
    pose proof (p_suffixes_good (length i3) i3 ltac:(lia) ltac:(lia) Hs3) as H4.
    destruct (p_suffixes (p_simple ref) (length i3) i3) as [[sf i4]| |]; cbn [good] in H4; auto. cbn [bind].
    destruct H4 as (u4 & -> & _ & Hu4). pose proof (p_char_good 59 i4) as H5.
    destruct (p_char 59 i4) as [[[] i5]| |]; cbn [good] in H5; auto. cbn [bind good].
    destruct H5 as (u5 & -> & _ & Hu5). exists (u1 ++ u2 ++ u3 ++ u4 ++ u5). rewrite <- !app_assoc.
    split; [auto|]. rewrite !app_length. split; [lia|]. intros P1.
    assert (P2 := plain_suffix _ _ (suffix_app _ _) P1). assert (P3 := plain_suffix _ _ (suffix_app _ _) P2).
    assert (P4 := plain_suffix _ _ (suffix_app _ _) P3). assert (P5 := plain_suffix _ _ (suffix_app _ _) P4).
    rewrite (Hu1 P1), (Hu2 P2), (Hu3 P3), (Hu4 P4), (Hu5 P5). reflexivity.
  Qed.
End Any.

Lemma p_ref_good md n : forall i, (length i < n)%nat -> safe md i -> good 1 d_rsig i (p_ref md n i).
Proof.
  induction n as [|n IH]; intros i Hl Hs; [lia|]. cbn [p_ref]. destruct i as [|c r]; [exact I|].
  destruct (c =? 91) eqn:E1.
  - apply Z.eqb_eq in E1. subst c. pose proof (count_dims_good md (91 :: r) 0) as Hc.
    destruct (count_dims md 0 (91 :: r)) as [[d j]|e|pk]; [|destruct Hc|]; cbn [bind].
    + destruct Hc as (k & Ek & Hk & Hh). destruct k as [|k]; [cbn in Ek; subst j; destruct Hh|].
      assert (Hlj : (length j < n)%nat).
      { apply (f_equal (@length Z)) in Ek. rewrite app_length, repeat_length in Ek. cbn [length] in *. lia. }
      assert (Hsj : safe md j). { eapply safe_suffix; [|exact Hs]. rewrite Ek. apply suffix_app. }
      pose proof (p_type_good md (p_ref md n) n IH j Hlj Hsj) as Ht.
      destruct (p_type (p_ref md n) j) as [[t j']| |]; cbn [good] in Ht; auto. cbn [bind good].
      destruct Ht as (u & -> & Hlu & Hu). rewrite Ek. exists (repeat 91 (S k) ++ u). rewrite <- app_assoc.
      split; [auto|]. rewrite app_length. split; [lia|]. intros Hpl.
      rewrite Hu by (eapply plain_suffix; [apply suffix_app|exact Hpl]). cbn [d_rsig]. f_equal. f_equal.
      destruct Hpl as [Hnl _]. assert (S k < 256)%nat.
      { destruct (Nat.lt_ge_cases (S k) 256); auto. exfalso. apply Hnl. apply run_long. auto. }
      rewrite Hk by lia. lia.
    + destruct Hc as (-> & k & rest & Ek & Hk). destruct Hs as [Hs|Hs]; [discriminate|]. apply Hs. rewrite Ek.
      apply run_long. lia.
  - destruct (c =? 84) eqn:E2.
    + apply Z.eqb_eq in E2. subst c. pose proof (split_semi_good r) as Hsp.
      destruct (split_semi r) as [[v j]|]; [|exact I]. subst r. exists (84 :: v ++ [59]). cbn [d_rsig app].
      rewrite <- app_assoc. split; [reflexivity|]. split; [cbn; lia|]. auto.
    + destruct (c =? 76) eqn:E3; [|exact I]. apply Z.eqb_eq in E3. subst c.
      pose proof (p_class_good md (p_ref md n) n IH (76 :: r) ltac:(lia) Hs) as Hc.
      destruct (p_class (p_ref md n) (76 :: r)) as [[x j]| |]; auto.
Qed.
Lemma p_rsig_good md i : safe md i -> good 1 d_rsig i (p_rsig md i).
Proof. intros H. apply p_ref_good; auto. Qed.
Lemma p_tsig_good md i : safe md i -> good 1 d_tsig i (p_tsig md i).
Proof. intros H. apply (p_type_good md (p_rsig md) (S (length i))); auto. intros. apply p_rsig_good; auto. Qed.
Lemma p_csig_good md i : safe md i -> good 1 d_csig i (p_csig md i).
Proof. intros H. apply (p_class_good md (p_rsig md) (length i)); auto. intros. apply p_rsig_good; auto. Qed.

Lemma p_rsig_start md c r x j : p_rsig md (c :: r) = Ok (x, j) -> c = 91 \/ c = 84 \/ c = 76.
Proof.
  unfold p_rsig. cbn [p_ref]. destruct (c =? 91) eqn:E1; [lia|]. destruct (c =? 84) eqn:E2; [lia|].
  destruct (c =? 76) eqn:E3; [lia|]. discriminate.
Qed.
Lemma p_param_good md i : i <> [] -> safe md i -> good' 1 d_param i (p_param md i).
Proof.
  intros Hne Hs. unfold p_param. pose proof (split_colon_good i) as Hsp. destruct (split_colon i) as [nm ch].
  destruct Hsp as [->|[-> ->]].
  2:{ cbn [bind p_itf_bounds good']. exists nm. rewrite app_nil_r. split; [auto|]. split; [destruct nm; [congruence|cbn; lia]|].
      congruence. }
  assert (Hs' : safe md ch). { eapply safe_suffix; [|exact Hs]. exists (nm ++ [58]). rewrite <- app_assoc. reflexivity. }
  assert (Hpl' : plain (nm ++ 58 :: ch) -> plain ch).
  { apply plain_suffix. exists (nm ++ [58]). rewrite <- app_assoc. reflexivity. }
  destruct ch as [|c ch].
  - cbn [bind p_itf_bounds good']. exists (nm ++ [58]). rewrite app_nil_r. split; [auto|]. rewrite app_length. cbn [length].
    split; [lia|]. congruence.
  - destruct ((c =? 84) || (c =? 91) || (c =? 76)) eqn:Ec.
    + pose proof (p_rsig_good md (c :: ch) Hs') as Hr. destruct (p_rsig md (c :: ch)) as [[r j]| |]; cbn [good] in Hr; auto.
      cbn [bind p_itf_bounds]. assert (c =? 58 = false) as -> by lia. cbn [bind good'].
      destruct Hr as (u & Eu & Hlu & Hu). rewrite Eu in Hpl', Hu |- *. exists (nm ++ 58 :: u). rewrite <- app_assoc. split; [auto|].
      rewrite app_length. cbn [length]. split; [lia|]. intros Hpl _. unfold d_param. cbn. rewrite app_nil_r, <- Hu; auto.
    + cbn [bind p_itf_bounds]. destruct (c =? 58) eqn:E58.
      * apply Z.eqb_eq in E58. subst c. assert (Hs2 : safe md ch) by (eapply safe_suffix; [apply suffix_cons|exact Hs']).
        pose proof (p_rsig_good md ch Hs2) as Hr. destruct (p_rsig md ch) as [[r j]| |] eqn:Er; cbn [good] in Hr; auto.
        cbn [bind]. destruct Hr as (u & -> & Hlu & Hu). destruct u as [|x u]; [cbn in Hlu; lia|].
        cbn [app] in Er. apply p_rsig_start in Er. cbn [app p_itf_bounds]. assert (x =? 58 = false) as -> by lia.
        cbn [bind good']. exists (nm ++ 58 :: 58 :: x :: u). rewrite <- app_assoc. split; [auto|].
        rewrite app_length. cbn [length]. split; [lia|]. intros Hpl _. unfold d_param. cbn. rewrite app_nil_r, <- Hu; auto.
        eapply plain_suffix; [apply suffix_cons|]. auto.
      * cbn [bind good']. exists (nm ++ [58]). rewrite <- app_assoc. split; [auto|]. rewrite app_length. cbn [length].
        split; [lia|]. intros _ _. unfold d_param. cbn. reflexivity.
Qed.
Lemma p_params_good md i : safe md i -> good 0 d_params i (p_params md i).
Proof.
  intros Hs. apply bracketed_good. intros j Hne Hj _. apply p_param_good; auto. eapply safe_suffix; eauto.
Qed.
Lemma p_while_good {A} set (p : sp A) d md : (forall i, i <> [] -> safe md i -> good 1 d i (p i)) ->
  forall k i, (length i <= k)%nat -> safe md i -> good 0 (flat_map d) i (p_while set p k i).
Proof.
  intros Hp. induction k as [|k IH]; intros i Hk Hs; (destruct i as [|c r]; cbn [p_while]; [exists []; auto|]).
  - cbn in Hk. lia.
  - destruct (set c); [|exists []; auto]. pose proof (Hp (c :: r) ltac:(discriminate) Hs) as Ha.
    destruct (p (c :: r)) as [[a j]| |]; cbn [good] in Ha; auto. cbn [bind]. destruct Ha as (u & Eu & Hlu & Hu).
    rewrite Eu in Hs, Hk |- *. rewrite app_length in Hk. specialize (IH j ltac:(lia) (safe_suffix _ _ _ (suffix_app _ _) Hs)).
    destruct (p_while set p k j) as [[xs j']| |]; cbn [good] in IH; auto. cbn [bind good].
    destruct IH as (v & -> & _ & Hv). exists (u ++ v). rewrite <- app_assoc. split; [auto|]. split; [lia|].
    intros Hpl. rewrite Eu in Hu. rewrite (Hu Hpl), Hv; [reflexivity|]. eapply plain_suffix; [apply suffix_app|exact Hpl].
Qed.
Lemma p_ret_good md i : safe md i -> good 1 (fun o => match o with Some t => d_tsig t | None => [86] end) i (p_ret md i).
Proof.
  intros Hs. pose proof (p_tsig_good md i Hs) as Ht. unfold p_ret. destruct i as [|c r].
  - destruct (p_tsig md []) as [[t j]| |]; auto.
  - destruct (c =? 86) eqn:E; [apply Z.eqb_eq in E; subst; exists [86]; cbn; auto|].
    destruct (p_tsig md (c :: r)) as [[t j]| |]; auto.
Qed.
Lemma p_throws_good md i : safe md i -> good 1 throws_text i (p_throws md i).
Proof.
  intros Hs. unfold p_throws. pose proof (p_char_good 94 i) as H1.
  destruct (p_char 94 i) as [[[] j]| |]; cbn [good] in H1; auto. cbn [bind]. destruct H1 as (u & -> & Hlu & Hu).
  assert (Hsj := safe_suffix _ _ _ (suffix_app _ _) Hs). destruct j as [|c r]; [exact I|].
  destruct (c =? 76) eqn:E1.
  - apply Z.eqb_eq in E1. subst c. pose proof (p_csig_good md (76 :: r) Hsj) as Hc.
    destruct (p_csig md (76 :: r)) as [[x j]| |]; cbn [good] in Hc; auto. cbn [bind good].
    destruct Hc as (v & Ev & _ & Hv). rewrite Ev in Hu, Hv |- *.
    exists (u ++ v). rewrite <- app_assoc. split; [auto|]. rewrite app_length. split; [lia|].
    intros Hpl. rewrite (Hu Hpl), Hv; [cbn; rewrite d_c; reflexivity|]. eapply plain_suffix; [apply suffix_app|exact Hpl].
  - destruct (c =? 84) eqn:E2; [|exact I]. apply Z.eqb_eq in E2. subst c. pose proof (split_semi_good r) as Hsp.
    destruct (split_semi r) as [[v j]|]; [|exact I]. subst r. exists (u ++ 84 :: v ++ [59]). rewrite <- app_assoc.
    cbn [app]. rewrite <- app_assoc. split; [reflexivity|]. rewrite app_length. split; [lia|].
    intros Hpl. rewrite (Hu Hpl). reflexivity.
Qed.
Lemma p_classsig_good md i : safe md i -> good 1 class_sig_text i (p_classsig md i).
Proof.
  intros Hs. unfold p_classsig. pose proof (p_params_good md i Hs) as H1.
  destruct (p_params md i) as [[ps i1]| |]; cbn [good] in H1; auto. cbn [bind]. destruct H1 as (u1 & -> & _ & Hu1).
  assert (Hs1 := safe_suffix _ _ _ (suffix_app _ _) Hs). pose proof (p_csig_good md i1 Hs1) as H2.
  destruct (p_csig md i1) as [[su i2]| |]; cbn [good] in H2; auto. cbn [bind]. destruct H2 as (u2 & -> & Hl2 & Hu2).
  assert (Hs2 := safe_suffix _ _ _ (suffix_app _ _) Hs1).
  pose proof (p_while_good (fun c => c =? 76) (p_csig md) d_csig md (fun i _ => p_csig_good md i) (length i2) i2 ltac:(lia) Hs2) as H3.
  destruct (p_while _ (p_csig md) (length i2) i2) as [[is i3]| |]; cbn [good] in H3; auto. cbn [bind good].
  destruct H3 as (u3 & -> & _ & Hu3). exists (u1 ++ u2 ++ u3). rewrite <- !app_assoc. split; [auto|].
  rewrite !app_length. split; [lia|]. intros P1.
  assert (P2 := plain_suffix _ _ (suffix_app _ _) P1). assert (P3 := plain_suffix _ _ (suffix_app _ _) P2).
  rewrite (Hu1 P1), (Hu2 P2), (Hu3 P3). rewrite <- d_class_text. reflexivity.
Qed.
Lemma p_method_good md i : safe md i -> good 1 method_sig_text i (p_method md i).
Proof.
  intros Hs. unfold p_method. pose proof (p_params_good md i Hs) as H1.
  destruct (p_params md i) as [[ps i1]| |]; cbn [good] in H1; auto. cbn [bind]. destruct H1 as (u1 & -> & _ & Hu1).
  assert (Hs1 := safe_suffix _ _ _ (suffix_app _ _) Hs). pose proof (p_char_good 40 i1) as H2.
  destruct (p_char 40 i1) as [[[] i2]| |]; cbn [good] in H2; auto. cbn [bind]. destruct H2 as (u2 & -> & Hl2 & Hu2).
  assert (Hs2 := safe_suffix _ _ _ (suffix_app _ _) Hs1).
  pose proof (p_while_good type_start (p_tsig md) d_tsig md (fun i _ => p_tsig_good md i) (length i2) i2 ltac:(lia) Hs2) as H3.
  destruct (p_while _ (p_tsig md) (length i2) i2) as [[ar i3]| |]; cbn [good] in H3; auto. cbn [bind].
  destruct H3 as (u3 & -> & _ & Hu3). assert (Hs3 := safe_suffix _ _ _ (suffix_app _ _) Hs2).
  pose proof (p_char_good 41 i3) as H4.
  destruct (p_char 41 i3) as [[[] i4]| |]; cbn [good] in H4; auto. cbn [bind]. destruct H4 as (u4 & -> & _ & Hu4).
  assert (Hs4 := safe_suffix _ _ _ (suffix_app _ _) Hs3). pose proof (p_ret_good md i4 Hs4) as H5.
  destruct (p_ret md i4) as [[rt i5]| |]; cbn [good] in H5; auto. cbn [bind]. destruct H5 as (u5 & -> & _ & Hu5).
  assert (Hs5 := safe_suffix _ _ _ (suffix_app _ _) Hs4).
  pose proof (p_while_good (fun c => c =? 94) (p_throws md) throws_text md (fun i _ => p_throws_good md i) (length i5) i5 ltac:(lia) Hs5) as H6.
  destruct (p_while _ (p_throws md) (length i5) i5) as [[th i6]| |]; cbn [good] in H6; auto. cbn [bind good].
  destruct H6 as (u6 & -> & _ & Hu6). exists (u1 ++ u2 ++ u3 ++ u4 ++ u5 ++ u6). rewrite <- !app_assoc. split; [auto|].
  rewrite !app_length. split; [lia|]. intros P1.
  assert (P2 := plain_suffix _ _ (suffix_app _ _) P1). assert (P3 := plain_suffix _ _ (suffix_app _ _) P2).
  assert (P4 := plain_suffix _ _ (suffix_app _ _) P3). assert (P5 := plain_suffix _ _ (suffix_app _ _) P4).
  assert (P6 := plain_suffix _ _ (suffix_app _ _) P5).
  rewrite (Hu1 P1), (Hu2 P2), (Hu3 P3), (Hu4 P4), (Hu5 P5), (Hu6 P6). unfold method_sig_text. cbn [ms_params ms_args ms_ret ms_throws app].
  rewrite d_params_text. f_equal. f_equal. rewrite flat_map_concat_map, (map_ext _ _ d_t). f_equal. f_equal.
  rewrite flat_map_concat_map. f_equal. destruct rt; [apply d_t|reflexivity].
Qed.
