(** A class that was written and read is one that stays as it is. *)
From Coq Require Import String Permutation.
From Verif Require Import Base BaseLemmas Wtf8Spec PrimModel PrimProofs TypeModel TypeSpec CpModel CpSpec CpProofs CpProps FileSpec
  SigModel AnnModel AnnSpec AttrModel AttrSpec AttrProofs FrameModel FrameSpec InsnModel InsnSpec InsnProofs InsnProps
  CodeModel CodeSpec CodeProofs CodeWrite CodeRead CodeProps ReadProofs CodeAccept ClassModel ClassSpec ClassProofs ClassProps ClassStable CodeStable
  ClassCodeStable.

(** * Everything that is read, in code *)
Section Everywhere.
Context (P : code -> Prop).
Context (HP : forall md p s l c s' rest, bytes l -> rd_code md p s l = Ok ((c, s'), rest) -> P c).
Definition all_mattr (a : mattr code) : Prop := match a with MCode c => P c | _ => True end.
Definition all_class (c : class) : Prop := Forall (fun m => Forall all_mattr (me_attrs m)) (cl_methods c).
Lemma all_mattr_read md p : yields (rd_mattr (rd_code md) md p) all_mattr.
Proof using HP.
  apply yields_framed; [intros s; apply framed_attr|]. intros s l a s' l' Hb H. unfold rd_mattr in H.
  apply CodeAccept.rd_attr_inv in H as [_ [(n & r & b & HI & Hbb & H)|(r & H)]]; auto; [|inversion H; exact I].
  unfold mattr_known in HI. cbn [In] in HI. repeat destruct HI as [HI|HI]; try (exfalso; exact HI); apply (f_equal snd) in HI; cbn [snd] in HI; subst r;
    unfold rd_map in H; inv_bind H; destruct v; try (inversion H; exact I).
  destruct p0 as [c s1]. inversion H; subst. eapply HP; eauto.
Qed.
Lemma all_members md p : yields (rd_members md p) (fun k => forall v, all_class (k v)).
Proof using HP.
  unfold rd_members. eapply yields_map.
  - apply yields_pair; [apply yields_lift; auto with framed|]. apply yields_pair; [apply yields_lift; auto with framed|]. apply yields_pair; [apply yields_lift; auto with framed|].
    apply yields_pair; [apply yields_lift; auto with framed|]. apply yields_pair; [apply yields_lift|].
    + unfold rd_field. apply framed_vec. repeat (apply framed_map || apply framed_pair); auto with framed. apply framed_vec. apply framed_attr.
    + apply yields_pair; [|apply (yields_framed _ (fun _ => True)); [intros s; apply framed_svec; intros; apply framed_attr|auto]].
      apply yields_vec. unfold rd_method. eapply yields_map with (Q := fun m => Forall all_mattr (me_attrs m)).
      * apply yields_pair; [apply yields_lift; auto with framed|]. apply yields_pair; [apply yields_lift; auto with framed|]. apply yields_pair; [apply yields_lift; auto with framed|].
        apply yields_vec, all_mattr_read.
      * intros (a & n & d & t) H. cbn in *. tauto.
  - intros (a & n & sup & i & f & m & t) H v. unfold all_class. cbn in *. tauto.
Qed.
Lemma all_file md l c h rest : bytes l -> rd_classfile md l = Ok ((c, h), rest) -> all_class c.
Proof using HP.
  intros Hb H. unfold rd_classfile in H. inv_bind H. destruct v as [m l1]. destruct (m =? JVM_MAGIC); [|discriminate].
  pose proof (framed_bytes _ _ _ _ framed_u32 Hb E) as Hb1.
  inv_bind H. destruct v as [v l2]. assert (Hb2 : bytes l2) by (eapply framed_bytes; [|exact Hb1|exact E0]; auto with framed).
  inv_bind H. destruct v0 as [p l3]. assert (Hb3 : bytes l3) by (eapply framed_bytes; [|exact Hb2|exact E1]; auto with framed).
  inv_bind H. destruct v0 as [[k s] l4]. inv_bind H. apply ok_inj in H. inversion H; subst. clear H. eapply (all_members md (pool_of p)) in E2 as [HU _]; auto.
Qed.
End Everywhere.

(** Instructions that take bytes, labels and line numbers are all there is. *)
Definition slim (i : insn) : Prop := realb i = true \/ most_bytes i = 0.
Lemma insert_forall (P : insn -> Prop) m : Forall (fun e => Forall P (snd e)) m -> forall k is, Forall P is -> Forall P (insert_all k m is).
Proof.
  intros Hm.
  assert (HF : forall k v is, Forall P v -> Forall P is -> Forall P (fold_left (fun is i => insert_at k i is) v is)).
  { intros k v. induction v as [|i v IH]; intros is Hv His; cbn [fold_left]; [exact His|]. inversion Hv; subst. apply IH; auto. unfold insert_at.
    rewrite <- (firstn_skipn k is) in His. apply Forall_app in His as [H1' H2']. apply Forall_app. auto. }
  assert (HA : forall k v, assoc Z.eqb k m = Some v -> Forall P v).
  { clear - Hm. intros k v. induction Hm as [|[a b] m Ha _ IH]; cbn [assoc]; [discriminate|]. destruct (_ =? _); [intros [= <-]; exact Ha|exact IH]. }
  induction k as [|k IH]; intros is His; cbn [insert_all].
  - destruct (assoc _ _ m) eqn:E; eauto.
  - apply IH. destruct (assoc _ _ m) eqn:E; eauto.
Qed.
Lemma push_forall (P : insn -> Prop) k i m : P i -> Forall (fun e => Forall P (snd e)) m -> Forall (fun e => Forall P (snd e)) (push_at k i m).
Proof.
  intros Hi. induction 1 as [|[a b] m Ha Hm IH]; cbn [push_at]; [repeat constructor; exact Hi|]. destruct (_ =? _); constructor; auto. cbn [snd] in *.
  apply Forall_app. auto.
Qed.
Lemma labels_forall (P : insn -> Prop) idx ls : (forall l, P (ILabel l)) -> forall m m', add_labels idx ls m = Ok m' ->
  Forall (fun e => Forall P (snd e)) m -> Forall (fun e => Forall P (snd e)) m'.
Proof.
  intros HL. induction ls as [|[off l] ls IH]; intros m m' H Hm; cbn [add_labels] in H; [congruence|]. destruct (idx off); [|discriminate].
  eapply IH; [exact H|]. apply push_forall; auto.
Qed.
Lemma read_slim md p s l c s' rest : bytes l -> rd_code md p s l = Ok ((c, s'), rest) -> Forall slim (cd_code c).
Proof.
  intros Hb H. unfold rd_code in H.
  inv_bind H. destruct v as [stack l1]. apply rd_u16_inv in E as (-> & Hst & Hb1); auto.
  inv_bind H. destruct v as [locals l2]. apply rd_u16_inv in E as (-> & Hlo & Hb2); auto.
  inv_bind H. destruct v as [n l3]. apply rd_u32_inv in E as (-> & Hn & Hb3); auto.
  inv_bind H. destruct v as [body l4]. apply take_ok in E as [-> Hbl].
  apply Forall_app in Hb3 as [Hbody Hb4].
  inv_bind H. destruct v as [is k1]. rename E into EI.
  assert (Hk0 : cst_ok {| k_refs := s; k_labels := []; k_catches := [] |}) by (repeat split; constructor).
  apply rd_insns_inv in EI as (G1 & HR & HA); auto.
  inv_bind H. destruct v as [nh l5]. inv_bind H. destruct v as [[cs k2] l6]. inv_bind H. destruct v as [na l7].
  inv_bind H. destruct v as [[z k4] l8]. inv_bind H. rename v into ins. injection H as <- <- <-. cbn [cd_code].
  apply insert_forall; [|eapply Forall_impl; [|exact HR]; intros i Hi; left; exact Hi].
  eapply labels_forall; [|eassumption|].
  - intros x. right. reflexivity.
  - clear. induction (z_lines z) as [|[i x] zs IH]; constructor; [|exact IH]. cbn [snd]. constructor; [right; reflexivity|constructor].
Qed.

(** * Instructions *)
Lemma in_F2 {A B} (P : A -> B -> Prop) l l' y : Forall2 P l l' -> In y l' -> exists x, In x l /\ P x y.
Proof. induction 1 as [|a b l l' Hab _ IH]; intros Hy; [destruct Hy|]. destruct Hy as [->|H]; [exists a; cbn; auto|destruct (IH H) as (x & ? & ?); exists x; cbn; auto]. Qed.
Lemma in_F2_l {A B} (P : A -> B -> Prop) l l' x : Forall2 P l l' -> In x l -> exists y, In y l' /\ P x y.
Proof. induction 1 as [|a b l l' Hab _ IH]; intros Hy; [destruct Hy|]. destruct Hy as [->|H]; [exists b; cbn; auto|destruct (IH H) as (y & ? & ?); exists y; cbn; auto]. Qed.
Lemma canon_wf heap i : wf_insn heap (canon i) = wf_insn heap i.
Proof. destruct i; try reflexivity. destruct a, b; reflexivity. Qed.
Lemma canon_sound i : sound (canon i) = sound i.
Proof. destruct i; try reflexivity. destruct a, b; reflexivity. Qed.
Lemma canon_switch i : wf_switch (canon i) = wf_switch i.
Proof. destruct i; try reflexivity. destruct a, b; reflexivity. Qed.
Lemma canon_plain i : cast_plain (canon i) = cast_plain i.
Proof. destruct i; try reflexivity. destruct a, b; reflexivity. Qed.
Lemma canon_dyns i : insn_dyns (canon i) = insn_dyns i.
Proof. destruct i; try reflexivity. destruct a, b; reflexivity. Qed.
Lemma canon_most i : most_bytes (canon i) = most_bytes i.
Proof. destruct i; try reflexivity. destruct a, b; reflexivity. Qed.
Lemma canon_readable i : readable (canon i) = readable i.
Proof. destruct i; try reflexivity. destruct a, b; reflexivity. Qed.
Lemma canon_targets i : targets (canon i) = targets i.
Proof. destruct i; try reflexivity. destruct a, b; reflexivity. Qed.
Lemma canon_short i : short (canon i) = short i.
Proof. destruct i; try reflexivity. destruct a, b; reflexivity. Qed.

Section Insn.
Context (R : Z -> Z -> Prop) (D : dynamic -> dynamic -> Prop).
(** what goes over from an instruction to one that is related to it *)
Definition goes_over (i i' : insn) : Prop :=
  (wf_insn no_heap i -> wf_insn no_heap i') /\ (sound i -> sound i') /\ (wf_switch i -> wf_switch i') /\ cast_plain i' /\ insn_dyns i' = [] /\
  most_bytes i' = most_bytes i /\ (readable i -> readable i') /\ (short i' -> short i) /\
  (forall l', In l' (targets i') -> exists l, In l (targets i) /\ R l l').
Lemma over_canon i i' : insn_dyns i = [] -> cast_plain i -> targets i = [] -> canon i' = canon i -> goes_over i i'.
Proof.
  intros Hd Hp Ht H. unfold goes_over. rewrite <- (canon_wf _ i'), <- (canon_sound i'), <- (canon_switch i'), <- (canon_plain i'), <- (canon_dyns i'), <- (canon_most i'),
    <- (canon_readable i'), <- (canon_short i'), <- (canon_targets i'), H, canon_wf, canon_sound, canon_switch, canon_plain, canon_dyns, canon_most, canon_readable, canon_short, canon_targets.
  repeat (split; [tauto || assumption || reflexivity|]). rewrite Ht. intros l' [].
Qed.
Lemma over_rel i i' : insn_rel R D i i' -> insn_dyns i = [] -> cast_plain i -> goes_over i i'.
Proof.
  intros H Hd Hp.
  assert (HO : forall A (o o' : ordyn A), dyn_of o = [] -> ordyn_rel D eq o o' -> o' = o) by (intros A [d|a] [d'|a'] Ho Hr; cbn in *; try discriminate; try contradiction; congruence).
  assert (HS : forall j, targets j = [] -> insn_dyns j = [] -> cast_plain j -> goes_over j j) by (intros; apply over_canon; auto).
  destruct i; cbn [insn_rel] in H; try (apply over_canon; auto; fail); destruct i'; try contradiction; cbn [insn_dyns] in Hd.
  - apply HO in H; [subst|exact Hd]. apply HS; auto.
  - destruct H as [-> H]. unfold goes_over. cbn. repeat (split; [tauto|]). intros l' [<-|[]]. eauto.
  - assert (c0 = c).
    { destruct c as [d|t], c0 as [d'|t']; cbn in H, Hd; try discriminate; try contradiction. destruct H as [_ H]. cbn [cast_plain] in Hp.
      destruct t; [destruct H as [H|H]; [contradiction|congruence]|congruence]. }
    subst. apply HS; auto.
  - assert (c0 = c).
    { destruct c as [d|t], c0 as [d'|t']; cbn in H, Hd; try discriminate; try contradiction. destruct H as [_ H]. cbn [cast_plain] in Hp.
      destruct t; [destruct H as [H|H]; [contradiction|congruence]|congruence]. }
    subst. apply HS; auto.
  - apply HO in H; [subst|exact Hd]. apply HS; auto.
  - destruct H as (-> & -> & H). apply HO in H; [subst|exact Hd]. apply HS; auto.
  - destruct H as (-> & H). apply HO in H; [subst|exact Hd]. apply HS; auto.
  - apply HO in H; [subst|exact Hd]. apply HS; auto.
  - discriminate Hd.
  - destruct H as (H & ->). apply HO in H; [subst|exact Hd]. apply HS; auto.
  - unfold goes_over. cbn. repeat (split; [tauto|]). intros l' [<-|[]]. eauto.
  - destruct H as (H1 & -> & H2). unfold goes_over. cbn [wf_insn sound wf_switch cast_plain insn_dyns most_bytes readable short targets real].
    assert (HL : len ls0 = len ls) by (unfold len; rewrite (F2_len _ _ _ H2); reflexivity). rewrite HL.
    repeat (split; [tauto|]). intros l' [<-|Hl]; [exists dflt; cbn; auto|].
    destruct (in_F2 _ _ _ _ H2 Hl) as (x & Hx & Hr). exists x. cbn. auto.
  - destruct H as (H1 & t1 & HP & H2). unfold goes_over. cbn [wf_insn sound wf_switch cast_plain insn_dyns most_bytes readable short targets real].
    assert (HL : len t0 = len t) by (unfold len; rewrite (F2_len _ _ _ H2), (Permutation_length HP); reflexivity). rewrite HL.
    assert (HM : map fst t0 = map fst t1) by (clear - H2; induction H2 as [|e e' l l' [He _] _ IH]; cbn; [reflexivity|congruence]).
    assert (HPm : Permutation (map fst t) (map fst t0)) by (rewrite HM; apply Permutation_map; exact HP).
    do 2 (split; [tauto|]). split.
    { intros (W1 & W2 & W3). split; [eapply Permutation_NoDup; eauto|]. split; [|exact W3]. rewrite Forall_forall in *. intros k Hk. apply W2.
      eapply Permutation_in; [apply Permutation_sym; exact HPm|exact Hk]. }
    repeat (split; [tauto|]). intros l' [<-|Hl]; [exists dflt; cbn; auto|]. apply in_map_iff in Hl as (e & <- & He).
    destruct (in_F2 _ _ _ _ H2 He) as (x & Hx & _ & Hr). exists (snd x). split; [|exact Hr]. right. apply in_map. eapply Permutation_in; [apply Permutation_sym; exact HP|exact Hx].
Qed.
End Insn.

(** * Lists *)
Lemma F2_app_r {A B} (P : A -> B -> Prop) l x y : Forall2 P l (x ++ y) -> exists a b, l = a ++ b /\ Forall2 P a x /\ Forall2 P b y.
Proof. intros H. apply Forall2_app_inv_r in H as (a & b & H1 & H2 & ->). eauto. Qed.
Lemma strip_split is A j B : strip is = A ++ j :: B -> exists a b, is = a ++ j :: b /\ strip a = A /\ strip b = B.
Proof.
  revert A. induction is as [|i is IH]; intros A H; [destruct A; discriminate|]. cbn [strip filter] in H. fold (strip is) in H. destruct (realb i) eqn:Er.
  - destruct A as [|x A]; cbn [app] in H; injection H as Hx H.
    + subst. exists [], is. auto.
    + destruct (IH _ H) as (a & b & -> & <- & <-). exists (i :: a), b. cbn [app strip filter]. rewrite Er. split; [reflexivity|]. split; [|reflexivity]. f_equal. exact Hx.
  - destruct (IH _ H) as (a & b & -> & <- & <-). exists (i :: a), b. cbn [app strip filter]. rewrite Er. auto.
Qed.
Lemma place_split l is : forall n, place l is = Some n -> exists u v, is = u ++ ILabel l :: v /\ len (strip u) = n.
Proof.
  induction is as [|i is IH]; intros n H; cbn [place] in H; [discriminate|]. destruct (match i with ILabel l' => l' =? l | _ => false end) eqn:Ei.
  - injection H as <-. destruct i; try discriminate Ei. apply Z.eqb_eq in Ei. subst. exists [], is. auto.
  - destruct (place l is) as [m|]; [|discriminate]. destruct (IH _ eq_refl) as (u & v & -> & Hu). exists (i :: u), v. split; [reflexivity|].
    cbn [option_map] in H. injection H as <-. cbn [strip filter]. fold (strip u). destruct (realb i); rewrite ?len_cons; lia.
Qed.
Lemma two_splits {A} (a b u v : list A) x y : a ++ x :: b = u ++ y :: v ->
  (exists w, u = a ++ x :: w /\ b = w ++ y :: v) \/ (exists w, a = u ++ y :: w /\ v = w ++ x :: b) \/ (a = u /\ x = y /\ b = v).
Proof.
  revert u. induction a as [|h a IH]; intros [|k u] H; cbn [app] in H; injection H as <- H.
  - right. right. auto.
  - left. exists u. subst. auto.
  - right. left. exists a. subst. auto.
  - destruct (IH _ H) as [(w & -> & ->)|[(w & -> & ->)|(-> & -> & ->)]]; [left; exists w; auto|right; left; exists w; auto|right; right; auto].
Qed.
Lemma most_nonneg i : 0 <= most_bytes i.
Proof. pose proof (room_nn [i]) as H. cbn [room] in H. lia. Qed.
Lemma room_strip is : room (strip is) <= room is.
Proof. induction is as [|i is IH]; [cbn; lia|]. cbn [strip filter room]. fold (strip is). pose proof (most_nonneg i). destruct (realb i); cbn [room]; lia. Qed.
Lemma room_slim is : Forall slim is -> room (strip is) = room is.
Proof.
  induction 1 as [|i is [Hi|Hi] _ IH]; [reflexivity| |]; cbn [strip filter room]; fold (strip is).
  - rewrite Hi. cbn [room]. lia.
  - destruct (realb i); cbn [room]; lia.
Qed.
Lemma room_rel is is' : Forall2 (fun i i' => most_bytes i' = most_bytes i) is is' -> room is' = room is.
Proof. induction 1; cbn [room]; lia. Qed.
Lemma F2_take {A B} (P : A -> B -> Prop) a b a' b' : Forall2 P (a ++ b) (a' ++ b') -> len a = len a' -> Forall2 P a a' /\ Forall2 P b b'.
Proof.
  revert a'. induction a as [|x a IH]; intros [|y a'] H HL; rewrite ?len_cons, ?len_nil in HL; try (pose proof (len_nonneg a)); try (pose proof (len_nonneg a')); try lia; [auto|].
  cbn [app] in H. inversion H as [|? ? ? ? Hxy Hr]; subst. destruct (IH a') as [F1 F2]; [assumption|lia|]. auto.
Qed.

(** * Code *)
Section Code.
Context (D : dynamic -> dynamic -> Prop) (c c' : code).
Let is := cd_code c.
Let is' := cd_code c'.
Let R := same_place is is'.
Context (HD : code_dyns c = []) (HP : Forall cast_plain is).
Context (HW : wf_code (wenv_class Release no_heap) c).
Context (HR : Forall2 (insn_rel R D) (strip is) (strip is')).
Context (HU : label_unique is') (HL : Forall slim is').

Lemma strip_over : Forall2 (goes_over R) (strip is) (strip is').
Proof using HD HP HR.
  assert (HF : Forall (fun i => insn_dyns i = [] /\ cast_plain i) (strip is)).
  { apply Forall_forall. intros i Hi. unfold strip in Hi. apply filter_In in Hi as [Hi _]. rewrite Forall_forall in HP. split; [|auto].
    unfold code_dyns in HD. fold is in HD. destruct (insn_dyns i) as [|d l] eqn:Ei; [reflexivity|]. exfalso.
    assert (Hin : In d (flat_map insn_dyns is)) by (apply in_flat_map; exists i; rewrite Ei; cbn; auto). rewrite HD in Hin. destruct Hin. }
  revert HF. generalize HR. clear. generalize (strip is) (strip is'). intros x y H. induction H as [|i i' l l' Hi _ IH]; intros HF; [constructor|]. inversion HF as [|? ? [F1 F2] F3]; subst. constructor; [apply (over_rel _ _ _ _ Hi); auto|auto].
Qed.
Lemma over_in i' : In i' is' -> realb i' = true -> exists i, In i is /\ realb i = true /\ goes_over R i i'.
Proof using HD HP HR.
  intros Hi Hr. assert (Hs : In i' (strip is')) by (apply filter_In; auto). destruct (in_F2 _ _ _ _ strip_over Hs) as (i & Hi' & Ho). exists i.
  apply filter_In in Hi'. tauto.
Qed.
Lemma place_R l l' : R l l' -> In l' (labels_in is').
Proof. intros (n & _ & H). eapply place_in; eauto. Qed.
Lemma range_kept : in_range is -> in_range is'.
Proof using HD HP HW HR HU HL.
  intros [Hroom Hjumps]. pose proof strip_over as HO.
  assert (HM : Forall2 (fun i i' => most_bytes i' = most_bytes i) (strip is) (strip is')).
  { eapply forall2_impl; [|exact HO]. intros i i' H. apply H. }
  split.
  { rewrite <- (room_slim is' HL), (room_rel _ _ HM). pose proof (room_strip is). lia. }
  assert (HN : NoDup (labels_in is)) by apply HW.
  intros a' j' b' l' Es Hs Hl'.
  assert (Hrj : realb j' = true) by (destruct j'; try contradiction; reflexivity).
  assert (Es' : strip is' = strip a' ++ j' :: strip b') by (rewrite Es, strip_app; cbn [strip filter]; rewrite Hrj; reflexivity).
  rewrite Es' in HO, HM. apply F2_app_r in HO as (A & B0 & EA & HA & HB). inversion HB as [|j ? B ? Hj HB']; subst.
  destruct (strip_split _ _ _ _ EA) as (a & b & Ei & EA' & EB').
  destruct Hj as (_ & _ & _ & _ & _ & _ & _ & Hsh & Htg). destruct (Htg _ Hl') as (l & Hl & n & Hn & Hn').
  assert (HNl : forall u v, is = u ++ ILabel l :: v -> n = len (strip u)).
  { intros u v Eu. rewrite Eu in HN, Hn. rewrite labels_app in HN. rewrite place_first in Hn; [congruence|].
    intros Hin. apply NoDup_remove_2 in HN. apply HN. apply in_or_app. auto. }
  destruct (place_split _ _ _ Hn') as (u & v & Eu & Hu).
  pose proof (F2_len _ _ _ HA) as LA. pose proof (F2_len _ _ _ HB') as LB.
  assert (HMA : Forall2 (fun i i' => most_bytes i' = most_bytes i) (strip a) (strip a')) by (rewrite EA'; eapply forall2_impl; [|exact HA]; intros ? ? H; apply H).
  assert (HMB : Forall2 (fun i i' => most_bytes i' = most_bytes i) (strip b) (strip b')) by (rewrite EB'; eapply forall2_impl; [|exact HB']; intros ? ? H; apply H).
  assert (LA' : len (strip a) = len (strip a')) by (unfold len; rewrite (F2_len _ _ _ HMA); reflexivity).
  assert (Hslim : Forall slim a' /\ Forall slim b') by (rewrite Es in HL; apply Forall_app in HL as [? H]; inversion H; auto). destruct Hslim as [SA SB].
  rewrite Eu in Es. symmetry in Es. apply two_splits in Es. destruct (Hjumps a j b l Ei (Hsh Hs) Hl) as [(b1 & b2 & -> & Hb)|(a1 & a2 & -> & Ha)].
  - left. assert (En : n = len (strip a) + 1 + len (strip b1)).
    { rewrite (HNl (a ++ j :: b1) b2); [|rewrite Ei, <- app_assoc; reflexivity]. rewrite strip_app, len_app. cbn [strip filter].
      assert (realb j = true) as -> by (clear - Hsh Hs; destruct j; try destruct (Hsh Hs); reflexivity). rewrite len_cons. fold (strip b1). lia. }
    destruct Es as [(w & -> & ->)|[(w & -> & ->)|(-> & -> & ->)]].
    + exists w, v. split; [reflexivity|]. apply Forall_app in SB as [SW _]. rewrite <- (room_slim w SW).
      rewrite strip_app in Hu. cbn [strip filter] in Hu. rewrite Hrj, len_app, len_cons in Hu. fold (strip w) in Hu.
      rewrite !strip_app in HMB. apply F2_take in HMB as [HMW _]; [|lia]. rewrite (room_rel _ _ HMW). pose proof (room_strip b1). lia.
    + exfalso. rewrite !strip_app, len_app in LA'. pose proof (len_nonneg (strip (ILabel l' :: w))). pose proof (len_nonneg (strip b1)). lia.
    + contradiction.
  - right. assert (En : n = len (strip a1)) by (apply (HNl a1 (a2 ++ j :: b)); rewrite Ei, <- app_assoc; reflexivity).
    destruct Es as [(w & -> & ->)|[(w & -> & ->)|(-> & -> & ->)]].
    + exfalso. rewrite strip_app, len_app in LA'. rewrite strip_app in Hu. cbn [strip filter] in Hu. rewrite Hrj, len_app, len_cons in Hu.
      pose proof (len_nonneg (strip (ILabel l :: a2))). pose proof (len_nonneg (filter realb w)). lia.
    + exists u, w. split; [reflexivity|]. apply Forall_app in SA as [_ SW]. inversion SW as [|? ? _ SW']; subst. rewrite <- (room_slim w SW').
      rewrite !strip_app in HMA. cbn [strip filter realb] in HMA. fold (strip a2) (strip w) in HMA. apply F2_take in HMA as [_ HMW]; [|lia]. rewrite (room_rel _ _ HMW). pose proof (room_strip a2). lia.
    + contradiction.
Qed.

(** ** Attributes *)
Let E := place_env (wenv_class Release no_heap) c.
Let E' := place_env (wenv_class Release no_heap) c'.
Context (HC : Forall2 (catch_rel R) (cd_catches c) (cd_catches c')).
Lemma R_fun l l1 l2 : R l l1 -> R l l2 -> l1 = l2.
Proof using HU. intros (n & H1 & H2) (m & H3 & H4). assert (m = n) by congruence. subst m. destruct HU as [_ HU']. eauto. Qed.
Lemma label_at l l' : R l l' -> we_label E' l' = we_label E l.
Proof. intros (n & H1 & H2). cbn [E E' place_env we_label]. fold is is'. rewrite H1, H2. reflexivity. Qed.
Lemma catch_there x x' : catch_rel R x x' -> In x (cd_catches c) -> In x' (cd_catches c').
Proof using HC HU.
  intros (A1 & A2 & A3 & A4) Hx. destruct (in_F2_l _ _ _ _ HC Hx) as (y & Hy & B1 & B2 & B3 & B4). replace x' with y; [exact Hy|].
  destruct x', y. cbn in *. rewrite (R_fun _ _ _ A1 B1), (R_fun _ _ _ A2 B2), (R_fun _ _ _ A3 B3). congruence.
Qed.
Lemma catch_refl x : catch_eqb x x = true.
Proof. apply catch_eqb_eq. reflexivity. Qed.
Lemma target_wf t t' : code_target_rel R t t' -> wf_code_target E t -> wf_code_target E' t'.
Proof using HC HU.
  assert (HLb : forall l l', R l l' -> wf_label E l -> wf_label E' l') by (intros l l' H (o & H1 & H2); exists o; rewrite (label_at _ _ H); auto).
  assert (HV : forall x y, Forall2 (lvt_rel R) x y -> len x < 65536 /\ Forall (wf_lvt E) x -> len y < 65536 /\ Forall (wf_lvt E') y).
  { intros x y H [H1 H2]. split; [unfold len in *; rewrite (F2_len _ _ _ H); exact H1|]. clear H1. induction H as [|a b x y (B1 & B2 & B3) _ IH]; [constructor|].
    inversion H2 as [|? ? (p & q & P1 & P2 & P3) P4]; subst. constructor; [|auto]. exists p, q. rewrite (label_at _ _ B1), (label_at _ _ B2), B3. auto. }
  intros H Hw. destruct t, t'; try contradiction; cbn [code_target_rel wf_code_target] in *; try (eapply HV; eauto; fail); try (eapply HLb; eauto; fail);
    try (destruct H as [H ->], Hw as [Hw Hi]; split; [eapply HLb; eauto|exact Hi]).
  destruct Hw as (i & Hi & _). cbn [E place_env we_catch] in Hi. destruct (existsb (catch_eqb c0) (cd_catches c)) eqn:Ex; [|discriminate].
  apply existsb_exists in Ex as (y & Hy & He). apply catch_eqb_eq in He. subst y. exists 0. split; [|unfold u16; lia]. cbn [E' place_env we_catch].
  assert (existsb (catch_eqb c1) (cd_catches c') = true) as ->; [|reflexivity]. apply existsb_exists. exists c1. split; [eapply catch_there; eauto|apply catch_refl].
Qed.
Lemma kattr_wf a a' : kattr_rel R a a' -> wf_kattr (wenv_class Release no_heap) c a -> wf_kattr (wenv_class Release no_heap) c' a'.
Proof using HC HU.
  assert (HA : forall x y, Forall2 (code_tannot_rel R) x y -> len x < 65536 /\ Forall (wf_code_tannot E) x -> len y < 65536 /\ Forall (wf_code_tannot E') y).
  { intros x y H [H1 H2]. split; [unfold len in *; rewrite (F2_len _ _ _ H); exact H1|]. clear H1. induction H as [|a0 b x y (B1 & B2 & B3 & B4) _ IH]; [constructor|].
    inversion H2 as [|? ? (W1 & W2 & W3 & W4 & W5) P4]; subst. constructor; [|auto]. unfold wf_code_tannot, wf_tannot. rewrite B2, B3, B4. split; [eapply target_wf; eauto|auto]. }
  intros H Hw. destruct a, a'; try contradiction; cbn [kattr_rel wf_kattr] in *; try (eapply HA; eauto; fail). subst. exact Hw.
Qed.
Lemma var_wf v v' : var_rel R v v' -> wf_var is v -> wf_var is' v'.
Proof.
  intros ((n & N1 & N2) & (m & M1 & M2) & A3 & A4 & A5 & A6) ((p & q & P1 & P2 & P3) & W). unfold wf_var. rewrite A3, A4, A5, A6. split; [|exact W]. exists n, m. split; [exact N2|]. split; [exact M2|].
  assert (p = n) by congruence. assert (q = m) by congruence. lia.
Qed.
End Code.

Lemma locals_others l : len (others_of l) + (match locals_of l with [] => 0 | _ => 1 end) <= len l.
Proof.
  induction l as [|a l IH]; [cbn; lia|]. rewrite len_cons. unfold others_of in *. cbn [filter]. change (locals_of (a :: l)) with ((match a with KLocals vs => vs | _ => [] end) ++ locals_of l).
  destruct a as [|?|ws|]; cbn [app]; rewrite ?len_cons; try lia. destruct ws; cbn [app]; [lia|]. destruct (locals_of l); lia.
Qed.
(** Code that was read from what was written for code with at most one variable
    is well-formed, and it is tame. *)
Lemma code_settled D c c' : wf_code (wenv_class Release no_heap) c -> in_range (cd_code c) -> code_readable c -> code_dyns c = [] -> Forall cast_plain (cd_code c) ->
  len (locals_of (cd_attrs c)) <= 1 -> code_rel D c c' -> label_unique (cd_code c') -> Forall slim (cd_code c') ->
  (wf_code (wenv_class Release no_heap) c' /\ in_range (cd_code c') /\ code_readable c') /\ tame_code c'.
Proof.
  intros HW HI HRd HD HP HV (R1 & R2 & HR & HC & os & vs & vs0 & HO & HPm & HVs & HAt) HU HL.
  pose proof HW as (W1 & W2 & (W3 & W4) & W5 & W6 & W7 & W8).
  assert (HLoc : locals_of (cd_attrs c') = vs /\ others_of (cd_attrs c') = os).
  { rewrite HAt. assert (HX : locals_of os = [] /\ others_of os = os).
    { clear - HO. induction HO as [|a a' l l' Ha _ [I1 I2]]; [auto|]. destruct a, a'; try contradiction; cbn; rewrite ?I1; unfold others_of in *; cbn [filter]; rewrite ?I2; auto. }
    destruct HX as [X1 X2]. unfold locals_of, others_of in *. rewrite flat_map_app, filter_app, X1, X2. destruct vs; cbn; rewrite ?app_nil_r; auto. }
  destruct HLoc as [HLv HLo].
  assert (Hlen : len vs = len (locals_of (cd_attrs c))) by (unfold len; rewrite (F2_len _ _ _ HVs), (Permutation_length HPm); reflexivity).
  assert (HF : forall i', In i' (cd_code c') -> (wf_insn no_heap i' /\ sound i' /\ wf_switch i' /\ incl (targets i') (labels_in (cd_code c'))) /\ cast_plain i' /\ insn_dyns i' = [] /\ (realb i' = true -> readable i')).
  { intros i' Hi'. destruct (realb i') eqn:Er.
    - destruct (over_in D c c' HD HP HR i' Hi' Er) as (i & Hi & Hir & (O1 & O2 & O3 & O4 & O5 & O6 & O7 & O8 & O9)). rewrite Forall_forall in W4. destruct (W4 _ Hi) as (V1 & V2 & V3 & V4).
      split; [split; [auto|]; split; [auto|]; split; [auto|]|].
      + intros l' Hl'. destruct (O9 _ Hl') as (l & _ & Hll). exact (place_R c c' l l' Hll).
      + split; [auto|]. split; [auto|]. intros _. apply O7. destruct HRd as [_ HRd]. rewrite Forall_forall in HRd. auto.
    - destruct i'; try discriminate Er; (split; [split; [exact I|]; split; [exact I|]; split; [exact I|intros lx []]|]; split; [exact I|]; split; [reflexivity|discriminate]). }
  assert (HOs : Forall (wf_kattr (wenv_class Release no_heap) c') os).
  { assert (HW8 : Forall (wf_kattr (wenv_class Release no_heap) c) (others_of (cd_attrs c))).
    { rewrite Forall_forall in *. intros a Ha. apply W8. apply filter_In in Ha. tauto. }
    clear - HO HW8 HC HU. induction HO as [|a a' l l' Ha _ IH]; [constructor|]. inversion HW8; subst. constructor; [eapply kattr_wf; eauto|auto]. }
  assert (HVw : Forall (wf_var (cd_code c')) vs).
  { assert (H0 : Forall (wf_var (cd_code c)) vs0).
    { apply Forall_forall. intros v Hv. apply (Permutation_in _ (Permutation_sym HPm)) in Hv. apply in_flat_map in Hv as (a & Ha & Hv). destruct a; try destruct Hv.
      all: rewrite Forall_forall in W8; destruct (W8 _ Ha) as (_ & _ & Hw); rewrite Forall_forall in Hw; apply Hw; cbn; auto. }
    clear - HVs H0. induction HVs as [|a a' l l' Ha _ IH]; [constructor|]. inversion H0; subst. constructor; [eapply var_wf; eauto|auto]. }
  split; [split; [|split]|].
  - unfold wf_code. rewrite R1, R2. split; [exact W1|]. split; [exact W2|]. split; [|split; [|split; [|split]]].
    + split; [apply HU|]. apply Forall_forall. intros i Hi. apply HF. exact Hi.
    + unfold len in *. rewrite (F2_len _ _ _ HC). exact W5.
    + apply Forall_forall. intros x' Hx'. destruct (in_F2 _ _ _ _ HC Hx') as (x & Hx & A1 & A2 & A3 & A4). rewrite Forall_forall in W6. destruct (W6 _ Hx) as (_ & _ & _ & Ht).
      unfold wf_catch. rewrite A4. repeat (split; [eapply place_R; eauto|]). exact Ht.
    + pose proof (locals_others (cd_attrs c)) as Hlo. rewrite HAt, len_app. assert (Hos : len os = len (others_of (cd_attrs c))) by (unfold len; rewrite (F2_len _ _ _ HO); reflexivity).
      destruct vs as [|v vs]; [rewrite len_nil; destruct (locals_of (cd_attrs c)); lia|]. rewrite len_cons, len_nil. rewrite len_cons in Hlen. pose proof (len_nonneg vs).
      destruct (locals_of (cd_attrs c)); [rewrite len_nil in Hlen; lia|lia].
    + rewrite HAt. apply Forall_app. split; [exact HOs|]. destruct vs as [|v vs]; [constructor|]. constructor; [|constructor]. split; [discriminate|]. split; [lia|exact HVw].
  - eapply range_kept; eauto.
  - split.
    + rewrite HLv. destruct vs as [|v [|v2 vs]]; [constructor|repeat constructor; intros []|]. rewrite !len_cons in Hlen. pose proof (len_nonneg vs). lia.
    + apply Forall_forall. intros i Hi Hr. apply HF; auto.
  - split; [|split; [|split; [|split]]].
    + unfold code_dyns. destruct (flat_map insn_dyns (cd_code c')) as [|d l] eqn:Ed; [reflexivity|]. exfalso. assert (Hin : In d (flat_map insn_dyns (cd_code c'))) by (rewrite Ed; left; reflexivity).
      apply in_flat_map in Hin as (i & Hi & Hd). destruct (HF _ Hi) as (_ & _ & Hn & _). rewrite Hn in Hd. destruct Hd.
    + apply Forall_forall. intros i Hi. apply HF. exact Hi.
    + intros x y Hx Hy Hk. destruct (in_F2 _ _ _ _ HC Hx) as (x0 & _ & (n1 & _ & A1) & (n2 & _ & A2) & (n3 & _ & A3) & _).
      unfold catch_key in Hk. rewrite A1, A2, A3 in Hk. injection Hk as K1 K2 K3 K4. destruct HU as [_ HU']. destruct x, y. cbn in *. f_equal; eauto.
    + rewrite HLv, HLo, HAt. destruct vs; reflexivity.
    + rewrite HLv. lia.
Qed.
(** * Classes *)
Definition mild_code (c : code) : Prop := Forall cast_plain (cd_code c) /\ len (locals_of (cd_attrs c)) <= 1.
Definition mild_class (c : class) : Prop := all_class mild_code c.
Lemma wf_no_dyns i : wf_insn no_heap i -> insn_dyns i = [].
Proof.
  assert (HO : forall A (P : A -> Prop) (o : ordyn A), wf_or P no_heap o -> dyn_of o = []) by (intros A P [d|a] H; [destruct H as ((H & _) & _); destruct (H eq_refl)|reflexivity]).
  destruct i; cbn [wf_insn insn_dyns]; intros H; try reflexivity; try (eapply HO; eauto; fail); try (destruct H as [H _]; eapply HO; eauto; fail).
  destruct H as [(H & _) _]. destruct (H eq_refl).
Qed.
Lemma wf_code_dyns c : wf_code (wenv_class Release no_heap) c -> code_dyns c = [].
Proof.
  intros (_ & _ & (_ & H) & _). unfold code_dyns. induction H as [|i is (Hi & _) _ IH]; [reflexivity|]. cbn [flat_map]. rewrite IH, app_nil_r. apply wf_no_dyns. exact Hi.
Qed.
Definition wf_k (k : code) : Prop := wf_code (wenv_class Release no_heap) k /\ in_range (cd_code k) /\ code_readable k.
Lemma methods_settle heap' ms ms' : Forall (wf_method wf_k) ms -> Forall (fun m => Forall (all_mattr mild_code) (me_attrs m)) ms ->
  Forall (fun m => Forall unique_mattr (me_attrs m)) ms' -> Forall (fun m => Forall (all_mattr (fun c => Forall slim (cd_code c))) (me_attrs m)) ms' ->
  Forall2 (same_method no_heap heap') ms ms' ->
  Forall (wf_method wf_k) ms' /\ Forall (fun m => Forall tame_mattr (me_attrs m)) ms' /\ Forall (fun m => Forall still_mattr (me_attrs m)) ms'.
Proof.
  intros HW HM HU HL H. induction H as [|m m' ms ms' (A1 & A2 & A3 & A4) _ IH]; [auto|].
  inversion HW as [|? ? W1 W2]; inversion HM as [|? ? M1 M2]; inversion HU as [|? ? U1 U2]; inversion HL as [|? ? L1 L2]; subst.
  destruct (IH W2 M2 U2 L2) as (I1 & I2 & I3). clear IH W2 M2 U2 L2 HW HM HU HL. destruct W1 as (V1 & V2 & V3 & V4 & V5).
  assert (HG : Forall (wf_mattr wf_k) (me_attrs m') /\ Forall tame_mattr (me_attrs m') /\ Forall still_mattr (me_attrs m')).
  { clear - V5 M1 U1 L1 A4. induction A4 as [|a a' l l' Ha _ IH]; [auto|].
    inversion V5 as [|? ? W1 W2]; inversion M1 as [|? ? M2 M3]; inversion U1 as [|? ? U2 U3]; inversion L1 as [|? ? L2 L3]; subst.
    destruct (IH W2 M3 U3 L3) as (I1 & I2 & I3). clear IH W2 M3 U3 L3.
    assert (wf_mattr wf_k a' /\ tame_mattr a' /\ still_mattr a'); [|repeat split; constructor; tauto].
    destruct a, a'; cbn [same_mattr] in Ha; try contradiction; try discriminate; try (injection Ha; intros; subst; split; [exact W1|split; exact I]); try (split; [exact W1|split; exact I]).
    destruct W1 as (W1 & W2 & W3), M2 as [M2 M3]. destruct (code_settled _ _ _ W1 W2 W3 (wf_code_dyns _ W1) M2 M3 Ha U2 L2) as [S1 S2]. split; [exact S1|]. split; [exact S2|].
    destruct Ha as (_ & _ & HR & _). cbn [still_mattr]. eapply still_rel; [|exact HR]. apply Forall_forall. intros i Hi. unfold strip in Hi. apply filter_In in Hi as [Hi _].
    destruct W1 as (_ & _ & (_ & W1) & _). rewrite Forall_forall in W1. destruct (W1 _ Hi) as (Wi & Ws & _). split; [apply wf_no_dyns; exact Wi|exact Ws]. }
  destruct HG as (G1 & G2 & G3). split; [|split; constructor; auto]. constructor; [|auto]. unfold wf_method. rewrite A1, A2, A3. repeat (split; [assumption|]).
  split; [|exact G1]. unfold len in *. rewrite (F2_len _ _ _ A4). exact V4.
Qed.
Lemma others_no_table l : flat_map (fun a => match a with CBootstrap b => b | _ => [] end) (others l) = [] /\ tables (others l) = [].
Proof.
  induction l as [|a l [I1 I2]]; [auto|]. unfold others, tables in *. cbn [filter]. destruct a; cbn [is_table negb filter flat_map app]; auto.
Qed.
Lemma class_settled heap' c c' : wf_class no_heap c -> mild_class c -> len (class_table no_heap c) < 65536 -> count_ok no_heap c ->
  unique_class c' -> all_class (fun c => Forall slim (cd_code c)) c' -> same_class no_heap heap' (class_table no_heap c) c c' ->
  wf_class no_heap c' /\ tame_class c' /\ class_table no_heap c' = class_table no_heap c /\ count_ok no_heap c' /\ still_class c' /\ Forall calm_cattr (cl_attrs c').
Proof.
  intros HW HM HT HC HU HL (S1 & S2 & S3 & S4 & S5 & S6 & S7 & S8). pose proof (table_wf _ _ HW) as HWT.
  destruct HW as (V1 & V2 & V3 & V4 & V5 & V6 & (V7 & V8) & (V9 & V10) & V11).
  destruct (methods_settle _ _ _ V8 HM HU HL S7) as (G1 & G2 & G3).
  assert (HD : class_dyns c' = []) by (apply tame_dyns; exact G2).
  destruct (others_no_table (cl_attrs c)) as [HO1 HO2].
  assert (HE : class_table no_heap c' = class_table no_heap c).
  { unfold class_table at 1. rewrite HD, S8, flat_map_app, HO1. cbn [contents flat_map]. rewrite app_nil_r. cbn [app]. destruct (class_table no_heap c); [reflexivity|]. cbn [flat_map]. apply app_nil_r. }
  split; [|split; [exact G2|split; [exact HE|split; [|split; [exact G3|]]]]].
  - unfold wf_class. rewrite S1, S2, S3, S4, S5, S6. repeat (split; [assumption|]). split; [|split; [|exact V11]].
    + split; [unfold len in *; rewrite (F2_len _ _ _ S7); exact V7|exact G1].
    + rewrite S8. split.
      * rewrite len_app. pose proof (others_tables (cl_attrs c)) as HN. unfold count_ok in HC. unfold len in *. destruct (class_table no_heap c); cbn [List.length]; lia.
      * apply Forall_app. split; [|destruct (class_table no_heap c); constructor; [exact HWT|constructor]]. rewrite Forall_forall in *. intros a Ha. apply V10.
        unfold others in Ha. apply filter_In in Ha. tauto.
  - unfold count_ok. rewrite HE, S8. unfold tables in *. rewrite filter_app, app_length, HO2. destruct (class_table no_heap c); reflexivity.
  - rewrite S8. apply Forall_app. split.
    + unfold others. clear. induction (cl_attrs c) as [|a l IH]; cbn; auto. destruct a; cbn [is_table negb]; auto; constructor; cbn; auto.
    + destruct (class_table no_heap c) as [|b0 tl]; constructor; [|constructor]. cbn. eapply Forall_impl; [|exact HWT]. intros b Hb. apply Hb.
Qed.

(** C64: a class need not be written as it was (C64_code_refuted), but what is
    read back is a class that settles: from the second file on nothing changes,
    whatever the order and number of its handlers, and wherever its variable
    is.  Missing for the full statement: more variables than one (their order
    is that of a hash map), dynamic constants, the conditions of C61. *)
Theorem C64_settles_partial : forall fuel md c out, (1 <= fuel)%nat ->
  wf_class no_heap c -> mild_class c -> len (class_table no_heap c) < 65536 -> count_ok no_heap c ->
  wr_classfile fuel md no_heap c = Ok out -> md = Debug \/ pool_fits fuel md no_heap c -> bytes out -> len out < 4294967296 ->
  forall md', exists c', rd_classfile md' out = Ok ((c', []), []) /\
    ((exists out', rewrite_file fuel md md' out = Ok out') \/ md = Debug /\ rewrite_file fuel md md' out = Panic POverflow) /\
    forall out', rewrite_file fuel md md' out = Ok out' -> md = Debug \/ pool_fits fuel md (heap_of []) c' -> bytes out' -> len out' < 4294967296 ->
    forall n, Nat.iter (S n) (fun r => l <- r ;; rewrite_file fuel md md' l) (Ok out) = Ok out'.
Proof.
  intros fuel md c out Hfu Hw Hm Hl Hc Hout Hfit Hby Hsm md'. destruct (C61_roundtrip_partial fuel md no_heap c Hfu Hw Hl Hc) as [_ H].
  destruct (H out Hout Hfit Hsm md' []) as (c' & h & HR & HS). rewrite app_nil_r in HR.
  pose proof (file_unique _ _ _ _ _ Hby HR) as HU. pose proof (all_file _ read_slim _ _ _ _ _ Hby HR) as HL.
  destruct (class_settled _ _ _ Hw Hm Hl Hc HU HL HS) as (Hw' & Ht' & HT & Hc' & Hst & Hcalm).
  assert (h = []) by (eapply calm_file_code; eauto). subst h. exists c'. split; [exact HR|].
  assert (HX : rewrite_file fuel md md' out = wr_classfile fuel md (heap_of []) c') by (unfold rewrite_file; rewrite HR; reflexivity). rewrite HX.
  assert (Hl' : len (class_table no_heap c') < 65536) by (rewrite HT; exact Hl).
  split; [apply (C61_roundtrip_partial fuel md no_heap c' Hfu Hw' Hl' Hc')|].
  intros out' Ho' Hf' Hb' Hs' n. destruct (C64_code_stable_partial fuel md c' out' Hfu Hw' Ht' Hl' Hc' Ho' Hf' Hb' Hs' md') as (_ & _ & _ & Hit).
  specialize (Hit n). rewrite <- Hit. clear Hit. induction n as [|n IH].
  - cbn. rewrite HX. exact Ho'.
  - change (bind (Nat.iter (S n) (fun r => l <- r ;; rewrite_file fuel md md' l) (Ok out)) (rewrite_file fuel md md') = bind (Nat.iter n (fun r => l <- r ;; rewrite_file fuel md md' l) (Ok out')) (rewrite_file fuel md md')).
    rewrite IH. reflexivity.
Qed.
Print Assumptions C64_settles_partial.
(** Two handlers at the same places, the second of them annotated, and a
    variable that is not last: three files, of which only the first differs. *)
Definition ex_restless : code := {| cd_stack := 2; cd_locals := 3;
  cd_code := [ILabel 7; IThrow; ILabel 9; ILabel 5; IThrow; ILabel 4]; cd_catches := [CodeProps.ex_catch; ex_twin];
  cd_attrs := [KLocals [ex_var]; KVisible [{| ta_target := KtCatch ex_twin; ta_path := []; ta_type := TRef [65]; ta_vals := [] |}]] |}.
Example C64_settles_ex : wf_class no_heap (ex_with ex_restless) /\ mild_class (ex_with ex_restless) /\ len (class_table no_heap (ex_with ex_restless)) < 65536 /\
  count_ok no_heap (ex_with ex_restless) /\
  exists out out', wr_classfile 1 Debug no_heap (ex_with ex_restless) = Ok out /\ bytes out /\ len out < 4294967296 /\
    rewrite_file 1 Debug Release out = Ok out' /\ out' <> out /\ bytes out' /\ len out' < 4294967296 /\ rewrite_file 1 Debug Release out' = Ok out'.
Proof.
  split; [|split; [|split; [cbn; lia|split; [reflexivity|]]]].
  - unfold wf_class, ex_with. cbn [cl_version cl_access cl_name cl_super cl_itfs cl_fields cl_methods cl_attrs minor ex_codeless].
    split; [unfold u16; lia|]. split; [split; [unfold u16; lia|reflexivity]|]. split; [ascii|]. split; [cbn; ascii|].
    split; [split; [cbn; lia|constructor]|]. split; [split; [cbn; lia|constructor]|]. split; [split; [cbn; lia|]|split; [split; [cbn; lia|constructor]|discriminate]].
    constructor; [|constructor]. split; [split; [cbn; unfold u16; lia|reflexivity]|]. split; [cbn; ascii|].
    split; [split; [cbn; repeat constructor|ascii]|]. split; [cbn; lia|]. constructor; [|constructor]. cbn [wf_mattr]. split; [|split].
    + split; [cbn; unfold u16; lia|]. split; [cbn; unfold u16; lia|]. split.
      { split; [repeat constructor; cbn; intuition lia|]. apply Forall_forall. intros i Hi. cbn in Hi.
        repeat destruct Hi as [<-|Hi]; try destruct Hi; (split; [exact I|]; split; [exact I|]; split; [exact I|]; intros l []). }
      split; [cbn; lia|]. split.
      { repeat (apply Forall_cons || apply Forall_nil); (split; [cbn; auto|]; split; [cbn; auto|]; split; [cbn; auto|]; cbn [c_type CodeProps.ex_catch ex_twin]; ascii). }
      split; [cbn; lia|]. unfold ex_restless. cbn [cd_attrs]. repeat (apply Forall_cons || apply Forall_nil).
      * split; [discriminate|]. split; [cbn; lia|]. apply Forall_cons; [|apply Forall_nil]. split; [exists 0, 2; repeat split; auto; lia|].
        split; [ascii|]. split; [cbn; unfold u16; lia|]. split; [split; [exact I|ascii]|]. split; [exact I|]. left; discriminate.
      * split; [cbn; lia|]. apply Forall_cons; [|apply Forall_nil]. split; [exists 0; split; [reflexivity|unfold u16; lia]|].
        split; [cbn; lia|]. split; [constructor|]. split; [split; [split; [apply wf_name; reflexivity|cbn; lia]|ascii]|]. split; [cbn; lia|]. split; constructor.
    + split; [cbn; lia|]. intros a j b l Ej Hs _. exfalso.
      assert (Hin : In j (cd_code ex_restless)) by (rewrite Ej; apply in_or_app; right; left; reflexivity). cbn in Hin.
      repeat destruct Hin as [<-|Hin]; try destruct Hin; exact Hs.
    + split; [repeat constructor; intros []|]. repeat constructor; cbn; try discriminate; intros; auto.
  - constructor; [|constructor]. constructor; [|constructor]. split; [repeat constructor|cbn; lia].
  - eexists. eexists. split; [vm_compute; reflexivity|]. split; [repeat (apply Forall_cons; [unfold u8; lia|]); apply Forall_nil|]. split; [vm_compute; reflexivity|].
    split; [vm_compute; reflexivity|]. split; [vm_compute; discriminate|]. split; [repeat (apply Forall_cons; [unfold u8; lia|]); apply Forall_nil|]. split; vm_compute; reflexivity.
Qed.
