(** Which panics reading code and class files can end in: lemmas. *)
From Coq Require Import String.
From Verif Require Import Base BaseLemmas Wtf8Model PrimModel PrimProofs TypeModel TypeProps CpModel CpProofs SigModel AnnModel AttrModel FrameModel InsnModel CodeModel CodeProofs
  ReadProofs ClassModel PanicProofs.
From Coq Require Import Lia.

(** A line number for an offset that is no instruction; a tableswitch with a
    negative number of entries. *)
Definition code_panic (k : pkind) : Prop := k = PIndex \/ k = PCapacity.

Section Insn.
Context (K : pkind -> Prop) (p : pool).
Hypothesis Hp : pv p.
Lemma conv_ordyn_calm {A} (P : A -> Prop) (f : Z -> res (option A)) i s : (forall i, calmly K (oall P) (f i)) -> refs_ok s ->
  calmly K (fun x => refs_ok (snd x) /\ match fst x with Stat a => P a | Dyn _ => True end) (conv_ordyn Release p f i s).
Proof.
  intros Hf Hs. unfold conv_ordyn. eapply (calm_bind _ (fun x => cells_ok (snd x) /\ match fst x with Some (Stat a) => P a | _ => True end)).
  - unfold read_ordyn. eapply calm_bind; [apply dynamic_calm; [exact Hp|exact Hs]|]. intros [[d|] s1] Hs1; cbn beta iota; [split; [exact Hs1|exact I]|].
    eapply calm_bind; [apply Hf|]. intros [a|] Ha; (split; [exact Hs1|]); cbn; auto.
  - intros [[a|] r] [Hr Ha]; cbn beta iota; [split; [exact Hr|exact Ha]|exact I].
Qed.
Lemma conv_member_calm i s : refs_ok s -> calmly K (fun x => refs_ok (snd x)) (conv_member Release p i s).
Proof.
  intros Hs. eapply calm_weak; [apply (conv_ordyn_calm any); [|exact Hs]|intros a Ha; apply Ha]. intros j. apply oall_any, member_calm, Hp.
Qed.
Lemma conv_class_calm i s : refs_ok s ->
  calmly K (fun x => refs_ok (snd x) /\ match fst x with Stat a => valid a | Dyn _ => True end) (conv_class Release p i s).
Proof. intros Hs. apply conv_ordyn_calm; [|exact Hs]. intros j. apply read_indirect_valid, Hp. Qed.
Lemma conv_constant_calm i s : refs_ok s -> calmly K (fun x => refs_ok (snd x)) (conv_constant Release p i s).
Proof. intros Hs. unfold conv_constant. eapply calm_bind; [apply constant_calm, Hp|]. intros [k|] _; [exact Hs|exact I]. Qed.
Lemma conv_elem_calm i d s : refs_ok s -> calmly K (fun x => refs_ok (snd x)) (conv_elem Release p i d s).
Proof.
  intros Hs. unfold conv_elem. eapply calm_bind; [apply conv_class_calm, Hs|]. intros [[d'|c] s1] [Hs1 Hc]; cbn in *; auto.
  pose proof (parse_calm K c Hc) as H. destruct (parse_type Release c); cbn in *; auto.
Qed.
Lemma conv_ctype_calm i s : refs_ok s -> calmly K (fun x => refs_ok (snd x)) (conv_ctype Release p i s).
Proof.
  intros Hs. unfold conv_ctype. eapply calm_bind; [apply conv_class_calm, Hs|]. intros [[d'|c] s1] [Hs1 Hc]; cbn [fst snd] in *; [exact Hs1|].
  destruct c as [|x c]; [exact Hs1|]. destruct (Z.eq_dec x 91) as [->|Hx].
  - pose proof (parse_calm K _ Hc) as H. destruct (parse_type Release (91 :: c)) as [t| |] eqn:E; cbn in *; auto.
    destruct (C30_array_safety _ _ _ E) as (d & e & -> & _). exact Hs1.
  - assert (HX : forall T (a b : T), match x with 91 => a | _ => b end = b).
    { intros T a b. destruct x as [|q|q]; auto. do 7 (destruct q; auto). congruence. }
    rewrite HX. exact Hs1.
Qed.
Lemma lbl_at_refs pos o s : refs_ok s -> refs_ok (snd (lbl_at pos o s)).
Proof. apply get_label_refs. Qed.
Lemma lbls_at_refs pos os : forall s, refs_ok s -> refs_ok (snd (lbls_at pos os s)).
Proof.
  induction os as [|o os IH]; intros s Hs; cbn [lbls_at]; auto. pose proof (lbl_at_refs pos o s Hs) as H1. destruct (lbl_at pos o s) as [l s1].
  specialize (IH s1 H1). destruct (lbls_at pos os s1). exact IH.
Qed.
Lemma lookup_at_refs pos es : forall m s, refs_ok s -> refs_ok (snd (lookup_at pos es m s)).
Proof.
  induction es as [|[k o] es IH]; intros m s Hs; cbn [lookup_at]; auto. pose proof (lbl_at_refs pos o s Hs) as H1. destruct (lbl_at pos o s) as [l s1]. auto.
Qed.
Lemma conv_calm pos r s : refs_ok s -> calmly K (fun x => refs_ok (snd x)) (conv Release p pos r s).
Proof.
  intros Hs. destruct r; cbn [conv]; try exact Hs;
  try (pose proof (lbl_at_refs pos a s Hs) as H1; destruct (lbl_at pos a s) as [l1 s1]; exact H1);
  try (eapply calm_bind; [apply conv_member_calm, Hs|]; intros [m s1] Hs1; exact Hs1);
  try (apply conv_constant_calm, Hs); try (apply conv_elem_calm, Hs);
  try (eapply calm_bind; [apply conv_ctype_calm, Hs|]; intros [m s1] Hs1; exact Hs1).
  all: match goal with
  | |- calmly _ _ (match ?w with WILoad _ => _ | _ => _ end) => destruct w; exact Hs
  | _ => idtac
  end.
  all: try (repeat match goal with |- calmly _ _ (match ?x with _ => _ end) => destruct x end; first [exact Hs|exact I]).
  - pose proof (lbl_at_refs pos dflt s Hs) as H1. destruct (lbl_at pos dflt s) as [d s1]. pose proof (lbls_at_refs pos (t_offs t) s1 H1) as H2.
    destruct (lbls_at pos (t_offs t) s1). exact H2.
  - pose proof (lbl_at_refs pos dflt s Hs) as H1. destruct (lbl_at pos dflt s) as [d s1]. pose proof (lookup_at_refs pos es [] s1 H1) as H2.
    destruct (lookup_at pos es [] s1). exact H2.
  - eapply calm_bind; [apply invokedynamic_calm; [exact Hp|exact Hs]|]. intros [[d|] r] Hr; cbn; auto.
  - eapply calm_bind; [apply conv_class_calm, Hs|]. intros [c s1] [Hs1 _]. exact Hs1.
Qed.
Lemma qb_wide b : qb K b any rd_wide.
Proof.
  unfold rd_wide. eapply qb_bind; [apply qb_u|]. intros t _. cbn beta iota.
  assert (HU : forall f : Z -> wide, qb K b any (fun l => '(a, l) <- rd_u16 l ;; Ok (f a, l))).
  { intros f. eapply qb_bind; [apply qb_u|]. intros a _. apply qb_ret. exact I. }
  destruct t as [|q|q]; try apply qb_err. do 8 (try (destruct q as [q|q|]; try apply qb_err; try apply HU)).
  eapply qb_bind; [apply qb_u|]. intros a _. cbn beta iota. eapply qb_bind; [apply qb_s|]. intros c _. apply qb_ret. exact I.
Qed.
Hypothesis HK : K PCapacity.
Lemma qb_table b : qb K b any (rd_table Release).
Proof.
  unfold rd_table. eapply qb_bind; [apply qb_s|]. intros lo _. cbn beta iota. eapply qb_bind; [apply qb_s|]. intros hi _. cbn beta iota.
  eapply (qb_pure _ _ any); [unfold chk_s; destruct (_ && _)%bool; exact I|]. intros d _. eapply (qb_pure _ _ any); [unfold chk_s; destruct (_ && _)%bool; exact I|]. intros n _.
  destruct (n <? 0); [apply qb_panic, HK|]. eapply qb_bind; [apply qb_times, qb_s|]. intros os _. apply qb_ret. exact I.
Qed.
Lemma qb_switch_entry b : qb K b any rd_switch_entry.
Proof. unfold rd_switch_entry. eapply qb_bind; [apply qb_s|]. intros x _. cbn beta iota. eapply qb_bind; [apply qb_s|]. intros y _. apply qb_ret. exact I. Qed.
Lemma qb_raw_op b op : qb K b any (rd_raw_op Release op).
Proof.
  assert (HO : forall r : raw, qb K b any (fun l => Ok (r, l))) by (intros; apply qb_ret; exact I).
  assert (HU : forall n (f : Z -> raw), qb K b any (fun l => '(a, l) <- rd_u n l ;; Ok (f a, l))).
  { intros n f. eapply qb_bind; [apply qb_u|]. intros a _. apply qb_ret. exact I. }
  assert (HS : forall n (f : Z -> raw), qb K b any (fun l => '(a, l) <- rd_s n l ;; Ok (f a, l))).
  { intros n f. eapply qb_bind; [apply qb_s|]. intros a _. apply qb_ret. exact I. }
  unfold rd_raw_op. destruct op as [|q|q]; [apply HO| |apply qb_err].
  do 8 (try (destruct q as [q|q|]; try apply qb_err; try apply HO; try apply HU; try apply HS)).
  all: match goal with |- context [rd_wide] => eapply qb_bind; [apply qb_wide|]; intros x1 _; cbn beta iota | _ => eapply qb_bind; [first [apply qb_u|apply qb_s]|]; intros x1 _; cbn beta iota end.
  all: try (eapply qb_bind; [first [apply qb_u|apply qb_s|apply qb_table|apply qb_vec, qb_switch_entry]|]; intros x2 _; cbn beta iota).
  all: try (eapply qb_bind; [apply qb_u|]; intros x3 _; cbn beta iota).
  all: apply qb_ret; exact I.
Qed.
(** an instruction takes at least a byte *)
Lemma raw_insn_post l : bytes l -> post K any l (rd_raw_insn Release l) /\
  forall r l', rd_raw_insn Release l = Ok (r, l') -> (length l' < length l)%nat.
Proof.
  intros Hl. unfold rd_raw_insn. pose proof (qb_u K (S (length l)) 1 l Hl (Nat.lt_succ_diag_r _)) as HU. fold rd_u8 in HU.
  destruct (rd_u8 l) as [[op l1]| |] eqn:E; cbn [bind post] in *; try (split; [exact HU|discriminate]).
  destruct HU as (_ & Hl1 & _). apply rd_u_lt in E; [|lia]. pose proof (qb_raw_op (S (length l1)) op l1 Hl1 (Nat.lt_succ_diag_r _)) as HO.
  destruct (rd_raw_op Release op l1) as [[r l2]| |]; cbn [post] in *; try (split; [exact HO|discriminate]).
  destruct HO as (_ & ? & ?). split; [repeat split; auto; lia|]. intros r' l' H'. injection H' as <- <-. lia.
Qed.
Lemma insn_at_post pos s l : bytes l -> l <> [] -> refs_ok s ->
  post K (fun x => refs_ok (snd x)) l (rd_insn_at Release p pos s l) /\
  forall x l', rd_insn_at Release p pos s l = Ok (x, l') -> (length l' < length l)%nat.
Proof.
  intros Hl Hn Hs. unfold rd_insn_at. destruct l as [|op l]; [congruence|].
  set (l0 := if ((op =? TABLESWITCH) || (op =? LOOKUPSWITCH))%bool then op :: skipn (Z.to_nat (4 - pos mod 4)) (op :: l) else op :: l).
  assert (HE : (if ((op =? TABLESWITCH) || (op =? LOOKUPSWITCH))%bool
                  then rd_raw_insn Release (op :: skipn (Z.to_nat (4 - pos mod 4)) (op :: l))
                  else rd_raw_insn Release (op :: l)) = rd_raw_insn Release l0) by (unfold l0; destruct (_ || _)%bool; reflexivity).
  rewrite HE. assert (H0 : bytes l0 /\ (length l0 <= length (op :: l))%nat).
  { unfold l0. destruct (_ || _)%bool; [|auto]. pose proof (Z.mod_pos_bound pos 4 eq_refl). split.
    - constructor; [inversion Hl; auto|]. apply Forall_forall. intros x Hx. apply (proj1 (Forall_forall _ _) Hl). rewrite <- (firstn_skipn (Z.to_nat (4 - pos mod 4)) (op :: l)).
      apply in_or_app. auto.
    - cbn [length]. rewrite skipn_length. cbn [length]. lia. }
  destruct H0 as [Hl0 Hle]. destruct (raw_insn_post l0 Hl0) as [HP HL]. clearbody l0. clear HE.
  destruct (rd_raw_insn Release l0) as [[r l1]| |]; cbn [bind post] in *; try (split; [exact HP|discriminate]).
  destruct HP as (_ & Hl1 & _). specialize (HL r l1 eq_refl). pose proof (conv_calm pos r s Hs) as HC.
  destruct (conv Release p pos r s) as [[i s1]| |]; cbn [bind post calmly] in *; try (split; [exact HC|discriminate]).
  split; [split; [exact HC|split; [exact Hl1|lia]]|]. intros x l' H'. injection H' as _ <-. lia.
Qed.
Lemma match_ne {A B} (l : list A) (x y : B) : l <> [] -> match l with [] => x | _ :: _ => y end = y.
Proof. destruct l; congruence. Qed.
Lemma insns_calm n : forall pos s l, bytes l -> refs_ok s -> (length l <= n)%nat ->
  calmly K (fun x => refs_ok (snd x)) (rd_insns n Release p pos s l).
Proof.
  induction n as [|n IH]; intros pos s l Hl Hs Hn.
  - destruct l; [|cbn in Hn; lia]. exact Hs.
  - cbn [rd_insns]. assert (HE : l = [] \/ l <> []) by (destruct l; [left|right]; congruence). destruct HE as [->|Hne]; [exact Hs|].
    rewrite (match_ne l) by exact Hne.
    destruct (insn_at_post pos s l Hl Hne Hs) as [HP HL]. destruct (rd_insn_at Release p pos s l) as [[[i s1] r]| |]; cbn [bind post] in *; auto.
    destruct HP as (Hs1 & Hr & _). cbn [snd] in Hs1. specialize (HL _ _ eq_refl). eapply calm_bind; [apply (IH _ s1 r); auto; lia|].
    intros [is s2] Hs2. exact Hs2.
Qed.
Hypothesis HI : K PIndex.
Lemma lines_calm idx ln : forall m, calmly K any (add_lines idx ln m).
Proof. induction ln as [|[o x] ln IH]; intros m; cbn [add_lines]; [exact I|]. destruct (idx o); [apply IH|exact HI]. Qed.
Lemma vars_calm {A} set (rows : list (lvrow A)) : forall s vs, refs_ok s -> calmly K (fun x => refs_ok (snd x)) (add_vars Release set rows s vs).
Proof.
  induction rows as [|r rows IH]; intros s vs Hs; cbn [add_vars]; [exact Hs|]. pose proof (get_label_refs (lr_start r) s Hs) as H1. destruct (get_label (lr_start r) s) as [a s1].
  unfold chk_u. assert (HX : forall e, calmly K (fun x => refs_ok (snd x)) (let (b, s2) := get_label e s1 in
    add_vars Release set rows s2 (add_var (set (lr_type r)) {| v_start := a; v_end := b; v_name := lr_name r; v_desc := None; v_sig := None; v_index := lr_index r |} vs))).
  { intros e. pose proof (get_label_refs e s1 H1) as H2. destruct (get_label e s1) as [c s2]. apply IH, H2. }
  destruct (_ && _)%bool; apply HX.
Qed.
Lemma add_attr_calm idx a s z : refs_ok s -> calmly K (fun x => refs_ok (snd x)) (add_attr Release idx a s z).
Proof.
  intros Hs. unfold add_attr. destruct a; try exact Hs.
  - eapply calm_bind; [apply lines_calm|]. intros m _. exact Hs.
  - eapply calm_bind; [apply vars_calm, Hs|]. intros [vs s1] Hs1. exact Hs1.
  - eapply calm_bind; [apply vars_calm, Hs|]. intros [vs s1] Hs1. exact Hs1.
Qed.
Lemma kattrs_post idx n : forall s z l, bytes l -> refs_ok s ->
  match rd_kattrs n Release p idx s z l with
  | Ok (_, s', l') => refs_ok s' /\ bytes l' /\ (length l' <= length l)%nat
  | Err _ => True
  | Panic k => K k
  end.
Proof.
  induction n as [|n IH]; intros s z l Hl Hs; cbn [rd_kattrs]; [auto|].
  pose proof (sq_fcattr K p Hp (S (length l)) s Hs l Hl (Nat.lt_succ_diag_r _)) as HF.
  destruct (rd_fcattr Release p s l) as [[[a s1] l1]| |]; cbn [bind post] in *; auto. destruct HF as (Hs1 & Hl1 & Hle).
  pose proof (add_attr_calm idx a s1 z Hs1) as HA. destruct (add_attr Release idx a s1 z) as [[z1 s2]| |]; cbn [bind calmly] in *; auto.
  specialize (IH s2 z1 l1 Hl1 HA). destruct (rd_kattrs n Release p idx s2 z1 l1) as [[[? ?] ?]| |]; auto. destruct IH as (? & ? & ?). split; [assumption|]. split; [assumption|]. lia.
Qed.
Lemma add_labels_calm idx ls : forall m, calmly K any (add_labels idx ls m).
Proof. induction ls as [|[o x] ls IH]; intros m; cbn [add_labels]; [exact I|]. destruct (idx o); [apply IH|exact I]. Qed.
Lemma sq_code b : sq K b cells_ok (rd_code Release p).
Proof.
  intros s Hs. unfold rd_code. eapply qb_bind; [apply qb_u|]. intros st _. cbn beta iota. eapply qb_bind; [apply qb_u|]. intros lo _. cbn beta iota.
  eapply qb_bind; [apply qb_u|]. intros n _. cbn beta iota. eapply qb_bind; [apply qb_take|]. intros body Hbody. cbn beta iota.
  eapply (qb_pure _ _ (fun x : list (Z * insn) * cst => refs_ok (snd x))); [apply insns_calm; auto|]. intros [is k] Hk. cbn [snd] in Hk. cbn beta iota zeta.
  eapply qb_bind; [apply qb_u|]. intros m _. cbn beta iota. eapply qb_bind; [apply (sq_times _ _ refs_ok); [apply sq_handler|exact Hk]|]. intros [cs k1] Hk1. cbn beta iota zeta. cbn [snd] in Hk1.
  eapply qb_bind; [apply qb_u|]. intros a _. cbn beta iota. intros l Hl Hb.
  set (idx := pos2idx (map fst is ++ [n]) 0). set (k2 := {| k_refs := k_refs k1; k_labels := k_labels k1; k_catches := cs |}). set (z0 := {| z_lines := []; z_vars := []; z_attrs := [] |}).
  assert (Hk2 : refs_ok k2) by exact Hk1. pose proof (kattrs_post idx (Z.to_nat a) k2 z0 l Hl Hk2) as HA.
  destruct (rd_kattrs (Z.to_nat a) Release p idx k2 z0 l) as [[[z k3] l1]| |]; cbn [bind post]; auto. destruct HA as (Hk3 & Hl1 & Hle).
  pose proof (add_labels_calm idx (k_labels k3) (map (fun '(i, line) => (i, [ILineNumber line])) (z_lines z))) as HL.
  destruct (add_labels idx _ _); cbn [bind post calmly] in *; auto.
Qed.
End Insn.

(** * Class files *)
Lemma cells_calm b : forall cells h, NoDup cells -> (forall c, In c cells -> assoc Z.eqb c h = None) ->
  exists h', set_cells cells b h = Ok h' /\ forall c, ~ In c cells -> assoc Z.eqb c h' = assoc Z.eqb c h.
Proof.
  induction cells as [|c cells IH]; intros h Hn Hh; cbn [set_cells]; [eauto|]. rewrite Hh by (left; auto). inversion Hn; subst.
  assert (HA : forall x, x <> c -> assoc Z.eqb x (h ++ [(c, b)]) = assoc Z.eqb x h).
  { intros x Hx. induction h as [|[k v] h IHh]; cbn; [destruct (Z.eqb_spec x c); [congruence|reflexivity]|]. destruct (x =? k); auto. apply IHh.
    intros y Hy. specialize (Hh y Hy). cbn in Hh. destruct (y =? k); [discriminate|auto]. }
  destruct (IH (h ++ [(c, b)])) as (h' & E & Hh'); auto.
  - intros x Hx. rewrite HA by (intros ->; auto). apply Hh. right. auto.
  - exists h'. split; [exact E|]. intros x Hx. cbn in Hx. rewrite Hh' by tauto. apply HA. intros ->. tauto.
Qed.
Lemma filter_snd {A} (f : Z * A -> bool) l : NoDup (map snd l) -> NoDup (map snd (filter f l)).
Proof.
  induction l as [|x l IH]; intros H; cbn; auto. inversion H; subst. destruct (f x); cbn; auto. constructor; auto.
  intros Hin. apply in_map_iff in Hin as (y & Ey & Hy). apply filter_In in Hy as [Hy _]. apply H2. rewrite <- Ey. apply in_map, Hy.
Qed.
Lemma fill_calm : forall bs i refs h, NoDup (map snd refs) -> (forall r, In r refs -> assoc Z.eqb (snd r) h = None) ->
  exists x, fill_bsms i bs refs h = Ok x.
Proof.
  induction bs as [|b bs IH]; intros i refs h Hn Hh; cbn [fill_bsms]; [eauto|]. set (f := fun r : Z * Z => fst r =? i mod 65536).
  destruct (cells_calm b (map snd (filter f refs)) h) as (h' & E & Hh').
  - apply filter_snd, Hn.
  - intros c Hc. apply in_map_iff in Hc as (r & <- & Hr). apply filter_In in Hr as [Hr _]. auto.
  - rewrite E. cbn [bind]. apply IH; [apply filter_snd, Hn|]. intros r Hr. apply filter_In in Hr as [Hr Hf].
    rewrite Hh'; auto. intros Hc. apply in_map_iff in Hc as (r' & Er & Hr'). apply filter_In in Hr' as [Hr' Hf'].
    assert (r' = r).
    { clear - Hn Er Hr Hr'. induction refs as [|x refs IH]; [destruct Hr|]. cbn in Hn. inversion Hn; subst.
      destruct Hr as [->|Hr], Hr' as [->|Hr']; auto; exfalso; apply H1; [rewrite <- Er|rewrite Er]; apply in_map; auto. }
    subst r'. unfold f in Hf'. rewrite Hf' in Hf. discriminate.
Qed.
Lemma bootstrap_calm K bs s : cells_ok s -> calmly K any (bootstrap_methods bs s []).
Proof.
  intros [Hn _]. unfold bootstrap_methods. destruct (fill_calm bs 0 (r_refs s) [] Hn) as ([refs h] & ->); [reflexivity|]. cbn. destruct refs; exact I.
Qed.
Lemma sq_members b p : pv p -> sq code_panic b cells_ok (rd_members Release p).
Proof.
  intros Hp. unfold rd_members. apply sq_map. apply sq_pair; [eapply sq_lift, qb_flags|]. apply sq_pair; [eapply sq_lift, (qb_class _ _ Hp)|].
  apply sq_pair; [eapply sq_lift, (qb_opt_strcp _ p)|]. apply sq_pair; [eapply sq_lift, qb_vec, (qb_class _ _ Hp)|].
  apply sq_pair; [eapply sq_lift, qb_vec, (qb_field _ _ Hp)|]. apply sq_pair.
  - apply sq_vec, (sq_method_with _ _ Hp). apply sq_code; auto; [right|left]; reflexivity.
  - apply sq_vec, (sq_cattr _ _ Hp).
Qed.
Lemma qb_classfile b : qb code_panic b any (rd_classfile Release).
Proof.
  unfold rd_classfile. eapply qb_bind; [apply qb_u|]. intros m _. cbn beta iota. destruct (m =? JVM_MAGIC); [|apply qb_err].
  eapply qb_bind; [apply qb_version|]. intros v _. cbn beta iota. eapply qb_bind; [apply qb_pool|]. intros p Hp. cbn beta iota.
  eapply qb_bind; [apply sq_members; [exact Hp|]|].
  { split; constructor. }
  intros [c s] Hs. cbn beta iota zeta. eapply (qb_pure _ _ any).
  - destruct (first_table _); [apply bootstrap_calm, Hs|exact I].
  - intros h _. apply qb_ret. exact I.
Qed.
