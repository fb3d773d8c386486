(** Attributes of code that was read: annotations and variables (C91): lemmas. *)
From Coq Require Import String.
From Verif Require Import Base BaseLemmas Wtf8Spec Wtf8Model Wtf8Proofs MutfModel PrimModel PrimProofs TypeModel TypeSpec CpModel CpSpec CpProofs
  SigModel SigSpec AnnModel AnnSpec AttrModel AttrSpec AttrProofs FrameModel FrameSpec InsnModel InsnSpec CodeModel CodeSpec CodeRead ClassModel ClassSpec
  CodeProofs CodeWrite CodeProps CodeUndef CodeAccept PanicProofs PanicCode ReadTyped TidySpec ReadWf.
From Coq Require Import Lia.

(** Readers that give labels to offsets: the state goes on, and what was read is
    right in the state afterwards. *)
Definition zs {A} (T : cst -> A -> Prop) (r : srd cst A) : Prop :=
  forall b s, cst_ok s -> qb K0 b (fun x => goes s (snd x) /\ T (snd x) (fst x)) (r s).
Definition mono {A} (T : cst -> A -> Prop) : Prop := forall s s' a, goes s s' -> T s a -> T s' a.
Lemma zs_map {A B} (T : cst -> A -> Prop) (U : cst -> B -> Prop) (h : A -> B) r : zs T r -> (forall s a, T s a -> U s (h a)) -> zs U (srd_map h r).
Proof.
  intros Hr Hh b s Hs. unfold srd_map. eapply qb_bind; [apply (Hr b s Hs)|]. intros [a s1] [G Ha]. cbn beta iota. apply qb_ret. cbn [fst snd] in *. auto.
Qed.
Lemma zs_times {A} (T : cst -> A -> Prop) r n : mono T -> zs T r -> zs (fun s => Forall (T s)) (srd_times n r).
Proof.
  intros Hm Hr. induction n as [|n IH]; intros b s Hs; cbn [srd_times]; [apply qb_ret; split; [apply goes_refl, Hs|constructor]|].
  eapply qb_bind; [apply (Hr b s Hs)|]. intros [a s1] [G Ha]. cbn beta iota. cbn [fst snd] in *. eapply qb_bind; [apply (IH b s1 (proj1 G))|]. intros [xs s2] [G2 Hx]. cbn beta iota. apply qb_ret.
  cbn [fst snd] in *. split; [eapply goes_trans; eauto|]. constructor; [eapply Hm; eauto|exact Hx].
Qed.
Lemma zs_vec {A} (T : cst -> A -> Prop) r : mono T -> zs T r -> zs (fun s xs => len xs < 65536 /\ Forall (T s) xs) (srd_vec 2 r).
Proof.
  intros Hm Hr b s Hs. unfold srd_vec. eapply qb_bind; [apply w_u|]. intros n Hn. cbn beta iota. intros l Hl Hb. pose proof (zs_times T r (Z.to_nat n) Hm Hr b s Hs l Hl Hb) as H.
  destruct (srd_times (Z.to_nat n) r s l) as [[[xs s'] l']| |] eqn:E; auto. apply stimes_len in E. cbn in *. destruct H as ((G & HF) & H2). split; [|exact H2]. split; [exact G|]. split; [lia|exact HF].
Qed.
Lemma zs_label : zs (fun s l => exists o, u16 o /\ lab s l o) rd_label.
Proof.
  intros b s Hs. unfold rd_label. eapply qb_bind; [apply w_u16|]. intros i Hi. cbn beta iota. apply qb_ret. destruct (get_label i s) as [l s1] eqn:E.
  apply get_label_goes in E as [G L]; auto; [|unfold u16, u32 in *; lia]. split; [exact G|]. exists i. auto.
Qed.
Lemma zs_label_u8 : zs (fun s x => (exists o, u16 o /\ lab s (fst x) o) /\ u8 (snd x)) rd_label_u8.
Proof.
  intros b s Hs. unfold rd_label_u8, srd_pair, lift. eapply qb_bind; [apply (zs_label b s Hs)|]. intros [l s1] [G HL]. cbn beta iota. cbn [fst snd] in *.
  eapply qb_bind; [eapply qb_bind; [apply w_u8|]; intros i Hi; apply (qb_ret K0 b (fun x => u8 (fst x) /\ snd x = s1)); split; [exact Hi|reflexivity]|].
  intros [i s2] [Hi E]. cbn [snd] in E. subst s2. cbn beta iota. apply qb_ret. cbn [fst snd] in *. auto.
Qed.

(** * Targets of annotations *)
Definition t_lvt (s : cst) (t : lvt) : Prop := exists a d, lab s (lt_start t) a /\ lab s (lt_end t) (a + d) /\ 0 <= d /\ u16 (lt_idx t).
Definition t_target (s : cst) (t : code_target) : Prop :=
  match t with
  | KtLocal ts | KtResource ts => len ts < 65536 /\ Forall (t_lvt s) ts
  | KtCatch c => In c (k_catches s)
  | KtInstanceOf l | KtNew l | KtNewRef l | KtMethodRef l => exists o, lab s l o
  | KtCast l i | KtNewArg l i | KtMethodArg l i | KtNewRefArg l i | KtMethodRefArg l i => (exists o, lab s l o) /\ u8 i
  end.
Lemma mono_lvt : mono t_lvt.
Proof. intros s s' t [_ G] (a & d & H1 & H2 & H3). exists a, d. split; [eapply lab_ext; eauto|]. split; [eapply lab_ext; eauto|exact H3]. Qed.
Lemma mono_target : mono t_target.
Proof.
  intros s s' t G. pose proof G as [_ G']. pose proof G' as (_ & _ & HC).
  destruct t; cbn [t_target]; try (intros [o H]; exists o; eapply lab_ext; eauto); try (intros [[o H] Hi]; split; [exists o; eapply lab_ext; eauto|exact Hi]).
  - intros [H1 H2]. split; [exact H1|]. eapply Forall_impl; [|exact H2]. intros x. apply mono_lvt, G.
  - intros [H1 H2]. split; [exact H1|]. eapply Forall_impl; [|exact H2]. intros x. apply mono_lvt, G.
  - rewrite HC. auto.
Qed.
Lemma zs_lvt : zs t_lvt rd_lvt.
Proof.
  intros b s Hs. unfold rd_lvt. eapply qb_bind; [apply w_u16|]. intros a Ha. cbn beta iota. destruct (get_label a s) as [la s1] eqn:E1. eapply qb_bind; [apply w_u16|]. intros d Hd. cbn beta iota.
  destruct (get_label (a + d) s1) as [lb s2] eqn:E2. eapply qb_bind; [apply w_u16|]. intros i Hi. cbn beta iota. apply qb_ret. cbn [fst snd].
  apply get_label_goes in E1 as [G1 L1]; auto; [|unfold u16, u32 in *; lia]. apply get_label_goes in E2 as [G2 L2]; [|apply G1|unfold u16, u32 in *; lia].
  split; [eapply goes_trans; eauto|]. exists a, d. split; [eapply lab_ext; [apply G2|exact L1]|]. split; [exact L2|]. split; [unfold u16 in Hd; lia|exact Hi].
Qed.
Lemma zs_catch : zs (fun s c => In c (k_catches s)) rd_catch.
Proof.
  intros b s Hs. unfold rd_catch. eapply qb_bind; [apply w_u16|]. intros i Hi. cbn beta iota. destruct (get_catch i s) as [c|] eqn:E; [|apply qb_err]. apply qb_ret. cbn [fst snd].
  split; [apply goes_refl, Hs|]. eapply nth_error_In, E.
Qed.
Lemma zs_target : zs t_target rd_code_target.
Proof.
  intros b s Hs. unfold rd_code_target. eapply qb_bind; [apply w_u8|]. intros t _. cbn beta iota.
  repeat match goal with |- qb _ _ _ (fun l => if ?c then _ else _) => destruct c end; try apply qb_err; revert b s Hs.
  all: match goal with |- forall b s, _ -> qb _ _ _ (fun l => srd_map ?h ?r s l) => change (zs t_target (srd_map h r)) end.
  all: first [eapply zs_map; [apply zs_vec; [apply mono_lvt|apply zs_lvt]|]; intros s a Ha; exact Ha
             |eapply zs_map; [apply zs_catch|]; intros s a Ha; exact Ha
             |eapply zs_map; [apply zs_label|]; intros s a (o & _ & Ho); exists o; exact Ho
             |eapply zs_map; [apply zs_label_u8|]; intros s a [(o & _ & Ho) Hi]; split; [exists o; exact Ho|exact Hi]].
Qed.
Section Pool.
Context (md : mode) (p : pool).
Hypothesis Hp : forall i e, p i = Some e -> number_ok e.
Definition t_tannot (s : cst) (a : tannot code_target) : Prop := good (fun _ => True) tannot_leaves (wf_tannot (t_target s)) a.
Lemma mono_tannot : mono t_tannot.
Proof. intros s s' a G H HL. destruct (H HL) as (H1 & H2). split; [eapply mono_target; eauto|exact H2]. Qed.
Lemma zs_tannot : zs t_tannot (rd_code_tannot md p).
Proof.
  intros b s Hs. unfold rd_code_tannot. eapply qb_bind; [apply (zs_target b s Hs)|]. intros [t s1] [G Ht]. cbn beta iota. cbn [fst snd] in *.
  eapply qb_bind; [apply (w_tannot_rest (fun _ => True) md p Hp b (t_target s1) t Ht)|]. intros a Ha. cbn beta iota. apply qb_ret. split; [exact G|exact Ha].
Qed.
Lemma tannots_read s l xs s' rest : bytes l -> cst_ok s -> srd_vec 2 (rd_code_tannot md p) s l = Ok ((xs, s'), rest) -> len xs < 65536 /\ Forall (t_tannot s') xs.
Proof.
  intros Hl Hs H. destruct (qb_elim _ _ _ _ _ (fun b => zs_vec t_tannot (rd_code_tannot md p) mono_tannot zs_tannot b s Hs) Hl H) as [[_ HT] _]. exact HT.
Qed.

(** * The attributes in the file *)
Definition t_rows {A} (rows : list (lvrow A)) : Prop := Forall (fun r => u16 (lr_start r) /\ u16 (lr_index r)) rows.
Lemma rows_read {A} b (q : rd A) : qb K0 b any q -> qb K0 b t_rows (rd_vec 2 (rd_lvrow p q)).
Proof.
  intros Hq. apply y_vec. unfold rd_lvrow, rd_map, rd_pair. eapply qb_bind.
  - eapply (qb_bind _ _ u16); [apply w_u16|]. intros a Ha. cbn beta iota. eapply qb_bind.
    + eapply qb_bind; [apply w_u16|]. intros n _. cbn beta iota. eapply qb_bind.
      * eapply (qb_bind _ _ any); [apply w_cow|]. intros c _. cbn beta iota. eapply qb_bind.
        -- eapply qb_bind; [exact Hq|]. intros t _. cbn beta iota. eapply qb_bind; [apply w_u16|]. intros i Hi. cbn beta iota. apply (qb_ret K0 b (fun x => u16 (snd x))). exact Hi.
        -- intros x Hx. cbn beta iota. apply (qb_ret K0 b (fun y => u16 (snd (snd y)))). exact Hx.
      * intros x Hx. cbn beta iota. apply (qb_ret K0 b (fun y => u16 (snd (snd (snd y))))). exact Hx.
    + intros x Hx. cbn beta iota. apply (qb_ret K0 b (fun y => u16 (fst y) /\ u16 (snd (snd (snd (snd y)))))). split; [exact Ha|exact Hx].
  - intros (a & n & c & t & i) [Ha Hi]. cbn beta iota. apply qb_ret. split; [exact Ha|exact Hi].
Qed.
Definition t_fcattr (s : cst) (a : fcattr) : Prop :=
  match a with
  | CaVisible l | CaInvisible l => len l < 65536 /\ Forall (t_tannot s) l
  | CaLocals r => t_rows r
  | CaLocalTypes r => t_rows r
  | _ => True
  end.
Lemma fcattr_read s l a s' rest : bytes l -> cst_ok s -> rd_fcattr md p s l = Ok ((a, s'), rest) -> bytes rest /\ goes s s' /\ t_fcattr s' a.
Proof.
  intros Hl Hs H. destruct (rd_fcattr_inv _ _ _ _ _ _ _ Hl Hs H) as (H1 & H2 & _). split; [exact H1|]. split; [exact H2|]. clear H1 H2.
  unfold rd_fcattr in H. apply CodeAccept.rd_attr_inv in H as [_ H]; auto. destruct H as [(n & r & body & Hin & Hbody & H)|(ra & H)]; [|injection H as -> ->; exact I].
  unfold fcattr_known in Hin. cbn [In] in Hin. destruct Hin as [Hin|[Hin|[Hin|[Hin|[Hin|[Hin|[]]]]]]]; apply (f_equal snd) in Hin; cbn [snd] in Hin; subst r.
  - unfold rd_map in H. inv_bind H. destruct v as [v r]. injection H as <- <- ->. exact I.
  - unfold rd_map at 1 in H. inv_bind H. destruct v as [v r]. injection H as <- <- ->. refine (proj1 (qb_elim _ _ _ _ _ (fun b => rows_read b _ _) Hbody E)). apply w_type.
  - unfold rd_map at 1 in H. inv_bind H. destruct v as [v r]. injection H as <- <- ->. refine (proj1 (qb_elim _ _ _ _ _ (fun b => rows_read b _ _) Hbody E)). apply w_sig.
  - unfold srd_map in H. inv_bind H. destruct v as [[v s1] r]. injection H as <- <- ->. exact (tannots_read _ _ _ _ _ Hbody Hs E).
  - unfold srd_map in H. inv_bind H. destruct v as [[v s1] r]. injection H as <- <- ->. exact (tannots_read _ _ _ _ _ Hbody Hs E).
  - unfold srd_map in H. inv_bind H. destruct v as [[v s1] r]. injection H as <- <- ->. exact I.
Qed.

(** * Variables *)
Definition t_var (s : cst) (v : localvar) : Prop :=
  (exists o, lab s (v_start v) o) /\ (exists o, lab s (v_end v) o) /\ u16 (v_index v) /\ (v_desc v <> None \/ v_sig v <> None).
Definition t_vars (s : cst) (vs : list localvar) : Prop := NoDup (map vkey vs) /\ Forall (t_var s) vs.
Lemma mono_var : mono t_var.
Proof. intros s s' v [_ G] ((o & H1) & (o' & H2) & H3). split; [exists o; eapply lab_ext; eauto|]. split; [exists o'; eapply lab_ext; eauto|exact H3]. Qed.
Lemma mono_vars : mono t_vars.
Proof. intros s s' vs G [H1 H2]. split; [exact H1|]. eapply Forall_impl; [|exact H2]. intros v. apply mono_var, G. Qed.
Definition sets (f : localvar -> localvar) : Prop := forall x, vkey (f x) = vkey x /\ (v_desc (f x) <> None \/ v_sig (f x) <> None).
Lemma t_set f s x : sets f -> (exists o, lab s (v_start x) o) -> (exists o, lab s (v_end x) o) -> u16 (v_index x) -> t_var s (f x).
Proof. intros Hf H1 H2 H3. destruct (Hf x) as [HK HD]. unfold vkey in HK. injection HK as K1 K2 K3 K4. unfold t_var. rewrite K1, K2, K3. auto. Qed.
Lemma t_add_var f s x vs : sets f -> (exists o, lab s (v_start x) o) -> (exists o, lab s (v_end x) o) -> u16 (v_index x) -> t_vars s vs -> t_vars s (add_var f x vs).
Proof.
  intros Hf H1 H2 H3 [HN HF]. destruct (add_var_split f x vs) as [(a & y & q & -> & HK & ->)|[HI ->]].
  - split.
    + rewrite map_app in *. cbn [map] in *. destruct (Hf y) as [-> _]. exact HN.
    + apply Forall_app in HF as [F1 F2]. inversion F2 as [|? ? F3 F4]; subst. apply Forall_app. split; [exact F1|]. constructor; [|exact F4]. destruct F3 as (G1 & G2 & G3 & _). apply t_set; auto.
  - split.
    + rewrite map_app. cbn [map]. destruct (Hf x) as [-> _]. apply NoDup_rev in HN. rewrite <- (rev_involutive (map vkey vs ++ [vkey x])). apply NoDup_rev. rewrite rev_app_distr. cbn [rev app]. constructor; [rewrite <- in_rev; exact HI|exact HN].
    + apply Forall_app. split; [exact HF|]. constructor; [|constructor]. apply t_set; auto.
Qed.
Lemma t_add_vars {A} (set : A -> localvar -> localvar) rows : (forall t, sets (set t)) -> forall s vs vs' s', t_rows rows -> cst_ok s -> t_vars s vs ->
  add_vars md set rows s vs = Ok (vs', s') -> goes s s' /\ t_vars s' vs'.
Proof.
  intros Hset. induction rows as [|r rows IH]; cbn [add_vars]; intros s vs vs' s' HR Hs Hv H; [injection H as <- <-; auto using goes_refl|].
  inversion HR as [|? ? [R1 R2] R3]; subst. destruct (get_label (lr_start r) s) as [a s1] eqn:E1. inv_bind H. destruct (get_label v s1) as [b s2] eqn:E2. apply chk_u_u16 in E.
  apply get_label_goes in E1 as [G1 L1]; auto; [|unfold u16, u32 in *; lia]. apply get_label_goes in E2 as [G2 L2]; [|apply G1|unfold u16, u32 in *; lia].
  assert (G : goes s s2) by (eapply goes_trans; eauto). apply IH in H as [G3 K3]; auto; [|apply G2|].
  - split; [eapply goes_trans; eauto|exact K3].
  - apply t_add_var; [apply Hset| | |exact R2|eapply mono_vars; eauto]; cbn [v_start v_end]; [exists (lr_start r); eapply lab_ext; [apply G2|exact L1]|exists v; exact L2].
Qed.
Definition t_kattr (s : cst) (a : kattr) : Prop :=
  match a with KVisible l | KInvisible l => len l < 65536 /\ Forall (t_tannot s) l | KLocals _ => False | KRaw _ => True end.
Lemma mono_kattr : mono t_kattr.
Proof. intros s s' [] G; cbn [t_kattr]; auto; intros [H1 H2]; (split; [exact H1|]); (eapply Forall_impl; [|exact H2]); intros x; apply mono_tannot, G. Qed.
Lemma t_add_attr idx a s z z' s' : cst_ok s -> t_fcattr s a -> t_vars s (z_vars z) -> Forall (t_kattr s) (z_attrs z) -> add_attr md idx a s z = Ok (z', s') ->
  goes s s' /\ t_vars s' (z_vars z') /\ Forall (t_kattr s') (z_attrs z').
Proof.
  intros Hs Ha Hv Hz H. pose proof (goes_refl s Hs) as HR.
  assert (HM : forall s', goes s s' -> Forall (t_kattr s') (z_attrs z)) by (intros s2 G; eapply Forall_impl; [|exact Hz]; intros x; apply mono_kattr, G).
  assert (HP : forall k, t_kattr s k -> Forall (t_kattr s) (z_attrs z ++ [k])) by (intros k Hk; apply Forall_app; split; [exact Hz|constructor; [exact Hk|constructor]]).
  destruct a; cbn [add_attr t_fcattr] in *.
  - inv_bind H. injection H as <- <-. auto.
  - inv_bind H. destruct v as [vs s1]. injection H as <- <-. apply t_add_vars in E as [G K]; auto. intros t x. split; [reflexivity|left; discriminate].
  - inv_bind H. destruct v as [vs s1]. injection H as <- <-. apply t_add_vars in E as [G K]; auto. intros t x. split; [reflexivity|right; discriminate].
  - injection H as <- <-. split; [exact HR|]. split; [exact Hv|]. apply HP. exact Ha.
  - injection H as <- <-. split; [exact HR|]. split; [exact Hv|]. apply HP. exact Ha.
  - injection H as <- <-. auto.
  - injection H as <- <-. split; [exact HR|]. split; [exact Hv|]. apply HP. exact I.
Qed.
Lemma t_kattrs idx n : forall s z l z' s' l', bytes l -> cst_ok s -> t_vars s (z_vars z) -> Forall (t_kattr s) (z_attrs z) -> rd_kattrs n md p idx s z l = Ok (z', s', l') ->
  goes s s' /\ t_vars s' (z_vars z') /\ Forall (t_kattr s') (z_attrs z').
Proof.
  induction n as [|n IH]; cbn [rd_kattrs]; intros s z l z' s' l' Hl Hs Hv Hz H; [injection H as <- <- <-; auto using goes_refl|].
  inv_bind H. destruct v as [[a s1] l1]. apply fcattr_read in E as (Hl1 & G1 & K1); auto. inv_bind H. destruct v as [z1 s2].
  apply t_add_attr in E as (G2 & V2 & A2); auto; [|apply G1|eapply mono_vars; eauto|eapply Forall_impl; [|exact Hz]; intros x; apply mono_kattr, G1].
  apply IH in H as (G3 & V3 & A3); auto; [|apply G2]. split; [|auto]. eapply goes_trans; [eapply goes_trans; [exact G1|exact G2]|exact G3].
Qed.
End Pool.

(** * Places *)
Lemma read_all_offsets at_ is : forall pos ps b, read_all at_ pos is ps b -> forall i o, nth_error (ps ++ [pos + len b]) i = Some o ->
  pos <= o /\ forall j o', (i < j)%nat -> nth_error (ps ++ [pos + len b]) j = Some o' -> o < o'.
Proof.
  induction is as [|x is IH]; cbn [read_all]; intros pos ps b H i o Hi.
  - destruct H as [-> ->]. cbn [app] in *. destruct i as [|i]; [|destruct i; discriminate]. injection Hi as <-. split; [cbn; lia|]. intros [|[|j]] o' Hj Ho; [lia| |]; discriminate.
  - destruct H as (c & rest & ps' & -> & -> & Hc & _ & H). assert (1 <= len c) by (destruct c; [congruence|rewrite len_cons; pose proof (len_nonneg c); lia]).
    rewrite len_app in *. replace (pos + (len c + len rest)) with (pos + len c + len rest) in * by lia. cbn [app] in *. destruct i as [|i]; cbn [nth_error] in Hi.
    + injection Hi as <-. split; [lia|]. intros [|j] o' Hj Ho; [lia|]. cbn [nth_error] in Ho. apply (IH _ _ _ H) in Ho as [Ho _]. lia.
    + apply (IH _ _ _ H) in Hi as [H1 H2]. split; [lia|]. intros [|j] o' Hj Ho; [lia|]. cbn [nth_error] in Ho. eapply H2; [|exact Ho]. lia.
Qed.
Lemma strip_room is : len (strip is) <= room is.
Proof.
  induction is as [|i is IH]; cbn [strip filter room]; [cbn; lia|]. fold (strip is).
  assert (HP : (if realb i then 1 else 0) <= most_bytes i).
  { destruct i; cbn -[len]; try lia; repeat match goal with |- context [len ?x] => let H := fresh in pose proof (len_nonneg x) as H; generalize dependent (len x); intros end; try lia; match goal with |- context [match ?y with _ => _ end] => destruct y end; lia. }
  destruct (realb i); rewrite ?len_cons; lia.
Qed.

(** The attributes of code that was read. *)
Section Code.
Context (md : mode) (p : pool).
Hypothesis Hp : forall i e, p i = Some e -> number_ok e.
Theorem code_attrs_wf E s l c s' rest : bytes l -> rd_code md p s l = Ok ((c, s'), rest) -> room (cd_code c) <= 65535 ->
  Forall (fun a => tidy_kattr (cd_code c) a -> match a with KRaw _ => True | _ => wf_kattr E c a end) (cd_attrs c) /\
  NoDup (map (var_key (cd_code c)) (locals_of (cd_attrs c))).
Proof using Hp.
  intros Hl H HR. destruct (code_labels _ _ _ _ _ _ _ Hl H) as (body & hs & tl & ps & m & HX). cbv zeta in HX.
  destruct HX as (_ & HN1 & HN2 & HA & _ & _ & _ & HO & _ & k3 & k4 & z & na & l7 & l8 & Hk3 & HC & Hl7 & HZ & <- & ->).
  assert (HK : cst_ok k3 /\ t_vars k3 [] /\ Forall (t_kattr k3) []) by (split; [exact Hk3|split; [split; constructor|constructor]]). destruct HK as (_ & HK1 & HK2).
  destruct (t_kattrs md p Hp _ _ _ {| z_lines := []; z_vars := []; z_attrs := [] |} _ _ _ _ Hl7 Hk3 HK1 HK2 HZ) as (G & [HV1 HV2] & HT). clear HK1 HK2.
  assert (HCc : k_catches k4 = cd_catches c) by (destruct G as (_ & _ & _ & G); congruence). clear HC HZ G Hk3.
  set (is := cd_code c) in *.
  assert (HP : forall x o, lab k4 x o -> exists i, place x is = Some i /\ u16 i /\ nth_error (ps ++ [len body]) (Z.to_nat i) = Some o).
  { intros x o Ho. destruct (HO o x Ho) as (i & Hi & Hn). exists i. split; [exact Hi|]. split; [|exact Hn]. pose proof (place_nonneg _ _ _ Hi). pose proof (place_le _ _ _ Hi). pose proof (strip_room is). unfold u16. lia. }
  assert (HJ : forall x o, lab k4 x o -> forall y o', lab k4 y o' -> place x is = place y is -> x = y).
  { intros x o Ho y o' Ho' E1. destruct (HP x o Ho) as (i & Hi & _ & Hn). destruct (HP y o' Ho') as (j & Hj & _ & Hn'). assert (i = j) by congruence. subst j. assert (o = o') by congruence. subst o'.
    clear - HN1 Ho Ho'. unfold lab in *. induction (k_labels k4) as [|[a b] t IH]; [destruct Ho|]. cbn [map fst] in HN1. inversion HN1 as [|? ? N1 N2]; subst.
    destruct Ho as [Ho|Ho], Ho' as [Ho'|Ho']; [congruence| | |auto]; exfalso; apply N1; [injection Ho as -> ->; exact (in_map fst _ _ Ho')|injection Ho' as -> ->; exact (in_map fst _ _ Ho)]. }
  assert (HW : forall x o, lab k4 x o -> wf_label (place_env E c) x).
  { intros x o Ho. destruct (HP x o Ho) as (i & Hi & Hu & _). exists i. cbn [we_label place_env]. fold is. rewrite Hi. auto. }
  assert (HL : forall t, t_lvt k4 t -> wf_lvt (place_env E c) t).
  { intros t (a & d & L1 & L2 & Hd & Hi). destruct (HP _ _ L1) as (i & P1 & U1 & N1). destruct (HP _ _ L2) as (j & P2 & U2 & N2). exists i, j. cbn [we_label place_env]. fold is. rewrite P1, P2.
    split; [reflexivity|]. split; [reflexivity|]. split; [exact U1|]. split; [exact U2|]. split; [|exact Hi]. destruct (Z_le_gt_dec i j) as [|Hgt]; [assumption|exfalso].
    destruct (read_all_offsets _ _ _ _ _ HA _ _ N2) as [_ HI]. assert (Z.to_nat j < Z.to_nat i)%nat as HI' by (unfold u16 in *; lia). specialize (HI _ _ HI' N1). lia. }
  assert (HTA : forall a, t_target k4 a -> wf_code_target (place_env E c) a).
  { intros a. destruct a; cbn [t_target wf_code_target]; try (intros [o Ho]; exact (HW _ _ Ho)); try (intros [[o Ho] Hi]; split; [exact (HW _ _ Ho)|exact Hi]).
    - intros [H1 H2]. split; [exact H1|]. eapply Forall_impl; [|exact H2]. exact HL.
    - intros [H1 H2]. split; [exact H1|]. eapply Forall_impl; [|exact H2]. exact HL.
    - rewrite HCc. intros Hin. exists 0. cbn [we_catch place_env]. assert (existsb (catch_eqb c0) (cd_catches c) = true) as ->; [|split; [reflexivity|unfold u16; lia]].
      apply existsb_exists. exists c0. split; [exact Hin|]. apply catch_eqb_eq. reflexivity. }
  assert (HTS : forall xs, len xs < 65536 /\ Forall (t_tannot k4) xs -> Forall (fun x => Forall (leaf_ok (fun _ => True)) (tannot_leaves x)) xs -> len xs < 65536 /\ Forall (wf_code_tannot (place_env E c)) xs).
  { intros xs [H1 H2] H3. split; [exact H1|]. rewrite Forall_forall in *. intros x Hx. destruct (H2 x Hx (H3 x Hx)) as (W1 & W2). split; [apply HTA, W1|exact W2]. }
  assert (HLo : locals_of (z_attrs z ++ match z_vars z with [] => [] | vs => [KLocals vs] end) = z_vars z).
  { unfold locals_of. rewrite flat_map_app. assert (flat_map (fun a => match a with KLocals vs => vs | _ => [] end) (z_attrs z) = []) as ->.
    { clear - HT. induction HT as [|a t Ha _ IH]; [reflexivity|]. cbn [flat_map]. rewrite IH. destruct a; [reflexivity|reflexivity|destruct Ha|reflexivity]. }
    destruct (z_vars z); [reflexivity|]. cbn [flat_map app]. rewrite app_nil_r. reflexivity. }
  split.
  - apply Forall_app. split.
    + eapply Forall_impl; [|exact HT]. intros a Ha Ht. destruct a; cbn [t_kattr tidy_kattr wf_kattr] in *; [apply HTS; assumption|apply HTS; assumption|destruct Ha|exact I].
    + destruct (z_vars z) as [|v vs] eqn:EV; constructor; [|constructor]. intros [T1 T2]. cbn [wf_kattr]. split; [discriminate|]. split; [exact T1|].
      rewrite Forall_forall in *. intros x Hx. destruct (T2 x Hx) as (V1 & V2 & V3 & V4). destruct (HV2 x Hx) as ([o W1] & [o' W2] & W3 & W4).
      destruct (HP _ _ W1) as (i & P1 & _). destruct (HP _ _ W2) as (j & P2 & _). split; [exists i, j; split; [exact P1|split; [exact P2|exact (V1 i j P1 P2)]]|]. auto.
  - rewrite HLo. clear - HV1 HV2 HJ. induction (z_vars z) as [|v vs IH]; [constructor|]. cbn [map] in *. inversion HV1 as [|? ? N1 N2]; subst. inversion HV2 as [|? ? V1 V2]; subst. constructor; [|auto].
    intros HI. apply in_map_iff in HI as (w & HE & Hw). apply N1. apply in_map_iff. exists w. split; [|exact Hw]. unfold var_key in HE. injection HE as E1 E2 E3 E4.
    rewrite Forall_forall in V2. destruct (V2 w Hw) as ([o1 A1] & [o2 A2] & _). destruct V1 as ([o3 A3] & [o4 A4] & _). unfold vkey. rewrite (HJ _ _ A1 _ _ A3 E1), (HJ _ _ A2 _ _ A4 E2), E3, E4. reflexivity.
Qed.
End Code.
