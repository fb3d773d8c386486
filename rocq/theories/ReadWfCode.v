(** Code that was read is well formed, if it is tidy (C91): lemmas. *)
From Coq Require Import String.
From Verif Require Import Base BaseLemmas Wtf8Spec Wtf8Model Wtf8Proofs MutfModel PrimModel PrimProofs TypeModel TypeSpec CpModel CpSpec CpProofs
  SigModel SigSpec AnnModel AnnSpec AttrModel AttrSpec AttrProofs FrameModel FrameSpec InsnModel InsnSpec CodeModel CodeSpec CodeRead ClassModel ClassSpec
  CodeProofs CodeUndef CodeAccept PanicProofs PanicCode ReadTyped TidySpec ReadWf ReadWfAttr.
From Coq Require Import Lia.

(** * Operands *)
Definition n_wide (w : wide) : Prop :=
  match w with
  | WILoad a | WLLoad a | WFLoad a | WDLoad a | WALoad a | WIStore a | WLStore a | WFStore a | WDStore a | WAStore a | WRet a => u16 a
  | WIInc a b => u16 a /\ i16 b
  end.
Definition n_raw (r : raw) : Prop :=
  match r with
  | XBipush a => -128 <= a < 128
  | XSipush a => i16 a
  | XILoad a | XLLoad a | XFLoad a | XDLoad a | XALoad a | XIStore a | XLStore a | XFStore a | XDStore a | XAStore a | XRet a => u8 a
  | XIInc a b => u8 a /\ -128 <= b < 128
  | XInvokeInterface _ c _ => u8 c
  | XTableSwitch _ t => i32 (t_low t)
  | XLookupSwitch _ es => Forall (fun e => i32 (fst e)) es
  | XWide w => n_wide w
  | _ => True
  end.
Lemma n_wide_ok b : qb K0 b n_wide rd_wide.
Proof.
  unfold rd_wide. eapply qb_bind; [apply qb_u|]. intros t _. cbn beta iota.
  assert (HU : forall f : Z -> wide, (forall a, u16 a -> n_wide (f a)) -> qb K0 b n_wide (fun l => '(a, l) <- rd_u16 l ;; Ok (f a, l))).
  { intros f Hf. eapply qb_bind; [apply w_u16|]. intros a Ha. apply qb_ret, Hf, Ha. }
  destruct t as [|q|q]; try apply qb_err. do 8 (try (destruct q as [q|q|]; try apply qb_err; try (apply HU; intros a Ha; exact Ha))).
  eapply qb_bind; [apply w_u16|]. intros a Ha. cbn beta iota. eapply qb_bind; [apply (w_s b 2); lia|]. intros c Hc. apply qb_ret. split; [exact Ha|exact Hc].
Qed.
Lemma n_table md b : qb K0 b (fun t => i32 (t_low t)) (rd_table md).
Proof.
  unfold rd_table. eapply qb_bind; [apply (w_s b 4); lia|]. intros lo Hlo. cbn beta iota. eapply qb_bind; [apply qb_s|]. intros hi _. cbn beta iota.
  eapply (qb_pure _ _ any); [apply w_any|]. intros d _. eapply (qb_pure _ _ any); [apply w_any|]. intros n _.
  destruct (n <? 0); [apply qb_panic; exact I|]. eapply qb_bind; [apply qb_times, qb_s|]. intros os _. apply qb_ret. exact Hlo.
Qed.
Lemma n_entry b : qb K0 b (fun e => i32 (fst e)) rd_switch_entry.
Proof. unfold rd_switch_entry. eapply qb_bind; [apply (w_s b 4); lia|]. intros x Hx. cbn beta iota. eapply qb_bind; [apply qb_s|]. intros y _. apply qb_ret. exact Hx. Qed.
Lemma n_raw_op md b op : qb K0 b n_raw (rd_raw_op md op).
Proof.
  assert (HO : forall r : raw, n_raw r -> qb K0 b n_raw (fun l => Ok (r, l))) by (intros; apply qb_ret; assumption).
  assert (HU : forall n (f : Z -> raw), (forall a, 0 <= a < 256 ^ Z.of_nat n -> n_raw (f a)) -> qb K0 b n_raw (fun l => '(a, l) <- rd_u n l ;; Ok (f a, l))).
  { intros n f Hf. eapply qb_bind; [apply w_u|]. intros a Ha. apply qb_ret, Hf, Ha. }
  assert (HS : forall n (f : Z -> raw), (0 < n)%nat -> (forall a, - 2 ^ (8 * Z.of_nat n - 1) <= a < 2 ^ (8 * Z.of_nat n - 1) -> n_raw (f a)) -> qb K0 b n_raw (fun l => '(a, l) <- rd_s n l ;; Ok (f a, l))).
  { intros n f Hn Hf. eapply qb_bind; [apply w_s, Hn|]. intros a Ha. apply qb_ret, Hf, Ha. }
  unfold rd_raw_op. destruct op as [|q|q]; [apply HO; exact I| |apply qb_err].
  do 8 (try (destruct q as [q|q|]; try apply qb_err; try (apply HO; exact I); try (apply HU; intros a Ha; first [exact I|exact Ha]); try (apply HS; [lia|]; intros a Ha; first [exact I|exact Ha]))).
  all: match goal with |- context [rd_wide] => eapply qb_bind; [apply n_wide_ok|]; intros x1 Hx1; cbn beta iota | _ => eapply qb_bind; [first [apply w_u|apply w_s; lia]|]; intros x1 Hx1; cbn beta iota end.
  all: try (eapply qb_bind; [first [apply w_u|apply w_s; lia|apply n_table|apply y_vec, n_entry]|]; intros x2 Hx2; cbn beta iota).
  all: try (eapply qb_bind; [apply qb_u|]; intros x3 _; cbn beta iota).
  all: apply qb_ret; first [exact I|exact Hx1|exact Hx2|split; [exact Hx1|exact Hx2]].
Qed.
Lemma n_raw_insn md b : qb K0 b n_raw (rd_raw_insn md).
Proof. unfold rd_raw_insn. eapply qb_bind; [apply qb_u|]. intros op _. cbn beta iota. apply n_raw_op. Qed.

(** * Instructions *)
Definition n_insn (i : insn) : Prop :=
  match i with
  | IPush (Stat k) => good (fun _ => True) const_leaves wf_constant k
  | ILocalVariable _ _ i | IRet i => u16 i
  | IInvokeInterface _ c => u8 c
  | IIntIncrement i v => u16 i /\ i16 v
  | ITableSwitch _ low _ => i32 low
  | ILookupSwitch _ t => NoDup (map fst t) /\ Forall i32 (map fst t)
  | _ => True
  end.
Lemma set_keys {V} k (v : V) m : NoDup (map fst m) -> NoDup (map fst (assoc_set Z.eqb k v m)) /\ (forall x, In x (map fst (assoc_set Z.eqb k v m)) -> x = k \/ In x (map fst m)).
Proof.
  induction m as [|[k' v'] m IH]; cbn; intros HN; [split; [constructor; [intros []|constructor]|intuition auto]|]. inversion HN as [|? ? H1 H2]; subst. destruct (IH H2) as [I1 I2].
  destruct (k =? k') eqn:E; cbn; [split; [constructor; auto|intuition auto]|]. apply Z.eqb_neq in E. split; [|intros x [->|Hx]; [auto|destruct (I2 x Hx); auto]].
  constructor; auto. intros Hin. destruct (I2 _ Hin); [congruence|auto].
Qed.
Lemma n_lookup pos es : Forall (fun e => i32 (fst e)) es -> forall m s, NoDup (map fst m) -> Forall i32 (map fst m) ->
  let t := fst (InsnModel.lookup_at pos es m s) in NoDup (map fst t) /\ Forall i32 (map fst t).
Proof.
  induction 1 as [|[k o] es Hk _ IH]; intros m s HN HF; cbn [InsnModel.lookup_at]; [split; assumption|]. destruct (lbl_at pos o s) as [l s1].
  destruct (set_keys k l m HN) as [H1 H2]. apply IH; auto. apply Forall_forall. intros x Hx. rewrite Forall_forall in HF. destruct (H2 x Hx) as [->|Hm]; auto.
Qed.
Section Pool.
Context (md : mode) (p : pool).
Hypothesis Hp : forall i e, p i = Some e -> number_ok e.
Definition n_out (x : insn * cst) : Prop := n_insn (fst x).
Lemma n_const i s : calmly K0 n_out (conv_constant md p i s).
Proof. unfold conv_constant. eapply calm_bind; [apply (w_constant (fun _ => True) md p Hp)|]. intros [k|] Hk; [exact Hk|exact I]. Qed.
Lemma n_elem i d s : calmly K0 n_out (conv_elem md p i d s).
Proof.
  unfold conv_elem. eapply calm_bind; [apply w_any|]. intros [[d'|c] s1] _; cbn beta iota; [exact I|]. destruct (parse_type md c); exact I.
Qed.
Lemma n_conv pos r s : n_raw r -> calmly K0 n_out (conv md p pos r s).
Proof.
  intros Hr. assert (HC : forall k, wf_constant k -> n_insn (IPush (Stat k))) by (intros k Hk _; exact Hk).
  destruct r; cbn [conv]; cbn [n_raw] in Hr; try exact I; try exact Hr;
  try (destruct (lbl_at pos a s) as [l1 s1]; exact I);
  try (eapply calm_bind; [apply w_any|]; intros [m s1] _; first [exact I|exact Hr]);
  try apply n_const; try apply n_elem;
  try (apply HC; cbn [wf_constant]; unfold i32, u32, i64, u64, i16, f32_1, f32_2, f64_1 in *; lia);
  try (unfold n_out; cbn [fst n_insn calmly]; unfold u16, u8, i16 in *; lia).
  - destruct (lbl_at pos dflt s) as [d s1]. destruct (lbls_at pos (t_offs t) s1). exact Hr.
  - destruct (lbl_at pos dflt s) as [d s1]. pose proof (n_lookup pos es Hr [] s1 (NoDup_nil _) (Forall_nil _)) as HL. destruct (InsnModel.lookup_at pos es [] s1). exact HL.
  - eapply calm_bind; [apply w_any|]. intros [[d|] s1] _; exact I.
  - repeat match goal with |- calmly _ _ (match ?x with _ => _ end) => destruct x end; exact I.
  - destruct w; cbn [n_wide] in Hr; exact Hr.
Qed.
Lemma n_insns n : forall pos s l is s', bytes l -> rd_insns n md p pos s l = Ok (is, s') -> Forall n_insn (map snd is).
Proof.
  induction n as [|n IH]; intros pos s l is s' Hl H; cbn [rd_insns] in H.
  - destruct l; [|discriminate]. injection H as <- <-. constructor.
  - assert (HE : l = [] \/ l <> []) by (destruct l; [left|right]; congruence). destruct HE as [->|Hne]; [injection H as <- <-; constructor|].
    rewrite (match_ne l) in H by exact Hne. inv_bind H. destruct v as [[i s1] r]. inv_bind H. destruct v as [is1 s2]. injection H as <- <-.
    unfold rd_insn_at in E. destruct l as [|op l]; [congruence|]. inv_bind E. destruct v as [rw l1]. inv_bind E. destruct v as [i1 s3]. injection E as <- <- <-.
    assert (HR : n_raw rw /\ bytes l1).
    { destruct (_ || _)%bool in E1; (eapply (qb_elim _ _ _ _ _ (fun b => n_raw_insn md b)); [|exact E1]); [|exact Hl]. inversion Hl; subst. constructor; [assumption|].
      apply Forall_forall. intros x Hx. unfold bytes in Hl. rewrite Forall_forall in Hl. apply Hl. rewrite <- (firstn_skipn (Z.to_nat (4 - pos mod 4)) (op :: l)). apply in_or_app. right. exact Hx. }
    destruct HR as [HR Hl1]. pose proof (n_conv pos rw s HR) as HC. rewrite E2 in HC. cbn [map snd]. constructor; [exact HC|]. exact (IH _ _ _ _ _ Hl1 E0).
Qed.

(** * Attributes of code *)
Lemma assoc_in' {V} (m : list (list Z * V)) k v : assoc (list_eqb Z.eqb) k m = Some v -> exists k', In (k', v) m.
Proof.
  induction m as [|[a x] m IH]; cbn; [discriminate|]. destruct (list_eqb Z.eqb k a); [intros [= ->]; eauto|]. intros H. destruct (IH H); eauto.
Qed.
Definition n_fcattr (a : fcattr) : Prop := match a with CaRaw r => ~ In (ra_name r) code_attr_names | _ => True end.
Definition n_kattr (a : kattr) : Prop := match a with KRaw r => ~ In (ra_name r) code_attr_names | _ => True end.
Lemma n_fcattr_ok s l a s1 l1 : rd_fcattr md p s l = Ok ((a, s1), l1) -> n_fcattr a.
Proof.
  intros H. unfold rd_fcattr, rd_attr in H. inv_bind H. destruct v as [i l2]. destruct (read_wtf8 p i) as [name|]; [|discriminate]. inv_bind H. destruct v as [n l3].
  inv_bind H. destruct v as [body l4]. destruct (assoc (list_eqb Z.eqb) name (fcattr_known md p s)) as [r|] eqn:EA.
  - inv_bind H. destruct v as [x rest]. destruct rest; [|discriminate]. injection H as -> <-. apply assoc_in' in EA as (n' & HI).
    unfold fcattr_known in HI. cbn [In] in HI. destruct HI as [HI|[HI|[HI|[HI|[HI|[HI|[]]]]]]]; apply pair_equal_spec in HI as [_ <-]; unfold srd_map, rd_map in *; inv_bind E2;
    repeat match goal with H : Ok _ = Ok _ |- _ => apply ok_inj in H | x : _ * _ |- _ => destruct x end; repeat match goal with H : (_, _) = (_, _) |- _ => apply pair_equal_spec in H as [? ?] end; subst; exact I.
  - injection H as <- <- <-. cbn [n_fcattr ra_name]. change code_attr_names with (map fst (fcattr_known md p s)). intros HI. apply in_map_iff in HI as ([k r] & <- & HI). cbn [fst] in EA.
    clear - EA HI. induction (fcattr_known md p s) as [|[k' r'] t IH]; [destruct HI|]. cbn in EA. destruct (list_eqb Z.eqb k k') eqn:E; [discriminate|].
    destruct HI as [HI|HI]; [|auto]. injection HI as -> ->. rewrite (proj2 (list_eqb_eq Z.eqb Z.eqb_eq k k) eq_refl) in E. discriminate.
Qed.
Lemma n_add_attr idx a s z z' s' : n_fcattr a -> Forall n_kattr (z_attrs z) -> add_attr md idx a s z = Ok (z', s') -> Forall n_kattr (z_attrs z').
Proof.
  intros Ha Hz H. unfold add_attr in H. destruct a; cbn [n_fcattr] in Ha;
  try (injection H as <- <-; cbn [z_attrs]; first [exact Hz|apply Forall_app; split; [exact Hz|constructor; [exact Ha|constructor]]]);
  inv_bind H; try (destruct v as [vs s1]); injection H as <- <-; exact Hz.
Qed.
Lemma n_kattrs idx n : forall s z l z' s' l', Forall n_kattr (z_attrs z) -> rd_kattrs n md p idx s z l = Ok (z', s', l') -> Forall n_kattr (z_attrs z').
Proof.
  induction n as [|n IH]; intros s z l z' s' l' Hz H; cbn [rd_kattrs] in H; [injection H as <- <- <-; exact Hz|].
  inv_bind H. destruct v as [[a s1] l1]. inv_bind H. destruct v as [z1 s2]. eapply IH; [|exact H]. eapply n_add_attr; [exact (n_fcattr_ok _ _ _ _ _ E)|exact Hz|exact E0].
Qed.
Lemma n_code s l k s1 l1 : bytes l -> rd_code md p s l = Ok ((k, s1), l1) -> Forall n_insn (cd_code k) /\ Forall n_kattr (cd_attrs k) /\
  u16 (cd_stack k) /\ u16 (cd_locals k) /\ len (cd_catches k) < 65536.
Proof.
  intros Hl H. unfold rd_code in H.
  inv_bind H. destruct v as [sk l2]. destruct (qb_elim _ _ _ _ _ (fun b => w_u16 b) Hl E) as [Hsk Hl2].
  inv_bind H. destruct v as [lo l3]. destruct (qb_elim _ _ _ _ _ (fun b => w_u16 b) Hl2 E0) as [Hlo Hl3].
  inv_bind H. destruct v as [n l4]. destruct (qb_elim _ _ _ _ _ (fun b => w_u b 4) Hl3 E1) as [_ Hl4].
  inv_bind H. destruct v as [body l5]. destruct (qb_elim _ _ _ _ _ (fun b => qb_take K0 b n) Hl4 E2) as [Hbody Hl5].
  inv_bind H. destruct v as [is k1]. inv_bind H. destruct v as [m l6]. destruct (qb_elim _ _ _ _ _ (fun b => w_u16 b) Hl5 E4) as [Hm _].
  inv_bind H. destruct v as [[cs k2] l7]. inv_bind H. destruct v as [a l8]. inv_bind H. destruct v as [[z k3] l9]. inv_bind H. apply ok_inj, pair_equal_spec in H as [HE _]. apply pair_equal_spec in HE as [<- _].
  cbn [cd_code cd_attrs cd_stack cd_locals cd_catches]. split; [|split; [|split; [exact Hsk|split; [exact Hlo|]]]].
  - apply insert_all_Forall; [|exact (n_insns _ _ _ _ _ _ Hbody E3)]. eapply y_add_labels; [| |exact E8]; [intros x; exact I|].
    clear. induction (z_lines z) as [|[i x] ls IH]; cbn [map]; constructor; auto. cbn [snd]. repeat constructor.
  - apply Forall_app. split; [eapply n_kattrs; [|exact E7]; constructor|]. destruct (z_vars z); repeat constructor.
  - apply stimes_len in E5. rewrite E5, Z2Nat.id; [apply Hm|unfold u16 in Hm; lia].
Qed.

(** Code that was read, and is tidy and linked, is well formed. *)
Theorem read_code_wf md' heap s l k s1 l1 : bytes l -> rd_code md p s l = Ok ((k, s1), l1) -> tidy_code k -> linked heap k ->
  wf_code (wenv_class md' heap) k /\ in_range (cd_code k) /\ code_readable k.
Proof.
  intros Hl H (T1 & T2 & T3 & T4 & T5) HL. destruct (code_attrs_wf md p Hp (wenv_class md' heap) _ _ _ _ _ Hl H (proj1 T2)) as [T7 T6]. destruct (n_code _ _ _ _ _ Hl H) as (N1 & N2 & N3 & N4 & N5).
  destruct (C55_labels _ _ _ _ _ _ _ Hl H) as (? & ? & ? & ? & ? & HX). cbv zeta in HX. destruct HX as (_ & _ & _ & _ & _ & HN & _ & _ & HU).
  assert (HT : forall i, In i (cd_code k) -> incl (targets i) (labels_in (cd_code k))).
  { intros i Hi y Hy. apply HU. unfold labels_used. apply in_or_app. left. apply in_flat_map. eauto. }
  assert (HR : forall i, In i (cd_code k) -> most_bytes i <= 65535).
  { destruct T2 as [T2 _]. clear - T2. intros i Hi.
    assert (HP : forall i, 0 <= most_bytes i) by (intros []; cbn; try lia; try (pose proof (len_nonneg table); lia); try (pose proof (len_nonneg ls); lia); try (destruct c; lia); unfold len; lia).
    assert (HQ : forall is, 0 <= room is) by (induction is as [|j is IH]; cbn; [lia|pose proof (HP j); lia]).
    induction (cd_code k) as [|j is IH]; [destruct Hi|]. cbn [room] in T2. pose proof (HP j). pose proof (HQ is). destruct Hi as [->|Hi]; [lia|apply IH; [lia|exact Hi]]. }
  split; [|split; [exact T2|]].
  - split; [exact N3|]. split; [exact N4|]. split; [|split; [exact N5|split; [|split; [exact T4|]]]].
    + split; [exact HN|]. apply Forall_forall. intros i Hi. rewrite Forall_forall in T1, N1. specialize (T1 i Hi). specialize (N1 i Hi). specialize (HR i Hi). specialize (HT i Hi).
      assert (HD : forall d, In d (insn_dyns i) -> heap (d_cell d) <> None) by (intros d Hd; apply HL; unfold code_dyns; apply in_flat_map; eauto). cbn [we_heap wenv_class].
      assert (HO : forall A (P : A -> Prop) o, tidy_or P o -> (forall d, In d (dyn_of o) -> heap (d_cell d) <> None) -> wf_or P heap o).
      { intros A P [d|a] Ho Hd; [|exact Ho]. destruct Ho as (O1 & O2 & O3). split; [|exact O3]. split; [apply Hd; left; reflexivity|auto]. }
      split; [|split; [|split; [|exact HT]]].
      * destruct i; cbn [tidy_insn wf_insn n_insn insn_dyns] in *; auto; try contradiction;
        try (destruct c as [d|c]; [contradiction|]; exact (N1 T1)); try (apply HO; assumption); try (split; [apply HO; assumption|exact N1]).
        -- apply HO; [|exact HD]. destruct o, k0; auto; contradiction.
        -- destruct T1 as (O1 & O2 & O3). split; [|exact O3]. split; [apply HD; left; reflexivity|auto].
      * destruct i; cbn [tidy_insn sound] in *; auto. destruct o; [exact I|]. destruct k0; auto.
      * destruct i; cbn [tidy_insn wf_switch n_insn most_bytes] in *; auto.
        -- unfold i32 in N1. lia.
        -- split; [apply N1|]. split; [apply N1|lia].
    + apply Forall_forall. intros h Hh. rewrite Forall_forall in T3. specialize (T3 h Hh).
      assert (HC : incl (catch_labels h) (labels_in (cd_code k))).
      { intros y Hy. apply HU. unfold labels_used. apply in_or_app. right. apply in_or_app. left. apply in_flat_map. eauto. }
      unfold wf_catch. split; [|split; [|split; [|exact T3]]]; apply HC; cbn; auto.
    + apply Forall_forall. intros a Ha. rewrite Forall_forall in T5, T7, N2. specialize (T5 a Ha). specialize (T7 a Ha T5). specialize (N2 a Ha). destruct a; try exact T7. split; [exact T5|exact N2].
  - split; [exact T6|]. eapply Forall_impl; [|exact T1]. intros i Hi Hr. destruct i; cbn [tidy_insn readable real realb] in *; auto; try discriminate; try contradiction.
    all: try (repeat match goal with |- match ?x with _ => _ end => destruct x end; auto; try discriminate; contradiction).
Qed.
End Pool.
