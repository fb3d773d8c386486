(** Lemmas about annotations. *)
From Verif Require Import Base BaseLemmas Wtf8Spec PrimModel PrimProofs TypeModel TypeSpec TypeProofs
  TypeProofs2 CpModel CpSpec CpProofs AnnModel AnnSpec.

Lemma Forall2_impl {A B} (R R' : A -> B -> Prop) l l' :
  (forall a b, R a b -> R' a b) -> Forall2 R l l' -> Forall2 R' l l'.
Proof. intros H. induction 1; auto. Qed.

Section AvalInd.
Variable P : aval -> Prop.
Hypothesis HByte : forall x, P (VByte x).
Hypothesis HChar : forall x, P (VChar x).
Hypothesis HDouble : forall x, P (VDouble x).
Hypothesis HFloat : forall x, P (VFloat x).
Hypothesis HInt : forall x, P (VInt x).
Hypothesis HLong : forall x, P (VLong x).
Hypothesis HShort : forall x, P (VShort x).
Hypothesis HBool : forall x, P (VBoolean x).
Hypothesis HString : forall x, P (VString x).
Hypothesis HEnum : forall t n, P (VEnum t n).
Hypothesis HClass : forall t, P (VClass t).
Hypothesis HAnn : forall t vs, Forall (fun kv => P (snd kv)) vs -> P (VAnnotation t vs).
Hypothesis HArr : forall vs, Forall P vs -> P (VArray vs).
Fixpoint aval_ind' (v : aval) : P v :=
  match v with
  | VByte x => HByte x | VChar x => HChar x | VDouble x => HDouble x | VFloat x => HFloat x
  | VInt x => HInt x | VLong x => HLong x | VShort x => HShort x | VBoolean x => HBool x
  | VString x => HString x | VEnum t n => HEnum t n | VClass t => HClass t
  | VAnnotation t vs => HAnn t vs
      ((fix go vs : Forall (fun kv => P (snd kv)) vs :=
          match vs with
          | [] => Forall_nil _
          | kv :: vs => Forall_cons kv (aval_ind' (snd kv)) (go vs)
          end) vs)
  | VArray vs => HArr vs
      ((fix go vs : Forall P vs :=
          match vs with
          | [] => Forall_nil _
          | v :: vs => Forall_cons v (aval_ind' v) (go vs)
          end) vs)
  end.
End AvalInd.

(** ** Writing *)
Lemma wr_cint_ok : wr_ok wr_cint (fun _ => i32) (fmt_pidx (fun p i x => is_constant p i (KI32 x))).
Proof. apply wr_idx_ok. intros E x w Hx Hi. apply (ins_raw_ok E (RInt x)); auto. Qed.
Lemma wr_clong_ok : wr_ok wr_clong (fun _ => i64) (fmt_pidx (fun p i x => is_constant p i (KI64 x))).
Proof. apply wr_idx_ok. intros E x w Hx Hi. apply (ins_raw_ok E (RLong x)); auto. Qed.
Lemma wr_cfloat_ok : wr_ok wr_cfloat (fun _ => u32) (fmt_pidx (fun p i x => is_constant p i (KF32 x))).
Proof. apply wr_idx_ok. intros E x w Hx Hi. apply (ins_raw_ok E (RFloat x)); auto. Qed.
Lemma wr_cdouble_ok : wr_ok wr_cdouble (fun _ => u64) (fmt_pidx (fun p i x => is_constant p i (KF64 x))).
Proof. apply wr_idx_ok. intros E x w Hx Hi. apply (ins_raw_ok E (RDouble x)); auto. Qed.

Lemma wr_tagged_ok {A} tag (f : cwr A) P F (G : world -> list Z -> Prop) E a w :
  wr_ok f P F -> P E a -> w_inv w -> 0 <= tag < 256 ->
  (forall W i, F W a i -> G W ([tag] ++ i)) ->
  post E w (fun bs w' => later E w' (fun W => G W bs)) (wr_tagged tag f E a w).
Proof.
  intros Hf HP Hi Ht HG. unfold wr_tagged. eapply post_bind; [apply Hf; auto|].
  cbn beta. intros b w1 _ Hi1 H. apply post_ret; auto. eapply later_mono; [|exact H].
  cbn beta. intros W _ HF. rewrite be1_u1. unfold u1. rewrite Z.mod_small by lia. auto.
Qed.

Definition ok_aval (v : aval) : Prop := wf_aval v -> forall E w, w_inv w ->
  post E w (fun bs w' => later E w' (fun W => fmt_aval W v bs)) (wr_aval E v w).

Lemma jstr_V : jstr s_V.
Proof.
  exists [86]. split.
  - split; [|reflexivity]. split; [repeat constructor; lia|]. cbn. auto.
  - vm_compute. discriminate.
Qed.

Lemma wr_vals_with_ok vs E w :
  Forall (fun kv : list Z * aval => ok_aval (snd kv)) vs -> wf_vals vs -> w_inv w ->
  post E w (fun bs w' => later E w' (fun W => fmt_avals W vs bs)) (wr_vals_with wr_aval E vs w).
Proof.
  intros Hok (Hl & _ & Hwf) Hi. unfold wr_vals_with.
  eapply post_bind.
  { eapply (wr_each_ok _ (fun _ kv => ok_aval (snd kv) /\ jstr (fst kv) /\ wf_aval (snd kv))
      (fun W (kv : list Z * aval) bs => exists i b, bs = i ++ b /\ fmt_utf8 W (fst kv) i /\ fmt_aval W (snd kv) b)); [|
      |exact Hi].
    - intros E' [k v] w' (Hg & Hk & Hv) Hi'. cbn [fst snd] in *.
      eapply post_bind; [apply wr_cow_ok; auto|]. cbn beta. intros a w1 Hl1 Hi1 H1.
      eapply post_bind; [apply Hg; auto|]. cbn beta. intros b w2 Hl2 Hi2 H2.
      apply post_ret; auto. pose proof (later_le _ _ _ _ Hl2 H1) as H1'.
      eapply later_mono; [|apply (later_and _ _ _ _ H1' H2)]. cbn beta. intros W _ [Ha Hb]. eauto.
    - rewrite Forall_forall in *. intros kv Hin. split; auto. }
  cbn beta. intros bs w1 Hl1 Hi1 H. apply post_ret; auto. eapply later_mono; [|exact H].
  cbn beta. intros W _ (bss & -> & HB). rewrite be2_u2. constructor; auto.
Qed.

Lemma wr_aval_all v : ok_aval v.
Proof.
  induction v using aval_ind'; intros Hwf E w Hi; inversion Hwf; subst; cbn [wr_aval].
  - apply (wr_tagged_ok 66 _ _ _ _ _ _ _ wr_cint_ok); auto; [unfold i8, i32 in *; lia|lia|intros; constructor; auto].
  - apply (wr_tagged_ok 67 _ _ _ _ _ _ _ wr_cint_ok); auto; [unfold u16, i32 in *; lia|lia|intros; constructor; auto].
  - apply (wr_tagged_ok 68 _ _ _ _ _ _ _ wr_cdouble_ok); auto; [lia|intros; constructor; auto].
  - apply (wr_tagged_ok 70 _ _ _ _ _ _ _ wr_cfloat_ok); auto; [lia|intros; constructor; auto].
  - apply (wr_tagged_ok 73 _ _ _ _ _ _ _ wr_cint_ok); auto; [lia|intros; constructor; auto].
  - apply (wr_tagged_ok 74 _ _ _ _ _ _ _ wr_clong_ok); auto; [lia|intros; constructor; auto].
  - apply (wr_tagged_ok 83 _ _ _ _ _ _ _ wr_cint_ok); auto; [unfold i16, i32 in *; lia|lia|intros; constructor; auto].
  - apply (wr_tagged_ok 90 _ _ _ _ _ _ _ wr_cint_ok); auto; [destruct x; unfold i32; lia|lia|].
    destruct x; intros; constructor; auto.
  - apply (wr_tagged_ok 115 _ _ _ _ _ _ _ wr_cow_ok); auto; [lia|intros; constructor; auto].
  - eapply post_bind; [apply wr_type_ok; auto|]. cbn beta. intros a w1 Hl1 Hi1 H1'.
    eapply post_bind; [apply wr_cow_ok; auto|]. cbn beta. intros b w2 Hl2 Hi2 H2'.
    apply post_ret; auto. pose proof (later_le _ _ _ _ Hl2 H1') as H1''.
    eapply later_mono; [|apply (later_and _ _ _ _ H1'' H2')]. cbn beta. intros W _ [Ha Hb].
    rewrite be1_u1. constructor; auto.
  - rewrite display_desc by auto. cbn [bind].
    apply (wr_tagged_ok 99 _ _ _ _ _ _ _ wr_cow_ok); auto; [|lia|intros; constructor; auto]. apply H0.
  - cbn [bind]. apply (wr_tagged_ok 99 _ _ _ _ _ _ _ wr_cow_ok); auto; [apply jstr_V|lia|intros; constructor; auto].
  - eapply post_bind; [apply wr_type_ok; auto|]. cbn beta. intros a w1 Hl1 Hi1 H1'.
    eapply post_bind; [apply wr_vals_with_ok; auto; split; auto|]. cbn beta. intros b w2 Hl2 Hi2 H2'.
    apply post_ret; auto. pose proof (later_le _ _ _ _ Hl2 H1') as H1''.
    eapply later_mono; [|apply (later_and _ _ _ _ H1'' H2')]. cbn beta. intros W _ [Ha Hb].
    rewrite be1_u1. constructor; auto.
  - eapply post_bind.
    { eapply (wr_each_ok wr_aval (fun _ v => ok_aval v /\ wf_aval v) (fun W v bs => fmt_aval W v bs)); [|
        |exact Hi].
      - intros E' v w' [Hg Hv] Hi'. apply Hg; auto.
      - rewrite Forall_forall in *. auto. }
    cbn beta. intros bs w1 Hl1 Hi1 H'. apply post_ret; auto. eapply later_mono; [|exact H'].
    cbn beta. intros W _ (bss & -> & HB). rewrite be1_u1, be2_u2. constructor; auto.
Qed.
Lemma wr_aval_ok : wr_ok wr_aval (fun _ => wf_aval) fmt_aval.
Proof. intros E v w Hv Hi. apply wr_aval_all; auto. Qed.
Lemma wr_vals_ok : wr_ok wr_vals (fun _ => wf_vals) fmt_avals.
Proof.
  intros E vs w Hv Hi. apply wr_vals_with_ok; auto. apply Forall_forall. intros kv _. apply wr_aval_all.
Qed.
Lemma wr_annot_ok : wr_ok wr_annot (fun _ => wf_annot) fmt_annot.
Proof.
  intros E a w [Ht Hv] Hi. unfold wr_annot. eapply post_bind; [apply wr_type_ok; auto|].
  cbn beta. intros x w1 Hl1 Hi1 H1. eapply post_bind; [apply wr_vals_ok; auto|].
  cbn beta. intros y w2 Hl2 Hi2 H2. apply post_ret; auto. pose proof (later_le _ _ _ _ Hl2 H1) as H1'.
  eapply later_mono; [|apply (later_and _ _ _ _ H1' H2)]. cbn beta. intros W _ [Ha Hb].
  exists x, y. auto.
Qed.

(** ** Reading *)
Lemma rd_cint_ok : rd_ok rd_cint i32 (fmt_pidx (fun p i x => is_constant p i (KI32 x))).
Proof. apply (rd_idx_ok (fun p i => Ok (read_int p i))). intros p i x _ H. cbn in H. unfold read_int. rewrite H. auto. Qed.
Lemma rd_clong_ok : rd_ok rd_clong i64 (fmt_pidx (fun p i x => is_constant p i (KI64 x))).
Proof. apply (rd_idx_ok (fun p i => Ok (read_long p i))). intros p i x _ H. cbn in H. unfold read_long. rewrite H. auto. Qed.
Lemma rd_cfloat_ok : rd_ok rd_cfloat u32 (fmt_pidx (fun p i x => is_constant p i (KF32 x))).
Proof. apply (rd_idx_ok (fun p i => Ok (read_float p i))). intros p i x _ H. cbn in H. unfold read_float. rewrite H. auto. Qed.
Lemma rd_cdouble_ok : rd_ok rd_cdouble u64 (fmt_pidx (fun p i x => is_constant p i (KF64 x))).
Proof. apply (rd_idx_ok (fun p i => Ok (read_double p i))). intros p i x _ H. cbn in H. unfold read_double. rewrite H. auto. Qed.

Lemma rd_u8_cons t l : 0 <= t < 256 -> rd_u8 ([t] ++ l) = Ok (t, l).
Proof. intros H. replace [t] with (u1 t) by (unfold u1; rewrite Z.mod_small by lia; auto). apply rd_u8_u1. exact H. Qed.

Lemma assoc_set_fresh {V} k (v : V) m : ~ In k (map fst m) ->
  assoc_set (list_eqb Z.eqb) k v m = m ++ [(k, v)].
Proof.
  induction m as [|[k' v'] m IH]; cbn; intros H; auto.
  assert (list_eqb Z.eqb k k' = false) as ->.
  { destruct (list_eqb Z.eqb k k') eqn:E; auto. apply list_eqb_eq in E; [|apply Z.eqb_eq]. subst. tauto. }
  rewrite IH by tauto. reflexivity.
Qed.

Definition ok_rd_aval (md : mode) (W : world) (v : aval) : Prop := forall bs n rest,
  wf_aval v -> fmt_aval W v bs -> (length bs <= n)%nat -> rd_aval_n md (W_pool W) n (bs ++ rest) = Ok (v, rest).

Lemma rd_pairs_ok md W n vs bss : Forall (fun kv => ok_rd_aval md W (snd kv)) vs ->
  Forall (fun kv => jstr (fst kv) /\ wf_aval (snd kv)) vs ->
  Forall2 (fun kv bs => exists i b, bs = i ++ b /\ fmt_utf8 W (fst kv) i /\ fmt_aval W (snd kv) b) vs bss ->
  (length (concat bss) <= n)%nat ->
  forall m rest, NoDup (map fst m ++ map fst vs) ->
  rd_pairs (W_pool W) (rd_aval_n md (W_pool W) n) (length vs) m (concat bss ++ rest) = Ok (m ++ vs, rest).
Proof.
  intros Hok Hwf H2. induction H2 as [|[k v] b vs bss (i & x & -> & Hi & Hx) H2 IH]; intros Hn m rest Hd;
    cbn [length rd_pairs concat].
  - rewrite app_nil_r. reflexivity.
  - inversion Hok; subst. inversion Hwf as [|? ? [Hk Hv] Hwf']; subst. cbn [fst snd map] in *.
    cbn [concat] in Hn. rewrite !app_length in Hn.
    rewrite <- !app_assoc, (rd_cow_ok W _ _ _ Hk Hi). cbn [bind].
    rewrite H1 by (auto; lia). cbn [bind]. rewrite assoc_set_fresh.
    + rewrite IH; auto; [rewrite <- app_assoc; reflexivity|lia|].
      rewrite map_app, <- app_assoc. exact Hd.
    + apply NoDup_remove_2 in Hd. intros H. apply Hd. apply in_or_app. auto.
Qed.
Lemma rd_vals_with_ok md W n vs bs rest : Forall (fun kv => ok_rd_aval md W (snd kv)) vs -> wf_vals vs ->
  fmt_avals W vs bs -> (length bs <= n)%nat ->
  rd_vals_with (W_pool W) (rd_aval_n md (W_pool W) n) (bs ++ rest) = Ok (vs, rest).
Proof.
  intros Hok (Hl & Hd & Hwf) H Hn. inversion H; subst. unfold rd_vals_with.
  rewrite <- app_assoc, rd_u16_u2 by (unfold u16; pose proof (len_nonneg vs); lia). cbn [bind].
  unfold len. rewrite Nat2Z.id. apply (rd_pairs_ok md W n vs bss) with (m := []); auto.
  rewrite app_length in Hn. lia.
Qed.

Lemma concat_length_in {A} (bss : list (list A)) b : In b bss -> (length b <= length (concat bss))%nat.
Proof.
  induction bss as [|x bss IH]; cbn; [tauto|]. rewrite app_length. intros [->|H]; [lia|]. apply IH in H. lia.
Qed.
Lemma rd_aval_all md W v : ok_rd_aval md W v.
Proof.
  induction v using aval_ind'; intros bs fu rest Hwf Hf Hn; inversion Hf; subst; inversion Hwf; subst;
    (destruct fu as [|fu]; [cbn [app length] in Hn; lia|]); cbn [rd_aval_n];
    rewrite <- app_assoc, rd_u8_cons by lia; cbn [bind Z.eqb Pos.eqb].
  - rewrite (rd_cint_ok W x) by (auto; unfold i8, i32 in *; lia). cbn [bind in_range]. unfold i8 in *.
    assert ((-128 <=? x) && (x <=? 127) = true) as -> by lia. reflexivity.
  - rewrite (rd_cint_ok W x) by (auto; unfold u16, i32 in *; lia). cbn [bind in_range]. unfold u16 in *.
    assert ((0 <=? x) && (x <=? 65535) = true) as -> by lia. reflexivity.
  - rewrite (rd_cdouble_ok W x) by auto. reflexivity.
  - rewrite (rd_cfloat_ok W x) by auto. reflexivity.
  - rewrite (rd_cint_ok W x) by auto. reflexivity.
  - rewrite (rd_clong_ok W x) by auto. reflexivity.
  - rewrite (rd_cint_ok W x) by (auto; unfold i16, i32 in *; lia). cbn [bind in_range]. unfold i16 in *.
    assert ((-32768 <=? x) && (x <=? 32767) = true) as -> by lia. reflexivity.
  - rewrite (rd_cint_ok W 1) by (auto; unfold i32; lia). reflexivity.
  - rewrite (rd_cint_ok W 0) by (auto; unfold i32; lia). reflexivity.
  - rewrite (rd_cow_ok W x) by auto. reflexivity.
  - rewrite <- app_assoc, (rd_type_ok md W t) by auto. cbn [bind]. rewrite (rd_cow_ok W n) by auto. reflexivity.
  - rewrite (rd_cow_ok W (ty_text t0)) by (auto; apply H1). cbn [bind].
    destruct (list_eqb Z.eqb (ty_text t0) s_V) eqn:E.
    + apply list_eqb_eq in E; [|apply Z.eqb_eq]. pose proof (parse_type_text md t0 (proj1 (proj1 H1))) as Hp. rewrite E in Hp. destruct md; vm_compute in Hp; discriminate.
    + rewrite parse_type_text by apply H1. reflexivity.
  - rewrite (rd_cow_ok W [86]) by (auto; apply jstr_V). reflexivity.
  - rewrite <- app_assoc, (rd_type_ok md W t) by auto. cbn [bind].
    rewrite (rd_vals_with_ok md W fu vs bs0) by (auto; try (split; auto); cbn [app length] in Hn; rewrite app_length in Hn; lia).
    reflexivity.
  - rewrite <- app_assoc, rd_u16_u2 by (unfold u16; pose proof (len_nonneg vs); lia). cbn [bind].
    unfold len. rewrite Nat2Z.id. cbn [app length] in Hn. rewrite app_length in Hn.
    assert (Hin : forall b, In b bss -> (length b <= fu)%nat).
    { intros b Hb. apply concat_length_in in Hb. lia. }
    rewrite (rd_times_ok _ (fun v b => fmt_aval W v b /\ In b bss) vs bss); [reflexivity| |].
    + intros v b rest' Hv [Hb Hib]. rewrite Forall_forall in *. apply H; auto.
    + clear - H2. induction H2; constructor; [split; [auto|left; auto]|].
      eapply Forall2_impl; [|exact IHForall2]. intros ? ? [? ?]. split; [auto|right; auto].
Qed.
Lemma rd_aval_ok md : rd_ok (rd_aval md) wf_aval fmt_aval.
Proof.
  intros W v bs rest Hw Hf. unfold rd_aval. apply rd_aval_all; auto. rewrite app_length. lia.
Qed.
Lemma rd_vals_ok md : rd_ok (rd_vals md) wf_vals fmt_avals.
Proof.
  intros W vs bs rest Hw Hf. unfold rd_vals. apply rd_vals_with_ok; auto.
  - apply Forall_forall. intros kv _. apply rd_aval_all.
  - rewrite app_length. lia.
Qed.
Lemma rd_annot_ok md : rd_ok (rd_annot md) wf_annot fmt_annot.
Proof.
  intros W a bs rest [Ht Hv] (i & b & -> & Hi & Hb). unfold rd_annot.
  rewrite <- app_assoc, (rd_type_ok md W _ _ _ Ht Hi). cbn [bind].
  rewrite (rd_vals_ok md W _ _ _ Hv Hb). destruct a. reflexivity.
Qed.

(** ** Type annotations *)
Lemma wr_bytes_ok {A} (f : wr A) (P : A -> Prop) g : (forall a, P a -> f a = Ok (g a)) ->
  wr_ok (wr_plain f) (fun _ => P) (fmt_bytes g).
Proof. intros H. apply wr_plain_ok. intros E a Ha. exists (g a). split; [auto|]. intros W. reflexivity. Qed.
Lemma rd_bytes_ok {A} (r : rd A) (P : A -> Prop) g :
  (forall a rest, P a -> r (g a ++ rest) = Ok (a, rest)) -> rd_ok (fun _ => r) P (fmt_bytes g).
Proof. intros H W a bs rest Ha ->. auto. Qed.

Ltac target_wr := intros t Ht; destruct t;
  cbv beta iota delta [wr_class_target wr_method_target wr_field_target wr_tpath];
  rewrite ?be1_u1, ?be2_u2; reflexivity.
Lemma wr_class_target_ok : wr_ok (wr_plain wr_class_target) (fun _ => wf_class_target) (fmt_bytes class_target_bytes).
Proof. apply wr_bytes_ok. target_wr. Qed.
Lemma wr_method_target_ok : wr_ok (wr_plain wr_method_target) (fun _ => wf_method_target) (fmt_bytes method_target_bytes).
Proof. apply wr_bytes_ok. target_wr. Qed.
Lemma wr_field_target_ok : wr_ok (wr_plain wr_field_target) (fun _ _ => True) (fmt_bytes field_target_bytes).
Proof. apply wr_bytes_ok. target_wr. Qed.
Lemma wr_tpath_ok : wr_ok (wr_plain wr_tpath) (fun _ => wf_tpath) (fmt_bytes tpath_bytes).
Proof. apply wr_bytes_ok. target_wr. Qed.

Lemma rd_u8_c t l : 0 <= t < 256 -> rd_u8 (t :: l) = Ok (t, l).
Proof. apply (rd_u8_cons t l). Qed.
Lemma rd_class_target_ok : rd_ok (fun _ => rd_class_target) wf_class_target (fmt_bytes class_target_bytes).
Proof.
  apply rd_bytes_ok. intros t rest Ht. unfold rd_class_target.
  destruct t; cbn [class_target_bytes wf_class_target] in *; rewrite <- app_comm_cons, rd_u8_c by lia;
    cbn [bind Z.eqb Pos.eqb].
  - rewrite rd_u8_u1 by auto. reflexivity.
  - rewrite rd_u16_u2 by auto. reflexivity.
  - rewrite <- app_assoc, !rd_u8_u1 by tauto. cbn [bind]. rewrite !rd_u8_u1 by tauto. reflexivity.
Qed.
Lemma rd_method_target_ok : rd_ok (fun _ => rd_method_target) wf_method_target (fmt_bytes method_target_bytes).
Proof.
  apply rd_bytes_ok. intros t rest Ht. unfold rd_method_target.
  destruct t; cbn [method_target_bytes wf_method_target] in *; rewrite <- app_comm_cons, rd_u8_c by lia;
    cbn [bind Z.eqb Pos.eqb].
  - rewrite rd_u8_u1 by auto. reflexivity.
  - rewrite <- app_assoc, !rd_u8_u1 by tauto. cbn [bind]. rewrite !rd_u8_u1 by tauto. reflexivity.
  - reflexivity.
  - reflexivity.
  - rewrite rd_u8_u1 by auto. reflexivity.
  - rewrite rd_u16_u2 by auto. reflexivity.
Qed.
Lemma rd_field_target_ok : rd_ok (fun _ => rd_field_target) (fun _ => True) (fmt_bytes field_target_bytes).
Proof.
  apply rd_bytes_ok. intros [] rest _. unfold rd_field_target, field_target_bytes.
  rewrite <- app_comm_cons, rd_u8_c by lia. reflexivity.
Qed.
Lemma rd_tpath_ok : rd_ok (fun _ => rd_tpath) wf_tpath (fmt_bytes tpath_bytes).
Proof.
  apply rd_bytes_ok. intros t rest Ht. unfold rd_tpath.
  destruct t; cbn [tpath_bytes wf_tpath] in *; rewrite <- app_comm_cons, rd_u8_c by lia;
    cbn [bind Z.eqb Pos.eqb]; rewrite rd_u8_u1 by auto; reflexivity.
Qed.

Lemma wr_tannot_ok {T} (f : cwr T) (P : wenv -> T -> Prop) F : wr_ok f P F ->
  wr_ok (wr_tannot f) (fun E => wf_tannot (P E)) (fmt_tannot F).
Proof.
  intros Hf E a w (Ht & Hpl & Hp & Hty & Hv) Hi. unfold wr_tannot.
  eapply post_bind; [apply Hf; auto|]. cbn beta. intros x1 w1 Hl1 Hi1 H1.
  eapply post_bind; [apply (wr_cvec1_ok _ _ _ wr_tpath_ok); auto|]. cbn beta. intros x2 w2 Hl2 Hi2 H2.
  eapply post_bind; [apply wr_type_ok; auto|]. cbn beta. intros x3 w3 Hl3 Hi3 H3.
  eapply post_bind; [apply wr_vals_ok; auto|]. cbn beta. intros x4 w4 Hl4 Hi4 H4.
  apply post_ret; auto.
  pose proof (later_le _ _ _ _ (w_le_trans _ _ _ Hl2 (w_le_trans _ _ _ Hl3 Hl4)) H1) as H1'.
  pose proof (later_le _ _ _ _ (w_le_trans _ _ _ Hl3 Hl4) H2) as H2'.
  pose proof (later_le _ _ _ _ Hl4 H3) as H3'.
  intros Hfit Hb W Hag Hh. exists x1, x2, x3, x4. split; [auto|].
  split; [apply H1'; auto|]. split; [apply H2'; auto|]. split; [apply H3'; auto|apply H4; auto].
Qed.
Lemma rd_tannot_rest_ok {T T0} md W (t : T) (a : tannot T0) x2 x3 x4 rest :
  len (ta_path a) < 256 -> Forall wf_tpath (ta_path a) -> wf_desc (ta_type a) -> wf_vals (ta_vals a) ->
  fmt_table1 (fmt_bytes tpath_bytes) W (ta_path a) x2 -> fmt_desc W (ta_type a) x3 ->
  fmt_avals W (ta_vals a) x4 ->
  rd_tannot_rest md (W_pool W) t (x2 ++ x3 ++ x4 ++ rest)
  = Ok ({| ta_target := t; ta_path := ta_path a; ta_type := ta_type a; ta_vals := ta_vals a |}, rest).
Proof.
  intros Hpl Hp Hty Hv H2 H3 H4. unfold rd_tannot_rest.
  rewrite (rd_vec1_ok _ _ _ rd_tpath_ok W _ _ _ (conj Hpl Hp) H2). cbn [bind].
  rewrite (rd_type_ok md W _ _ _ Hty H3). cbn [bind].
  rewrite (rd_vals_ok md W _ _ _ Hv H4). reflexivity.
Qed.
Lemma rd_tannot_ok {T} md (r : rd T) (P : T -> Prop) F : rd_ok (fun _ => r) P F ->
  rd_ok (rd_tannot r md) (wf_tannot P) (fmt_tannot F).
Proof.
  intros Hr W a bs rest (Ht & Hpl & Hp & Hty & Hv) (x1 & x2 & x3 & x4 & -> & H1 & H2 & H3 & H4).
  unfold rd_tannot. rewrite <- !app_assoc, (Hr W _ _ _ Ht H1). cbn [bind].
  rewrite (rd_tannot_rest_ok md W _ a) by auto. destruct a. reflexivity.
Qed.
