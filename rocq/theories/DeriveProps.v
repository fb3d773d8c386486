(** C89: what the derive macros generate. *)
From Coq Require Import Lia Sorted String.
From Verif Require Import Base BaseLemmas PrimModel PrimProofs CpModel InsnModel DeriveModel.

(** A value is read back by a codec: [grows] says that one state of the writer's
    pool comes after another, [holds w r] that the reader's pool has what the
    writer had put into its pool. *)
Definition pools {W R : Type} (grows : W -> W -> Prop) (holds : W -> R -> Prop) : Prop :=
  (forall w, grows w w) /\ (forall w1 w2 w3, grows w1 w2 -> grows w2 w3 -> grows w1 w3) /\
  (forall w1 w2 r, grows w1 w2 -> holds w2 r -> holds w1 r).
Definition reads_back {W R V A : Type} (grows : W -> W -> Prop) (holds : W -> R -> Prop)
    (write : V -> W -> res (list Z * W)) (read : R -> list Z -> res ((A * R) * list Z)) (x : V) (y : A) : Prop :=
  forall w b w', write x w = Ok (b, w') -> grows w w' /\
    forall r rest, holds w' r -> exists r', read r (b ++ rest) = Ok ((y, r'), rest) /\ (forall w0, holds w0 r -> holds w0 r').
Definition field_back {W R V} (grows : W -> W -> Prop) (holds : W -> R -> Prop) (c : codec W R V) (x : V) : Prop :=
  reads_back grows holds (fw c) (fr c) x x.

(** * Structs *)
Theorem C89_struct : forall (W R V : Type) grows holds (fs : list (codec W R V)) xs, pools grows holds ->
  Forall2 (field_back grows holds) fs xs -> reads_back grows holds (wr_fields fs) (rd_fields fs) xs xs.
Proof.
  intros W R V grows holds fs xs (HR & HT & HA) H. induction H as [|f x fs xs Hf _ IH]; intros w b w' Hw; cbn [wr_fields] in Hw.
  - injection Hw as <- <-. split; [apply HR|]. intros r rest _. exists r. split; [reflexivity|auto].
  - inv_bind Hw. destruct v as [b1 w1]. cbn [bind] in Hw. inv_bind Hw. destruct v as [b2 w2]. injection Hw as <- <-.
    destruct (Hf _ _ _ E) as [G1 B1]. destruct (IH _ _ _ E0) as [G2 B2]. split; [eauto|]. intros r rest Hr.
    destruct (B1 r (b2 ++ rest) (HA _ _ _ G2 Hr)) as (r1 & R1 & K1). destruct (B2 r1 rest (K1 _ Hr)) as (r2 & R2 & K2).
    exists r2. cbn [rd_fields]. rewrite <- app_assoc, R1. cbn [bind]. rewrite R2. cbn [bind]. auto.
Qed.
Print Assumptions C89_struct.

(** * Tagged enums *)
Lemma derive_tags_len d ds : List.length (derive_tags_from d ds) = List.length ds.
Proof. revert d. induction ds as [|o ds IH]; intros d; cbn [derive_tags_from List.length]; auto. Qed.
Lemma arm_first {W R V} t ts (vs : list (variant W R V)) : forall k0 k v,
  nth_error ts k = Some t -> nth_error vs k = Some v -> (forall j, (j < k)%nat -> nth_error ts j <> Some t) -> arm t k0 ts vs = Some ((k0 + k)%nat, v).
Proof.
  revert vs. induction ts as [|t' ts IH]; intros vs k0 k v Ht Hv Hf; [destruct k; discriminate|]. destruct vs as [|v' vs]; [destruct k; discriminate|].
  cbn [arm]. destruct k as [|k]; cbn in Ht, Hv.
  - injection Ht as ->. injection Hv as ->. rewrite Z.eqb_refl. f_equal. f_equal. lia.
  - destruct (Z.eqb_spec t t') as [->|]; [destruct (Hf 0%nat); [lia|reflexivity]|]. rewrite (IH vs (S k0) k v Ht Hv).
    + f_equal. f_equal. lia.
    + intros j Hj. apply (Hf (S j)). lia.
Qed.
Lemma arm_some {W R V} t ts (vs : list (variant W R V)) : forall k0 k v, arm t k0 ts vs = Some (k, v) ->
  (k0 <= k)%nat /\ nth_error ts (k - k0) = Some t /\ nth_error vs (k - k0) = Some v /\ (forall j, (j < k - k0)%nat -> nth_error ts j <> Some t).
Proof.
  revert vs. induction ts as [|t' ts IH]; intros vs k0 k v H; [discriminate|]. destruct vs as [|v' vs]; [discriminate|]. cbn [arm] in H.
  destruct (Z.eqb_spec t t') as [->|Hn].
  - injection H as <- <-. rewrite Nat.sub_diag. repeat split; auto. intros j Hj. lia.
  - apply IH in H as (H1 & H2 & H3 & H4). replace (k - k0)%nat with (S (k - S k0)) by lia. split; [lia|]. split; [exact H2|]. split; [exact H3|].
    intros [|j] Hj; cbn; [congruence|]. apply H4. lia.
Qed.

(** A value of a variant whose tag is no earlier variant's: its fields decide. *)
Theorem C89_enum : forall (W R V : Type) grows holds n (vs : list (variant W R V)) k v t xs, pools grows holds ->
  nth_error vs k = Some v -> nth_error (tags_of vs) k = Some t -> 0 <= t < 256 ^ Z.of_nat n ->
  (forall j, (j < k)%nat -> nth_error (tags_of vs) j <> Some t) ->
  Forall2 (field_back grows holds) (v_fields v) xs -> reads_back grows holds (wr_enum n vs) (rd_enum n vs) (k, xs) (k, xs).
Proof.
  intros W R V grows holds n vs k v t xs HP Hv Ht Hr Hf HF w b w' Hw. unfold wr_enum in Hw. cbn [fst snd] in Hw. rewrite Hv, Ht in Hw.
  inv_bind Hw. destruct v0 as [b1 w1]. injection Hw as <- <-. destruct (C89_struct _ _ _ _ _ _ _ HP HF _ _ _ E) as [G B]. split; [exact G|].
  intros r rest Hh. destruct (B r rest Hh) as (r' & R1 & K). exists r'. split; [|exact K]. unfold rd_enum. rewrite <- app_assoc, rd_u_be by exact Hr. cbn [bind].
  rewrite (arm_first _ _ _ 0%nat k v Ht Hv Hf). cbn [Nat.add]. rewrite R1. reflexivity.
Qed.
Corollary C89_distinct : forall (W R V : Type) grows holds n (vs : list (variant W R V)), pools grows holds ->
  NoDup (tags_of vs) -> Forall (fun t => 0 <= t < 256 ^ Z.of_nat n) (tags_of vs) ->
  forall k v xs, nth_error vs k = Some v -> Forall2 (field_back grows holds) (v_fields v) xs ->
  reads_back grows holds (wr_enum n vs) (rd_enum n vs) (k, xs) (k, xs).
Proof.
  intros W R V grows holds n vs HP HN HF k v xs Hv Hx.
  assert (Hk : (k < List.length (tags_of vs))%nat).
  { unfold tags_of, derive_tags. rewrite derive_tags_len, map_length. apply nth_error_Some. congruence. }
  destruct (nth_error (tags_of vs) k) as [t|] eqn:Ht; [|apply nth_error_Some in Hk; congruence].
  eapply C89_enum; eauto.
  - rewrite Forall_forall in HF. apply HF. eapply nth_error_In; eauto.
  - intros j Hj E. rewrite NoDup_nth_error in HN. assert (j = k); [|lia]. apply HN; [lia|congruence].
Qed.
Print Assumptions C89_enum.
Print Assumptions C89_distinct.
Example C89_distinct_ex : let one (_ _ : unit) := True in pools one one /\ NoDup (tags_of raw_decl) /\
  Forall (fun t => 0 <= t < 256 ^ Z.of_nat 1) (tags_of raw_decl) /\ Forall2 (field_back one one) [c_u16; c_u16] [VN 5; VN 6].
Proof.
  cbn zeta. split; [repeat split|]. split; [vm_compute; repeat constructor; cbn; intuition discriminate|].
  split; [vm_compute; repeat constructor; discriminate|].
  assert (HF : forall x, u16 x -> field_back (fun _ _ => True) (fun _ _ => True) c_u16 (VN x)).
  { intros x Hx w b w' H. cbn in H. injection H as <- <-. split; [exact I|]. intros r rest _. exists r. split; [|auto]. unfold c_u16, num. cbn [fr].
    change [_; _] with (be 2 x). rewrite rd_u16_be by exact Hx. reflexivity. }
  apply Forall2_cons; [apply HF; unfold u16; lia|]. apply Forall2_cons; [apply HF; unfold u16; lia|constructor].
Qed.

(** Nothing checks that tags are distinct.  What is written for a variant with
    the tag of an earlier one is never read as that variant. *)
Theorem C89_shadowed_refuted : forall (W R V : Type) n (vs : list (variant W R V)) j k t xs w b w',
  (j < k)%nat -> nth_error (tags_of vs) j = Some t -> nth_error (tags_of vs) k = Some t -> 0 <= t < 256 ^ Z.of_nat n ->
  wr_enum n vs (k, xs) w = Ok (b, w') ->
  forall r rest ys r' rest', rd_enum n vs r (b ++ rest) <> Ok (((k, ys), r'), rest').
Proof.
  intros W R V n vs j k t xs w b w' Hj Htj Htk Hr Hw r rest ys r' rest' H. unfold wr_enum in Hw. cbn [fst snd] in Hw. rewrite Htk in Hw.
  destruct (nth_error vs k) as [v|]; [|discriminate]. inv_bind Hw. destruct v0 as [b1 w1]. injection Hw as <- <-.
  unfold rd_enum in H. rewrite <- app_assoc, rd_u_be in H by exact Hr. cbn [bind] in H. destruct (arm t 0 (tags_of vs) vs) as [[k' v']|] eqn:EA; [|discriminate].
  apply arm_some in EA as (_ & _ & _ & HF). inv_bind H. destruct v0 as [[ys' r1] l1]. injection H as -> _ _ _. apply (HF j); [lia|exact Htj].
Qed.
(** So an explicit tag that runs into the numbering breaks it: [A, B,
    #[coffer(tag = 1)] C]. *)
Example C89_shadowed_ex : derive_tags [None; None; Some 1] = [0; 1; 1].
Proof. reflexivity. Qed.
Print Assumptions C89_shadowed_refuted.

(** The numbering is right as long as explicit tags go up. *)
Definition rising (ds : list (option Z)) : Prop :=
  forall i t, nth_error ds i = Some (Some t) -> Forall (fun t' => t' < t) (firstn i (derive_tags ds)).
Lemma rising_from ds : forall d, (forall i t, nth_error ds i = Some (Some t) -> d <= t /\ Forall (fun t' => t' < t) (firstn i (derive_tags_from d ds))) ->
  Forall (fun t => d <= t) (derive_tags_from d ds) /\ StronglySorted Z.lt (derive_tags_from d ds).
Proof.
  induction ds as [|o ds IH]; intros d H; cbn [derive_tags_from]; [split; constructor|].
  assert (Hd : d <= match o with Some t => t | None => d end) by (destruct o as [t|]; [apply (H 0%nat t eq_refl)|lia]).
  set (a := match o with Some t => t | None => d end) in *.
  destruct (IH (a + 1)) as [H1 H2].
  - intros i t Hi. destruct (H (S i) t Hi) as [_ HF]. cbn [derive_tags_from firstn] in HF. fold a in HF.
    inversion HF as [|? ? H3 H4]; subst. split; [lia|exact H4].
  - split; constructor; auto.
    + eapply Forall_impl; [|exact H1]. cbn. lia.
    + eapply Forall_impl; [|exact H1]. cbn. lia.
Qed.
Theorem C89_rising : forall ds, (forall t, In (Some t) ds -> 0 <= t) -> rising ds -> StronglySorted Z.lt (derive_tags ds) /\ NoDup (derive_tags ds).
Proof.
  intros ds Hp H. assert (HS : StronglySorted Z.lt (derive_tags ds)).
  { apply rising_from. intros i t Hi. split; [apply Hp; eapply nth_error_In; eauto|apply H, Hi]. }
  split; [exact HS|]. clear -HS. induction HS as [|a l _ IH HF]; constructor; auto. intros Hi. rewrite Forall_forall in HF. specialize (HF a Hi). lia.
Qed.
Example C89_rising_ex : rising (Some 1 :: Some 3 :: repeat None 9 ++ Some 15 :: repeat None 5).
Proof.
  intros i t H. do 17 (destruct i as [|i]; [cbn in H; try discriminate H; injection H as <-; vm_compute; repeat constructor|]). cbn in H. destruct i; discriminate.
Qed.
Print Assumptions C89_rising.

(** All tagged enums of the crate have distinct tags that fit. *)
Theorem C89_crate : Forall (fun e => NoDup (derive_tags (snd e)) /\ Forall (fun t => 0 <= t < 256 ^ Z.of_nat (snd (fst e))) (derive_tags (snd e))) crate_enums.
Proof.
  assert (HS : forall l, (forallb (fun p => fst p <? snd p) (combine l (tl l)) = true) -> NoDup l).
  { intros l H. assert (StronglySorted Z.lt l).
    { apply Sorted_StronglySorted; [exact Z.lt_trans|]. induction l as [|a l IH]; [constructor|]. destruct l as [|b l]; [repeat constructor|].
      cbn in H. apply andb_prop in H as [H1 H2]. constructor; [apply IH, H2|]. constructor. apply Z.ltb_lt, H1. }
    induction H0 as [|a l' _ IH HF]; constructor.
    - intros Hi. rewrite Forall_forall in HF. specialize (HF a Hi). lia.
    - apply IH. destruct l'; [reflexivity|]. cbn in H. apply andb_prop in H as [_ H]. exact H. }
  assert (HB : forall n l, forallb (fun t => (0 <=? t) && (t <? n)) l = true -> Forall (fun t => 0 <= t < n) l).
  { intros n l H. apply Forall_forall. intros t Ht. rewrite forallb_forall in H. specialize (H t Ht). apply andb_prop in H as [H1 H2].
    apply Z.leb_le in H1. apply Z.ltb_lt in H2. lia. }
  repeat (apply Forall_cons; [split; [apply HS|apply HB]; vm_compute; reflexivity|]). apply Forall_nil.
Qed.
Print Assumptions C89_crate.

(** A tag that is not in the list is [Invalid]. *)
Theorem C89_unknown : forall (W R V : Type) n (vs : list (variant W R V)) t r rest, 0 <= t < 256 ^ Z.of_nat n -> ~ In t (tags_of vs) ->
  rd_enum n vs r (be n t ++ rest) = Err EInvalid.
Proof.
  intros W R V n vs t r rest Ht Hn. unfold rd_enum. rewrite rd_u_be by exact Ht. cbn [bind].
  destruct (arm t 0 (tags_of vs) vs) as [[k v]|] eqn:E; [|reflexivity]. apply arm_some in E as (_ & E & _). apply nth_error_In in E. contradiction.
Qed.
Example C89_unknown_ex : ~ In 2 (derive_tags (Some 1 :: Some 3 :: repeat None 9 ++ Some 15 :: repeat None 5)).
Proof. vm_compute. intuition discriminate. Qed.
Print Assumptions C89_unknown.

(** * The models of two enums are what the macro makes of their declarations *)
Definition raw_val (e : raw_entry) : nat * list val :=
  match e with
  | RWtf8 s => (0, [VS s]) | RInt i => (1, [VN i]) | RFloat b => (2, [VN b]) | RLong i => (3, [VN i]) | RDouble b => (4, [VN b])
  | RClass a => (5, [VN a]) | RString a => (6, [VN a]) | RField a b => (7, [VN a; VN b]) | RMethod a b => (8, [VN a; VN b])
  | RItfMethod a b => (9, [VN a; VN b]) | RNameType a b => (10, [VN a; VN b]) | RMHandle a b => (11, [VN a; VN b])
  | RMType a => (12, [VN a]) | RDynamic a b => (13, [VN a; VN b]) | RInvokeDynamic a b => (14, [VN a; VN b])
  | RModule a => (15, [VN a]) | RPackage a => (16, [VN a])
  end%nat.
Definition wide_val (x : wide) : nat * list val :=
  match x with
  | WILoad a => (0, [VN a]) | WLLoad a => (1, [VN a]) | WFLoad a => (2, [VN a]) | WDLoad a => (3, [VN a]) | WALoad a => (4, [VN a])
  | WIStore a => (5, [VN a]) | WLStore a => (6, [VN a]) | WFStore a => (7, [VN a]) | WDStore a => (8, [VN a]) | WAStore a => (9, [VN a])
  | WIInc a b => (10, [VN a; VN b]) | WRet a => (11, [VN a])
  end%nat.
Ltac readers := repeat match goal with
  | |- context [rd_u8 ?l] => destruct (rd_u8 l) as [[? ?]| |]; cbn [bind]
  | |- context [rd_u16 ?l] => destruct (rd_u16 l) as [[? ?]| |]; cbn [bind]
  | |- context [rd_i16 ?l] => destruct (rd_i16 l) as [[? ?]| |]; cbn [bind]
  | |- context [rd_i32 ?l] => destruct (rd_i32 l) as [[? ?]| |]; cbn [bind]
  | |- context [rd_f32 ?l] => destruct (rd_f32 l) as [[? ?]| |]; cbn [bind]
  | |- context [rd_i64 ?l] => destruct (rd_i64 l) as [[? ?]| |]; cbn [bind]
  | |- context [rd_f64 ?l] => destruct (rd_f64 l) as [[? ?]| |]; cbn [bind]
  | |- context [rd_string ?l] => destruct (rd_string l) as [[? ?]| |]; cbn [bind]
  end; reflexivity.
Theorem C89_raw_entry :
  (forall e, wr_enum 1 raw_decl (raw_val e) tt = (b <- wr_raw e ;; Ok (b, tt))) /\
  (forall l, rd_enum 1 raw_decl tt l = ('(e, l) <- rd_raw l ;; Ok ((raw_val e, tt), l))).
Proof.
  split.
  - intros []; unfold wr_enum, wr_raw; cbn [raw_val fst snd nth_error raw_decl at_tag next v_fields wr_fields fw txt c_u8 c_u16 c_i32 c_f32 c_i64 c_f64 num wr_n bind app];
      try (destruct (wr_string s); cbn; rewrite ?app_nil_r; reflexivity); cbn [tags_of derive_tags derive_tags_from map declared v_tag v_disc raw_tag]; rewrite ?app_nil_r; reflexivity.
  - intros l. unfold rd_enum, rd_raw. change (rd_u 1) with rd_u8. destruct (rd_u8 l) as [[t l1]| |]; [|reflexivity..]. cbn [bind].
    change (tags_of raw_decl) with [1; 3; 4; 5; 6; 7; 8; 9; 10; 11; 12; 15; 16; 17; 18; 19; 20]. unfold raw_decl. cbn [arm].
    repeat match goal with |- context [t =? ?k] => destruct (t =? k) end; cbn [at_tag next v_fields rd_fields]; unfold rd_1, rd_2;
      cbn [fr txt c_u8 c_u16 c_i32 c_f32 c_i64 c_f64 num]; readers.
Qed.
Theorem C89_wide :
  (forall x, wr_enum 1 wide_decl (wide_val x) tt = Ok (wr_wide x, tt)) /\
  (forall l, bytes l -> rd_enum 1 wide_decl tt l = ('(e, l) <- rd_wide l ;; Ok ((wide_val e, tt), l))).
Proof.
  split.
  - intros []; reflexivity.
  - intros l Hl. unfold rd_enum, rd_wide. change (rd_u 1) with rd_u8. destruct l as [|t l]; [reflexivity|].
    inversion Hl as [|? ? Ht _]; subst. assert (E : rd_u8 (t :: l) = Ok (t, l)).
    { pose proof (rd_u8_be t l Ht) as H. cbn [be app] in H. change (256 ^ Z.of_nat 0) with 1 in H. rewrite Z.div_1_r, Z.mod_small in H by exact Ht. exact H. }
    rewrite E. cbn [bind]. clear E Hl.
    change (tags_of wide_decl) with [21; 22; 23; 24; 25; 54; 55; 56; 57; 58; 132; 169]. unfold wide_decl. cbn [arm].
    repeat match goal with |- context [t =? ?k] => destruct (Z.eqb_spec t k) as [->|] end;
      try (cbn [at_tag next v_fields rd_fields]; cbn [fr c_u16 c_i16 num]; readers).
    match goal with |- _ = bind ?m _ => assert (m = Err EInvalid) as ->; [|reflexivity] end.
    unfold u8 in Ht. repeat match goal with
      | |- context [match ?t with _ => _ end] => is_var t; destruct t; try lia; try reflexivity
      end.
Qed.
Print Assumptions C89_raw_entry.
Print Assumptions C89_wide.

(** * C90: attribute enums *)

(** With the raw variant last, every other variant is read as it is written. *)
Lemma with_own {A C} (fs : list (afield A C)) : with_config fs fs = Some (map (fun f => af_codec f (af_as f)) fs).
Proof. induction fs as [|f fs IH]; cbn [with_config map]; [reflexivity|]. rewrite IH. reflexivity. Qed.
Theorem C90_raw_last_partial : forall (A C : Type) raw (vs : list (list (afield A C))) i, S raw = List.length vs -> (i < raw)%nat ->
  read_codecs raw vs i = write_codecs vs i /\ read_codecs raw vs i <> None.
Proof.
  intros A C raw vs i Hr Hi. unfold read_codecs, write_codecs. destruct (Nat.ltb_spec i raw); [|lia].
  destruct (nth_error vs i) as [fs|] eqn:E; [|apply nth_error_None in E; lia]. rewrite with_own. split; [reflexivity|discriminate].
Qed.
Example C90_last_ex : let f := {| af_as := Some 16; af_codec := fun o => match o with Some n => n | None => 0 end |} in
  let raw := {| af_as := None; af_codec := fun _ => 0 |} in
  read_codecs 1 [[f]; [raw]] 0 = Some [16] /\ write_codecs [[f]; [raw]] 0 = Some [16].
Proof. split; reflexivity. Qed.
Theorem C90_crate : Forall (fun e => S (snd e) = snd (fst e)) crate_attr_enums.
Proof. repeat constructor. Qed.
(** Otherwise a variant behind it is read with the [as] of the variant in front
    of it (or of the raw one, which has none). *)
Theorem C90_refuted : forall (A C : Type) raw (vs : list (list (afield A C))) i f g, (raw < i)%nat ->
  nth_error vs i = Some [f] -> nth_error vs (i - 1) = Some [g] -> af_codec f (af_as f) <> af_codec f (af_as g) ->
  read_codecs raw vs i = Some [af_codec f (af_as g)] /\ read_codecs raw vs i <> write_codecs vs i.
Proof.
  intros A C raw vs i f g Hi Hf Hg Hn. unfold read_codecs, write_codecs. destruct (Nat.ltb_spec i raw); [lia|]. rewrite Hf, Hg. cbn.
  split; [reflexivity|congruence].
Qed.
(** For instance a vector with a 16-bit count ([as = "h::Vec16"]) declared
    behind the raw variant. *)
Example C90_refuted_ex : let f := {| af_as := Some 16; af_codec := fun o => match o with Some n => n | None => 0 end |} in
  let raw := {| af_as := None; af_codec := fun _ => 0 |} in
  read_codecs 0 [[raw]; [f]] 1 = Some [0] /\ write_codecs [[raw]; [f]] 1 = Some [16].
Proof. split; reflexivity. Qed.
Print Assumptions C90_raw_last_partial.
Print Assumptions C90_crate.
Print Assumptions C90_refuted.
