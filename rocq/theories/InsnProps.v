(** Properties of single instructions: C46-C51, C60. *)
From Coq Require Import String Ascii Permutation Sorted.
From Verif Require Import Base BaseLemmas Wtf8Spec PrimModel PrimProofs TypeModel TypeSpec TypeProofs TypeProofs2 TypeProps Wtf8Model Wtf8Proofs
  CpModel CpSpec CpProofs CpProps FileSpec AttrModel AttrSpec AttrProofs AttrProps
  FrameModel FrameSpec FrameProofs FrameProps InsnModel InsnSpec InsnProofs.

(** * C46: raw instructions *)
Fixpoint index_of (n : string) (l : list string) (k : Z) : Z :=
  match l with
  | [] => -1
  | m :: l => if String.eqb (plain_name m) n then k else index_of n l (k + 1)
  end.
Lemma opcode_unique op m n : nth_error mnemonics (Z.to_nat op) = Some m -> 0 <= op -> plain_name m = plain_name n ->
  op = index_of (plain_name n) mnemonics 0.
Proof.
  intros H1 H2 <-. assert (Hl : (Z.to_nat op < length mnemonics)%nat) by (apply nth_error_Some; congruence).
  assert (H : forallb (fun k => match nth_error mnemonics k with
      Some m => Z.of_nat k =? index_of (plain_name m) mnemonics 0 | None => false end) (seq 0 (length mnemonics)) = true)
    by (vm_compute; reflexivity).
  rewrite forallb_forall in H. specialize (H (Z.to_nat op)). rewrite H1 in H. rewrite in_seq in H. specialize (H ltac:(lia)). lia.
Qed.
Lemma some_inj {A} (a b : A) : Some a = Some b -> a = b.
Proof. congruence. Qed.
(** Every JVMS encoding of a raw instruction is what the crate writes, and is
    read back. *)
Theorem C46_codec : forall md r bs rest, raw_fmt r bs -> len bs < 4294967296 ->
  wr_raw_insn r = Ok bs /\ rd_raw_insn md (bs ++ rest) = Ok (r, rest).
Proof.
  intros md r bs rest (op & m & tl & H1 & H2 & H3 & -> & H) Hsm.
  pose proof (opcode_unique _ _ _ H1 H2 H3) as Hop. clear H1 H2 H3 m.
  destruct r; cbn [raw_name] in Hop; vm_compute in Hop; subst op.
  1-170, 173-196, 198-202: try (destruct H as (os & Ho & Hr & Ht); vm_compute in Ho; injection Ho as <-; cbn [raw_args] in *;
    repeat match goal with H : Forall2 _ (_ :: _) _ |- _ => inversion H; clear H; subst | H : Forall2 _ [] _ |- _ => inversion H; clear H; subst end;
    cbn [operands_bytes option_map operand_bytes operand_range] in *; apply some_inj in Ht; subst tl;
    cbn [wr_raw_insn]; rewrite ?app_nil_r, ?be1_u1, ?be2_u2, ?be4_u4; split; [reflexivity|];
    rewrite <- app_comm_cons; unfold rd_raw_insn; rewrite rd_u8_cons by lia; cbn [bind rd_raw_op];
    rewrite <- ?app_assoc;
    repeat (first [rewrite rd_u8_u1 by assumption|rewrite rd_i8_u1 by assumption|rewrite rd_u16_u2 by assumption
                  |rewrite rd_i16_u2 by assumption|rewrite rd_i32_u4 by assumption]; cbn [bind]);
    match goal with |- Ok _ = Ok _ => reflexivity end).
  - (* TableSwitch *) destruct H as (Hd & Hl & Hh & Ho & Hn & ->). destruct t as [low high os]. cbn [t_low t_high t_offs] in *.
    assert (Hsz : 4 * len os = len (concat (map u4 os))).
    { clear. unfold len. induction os as [|a os IH]; [cbn; lia|]. cbn [map concat]. rewrite app_length.
      change (length (u4 a)) with 4%nat. cbn [length]. lia. }
    assert (len os < 1073741824).
    { unfold len in *. cbn [length] in Hsm. rewrite !app_length in Hsm. lia. }
    split.
    + cbn [wr_raw_insn]. unfold wr_table. cbn [t_low t_high t_offs]. rewrite !be4_u4, be1_u1.
      rewrite flat_map_concat_map. rewrite (map_ext (be 4) u4) by (intros; apply be4_u4). reflexivity.
    + rewrite <- app_comm_cons, <- !app_assoc. unfold rd_raw_insn. rewrite rd_u8_cons by lia. cbn [bind rd_raw_op].
      rewrite rd_i32_u4 by auto. cbn [bind]. unfold rd_table.
      rewrite rd_i32_u4 by auto. cbn [bind]. rewrite rd_i32_u4 by auto. cbn [bind].
      assert (0 <= len os) by (unfold len; lia).
      rewrite chk_s_ok by (change (2 ^ (32 - 1)) with 2147483648; lia). cbn [bind]. rewrite chk_s_ok by (change (2 ^ (32 - 1)) with 2147483648; lia). cbn [bind].
      rewrite <- Hn. destruct (Z.ltb_spec (len os) 0); [lia|].
      replace (Z.to_nat (len os)) with (length os) by (unfold len; lia). rewrite rd_offs by auto. reflexivity.
  - (* LookupSwitch *) destruct H as (Hd & Hl & Ho & ->). split.
    + cbn [wr_raw_insn]. unfold wr_vec.
      assert (mapM wr_switch_entry es = Ok (map (fun e => u4 (fst e) ++ u4 (snd e)) es)) as Hm.
      { clear. induction es as [|e es IH]; [reflexivity|]. cbn [mapM map]. unfold wr_switch_entry at 1. cbn [bind].
        rewrite IH. cbn [bind]. rewrite !be4_u4. reflexivity. }
      rewrite Hm. change (256 ^ Z.of_nat 4) with 4294967296. cbn [bind].
      destruct (Z.ltb_spec (len es) 4294967296); [|lia]. cbn [bind]. rewrite !be4_u4, be1_u1. reflexivity.
    + rewrite <- app_comm_cons, <- !app_assoc. unfold rd_raw_insn. rewrite rd_u8_cons by lia. cbn [bind rd_raw_op].
      rewrite rd_i32_u4 by auto. cbn [bind]. unfold rd_vec. change (rd_u 4) with rd_u32.
      rewrite rd_u32_u4 by (unfold u32, len in *; lia). cbn [bind].
      replace (Z.to_nat (len es)) with (length es) by (unfold len; lia). rewrite rd_entries by auto. reflexivity.
  - (* Wide *) destruct H as (os & b & Ho & Hr & Ht & ->).
    destruct w; vm_compute in Ho; injection Ho as <-; cbn [wide_parts fst snd] in *;
    repeat match goal with H : Forall2 _ (_ :: _) _ |- _ => inversion H; clear H; subst | H : Forall2 _ [] _ |- _ => inversion H; clear H; subst end;
    cbn [operands_bytes option_map operand_bytes operand_range] in *; apply some_inj in Ht; subst b;
    cbn [wr_raw_insn wr_wide]; rewrite ?app_nil_r, ?be1_u1, ?be2_u2; (split; [reflexivity|]);
    rewrite <- !app_comm_cons; unfold rd_raw_insn; rewrite rd_u8_cons by lia; cbn [bind rd_raw_op];
    unfold rd_wide; rewrite rd_u8_cons by lia; cbn [bind]; rewrite <- ?app_assoc;
    repeat (first [rewrite rd_u16_u2 by assumption|rewrite rd_i16_u2 by assumption]; cbn [bind]);
    match goal with |- Ok _ = Ok _ => reflexivity end.
Qed.
Example C46_codec_ex : raw_fmt (XInvokeInterface 258 2 0) [185; 1; 2; 2; 0] /\
  raw_fmt (XWide (WIInc 256 (-2))) [196; 132; 1; 0; 255; 254] /\
  raw_fmt (XTableSwitch 16 {| t_low := -1; t_high := 0; t_offs := [8; 9] |})
    ([170] ++ [0;0;0;16] ++ [255;255;255;255] ++ [0;0;0;0] ++ [0;0;0;8] ++ [0;0;0;9]).
Proof.
  split; [|split].
  - exists 185. do 2 eexists. split; [reflexivity|]. split; [lia|]. split; [reflexivity|]. split; [reflexivity|].
    eexists. split; [reflexivity|]. split; [|reflexivity]. repeat constructor; cbn; lia.
  - exists 196. do 2 eexists. split; [reflexivity|]. split; [lia|]. split; [reflexivity|]. split; [reflexivity|].
    do 2 eexists. split; [reflexivity|]. split; [|split; reflexivity]. repeat constructor; cbn; lia.
  - exists 170. do 2 eexists. split; [reflexivity|]. split; [lia|]. split; [reflexivity|]. split; [reflexivity|].
    cbn [t_low t_high t_offs]. unfold i32. repeat split; try lia. repeat constructor; lia.
Qed.
Print Assumptions C46_codec.

(** Conversely whatever is read is a JVMS instruction.  (A tableswitch whose
    number of entries overflows an i32 is excluded: a release build takes the
    count modulo 2^32.) *)
Lemma rd_s_inv n l x rest : bytes l -> rd_s n l = Ok (x, rest) -> (0 < n)%nat ->
  l = be n x ++ rest /\ - 2 ^ (8 * Z.of_nat n - 1) <= x < 2 ^ (8 * Z.of_nat n - 1) /\ bytes rest.
Proof.
  intros Hb H Hn. unfold rd_s in H. inv_bind H. destruct v as [b r]. inversion H; subst. clear H.
  assert (rd_u n l = Ok (from_be b, rest)) as H by (unfold rd_u; rewrite E; reflexivity).
  apply rd_u_inv in H as (-> & Hx & Hr); auto. split; [|split]; auto.
  - f_equal. rewrite <- (be_mod n (from_be b)), <- (be_mod n (wrap_s _ _)). f_equal. unfold wrap_s.
    replace (2 ^ (8 * Z.of_nat n)) with (256 ^ Z.of_nat n) by (rewrite Z.pow_mul_r by lia; reflexivity).
    rewrite Zminus_mod_idemp_l. f_equal. lia.
  - unfold wrap_s. assert (2 ^ (8 * Z.of_nat n) = 2 * 2 ^ (8 * Z.of_nat n - 1)) as Hp.
    { rewrite <- Z.pow_succ_r by lia. f_equal. lia. }
    pose proof (Z.mod_pos_bound (from_be b + 2 ^ (8 * Z.of_nat n - 1)) (2 ^ (8 * Z.of_nat n)) ltac:(apply Z.pow_pos_nonneg; lia)). lia.
Qed.
Lemma rd_u8_inv l x rest : bytes l -> rd_u8 l = Ok (x, rest) -> l = u1 x ++ rest /\ u8 x /\ bytes rest.
Proof. intros Hb H. apply rd_u_inv in H as (-> & H & Hr); auto. rewrite be1_u1. auto. Qed.
Lemma rd_u16_inv l x rest : bytes l -> rd_u16 l = Ok (x, rest) -> l = u2 x ++ rest /\ u16 x /\ bytes rest.
Proof. intros Hb H. apply rd_u_inv in H as (-> & H & Hr); auto. rewrite be2_u2. auto. Qed.
Lemma rd_u32_inv l x rest : bytes l -> rd_u32 l = Ok (x, rest) -> l = u4 x ++ rest /\ u32 x /\ bytes rest.
Proof. intros Hb H. apply rd_u_inv in H as (-> & H & Hr); auto. rewrite be4_u4. auto. Qed.
Lemma rd_i8_inv l x rest : bytes l -> rd_i8 l = Ok (x, rest) -> l = u1 x ++ rest /\ i8 x /\ bytes rest.
Proof. intros Hb H. apply rd_s_inv in H as (-> & H & Hr); auto. rewrite be1_u1. auto. Qed.
Lemma rd_i16_inv l x rest : bytes l -> rd_i16 l = Ok (x, rest) -> l = u2 x ++ rest /\ i16 x /\ bytes rest.
Proof. intros Hb H. apply rd_s_inv in H as (-> & H & Hr); auto. rewrite be2_u2. auto. Qed.
Lemma rd_i32_inv l x rest : bytes l -> rd_i32 l = Ok (x, rest) -> l = u4 x ++ rest /\ i32 x /\ bytes rest.
Proof. intros Hb H. apply rd_s_inv in H as (-> & H & Hr); auto. rewrite be4_u4. auto. Qed.
Lemma rd_times_inv {A} (r : rd A) (P : A -> Prop) (g : A -> list Z) :
  (forall l a rest, bytes l -> r l = Ok (a, rest) -> l = g a ++ rest /\ P a /\ bytes rest) ->
  forall n l xs rest, bytes l -> rd_times n r l = Ok (xs, rest) ->
  l = concat (map g xs) ++ rest /\ Forall P xs /\ length xs = n /\ bytes rest.
Proof.
  intros Hr. induction n as [|n IH]; intros l xs rest Hb; cbn [rd_times].
  - intros [= <- <-]. auto.
  - intros H. inv_bind H. destruct v as [a l1]. inv_bind H. destruct v as [ys l2]. inversion H; subst.
    apply Hr in E as (-> & HP & Hb1); auto. apply IH in E0 as (-> & HF & Hl & Hb2); auto.
    cbn [map concat length]. rewrite app_assoc. auto.
Qed.
Definition is_plain (r : raw) : bool :=
  match r with XWide _ | XTableSwitch _ _ | XLookupSwitch _ _ => false | _ => true end.
Lemma plain_intro op r l1 rest m os tl : is_plain r = true -> 0 <= op ->
  nth_error mnemonics (Z.to_nat op) = Some m -> plain_name m = plain_name (raw_name r) ->
  operands op = Some os -> Forall2 operand_range os (raw_args r) -> operands_bytes os (raw_args r) = Some tl ->
  l1 = tl ++ rest -> exists u, [op] ++ l1 = u ++ rest /\ raw_fmt r u.
Proof.
  intros Hp H0 Hm Hn Ho Hr Hb ->. exists (op :: tl). split; [reflexivity|]. exists op, m, tl. repeat split; auto.
  destruct r; try discriminate; eauto.
Qed.
Ltac inv_ops := repeat match goal with
  | H : bind _ _ = Ok _ |- _ => inv_bind H
  | H : (let (_, _) := ?v in _) = Ok _ |- _ => destruct v
  | H : rd_u8 _ = Ok _ |- _ => apply rd_u8_inv in H as (-> & ? & ?); [|assumption]
  | H : rd_i8 _ = Ok _ |- _ => apply rd_i8_inv in H as (-> & ? & ?); [|assumption]
  | H : rd_u16 _ = Ok _ |- _ => apply rd_u16_inv in H as (-> & ? & ?); [|assumption]
  | H : rd_i16 _ = Ok _ |- _ => apply rd_i16_inv in H as (-> & ? & ?); [|assumption]
  | H : rd_i32 _ = Ok _ |- _ => apply rd_i32_inv in H as (-> & ? & ?); [|assumption]
  end.
Ltac plain_fmt := match goal with H : Ok (_, ?l) = Ok (_, _) |- _ => inversion H; clear H; subst end;
  eapply plain_intro; [reflexivity|lia|reflexivity|reflexivity|vm_compute; reflexivity|cbn [raw_args]; repeat (apply Forall2_cons; [assumption|]); apply Forall2_nil|cbn [operands_bytes option_map operand_bytes raw_args]; reflexivity|];
  cbn [operand_bytes]; rewrite <- ?app_assoc, ?app_nil_l; reflexivity.
Lemma wide_intro w t l1 rest os tl : wide_operands (fst (wide_parts w)) = Some os ->
  Forall2 operand_range os (snd (wide_parts w)) -> operands_bytes os (snd (wide_parts w)) = Some tl ->
  t = fst (wide_parts w) -> l1 = tl ++ rest -> exists u, [196] ++ [t] ++ l1 = u ++ rest /\ raw_fmt (XWide w) u.
Proof.
  intros Ho Hr Hb -> ->. exists (196 :: fst (wide_parts w) :: tl). split; [reflexivity|]. exists 196. do 2 eexists.
  split; [reflexivity|]. split; [lia|]. split; [reflexivity|]. split; [reflexivity|]. eauto 8.
Qed.
Theorem C46_only_jvms : forall md l r rest, bytes l -> rd_raw_insn md l = Ok (r, rest) ->
  match r with XTableSwitch _ t => -2147483648 <= t_high t - t_low t < 2147483647 | _ => True end ->
  exists u, l = u ++ rest /\ raw_fmt r u.
Proof.
  intros md l r rest Hb H Ht. unfold rd_raw_insn in H. inv_bind H. destruct v as [op l1].
  apply rd_u8_inv in E as (-> & Hop & Hb1); auto. assert (u1 op = [op]) as -> by (unfold u1; rewrite Z.mod_small; auto).
  destruct op as [|op|op]; [|do 8 (try destruct op as [op|op|])|]; try (cbn in H; discriminate H); try (exfalso; unfold u8 in Hop; lia).
  all: cbn [rd_raw_op] in H. all: match type of H with Ok _ = _ => plain_fmt | _ => idtac end.
  all: try (inv_ops; plain_fmt).
  - (* LookupSwitch *) inv_ops. unfold rd_vec in E0. inv_bind E0. destruct v as [n lx]. change (rd_u 4) with rd_u32 in E.
    apply rd_u32_inv in E as (-> & Hn & Hb2); auto. inversion H; subst; clear H.
    apply (rd_times_inv _ (fun e => i32 (fst e) /\ i32 (snd e)) (fun e => u4 (fst e) ++ u4 (snd e))) in E0 as (-> & HF & Hlen & Hr); auto.
    2:{ intros l [a b] r Hl H. unfold rd_switch_entry in H. inv_ops. inversion H; subst. cbn [fst snd]. rewrite <- app_assoc. auto. }
    assert (n = len l0) as -> by (unfold len; rewrite Hlen; unfold u32 in Hn; lia).
    exists (171 :: u4 z ++ u4 (len l0) ++ concat (map (fun e => u4 (fst e) ++ u4 (snd e)) l0)).
    split; [cbn [app]; rewrite <- !app_assoc; reflexivity|].
    exists 171. do 2 eexists. split; [reflexivity|]. split; [lia|]. split; [reflexivity|]. split; [reflexivity|].
    repeat split; auto; try apply Hn; match goal with H : i32 z |- _ => apply H end.
  - (* TableSwitch *) inv_bind H. destruct v as [z l2]. apply rd_i32_inv in E as (-> & Hz & Hb2); auto.
    inv_bind H. destruct v as [t l3]. inversion H; subst; clear H. unfold rd_table in E.
    inv_bind E. destruct v as [low l4]. apply rd_i32_inv in E0 as (-> & Hlow & Hb3); auto.
    inv_bind E. destruct v as [high l5]. apply rd_i32_inv in E0 as (-> & Hhigh & Hb4); auto.
    inv_bind E. rename v into d, E0 into Ed. inv_bind E. rename v into n, E0 into En.
    destruct (n <? 0) eqn:Hneg; [discriminate|]. inv_bind E. destruct v as [os lx]. inversion E; subst; clear E. rename E0 into E.
    cbn [t_low t_high] in Ht.
    rewrite chk_s_ok in Ed by (change (2 ^ (32 - 1)) with 2147483648; lia). inversion Ed; subst d.
    rewrite chk_s_ok in En by (change (2 ^ (32 - 1)) with 2147483648; lia). inversion En; subst n.
    apply (rd_times_inv _ i32 u4) in E as (-> & HF & Hlen & Hr); auto using rd_i32_inv.
    exists (170 :: u4 z ++ u4 low ++ u4 high ++ concat (map u4 os)).
    split; [cbn [app]; rewrite <- !app_assoc; reflexivity|].
    exists 170. do 2 eexists. split; [reflexivity|]. split; [lia|]. split; [reflexivity|]. split; [reflexivity|].
    cbn [t_low t_high t_offs]. repeat (split; [first [assumption|unfold len; lia]|]). reflexivity.
  - (* Wide *) inv_bind H. destruct v as [w l2]. inversion H; subst; clear H. unfold rd_wide in E. inv_bind E. destruct v as [t l3].
    apply rd_u8_inv in E0 as (-> & Ht' & Hb2); auto. assert (u1 t = [t]) as -> by (unfold u1; rewrite Z.mod_small; auto).
    destruct t as [|t|t]; [|do 8 (try destruct t as [t|t|])|]; try (cbn in E; discriminate E); try (exfalso; unfold u8 in Ht'; lia).
    all: cbn [bind] in E; inv_ops; inversion E; subst; clear E.
    all: eapply wide_intro; [vm_compute; reflexivity|cbn [wide_parts snd]; repeat (apply Forall2_cons; [assumption|]); apply Forall2_nil
      |cbn [operands_bytes option_map operand_bytes wide_parts snd]; reflexivity|reflexivity|];
      cbn [operand_bytes]; rewrite <- ?app_assoc, ?app_nil_l; reflexivity.
Qed.
Example C46_only_jvms_ex : bytes [196; 132; 1; 0; 255; 254; 7] /\
  rd_raw_insn Debug [196; 132; 1; 0; 255; 254; 7] = Ok (XWide (WIInc 256 (-2)), [7]).
Proof. split; [repeat constructor; unfold u8; lia|reflexivity]. Qed.
(** Anything else is an error, not a panic. *)
Theorem C46_rejects : forall md op l, 0 <= op < 256 ->
  (202 <= op -> rd_raw_insn md (op :: l) = Err EInvalid) /\
  (wide_operands op = None -> rd_raw_insn md (196 :: op :: l) = Err EInvalid).
Proof.
  intros md op l Hop. unfold rd_raw_insn. split; intros H; rewrite rd_u8_cons by lia; cbn [bind].
  - destruct op as [|op|op]; try lia. do 8 (try destruct op as [op|op|]); try reflexivity; lia.
  - cbn [rd_raw_op]. unfold rd_wide. rewrite rd_u8_cons by lia. cbn [bind].
    destruct op as [|op|op]; try lia; [reflexivity|].
    do 8 (try destruct op as [op|op|]); try reflexivity; try (exfalso; vm_compute in H; discriminate H); lia.
Qed.
Example C46_rejects_ex : wide_operands 96 = None /\ rd_raw_insn Release [196; 96; 0; 1] = Err EInvalid /\ rd_raw_insn Debug [203; 0] = Err EInvalid.
Proof. repeat split; reflexivity. Qed.
Print Assumptions C46_only_jvms.
Print Assumptions C46_rejects.

(** * C47: the bytes written for an instruction that is not a jump

    All but two kinds of instruction ([sound]): the bytes are an encoding of
    it, wherever it stands. *)
Theorem C47_selection_partial : forall E i pos, straight i -> sound i -> wf_insn (we_heap E) i ->
  writes emit E i /\
  forall bs p tbl, in_file emit E i bs p tbl -> enc pos (world_of E p tbl) i bs.
Proof.
  intros E i pos H1 H2 H3. assert (HP : emit_P E i) by (repeat split; auto).
  split; [eapply (wr_ok_writes emit emit_P); eauto using (emit_ok pos)|].
  intros bs p tbl H. eapply (wr_ok_file emit emit_P (enc pos)); eauto using emit_ok.
Qed.
(** putstatic is written as getstatic. *)
Theorem C47_putstatic_refuted : forall E m w bs w', emit E (IField GpPut MtStatic m) w = Ok (bs, w') ->
  emit E (IField GpGet MtStatic m) w = Ok (bs, w') /\ forall pos W, ~ enc pos W (IField GpPut MtStatic m) bs.
Proof.
  intros E m w bs w' H. split; [exact H|]. cbn [emit] in H. unfold emit_idx in H. inv_bind H. destruct v as [i w1].
  inversion H; subst. intros pos W (b & (j & _ & -> & _) & Hb). cbn in Hb. discriminate.
Qed.
(** Nothing is written for an array creation. *)
Theorem C47_newarray_refuted : forall E t dim w,
  emit E (INewArray t dim) w = Ok ([], w) /\ forall pos W, ~ enc pos W (INewArray t dim) [].
Proof.
  intros E t dim w. split; [reflexivity|]. intros pos W [(_ & t' & k & _ & _ & H)|[(_ & b & _ & H)|(_ & b & _ & H)]]; discriminate.
Qed.
Definition ex_heap : Z -> option bsm := fun c =>
  if c =? 3 then Some {| b_handle := {| h_kind := InvokeStatic; h_member := {| m_owner := [65]; m_name := [98];
                           m_desc := TMethod [] (Some TInt); m_itfs := false |} |}; b_args := [] |} else None.
Definition ex_ienv : wenv := wenv_class Debug ex_heap.
Definition ex_member : member := {| m_owner := [65]; m_name := [102]; m_desc := TLong; m_itfs := false |}.
Definition ex_indy : insn :=
  IInvokeDynamic {| d_cell := 3; d_name := [120]; d_desc := TMethod [TInt] (Some TLong) |}.
Lemma ex_indy_wf : wf_insn ex_heap ex_indy.
Proof.
  split; [|reflexivity]. split; [discriminate|]. split; [ascii|].
  split; [split; [cbn; repeat constructor|ascii]|cbn; constructor].
Qed.
Example C47_ex :
  (straight ex_indy /\ sound ex_indy /\ wf_insn (we_heap ex_ienv) ex_indy /\
   exists p tbl, in_file emit ex_ienv ex_indy [186; 0; 4; 0; 0] p tbl) /\
  exists bs w, emit ex_ienv (IField GpPut MtStatic (Stat ex_member)) wst_new = Ok (bs, w).
Proof.
  split; [split; [exact I|split; [exact I|split; [apply ex_indy_wf|]]]|].
  - file_eval.
  - vm_compute. eauto.
Qed.
Print Assumptions C47_selection_partial.
Print Assumptions C47_putstatic_refuted.
Print Assumptions C47_newarray_refuted.

(** * C48: reading it back

    [cst_ok], [rst_ok]: the tables of labels and of dynamic constants are
    well-formed, as they are at the beginning of the code and of the class. *)
Definition ref_ok (W : world) (s : cst) : Prop :=
  cst_ok s /\ rst_ok (k_refs s) /\ 0 <= r_next (k_refs s) /\ len (W_tbl W) <= 65536.
Lemma ref_ok_step W s k : ref_ok W s -> u16 k -> k < len (W_tbl W) ->
  ref_ok W (with_refs s {| r_refs := r_refs (k_refs s) ++ [(k, r_next (k_refs s))]; r_next := r_next (k_refs s) + 1 |}).
Proof.
  intros (H1 & [H2 H3] & H4 & H5) Hk _. split; [exact H1|split; [|split; [cbn; lia|exact H5]]]. split; cbn.
  - rewrite map_app. cbn. apply nodup_snoc; auto. intros Hin. rewrite in_map_iff in Hin. destruct Hin as (x & Hx & Hin).
    rewrite Forall_forall in H3. apply H3 in Hin. lia.
  - apply Forall_app. split; [|constructor; [cbn; split; [auto|lia]|constructor]].
    eapply Forall_impl; [|exact H3]. cbn. intros a Ha. intuition lia.
Qed.
Lemma ref_ok_label W s (l : Z) off : ref_ok W s -> u32 off -> W_label W l = Some off -> ref_ok W (snd (get_label off s)).
Proof.
  intros (H1 & H2 & H3 & H5) Ho _. split; [apply (get_label_ok off s H1 Ho)|].
  unfold get_label. destruct (assoc Z.eqb off (k_labels s)); cbn; auto.
Qed.
Lemma insn_back W md heap pos i bs : wf_insn heap i -> readable i -> enc pos W i bs -> straight i \/ len bs < 4294967296 ->
  forall s rest, ref_ok W s ->
  exists i' s', rd_insn_at md (W_pool W) pos s (bs ++ rest) = Ok ((i', s'), rest) /\ cst_ext s s' /\
    ref_ok W s' /\ insn_sim W s' i i'.
Proof.
  intros Hw Hr He Hs s rest Hi.
  refine (rd_insn_ok ref_ok _ ref_ok_label ref_ok_step _ heap md W s pos i bs rest Hi Hw Hr He Hs).
  - intros W' s' H. apply H.
  - intros W' s' H. apply H.
Qed.
Theorem C48_roundtrip_partial : forall md E i pos, straight i -> sound i -> readable i -> wf_insn (we_heap E) i ->
  forall bs p tbl, in_file emit E i bs p tbl -> forall s rest, cst_ok s -> rst_ok (k_refs s) -> 0 <= r_next (k_refs s) ->
  exists i' s', rd_insn_at md p pos s (bs ++ rest) = Ok ((i', s'), rest) /\ cst_ok s' /\ rst_ok (k_refs s') /\
    cst_ext s s' /\ insn_sim (world_of E p tbl) s' i i'.
Proof.
  intros md E i pos H1 H2 H3 H4 bs p tbl H s rest Hc Hr Hn.
  pose proof (proj2 (C47_selection_partial E i pos H1 H2 H4) bs p tbl H) as He.
  assert (Hb : len tbl <= 65536).
  { destruct H as (? & ? & ? & ? & ? & ? & ? & ? & ? & ? & ? & ? & ? & ? & ? & ? & ? & ? & ? & ? & ? & ->). assumption. }
  destruct (insn_back (world_of E p tbl) md (we_heap E) pos i bs H4 H3 He (or_introl H1) s rest) as (i' & s' & R1 & R2 & R3 & R4).
  { repeat split; auto; apply Hc || apply Hr. }
  exists i', s'. destruct R3 as (? & ? & _). auto.
Qed.
(** Any other encoding of an instruction (by another compiler), jumps and
    switches included, is read as that instruction as well. *)
Theorem C48_foreign : forall md W heap pos i bs s rest,
  wf_insn heap i -> readable i -> enc pos W i bs -> len bs < 4294967296 ->
  cst_ok s -> rst_ok (k_refs s) -> 0 <= r_next (k_refs s) -> len (W_tbl W) <= 65536 ->
  exists i' s', rd_insn_at md (W_pool W) pos s (bs ++ rest) = Ok ((i', s'), rest) /\ cst_ok s' /\ rst_ok (k_refs s') /\
    cst_ext s s' /\ insn_sim W s' i i'.
Proof.
  intros md W heap pos i bs s rest Hw Hr He Hs H1 H2 H3 H4.
  destruct (insn_back W md heap pos i bs Hw Hr He (or_intror Hs) s rest) as (i' & s' & R1 & R2 & R3 & R4).
  { repeat split; auto; apply H1 || apply H2. }
  exists i', s'. destruct R3 as (? & ? & _). auto.
Qed.
Definition ex_cst : cst := {| k_refs := {| r_refs := [(4, 0)]; r_next := 1 |}; k_labels := [(20, 0)]; k_catches := [] |}.
Lemma ex_cst_ok : cst_ok ex_cst /\ rst_ok (k_refs ex_cst) /\ 0 <= r_next (k_refs ex_cst).
Proof.
  repeat split; cbn; try lia; repeat constructor; cbn; unfold u32, u16; try tauto; lia.
Qed.
Example C48_ex : readable ex_indy /\ (straight ex_indy /\ sound ex_indy /\ wf_insn (we_heap ex_ienv) ex_indy /\
   exists p tbl, in_file emit ex_ienv ex_indy [186; 0; 4; 0; 0] p tbl) /\
  cst_ok ex_cst /\ rst_ok (k_refs ex_cst) /\ 0 <= r_next (k_refs ex_cst).
Proof. split; [exact I|]. split; [apply C47_ex|apply ex_cst_ok]. Qed.
(** a lookupswitch at 6: padding up to 8 *)
Definition ex_lworld : world :=
  {| W_pool := fun _ => None; W_tbl := []; W_heap := fun _ => None;
     W_label := fun l => if l =? 5 then Some 10 else if l =? 6 then Some 300 else None; W_catch := fun _ => None |}.
Example C48_foreign_ex : enc 6 ex_lworld (ILookupSwitch 5 [(7, 6); (-1, 5)])
  ([171; 9] ++ [0;0;0;4] ++ [0;0;0;2] ++ [255;255;255;255] ++ [0;0;0;4] ++ [0;0;0;7] ++ [0;0;1;38]).
Proof.
  exists [9], [0;0;0;4], [(-1, 5); (7, 6)], [[255;255;255;255] ++ [0;0;0;4]; [0;0;0;7] ++ [0;0;1;38]].
  repeat split; try (cbn; lia); try reflexivity.
  - apply perm_swap.
  - cbn. repeat constructor; lia.
  - exists 4. repeat split; try lia. exists 10. repeat split; lia.
  - repeat constructor.
    + exists [0;0;0;4]. repeat split; try (cbn; lia). exists 4. repeat split; try lia. exists 10. repeat split; lia.
    + exists [0;0;1;38]. repeat split; try (cbn; lia). exists 294. repeat split; try lia. exists 300. repeat split; lia.
Qed.
Print Assumptions C48_roundtrip_partial.
Print Assumptions C48_foreign.

(** * C49 *)
Definition number (k : constant) : Prop :=
  match k with KI32 x => i32 x | KI64 x => i64 x | KF32 x => u32 x | KF64 x => u64 x | _ => False end.
(** Exactly the constant: the bytes are an iconst/lconst/fconst/dconst/bipush/
    sipush of it or load an entry that is it, and read back as it. *)
Theorem C49_exact : forall md E k pos, number k ->
  writes emit E (IPush (Stat k)) /\
  forall bs p tbl, in_file emit E (IPush (Stat k)) bs p tbl ->
    enc_push (world_of E p tbl) (Stat k) bs /\
    forall s rest, cst_ok s -> rst_ok (k_refs s) -> 0 <= r_next (k_refs s) ->
    exists s', rd_insn_at md p pos s (bs ++ rest) = Ok ((IPush (Stat k), s'), rest) /\ cst_ext s s'.
Proof.
  intros md E k pos Hk. assert (Hw : wf_insn (we_heap E) (IPush (Stat k))) by (destruct k; cbn in *; tauto).
  destruct (C47_selection_partial E (IPush (Stat k)) pos I I Hw) as [Hwr He]. split; auto.
  intros bs p tbl H. split; [exact (He bs p tbl H)|]. intros s rest H1 H2 H3.
  destruct (C48_roundtrip_partial md E (IPush (Stat k)) pos I I I Hw bs p tbl H s rest H1 H2 H3) as (i' & s' & R1 & _ & _ & R4 & R5).
  exists s'. destruct i'; cbn in R5; try contradiction. destruct c; cbn in R5; try contradiction. subst. auto.
Qed.
(** Ints: the shortest encoding that needs no constant if there is one (ldc,
    though shorter than sipush, needs an entry); else the short form of ldc
    whenever the index allows it. *)
Theorem C49_shortest : forall E x w bs w', i32 x -> emit E (IPush (Stat (KI32 x))) w = Ok (bs, w') ->
  (forall bs', enc_small (KI32 x) bs' -> enc_small (KI32 x) bs /\ w' = w /\ len bs <= len bs') /\
  ((forall bs', ~ enc_small (KI32 x) bs') ->
   exists i, insert_constant E (KI32 x) w = Ok (i, w') /\ bs = if i <=? 255 then 18 :: u1 i else 19 :: u2 i).
Proof.
  intros E x w bs w' Hx H. cbn [emit] in H. unfold emit_push in H. cbn [enc_small].
  repeat match type of H with
  | (if ?a =? ?b then _ else _) = _ => destruct (Z.eqb_spec a b)
  | (if ?c then _ else _) = _ => destruct c eqn:?
  end.
  all: try (inversion H; subst bs w'; rewrite ?be1_u1, ?be2_u2; split;
    [intros bs' Hb; split; [|split; [reflexivity|]];
      [subst; cbn; first [left; split; [lia|reflexivity]|right; left; split; [lia|reflexivity]|right; right; split; [lia|reflexivity]]
      |decompose [or and] Hb; subst bs'; cbn; lia]
    |intros Hn; exfalso; first [apply (Hn [3 + x]); left; split; [lia|reflexivity]
       |apply (Hn (16 :: u1 x)); right; left; split; [lia|reflexivity]
       |apply (Hn (17 :: u2 x)); right; right; split; [lia|reflexivity]]]; fail).
  - assert (bs = 16 :: u1 x /\ w' = w) as [-> ->] by (rewrite !be1_u1 in H; change (Ok (16 :: u1 x, w) = Ok (bs, w')) in H; split; congruence). split.
    + intros bs' Hb. split; [right; left; split; [lia|reflexivity]|split; [reflexivity|]].
      destruct Hb as [[Hb ->]|[[Hb ->]|[Hb ->]]]; [lia|cbn; lia|cbn; lia].
    + intros Hn. exfalso. apply (Hn (16 :: u1 x)). right; left; split; [lia|reflexivity].
  - assert (bs = 17 :: u2 x /\ w' = w) as [-> ->] by (rewrite be1_u1, be2_u2 in H; change (Ok (17 :: u2 x, w) = Ok (bs, w')) in H; split; congruence). split.
    + intros bs' Hb. split; [right; right; split; [lia|reflexivity]|split; [reflexivity|]].
      destruct Hb as [[Hb ->]|[[Hb ->]|[Hb ->]]]; [lia|lia|cbn; lia].
    + intros Hn. exfalso. apply (Hn (17 :: u2 x)). right; right; split; [lia|reflexivity].
  - split.
    + intros bs' Hb. exfalso. destruct Hb as [[Hb _]|[[Hb _]|[Hb _]]]; lia.
    + intros _. unfold emit_ldc in H. inv_bind H. destruct v as [i w1]. cbn [insert_ordynamic] in E0. exists i.
      rewrite !be1_u1, !be2_u2 in H.
      change (Ok ((if i <=? 255 then 18 :: u1 i else 19 :: u2 i), w1) = Ok (bs, w')) in H. split; congruence.
Qed.
Example C49_ex : number (KI32 (-32768)) /\ number (KF64 9223372036854775808) /\
  (exists p tbl, in_file emit ex_ienv (IPush (Stat (KI32 (-32768)))) [17; 128; 0] p tbl) /\
  (* -0.0 is not 0.0 *)
  exists p tbl, in_file emit ex_ienv (IPush (Stat (KF64 9223372036854775808))) [20; 0; 1] p tbl.
Proof. split; [cbn; unfold i32; lia|]. split; [cbn; unfold u64; lia|]. split; file_eval. Qed.
Print Assumptions C49_exact.
Print Assumptions C49_shortest.

(** * C50: array creation

    [parse_type] is tried on every class name and accepts any string with a
    descriptor in front (C29): a class whose name begins with B, C, D, F, I,
    J, S or Z is taken for a primitive type. *)
Theorem C50_letter_refuted : forall md W pos i t junk s rest, wf_ty t -> newarray_code t <> None -> wf_wtf8 junk ->
  0 < i < 65536 -> is_class (W_pool W) i (ty_text t ++ junk) ->
  rd_insn_at md (W_pool W) pos s (189 :: u2 i ++ rest) = Ok ((INewArray (Stat t) 1, s), rest) /\
  ~ enc pos W (INewArray (Stat t) 1) (189 :: u2 i).
Proof.
  intros md W pos i t junk s rest Hw Hn Hj Hi Hc. split.
  - rewrite rd_insn_plain by lia. cbn [rd_raw_op]. rewrite rd_u16_u2 by (unfold u16; lia). cbn [bind conv].
    unfold conv_elem, conv_class, conv_ordyn, read_ordyn, read_dynamic. rewrite (read_class_ok _ _ _ Hc).
    destruct Hc as (j & -> & _). cbn [bind option_map]. rewrite C29_trailing_input_refuted by auto. destruct s; reflexivity.
  - cbn [enc]. intros [(_ & t' & k & _ & _ & H)|[(_ & b & (j & _ & _ & HR) & _)|(_ & b & _ & H)]]; try discriminate.
    cbn in HR. tauto.
Qed.
(** "Foo" *)
Example C50_letter_ex : wf_ty TFloat /\ newarray_code TFloat <> None /\ wf_wtf8 [111; 111] /\
  ty_text TFloat ++ [111; 111] = [70; 111; 111].
Proof. repeat split; try discriminate. apply wf_name. reflexivity. Qed.
(** anewarray of an array class and multianewarray of it with one dimension
    are read as the same instruction; they create arrays of different types. *)
Theorem C50_dimensions_refuted : forall md W pos i d t s rest, wf_ty (TArray d t) -> 0 < i < 65536 ->
  is_class (W_pool W) i (ty_text (TArray d t)) ->
  rd_insn_at md (W_pool W) pos s (189 :: u2 i ++ rest) =
  rd_insn_at md (W_pool W) pos s (197 :: u2 i ++ [1] ++ rest).
Proof.
  intros md W pos i d t s rest Hw Hi Hc. rewrite !rd_insn_plain by lia. cbn [rd_raw_op].
  rewrite !rd_u16_u2 by (unfold u16; lia). cbn [bind app]. rewrite rd_u8_cons by lia. reflexivity.
Qed.
(** What holds: array classes, and names that do not begin with a descriptor. *)
Theorem C50_names_partial : forall md W pos i n s rest, wf_wtf8 n ->
  (exists d t, wf_ty (TArray d t) /\ n = ty_text (TArray d t)) \/
  (~ long_run n /\ forall t r, loose_ty t -> n <> ty_text t ++ r) ->
  0 < i < 65536 -> is_class (W_pool W) i n ->
  exists t, component_name t = n /\
    rd_insn_at md (W_pool W) pos s (189 :: u2 i ++ rest) = Ok ((INewArray (Stat t) 1, s), rest) /\
    forall dim, u8 dim ->
      rd_insn_at md (W_pool W) pos s (197 :: u2 i ++ [dim] ++ rest) = Ok ((INewArray (Stat t) dim, s), rest).
Proof.
  intros md W pos i n s rest Hw Hn Hi Hc.
  assert (HP : exists t, component_name t = n /\ forall dim, conv_elem md (W_pool W) i dim s = Ok (INewArray (Stat t) dim, s)).
  { unfold conv_elem, conv_class, conv_ordyn, read_ordyn, read_dynamic. rewrite (read_class_ok _ _ _ Hc).
    destruct Hc as (j & -> & _). cbn [bind option_map]. destruct Hn as [(d & t & Ht & ->)|[Hl Hp]].
    - exists (TArray d t). split; [reflexivity|]. intros dim. rewrite parse_type_text by auto. destruct s; reflexivity.
    - exists (TRef n). split; [reflexivity|]. intros dim. destruct (parse_type md n) as [t|e|k] eqn:Hpt.
      + destruct (C29_accepts_prefix_partial md n t Hw (or_intror Hl) Hpt) as [H1 [r H2]]. edestruct Hp; eauto.
      + destruct s; reflexivity.
      + exfalso. destruct Hw as (cps & [Hcps Hnp] & ->). unfold parse_type in Hpt. rewrite codepoints_utf8 in Hpt by auto.
        cbn [bind] in Hpt. apply bind_panic in Hpt as [H|([t r] & _ & H)]; [|discriminate].
        apply get_type_panic in H as [_ (a & b & ->)]; [|lia]. apply Hl.
        exists (flat_map utf8 a), (flat_map utf8 b). rewrite !flat_map_app, flat_utf8_repeat. reflexivity. }
  destruct HP as (t & Ht & HC). exists t. split; [auto|]. split; [|intros dim Hd].
  - rewrite rd_insn_plain by lia. cbn [rd_raw_op]. rewrite rd_u16_u2 by (unfold u16; lia). cbn [bind conv]. rewrite HC. reflexivity.
  - rewrite rd_insn_plain by lia. cbn [rd_raw_op]. rewrite rd_u16_u2 by (unfold u16; lia). cbn [bind app].
    rewrite rd_u8_cons by exact Hd. cbn [bind conv]. rewrite HC. reflexivity.
Qed.
(** "java" *)
Example C50_names_ex : wf_wtf8 [106; 97; 118; 97] /\ ~ long_run [106; 97; 118; 97] /\
  forall t r, loose_ty t -> [106; 97; 118; 97] <> ty_text t ++ r.
Proof.
  split; [apply wf_name; reflexivity|]. split.
  - intros (a & b & H). apply (f_equal (@length Z)) in H. rewrite !app_length, repeat_length in H. cbn in H. lia.
  - intros t r Ht H. destruct t; try discriminate. cbn in Ht. destruct Ht as [Hd _]. cbn [ty_text] in H.
    destruct (Z.to_nat dim) eqn:Hz; [lia|]. discriminate.
Qed.
Print Assumptions C50_letter_refuted.
Print Assumptions C50_dimensions_refuted.
Print Assumptions C50_names_partial.

(** * C51 *)
Theorem C51_negation : forall c,
  match jcond_neg c with
  | Some c' => (forall a b, taken c' a b <-> ~ taken c a b) /\ pops c' = pops c /\ jcond_neg c' = Some c
  | None => c = JcAlways
  end /\ (c = JcAlways -> jcond_neg c = None).
Proof. intros c. split; [|intros ->; reflexivity]. destruct c; cbn; try (split; [intros; lia|auto]); auto. Qed.
(** The opcodes of a condition and of its negation (JVMS). *)
Example C51_ex : jcond_neg JcIntegerLessThan = Some JcIntegerGreaterThanOrEquals.
Proof. reflexivity. Qed.
Print Assumptions C51_negation.

(** * C60: a dynamic constant is loaded with a valid ldc, which the crate
    cannot read. *)
Theorem C60_dynamic_refuted : forall md E d pos, wf_dynamic (we_heap E) d -> ty_is_method (d_desc d) = false ->
  writes emit E (IPush (Dyn d)) /\
  forall bs p tbl, in_file emit E (IPush (Dyn d)) bs p tbl ->
    enc pos (world_of E p tbl) (IPush (Dyn d)) bs /\
    forall s rest, rd_insn_at md p pos s (bs ++ rest) = Err EInvalid.
Proof.
  intros md E d pos Hd Hm. destruct (C47_selection_partial E (IPush (Dyn d)) pos I I (conj Hd Hm)) as [Hwr He]. split; auto.
  intros bs p tbl H. pose proof (He bs p tbl H) as Henc. split; auto. intros s rest.
  destruct Henc as [(i & Hk & Hi)|[]]. cbn [is_ordyn] in Hk. destruct Hk as (b & _ & k & nt & Hp & _). rewrite Hm in Hp.
  assert (Hc : conv_constant md p i s = Err EInvalid).
  { unfold conv_constant, read_constant, read_member. cbn in Hp. rewrite !Hp. reflexivity. }
  assert (exists op, (op = 18 /\ 0 < i < 256 /\ bs = [18; i]) \/ ((op = 19 \/ op = 20) /\ 0 < i < 65536 /\ bs = op :: u2 i)) as (op & Hop).
  { destruct (two_slots (Dyn d)); [exists 20; right; tauto|]. destruct Hi; [exists 18|exists 19]; tauto. }
  destruct Hop as [(-> & Hr' & ->)|([-> | ->] & Hr' & ->)].
  - cbn [app]. rewrite rd_insn_plain by lia. cbn [rd_raw_op]. rewrite rd_u8_cons by lia. cbn [bind conv]. rewrite Hc. reflexivity.
  - rewrite <- app_comm_cons, rd_insn_plain by lia. cbn [rd_raw_op]. rewrite rd_u16_u2 by (unfold u16; lia). cbn [bind conv]. rewrite Hc. reflexivity.
  - rewrite <- app_comm_cons, rd_insn_plain by lia. cbn [rd_raw_op]. rewrite rd_u16_u2 by (unfold u16; lia). cbn [bind conv]. rewrite Hc. reflexivity.
Qed.
Example C60_ex : let d := {| d_cell := 3; d_name := [120]; d_desc := TLong |} in
  wf_dynamic (we_heap ex_ienv) d /\ ty_is_method (d_desc d) = false /\
  exists p tbl, in_file emit ex_ienv (IPush (Dyn d)) [20; 0; 4] p tbl.
Proof.
  split; [|split; [reflexivity|file_eval]]. split; [discriminate|]. split; [ascii|].
  split; [split; [exact I|ascii]|constructor].
Qed.
Print Assumptions C60_dynamic_refuted.
