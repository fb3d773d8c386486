(** Behind a jump that is too far (C54): switches (C53), ranges (C57), reading
    back (C58). *)
From Coq Require Import Lia.
From Verif Require Import Base BaseLemmas PrimModel PrimProofs CpModel CpSpec CpProofs FileSpec AttrModel FrameModel InsnModel InsnSpec InsnProofs
  CodeModel CodeSpec CodeProofs CodeWrite CodeRead CodeProps.

(** A jump over [n] one-byte instructions to what [rest] does. *)
Definition far (j : insn) (n : nat) (rest : list insn) (cs : list catch) : code := {|
  cd_stack := 1; cd_locals := 1; cd_code := j :: repeat INoOp n ++ ILabel 0 :: rest; cd_catches := cs; cd_attrs := [] |}.
(** The five bytes that are written where three were counted. *)
Definition far_jump (j : insn) (n : nat) : list Z := wide_op j :: u4 (Z.of_nat n + 3).

Lemma far_nops E n t : forall y w, write_insns E (repeat INoOp n ++ t) y w =
  write_insns E t {| y_bufs := y_bufs y; y_cur := y_cur y ++ repeat 0 n; y_jumps := y_jumps y; y_labels := y_labels y |} w.
Proof.
  induction n as [|n IH]; intros y w; cbn [repeat app write_insns].
  - rewrite app_nil_r. destruct y; reflexivity.
  - unfold write_insn at 1. change (emit E INoOp w) with (Ok ([0], w)). cbn [bind]. rewrite IH. cbn [y_bufs y_cur y_jumps y_labels].
    rewrite <- app_assoc. reflexivity.
Qed.
Lemma far_first E j n t w : plain_jump j -> write_insns E (j :: repeat INoOp n ++ ILabel 0 :: t) y_new w =
  write_insns E t {| y_bufs := [[]]; y_cur := repeat 0 n; y_jumps := [j]; y_labels := [(0, (1, Z.of_nat n))] |} w.
Proof.
  intros Hj. cbn [write_insns].
  assert (write_insn E j y_new w = Ok ({| y_bufs := [[]]; y_cur := []; y_jumps := [j]; y_labels := [] |}, w)) as ->
    by (destruct Hj as [-> | ->]; reflexivity). cbn [bind]. rewrite far_nops. cbn [y_bufs y_cur y_jumps y_labels app write_insns write_insn bind].
  cbn [assoc_set]. change (len [[]]) with 1. unfold len at 1. rewrite repeat_length. reflexivity.
Qed.
Lemma far_size j n labels hints : plain_jump j -> hint_of labels hints 0 = Ok (5 + Z.of_nat n) -> Z.of_nat n <= 65530 ->
  jump_size labels hints 0 j = Ok 3.
Proof.
  intros Hj Hh Hn. destruct Hj as [-> | ->]; cbn [jump_size]; rewrite Hh; cbn [bind]; destruct (Z.leb_spec (5 + Z.of_nat n) 65535); (reflexivity || lia).
Qed.
Lemma far_emit md labels ends j n : plain_jump j -> resolve md labels ends 3 3 0 = Ok (Z.of_nat n + 3) -> 32765 <= Z.of_nat n ->
  emit_jump md labels ends 3 3 j = Ok (far_jump j n).
Proof.
  intros Hj Hr Hn. destruct Hj as [-> | ->]; cbn [emit_jump]; rewrite Hr; cbn [bind]; unfold fits_i16;
  (assert ((-32768 <=? Z.of_nat n + 3) && (Z.of_nat n + 3 <=? 32767) = false) as -> by lia); rewrite be4_u4; reflexivity.
Qed.

Lemma far_resolve md labels ends idx size l b o x : find_label labels l = Ok (b, o) -> buf_start ends b = Ok x ->
  0 <= x -> 0 <= o -> x + o < 2147483648 -> 0 <= size <= idx -> idx < 2147483648 -> resolve md labels ends idx size l = Ok (x + o - idx + size).
Proof.
  intros Hl Hb Hx Ho Ht Hs Hi. unfold resolve. rewrite Hl. cbn [bind]. rewrite Hb. cbn [bind]. rewrite !wrap_u_small by lia.
  unfold chk_u. change (2 ^ 32) with 4294967296. assert ((0 <=? x + o) && (x + o <? 4294967296) = true) as -> by lia. cbn [bind].
  rewrite (wrap_s_small (x + o)), (wrap_s_small idx), (wrap_s_small size), wrap_s_small by lia. rewrite chk_s_ok; [reflexivity|].
  change (2 ^ (32 - 1)) with 2147483648. lia.
Qed.

Lemma far_label md labels ends l b o x : find_label labels l = Ok (b, o) -> buf_start ends b = Ok x ->
  0 <= x -> 0 <= o -> x + o < 65536 -> label16 md labels ends l = Ok (x + o).
Proof.
  intros Hl Hb Hx Ho Ht. unfold label16. unfold find_label in Hl. destruct (assoc Z.eqb l labels) as [[b' o']|]; [|discriminate].
  injection Hl as -> ->. rewrite Hb. cbn [bind]. unfold chk_u, wrap_u. change (2 ^ 16) with 65536. rewrite !Z.mod_small by lia.
  assert ((0 <=? x + o) && (x + o <? 65536) = true) as -> by lia. reflexivity.
Qed.

(** * C57 *)
Definition far_handler : catch := {| c_start := 0; c_end := 1; c_handler := 0; c_type := None |}.
(** The instruction that a handler covers stands at [n + 5]; the handler is
    written for what stands at [n + 3]. *)
Theorem C57_far_refuted : forall E j n w, plain_jump j -> 32765 <= Z.of_nat n <= 65530 ->
  let body := far_jump j n ++ repeat 0 n ++ [177] in
  bytes_at body (Z.of_nat n + 5) [177] /\
  wr_code E (far j n [IReturn None; ILabel 1] [far_handler]) w =
    Ok (u2 1 ++ u2 1 ++ u4 (Z.of_nat n + 4) ++ body ++
        u2 1 ++ (u2 (Z.of_nat n + 3) ++ u2 (Z.of_nat n + 4) ++ u2 (Z.of_nat n + 3) ++ u2 0) ++ u2 0, w).
Proof.
  intros E j n w Hj Hn body. assert (Hl : len (repeat 0 n) = Z.of_nat n) by (unfold len; rewrite repeat_length; reflexivity). split.
  - exists (far_jump j n ++ repeat 0 n), []. unfold body. split; [rewrite <- app_assoc; reflexivity|]. rewrite len_app, Hl. change (len (far_jump j n)) with 5. lia.
  - unfold wr_code, far. cbn [cd_code cd_stack cd_locals cd_catches cd_attrs]. rewrite far_first by auto.
    cbn [write_insns write_insn bind]. change (emit E (IReturn None) w) with (Ok ([177], w)). cbn [bind y_bufs y_cur y_jumps y_labels assoc_set Z.eqb].
    change (len [[]]) with 1. rewrite len_app, Hl. change (len [177]) with 1.
    unfold assemble. cbn [y_bufs y_cur y_jumps y_labels app index_hints actual]. change (len (@nil Z)) with 0. rewrite !Z.add_0_l, Z.add_0_r.
    assert (Hm : max_size j = 5) by (destruct Hj as [-> | ->]; reflexivity). rewrite Hm.
    rewrite (far_size j n) by (auto; try reflexivity; lia). cbn [bind actual map fst emit_jumps]. rewrite !Z.add_0_l.
    rewrite (far_emit _ _ _ j n) by (auto; try lia; rewrite (far_resolve _ _ _ _ _ _ 1 (Z.of_nat n) 3) by (reflexivity || lia); f_equal; lia).
    cbn [bind wr_each].
    change (code_env E [(0, (1, Z.of_nat n)); (1, (1, Z.of_nat n + 1))] [3] [far_handler]) with
      (code_env E [(0, (1, Z.of_nat n)); (1, (1, Z.of_nat n + 1))] [3] [far_handler]).
    unfold wr_handler. cbn [code_env we_label far_handler c_start c_end c_handler c_type].
    rewrite (far_label _ _ _ 0 1 (Z.of_nat n) 3), (far_label _ _ _ 1 1 (Z.of_nat n + 1) 3) by (reflexivity || lia). cbn [bind wr_kattrs].
    change (chk_u (we_md E) 16 (wrap_u 16 (len (@nil kattr)) + 0)) with (Ok 0). cbn [bind]. rewrite !be2_u2, !be4_u4, len_app, Hl. change (len [177]) with 1.
    replace (3 + Z.of_nat n) with (Z.of_nat n + 3) by lia. replace (3 + (Z.of_nat n + 1)) with (Z.of_nat n + 4) by lia.
    change (len [far_handler]) with 1. unfold body. rewrite !app_nil_r. reflexivity.
Qed.
Example C57_far_ex : plain_jump (IJump JcAlways 0) /\ 32765 <= Z.of_nat (Z.to_nat 40000) <= 65530.
Proof. split; [left; reflexivity|lia]. Qed.
Print Assumptions C57_far_refuted.

(** * C53 *)
(** The operands of the switch at [n + 5] are aligned as if it stood at [n + 3]. *)
Theorem C53_far_refuted : forall E j n w, plain_jump j -> 32765 <= Z.of_nat n <= 65530 ->
  exists pad, let switch := 170 :: repeat 0 (Z.to_nat pad) ++ u4 0 ++ u4 5 ++ u4 5 ++ u4 0 in
  let body := far_jump j n ++ repeat 0 n ++ switch in
  wr_code E (far j n [ITableSwitch 0 5 [0]] []) w = Ok (u2 1 ++ u2 1 ++ u4 (Z.of_nat n + 20 + pad) ++ body ++ u2 0 ++ u2 0, w) /\
  0 <= pad <= 3 /\ bytes_at body (Z.of_nat n + 5) switch /\ (Z.of_nat n + 5 + 1 + pad) mod 4 <> 0.
Proof.
  intros E j n w Hj Hn. exists (padding (3 + Z.of_nat n + 1)). intros switch body.
  assert (Hp : 0 <= padding (3 + Z.of_nat n + 1) <= 3 /\ (Z.of_nat n + 5 + 1 + padding (3 + Z.of_nat n + 1)) mod 4 <> 0)
    by (unfold padding; destruct (Z.eqb_spec ((3 + Z.of_nat n + 1) mod 4) 0); lia). destruct Hp as [Hp1 Hp2].
  assert (Hl : len (repeat 0 n) = Z.of_nat n) by (unfold len; rewrite repeat_length; reflexivity). split; [|split; [exact Hp1|split; [|exact Hp2]]].
  - unfold wr_code, far. cbn [cd_code cd_stack cd_locals cd_catches cd_attrs]. rewrite far_first by auto.
    cbn [write_insns write_insn bind y_bufs y_cur y_jumps y_labels].
    unfold assemble. cbn [y_bufs y_cur y_jumps y_labels app index_hints actual]. rewrite Hl. change (len (@nil Z)) with 0. rewrite !Z.add_0_l, Z.add_0_r.
    assert (Hm : max_size j = 5) by (destruct Hj as [-> | ->]; reflexivity). rewrite Hm.
    rewrite (far_size j n) by (auto; try reflexivity; lia). cbn [bind actual jump_size]. rewrite !Z.add_0_l. cbn [bind map fst emit_jumps].
    change (len [0]) with 1.
    rewrite (far_emit _ _ _ j n) by (auto; try lia; rewrite (far_resolve _ _ _ _ _ _ 1 (Z.of_nat n) 3) by (reflexivity || lia); f_equal; lia).
    cbn [bind emit_jump mapM]. rewrite (far_resolve _ _ _ _ _ _ 1 (Z.of_nat n) 3) by (reflexivity || lia). cbn [bind].
    change (len [0] - 1) with 0. change (chk_u (we_md E) 64 0) with (Ok 0). cbn [bind]. change (chk_s (we_md E) 32 (5 + wrap_s 32 0)) with (chk_s (we_md E) 32 5).
    rewrite chk_s_ok by (cbn; lia). cbn [bind mapM wr_each wr_kattrs].
    change (chk_u (we_md E) 16 (wrap_u 16 (len (@nil kattr)) + 0)) with (Ok 0). cbn [bind].
    set (size := 1 + (padding (3 + Z.of_nat n + 1) + 12 + 1 * 4)).
    replace (3 + Z.of_nat n + size - size + 1) with (3 + Z.of_nat n + 1) by lia.
    replace (3 + Z.of_nat n - (3 + Z.of_nat n + size) + size) with 0 by lia.
    rewrite !be2_u2, !be4_u4, !Z.add_0_r. replace (3 + Z.of_nat n + size) with (Z.of_nat n + 20 + padding (3 + Z.of_nat n + 1)) by (unfold size; lia).
    cbn [concat]. change (be 1 170) with [170]. unfold body, switch. rewrite !app_nil_r. reflexivity.
  - exists (far_jump j n ++ repeat 0 n), []. unfold body. split; [rewrite <- app_assoc, app_nil_r; reflexivity|]. rewrite len_app, Hl. change (len (far_jump j n)) with 5. lia.
Qed.
Print Assumptions C53_far_refuted.

(** * C58 *)
(** Of what is written for a jump that is too far, no code attribute is read:
    two bytes of the code are taken for the number of handlers. *)
Lemma nops_read md p n : forall fuel pos s, (n <= fuel)%nat -> exists is, rd_insns fuel md p pos s (repeat 0 n) = Ok (is, s).
Proof.
  induction n as [|n IH]; intros fuel pos s Hf; [destruct fuel; eexists; reflexivity|]. destruct fuel as [|fuel]; [lia|].
  cbn [repeat rd_insns]. rewrite rd_insn_plain by lia. change (rd_raw_op md 0 (repeat 0 n)) with (@Ok (raw * list Z) (XNop, repeat 0 n)). cbn [bind conv].
  match goal with |- context [rd_insns fuel md p ?x s _] => destruct (IH fuel x s ltac:(lia)) as (is & ->) end. eexists. reflexivity.
Qed.
Lemma jump_read md p s o l fuel j : plain_jump j -> i32 o -> (forall s', exists is, rd_insns fuel md p 5 s' l = Ok (is, s')) ->
  exists r, rd_insns (S fuel) md p 0 s ((wide_op j :: u4 o) ++ l) = Ok r.
Proof.
  intros Hj Ho Hl. cbn [app rd_insns]. assert (Hop : wide_op j = 200 \/ wide_op j = 201) by (destruct Hj as [-> | ->]; auto).
  rewrite rd_insn_plain by lia. assert (Hr : rd_raw_op md (wide_op j) (u4 o ++ l) = Ok (match j with IJsr _ => XJsrW o | _ => XGotoW o end, l)).
  { destruct Hj as [-> | ->]; cbn [wide_op]; [change (rd_raw_op md 200 (u4 o ++ l)) with ('(a, l) <- rd_i32 (u4 o ++ l) ;; Ok (XGotoW a, l))
    |change (rd_raw_op md 201 (u4 o ++ l)) with ('(a, l) <- rd_i32 (u4 o ++ l) ;; Ok (XJsrW a, l))]; rewrite rd_i32_u4 by auto; reflexivity. }
  rewrite Hr. cbn [bind]. assert (Hc : exists i s', conv md p 0 (match j with IJsr _ => XJsrW o | _ => XGotoW o end) s = Ok (i, s')).
  { destruct Hj as [-> | ->]; cbn [conv]; destruct (lbl_at 0 o s); eauto. }
  destruct Hc as (i & s' & ->). cbn [bind]. replace (0 + (len (wide_op j :: u4 o ++ l) - len l)) with 5.
  - destruct (Hl s') as (is & ->). eexists. reflexivity.
  - change (wide_op j :: u4 o ++ l) with ((wide_op j :: u4 o) ++ l). rewrite len_app. change (len (wide_op j :: u4 o)) with 5. lia.
Qed.
Theorem C58_far_refuted : forall E j n w, plain_jump j -> 32765 <= Z.of_nat n <= 65530 ->
  exists bs, wr_code E (over j n) w = Ok (bs, w) /\ forall md p s, rd_code md p s bs = Err EIo.
Proof.
  intros E j n w Hj Hn. destruct (C54_goto_refuted E j n w Hj Hn) as [HW _]. cbv zeta in HW. eexists. split; [exact HW|]. clear HW.
  intros md p s. unfold over_bytes, rd_code. rewrite !rd_u16_u2 by (unfold u16; lia). cbn [bind]. rewrite rd_u16_u2 by (unfold u16; lia). cbn [bind].
  rewrite rd_u32_u4 by (unfold u32; lia). cbn [bind].
  destruct n as [|n]; [lia|]. assert (Hs : (wide_op j :: u4 (Z.of_nat (S n) + 3)) ++ repeat 0 (S n) ++ [177] =
    ((wide_op j :: u4 (Z.of_nat (S n) + 3)) ++ repeat 0 n) ++ [0; 177]).
  { rewrite <- app_assoc. f_equal. change (repeat 0 (S n)) with ([0] ++ repeat 0 n). replace ([0] ++ repeat 0 n) with (repeat 0 n ++ [0]).
    - rewrite <- app_assoc. reflexivity.
    - clear. induction n as [|n IH]; cbn; [reflexivity|]. f_equal. exact IH. }
  rewrite Hs. rewrite <- app_assoc.
  assert (Hl : len (repeat 0 n) = Z.of_nat n) by (unfold len; rewrite repeat_length; reflexivity).
  rewrite take_app' by (rewrite len_app, Hl; change (len (wide_op j :: u4 (Z.of_nat (S n) + 3))) with 5; lia). cbn [bind].
  rewrite app_length. cbn [length u4 Nat.add].
  match goal with |- context [rd_insns _ md p 0 ?s0 _] => destruct (jump_read md p s0 (Z.of_nat (S n) + 3) (repeat 0 n) (4 + length (repeat 0 n)) j Hj) as ([is k] & HR) end.
  { unfold i32. lia. }
  { intros s'. apply nops_read. rewrite repeat_length. lia. }
  cbn [Nat.add length] in HR. rewrite HR. cbn [bind]. change ([0; 177] ++ u2 0 ++ u2 0) with (u2 177 ++ u2 0 ++ u2 0).
  rewrite rd_u16_u2 by (unfold u16; lia). cbn [bind]. change (Z.to_nat 177) with (S 176). generalize 176%nat as m. intros m. cbn [srd_times].
  unfold rd_handler at 1. unfold rd_label. rewrite rd_u16_u2 by (unfold u16; lia). cbn [bind]. destruct (get_label 0 k) as [a k1].
  rewrite <- (app_nil_r (u2 0)), rd_u16_u2 by (unfold u16; lia). cbn [bind]. destruct (get_label 0 k1) as [b k2]. reflexivity.
Qed.
Print Assumptions C58_far_refuted.
