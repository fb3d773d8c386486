(** The bounds the writer of code works with before it knows where instructions
    end up (C98). *)
From Verif Require Import Base BaseLemmas PrimModel CpModel AnnModel AttrModel FrameModel InsnModel CodeModel CodeProofs.
From Coq Require Import Lia.

Lemma padding_most i : 0 <= padding i <= 3.
Proof. unfold padding. pose proof (Z.mod_pos_bound i 4 ltac:(lia)). destruct (i mod 4 =? 0) eqn:E; lia. Qed.
Lemma size_most labels hints i j n : jump_size labels hints i j = Ok n -> n <= max_size j.
Proof.
  pose proof (padding_most (i + 1)). intros E. unfold jump_size in E. unfold max_size.
  destruct j; try discriminate E;
  try (apply ok_inj in E; subst; lia);
  try match type of E with context [match ?c with JcAlways => _ | _ => _ end] => destruct c end; inv_bind E; apply ok_inj in E; subst; destruct (_ <=? _); lia.
Qed.
(** ** What follows a jump begins no later than [index_hints] says

    for every way the sizes come out, and for as many buffers as there are. *)
Theorem C98_bound : forall labels hints js bufs last r e, actual labels hints js bufs last = Ok (r, e) ->
  Forall2 (fun a h => fst a <= h) r (index_hints js bufs last).
Proof.
  intros labels hints js. assert (HG : forall bufs last last' r e, last <= last' -> actual labels hints js bufs last = Ok (r, e) -> Forall2 (fun a h => fst a <= h) r (index_hints js bufs last')).
  { induction js as [|j js IH]; intros bufs last last' r e Hl H; cbn [actual index_hints] in *; [apply ok_inj, pair_equal_spec in H as [<- _]; constructor|].
    destruct bufs as [|b bufs]; [apply ok_inj, pair_equal_spec in H as [<- _]; constructor|]. inv_bind H. inv_bind H. destruct v0 as [r' e']. apply ok_inj, pair_equal_spec in H as [<- _].
    apply size_most in E. constructor; [cbn [fst]; lia|]. eapply IH; [|exact E0]. lia. }
  intros bufs last r e. apply HG. lia.
Qed.
(** ** A jump that is given two bytes for its offset has its target within the
    first 65535 bytes (which is too far for 16 bits with a sign: C54) *)
Theorem C98_narrow : forall labels js bufs r e l b o x, actual labels (index_hints js bufs 0) js bufs 0 = Ok (r, e) ->
  find_label labels l = Ok (b, o) -> buf_start (map fst r) b = Ok x ->
  (forall i c, jump_size labels (index_hints js bufs 0) i (IJump c l) = Ok 3 -> x + o <= 65535) /\
  (forall i, jump_size labels (index_hints js bufs 0) i (IJsr l) = Ok 3 -> x + o <= 65535).
Proof.
  intros labels js bufs r e l b o x H Hl Hx. apply C98_bound in H.
  assert (HB : forall h, hint_of labels (index_hints js bufs 0) l = Ok h -> x + o <= h).
  { intros h Hh. unfold hint_of in Hh. rewrite Hl in Hh. cbn [bind] in Hh. inv_bind Hh. apply ok_inj in Hh. subst h. unfold buf_start in *. destruct (b =? 0); [apply ok_inj in Hx, E; lia|].
    unfold index in *. revert Hx E. generalize (Z.to_nat (b - 1)). induction H as [|a h r' hs Ha H IH]; intros [|n]; cbn [map nth_error]; try discriminate.
    - intros Hx E. apply ok_inj in Hx, E. lia.
    - apply IH. }
  split.
  - intros i c HJ. destruct c; cbn [jump_size] in HJ; inv_bind HJ; apply ok_inj in HJ; apply HB in E; destruct (v <=? 65535) eqn:EL; lia.
  - intros i HJ. cbn [jump_size] in HJ. inv_bind HJ. apply ok_inj in HJ. apply HB in E. destruct (v <=? 65535) eqn:EL; lia.
Qed.
(** A switch behind one byte and behind none (three bytes of padding): the bound
    is reached. *)
Example C98_ex : let js := [ILookupSwitch 0 [(7, 0)]; IJump JcAlways 0] in let bufs := [[]; [0]; [0]] in let labels := [(0, (2, 1))] in
  index_hints js bufs 0 = [20; 26] /\ actual labels (index_hints js bufs 0) js bufs 0 = Ok ([(20, 20); (24, 3)], 24) /\
  jump_size labels (index_hints js bufs 0) 21 (IJump JcAlways 0) = Ok 3 /\ buf_start [20; 24] 2 = Ok 24.
Proof. vm_compute. repeat split. Qed.
Print Assumptions C98_bound.
Print Assumptions C98_narrow.
