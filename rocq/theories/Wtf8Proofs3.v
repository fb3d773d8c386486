(** Proofs about the validator. *)
From Verif Require Import Base BaseLemmas Wtf8Spec Wtf8Model Wtf8Proofs Wtf8Proofs2.

(** One round of the validation loop. *)
Inductive vres : Type :=
| VEnd
| VOk (n : nat) (high : bool)
| VErr (back : Z) (e : option Z).

Definition vstep (high : bool) (l : list Z) : vres :=
  match l with
  | [] => VEnd
  | b :: l1 =>
      if between 0x00 0x7F b then VOk 1 false
      else if between 0xC2 0xDF b then
        match l1 with
        | [] => VErr 0 None
        | n :: _ => if tail_byte n then VOk 2 false else VErr 0 (Some 2)
        end
      else if (b =? 0xE0) || (between 0xE1 0xEC b || between 0xEE 0xEF b) then
        match l1 with
        | [] => VErr 0 None
        | n :: l2 =>
            if negb (if b =? 0xE0 then between 0xA0 0xBF n else tail_byte n)
            then VErr 0 (Some 3)
            else match l2 with
                 | [] => VErr 0 None
                 | n1 :: _ => if tail_byte n1 then VOk 3 false else VErr 0 (Some 3)
                 end
        end
      else if b =? 0xED then
        match l1 with
        | [] => VErr 0 None
        | n :: l2 =>
            if between 0xA0 0xAF n then
              match l2 with
              | [] => VErr 0 None
              | _ :: _ => VOk 3 true
              end
            else if between 0xB0 0xBF n && high then VErr 3 (Some 6)
            else if between 0x80 0x9F n || between 0xB0 0xBF n then
              match l2 with
              | [] => VErr 0 None
              | n1 :: _ => if tail_byte n1 then VOk 3 false else VErr 0 (Some 3)
              end
            else VErr 0 (Some 3)
        end
      else if between 0xF0 0xF4 b then
        match l1 with
        | n :: n1 :: n2 :: _ =>
            if (if b =? 0xF0 then between 0x90 0xBF n
                else if b =? 0xF4 then between 0x80 0x8F n else between 0x80 0xBF n)
               && tail_byte n1 && tail_byte n2
            then VOk 4 false else VErr 0 (Some 4)
        | _ => VErr 0 None
        end
      else VErr 0 (Some 1)
  end.

Lemma validate_step i h l :
  validate_from i h l =
  match vstep h l with
  | VEnd => Ok tt
  | VOk n h' => validate_from (i + Z.of_nat n) h' (skipn n l)
  | VErr d e => Err (EWtf8 (i - d) e)
  end.
Proof.
  destruct l as [|b l1]; [reflexivity|]. cbn [validate_from vstep].
  destruct (between 0x00 0x7F b) eqn:E0; [reflexivity|].
  destruct (between 0xC2 0xDF b) eqn:E1.
  { destruct l1 as [|n l2]; [rewrite ?Z.sub_0_r; reflexivity|].
    destruct (tail_byte n); cbn [negb]; rewrite ?Z.sub_0_r; reflexivity. }
  destruct (b =? 0xE0) eqn:E2; cbn [orb].
  { destruct l1 as [|n l2]; [rewrite ?Z.sub_0_r; reflexivity|].
    destruct (between 0xA0 0xBF n); cbn [negb]; rewrite ?Z.sub_0_r; [|reflexivity].
    destruct l2 as [|n1 l3]; [rewrite ?Z.sub_0_r; reflexivity|].
    destruct (tail_byte n1); cbn [negb]; rewrite ?Z.sub_0_r; reflexivity. }
  destruct (between 0xE1 0xEC b || between 0xEE 0xEF b) eqn:E3.
  { destruct l1 as [|n l2]; [rewrite ?Z.sub_0_r; reflexivity|].
    destruct (tail_byte n); cbn [negb]; rewrite ?Z.sub_0_r; [|reflexivity].
    destruct l2 as [|n1 l3]; [rewrite ?Z.sub_0_r; reflexivity|].
    destruct (tail_byte n1); cbn [negb]; rewrite ?Z.sub_0_r; reflexivity. }
  destruct (b =? 0xED) eqn:E4.
  { destruct l1 as [|n l2]; [rewrite ?Z.sub_0_r; reflexivity|].
    destruct (between 0xA0 0xAF n); cbn [negb]; rewrite ?Z.sub_0_r.
    { destruct l2; rewrite ?Z.sub_0_r; reflexivity. }
    destruct (between 0xB0 0xBF n && h); [reflexivity|].
    destruct (between 0x80 0x9F n || between 0xB0 0xBF n); [|rewrite ?Z.sub_0_r; reflexivity].
    destruct l2 as [|n1 l3]; [rewrite ?Z.sub_0_r; reflexivity|].
    destruct (tail_byte n1); cbn [negb]; rewrite ?Z.sub_0_r; reflexivity. }
  assert (E5 : between 0xF0 0xF4 b = (b =? 0xF0) || between 0xF1 0xF3 b || (b =? 0xF4))
    by (unfold between; lia). rewrite E5.
  destruct (b =? 0xF0) eqn:E6; cbn [orb].
  { destruct l1 as [|n [|n1 [|n2 l4]]]; rewrite ?Z.sub_0_r; try reflexivity.
    destruct (between 0x90 0xBF n && tail_byte n1 && tail_byte n2); rewrite ?Z.sub_0_r; reflexivity. }
  destruct (between 0xF1 0xF3 b) eqn:E7; cbn [orb].
  { assert (b =? 0xF4 = false) as -> by (unfold between in *; lia).
    destruct l1 as [|n [|n1 [|n2 l4]]]; rewrite ?Z.sub_0_r; try reflexivity.
    destruct (between 0x80 0xBF n && tail_byte n1 && tail_byte n2); rewrite ?Z.sub_0_r; reflexivity. }
  destruct (b =? 0xF4) eqn:E8; cbn [orb].
  { destruct l1 as [|n [|n1 [|n2 l4]]]; rewrite ?Z.sub_0_r; try reflexivity.
    destruct (between 0x80 0x8F n && tail_byte n1 && tail_byte n2); rewrite ?Z.sub_0_r; reflexivity. }
  rewrite ?Z.sub_0_r; reflexivity.
Qed.

Ltac vstep_cases H :=
  repeat match type of H with
  | context [match ?x with _ => _ end] => destruct x eqn:?; try discriminate H
  end.

(** A successful round consumes between 1 and 4 bytes and depends on these only. *)
Lemma vstep_ok h l n h' : vstep h l = VOk n h' ->
  (1 <= n <= 4)%nat /\ (n <= length l)%nat /\
  (forall r, vstep h (firstn n l ++ r) = VOk n h').
Proof.
  intros H. destruct l as [|b l1]; [discriminate|].
  unfold vstep in H.
  vstep_cases H; inversion H; subst; clear H;
  (split; [lia|]); (split; [cbn; lia|]); intros r; cbn [firstn app vstep];
  repeat match goal with
  | E : ?x = _ |- context [?x] => rewrite E
  end; try reflexivity.
Qed.

(** An error at the current position is found in every non-empty prefix. *)
Lemma vstep_err0 h l e k : vstep h l = VErr 0 e -> (1 <= k)%nat ->
  exists e', vstep h (firstn k l) = VErr 0 e'.
Proof.
  intros H Hk. destruct l as [|b l1]; [discriminate|].
  destruct k as [|k]; [lia|]. cbn [firstn].
  unfold vstep in *.
  destruct (between 0 127 b); [discriminate|].
  destruct (between 194 223 b).
  { destruct l1 as [|n l2]; [rewrite firstn_nil; eauto|].
    destruct k; cbn [firstn]; eauto. }
  destruct ((b =? 224) || (between 225 236 b || between 238 239 b)).
  { destruct l1 as [|n l2]; [rewrite firstn_nil; eauto|].
    destruct k; cbn [firstn]; eauto.
    destruct (negb _); eauto.
    destruct l2 as [|n1 l3]; [rewrite firstn_nil; eauto|].
    destruct k; cbn [firstn]; eauto. }
  destruct (b =? 237).
  { destruct l1 as [|n l2]; [rewrite firstn_nil; eauto|].
    destruct k; cbn [firstn]; eauto.
    destruct (between 160 175 n).
    { destruct l2 as [|n1 l3]; [rewrite firstn_nil; eauto|discriminate]. }
    destruct (between 176 191 n && h); [discriminate|].
    destruct (between 128 159 n || between 176 191 n); eauto.
    destruct l2 as [|n1 l3]; [rewrite firstn_nil; eauto|].
    destruct k; cbn [firstn]; eauto. }
  destruct (between 240 244 b); eauto.
  destruct l1 as [|n l2]; [rewrite firstn_nil; eauto|].
  destruct k; cbn [firstn]; eauto.
  destruct l2 as [|n1 l3]; [rewrite firstn_nil; eauto|].
  destruct k; cbn [firstn]; eauto.
  destruct l3 as [|n2 l4]; [rewrite firstn_nil; eauto|].
  destruct k; cbn [firstn]; eauto.
Qed.

Lemma vstep_err_back h l d e : vstep h l = VErr d e ->
  d = 0 \/ (d = 3 /\ e = Some 6 /\ h = true).
Proof.
  intros H. destruct l as [|b l1]; [discriminate|]. unfold vstep in H.
  vstep_cases H; inversion H; subst; auto.
  right. repeat split; auto. destruct h; auto. rewrite andb_false_r in *. discriminate.
Qed.

Lemma vstep_err_nonempty h l d e : vstep h l = VErr d e -> l <> [].
Proof. destruct l; cbn; congruence. Qed.

Lemma vstep_encoded h c l : is_cp c -> (h = true -> ~ is_trail c) ->
  vstep h (utf8 c ++ l) = VOk (length (utf8 c)) (between 0xD800 0xDBFF c).
Proof.
  unfold is_cp, is_trail, utf8. intros Hc Hh.
  destruct (c <? 0x80) eqn:E1.
  { cbn [app vstep length]. unfold between.
    assert ((0 <=? c) && (c <=? 127) = true) as -> by lia.
    assert ((0xD800 <=? c) && (c <=? 0xDBFF) = false) as -> by lia. reflexivity. }
  destruct (c <? 0x800) eqn:E2.
  { cbn [app vstep length]. unfold between, tail_byte, between.
    set (x := 192 + c / 64). set (y := 128 + c mod 64).
    assert ((0 <=? x) && (x <=? 127) = false) as -> by lia.
    assert ((194 <=? x) && (x <=? 223) = true) as -> by lia.
    assert ((128 <=? y) && (y <=? 191) = true) as -> by lia.
    assert ((0xD800 <=? c) && (c <=? 0xDBFF) = false) as -> by lia. reflexivity. }
  destruct (c <? 0x10000) eqn:E3.
  { cbn [app vstep length]. unfold between, tail_byte, between.
    set (x := 224 + c / 4096). set (y := 128 + c / 64 mod 64). set (z := 128 + c mod 64).
    assert ((0 <=? x) && (x <=? 127) = false) as -> by lia.
    assert ((194 <=? x) && (x <=? 223) = false) as -> by lia.
    assert ((128 <=? z) && (z <=? 191) = true) as -> by lia.
    destruct (x =? 237) eqn:E4.
    - assert ((x =? 224) || ((225 <=? x) && (x <=? 236) || (238 <=? x) && (x <=? 239)) = false)
        as -> by lia.
      assert (0xD000 <= c < 0xE000) by lia.
      assert (((160 <=? y) && (y <=? 175)) = (0xD800 <=? c) && (c <=? 0xDBFF)) as -> by lia.
      destruct ((0xD800 <=? c) && (c <=? 0xDBFF)) eqn:El; [reflexivity|].
      destruct h.
      + assert (c < 0xD800) by lia.
        assert (((176 <=? y) && (y <=? 191)) = false) as -> by lia. cbn [andb].
        assert ((128 <=? y) && (y <=? 159) = true) as -> by lia. reflexivity.
      + rewrite andb_false_r.
        assert ((128 <=? y) && (y <=? 159) || (176 <=? y) && (y <=? 191) = true) as -> by lia.
        reflexivity.
    - assert ((x =? 224) || ((225 <=? x) && (x <=? 236) || (238 <=? x) && (x <=? 239)) = true)
        as -> by lia.
      destruct (x =? 224) eqn:E5.
      + assert ((160 <=? y) && (y <=? 191) = true) as -> by lia. cbn [negb].
        assert ((0xD800 <=? c) && (c <=? 0xDBFF) = false) as -> by lia. reflexivity.
      + assert ((128 <=? y) && (y <=? 191) = true) as -> by lia. cbn [negb].
        assert ((0xD800 <=? c) && (c <=? 0xDBFF) = false) as -> by lia. reflexivity. }
  cbn [app vstep length]. unfold between, tail_byte, between.
  set (x := 240 + c / 262144). set (y := 128 + c / 4096 mod 64).
  set (z := 128 + c / 64 mod 64). set (w := 128 + c mod 64).
  assert ((0 <=? x) && (x <=? 127) = false) as -> by lia.
  assert ((194 <=? x) && (x <=? 223) = false) as -> by lia.
  assert ((x =? 224) || ((225 <=? x) && (x <=? 236) || (238 <=? x) && (x <=? 239)) = false)
    as -> by lia.
  assert (x =? 237 = false) as -> by lia.
  assert ((240 <=? x) && (x <=? 244) = true) as -> by lia.
  assert ((128 <=? z) && (z <=? 191) = true) as -> by lia.
  assert ((128 <=? w) && (w <=? 191) = true) as -> by lia.
  assert ((0xD800 <=? c) && (c <=? 0xDBFF) = false) as -> by lia.
  destruct (x =? 240) eqn:E4.
  { assert ((144 <=? y) && (y <=? 191) = true) as -> by lia. reflexivity. }
  destruct (x =? 244) eqn:E5.
  { assert ((128 <=? y) && (y <=? 143) = true) as -> by lia. reflexivity. }
  assert ((128 <=? y) && (y <=? 191) = true) as -> by lia. reflexivity.
Qed.

Lemma validate_encoded cps : forall i h, wtf8_cps cps ->
  (h = true -> forall c t, cps = c :: t -> ~ is_trail c) ->
  validate_from i h (flat_map utf8 cps) = Ok tt.
Proof.
  induction cps as [|c cps IH]; intros i h [Hc Hn] Hh; [reflexivity|].
  inversion Hc; subst. cbn [no_pair] in Hn. destruct Hn as [Hn1 Hn].
  cbn [flat_map]. rewrite validate_step, vstep_encoded; eauto.
  rewrite skipn_len_app. apply IH; [split; auto|].
  intros Hl c' t ->. unfold between, is_lead in *. intros Ht. apply Hn1. split; auto. lia.
Qed.

(** Soundness up to the unchecked third byte of a lead surrogate. *)
Definition lead_tails (l : list Z) : Prop :=
  forall p n x r, l = p ++ 0xED :: n :: x :: r -> 0xA0 <= n <= 0xAF -> 0x80 <= x <= 0xBF.

Lemma lead_tails_app_r a b : lead_tails (a ++ b) -> lead_tails b.
Proof.
  intros H p n x r -> Hn. eapply (H (a ++ p)); eauto. rewrite <- app_assoc. reflexivity.
Qed.

Definition lead_tail_head (l : list Z) : Prop :=
  forall n x r, l = 0xED :: n :: x :: r -> 0xA0 <= n <= 0xAF -> 0x80 <= x <= 0xBF.

Lemma lead_tails_head l : lead_tails l -> lead_tail_head l.
Proof. intros H n x r E. apply (H [] n x r E). Qed.

Lemma vstep_decode h l n h' : bytes l -> lead_tail_head l -> vstep h l = VOk n h' ->
  exists c, is_cp c /\ firstn n l = utf8 c /\ h' = between 0xD800 0xDBFF c /\
    (h = true -> ~ is_trail c).
Proof.
  intros Hb Hl H. destruct l as [|b l1]; [discriminate|].
  inversion Hb as [|? ? Hb0 Hb1]; subst. unfold u8 in Hb0.
  unfold vstep, tail_byte, between in H.
  destruct ((0 <=? b) && (b <=? 127)) eqn:E0.
  { inversion H; subst. exists b. unfold is_cp, utf8, between, is_trail.
    assert (b <? 128 = true) as -> by lia. cbn. repeat split; lia. }
  destruct ((194 <=? b) && (b <=? 223)) eqn:E1.
  { destruct l1 as [|n0 l2]; try discriminate.
    destruct ((128 <=? n0) && (n0 <=? 191)) eqn:E2; try discriminate. inversion H; subst.
    exists ((b - 192) * 64 + (n0 - 128)). unfold is_cp, utf8, between, is_trail.
    set (c := (b - 192) * 64 + (n0 - 128)).
    assert (c <? 128 = false) as -> by lia. assert (c <? 2048 = true) as -> by lia.
    cbn [firstn]. repeat split; try lia. list_eq. }
  destruct ((b =? 224) || ((225 <=? b) && (b <=? 236) || (238 <=? b) && (b <=? 239))) eqn:E2.
  { destruct l1 as [|n0 l2]; try discriminate.
    destruct (negb (if b =? 224 then (160 <=? n0) && (n0 <=? 191)
                    else (128 <=? n0) && (n0 <=? 191))) eqn:E3; try discriminate.
    destruct l2 as [|n1 l3]; try discriminate.
    destruct ((128 <=? n1) && (n1 <=? 191)) eqn:E4; try discriminate. inversion H; subst.
    exists ((b - 224) * 4096 + (n0 - 128) * 64 + (n1 - 128)).
    unfold is_cp, utf8, between, is_trail.
    set (c := (b - 224) * 4096 + (n0 - 128) * 64 + (n1 - 128)).
    assert (b =? 237 = false) by lia.
    assert (Hge : c <? 2048 = false) by (destruct (b =? 224) eqn:?; lia).
    assert (128 <= n0 <= 191) by (destruct (b =? 224) eqn:?; lia).
    assert (c <? 128 = false) as -> by lia. rewrite Hge.
    assert (c <? 65536 = true) as -> by lia.
    cbn [firstn]. repeat split; try lia. list_eq. }
  destruct (b =? 237) eqn:E3.
  { destruct l1 as [|n0 l2]; try discriminate.
    destruct ((160 <=? n0) && (n0 <=? 175)) eqn:E4.
    { destruct l2 as [|n1 l3]; try discriminate. inversion H; subst.
      assert (b = 237) by lia. subst b.
      assert (0x80 <= n1 <= 0xBF) as Hx.
      { apply (Hl n0 n1 l3); auto. lia. }
      exists (53248 + (n0 - 128) * 64 + (n1 - 128)).
      unfold is_cp, utf8, between, is_trail.
      set (c := 53248 + (n0 - 128) * 64 + (n1 - 128)).
      assert (c <? 128 = false) as -> by lia. assert (c <? 2048 = false) as -> by lia.
      assert (c <? 65536 = true) as -> by lia.
      cbn [firstn]. repeat split; try lia. list_eq. }
    destruct ((176 <=? n0) && (n0 <=? 191) && h) eqn:E5; try discriminate.
    destruct ((128 <=? n0) && (n0 <=? 159) || (176 <=? n0) && (n0 <=? 191)) eqn:E6;
      try discriminate.
    destruct l2 as [|n1 l3]; try discriminate.
    destruct ((128 <=? n1) && (n1 <=? 191)) eqn:E7; try discriminate. inversion H; subst.
    exists (53248 + (n0 - 128) * 64 + (n1 - 128)).
    unfold is_cp, utf8, between, is_trail.
    set (c := 53248 + (n0 - 128) * 64 + (n1 - 128)).
    assert (c <? 128 = false) as -> by lia. assert (c <? 2048 = false) as -> by lia.
    assert (c <? 65536 = true) as -> by lia.
    cbn [firstn]. repeat split; try lia; try list_eq.
    all: intros ->; rewrite andb_true_r in E5; lia. }
  destruct ((240 <=? b) && (b <=? 244)) eqn:E4; try discriminate.
  destruct l1 as [|n0 [|n1 [|n2 l4]]]; try discriminate.
  destruct ((if b =? 240 then (144 <=? n0) && (n0 <=? 191)
        else if b =? 244 then (128 <=? n0) && (n0 <=? 143) else (128 <=? n0) && (n0 <=? 191)) &&
       ((128 <=? n1) && (n1 <=? 191)) && ((128 <=? n2) && (n2 <=? 191))) eqn:E5; try discriminate.
  inversion H; subst.
  exists ((b - 240) * 262144 + (n0 - 128) * 4096 + (n1 - 128) * 64 + (n2 - 128)).
  unfold is_cp, utf8, between, is_trail.
  set (c := (b - 240) * 262144 + (n0 - 128) * 4096 + (n1 - 128) * 64 + (n2 - 128)).
  assert (65536 <= c <= 1114111 /\ 128 <= n0 <= 191)
    by (destruct (b =? 240) eqn:?; destruct (b =? 244) eqn:?; lia).
  assert (128 <= n1 <= 191 /\ 128 <= n2 <= 191)
    by (destruct (b =? 240) eqn:?; destruct (b =? 244) eqn:?; lia).
  assert (c <? 128 = false) as -> by lia. assert (c <? 2048 = false) as -> by lia.
  assert (c <? 65536 = false) as -> by lia.
  cbn [firstn]. repeat split; try lia. list_eq.
Qed.

Lemma bytes_app_r a b : bytes (a ++ b) -> bytes b.
Proof. intros H. apply Forall_app in H. tauto. Qed.

Lemma validate_sound_aux n : forall i h l, (length l <= n)%nat -> bytes l -> lead_tails l ->
  validate_from i h l = Ok tt ->
  exists cps, wtf8_cps cps /\ l = flat_map utf8 cps /\
    (h = true -> forall c t, cps = c :: t -> ~ is_trail c).
Proof.
  induction n as [|n IH]; intros i h l Hn Hb Hl H.
  { destruct l; [|cbn in Hn; lia]. exists []. repeat split; auto; try constructor. discriminate. }
  rewrite validate_step in H. destruct (vstep h l) as [|k h'|d e] eqn:E; try discriminate.
  { destruct l; [|exfalso; clear - E; unfold vstep in E; vstep_cases E].
    exists []. repeat split; auto; try constructor. discriminate. }
  destruct (vstep_decode _ _ _ _ Hb (lead_tails_head _ Hl) E) as (c & Hc & Hf & -> & Hh).
  destruct (vstep_ok _ _ _ _ E) as (Hk & Hkl & _).
  pose proof (firstn_skipn k l) as Hs. rewrite Hf in Hs.
  apply IH in H.
  - destruct H as (cps & [Hcs Hnp] & Hl' & Hh').
    exists (c :: cps). repeat split.
    + constructor; auto.
    + destruct cps as [|c' t]; auto. intros [Hle Ht].
      eapply (Hh' _ c' t eq_refl); auto.
      Unshelve. unfold between, is_lead in *. lia.
    + exact Hnp.
    + cbn. rewrite <- Hl'. auto.
    + intros Hht c0 t [= <- <-]. auto.
  - rewrite skipn_length. lia.
  - rewrite <- Hs in Hb. eapply bytes_app_r; eauto.
  - rewrite <- Hs in Hl. eapply lead_tails_app_r; eauto.
Qed.

(** Error positions. *)
Lemma validate_err_split n : forall i h l j e, (length l <= n)%nat ->
  validate_from i h l = Err (EWtf8 j e) ->
  exists p q h' d, l = p ++ q /\ q <> [] /\
    (forall r, validate_from i h (p ++ r) = validate_from (i + len p) h' r) /\
    vstep h' q = VErr d e /\ j = i + len p - d /\
    (h' = true -> (p = [] /\ h = true) \/
       (exists p' x y z h'', p = p' ++ [x; y; z] /\ 
         forall r, validate_from i h (p' ++ r) = validate_from (i + len p') h'' r)).
Proof.
  induction n as [|n IH]; intros i h l j e Hn H.
  { destruct l; [discriminate|cbn in Hn; lia]. }
  rewrite validate_step in H. destruct (vstep h l) as [|k h1|d e1] eqn:E; try discriminate.
  - destruct (vstep_ok _ _ _ _ E) as (Hk & Hkl & Hpre).
    apply IH in H; [|rewrite skipn_length; lia].
    destruct H as (p & q & h' & d & Hpq & Hq & Hr & Hv & Hj & Hh).
    assert (Hlen : len (firstn k l) = Z.of_nat k).
    { unfold len. rewrite firstn_length. lia. }
    assert (Hgo : forall r, validate_from i h (firstn k l ++ r) = validate_from (i + Z.of_nat k) h1 r).
    { intros r. rewrite validate_step, Hpre.
      replace (skipn k (firstn k l ++ r)) with r; auto.
      rewrite skipn_app. rewrite skipn_all2 by (rewrite firstn_length; lia).
      replace (k - length (firstn k l))%nat with 0%nat by (rewrite firstn_length; lia).
      reflexivity. }
    exists (firstn k l ++ p), q, h', d.
    repeat match goal with |- _ /\ _ => split end; auto.
    + rewrite <- app_assoc, <- Hpq. symmetry. apply firstn_skipn.
    + intros r. rewrite <- app_assoc, Hgo, Hr, len_app, Hlen. f_equal. lia.
    + rewrite len_app, Hlen. lia.
    + intros Ht. right. destruct (Hh Ht) as [[-> Hh1]|(p' & x & y & z & h'' & -> & Hp')].
      * (* the chunk just read was a lead surrogate: three bytes *)
        clear - E Hh1 Hkl. destruct l as [|b l1]; [discriminate|].
        assert (k = 3%nat) as ->.
        { unfold vstep in E. vstep_cases E; inversion E; subst; auto; discriminate. }
        destruct l1 as [|b1 [|b2 l3]]; try (cbn in Hkl; lia).
        exists [], b, b1, b2, h. split; [reflexivity|].
        intros r. cbn [app]. change (len (@nil Z)) with 0. rewrite Z.add_0_r. reflexivity.
      * exists (firstn k l ++ p'), x, y, z, h''. split; [rewrite <- app_assoc; reflexivity|].
        intros r. rewrite <- app_assoc, Hgo, Hp', len_app, Hlen. f_equal. lia.
  - inversion H; subst. exists [], l, h, d. repeat match goal with |- _ /\ _ => split end; auto.
    + eapply vstep_err_nonempty; eauto.
    + intros r. cbn [app]. change (len (@nil Z)) with 0. rewrite Z.add_0_r. reflexivity.
    + change (len (@nil Z)) with 0. lia.
Qed.

Lemma validate_from_nil i h : validate_from i h [] = Ok tt.
Proof. reflexivity. Qed.

Lemma validate_only_wtf8_err n : forall i h l, (length l <= n)%nat ->
  validate_from i h l = Ok tt \/ exists j e, validate_from i h l = Err (EWtf8 j e).
Proof.
  induction n as [|n IH]; intros i h l Hn.
  { destruct l; [auto|cbn in Hn; lia]. }
  rewrite validate_step. destruct (vstep h l) as [|k h1|d e1] eqn:E; eauto.
  destruct (vstep_ok _ _ _ _ E) as (Hk & Hkl & _).
  apply IH. rewrite skipn_length. lia.
Qed.

Lemma valid_up_to_prefix l j e : validate_wtf8 l = Err (EWtf8 j e) ->
  0 <= j < len l /\ validate_wtf8 (firstn (Z.to_nat j) l) = Ok tt.
Proof.
  unfold validate_wtf8. intros H.
  destruct (validate_err_split _ _ _ _ _ _ (le_n _) H)
    as (p & q & h' & d & -> & Hq & Hr & Hv & Hj & Hh).
  assert (Hql : 0 < len q) by (destruct q; [congruence|rewrite len_cons; pose proof (len_nonneg q); lia]).
  pose proof (len_nonneg p).
  destruct (vstep_err_back _ _ _ _ Hv) as [->|(-> & -> & ->)].
  - subst j. rewrite len_app. split; [lia|].
    replace (Z.to_nat (0 + len p - 0)) with (length p) by (unfold len; lia).
    rewrite firstn_len_app. rewrite <- (app_nil_r p), Hr. reflexivity.
  - destruct (Hh eq_refl) as [[_ ?]|(p' & x & y & z & h'' & -> & Hp')]; [discriminate|].
    pose proof (len_nonneg p').
    assert (Hl3 : len (p' ++ [x; y; z]) = len p' + 3) by (rewrite len_app; reflexivity).
    subst j. rewrite (len_app (p' ++ [x; y; z]) q), Hl3. split; [lia|].
    replace (Z.to_nat (0 + (len p' + 3) - 3)) with (length p') by (unfold len; lia).
    rewrite <- app_assoc, firstn_len_app. rewrite <- (app_nil_r p'), Hp'. reflexivity.
Qed.

Lemma valid_up_to_max l j e k : validate_wtf8 l = Err (EWtf8 j e) -> e <> Some 6 ->
  j < Z.of_nat k -> validate_wtf8 (firstn k l) <> Ok tt.
Proof.
  unfold validate_wtf8. intros H He Hk.
  destruct (validate_err_split _ _ _ _ _ _ (le_n _) H)
    as (p & q & h' & d & -> & Hq & Hr & Hv & Hj & Hh).
  destruct (vstep_err_back _ _ _ _ Hv) as [->|(-> & -> & ->)]; [|congruence].
  rewrite firstn_app. rewrite (firstn_all2 p) by (unfold len in *; lia).
  rewrite Hr, validate_step.
  destruct (vstep_err0 _ _ _ (k - length p) Hv) as (e' & ->); [unfold len in *; lia|].
  discriminate.
Qed.
