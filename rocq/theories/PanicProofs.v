(** Which panics reading can end in: lemmas. *)
From Coq Require Import String.
From Verif Require Import Base BaseLemmas Wtf8Model MutfModel Wtf8Spec Wtf8Props PrimModel PrimProofs TypeModel TypeSpec TypeProofs TypeProofs2 TypeProps
  CpModel CpProofs SigModel SigSpec SigProps AnnModel AttrModel FrameModel InsnModel CodeModel CodeProofs ReadProofs ClassModel.
From Coq Require Import Lia.

(** * Text: what the validator accepts can be decoded, lossily or not *)

(** Sequences of chunks whose first byte gives the length. *)
Inductive chunked : list Z -> Prop :=
| Ch0 : chunked []
| Ch1 b l : b < 0x80 -> chunked l -> chunked (b :: l)
| Ch2 b c l : 0x80 <= b < 0xE0 -> chunked l -> chunked (b :: c :: l)
| Ch3 b c d l : 0xE0 <= b < 0xF0 -> chunked l -> chunked (b :: c :: d :: l)
| Ch4 b c d e l : 0xF0 <= b -> chunked l -> chunked (b :: c :: d :: e :: l).
Lemma chunked_app a b : chunked a -> chunked b -> chunked (a ++ b).
Proof. induction 1; intros Hb; cbn; auto using chunked. Qed.
Lemma codepoints_chunked l : chunked l -> forall n, (length l <= n)%nat -> exists cs, codepoints_fuel n l = Ok cs.
Proof.
  induction 1 as [|b l Hb H IH|b c l Hb H IH|b c d l Hb H IH|b c d e l Hb H IH]; intros n Hn.
  - destruct n; cbn; eauto.
  - destruct n as [|n]; [cbn in Hn; lia|]. cbn [codepoints_fuel next_code_point]. destruct (Z.ltb_spec b 128); [|lia].
    destruct (IH n) as [cs ->]; [cbn in Hn; lia|]. cbn. eauto.
  - destruct n as [|n]; [cbn in Hn; lia|]. cbn [codepoints_fuel next_code_point]. destruct (Z.ltb_spec b 128); [lia|].
    destruct (Z.leb_spec 0xE0 b); [lia|]. destruct (IH n) as [cs ->]; [cbn in Hn; lia|]. cbn. eauto.
  - destruct n as [|n]; [cbn in Hn; lia|]. cbn [codepoints_fuel next_code_point]. destruct (Z.ltb_spec b 128); [lia|].
    destruct (Z.leb_spec 0xE0 b); [|lia]. destruct (Z.leb_spec 0xF0 b); [lia|]. destruct (IH n) as [cs ->]; [cbn in Hn; lia|]. cbn. eauto.
  - destruct n as [|n]; [cbn in Hn; lia|]. cbn [codepoints_fuel next_code_point]. destruct (Z.ltb_spec b 128); [lia|].
    destruct (Z.leb_spec 0xE0 b); [|lia]. destruct (Z.leb_spec 0xF0 b); [|lia]. destruct (IH n) as [cs ->]; [cbn in Hn; lia|]. cbn. eauto.
Qed.
Lemma valid_chunked n : forall l i h, (length l <= n)%nat -> validate_from i h l = Ok tt -> chunked l.
Proof.
  induction n as [|n IH]; intros [|b l] i h Hn H; try (cbn in Hn; lia); try apply Ch0.
  cbn [length] in Hn. cbn [validate_from] in H. unfold between, tail_byte in H.
  repeat match type of H with
  | context [match ?l with [] => _ | _ :: _ => _ end] => is_var l; destruct l; try discriminate
  | context [if ?c then _ else _] => destruct c eqn:?; try discriminate
  end;
  repeat match goal with
  | E : negb _ = false |- _ => apply negb_false_iff in E
  | E : (_ || _)%bool = true |- _ => apply orb_prop in E
  | E : (_ && _)%bool = true |- _ => apply andb_prop in E as [? ?]
  | E : (_ =? _) = true |- _ => apply Z.eqb_eq in E
  | E : (_ <=? _) = true |- _ => apply Z.leb_le in E
  end;
  cbn [length] in Hn;
  first [apply Ch1; [lia|]; eapply IH; [|exact H]; cbn; lia
        |apply Ch2; [lia|]; eapply IH; [|exact H]; cbn; lia
        |apply Ch3; [repeat match goal with E : _ \/ _ |- _ => destruct E end; repeat match goal with E : (_ && _)%bool = true |- _ => apply andb_prop in E as [? ?] end; lia|]; eapply IH; [|exact H]; cbn; lia
        |apply Ch4; [lia|]; eapply IH; [|exact H]; cbn; lia].
Qed.
(** Where the next surrogate is found, what comes before and after it is
    chunked again. *)
Lemma next_chunked l : chunked l -> forall pos, match next_surrogate_from pos l with
  | None => True
  | Some (sp, _) => exists a c d e b, l = a ++ c :: d :: e :: b /\ chunked a /\ chunked b /\ sp = (pos + length a)%nat
  end.
Proof.
  induction 1 as [|b l Hb H IH|b c l Hb H IH|b c d l Hb H IH|b c d e l Hb H IH]; intros pos; cbn [next_surrogate_from].
  - exact I.
  - destruct (Z.ltb_spec b 128); [|lia]. specialize (IH (pos + 1)%nat). destruct (next_surrogate_from _ l) as [[sp x]|]; auto.
    destruct IH as (a & c & d & e & b' & -> & Ha & Hb' & ->). exists (b :: a), c, d, e, b'. repeat split; auto using chunked. cbn. lia.
  - destruct (Z.ltb_spec b 128); [lia|]. destruct (Z.ltb_spec b 224); [|lia]. specialize (IH (pos + 2)%nat). destruct (next_surrogate_from _ l) as [[sp x]|]; auto.
    destruct IH as (a & c' & d & e & b' & -> & Ha & Hb' & ->). exists (b :: c :: a), c', d, e, b'. repeat split; auto using chunked. cbn. lia.
  - destruct (Z.ltb_spec b 128); [lia|]. destruct (Z.ltb_spec b 224); [lia|].
    assert (HI : match next_surrogate_from (pos + 3) l with
      | Some (sp, _) => exists a c0 d0 e b0, b :: c :: d :: l = a ++ c0 :: d0 :: e :: b0 /\ chunked a /\ chunked b0 /\ sp = (pos + length a)%nat
      | None => True end).
    { specialize (IH (pos + 3)%nat). destruct (next_surrogate_from _ l) as [[sp x]|]; auto.
      destruct IH as (a & c' & d' & e & b' & -> & Ha & Hb' & ->). exists (b :: c :: d :: a), c', d', e, b'. repeat split; auto using chunked. cbn. lia. }
    destruct (b =? 237).
    + destruct (160 <=? c); auto. exists [], b, c, d, l. split; [reflexivity|]. split; [apply Ch0|]. split; [auto|cbn; lia].
    + destruct (Z.ltb_spec b 240); [auto|lia].
  - destruct (Z.ltb_spec b 128); [lia|]. destruct (Z.ltb_spec b 224); [lia|]. destruct (Z.eqb_spec b 237); [lia|]. destruct (Z.ltb_spec b 240); [lia|].
    specialize (IH (pos + 4)%nat). destruct (next_surrogate_from _ l) as [[sp x]|]; auto.
    destruct IH as (a & c' & d' & e' & b' & -> & Ha & Hb' & ->). exists (b :: c :: d :: e :: a), c', d', e', b'. repeat split; auto using chunked. cbn. lia.
Qed.
Lemma chunked_repl l : chunked l -> chunked (replacement ++ l).
Proof. intros H. cbn. apply Ch3; [lia|auto]. Qed.
Lemma lossy_chunked n : forall s pre l out, s = pre ++ l -> chunked l -> chunked out -> (length l <= n)%nat ->
  exists t, to_string_lossy_loop n s out (length pre) = Ok t /\ chunked t.
Proof.
  induction n as [|n IH]; intros s pre l out -> Hl Ho Hn.
  - destruct l; [|cbn in Hn; lia]. cbn [to_string_lossy_loop]. unfold next_surrogate. rewrite app_nil_r, Nat.leb_refl, skipn_all. cbn. rewrite app_nil_r. eauto.
  - cbn [to_string_lossy_loop]. unfold next_surrogate. rewrite app_length. destruct (Nat.leb_spec (length pre) (length pre + length l)); [|lia].
    rewrite skipn_app, skipn_all, Nat.sub_diag. cbn [app skipn bind]. pose proof (next_chunked l Hl (length pre)) as HN.
    destruct (next_surrogate_from _ l) as [[sp x]|].
    + destruct HN as (a & c & d & e & b & -> & Ha & Hb & ->).
      replace (slice (pre ++ a ++ c :: d :: e :: b) (length pre) (length pre + length a)) with a.
      2:{ unfold slice. rewrite skipn_app, skipn_all, Nat.sub_diag. cbn [app skipn]. replace (length pre + length a - length pre)%nat with (length a) by lia.
          rewrite firstn_app, firstn_all, Nat.sub_diag. cbn. now rewrite app_nil_r. }
      replace (length pre + length a + 3)%nat with (length (pre ++ a ++ [c; d; e])) by (rewrite !app_length; cbn; lia).
      apply (IH _ _ b); auto.
      * rewrite <- !app_assoc. reflexivity.
      * repeat apply chunked_app; auto. apply (chunked_repl []); constructor.
      * rewrite app_length in Hn. cbn in Hn. lia.
    + eexists. split; [reflexivity|]. apply chunked_app; auto.
Qed.
Lemma lossy_valid s : validate_wtf8 s = Ok tt -> exists t cs, to_string_lossy s = Ok t /\ codepoints t = Ok cs.
Proof.
  intros H. apply (valid_chunked (length s)) in H; [|lia]. enough (exists t, to_string_lossy s = Ok t /\ chunked t) as (t & Ht & Hc).
  { destruct (codepoints_chunked t Hc (length t) (Nat.le_refl _)) as [cs Hcs]. exists t, cs. auto. }
  unfold to_string_lossy, next_surrogate. cbn [Nat.leb skipn bind]. pose proof (next_chunked s H 0) as HN.
  destruct (next_surrogate_from 0 s) as [[sp x]|]; [|eauto]. destruct HN as (a & c & d & e & b & -> & Ha & Hb & ->). cbn [Nat.add].
  replace (length a + 3)%nat with (length (a ++ [c; d; e])) by (rewrite app_length; reflexivity).
  apply (lossy_chunked _ _ _ b).
  - rewrite <- app_assoc. reflexivity.
  - auto.
  - rewrite firstn_app, firstn_all, Nat.sub_diag. cbn [firstn]. rewrite app_nil_r. apply chunked_app; auto. apply (chunked_repl []); constructor.
  - rewrite app_length. cbn. lia.
Qed.
Lemma decoded_valid b s : modified_utf8_to_string b = Ok s -> validate_wtf8 s = Ok tt.
Proof.
  unfold modified_utf8_to_string. intros H.
  repeat match type of H with
  | bind ?x _ = _ => destruct x eqn:?; try discriminate; cbn [bind] in H
  | (if ?c then _ else _) = _ => destruct c; try discriminate
  end;
  unfold from_bytes in *;
  repeat match goal with
  | H : bind (validate_wtf8 ?x) _ = Ok _ |- _ => destruct (validate_wtf8 x) as [[]| |] eqn:?; try discriminate; cbn [bind] in H; apply CodeProofs.ok_inj in H; subst; assumption
  end.
Qed.

(** * Readers *)

(** [K]: the panics that are allowed.  [post K P l x]: what is read has [P];
    what is left is bytes, and no more than there was. *)
Definition none (k : pkind) : Prop := False.
Definition post {A} (K : pkind -> Prop) (P : A -> Prop) (l : list Z) (x : res (A * list Z)) : Prop :=
  match x with
  | Ok (a, l') => P a /\ bytes l' /\ (length l' <= length l)%nat
  | Err _ => True
  | Panic k => K k
  end.
(** For inputs shorter than [b]. *)
Definition qb {A} (K : pkind -> Prop) (b : nat) (P : A -> Prop) (r : rd A) : Prop :=
  forall l, bytes l -> (length l < b)%nat -> post K P l (r l).
Definition calmly {A} (K : pkind -> Prop) (P : A -> Prop) (x : res A) : Prop :=
  match x with Ok a => P a | Err _ => True | Panic k => K k end.
Definition any {A} (_ : A) : Prop := True.
Definition sq {S A} (K : pkind -> Prop) (b : nat) (I : S -> Prop) (r : srd S A) : Prop :=
  forall s, I s -> qb K b (fun x => I (snd x)) (r s).

Section Combinators.
Context (K : pkind -> Prop) (b : nat).
Lemma qb_bind {A B} (P : A -> Prop) (Q : B -> Prop) (r : rd A) (g : A * list Z -> res (B * list Z)) :
  qb K b P r -> (forall a, P a -> qb K b Q (fun l => g (a, l))) -> qb K b Q (fun l => bind (r l) g).
Proof.
  intros Hr Hg l Hl Hb. specialize (Hr l Hl Hb). destruct (r l) as [[a l1]| |]; cbn in *; auto. destruct Hr as (Ha & Hl1 & Hle).
  assert (Hb1 : (length l1 < b)%nat) by lia. specialize (Hg a Ha l1 Hl1 Hb1). destruct (g (a, l1)) as [[c l2]| |]; cbn in *; auto. destruct Hg as (? & ? & ?). repeat split; auto. lia.
Qed.
Lemma qb_pure {A B} (P : A -> Prop) (Q : B -> Prop) (x : res A) (g : list Z -> A -> res (B * list Z)) :
  calmly K P x -> (forall a, P a -> qb K b Q (fun l => g l a)) -> qb K b Q (fun l => bind x (g l)).
Proof. intros Hx Hg l Hl Hb. destruct x as [a| |]; cbn in *; auto. exact (Hg a Hx l Hl Hb). Qed.
Lemma qb_ret {A} (P : A -> Prop) a : P a -> qb K b P (fun l => Ok (a, l)).
Proof. intros H l Hl Hb. cbn. auto. Qed.
Lemma qb_err {A} (P : A -> Prop) e : qb K b P (fun _ => Err e).
Proof. intros l Hl Hb. exact I. Qed.
Lemma qb_panic {A} (P : A -> Prop) k : K k -> qb K b P (fun _ => Panic k).
Proof. intros Hk l Hl Hb. exact Hk. Qed.
Lemma qb_weak {A} (P Q : A -> Prop) r : qb K b P r -> (forall a, P a -> Q a) -> qb K b Q r.
Proof. intros H HPQ l Hl Hb. specialize (H l Hl Hb). destruct (r l) as [[a l1]| |]; cbn in *; auto. destruct H as (? & ? & ?); auto. Qed.
Lemma qb_any {A} (P : A -> Prop) r : qb K b P r -> qb K b any r.
Proof. intros H. eapply qb_weak; [exact H|]. intros. exact I. Qed.
Lemma calm_bind {A B} (P : A -> Prop) (Q : B -> Prop) (x : res A) (g : A -> res B) :
  calmly K P x -> (forall a, P a -> calmly K Q (g a)) -> calmly K Q (bind x g).
Proof. intros Hx Hg. destruct x; cbn in *; auto. Qed.
Lemma calm_weak {A} (P Q : A -> Prop) (x : res A) : calmly K P x -> (forall a, P a -> Q a) -> calmly K Q x.
Proof. intros H HPQ. destruct x; cbn in *; auto. Qed.
Lemma qb_take n : qb K b bytes (take n).
Proof.
  intros l Hl Hb. unfold post. destruct (take n l) as [[a r]| |] eqn:E; auto.
  - apply take_ok in E as [-> Hn]. apply Forall_app in Hl as [Ha Hr]. rewrite app_length. repeat split; auto. lia.
  - exfalso. clear Hl Hb. revert n E. induction l as [|x l IH]; intros n E; cbn in E; destruct (n <=? 0); try discriminate.
    destruct (take (n - 1) l) as [[? ?]| |] eqn:E1; try discriminate. injection E as ->. exact (IH _ E1).
Qed.
Lemma qb_u n : qb K b (fun x => 0 <= x) (rd_u n).
Proof.
  unfold rd_u. eapply qb_bind; [apply qb_take|]. intros a Ha. cbn beta iota. apply qb_ret. clear - Ha.
  enough (forall acc, 0 <= acc -> 0 <= fold_left (fun x c => x * 256 + c) a acc) by (apply H; lia).
  induction Ha as [|x l Hx _ IH]; intros acc Hacc; cbn; auto. apply IH. unfold u8 in Hx. lia.
Qed.
Lemma qb_s n : qb K b any (rd_s n).
Proof. unfold rd_s. eapply qb_bind; [apply qb_take|]. intros a Ha. cbn beta iota. apply qb_ret. exact I. Qed.
Lemma qb_times {A} (P : A -> Prop) n r : qb K b P r -> qb K b (Forall P) (rd_times n r).
Proof.
  intros Hr. induction n as [|n IH]; cbn [rd_times]; [apply qb_ret; constructor|].
  eapply qb_bind; [exact Hr|]. intros a Ha. cbn beta iota. eapply qb_bind; [exact IH|]. intros xs Hx. cbn beta iota. apply qb_ret. auto.
Qed.
Lemma qb_vec {A} k (r : rd A) : qb K b any r -> qb K b any (rd_vec k r).
Proof. intros Hr. unfold rd_vec. eapply qb_bind; [apply qb_u|]. intros a Ha. cbn beta iota. eapply qb_any, qb_times, Hr. Qed.
Lemma qb_pair {A B} (r : rd A) (q : rd B) : qb K b any r -> qb K b any q -> qb K b any (rd_pair r q).
Proof. intros Hr Hq. unfold rd_pair. eapply qb_bind; [exact Hr|]. intros a Ha. cbn beta iota. eapply qb_bind; [exact Hq|]. intros c Hc. cbn beta iota. apply qb_ret. exact I. Qed.
Lemma qb_map {A B} (h : A -> B) (P : A -> Prop) (Q : B -> Prop) (r : rd A) : qb K b P r -> (forall a, P a -> Q (h a)) -> qb K b Q (rd_map h r).
Proof. intros Hr H. unfold rd_map. eapply qb_bind; [exact Hr|]. intros a Ha. cbn beta iota. apply qb_ret. auto. Qed.
Lemma sq_lift {S A} (I : S -> Prop) (P : A -> Prop) (r : rd A) : qb K b P r -> sq K b I (lift r).
Proof. intros Hr s Hs. unfold lift. eapply qb_bind; [exact Hr|]. intros a Ha. cbn beta iota. apply qb_ret. exact Hs. Qed.
Lemma sq_pair {S A B} (I : S -> Prop) (r : srd S A) (q : srd S B) : sq K b I r -> sq K b I q -> sq K b I (srd_pair r q).
Proof.
  intros Hr Hq s Hs. unfold srd_pair. eapply qb_bind; [apply Hr, Hs|]. intros [a s1] Hs1. cbn beta iota. eapply qb_bind; [apply Hq, Hs1|].
  intros [c s2] Hs2. cbn beta iota. apply qb_ret. exact Hs2.
Qed.
Lemma sq_map {S A B} (I : S -> Prop) (h : A -> B) (r : srd S A) : sq K b I r -> sq K b I (srd_map h r).
Proof. intros Hr s Hs. unfold srd_map. eapply qb_bind; [apply Hr, Hs|]. intros [a s1] Hs1. cbn beta iota. apply qb_ret. exact Hs1. Qed.
Lemma sq_times {S A} (I : S -> Prop) n (r : srd S A) : sq K b I r -> sq K b I (srd_times n r).
Proof.
  intros Hr. induction n as [|n IH]; intros s Hs; cbn [srd_times]; [apply qb_ret; exact Hs|].
  eapply qb_bind; [apply Hr, Hs|]. intros [a s1] Hs1. cbn beta iota. eapply qb_bind; [apply IH, Hs1|]. intros [c s2] Hs2. cbn beta iota. apply qb_ret. exact Hs2.
Qed.
Lemma sq_vec {S A} (I : S -> Prop) k (r : srd S A) : sq K b I r -> sq K b I (srd_vec k r).
Proof. intros Hr s Hs. unfold srd_vec. eapply qb_bind; [apply qb_u|]. intros a Ha. cbn beta iota. apply sq_times; auto. Qed.
(** The body of an attribute is shorter than the input. *)
Lemma qb_attr {B} p (Q : B -> Prop) (known : list (list Z * rd B)) raw :
  Forall (fun x => qb K b Q (snd x)) known -> (forall r, Q (raw r)) -> qb K b Q (rd_attr p known raw).
Proof.
  intros Hk Hr. unfold rd_attr. eapply qb_bind; [apply qb_u|]. intros i _. cbn beta iota. destruct (read_wtf8 p i) as [name|]; [|apply qb_err].
  eapply qb_bind; [apply qb_u|]. intros n _. cbn beta iota. intros l Hl Hb. pose proof (qb_take n l Hl Hb) as HT.
  destruct (take n l) as [[body l1]| |] eqn:ET; cbn [bind post] in *; auto. destruct HT as (Hbody & Hl1 & Hle). apply take_ok in ET as [El _].
  destruct (assoc (list_eqb Z.eqb) name known) as [r|] eqn:EA; [|cbn; auto].
  assert (Hq : qb K b Q r).
  { clear - EA Hk. induction Hk as [|[k0 r0] t H _ IH]; cbn in EA; [discriminate|]. destruct (list_eqb Z.eqb name k0); [injection EA as <-; exact H|auto]. }
  assert (Hbb : (length body < b)%nat) by (subst l; rewrite app_length in Hb; lia). specialize (Hq body Hbody Hbb).
  destruct (r body) as [[x rest]| |]; cbn in *; auto. destruct rest; cbn; auto. destruct Hq as (? & _ & _). auto.
Qed.
End Combinators.

(** The pool only holds strings that were decoded. *)
Definition pv (p : pool) : Prop := forall i s, p i = Some (RWtf8 s) -> validate_wtf8 s = Ok tt.
Definition valid (s : list Z) : Prop := validate_wtf8 s = Ok tt.

Create HintDb qb.
Ltac calm_step :=
  cbn beta iota;
  match goal with
  | |- calmly _ _ (bind _ _) => eapply calm_bind; [solve [eauto with qb]|]
  | |- forall _, _ => intro
  | |- calmly _ _ (let '(_, _) := ?x in _) => destruct x eqn:?
  | |- calmly _ _ (if ?b then _ else _) => destruct b eqn:?
  | |- calmly _ _ (match ?x with _ => _ end) => destruct x eqn:?
  | |- calmly _ any (Ok _) => exact I
  | |- calmly _ _ (Err _) => exact I
  | |- calmly _ _ _ => solve [eauto with qb]
  end.
Ltac calm := repeat calm_step.
Ltac qb_step :=
  cbn beta iota;
  match goal with
  | |- forall _, _ => intro
  | |- qb _ _ _ (fun l => bind ?x (@?g l)) => eapply (qb_pure _ _ _ _ x g); [solve [eauto with qb]|]
  | |- qb _ _ _ (fun l => bind (@?r l) ?g) => eapply (qb_bind _ _ _ _ r g); [solve [eauto with qb]|]
  | |- qb _ _ any (fun l => Ok (?a, l)) => apply (qb_ret _ _ any a); exact I
  | |- qb _ _ _ (fun _ => Err ?e) => apply qb_err
  | |- qb _ _ _ (fun l => if ?b then _ else _) => destruct b eqn:?
  | |- qb _ _ _ (fun l => match ?x with _ => _ end) => destruct x eqn:?
  | |- qb _ _ _ _ => solve [eauto with qb]
  | |- qb _ _ ?P (fun l => ?r l) => change (qb _ _ P r); solve [eauto with qb]
  end.
Ltac qb := repeat qb_step.
#[export] Hint Resolve qb_take qb_u qb_s : qb.
Lemma qb_u' K b n : qb K b any (rd_u n). Proof. eapply qb_any, qb_u. Qed.
#[export] Hint Resolve qb_u' qb_vec qb_pair qb_times : qb.

Lemma qb_string K b : qb K b valid rd_string.
Proof.
  unfold rd_string. eapply qb_bind; [apply qb_u|]. intros n _. cbn beta iota. eapply qb_bind; [apply qb_take|]. intros a Ha. cbn beta iota.
  eapply (qb_pure _ _ valid). 2:{ intros s Hs. apply qb_ret. exact Hs. }
  pose proof (C04_mutf8_decoder_never_panics a Ha) as HP. destruct (modified_utf8_to_string a) eqn:E; cbn; auto.
  - apply (decoded_valid a). exact E.
  - discriminate.
Qed.
Lemma qb_major K b : qb K b any rd_major.  Proof. unfold rd_major. qb. Qed.
#[export] Hint Resolve qb_string qb_major : qb.
Lemma qb_version K b : qb K b any rd_version.  Proof. unfold rd_version. qb. Qed.
Lemma qb_flags K b t : qb K b any (rd_flags t).  Proof. unfold rd_flags. qb. Qed.
#[export] Hint Resolve qb_version qb_flags : qb.

(** * The constant pool *)
Definition entry_ok (e : raw_entry) : Prop := match e with RWtf8 s => valid s | _ => True end.
Lemma qb_raw K b : qb K b entry_ok rd_raw.
Proof.
  unfold rd_raw, rd_1, rd_2. eapply qb_bind; [apply qb_u|]. intros t _. cbn beta iota.
  destruct (t =? 1); [eapply qb_bind; [apply qb_string|]; intros s Hs; apply qb_ret; exact Hs|].
  repeat match goal with |- qb _ _ _ (fun l => if ?c then _ else _) => destruct c end; try apply qb_err;
  repeat (eapply qb_bind; [first [apply qb_u|apply qb_s]|]; intros ? _; cbn beta iota); apply qb_ret; exact I.
Qed.
Lemma assoc_set_Forall {V} (P : V -> Prop) k v (m : list (Z * V)) : P v -> Forall (fun x => P (snd x)) m ->
  Forall (fun x => P (snd x)) (assoc_set Z.eqb k v m).
Proof. intros Hv. induction 1 as [|[k' v'] m H1 H2 IH]; cbn; auto. destruct (k =? k'); constructor; auto. Qed.
Lemma pool_loop_ok n : forall i count m l, (length l < n)%nat -> bytes l -> Forall (fun x => entry_ok (snd x)) m ->
  post none (Forall (fun x => entry_ok (snd x))) l (rd_pool_loop Release n i count m l).
Proof.
  induction n as [|n IH]; intros i count m l Hn Hl Hm; [lia|]. cbn [rd_pool_loop]. destruct (i <? count); [|cbn; auto].
  pose proof (qb_raw none (S n) l Hl Hn) as HR. destruct (rd_raw l) as [[e l1]| |] eqn:E; cbn [bind]; auto. destruct HR as (He & Hl1 & _).
  apply rd_raw_lt in E. unfold chk_u. assert (HX : forall i', post none (Forall (fun x => entry_ok (snd x))) l (rd_pool_loop Release n i' count (assoc_set Z.eqb i e m) l1)).
  { intros i'. specialize (IH i' count (assoc_set Z.eqb i e m) l1). destruct (rd_pool_loop _ _ _ _ _ _) as [[x l2]| |]; cbn in *; auto.
    - destruct IH as (? & ? & ?); auto; [lia|apply assoc_set_Forall; auto|]. repeat split; auto. lia.
    - apply IH; auto; [lia|apply assoc_set_Forall; auto]. }
  destruct (_ && _)%bool; cbn [bind]; apply HX.
Qed.
Lemma post_K {A} (K : pkind -> Prop) (P : A -> Prop) l x : post none P l x -> post K P l x.
Proof. destruct x as [[]| |]; cbn; auto. intros []. Qed.
Lemma qb_pool K b : qb K b (fun m => pv (pool_of m)) (rd_pool Release).
Proof.
  unfold rd_pool. eapply qb_bind; [apply qb_u|]. intros c _. cbn beta iota. intros l Hl Hb. apply post_K.
  pose proof (pool_loop_ok (S (length l)) 1 c [] l (Nat.lt_succ_diag_r _) Hl (Forall_nil _)) as H.
  destruct (rd_pool_loop _ _ _ _ _ _) as [[m l1]| |]; cbn in *; auto. destruct H as (Hm & ? & ?). repeat split; auto.
  intros i s E. unfold pool_of in E. clear - Hm E. induction Hm as [|[k e] m He _ IH]; cbn in E; [discriminate|]. destruct (i =? k); auto.
  injection E as ->. exact He.
Qed.
#[export] Hint Resolve qb_pool : qb.

Definition oall {A} (P : A -> Prop) (o : option A) : Prop := match o with Some a => P a | None => True end.
Ltac known := repeat match goal with |- Forall _ (_ :: _) => apply Forall_cons | |- Forall _ [] => apply Forall_nil end; cbn [snd].
Section Pool.
Context (K : pkind -> Prop) (p : pool).
Hypothesis Hp : pv p.
Lemma read_wtf8_valid i : oall valid (read_wtf8 p i).
Proof. unfold read_wtf8. destruct (p i) as [[]|] eqn:E; cbn; auto. exact (Hp _ _ E). Qed.
Lemma read_indirect_valid t i : oall valid (read_indirect_str t p i).
Proof. unfold read_indirect_str. destruct (p i) as [[]|]; cbn; auto; destruct (t =? _); cbn; auto; apply read_wtf8_valid. Qed.
Lemma parse_calm s : valid s -> calmly K any (parse_type Release s).
Proof.
  intros Hs. destruct (parse_type Release s) eqn:E; cbn; auto; [exact I|]. destruct (C31_no_panic_partial _ _ _ Hs E) as [H _]. discriminate.
Qed.
Lemma parse_ok_calm s : valid s -> calmly K any (parse_ok Release s).
Proof. intros Hs. unfold parse_ok. pose proof (parse_calm s Hs) as H. destruct (parse_type Release s); cbn in *; auto; exact I. Qed.
Lemma nameandtype_calm i : calmly K any (read_nameandtype Release p i).
Proof.
  unfold read_nameandtype. destruct (p i) as [[]|]; try exact I. pose proof (read_wtf8_valid t) as Ht.
  destruct (read_wtf8 p n); [|exact I]. destruct (read_wtf8 p t); [|exact I]. eapply calm_bind; [apply parse_ok_calm; exact Ht|]. intros. exact I.
Qed.
Lemma member_calm i : calmly K any (read_member Release p i).
Proof.
  unfold read_member. destruct (p i) as [[]|]; try exact I; destruct (read_indirect_str 7 p c); try exact I;
  (eapply calm_bind; [apply nameandtype_calm|]; intros; exact I).
Qed.
Lemma handle_calm i : calmly K any (read_method_handle Release p i).
Proof. unfold read_method_handle. destruct (p i) as [[]|]; try exact I. eapply calm_bind; [apply member_calm|]. intros; exact I. Qed.
Lemma constant_calm i : calmly K any (read_constant Release p i).
Proof.
  unfold read_constant. destruct (p i) as [[]|]; try exact I; try (eapply calm_bind; [apply member_calm|]; intros; exact I).
  pose proof (read_wtf8_valid d) as Hd. destruct (read_wtf8 p d); [|exact I]. eapply calm_bind; [apply parse_ok_calm; exact Hd|]. intros; exact I.
Qed.
Lemma qb_idx b {A} (P : A -> Prop) (f : Z -> res (option A)) : (forall i, calmly K (oall P) (f i)) -> qb K b P (rd_idx f).
Proof.
  intros Hf. unfold rd_idx. eapply qb_bind; [apply qb_u|]. intros i _. cbn beta iota. eapply qb_pure; [apply Hf|]. intros [a|] Ha; [apply qb_ret; exact Ha|apply qb_err].
Qed.
Lemma qb_opt b {A} (f : Z -> res (option A)) : (forall i, calmly K any (f i)) -> qb K b any (rd_opt f).
Proof.
  intros Hf. unfold rd_opt. eapply qb_bind; [apply qb_u|]. intros i _. cbn beta iota. destruct (i =? 0); [apply qb_ret; exact I|].
  eapply qb_pure; [apply Hf|]. intros [a|] Ha; [apply qb_ret; exact I|apply qb_err].
Qed.
Lemma oall_any {A} (x : res (option A)) : calmly K any x -> calmly K (oall any) x.
Proof. intros H. eapply calm_weak; [exact H|]. intros [a|] _; exact I. Qed.
Lemma any_ok {A} (a : A) : calmly K any (Ok a). Proof. exact I. Qed.
Lemma qb_cow b : qb K b valid (rd_cow p).
Proof. apply qb_idx. intros i. apply read_wtf8_valid. Qed.
Lemma qb_cow' b : qb K b any (rd_cow p). Proof. eapply qb_any, qb_cow. Qed.
Lemma qb_opt_cow b : qb K b any (rd_opt_cow p). Proof. apply qb_opt. intros. exact I. Qed.
Lemma qb_strcp b t : qb K b valid (rd_strcp t p).
Proof. apply qb_idx. intros i. apply read_indirect_valid. Qed.
Lemma qb_strcp' b t : qb K b any (rd_strcp t p). Proof. eapply qb_any, qb_strcp. Qed.
Lemma qb_class b : qb K b any (rd_class p). Proof. apply qb_strcp'. Qed.
Lemma qb_opt_strcp b t : qb K b any (rd_opt_strcp t p). Proof. apply qb_opt. intros. exact I. Qed.
Lemma qb_type b : qb K b any (rd_type Release p).
Proof.
  unfold rd_type. eapply qb_bind; [apply qb_cow|]. intros s Hs. cbn beta iota. eapply qb_pure; [apply parse_calm, Hs|]. intros t _. apply qb_ret. exact I.
Qed.
Lemma qb_opt_nametype b : qb K b any (rd_opt_nametype Release p). Proof. apply qb_opt. intros. apply nameandtype_calm. Qed.
Lemma qb_member b : qb K b any (rd_member Release p). Proof. apply qb_idx. intros. apply oall_any, member_calm. Qed.
Lemma qb_cint b : qb K b any (rd_cint p). Proof. apply qb_idx. intros i. destruct (read_int p i); exact I. Qed.
Lemma qb_clong b : qb K b any (rd_clong p). Proof. apply qb_idx. intros i. destruct (read_long p i); exact I. Qed.
Lemma qb_cfloat b : qb K b any (rd_cfloat p). Proof. apply qb_idx. intros i. destruct (read_float p i); exact I. Qed.
Lemma qb_cdouble b : qb K b any (rd_cdouble p). Proof. apply qb_idx. intros i. destruct (read_double p i); exact I. Qed.
Lemma qb_sig b {A} (q : sp A) : (forall s, is_panic (from_str q s) = false) -> qb K b any (rd_sig q p).
Proof.
  intros Hq. unfold rd_sig. eapply qb_bind; [apply qb_cow|]. intros s Hs. cbn beta iota. destruct (lossy_valid s Hs) as (t & cs & Ht & Hcs).
  eapply (qb_pure _ _ (fun x => x = t)); [rewrite Ht; reflexivity|]. intros x ->. cbn beta iota.
  eapply (qb_pure _ _ any); [rewrite Hcs; exact I|]. intros c _. cbn beta iota.
  eapply (qb_pure _ _ any); [|intros; apply qb_ret; exact I]. specialize (Hq c). destruct (from_str q c); try exact I. discriminate.
Qed.
Lemma qb_rsig b : qb K b any (rd_sig (p_rsig Release) p).
Proof. apply qb_sig. intros s. apply (C69_signatures_total_partial Release s). auto. Qed.
Lemma qb_msig b : qb K b any (rd_sig (p_method Release) p).
Proof. apply qb_sig. intros s. apply (C69_signatures_total_partial Release s). auto. Qed.
Lemma qb_csig b : qb K b any (rd_sig (p_classsig Release) p).
Proof. apply qb_sig. intros s. apply (C69_signatures_total_partial Release s). auto. Qed.

(** * Annotations *)
Lemma qb_pairs b (r : rd aval) n m : qb K b any r -> qb K b any (rd_pairs p r n m).
Proof.
  intros Hr. revert m. induction n as [|n IH]; intros m; cbn [rd_pairs]; [apply qb_ret; exact I|].
  eapply qb_bind; [apply qb_cow'|]. intros k _. cbn beta iota. eapply qb_bind; [exact Hr|]. intros v _. cbn beta iota. apply IH.
Qed.
Lemma qb_vals_with b r : qb K b any r -> qb K b any (rd_vals_with p r).
Proof. intros Hr. unfold rd_vals_with. eapply qb_bind; [apply qb_u|]. intros k _. cbn beta iota. apply qb_pairs; auto. Qed.
(** an input shorter than the fuel *)
Lemma qb_aval_n n : qb K n any (rd_aval_n Release p n).
Proof.
  induction n as [|n IH]; intros l Hl Hb; [lia|]. cbn [rd_aval_n].
  assert (HG : forall t, qb K n any (fun l =>
    if t =? 66 then r <- rd_cint p l ;; in_range (-128) 127 VByte r
    else if t =? 67 then r <- rd_cint p l ;; in_range 0 65535 VChar r
    else if t =? 68 then '(x, l) <- rd_cdouble p l ;; Ok (VDouble x, l)
    else if t =? 70 then '(x, l) <- rd_cfloat p l ;; Ok (VFloat x, l)
    else if t =? 73 then '(x, l) <- rd_cint p l ;; Ok (VInt x, l)
    else if t =? 74 then '(x, l) <- rd_clong p l ;; Ok (VLong x, l)
    else if t =? 83 then r <- rd_cint p l ;; in_range (-32768) 32767 VShort r
    else if t =? 90 then
      '(x, l) <- rd_cint p l ;;
      if x =? 1 then Ok (VBoolean true, l)
      else if x =? 0 then Ok (VBoolean false, l) else Err EInvalid
    else if t =? 115 then '(s, l) <- rd_cow p l ;; Ok (VString s, l)
    else if t =? 101 then
      '(t, l) <- rd_type Release p l ;; '(n, l) <- rd_cow p l ;; Ok (VEnum t n, l)
    else if t =? 99 then
      '(s, l) <- rd_cow p l ;;
      if list_eqb Z.eqb s s_V then Ok (VClass None, l)
      else t <- parse_type Release s ;; Ok (VClass (Some t), l)
    else if t =? 64 then
      '(t, l) <- rd_type Release p l ;;
      '(vs, l) <- rd_vals_with p (rd_aval_n Release p n) l ;; Ok (VAnnotation t vs, l)
    else if t =? 91 then
      '(k, l) <- rd_u16 l ;;
      '(vs, l) <- rd_times (Z.to_nat k) (rd_aval_n Release p n) l ;; Ok (VArray vs, l)
    else Err EInvalid)).
  { intros t. unfold in_range.
    repeat match goal with |- qb _ _ _ (fun l => if ?c then _ else _) => destruct c end; try apply qb_err;
    (eapply qb_bind; [first [apply qb_cint|apply qb_cdouble|apply qb_cfloat|apply qb_clong|apply qb_cow|apply qb_type|apply qb_u]|]); intros x Hx; cbn beta iota;
    repeat match goal with |- qb _ _ _ (fun l => if ?c then _ else _) => destruct c end; try apply qb_err; try (apply qb_ret; exact I).
    - eapply qb_bind; [apply qb_cow|]. intros; apply qb_ret; exact I.
    - eapply qb_pure; [apply parse_calm, Hx|]. intros; apply qb_ret; exact I.
    - eapply qb_bind; [apply qb_vals_with, IH|]. intros; apply qb_ret; exact I.
    - eapply qb_bind; [apply qb_times, IH|]. intros; apply qb_ret; exact I. }
  pose proof (qb_u K (S n) 1 l Hl Hb) as HU. fold rd_u8 in HU. destruct (rd_u8 l) as [[t l1]| |] eqn:E; cbn [bind post] in *; auto.
  destruct HU as (_ & Hl1 & _). apply rd_u_lt in E; [|lia]. assert (Hb1 : (length l1 < n)%nat) by lia. specialize (HG t l1 Hl1 Hb1).
  cbn beta in HG. match goal with |- post _ _ _ ?x => destruct x as [[? ?]| |] end; cbn [post] in *; auto. destruct HG as (? & ? & ?). repeat split; auto. lia.
Qed.
Lemma qb_aval b : qb K b any (rd_aval Release p).
Proof. intros l Hl Hb. apply qb_aval_n; auto. Qed.
Lemma rd_vals_eq l : rd_vals Release p l = rd_vals_with p (rd_aval_n Release p (length l)) l.
Proof. reflexivity. Qed.
Lemma qb_vals b : qb K b any (rd_vals Release p).
Proof.
  intros l Hl Hb. unfold rd_vals, rd_vals_with. pose proof (qb_u K b 2 l Hl Hb) as HU. fold rd_u16 in HU. destruct (rd_u16 l) as [[t l1]| |] eqn:E; cbn [bind post] in *; auto.
  destruct HU as (_ & Hl1 & Hle). apply rd_u_lt in E; [|lia].
  pose proof (qb_pairs (length l) (rd_aval_n Release p (length l)) (Z.to_nat t) [] (qb_aval_n _) l1 Hl1 E) as H.
  destruct (rd_pairs _ _ _ _ _) as [[? ?]| |]; cbn [post] in *; auto. destruct H as (? & ? & ?). repeat split; auto. lia.
Qed.
Lemma qb_annot b : qb K b any (rd_annot Release p).
Proof. unfold rd_annot. eapply qb_bind; [apply qb_type|]. intros t _. cbn beta iota. eapply qb_bind; [apply qb_vals|]. intros v _. cbn beta iota. apply qb_ret. exact I. Qed.
Lemma qb_annots b : qb K b any (rd_annots Release p). Proof. apply qb_vec, qb_annot. Qed.
Lemma qb_class_target b : qb K b any rd_class_target. Proof. unfold rd_class_target. qb. Qed.
Lemma qb_method_target b : qb K b any rd_method_target. Proof. unfold rd_method_target. qb. Qed.
Lemma qb_field_target b : qb K b any rd_field_target. Proof. unfold rd_field_target. qb. Qed.
Lemma qb_tpath b : qb K b any rd_tpath. Proof. unfold rd_tpath. qb. Qed.
Lemma qb_tannot_rest b {T} (t : T) : qb K b any (rd_tannot_rest Release p t).
Proof.
  unfold rd_tannot_rest. eapply qb_bind; [apply qb_vec, qb_tpath|]. intros pa _. cbn beta iota. eapply qb_bind; [apply qb_type|]. intros y _. cbn beta iota.
  eapply qb_bind; [apply qb_vals|]. intros v _. cbn beta iota. apply qb_ret. exact I.
Qed.
Lemma qb_tannot b {T} (r : rd T) : qb K b any r -> qb K b any (rd_tannot r Release p).
Proof. intros Hr. unfold rd_tannot. eapply qb_bind; [exact Hr|]. intros t _. cbn beta iota. apply qb_tannot_rest. Qed.

(** * Attributes of fields, methods and classes *)
Lemma qb_none b : qb K b any rd_none. Proof. apply qb_ret. exact I. Qed.
Lemma any_map b {A B} (h : A -> B) (r : rd A) : qb K b any r -> qb K b any (rd_map h r).
Proof. intros H. eapply qb_map; [exact H|]. intros; exact I. Qed.
Lemma qb_fattr b : qb K b any (rd_fattr Release p).
Proof.
  apply qb_attr; [|intros; exact I]. unfold fattr_known. known; apply any_map;
  first [apply qb_none|apply qb_rsig|apply qb_annots|apply qb_vec, qb_tannot, qb_field_target|apply qb_idx; intros; apply oall_any, constant_calm].
Qed.
Lemma qb_field b : qb K b any (rd_field Release p).
Proof. unfold rd_field. apply any_map. repeat apply qb_pair; [apply qb_flags|apply qb_cow'|apply qb_type|apply qb_vec, qb_fattr]. Qed.
Lemma qb_mparam b : qb K b any (rd_mparam p).
Proof. unfold rd_mparam. apply any_map. repeat apply qb_pair; [apply qb_opt_cow|apply qb_flags]. Qed.
Lemma qb_require b : qb K b any (rd_require p).
Proof. unfold rd_require. apply any_map. repeat apply qb_pair; auto using qb_strcp', qb_flags, qb_opt_cow. Qed.
Lemma qb_exopen b : qb K b any (rd_exopen p).
Proof. unfold rd_exopen. apply any_map. repeat apply qb_pair; auto using qb_strcp', qb_flags, qb_vec. Qed.
Lemma qb_provide b : qb K b any (rd_provide p).
Proof. unfold rd_provide. apply any_map. repeat apply qb_pair; auto using qb_class, qb_vec. Qed.
Lemma qb_module b : qb K b any (rd_module p).
Proof.
  unfold rd_module. apply any_map. repeat apply qb_pair;
  auto using qb_strcp', qb_flags, qb_opt_cow, qb_vec, qb_require, qb_exopen, qb_provide, qb_class.
Qed.
Lemma qb_inner_class b : qb K b any (rd_inner_class p).
Proof. unfold rd_inner_class. apply any_map. repeat apply qb_pair; auto using qb_class, qb_opt_strcp, qb_opt_cow, qb_flags. Qed.
Lemma qb_debug_ext b : qb K b any rd_debug_ext.
Proof.
  intros l Hl Hb. unfold rd_debug_ext. pose proof (C04_mutf8_decoder_never_panics l Hl) as H. destruct (modified_utf8_to_string l); cbn in *; auto.
  - split; [exact I|]. split; [constructor|lia].
  - discriminate.
Qed.

(** * Dynamic constants: the cells that wait for the table are distinct *)
Definition cells_ok (s : rst) : Prop := NoDup (map snd (r_refs s)) /\ Forall (fun r => snd r < r_next s) (r_refs s).
Lemma dyn_at_calm c nt s : cells_ok s -> calmly K (fun x => cells_ok (snd x)) (read_dyn_at Release p c nt s).
Proof.
  intros [Hn Hf]. unfold read_dyn_at. eapply calm_bind; [apply nameandtype_calm|]. intros [[n t]|] _; cbn; [|split; auto]. split; cbn [r_refs r_next].
  - rewrite map_app. cbn [map snd]. pose proof (Add_app (r_next s) (map snd (r_refs s)) []) as HA. rewrite app_nil_r in HA. apply (NoDup_Add HA).
    split; auto. intros Hin. apply in_map_iff in Hin as (x & Ex & Hx). rewrite Forall_forall in Hf. specialize (Hf x Hx). lia.
  - apply Forall_app. split; [eapply Forall_impl; [|exact Hf]; cbn; intros; lia|]. constructor; [cbn; lia|constructor].
Qed.
Lemma dynamic_calm i s : cells_ok s -> calmly K (fun x => cells_ok (snd x)) (read_dynamic Release p i s).
Proof. intros Hs. unfold read_dynamic. destruct (p i) as [[]|]; auto using dyn_at_calm. Qed.
Lemma invokedynamic_calm i s : cells_ok s -> calmly K (fun x => cells_ok (snd x)) (read_invokedynamic Release p i s).
Proof. intros Hs. unfold read_invokedynamic. destruct (p i) as [[]|]; auto using dyn_at_calm. Qed.
Lemma sq_bsm_arg b : sq K b cells_ok (rd_bsm_arg Release p).
Proof.
  intros s Hs. unfold rd_bsm_arg. eapply qb_bind; [apply qb_u|]. intros i _. cbn beta iota.
  eapply (qb_pure _ _ (fun x : option (ordyn constant) * rst => cells_ok (snd x))).
  - unfold read_or_dynamic. eapply calm_bind; [apply dynamic_calm, Hs|]. intros [[d|] s1] Hs1; cbn beta iota; [exact Hs1|].
    eapply calm_bind; [apply constant_calm|]. intros k _. exact Hs1.
  - intros [[a|] s1] Hs1; cbn beta iota; [apply qb_ret; exact Hs1|apply qb_err].
Qed.
Lemma sq_bsm b : sq K b cells_ok (rd_bsm Release p).
Proof.
  intros s Hs. unfold rd_bsm. eapply qb_bind; [apply qb_idx; intros; apply oall_any, handle_calm|]. intros h _. cbn beta iota.
  eapply qb_bind; [apply qb_u|]. intros n _. cbn beta iota. eapply qb_bind; [apply sq_times; [apply sq_bsm_arg|exact Hs]|].
  intros [xs s1] Hs1. cbn beta iota. apply qb_ret. exact Hs1.
Qed.
Lemma just_map b {S A B} (I : S -> Prop) (s : S) (h : A -> B) (r : rd A) : I s -> qb K b any r ->
  qb K b (fun x : B * S => I (snd x)) (rd_map (fun a => (h a, s)) r).
Proof. intros Hs Hr. eapply qb_map; [exact Hr|]. intros a _. exact Hs. Qed.
Lemma sq_cattr b : sq K b cells_ok (rd_cattr Release p).
Proof.
  intros s Hs. unfold rd_cattr. apply qb_attr; [|intros; exact Hs]. unfold cattr_known.
  known; try (apply just_map; [exact Hs|]);
  first [apply qb_none|apply qb_csig|apply qb_annots|apply qb_vec, qb_tannot, qb_class_target|apply qb_cow'|apply qb_vec, qb_inner_class|apply qb_debug_ext
        |apply qb_module|apply qb_class|apply qb_vec, qb_class|apply qb_vec, qb_strcp'|idtac].
  - apply qb_pair; [apply qb_class|apply qb_opt_nametype].
  - eapply qb_map; [apply sq_vec; [apply sq_bsm|exact Hs]|]. intros [bs s1] Hs1. exact Hs1.
Qed.
Lemma sq_method_with b {C} (rc : pool -> srd rst C) : sq K b cells_ok (rc p) -> sq K b cells_ok (rd_method rc Release p).
Proof.
  intros Hc. unfold rd_method. apply sq_map. apply sq_pair; [eapply sq_lift, qb_flags|]. apply sq_pair; [eapply sq_lift, qb_cow|].
  apply sq_pair; [eapply sq_lift, qb_type|]. apply sq_vec. intros s Hs. unfold rd_mattr. apply qb_attr; [|intros; exact Hs]. unfold mattr_known.
  known; try (apply just_map; [exact Hs|]);
  first [apply qb_none|apply qb_msig|apply qb_annots|apply qb_vec, qb_tannot, qb_method_target|apply qb_vec, qb_annots|apply qb_vec, qb_class|apply qb_aval|apply qb_vec, qb_mparam|idtac].
  eapply qb_map; [apply Hc, Hs|]. intros [c s1] Hs1. exact Hs1.
Qed.

(** * Code *)
Definition refs_ok (s : cst) : Prop := cells_ok (k_refs s).
Lemma get_label_refs i s : refs_ok s -> refs_ok (snd (get_label i s)).
Proof. intros H. unfold get_label. destruct (assoc _ _ _); exact H. Qed.
Lemma sq_label b : sq K b refs_ok rd_label.
Proof. intros s Hs. unfold rd_label. eapply qb_bind; [apply qb_u|]. intros i _. cbn beta iota. apply qb_ret. apply get_label_refs, Hs. Qed.
Lemma sq_catch b : sq K b refs_ok rd_catch.
Proof. intros s Hs. unfold rd_catch. eapply qb_bind; [apply qb_u|]. intros i _. cbn beta iota. destruct (get_catch i s); [apply qb_ret; exact Hs|apply qb_err]. Qed.
Lemma sq_vtype b : sq K b refs_ok (rd_vtype p).
Proof.
  intros s Hs. unfold rd_vtype. eapply qb_bind; [apply qb_u|]. intros t _. cbn beta iota.
  repeat match goal with |- qb _ _ _ (fun l => if ?c then _ else _) => destruct c end; try apply qb_err; try (apply qb_ret; exact Hs).
  - eapply qb_bind; [apply qb_class|]. intros c _. cbn beta iota. apply qb_ret. exact Hs.
  - eapply qb_bind; [apply sq_label, Hs|]. intros [c s1] Hs1. cbn beta iota. apply qb_ret. exact Hs1.
Qed.
Lemma sq_frame b : sq K b refs_ok (rd_frame p).
Proof.
  intros s Hs. unfold rd_frame. eapply qb_bind; [apply qb_u|]. intros t _. cbn beta iota.
  repeat match goal with |- qb _ _ _ (fun l => if ?c then _ else _) => destruct c end; try apply qb_err; try (apply qb_ret; exact Hs).
  - eapply qb_bind; [apply sq_vtype, Hs|]. intros [c s1] Hs1. apply qb_ret. exact Hs1.
  - eapply qb_bind; [apply qb_u|]. intros d _. cbn beta iota. eapply qb_bind; [apply sq_vtype, Hs|]. intros [c s1] Hs1. apply qb_ret. exact Hs1.
  - eapply qb_bind; [apply qb_u|]. intros d _. apply qb_ret. exact Hs.
  - eapply qb_bind; [apply qb_u|]. intros d _. apply qb_ret. exact Hs.
  - eapply qb_bind; [apply qb_u|]. intros d _. cbn beta iota. eapply qb_bind; [apply sq_times; [apply sq_vtype|exact Hs]|]. intros [c s1] Hs1. apply qb_ret. exact Hs1.
  - eapply qb_bind; [apply qb_u|]. intros d _. cbn beta iota. eapply qb_bind; [apply sq_vec; [apply sq_vtype|exact Hs]|]. intros [c s1] Hs1. cbn beta iota.
    eapply qb_bind; [apply sq_vec; [apply sq_vtype|exact Hs1]|]. intros [c' s2] Hs2. apply qb_ret. exact Hs2.
Qed.
Lemma sq_lvt b : sq K b refs_ok rd_lvt.
Proof.
  intros s Hs. unfold rd_lvt. eapply qb_bind; [apply qb_u|]. intros i _. cbn beta iota. pose proof (get_label_refs i s Hs) as H1. destruct (get_label i s) as [la s1].
  eapply qb_bind; [apply qb_u|]. intros d _. cbn beta iota. pose proof (get_label_refs (i + d) s1 H1) as H2. destruct (get_label (i + d) s1) as [lb s2].
  eapply qb_bind; [apply qb_u|]. intros x _. apply qb_ret. exact H2.
Qed.
Lemma sq_label_u8 b : sq K b refs_ok rd_label_u8.
Proof. apply sq_pair; [apply sq_label|eapply sq_lift, qb_u]. Qed.
Lemma sq_code_target b : sq K b refs_ok rd_code_target.
Proof.
  intros s Hs. unfold rd_code_target. eapply qb_bind; [apply qb_u|]. intros t _. cbn beta iota.
  repeat match goal with |- qb _ _ _ (fun l => if ?c then _ else _) => destruct c end; try apply qb_err;
  (apply sq_map; [|exact Hs]); first [apply sq_vec, sq_lvt|apply sq_catch|apply sq_label|apply sq_label_u8].
Qed.
Lemma sq_code_tannot b : sq K b refs_ok (rd_code_tannot Release p).
Proof.
  intros s Hs. unfold rd_code_tannot. eapply qb_bind; [apply sq_code_target, Hs|]. intros [t s1] Hs1. cbn beta iota.
  eapply qb_bind; [apply qb_tannot_rest|]. intros a _. apply qb_ret. exact Hs1.
Qed.
Lemma qb_lvrow b {A} (r : rd A) : qb K b any r -> qb K b any (rd_lvrow p r).
Proof. intros Hr. unfold rd_lvrow. apply any_map. repeat apply qb_pair; first [exact Hr|apply qb_cow'|apply qb_u']. Qed.
Lemma sq_fcattr b : sq K b refs_ok (rd_fcattr Release p).
Proof.
  intros s Hs. unfold rd_fcattr. apply qb_attr; [|intros; exact Hs]. unfold fcattr_known.
  known; try (apply just_map; [exact Hs|]).
  - apply qb_vec, qb_pair; apply qb_u'.
  - apply qb_vec, qb_lvrow, qb_type.
  - apply qb_vec, qb_lvrow, qb_rsig.
  - apply sq_map; [apply sq_vec, sq_code_tannot|exact Hs].
  - apply sq_map; [apply sq_vec, sq_code_tannot|exact Hs].
  - apply sq_map; [apply sq_vec, sq_frame|exact Hs].
Qed.
Lemma sq_handler b : sq K b refs_ok (rd_handler p).
Proof.
  intros s Hs. unfold rd_handler. eapply qb_bind; [apply sq_label, Hs|]. intros [a s1] H1. cbn beta iota. eapply qb_bind; [apply sq_label, H1|]. intros [a2 s2] H2. cbn beta iota.
  eapply qb_bind; [apply sq_label, H2|]. intros [a3 s3] H3. cbn beta iota. eapply qb_bind; [apply qb_u|]. intros i _. cbn beta iota.
  destruct (i =? 0); [apply qb_ret; exact H3|]. destruct (read_indirect_str 7 p i); [apply qb_ret; exact H3|apply qb_err].
Qed.
End Pool.
