(** Lemmas about [Base]. *)
From Verif Require Import Base.

Lemma bind_ok {A B} (x : res A) (f : A -> res B) b :
  bind x f = Ok b -> exists a, x = Ok a /\ f a = Ok b.
Proof. destruct x; cbn; intros H; try discriminate; eauto. Qed.

Ltac inv_bind H :=
  let a := fresh "v" in let E := fresh "E" in
  apply bind_ok in H; destruct H as (a & E & H).

Lemma list_eqb_eq {A} (eqb : A -> A -> bool)
  (Heq : forall a b, eqb a b = true <-> a = b) :
  forall a b, list_eqb eqb a b = true <-> a = b.
Proof.
  induction a as [|x a IH]; destruct b as [|y b]; cbn; split; intros H;
    try discriminate; auto.
  - apply andb_prop in H as [H1 H2]. apply Heq in H1. apply IH in H2. congruence.
  - inversion H; subst. apply andb_true_intro. split; [apply Heq|apply IH]; auto.
Qed.

Lemma opt_eqb_eq {A} (eqb : A -> A -> bool)
  (Heq : forall a b, eqb a b = true <-> a = b) :
  forall a b, opt_eqb eqb a b = true <-> a = b.
Proof.
  destruct a, b; cbn; split; intros H; try discriminate; auto.
  - apply Heq in H. congruence.
  - inversion H. apply Heq. auto.
Qed.

Lemma len_nonneg {A} (l : list A) : 0 <= len l.
Proof. unfold len. lia. Qed.
Lemma len_app {A} (a b : list A) : len (a ++ b) = len a + len b.
Proof. unfold len. rewrite app_length. lia. Qed.
Lemma len_cons {A} (x : A) l : len (x :: l) = len l + 1.
Proof. unfold len. cbn [length]. lia. Qed.
Lemma len_nil {A} : len (@nil A) = 0.
Proof. reflexivity. Qed.

(** Bit operations as arithmetic. *)
Lemma land_mod x k n : n = 2 ^ k - 1 -> 0 <= k -> Z.land x n = x mod 2 ^ k.
Proof.
  intros -> Hk. rewrite <- Z.land_ones by lia. f_equal.
  rewrite Z.ones_equiv. lia.
Qed.

Lemma lor_add x t k : 0 <= k -> 0 <= x < 2 ^ k -> t mod 2 ^ k = 0 -> Z.lor x t = x + t.
Proof.
  intros Hk Hx Ht.
  assert (Hl : Z.land x t = 0).
  { apply Z.bits_inj'. intros n Hn. rewrite Z.land_spec, Z.bits_0.
    destruct (Z.ltb_spec n k) as [Hlt|Hge].
    - assert (Z.testbit t n = false) as ->; [|apply andb_false_r].
      rewrite <- (Z.mod_pow2_bits_low t k n) by lia. rewrite Ht. apply Z.bits_0.
    - assert (Z.testbit x n = false) as ->; [|reflexivity].
      rewrite <- (Z.mod_small x (2^k)) by lia. apply Z.mod_pow2_bits_high. lia. }
  rewrite Z.add_nocarry_lxor by auto. symmetry. apply Z.lxor_lor; auto.
Qed.

Lemma lor_add' t x k : 0 <= k -> 0 <= x < 2 ^ k -> t mod 2 ^ k = 0 -> Z.lor t x = t + x.
Proof. intros. rewrite Z.lor_comm, (lor_add x t k) by auto. lia. Qed.

Lemma assoc_set_same {K V} (eqb : K -> K -> bool)
  (Heq : forall a b, eqb a b = true <-> a = b) k v (m : list (K * V)) :
  assoc eqb k (assoc_set eqb k v m) = Some v.
Proof.
  induction m as [|[k' v'] m IH]; cbn.
  - assert (eqb k k = true) as -> by (apply Heq; auto). reflexivity.
  - destruct (eqb k k') eqn:E; cbn; rewrite E; auto.
Qed.

Lemma assoc_set_other {K V} (eqb : K -> K -> bool)
  (Heq : forall a b, eqb a b = true <-> a = b) k k0 v (m : list (K * V)) :
  k0 <> k -> assoc eqb k0 (assoc_set eqb k v m) = assoc eqb k0 m.
Proof.
  intros Hne. induction m as [|[k' v'] m IH]; cbn.
  - destruct (eqb k0 k) eqn:E; auto. apply Heq in E. congruence.
  - destruct (eqb k k') eqn:E; cbn.
    + apply Heq in E; subst. destruct (eqb k0 k') eqn:E0; auto.
      apply Heq in E0. congruence.
    + destruct (eqb k0 k'); auto.
Qed.
