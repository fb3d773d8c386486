(** What writing a class can come to (C83): only bytes, and few kinds of panic. *)
From Coq Require Import Lia String.
From Verif Require Import Base BaseLemmas Wtf8Spec Wtf8Model Wtf8Proofs Wtf8Proofs2 MutfModel MutfProofs PrimModel PrimProofs TypeModel TypeSpec TypeProofs
  CpModel SigModel SigSpec SigProofs AnnModel AnnProofs AttrModel FrameModel InsnModel CodeModel CodeSpec CodeProofs CodeUndef ClassModel ClassSpec ClassGrow WriteSpec LaxProofs.

(** * Texts *)
Lemma display_chars t : t_ty t -> exists s, display_type t = Ok s /\ of_chars s.
Proof.
  unfold t_ty. induction t as [| | | | | | | |n|d e IH|ps r Hps Hr] using ty_ind'; intros Hu; cbn [display_type ty_names] in *;
    try (eexists; split; [reflexivity|]; apply of_chars_ascii; repeat constructor; lia).
  - inversion Hu; subst. destruct (lossy_chars n) as (t & -> & Ht); [apply wf_lax; auto|]. eexists. split; [reflexivity|].
    apply of_chars_app; [apply of_chars_ascii; repeat constructor; lia|]. apply of_chars_app; auto. apply of_chars_ascii; repeat constructor; lia.
  - destruct (IH Hu) as (s & -> & Hs). eexists. split; [reflexivity|]. apply of_chars_app; auto using of_chars_brackets.
  - apply Forall_app in Hu as [H1 H2]. match goal with |- context [(?f ps)] => assert (HP : exists s, f ps = Ok s /\ of_chars s) end.
    { clear Hr H2. induction Hps as [|p ps Hp _ IH]; [eexists; split; [reflexivity|apply of_chars_ascii; constructor]|].
      cbn [flat_map] in H1. apply Forall_app in H1 as [H1 H2]. destruct (Hp H1) as (s & Es & Hs). destruct (IH H2) as (s' & Es' & Hs').
      rewrite Es. cbn [bind]. rewrite Es'. eexists. split; [reflexivity|]. apply of_chars_app; auto. }
    destruct HP as (s & -> & Hs). cbn [bind].
    assert (HR : exists s, match r with Some t => display_type t | None => Ok [86] end = Ok s /\ of_chars s).
    { destruct r as [t|]; [apply Hr; auto|]. eexists. split; [reflexivity|]. apply of_chars_ascii; repeat constructor; lia. }
    destruct HR as (s' & -> & Hs'). eexists. split; [reflexivity|].
    repeat apply of_chars_app; auto; apply of_chars_ascii; repeat constructor; lia.
Qed.

(** Text that ends with an ASCII character: anything may follow. *)
Definition fenced (s : list Z) : Prop := exists cps c, s = flat_map utf8 (cps ++ [c]) /\ wtf8_cps (cps ++ [c]) /\ 0 <= c < 128.
Definition text (s : list Z) : Prop := s = [] \/ fenced s.
Lemma fenced_wf s : fenced s -> lax s.
Proof. intros (cps & c & -> & H & _). apply wf_lax. exists (cps ++ [c]). split; auto. Qed.
Lemma fenced_app a b : text a -> fenced b -> fenced (a ++ b).
Proof.
  intros [->|(x & c & -> & Hx & Hc)] (y & d & -> & Hy & Hd); [exists y, d; auto|]. exists ((x ++ [c]) ++ y), d.
  rewrite <- (app_assoc (x ++ [c]) y [d]). split; [symmetry; apply flat_map_app|]. split; auto. apply wtf8_cps_app; auto. right. exists x, c. auto.
Qed.
Lemma fenced_one c : 0 <= c < 128 -> fenced [c].
Proof. intros H. exists [], c. cbn. rewrite utf8_ascii by auto. split; auto. split; auto. split; [repeat constructor; unfold is_cp; lia|cbn; auto]. Qed.
Lemma text_repeat n : text (repeat 91 n).
Proof. induction n as [|n IH]; [left; auto|]. right. change (repeat 91 (S n)) with (repeat 91 (1 + n)). rewrite repeat_app.
  destruct IH as [->|IH]; [apply fenced_one; lia|]. apply fenced_app; auto. right. apply fenced_one. lia. Qed.
Lemma fenced_text t : t_ty t -> fenced (ty_text t).
Proof.
  unfold t_ty. induction t as [| | | | | | | |n|d e IH|ps r Hps Hr] using ty_ind'; intros Hu; cbn [ty_text ty_names] in *;
    try (apply fenced_one; lia).
  - inversion Hu; subst. destruct H1 as (cps & Hc & ->). exists (76 :: cps), 59. change (76 :: flat_map utf8 cps ++ [59]) with ([76] ++ flat_map utf8 cps ++ [59]).
    rewrite flat_map_app. cbn [flat_map]. rewrite !utf8_ascii by lia. split; [reflexivity|]. split; [|lia]. apply wtf8_cps_snoc; [lia|]. apply wtf8_cps_cons; [lia|auto].
  - apply fenced_app; auto using text_repeat.
  - apply Forall_app in Hu as [H1 H2]. change (40 :: flat_map ty_text ps ++ 41 :: ?x) with ([40] ++ flat_map ty_text ps ++ [41] ++ x).
    apply fenced_app; [right; apply fenced_one; lia|]. apply fenced_app.
    + clear Hr H2. induction Hps as [|p ps Hp _ IH]; [left; auto|]. right. cbn [flat_map] in *. apply Forall_app in H1 as [H1 H2].
      specialize (Hp H1). destruct (IH H2) as [->|HF]; [rewrite app_nil_r; auto|]. apply fenced_app; [right|]; auto.
    + apply fenced_app; [right; apply fenced_one; lia|]. destruct r as [t|]; [apply Hr; auto|apply fenced_one; lia].
Qed.
Lemma type_wf t : t_ty t -> lax (type_to_wtf8 t).
Proof. intros H. rewrite type_to_wtf8_text. apply fenced_wf, fenced_text, H. Qed.
Lemma sig_wf s : chars s -> lax (sig_utf8 s).
Proof.
  intros H. apply of_chars_wf. exists s. split; auto. unfold sig_utf8. induction H as [|c l [Hc _] _ IH]; auto. cbn. rewrite encode_utf8_raw_spec, IH; auto.
Qed.
Lemma utf8_bytes c : is_cp c -> bytes (utf8 c).
Proof. intros H. unfold utf8, is_cp in *. repeat match goal with |- context [if ?b then _ else _] => destruct b eqn:? end; repeat constructor; unfold u8; lia. Qed.
(** the signatures print their texts, except that a thrown variable looks like a class *)
Lemma chars_app a b : chars (a ++ b) <-> chars a /\ chars b.
Proof. apply Forall_app. Qed.
Lemma method_chars m : chars (method_sig_text m) -> chars (d_method m).
Proof.
  rewrite d_method_text. unfold method_sig_text. cbn [ms_params ms_args ms_ret ms_throws]. rewrite !chars_app.
  intros [H1 H]. split; auto. change (?a :: ?l) with ([a] ++ l) in *. rewrite !chars_app in *. destruct H as (H2 & H3 & H). split; auto. split; auto.
  change (?a :: ?l) with ([a] ++ l) in *. rewrite !chars_app in *. destruct H as (H4 & H5 & H). split; auto. split; auto.
  unfold chars in *. rewrite Forall_forall in *. intros c Hc. apply in_concat in Hc as (x & Hx & Hc). apply in_map_iff in Hx as (t & <- & Ht).
  apply in_map_iff in Ht as (u & <- & Hu). destruct u as [n|k].
  - cbn [throws_class throws_text] in Hc. assert (HT : In c (throws_text (ThVar n)) \/ c = 76).
    { cbn in Hc |- *. destruct Hc as [<-|[<-|Hc]]; auto. }
    destruct HT as [HT| ->]; [|unfold is_cp, is_surrogate; lia]. apply H. apply in_concat. eexists. split; [apply in_map, Hu|exact HT].
  - apply H. apply in_concat. eexists. split; [apply in_map, Hu|exact Hc].
Qed.

Lemma ascii_wf s : forallb (fun c => (0 <=? c) && (c <? 128)) s = true -> lax s.
Proof.
  intros H. rewrite forallb_forall in H. assert (Hc : chars s).
  { apply Forall_forall. intros c Hc. apply H in Hc. unfold is_cp, is_surrogate. lia. }
  apply of_chars_wf. exists s. split; auto. clear Hc. induction s as [|c s IH]; auto. cbn [flat_map]. rewrite <- IH by (intros; apply H; cbn; auto).
  specialize (H c (or_introl eq_refl)). unfold utf8. destruct (c <? 128) eqn:E; [reflexivity|]. lia.
Qed.

(** * Results *)
Lemma bytes_app a b : bytes a -> bytes b -> bytes (a ++ b).
Proof. intros. apply Forall_app; auto. Qed.
Lemma bytes_zeros n : bytes (repeat 0 n).
Proof. apply Forall_forall. intros x Hx. apply repeat_spec in Hx. unfold u8. lia. Qed.
Lemma bytes_concat l : Forall bytes l -> bytes (concat l).
Proof. induction 1; cbn; [constructor|apply bytes_app; auto]. Qed.
Lemma bytes_00 : bytes [0; 0]. Proof. repeat constructor; unfold u8; lia. Qed.
Lemma bytes_0 : bytes [0]. Proof. repeat constructor; unfold u8; lia. Qed.
Lemma bytes_nil : bytes []. Proof. constructor. Qed.
Create HintDb wk.
#[global] Hint Resolve be_bytes bytes_app bytes_zeros bytes_00 bytes_0 bytes_nil of_chars_wf type_wf sig_wf : wk.

Section Kinds.
  Variable md : mode.
  Variable heap : Z -> option bsm.
  Variable trouble endless : Prop.
  Hypothesis Hheap : t_heap heap.
  Definition set (d : dynamic) : Prop := heap (d_cell d) = None -> trouble.
  Definition set_args (b : bsm) : Prop := Forall (fun o => match o with Dyn d => set d | Stat _ => True end) (b_args b).
  Hypothesis Hargs : forall c b, heap c = Some b -> set_args b.

  Definition allowed (k : pkind) : Prop := (k = POverflow /\ md = Debug) \/ (k = PUnwrap /\ trouble) \/ (k = PFuel /\ endless).
  Definition quiet {A} (Q : A -> Prop) (r : res A) : Prop :=
    match r with Ok a => Q a | Err e => e = EInvalid | Panic k => allowed k end.
  Definition t_entry (e : raw_entry) : Prop := match e with RWtf8 s => lax s | _ => True end.
  Definition inv (w : wst) : Prop := Forall t_entry (w_entries w) /\ Forall (fun b => t_bsm b /\ set_args b) (w_bsm w).
  Definition env (E : wenv) : Prop := we_md E = md /\ we_heap E = heap.
  Definition out (x : list Z * wst) : Prop := bytes (fst x) /\ inv (snd x).
  Definition idx (x : Z * wst) : Prop := inv (snd x).
  Definition wq {A} (P : wenv -> A -> Prop) (f : cwr A) : Prop := forall E a w, env E -> P E a -> inv w -> quiet out (f E a w).
  Definition iq {A} (P : wenv -> A -> Prop) (f : cins A) : Prop := forall E a w, env E -> P E a -> inv w -> quiet idx (f E a w).

  Lemma q_bind {A B} (Q : A -> Prop) (R : B -> Prop) r k : quiet Q r -> (forall a, Q a -> quiet R (k a)) -> quiet R (bind r k).
  Proof. intros H Hk. destruct r; cbn in *; auto. Qed.
  Lemma q_mono {A} (Q R : A -> Prop) r : quiet Q r -> (forall a, Q a -> R a) -> quiet R r.
  Proof. intros H Hk. destruct r; cbn in *; auto. Qed.
  Lemma q_out b w : bytes b -> inv w -> quiet out (Ok (b, w)).
  Proof. intros. split; auto. Qed.
  Lemma q_chk n x : quiet (fun _ => True) (chk_u md n x).
  Proof. unfold chk_u. destruct (_ && _); cbn; auto. destruct md eqn:E; cbn; auto. left. auto. Qed.
  Lemma q_chks n x : quiet (fun _ => True) (chk_s md n x).
  Proof. unfold chk_s. destruct (_ && _); cbn; auto. destruct md eqn:E; cbn; auto. left. auto. Qed.
  Lemma q_display t : t_ty t -> quiet lax (display_type t).
  Proof. intros H. destruct (display_chars t H) as (s & -> & Hs). cbn. auto with wk. Qed.

  (** ** The constant pool *)
  Lemma i_raw : iq (fun _ => t_entry) insert_raw.
  Proof.
    intros E e w HE He Hi. unfold insert_raw. rewrite (proj1 HE). destruct (assoc _ _ _); [exact Hi|]. eapply q_bind; [apply q_chk|]. intros l _. cbn.
    destruct Hi as [H1 H2]. split; cbn; auto. apply Forall_app. auto.
  Qed.
  Lemma i_wtf8 : iq (fun _ => lax) insert_wtf8.
  Proof. intros E e w HE He Hi. apply i_raw; auto. Qed.
  Lemma i_nt : iq (fun _ nd => lax (fst nd) /\ lax (snd nd)) insert_nameandtype.
  Proof.
    intros E e w HE [H1 H2] Hi. unfold insert_nameandtype. eapply q_bind; [apply i_wtf8; auto|]. intros [a w1] Ha. cbn beta iota.
    eapply q_bind; [apply i_wtf8; auto|]. intros [b w2] Hb. cbn beta iota. apply i_raw; cbn; auto.
  Qed.
  Lemma i_class : iq (fun _ => lax) insert_class.
  Proof. intros E e w HE H Hi. unfold insert_class. eapply q_bind; [apply i_wtf8; auto|]. intros [a w1] Ha. apply i_raw; cbn; auto. Qed.
  Lemma i_ind t : In t [7; 8; 19; 20] -> iq (fun _ => lax) (insert_indirect_str t).
  Proof.
    intros Ht E e w HE H Hi. unfold insert_indirect_str. eapply q_bind; [apply i_wtf8; auto|]. intros [a w1] Ha. cbn beta iota.
    destruct Ht as [<-|[<-|[<-|[<-|[]]]]]; apply i_raw; cbn; auto.
  Qed.
  Lemma i_member : iq (fun _ => t_member) insert_member.
  Proof.
    intros E e w HE (H1 & H2 & H3) Hi. unfold insert_member. eapply q_bind; [apply i_class; auto|]. intros [a w1] Ha. cbn beta iota.
    eapply q_bind; [apply q_display; auto|]. intros d Hd. eapply q_bind; [apply i_nt; cbn; auto|]. intros [b w2] Hb. cbn beta iota.
    apply i_raw; auto. destruct (m_desc e), (m_itfs e); first [exact I|reflexivity].
  Qed.
  Lemma i_mh : iq (fun _ h => t_member (h_member h)) insert_method_handle.
  Proof. intros E e w HE H Hi. unfold insert_method_handle. eapply q_bind; [apply i_member; auto|]. intros [a w1] Ha. apply i_raw; cbn; auto. Qed.
  Lemma i_const : iq (fun _ => t_const) insert_constant.
  Proof.
    intros E e w HE H Hi. destruct e; cbn [insert_constant t_const] in *; try (apply i_raw; cbn; auto; fail).
    - apply i_ind; cbn; auto. - apply i_ind; cbn; auto. - apply i_member; auto.
    - eapply q_bind; [apply q_display; auto|]. intros d Hd. eapply q_bind; [apply i_wtf8; auto|]. intros [a w1] Ha. apply i_raw; cbn; auto.
    - apply i_mh; auto.
  Qed.
  Lemma i_dyn : iq (fun _ d => t_dyn d /\ set d) insert_dynamic.
  Proof.
    intros E d w HE [[H1 H2] H3] Hi. unfold insert_dynamic. destruct HE as [HE1 HE2]. rewrite HE2. destruct (heap (d_cell d)) as [b|] eqn:Eh.
    2: { cbn. right. left. split; auto. }
    cbn [insert_bsm bind]. assert (Hi' : inv {| w_entries := w_entries w; w_cache := w_cache w; w_len := w_len w; w_bsm := w_bsm w ++ [b] |}).
    { destruct Hi as [I1 I2]. split; cbn; auto. apply Forall_app. split; auto. constructor; auto. split; [eapply Hheap|eapply Hargs]; eauto. }
    eapply q_bind; [apply q_display; auto|]. intros t Ht. eapply q_bind; [apply i_nt; [split|split|]; cbn; auto|]. intros [n w1] Hn. cbn beta iota.
    apply i_raw; [split; auto| |exact Hn]. destruct (ty_is_method _); first [exact I|reflexivity].
  Qed.
  Definition good_or {A} (P : A -> Prop) (o : ordyn A) : Prop := t_or P o /\ match o with Dyn d => set d | _ => True end.
  Lemma i_or {A} (P : A -> Prop) f : iq (fun _ => P) f -> iq (fun _ => good_or P) (insert_ordynamic f).
  Proof. intros Hf E [d|a] w HE [H1 H2] Hi; cbn [insert_ordynamic]; [apply i_dyn; auto|apply Hf; auto]. Qed.

  (** ** Combinators *)
  Lemma k_idx {A} P (f : cins A) : iq P f -> wq P (wr_idx f).
  Proof. intros Hf E a w HE Ha Hi. unfold wr_idx. eapply q_bind; [apply Hf; auto|]. intros [i w1] H. apply q_out; auto with wk. Qed.
  Lemma k_plain {A} (P : A -> Prop) (f : wr A) : (forall a, P a -> quiet bytes (f a)) -> wq (fun _ => P) (wr_plain f).
  Proof. intros Hf E a w HE Ha Hi. unfold wr_plain. eapply q_bind; [apply Hf; auto|]. intros b Hb. apply q_out; auto. Qed.
  Lemma k_n (n : nat) : wq (fun _ _ => True) (wr_plain (wr_n n)).
  Proof. apply (k_plain (fun _ => True)). intros a _. cbn. auto with wk. Qed.
  Lemma k_each {A} P (f : cwr A) : wq P f -> wq (fun E => Forall (P E)) (wr_each f).
  Proof.
    intros Hf E l w HE Hl. revert w. induction Hl as [|a l Ha _ IH]; intros w Hi; cbn [wr_each]; [apply q_out; auto with wk|].
    eapply q_bind; [apply Hf; auto|]. intros [b w1] [Hb H1]. cbn beta iota. eapply q_bind; [apply IH; auto|]. intros [bs w2] [Hbs H2]. apply q_out; auto with wk.
  Qed.
  Lemma k_cvec {A} P k (f : cwr A) : wq P f -> wq (fun E => Forall (P E)) (wr_cvec k f).
  Proof.
    intros Hf E a w HE Ha Hi. unfold wr_cvec. destruct (_ <? _); [|reflexivity]. eapply q_bind; [apply (k_each P); auto|].
    intros [i w1] [H1 H2]. apply q_out; auto with wk.
  Qed.
  Lemma k_list16 {A} P (f : cwr A) : wq P f -> wq (fun E => Forall (P E)) (wr_list16 f).
  Proof. intros Hf E a w HE Ha Hi. unfold wr_list16. eapply q_bind; [apply (k_each P); auto|]. intros [i w1] [H1 H2]. apply q_out; auto with wk. Qed.
  Lemma k_opt {A} P (f : cwr A) : wq P f -> wq (fun E => t_opt (P E)) (wr_opt f).
  Proof. intros Hf E [a|] w HE Ha Hi; cbn [wr_opt]; [apply Hf; auto|apply q_out; auto with wk]. Qed.
  Lemma k_pair {A B} P Q (f : cwr A) (g : cwr B) : wq P f -> wq Q g -> wq (fun E ab => P E (fst ab) /\ Q E (snd ab)) (wr_pair f g).
  Proof.
    intros Hf Hg E a w HE [H1 H2] Hi. unfold wr_pair. eapply q_bind; [apply Hf; auto|]. intros [x w1] [Hx Hw1]. cbn beta iota.
    eapply q_bind; [apply Hg; auto|]. intros [y w2] [Hy Hw2]. apply q_out; auto with wk.
  Qed.
  Lemma k_via {A B} P (h : A -> B) (f : cwr B) : wq P f -> wq (fun E a => P E (h a)) (wr_via h f).
  Proof. intros Hf E a w HE H Hi. apply Hf; auto. Qed.
  Lemma k_none : wq (fun _ _ => True) wr_none.
  Proof. intros E a w HE H Hi. apply q_out; auto with wk. Qed.
  Lemma k_mono {A} (P Q : wenv -> A -> Prop) f : wq Q f -> (forall E a, P E a -> Q E a) -> wq P f.
  Proof. intros Hf H E a w HE Ha Hi. apply Hf; auto. Qed.
  Lemma k_attr {A} P n (f : cwr A) : lax n -> wq P f -> wq P (wr_attr n f).
  Proof.
    intros Hn Hf E a w HE H Hi. unfold wr_attr. eapply q_bind; [apply i_wtf8; auto|]. intros [x w1] Hx. cbn beta iota.
    eapply q_bind; [apply Hf; auto|]. intros [y w2] [Hy Hw2]. apply q_out; auto with wk.
  Qed.
  Lemma k_raw_attr : wq (fun _ => t_raw) wr_raw_attr.
  Proof. intros E a w HE [H1 H2] Hi. unfold wr_raw_attr. eapply q_bind; [apply i_wtf8; auto|]. intros [x w1] Hx. apply q_out; auto with wk. Qed.
  Lemma k_cow : wq (fun _ => lax) wr_cow. Proof. apply k_idx, i_wtf8. Qed.
  Lemma k_type : wq (fun _ => t_ty) wr_type.
  Proof. apply k_idx. intros E t w HE H Hi. apply i_wtf8; auto with wk. Qed.
  Lemma k_strcp t : In t [7; 8; 19; 20] -> wq (fun _ => lax) (wr_strcp t). Proof. intros H. apply k_idx, i_ind, H. Qed.
  Lemma k_class : wq (fun _ => lax) wr_class. Proof. apply k_strcp. cbn. auto. Qed.
  Lemma k_nametype : wq (fun _ nt => lax (fst nt) /\ t_ty (snd nt)) wr_nametype.
  Proof. apply k_idx. intros E nt w HE [H1 H2] Hi. eapply q_bind; [apply q_display; auto|]. intros t Ht. apply i_nt; cbn; auto. Qed.
  Lemma k_cflags : wq (fun _ _ => True) wr_cflags. Proof. apply k_n. Qed.
  Lemma k_sig {A} (d : A -> list Z) : wq (fun _ a => chars (d a)) (wr_sig d).
  Proof. intros E a w HE H Hi. unfold wr_sig. apply k_cow; auto with wk. Qed.
  Lemma k_bsm : wq (fun _ b => t_bsm b /\ set_args b) wr_bsm.
  Proof.
    intros E b w HE [[H1 H2] H3] Hi. unfold wr_bsm. eapply q_bind; [apply (k_idx (fun _ h => t_member (h_member h))); auto; apply i_mh|].
    intros [x w1] [Hx Hw1]. cbn beta iota. eapply q_bind.
    - apply (k_each (fun _ => good_or t_const)); auto; [apply k_idx, i_or, i_const|]. unfold set_args in H3.
      revert H2 H3. generalize (b_args b). intros l. induction 1; intros H3; inversion H3; subst; constructor; auto. split; auto.
    - intros [y w2] [Hy Hw2]. apply q_out; auto with wk.
  Qed.

  (** ** Annotations *)
  Lemma k_tagged {A} P t (f : cwr A) : wq P f -> wq P (AnnModel.wr_tagged t f).
  Proof. intros Hf E a w HE H Hi. unfold AnnModel.wr_tagged. eapply q_bind; [apply Hf; auto|]. intros [x w1] [Hx Hw1]. apply q_out; auto with wk. Qed.
  Lemma k_tagged' {A} P t (f : cwr A) : wq P f -> wq P (FrameModel.wr_tagged t f).
  Proof. intros Hf E a w HE H Hi. unfold FrameModel.wr_tagged. eapply q_bind; [apply Hf; auto|]. intros [x w1] [Hx Hw1]. apply q_out; auto with wk. Qed.
  Lemma k_entry {A} (e : A -> raw_entry) : (forall a, t_entry (e a)) -> wq (fun _ _ => True) (wr_idx (fun E a w => insert_raw E (e a) w)).
  Proof. intros He. apply (k_idx (fun _ _ => True)). intros E a w HE _ Hi. apply i_raw; auto. Qed.
  Lemma k_const : wq (fun _ => t_const) wr_constant. Proof. apply k_idx, i_const. Qed.
  Lemma k_cint : wq (fun _ _ => True) wr_cint. Proof. apply (k_idx (fun _ _ => True)). intros E a w HE _ Hi. apply i_raw; cbn; auto. Qed.
  Lemma k_clong : wq (fun _ _ => True) wr_clong. Proof. apply (k_idx (fun _ _ => True)). intros E a w HE _ Hi. apply i_raw; cbn; auto. Qed.
  Lemma k_cfloat : wq (fun _ _ => True) wr_cfloat. Proof. apply (k_idx (fun _ _ => True)). intros E a w HE _ Hi. apply i_raw; cbn; auto. Qed.
  Lemma k_cdouble : wq (fun _ _ => True) wr_cdouble. Proof. apply (k_idx (fun _ _ => True)). intros E a w HE _ Hi. apply i_raw; cbn; auto. Qed.
  Lemma k_vals_with (f : cwr aval) (P : aval -> Prop) : wq (fun _ => P) f -> wq (fun _ => Forall (fun kv => lax (fst kv) /\ P (snd kv))) (wr_vals_with f).
  Proof.
    intros Hf E vs w HE H Hi. unfold wr_vals_with. eapply q_bind.
    - refine (k_each (fun _ kv => lax (fst kv) /\ P (snd kv)) _ _ E vs w HE H Hi). clear - Hf. intros E [k v] w HE [H1 H2] Hi. cbn beta iota.
      eapply q_bind; [apply k_cow; auto|]. intros [x w1] [Hx Hw1]. cbn beta iota. eapply q_bind; [apply Hf; auto|]. intros [y w2] [Hy Hw2]. apply q_out; auto with wk.
    - intros [y w2] [Hy Hw2]. apply q_out; auto with wk.
  Qed.
  Lemma k_aval : wq (fun _ => t_aval) wr_aval.
  Proof.
    intros E v. induction v using aval_ind'; intros w HE H0 Hi; inversion H0; subst; cbn [wr_aval].
    all: try (apply (k_tagged (fun _ _ => True)); auto using k_cint, k_clong, k_cfloat, k_cdouble; fail).
    - apply (k_tagged (fun _ => lax)); auto using k_cow.
    - eapply q_bind; [apply k_type; auto|]. intros [x w1] [Hx Hw1]. cbn beta iota. eapply q_bind; [apply k_cow; auto|]. intros [y w2] [Hy Hw2]. apply q_out; auto with wk.
    - eapply q_bind with (Q := lax).
      + match goal with H : t_opt t_ty ?o |- _ => destruct o end; [apply q_display; auto|]. cbn. apply (sig_wf [86]). repeat constructor; unfold is_cp, is_surrogate; lia.
      + intros s Hs. apply (k_tagged (fun _ => lax)); auto using k_cow.
    - eapply q_bind; [apply k_type; auto|]. intros [x w1] [Hx Hw1]. cbn beta iota. unfold wr_vals_with. eapply q_bind with (Q := out); [eapply q_bind with (Q := out)|].
      + match goal with A : Forall _ vs, B : Forall _ vs |- _ => clear - HE A B Hw1; revert w1 Hw1; induction A as [|[k v] vs Hv _ IH]; intros w1 Hw1; inversion B as [|? ? [Hk Ht] Hr]; subst end;
          cbn [wr_each]; [apply q_out; auto with wk|].
        eapply q_bind with (Q := out).
        * eapply q_bind; [apply k_cow; auto|]. intros [y w2] [Hy Hw2]. cbn beta iota. eapply q_bind; [apply Hv; auto|]. intros [z w3] [Hz Hw3]. apply q_out; auto with wk.
        * intros [y w2] [Hy Hw2]. cbn beta iota. eapply q_bind; [apply IH; auto|]. intros [z w3] [Hz Hw3]. apply q_out; auto with wk.
      + intros [y w2] [Hy Hw2]. apply q_out; auto with wk.
      + intros [y w2] [Hy Hw2]. apply q_out; auto with wk.
    - eapply q_bind with (Q := out).
      + match goal with A : Forall _ vs, B : Forall _ vs |- _ => clear - HE A B Hi; revert w Hi; induction A as [|v vs Hv _ IH]; intros w1 Hw1; inversion B; subst end;
          cbn [wr_each]; [apply q_out; auto with wk|].
        eapply q_bind; [apply Hv; auto|]. intros [y w2] [Hy Hw2]. cbn beta iota. eapply q_bind; [apply IH; auto|]. intros [z w3] [Hz Hw3]. apply q_out; auto with wk.
      + intros [y w2] [Hy Hw2]. apply q_out; auto with wk.
  Qed.
  Lemma k_vals : wq (fun _ => t_vals) wr_vals. Proof. apply k_vals_with, k_aval. Qed.
  Lemma k_annot : wq (fun _ => t_annot) wr_annot.
  Proof.
    intros E a w HE [H1 H2] Hi. unfold wr_annot. eapply q_bind; [apply k_type; auto|]. intros [x w1] [Hx Hw1]. cbn beta iota.
    eapply q_bind; [apply k_vals; auto|]. intros [y w2] [Hy Hw2]. apply q_out; auto with wk.
  Qed.
  Lemma k_annots : wq (fun _ => Forall t_annot) wr_annots. Proof. apply (k_cvec (fun _ => t_annot)), k_annot. Qed.
  Lemma k_tpath : wq (fun _ _ => True) (wr_plain wr_tpath).
  Proof. apply (k_plain (fun _ => True)). intros [] _; unfold wr_tpath, quiet; auto with wk. Qed.
  Lemma k_tannot {T} P (f : cwr T) : wq P f -> wq (fun E a => P E (ta_target a) /\ t_tannot a) (wr_tannot f).
  Proof.
    intros Hf E a w HE [H0 [H1 H2]] Hi. unfold wr_tannot. eapply q_bind; [apply Hf; auto|]. intros [x w1] [Hx Hw1]. cbn beta iota.
    eapply q_bind; [apply (k_cvec _ 1 _ k_tpath); auto; apply Forall_forall; auto|]. intros [y w2] [Hy Hw2]. cbn beta iota.
    eapply q_bind; [apply k_type; auto|]. intros [z w3] [Hz Hw3]. cbn beta iota.
    eapply q_bind; [apply k_vals; auto|]. intros [u w4] [Hu Hw4]. apply q_out; auto with wk.
  Qed.
  Lemma k_tannots {T} (f : wr T) : (forall a, quiet bytes (f a)) -> wq (fun _ => Forall t_tannot) (wr_cvec 2 (wr_tannot (wr_plain f))).
  Proof.
    intros Hf. apply (k_cvec (fun _ => t_tannot)). eapply k_mono; [apply k_tannot, (k_plain (fun _ => True)); auto|]. cbn. auto.
  Qed.

  (** ** Fields, methods, class attributes *)
  Ltac kn := apply ascii_wf; reflexivity.
  Ltac ka := apply k_attr; [kn|].
  Lemma k_fattr : wq (fun _ => t_fattr) wr_fattr.
  Proof.
    intros E a w HE H Hi. destruct a; cbn [wr_fattr t_fattr] in *.
    - refine (k_attr (fun _ _ => True) _ _ _ k_none E tt w HE I Hi). kn.
    - refine (k_attr (fun _ _ => True) _ _ _ k_none E tt w HE I Hi). kn.
    - refine (k_attr _ _ _ _ (k_sig _) E _ w HE _ Hi); [kn|]. rewrite d_r. exact H.
    - refine (k_attr _ _ _ _ k_const E _ w HE H Hi). kn.
    - refine (k_attr _ _ _ _ k_annots E _ w HE H Hi). kn.
    - refine (k_attr _ _ _ _ k_annots E _ w HE H Hi). kn.
    - refine (k_attr _ _ _ _ (k_tannots _ _) E _ w HE H Hi); [kn|]. intros []. unfold wr_field_target, quiet. auto with wk.
    - refine (k_attr _ _ _ _ (k_tannots _ _) E _ w HE H Hi); [kn|]. intros []. unfold wr_field_target, quiet. auto with wk.
    - apply k_raw_attr; auto.
  Qed.
  Lemma k_field : wq (fun _ => t_field) wr_field.
  Proof.
    eapply k_mono; [apply k_via, k_pair; [apply k_cflags|]; apply k_pair; [apply k_cow|]; apply k_pair; [apply k_type|]; apply (k_cvec _ 2 _ k_fattr)|].
    intros E a (H1 & H2 & H3). cbn. auto.
  Qed.
  Lemma k_mparam : wq (fun _ m => t_opt lax (mp_name m)) wr_mparam.
  Proof. eapply k_mono; [apply k_via, k_pair; [apply (k_opt _ _ k_cow)|apply k_cflags]|]. cbn. auto. Qed.
  Lemma k_mattr {C} (P : C -> Prop) (f : cwr C) : wq (fun _ => P) f ->
    wq (fun _ a => match a with MCode c => P c
          | MDeprecated | MSynthetic => True
          | MSignature s => chars (method_sig_text s)
          | MVisible l | MInvisible l => Forall t_annot l
          | MVisibleT l | MInvisibleT l => Forall t_tannot l
          | MVisibleP l | MInvisibleP l => Forall (Forall t_annot) l
          | MExceptions l => Forall lax l
          | MDefault v => t_aval v
          | MParameters l => Forall (fun m => t_opt lax (mp_name m)) l
          | MRaw r => t_raw r
          end) (wr_mattr f).
  Proof.
    intros Hf E a w HE H Hi. destruct a; cbn [wr_mattr] in *.
    - refine (k_attr _ _ _ _ Hf E _ w HE H Hi). kn.
    - refine (k_attr (fun _ _ => True) _ _ _ k_none E tt w HE I Hi). kn.
    - refine (k_attr (fun _ _ => True) _ _ _ k_none E tt w HE I Hi). kn.
    - refine (k_attr _ _ _ _ (k_sig _) E _ w HE _ Hi); [kn|]. apply method_chars, H.
    - refine (k_attr _ _ _ _ k_annots E _ w HE H Hi). kn.
    - refine (k_attr _ _ _ _ k_annots E _ w HE H Hi). kn.
    - refine (k_attr _ _ _ _ (k_tannots _ _) E _ w HE H Hi); [kn|]. intros []; unfold wr_method_target, quiet; auto with wk.
    - refine (k_attr _ _ _ _ (k_tannots _ _) E _ w HE H Hi); [kn|]. intros []; unfold wr_method_target, quiet; auto with wk.
    - refine (k_attr _ _ _ _ (k_cvec _ 1 _ k_annots) E _ w HE H Hi). kn.
    - refine (k_attr _ _ _ _ (k_cvec _ 1 _ k_annots) E _ w HE H Hi). kn.
    - refine (k_attr _ _ _ _ (k_cvec _ 2 _ k_class) E _ w HE H Hi). kn.
    - refine (k_attr _ _ _ _ k_aval E _ w HE H Hi). kn.
    - refine (k_attr _ _ _ _ (k_cvec _ 1 _ k_mparam) E _ w HE H Hi). kn.
    - apply k_raw_attr; auto.
  Qed.
  Lemma k_require : wq (fun _ => t_require) wr_require.
  Proof.
    eapply k_mono; [apply k_via, k_pair; [apply (k_strcp 19); cbn; auto|]; apply k_pair; [apply k_cflags|apply (k_opt _ _ k_cow)]|].
    intros E a [H1 H2]. cbn. auto.
  Qed.
  Lemma k_exopen : wq (fun _ => t_exopen) wr_exopen.
  Proof.
    eapply k_mono; [apply k_via, k_pair; [apply (k_strcp 20); cbn; auto|]; apply k_pair; [apply k_cflags|apply (k_cvec _ 2 _ (k_strcp 19 ltac:(cbn; auto)))]|].
    intros E a [H1 H2]. cbn. auto.
  Qed.
  Lemma k_provide : wq (fun _ => t_provide) wr_provide.
  Proof. eapply k_mono; [apply k_via, k_pair; [apply k_class|apply (k_cvec _ 2 _ k_class)]|]. intros E a [H1 H2]. cbn. auto. Qed.
  Lemma k_module : wq (fun _ => t_module) wr_module.
  Proof.
    eapply k_mono; [apply k_via, k_pair; [apply (k_strcp 19); cbn; auto|]; apply k_pair; [apply k_cflags|]; apply k_pair; [apply (k_opt _ _ k_cow)|];
      apply k_pair; [apply (k_cvec _ 2 _ k_require)|]; apply k_pair; [apply (k_cvec _ 2 _ k_exopen)|]; apply k_pair; [apply (k_cvec _ 2 _ k_exopen)|];
      apply k_pair; [apply (k_cvec _ 2 _ k_class)|apply (k_cvec _ 2 _ k_provide)]|].
    intros E a (H1 & H2 & H3 & H4 & H5 & H6 & H7). cbn. auto 20.
  Qed.
  Lemma k_inner : wq (fun _ => t_inner) wr_inner_class.
  Proof.
    eapply k_mono; [apply k_via, k_pair; [apply k_class|]; apply k_pair; [apply (k_opt _ _ k_class)|]; apply k_pair; [apply (k_opt _ _ k_cow)|apply k_cflags]|].
    intros E a (H1 & H2 & H3). cbn. auto.
  Qed.
  Definition no_table (a : cattr) : Prop := match a with CBootstrap _ => False | _ => True end.
  Lemma k_cattr : wq (fun _ a => t_cattr a /\ no_table a) wr_cattr.
  Proof.
    intros E a w HE [H H0] Hi. destruct a; cbn [wr_cattr t_cattr no_table] in *.
    - refine (k_attr _ _ _ _ (k_sig _) E _ w HE _ Hi); [kn|]. rewrite d_class_text. exact H.
    - refine (k_attr (fun _ _ => True) _ _ _ k_none E tt w HE I Hi). kn.
    - refine (k_attr (fun _ _ => True) _ _ _ k_none E tt w HE I Hi). kn.
    - refine (k_attr _ _ _ _ k_cow E _ w HE H Hi). kn.
    - refine (k_attr _ _ _ _ (k_cvec _ 2 _ k_inner) E _ w HE H Hi). kn.
    - refine (k_attr _ _ _ _ (k_pair _ _ _ _ k_class (k_opt _ _ k_nametype)) E (_, _) w HE H Hi). kn.
    - refine (k_attr (fun _ => lax) _ _ _ (k_plain _ _ _) E _ w HE H Hi); [kn|]. intros x Hx. destruct (mutf_bytes x Hx) as (b & Hb & Hb2).
      unfold wr_debug_ext. rewrite Hb. exact Hb2.
    - destruct H0.
    - refine (k_attr _ _ _ _ k_module E _ w HE H Hi). kn.
    - refine (k_attr _ _ _ _ (k_cvec _ 2 _ (k_strcp 20 _)) E _ w HE H Hi); [kn|cbn; auto].
    - refine (k_attr _ _ _ _ k_class E _ w HE H Hi). kn.
    - refine (k_attr _ _ _ _ k_class E _ w HE H Hi). kn.
    - refine (k_attr _ _ _ _ (k_cvec _ 2 _ k_class) E _ w HE H Hi). kn.
    - refine (k_attr _ _ _ _ k_annots E _ w HE H Hi). kn.
    - refine (k_attr _ _ _ _ k_annots E _ w HE H Hi). kn.
    - refine (k_attr _ _ _ _ (k_tannots _ _) E _ w HE H Hi); [kn|]. intros []; unfold wr_class_target, quiet; auto with wk.
    - refine (k_attr _ _ _ _ (k_tannots _ _) E _ w HE H Hi); [kn|]. intros []; unfold wr_class_target, quiet; auto with wk.
    - apply k_raw_attr; auto.
  Qed.
  Lemma k_unless : wq (fun _ => t_cattr) wr_cattr_unless_bsm.
  Proof.
    intros E a w HE H Hi. unfold wr_cattr_unless_bsm. destruct a; try (apply k_cattr; [exact HE|split; [exact H|first [exact I|reflexivity]]|exact Hi]). apply q_out; auto with wk.
  Qed.

  (** ** Code *)
  Definition lab (E : wenv) (l : Z) : Prop := quiet (fun _ => True) (we_label E l).
  Definition good_target (E : wenv) (t : code_target) : Prop :=
    Forall (lab E) (target_labels t) /\ match t with KtCatch c => quiet (fun _ => True) (we_catch E c) | _ => True end.
  Lemma k_label : wq lab wr_label.
  Proof. intros E a w HE H Hi. unfold wr_label. eapply q_bind; [exact H|]. intros i _. apply q_out; auto with wk. Qed.
  Lemma k_lvt : wq (fun E t => Forall (lab E) [lt_start t; lt_end t]) wr_lvt.
  Proof.
    intros E a w HE H Hi. inversion H as [|? ? H1 H2]; subst. inversion H2; subst. unfold wr_lvt. eapply q_bind; [exact H1|]. intros i _.
    eapply q_bind; [eassumption|]. intros j _. rewrite (proj1 HE). eapply q_bind; [apply q_chk|]. intros d _. apply q_out; auto with wk.
  Qed.
  Lemma k_label_u8 : wq (fun E x => lab E (fst x)) wr_label_u8.
  Proof. eapply k_mono; [apply k_pair; [apply k_label|apply k_n]|]. cbn. auto. Qed.
  Lemma k_target : wq good_target wr_code_target.
  Proof.
    assert (HF : forall E ts, Forall (lab E) (flat_map (fun t => [lt_start t; lt_end t]) ts) -> Forall (fun t => Forall (lab E) [lt_start t; lt_end t]) ts).
    { intros E ts. induction ts as [|t ts IH]; cbn [flat_map]; intros H; constructor; apply Forall_app in H as [H1 H2]; auto. }
    intros E t w HE [H H0] Hi. destruct t; cbn [wr_code_target target_labels] in *.
    1-2: refine (k_tagged' _ _ _ (k_cvec _ 2 _ k_lvt) E _ w HE _ Hi); auto.
    1: { refine (k_tagged' (fun E c => quiet (fun _ => True) (we_catch E c)) _ _ _ E _ w HE H0 Hi). clear. intros E c w HE H Hi. unfold wr_catch.
         eapply q_bind; [exact H|]. intros [i|] _; apply q_out; auto with wk. }
    all: inversion H; subst.
    1-4: refine (k_tagged' _ _ _ k_label E _ w HE _ Hi); auto.
    all: refine (k_tagged' _ _ _ k_label_u8 E _ w HE _ Hi); auto.
  Qed.
  Lemma k_code_tannots : wq (fun E => Forall (fun a => good_target E (ta_target a) /\ t_tannot a)) (wr_cvec 2 wr_code_tannot).
  Proof. apply (k_cvec (fun E a => good_target E (ta_target a) /\ t_tannot a)), k_tannot, k_target. Qed.
  Lemma k_lvrow {A} (P : A -> Prop) (f : cwr A) : wq (fun _ => P) f -> wq (fun _ r => lax (lr_name r) /\ P (lr_type r)) (wr_lvrow f).
  Proof.
    intros Hf. eapply k_mono; [apply k_via, k_pair; [apply k_n|]; apply k_pair; [apply k_n|]; apply k_pair; [apply k_cow|]; apply k_pair; [apply Hf|apply k_n]|].
    intros E a [H1 H2]. cbn. auto.
  Qed.
  Lemma k_handler : wq (fun E x => Forall (lab E) [c_start x; c_end x; c_handler x] /\ t_opt lax (c_type x)) wr_handler.
  Proof.
    intros E x w HE [H H0] Hi. inversion H as [|? ? H1 H']; subst. inversion H' as [|? ? H2 H'']; subst. inversion H'' as [|? ? H3 _]; subst.
    unfold wr_handler. eapply q_bind; [exact H1|]. intros i _. eapply q_bind; [exact H2|]. intros j _. eapply q_bind; [exact H3|]. intros k _.
    destruct (c_type x); [|apply q_out; auto 10 with wk]. eapply q_bind; [apply i_class; auto|]. intros [n w1] Hw. apply q_out; auto 10 with wk.
  Qed.
  Lemma q_lv_row {A} E v (t : A) : env E -> Forall (lab E) [v_start v; v_end v] -> quiet (fun r => lr_name r = v_name v /\ lr_type r = t) (lv_row E v t).
  Proof.
    intros HE H. inversion H as [|? ? H1 H2]; subst. inversion H2; subst. unfold lv_row. eapply q_bind; [exact H1|]. intros i _.
    eapply q_bind; [eassumption|]. intros j _. rewrite (proj1 HE). eapply q_bind; [apply q_chk|]. intros d _. cbn. auto.
  Qed.
  Definition row {A} (P : A -> Prop) (r : lvrow A) : Prop := lax (lr_name r) /\ P (lr_type r).
  Lemma q_lv_rows E vs : env E -> Forall t_var vs -> Forall (lab E) (attr_labels (KLocals vs)) ->
    quiet (fun r => Forall (row t_ty) (fst r) /\ Forall (row (fun g => chars (d_rsig g))) (snd r)) (lv_rows E vs).
  Proof.
    intros HE Hv. induction Hv as [|v vs (H1 & H2 & H3) _ IH]; cbn [attr_labels flat_map lv_rows]; intros Hl; [cbn; auto|]. apply Forall_app in Hl as [Hl Hl'].
    eapply q_bind with (Q := Forall (row t_ty)).
    - destruct (v_desc v) as [d|]; [|cbn; auto]. eapply q_bind; [apply q_lv_row; auto|]. intros r [E1 E2]. cbn. constructor; auto. split; [rewrite E1|rewrite E2]; auto.
    - intros ds Hds. eapply q_bind with (Q := Forall (row (fun g => chars (d_rsig g)))).
      + destruct (v_sig v) as [g|]; [|cbn; auto]. eapply q_bind; [apply q_lv_row; auto; destruct (v_desc v); auto|]. intros r [E1 E2]. cbn. constructor; auto.
        split; [rewrite E1|rewrite E2, d_r]; auto.
      + intros gs Hgs. eapply q_bind; [apply IH; auto|]. intros [ds' gs'] [H4 H5]. cbn in *. split; apply Forall_app; auto.
  Qed.
  Definition out3 (x : list Z * Z * wst) : Prop := bytes (fst (fst x)) /\ inv (snd x).
  Definition good_kattr (E : wenv) (a : kattr) : Prop :=
    t_kattr a /\ Forall (lab E) (attr_labels a).
  Lemma q_kattr E a w : env E -> (forall c, quiet (fun _ => True) (we_catch E c)) -> good_kattr E a -> inv w -> quiet out3 (wr_kattr E a w).
  Proof.
    intros HE HC [H1 H2] Hi.
    assert (HA : forall l, Forall t_tannot l -> Forall (lab E) (flat_map (fun a => target_labels (ta_target a)) l) ->
       Forall (fun a => good_target E (ta_target a) /\ t_tannot a) l).
    { clear - HC. intros l Ht. induction Ht as [|a l Ha _ IH]; cbn [flat_map]; intros H; constructor; apply Forall_app in H as [Hl Hr]; auto.
      split; auto. split; auto. destruct (ta_target a); auto. }
    destruct a as [l|l|vs|r]; cbn [wr_kattr wr_fcattr t_kattr attr_labels] in *.
    - eapply q_bind; [refine (k_attr _ _ _ _ k_code_tannots E _ w HE _ Hi); [kn|auto]|]. intros [b w1] [Hb Hw]. split; auto.
    - eapply q_bind; [refine (k_attr _ _ _ _ k_code_tannots E _ w HE _ Hi); [kn|auto]|]. intros [b w1] [Hb Hw]. split; auto.
    - eapply q_bind; [apply q_lv_rows; auto|]. intros [ds gs] [Hds Hgs]. cbn [fst snd] in *.
      assert (HD : forall w, inv w -> quiet out (wr_attr (str "LocalVariableTable") (wr_cvec 2 (wr_lvrow wr_type)) E ds w)).
      { intros w' Hw'. refine (k_attr _ _ _ _ (k_cvec _ 2 _ (k_lvrow _ _ k_type)) E _ w' HE Hds Hw'). kn. }
      assert (HG : forall w, inv w -> quiet out (wr_attr (str "LocalVariableTypeTable") (wr_cvec 2 (wr_lvrow (wr_sig d_rsig))) E gs w)).
      { intros w' Hw'. refine (k_attr _ _ _ _ (k_cvec _ 2 _ (k_lvrow _ _ (k_sig _))) E _ w' HE Hgs Hw'). kn. }
      destruct ds as [|d ds], gs as [|g gs].
      + first [exact I|reflexivity].
      + eapply q_bind; [apply HG; auto|]. intros [b w1] [Hb Hw]. split; auto.
      + eapply q_bind; [apply HD; auto|]. intros [b w1] [Hb Hw]. split; auto.
      + eapply q_bind; [apply HD; auto|]. intros [b w1] [Hb Hw]. cbn beta iota. eapply q_bind; [apply HG; auto|]. intros [b' w2] [Hb' Hw2]. split; cbn; auto with wk.
    - eapply q_bind; [apply k_raw_attr; auto|]. intros [b w1] [Hb Hw]. split; auto.
  Qed.
  Lemma q_kattrs E l : env E -> (forall c, quiet (fun _ => True) (we_catch E c)) -> Forall (good_kattr E) l -> forall x w, inv w -> quiet out3 (wr_kattrs E l x w).
  Proof.
    intros HE HC H. induction H as [|a l Ha _ IH]; intros x w Hi; cbn [wr_kattrs]; [split; auto with wk|].
    eapply q_bind; [apply q_kattr; auto|]. intros [[b y] w1] [Hb Hw]. cbn beta iota. rewrite (proj1 HE). eapply q_bind; [apply q_chk|]. intros z _.
    eapply q_bind; [apply IH; auto|]. intros [[b' y'] w2] [Hb' Hw']. split; cbn in *; auto with wk.
  Qed.

  (** ** Instructions *)
  Definition good_insn (i : insn) : Prop := t_insn i /\ Forall set (insn_dyns i).
  Lemma good_one {A} (P : A -> Prop) (o : ordyn A) : t_or P o -> Forall set (dyn_of o) -> good_or P o.
  Proof. intros H1 H2. split; auto. destruct o; auto. inversion H2; auto. Qed.
  Lemma i_ctype : iq (fun _ => t_ctype) insert_ctype.
  Proof.
    intros E c w HE H Hi. unfold insert_ctype. eapply q_bind with (Q := lax); [|intros n Hn; apply i_class; auto].
    destruct c as [s|d t]; cbn [ctype_name t_ctype] in *; [exact H|]. destruct (display_chars t H) as (x & -> & Hx). cbn. apply of_chars_wf, of_chars_app; auto using of_chars_brackets.
  Qed.
  Lemma k_ldc : wq (fun _ => good_or t_const) emit_ldc.
  Proof.
    intros E c w HE H Hi. unfold emit_ldc. eapply q_bind; [apply (i_or _ _ i_const); auto|]. intros [i w1] Hw. apply q_out; auto.
    repeat match goal with |- context [if ?b then _ else _] => destruct b end; auto with wk.
  Qed.
  Lemma k_push : wq (fun _ => good_or t_const) emit_push.
  Proof.
    intros E c w HE H Hi. unfold emit_push. destruct c as [d|[x|x|x|x|x|x|x|x|x]]; try (apply k_ldc; auto; fail);
      repeat match goal with |- context [if ?b then _ else _] => destruct b end; try (apply k_ldc; auto; fail); apply q_out; auto with wk.
  Qed.
  Lemma k_emit_idx {A} P op (f : cins A) t : bytes t -> iq P f -> wq P (emit_idx op f t).
  Proof. intros Ht Hf E a w HE H Hi. unfold emit_idx. eapply q_bind; [apply Hf; auto|]. intros [i w1] Hw. apply q_out; auto with wk. Qed.
  Lemma k_wide op i : bytes (wide_or_normal op i).
  Proof. unfold wide_or_normal. destruct (_ && _); auto with wk. Qed.
  Lemma k_emit : wq (fun _ => good_insn) emit.
  Proof.
    intros E i w HE [H H0] Hi. destruct i; cbn [emit t_insn insn_dyns] in *;
      try (repeat match goal with |- context [match ?b with _ => _ end] => is_var b; destruct b end; apply q_out; auto with wk; fail).
    all: try (apply q_out; auto using k_wide; fail).
    all: try (apply q_out; auto; destruct (_ && _); auto with wk; fail).
    all: try (refine (k_emit_idx _ _ _ _ bytes_nil (i_or _ _ i_ctype) E _ w HE _ Hi); auto using good_one; fail).
    all: try (refine (k_emit_idx _ _ _ _ bytes_nil (i_or _ _ i_class) E _ w HE _ Hi); auto using good_one; fail).
    all: try (refine (k_emit_idx _ _ _ _ bytes_nil (i_or _ _ i_member) E _ w HE _ Hi); auto using good_one; fail).
    - apply k_push; auto using good_one.
    - refine (k_emit_idx _ _ _ _ bytes_00 i_dyn E _ w HE _ Hi). inversion H0; auto.
    - refine (k_emit_idx _ _ _ _ _ (i_or _ _ i_member) E _ w HE _ Hi); auto using good_one with wk.
  Qed.

  (** the buffers are bytes, and a label is in one of them *)
  Record yinv (y : yst) : Prop := {
    yi_bufs : Forall bytes (y_bufs y); yi_cur : bytes (y_cur y); yi_jumps : Forall (fun j => jumpb j = true) (y_jumps y);
    yi_len : length (y_jumps y) = length (y_bufs y);
    yi_labels : forall l b o, assoc Z.eqb l (y_labels y) = Some (b, o) -> 0 <= b <= len (y_bufs y) }.
  Definition has (y : yst) (l : Z) : Prop := assoc Z.eqb l (y_labels y) <> None.
  Lemma q_insn E i y w : env E -> good_insn i -> inv w -> yinv y ->
    quiet (fun r => yinv (fst r) /\ inv (snd r) /\ (forall l, has y l \/ i = ILabel l -> has (fst r) l)) (write_insn E i y w).
  Proof.
    intros HE Hg Hi Hy.
    assert (HD : quiet (fun r => yinv (fst r) /\ inv (snd r) /\ (forall l, has y l -> has (fst r) l))
      ('(b, w) <- emit E i w ;; Ok ({| y_bufs := y_bufs y; y_cur := y_cur y ++ b; y_jumps := y_jumps y; y_labels := y_labels y |}, w))).
    { eapply q_bind; [apply k_emit; auto|]. intros [b w1] [Hb Hw]. cbn. split; [|auto]. destruct Hy. split; cbn; auto with wk. }
    destruct i; cbn [write_insn]; try (eapply q_mono; [exact HD|]; intros r (H1 & H2 & H3); split; [|split]; auto; intros l' [Hl|Hl]; [auto|discriminate Hl]; fail).
    - cbn. split; [|split; [auto|intros l' [Hl|Hl]; [exact Hl|discriminate Hl]]]. destruct Hy. split; cbn; auto with wk; try (apply Forall_app; auto); [rewrite !app_length; cbn; lia|].
      intros l' b o El. apply yi_labels0 in El. rewrite len_app. change (len [y_cur y]) with 1. lia.
    - cbn. split; [|split; [auto|intros l' [Hl|Hl]; [exact Hl|discriminate Hl]]]. destruct Hy. split; cbn; auto with wk; try (apply Forall_app; auto); [rewrite !app_length; cbn; lia|].
      intros l' b o El. apply yi_labels0 in El. rewrite len_app. change (len [y_cur y]) with 1. lia.
    - cbn. split; [|split]; auto. intros l' [Hl|Hl]; [exact Hl|discriminate Hl].
    - cbn. split; [|split; [auto|intros l' [Hl|Hl]; [exact Hl|discriminate Hl]]]. destruct Hy. split; cbn; auto with wk; try (apply Forall_app; auto); [rewrite !app_length; cbn; lia|].
      intros l' b o El. apply yi_labels0 in El. rewrite len_app. change (len [y_cur y]) with 1. lia.
    - cbn. split; [|split; [auto|intros l' [Hl|Hl]; [exact Hl|discriminate Hl]]]. destruct Hy. split; cbn; auto with wk; try (apply Forall_app; auto); [rewrite !app_length; cbn; lia|].
      intros l' b o El. apply yi_labels0 in El. rewrite len_app. change (len [y_cur y]) with 1. lia.
    - cbn. destruct Hy. split; [split; cbn; auto|split; [auto|]].
      + intros l' b o El. pose proof (len_nonneg (y_bufs y)). destruct (Z.eq_dec l' l) as [->|N].
        * rewrite assoc_set_same in El by apply Z.eqb_eq. injection El as <- <-. lia.
        * rewrite assoc_set_other in El by (apply Z.eqb_eq || auto). eapply yi_labels0, El.
      + intros l' Hl. unfold has in *. cbn. destruct (Z.eq_dec l' l) as [->|N].
        * rewrite assoc_set_same by apply Z.eqb_eq. discriminate.
        * rewrite assoc_set_other by (apply Z.eqb_eq || auto). destruct Hl as [Hl|Hl]; [auto|congruence].
  Qed.
  Lemma q_insns E is : env E -> Forall good_insn is -> forall y w, inv w -> yinv y ->
    quiet (fun r => yinv (fst r) /\ inv (snd r) /\ (forall l, has y l \/ In (ILabel l) is -> has (fst r) l)) (write_insns E is y w).
  Proof.
    intros HE H. induction H as [|i is Hg _ IH]; intros y w Hi Hy; cbn [write_insns].
    - cbn. split; [|split]; auto. intros l [Hl|[]]; auto.
    - eapply q_bind; [apply q_insn; auto|]. intros [y1 w1] (H1 & H2 & H3). cbn [fst snd] in *. eapply q_mono; [apply IH; auto|].
      intros r (H4 & H5 & H6). split; [|split]; auto. intros l [Hl|[Hl|Hl]]; apply H6; auto.
  Qed.

  (** ** Jumps *)
  Lemma q_start ends b : 0 <= b <= len ends -> quiet (fun _ => True) (buf_start ends b).
  Proof.
    intros Hb. unfold buf_start, index. destruct (Z.eqb_spec b 0); [first [exact I|reflexivity]|]. unfold len in *.
    destruct (nth_error ends (Z.to_nat (b - 1))) as [x|] eqn:E; [first [exact I|reflexivity]|apply nth_error_None in E; lia].
  Qed.
  Lemma q_mapM {A B} (Q : B -> Prop) (f : A -> res B) l : (forall a, quiet Q (f a)) -> quiet (Forall Q) (mapM f l).
  Proof.
    intros H. induction l as [|a l IH]; cbn [mapM]; [constructor|]. eapply q_bind; [apply H|]. intros b Hb. eapply q_bind; [apply IH|]. intros bs Hbs. constructor; auto.
  Qed.
  Section Labels.
    Variable labels : list (Z * (Z * Z)).
    Variable n : Z.
    Hypothesis Hlab : forall l b o, assoc Z.eqb l labels = Some (b, o) -> 0 <= b <= n.
    Lemma q_hint hints l : len hints = n -> quiet (fun _ => True) (hint_of labels hints l).
    Proof.
      intros Hn. unfold hint_of, find_label. destruct (assoc Z.eqb l labels) as [[b o]|] eqn:E; [|first [exact I|reflexivity]]. cbn [bind].
      eapply q_bind; [apply q_start; rewrite Hn; eauto|]. intros x _. first [exact I|reflexivity].
    Qed.
    Lemma q_resolve ends i s l : len ends = n -> quiet (fun _ => True) (resolve md labels ends i s l).
    Proof.
      intros Hn. unfold resolve, find_label. destruct (assoc Z.eqb l labels) as [[b o]|] eqn:E; [|first [exact I|reflexivity]]. cbn [bind].
      eapply q_bind; [apply q_start; rewrite Hn; eauto|]. intros x _. eapply q_bind; [apply q_chk|]. intros t _. apply q_chks.
    Qed.
    Lemma q_label ends l : len ends = n -> assoc Z.eqb l labels <> None \/ trouble -> quiet (fun _ => True) (label16 md labels ends l).
    Proof.
      intros Hn Hl. unfold label16. destruct (assoc Z.eqb l labels) as [[b o]|] eqn:E.
      - eapply q_bind; [apply q_start; rewrite Hn; eauto|]. intros x _. apply q_chk.
      - right. left. split; auto. destruct Hl; congruence.
    Qed.
    Lemma q_size hints i j : len hints = n -> jumpb j = true -> quiet (fun _ => True) (jump_size labels hints i j).
    Proof.
      intros Hn Hj. destruct j; try discriminate; cbn [jump_size]; try exact I.
      - destruct c; (eapply q_bind; [apply q_hint; auto|intros; first [exact I|reflexivity]]).
      - eapply q_bind; [apply q_hint; auto|intros; first [exact I|reflexivity]].
    Qed.
    Lemma q_actual hints js : len hints = n -> Forall (fun j => jumpb j = true) js -> forall bufs last, (length js <= length bufs)%nat ->
      quiet (fun r => length (fst r) = length js) (actual labels hints js bufs last).
    Proof.
      intros Hn H. induction H as [|j js Hj _ IH]; intros [|b bufs] last Hl; cbn [actual length] in *; try lia; try reflexivity.
      eapply q_bind; [apply q_size; auto|]. intros k _. eapply q_bind; [apply IH; lia|]. intros [r e] Hr. cbn in *. lia.
    Qed.
    Lemma q_jump ends i s j : len ends = n -> jumpb j = true -> quiet bytes (emit_jump md labels ends i s j).
    Proof.
      intros Hn Hj. pose proof (fun l => q_resolve ends i s l Hn) as HR. destruct j; try discriminate; unfold emit_jump.
      - destruct c; (eapply q_bind; [apply HR|]); intros o _; try (destruct (fits_i16 o); cbn [jcond_neg]; unfold quiet; auto 10 with wk).
      - eapply q_bind; [apply HR|]. intros o _. unfold quiet. destruct (fits_i16 o); auto with wk.
      - eapply q_bind; [apply HR|]. intros o _. eapply q_bind; [apply q_chk|]. intros k _. eapply q_bind; [apply q_chks|]. intros h _.
        eapply q_bind; [apply (q_mapM bytes); intros l; eapply q_bind; [apply HR|]; intros x _; unfold quiet; auto with wk|].
        intros os Hos. unfold quiet. auto 10 using bytes_concat with wk.
      - eapply q_bind; [apply HR|]. intros o _.
        eapply q_bind; [apply (q_mapM bytes); intros l; eapply q_bind; [apply HR|]; intros x _; unfold quiet; auto with wk|].
        intros os Hos. unfold quiet. auto 10 using bytes_concat with wk.
    Qed.
    Lemma q_jumps ends js : len ends = n -> Forall (fun j => jumpb j = true) js -> forall rows bufs, Forall bytes bufs ->
      quiet bytes (emit_jumps md labels ends js rows bufs).
    Proof.
      intros Hn H. induction H as [|j js Hj _ IH]; intros [|[i s] rows] [|b bufs] Hb; cbn [emit_jumps]; try (exact bytes_nil).
      apply Forall_cons_iff in Hb as [Hb1 Hb2]. eapply q_bind; [apply q_jump; auto|]. intros x Hx. eapply q_bind; [apply IH; auto|]. intros r Hr. unfold quiet. auto with wk.
    Qed.
  End Labels.
  Lemma hints_len js : forall bufs last, (length js <= length bufs)%nat -> length (index_hints js bufs last) = length js.
  Proof. induction js as [|j js IH]; intros [|b bufs] last H; cbn [index_hints length] in *; try lia; auto. rewrite IH; lia. Qed.
  Lemma q_assemble y : yinv y -> quiet (fun r => len (snd (fst r)) = len (y_bufs y) /\ bytes (snd r)) (assemble md y).
  Proof.
    intros [H1 H2 H3 H4 H5]. unfold assemble. assert (HL : (length (y_jumps y) <= length (y_bufs y ++ [y_cur y]))%nat) by (rewrite app_length; cbn; lia).
    assert (HB : Forall bytes (y_bufs y ++ [y_cur y])) by (apply Forall_app; auto).
    eapply q_bind; [apply (q_actual _ (len (y_bufs y)) H5); auto; unfold len; rewrite hints_len; auto|]. intros [rows last] Hr. cbn [fst] in Hr.
    destruct (y_bufs y ++ [y_cur y]) as [|b rest] eqn:Eb; [destruct (y_bufs y); discriminate|]. inversion HB; subst.
    assert (HE : len (map fst rows) = len (y_bufs y)) by (unfold len; rewrite map_length; lia).
    eapply q_bind; [apply (q_jumps _ (len (y_bufs y)) H5); auto|]. intros r Hr'. cbn. auto with wk.
  Qed.
  Definition good_code (c : code) : Prop :=
    t_code c /\ Forall set (code_dyns c) /\ forall l, In l (code_labels c) -> In (ILabel l) (cd_code c) \/ trouble.
  Lemma k_code : wq (fun _ => good_code) wr_code.
  Proof.
    intros E c w HE ((H1 & H2 & H3) & Hd & Hl) Hi. unfold wr_code.
    eapply q_bind.
    { apply (q_insns E (cd_code c) HE); auto.
      - clear - H1 Hd. unfold code_dyns in Hd. induction H1; cbn [flat_map] in Hd; constructor; apply Forall_app in Hd as [Ha Hb]; auto. split; auto.
      - split; cbn; auto with wk. intros l b o Hx. discriminate. }
    intros [y w1] (Hy & Hw1 & Hh). cbn [fst snd] in *. cbn beta iota. rewrite (proj1 HE) at 1.
    eapply q_bind; [apply q_assemble, Hy|]. intros [[n ends] body] [He Hb]. cbn [fst snd] in *. cbn beta iota zeta.
    set (E' := code_env E (y_labels y) ends (cd_catches c)). assert (HE' : env E') by (destruct HE; split; auto).
    assert (HC : forall x, quiet (fun _ => True) (we_catch E' x)) by (intros x; exact I).
    assert (HL : forall l, In l (code_labels c) -> lab E' l).
    { intros l Hin. unfold lab. cbn. rewrite (proj1 HE). eapply q_label; [apply Hy|auto|]. destruct (Hl l Hin) as [Ha|Ha]; auto. left. apply Hh. auto. }
    eapply q_bind; [apply (k_each _ _ k_handler); auto|].
    { apply Forall_forall. intros x Hx. rewrite Forall_forall in H2. split; auto. apply Forall_forall. intros l Hin. apply HL. apply in_or_app. left.
      apply in_flat_map. eauto. }
    intros [hs w2] [Hhs Hw2]. cbn beta iota. eapply q_bind; [apply q_kattrs; auto|].
    { apply Forall_forall. intros x Hx. rewrite Forall_forall in H3. split; auto. apply Forall_forall. intros l Hin. apply HL. apply in_or_app. right.
      apply in_flat_map. eauto. }
    intros [[bs extra] w3] [Hbs Hw3]. cbn [fst snd] in *. cbn beta iota. rewrite (proj1 HE). eapply q_bind; [apply q_chk|]. intros k _. apply q_out; auto 20 with wk.
  Qed.

  (** ** The class file *)
  Definition good_method (m : method code) : Prop :=
    lax (me_name m) /\ t_ty (me_desc m) /\ Forall (fun a => t_mattr a /\ match a with MCode c => good_code c | _ => True end) (me_attrs m).
  Lemma k_method : wq (fun _ => good_method) (wr_method wr_code).
  Proof.
    eapply k_mono; [apply k_via, k_pair; [apply k_cflags|]; apply k_pair; [apply k_cow|]; apply k_pair; [apply k_type|]; apply (k_cvec _ 2 _ (k_mattr _ _ k_code))|].
    intros E a (H1 & H2 & H3). cbn. split; auto. split; auto. split; auto. eapply Forall_impl; [|exact H3]. intros x [Hx Hy]. destruct x; auto.
  Qed.
  Definition good_class (c : class) : Prop :=
    t_class c /\ Forall good_method (cl_methods c) /\ Forall set_args (initial_bsms (cl_attrs c)).
  Lemma k_members : wq (fun _ => good_class) wr_members.
  Proof.
    eapply k_mono; [apply k_via, k_pair; [apply k_cflags|]; apply k_pair; [apply (k_idx _ _ i_class)|]; apply k_pair; [apply (k_opt _ _ (k_idx _ _ i_class))|];
      apply k_pair; [apply (k_list16 _ _ (k_idx _ _ i_class))|]; apply k_pair; [apply (k_list16 _ _ k_field)|];
      apply k_pair; [apply (k_list16 _ _ k_method)|apply (k_list16 _ _ k_unless)]|].
    intros E a ((H1 & H2 & H3 & H4 & _ & H6) & H5 & _). cbn. auto 20.
  Qed.
  Lemma a_bsm E b w : we_heap E = heap -> adds (contents heap (flat_map dyn_of (b_args b))) w (wr_bsm E b w).
  Proof.
    intros HE. unfold wr_bsm. rewrite <- (app_nil_l (contents _ _)). apply adds_bind; [apply gw_idx, still_mhandle|]. intros x w1. cbn beta iota.
    apply adds_last; [|intros; apply G_ret]. apply (a_each heap _ dyn_of E). intros o w2. unfold wr_idx.
    apply adds_last; [|intros; apply G_ret]. apply a_ordyn; auto using still_constant.
  Qed.
  Lemma a_bsms E l w : we_heap E = heap -> adds (contents heap (flat_map (fun b => flat_map dyn_of (b_args b)) l)) w (wr_each wr_bsm E l w).
  Proof. intros HE. apply (a_each heap wr_bsm (fun b => flat_map dyn_of (b_args b)) E). intros b w1. apply a_bsm, HE. Qed.
  Lemma arg_contents l b' : In b' (contents heap (flat_map (fun b => flat_map dyn_of (b_args b)) l)) <->
    exists b d, In b l /\ In (Dyn d) (b_args b) /\ heap (d_cell d) = Some b'.
  Proof.
    unfold contents. rewrite in_flat_map. split.
    - intros (d & Hd & Hb). apply in_flat_map in Hd as (b & Hbl & Hd). apply in_flat_map in Hd as (o & Ho & Hd). exists b, d. split; auto.
      destruct o as [d'|]; cbn in Hd; [|destruct Hd]. destruct Hd as [->|[]]. destruct (heap (d_cell d)); [|destruct Hb]. destruct Hb as [->|[]]. auto.
    - intros (b & d & H1 & H2 & H3). exists d. split; [|rewrite H3; cbn; auto]. apply in_flat_map. exists b. split; auto. apply in_flat_map. exists (Dyn d). cbn. auto.
  Qed.
  Definition ends (fuel : nat) (l : list bsm) : Prop :=
    endless \/ match fuel with O => l = [] | S n => Forall (nested heap n) l end.
  Lemma nested_next n l : Forall (nested heap n) l -> ends n (contents heap (flat_map (fun b => flat_map dyn_of (b_args b)) l)).
  Proof.
    intros H. rewrite Forall_forall in H. right. destruct n as [|n].
    - destruct (contents _ _) as [|b' r] eqn:E; auto. assert (Hin : In b' (b' :: r)) by (left; auto). rewrite <- E in Hin.
      apply arg_contents in Hin as (b & d & H1 & H2 & H3). destruct (H b H1 d b' H2 H3).
    - apply Forall_forall. intros b' Hin. apply arg_contents in Hin as (b & d & H1 & H2 & H3). exact (H b H1 d b' H2 H3).
  Qed.
  Lemma q_rounds E fuel : env E -> forall i w, inv w -> ends fuel (w_bsm w) -> quiet out3 (wr_rounds fuel E i w).
  Proof.
    intros HE. induction fuel as [|fuel IH]; intros i w Hi Hn; cbn [wr_rounds].
    - destruct (w_bsm w) eqn:Eb; [split; auto with wk|]. right. right. split; auto. destruct Hn as [Hn|Hn]; [auto|discriminate].
    - destruct (w_bsm w) as [|b v] eqn:Eb; [split; auto with wk|]. rewrite (proj1 HE). eapply q_bind; [apply q_chk|]. intros k _.
      assert (Hi' : inv (with_bsm w [])) by (destruct Hi; split; cbn; auto).
      pose proof (a_bsms E (b :: v) (with_bsm w []) (proj2 HE)) as HA.
      pose proof (k_each _ _ k_bsm E (b :: v) (with_bsm w []) HE) as HK. rewrite <- Eb in HK at 1. specialize (HK (proj2 Hi) Hi').
      destruct (wr_each wr_bsm E (b :: v) (with_bsm w [])) as [[x w1]| |]; [|exact HK|exact HK]. cbn in HA. destruct HK as [Hx Hw]. cbn [fst snd bind] in *.
      eapply q_bind; [apply IH; [exact Hw|]|].
      + rewrite HA. destruct Hn as [Hn|Hn]; [left; auto|]. apply (nested_next fuel (b :: v)), Hn.
      + intros [[bs k'] w2] [Hbs Hw2]. split; cbn in *; auto with wk.
  Qed.
  Lemma q_table E fuel w : env E -> inv w -> ends fuel (w_bsm w) -> quiet out (ClassModel.wr_table fuel E w).
  Proof.
    intros HE Hi Hn. unfold ClassModel.wr_table. destruct (w_bsm w) eqn:Eb; [split; auto with wk|].
    eapply q_bind; [apply q_rounds; auto; rewrite Eb; auto|]. intros [[b' i] w1] [Hb Hw]. cbn [fst snd] in *. cbn beta iota.
    eapply q_bind; [apply k_cow; auto; kn|]. intros [n w2] [Hn2 Hw2]. cbn beta iota. rewrite (proj1 HE). eapply q_bind; [apply q_chk|]. intros k _.
    apply q_out; auto with wk.
  Qed.
  Lemma q_pool w : inv w -> quiet bytes (wr_pool w).
  Proof.
    intros [H _]. unfold wr_pool. eapply q_bind with (Q := Forall bytes).
    - induction H as [|e l He _ IH]; cbn [mapM]; [constructor|]. eapply q_bind with (Q := bytes).
      + unfold wr_raw. eapply q_bind with (Q := bytes); [|intros b Hb; unfold quiet; auto with wk].
        destruct e; cbn [t_entry] in He; try (unfold wr_n; cbn [bind]; unfold quiet; auto with wk; fail).
        unfold wr_string. destruct (mutf_bytes _ He) as (b & -> & Hb). cbn [bind]. unfold quiet. auto with wk.
      + intros b Hb. eapply q_bind; [exact IH|]. intros bs Hbs. constructor; auto.
    - intros es Hes. unfold quiet. auto using bytes_concat with wk.
  Qed.
  Lemma q_classfile fuel c : good_class c -> ends fuel (class_table heap c) -> quiet bytes (wr_classfile fuel md heap c).
  Proof.
    intros H Hn. unfold wr_classfile. assert (HE : env (wenv_class md heap)) by (split; reflexivity).
    eapply q_bind with (Q := bytes).
    { unfold wr_version, wr_major, wr_n. cbn [bind]. unfold quiet. auto with wk. }
    intros v Hv. eapply q_bind with (Q := out).
    { unfold wr_body. pose proof (a_members heap (wenv_class md heap) c (with_bsm wst_new (initial_bsms (cl_attrs c))) eq_refl) as HA.
      assert (HK : quiet out (wr_members (wenv_class md heap) c (with_bsm wst_new (initial_bsms (cl_attrs c))))).
      { apply k_members; auto. split; cbn; auto. destruct H as ((_ & _ & _ & _ & _ & H) & _ & H'). unfold initial_bsms in *.
        clear - H H'. induction H as [|a l Ha _ IH]; cbn [flat_map] in *; [constructor|]. apply Forall_app in H' as [H1 H2]. apply Forall_app. split; auto.
        destruct a; auto. cbn in Ha. clear - Ha H1. induction Ha; inversion H1; constructor; auto. }
      destruct (wr_members _ _ _) as [[b1 w1]| |]; [|exact HK|exact HK]. destruct HK as [Hb1 Hw1]. cbn [fst snd] in *. cbn [bind].
      eapply q_bind; [apply q_table; auto|].
      - cbn in HA. rewrite HA. exact Hn.
      - intros [b2 w2] [Hb2 Hw2]. apply q_out; auto with wk. }
    intros [b w] [Hb Hw]. cbn [fst snd] in *. cbn beta iota. eapply q_bind; [apply q_pool; auto|]. intros ps Hps. unfold quiet. auto with wk.
  Qed.
End Kinds.

(** * Only nested tables are written *)
Lemma next_nested heap n l : match n with O => contents heap (flat_map (fun b => flat_map dyn_of (b_args b)) l) = []
    | S m => Forall (nested heap m) (contents heap (flat_map (fun b => flat_map dyn_of (b_args b)) l)) end -> Forall (nested heap n) l.
Proof.
  intros H. apply Forall_forall. intros b Hb. destruct n as [|n]; cbn; intros d b' Hd Hc.
  - assert (Hin : In b' (contents heap (flat_map (fun b => flat_map dyn_of (b_args b)) l))) by (apply arg_contents; eauto). rewrite H in Hin. destruct Hin.
  - rewrite Forall_forall in H. apply H. apply arg_contents. eauto.
Qed.
Lemma rounds_nested E fuel : forall i w r, wr_rounds fuel E i w = Ok r ->
  match fuel with O => w_bsm w = [] | S n => Forall (nested (we_heap E) n) (w_bsm w) end.
Proof.
  induction fuel as [|fuel IH]; intros i w r H; cbn [wr_rounds] in H.
  - destruct (w_bsm w); [auto|discriminate].
  - destruct (w_bsm w) as [|b v] eqn:Eb; [constructor|]. inv_bind H. pose proof (a_bsms (we_heap E) E (b :: v) (with_bsm w []) eq_refl) as HA.
    destruct (wr_each wr_bsm E (b :: v) (with_bsm w [])) as [[x w1]| |]; cbn [bind] in H; try discriminate. cbn in HA.
    inv_bind H. apply IH in E1. rewrite HA in E1. apply next_nested. exact E1.
Qed.
Lemma file_nested fuel md heap c o : wr_classfile (S fuel) md heap c = Ok o -> Forall (nested heap fuel) (class_table heap c).
Proof.
  intros H. unfold wr_classfile in H. inv_bind H. inv_bind H. unfold wr_body in E0.
  pose proof (a_members heap (wenv_class md heap) c (with_bsm wst_new (initial_bsms (cl_attrs c))) eq_refl) as HA.
  destruct (wr_members _ _ _) as [[b1 w1]| |]; cbn [bind] in E0; try discriminate. cbn in HA. inv_bind E0. unfold ClassModel.wr_table in E1.
  change (class_table heap c) with (initial_bsms (cl_attrs c) ++ contents heap (class_dyns c)). rewrite <- HA. destruct (w_bsm w1) eqn:Eb; [constructor|].
  inv_bind E1. apply (rounds_nested (wenv_class md heap)) in E2. rewrite Eb in E2. exact E2.
Qed.
