(** Every text in the pool of a written file is one of the class (C95): a walk
    over what is written. *)
From Coq Require Import Lia String.
From Verif Require Import Base BaseLemmas Wtf8Spec Wtf8Model Wtf8Proofs Wtf8Proofs2 MutfModel MutfProofs PrimModel PrimProofs TypeModel TypeSpec TypeProofs
  CpModel SigModel SigSpec SigProofs AnnModel AnnProofs AttrModel FrameModel InsnModel CodeModel CodeSpec CodeProofs CodeUndef ClassModel ClassSpec ClassGrow WriteSpec LaxProofs
  WriteKinds DrawnSpec PutSpec.

Section Put.
  Context (Txt : list Z -> Prop).
  Variable heap : Z -> option bsm.
  Notation Dsc := (desc_text Txt). Notation Fsg := (field_text Txt). Notation Msg := (method_text Txt). Notation Csg := (class_text Txt).
  Hypothesis Hfix : Forall Txt fixed_texts.
  Hypothesis Hheap : texts_heap Txt heap.

  Definition gives {A} (Q : A -> Prop) (r : res A) : Prop := match r with Ok a => Q a | _ => True end.
  Definition entry (e : raw_entry) : Prop := match e with RWtf8 s => Txt s | _ => True end.
  Definition sizes (es : list raw_entry) : Z := fold_right (fun e n => raw_size e + n) 0 es.
  Definition keep (w : wst) : Prop := Forall entry (w_entries w) /\ Forall (n_bsm Txt Dsc) (w_bsm w) /\ 0 <= w_len w <= 1 + sizes (w_entries w).
  Definition kept {A} (x : A * wst) : Prop := keep (snd x).
  Definition same (E : wenv) : Prop := we_heap E = heap.
  Definition wp {A B} (P : A -> Prop) (f : wenv -> A -> wst -> res (B * wst)) : Prop := forall E a w, same E -> P a -> keep w -> gives kept (f E a w).

  Lemma g_bind {A B} (Q : A -> Prop) (R : B -> Prop) r k : gives Q r -> (forall a, Q a -> gives R (k a)) -> gives R (bind r k).
  Proof. intros H Hk. destruct r; cbn in *; auto. Qed.
  Lemma g_any {A} (r : res A) : gives (fun _ => True) r.
  Proof. destruct r; exact I. Qed.
  Lemma g_out {A} (b : A) w : keep w -> gives kept (Ok (b, w)).
  Proof. intros. exact H. Qed.

  Lemma sizes_app a b : sizes (a ++ b) = sizes a + sizes b.
  Proof.
    induction a as [|e a IH]; [reflexivity|]. change (sizes ((e :: a) ++ b)) with (raw_size e + sizes (a ++ b)). change (sizes (e :: a)) with (raw_size e + sizes a). lia.
  Qed.
  Lemma fixed s : In s fixed_texts -> Txt s.
  Proof. intros H. rewrite Forall_forall in Hfix. auto. Qed.
  Lemma g_display t : Dsc t -> gives Txt (display_type t).
  Proof. intros [_ H]. destruct (display_type t) eqn:E; cbn; auto. Qed.

  (** ** The constant pool *)
  Lemma i_raw : wp entry insert_raw.
  Proof.
    intros E e w HE He Hi. unfold insert_raw. destruct (assoc _ _ _); [exact Hi|]. destruct Hi as (H1 & H2 & H3).
    assert (H4 : 1 <= raw_size e) by (destruct e; cbn; lia).
    unfold chk_u. destruct ((0 <=? w_len w + raw_size e) && (w_len w + raw_size e <? 2 ^ 16)) eqn:El; [|destruct (we_md E); [exact I|]]; cbn [bind gives];
      (split; [|split]; cbn [snd w_entries w_bsm w_len]; auto; [apply Forall_app; auto|]); rewrite sizes_app; cbn [sizes fold_right]; fold (sizes (w_entries w)); [lia|].
    unfold wrap_u. pose proof (Z.mod_pos_bound (w_len w + raw_size e) (2 ^ 16) ltac:(lia)).
    pose proof (Z.mod_le (w_len w + raw_size e) (2 ^ 16) ltac:(lia) ltac:(lia)). lia.
  Qed.
  Lemma i_wtf8 : wp Txt insert_wtf8.
  Proof. intros E e w HE He Hi. apply i_raw; auto. Qed.
  Lemma i_nt : wp (fun nd => Txt (fst nd) /\ Txt (snd nd)) insert_nameandtype.
  Proof.
    intros E e w HE [H1 H2] Hi. unfold insert_nameandtype. eapply g_bind; [apply i_wtf8; auto|]. intros [a w1] Ha. cbn beta iota.
    eapply g_bind; [apply i_wtf8; auto|]. intros [b w2] Hb. cbn beta iota. apply i_raw; cbn; auto.
  Qed.
  Lemma i_class : wp Txt insert_class.
  Proof. intros E e w HE H Hi. unfold insert_class. eapply g_bind; [apply i_wtf8; auto|]. intros [a w1] Ha. apply i_raw; cbn; auto. Qed.
  Lemma i_ind t : In t [7; 8; 19; 20] -> wp Txt (insert_indirect_str t).
  Proof.
    intros Ht E e w HE H Hi. unfold insert_indirect_str. eapply g_bind; [apply i_wtf8; auto|]. intros [a w1] Ha. cbn beta iota.
    destruct Ht as [<-|[<-|[<-|[<-|[]]]]]; apply i_raw; cbn; auto.
  Qed.
  Lemma i_member : wp (n_member Txt Dsc) insert_member.
  Proof.
    intros E e w HE (H1 & H2 & H3) Hi. unfold insert_member. eapply g_bind; [apply i_class; auto|]. intros [a w1] Ha. cbn beta iota.
    eapply g_bind; [apply g_display; auto|]. intros d Hd. eapply g_bind; [apply i_nt; cbn; auto|]. intros [b w2] Hb. cbn beta iota.
    apply i_raw; auto. destruct (m_desc e), (m_itfs e); exact I.
  Qed.
  Lemma i_mh : wp (fun h => n_member Txt Dsc (h_member h)) insert_method_handle.
  Proof. intros E e w HE H Hi. unfold insert_method_handle. eapply g_bind; [apply i_member; auto|]. intros [a w1] Ha. apply i_raw; cbn; auto. Qed.
  Lemma i_const : wp (n_const Txt Dsc) insert_constant.
  Proof.
    intros E e w HE H Hi. destruct e; cbn [insert_constant n_const] in *; try (apply i_raw; cbn; auto; fail).
    - apply i_ind; cbn; auto. - apply i_ind; cbn; auto. - apply i_member; auto.
    - eapply g_bind; [apply g_display; auto|]. intros d Hd. eapply g_bind; [apply i_wtf8; auto|]. intros [a w1] Ha. apply i_raw; cbn; auto.
    - apply i_mh; auto.
  Qed.
  Lemma i_dyn : wp (n_dyn Txt Dsc) insert_dynamic.
  Proof.
    intros E d w HE [H1 H2] Hi. unfold insert_dynamic. rewrite HE. destruct (heap (d_cell d)) as [b|] eqn:Eh; [|exact I].
    cbn [insert_bsm bind]. assert (Hi' : keep {| w_entries := w_entries w; w_cache := w_cache w; w_len := w_len w; w_bsm := w_bsm w ++ [b] |}).
    { destruct Hi as (I1 & I2 & I3). split; [|split]; cbn; auto. apply Forall_app. split; auto. constructor; auto. eapply Hheap, Eh. }
    eapply g_bind; [apply g_display; auto|]. intros t Ht. eapply g_bind; [apply i_nt; [exact HE|split|]; cbn; auto|]. intros [n w1] Hn. cbn beta iota.
    apply i_raw; [exact HE| |exact Hn]. destruct (ty_is_method _); exact I.
  Qed.
  Lemma i_or {A} (P : A -> Prop) (f : cins A) : wp P f -> wp (n_or Txt Dsc P) (insert_ordynamic f).
  Proof. intros Hf E [d|a] w HE H Hi; cbn [insert_ordynamic]; [apply i_dyn; auto|apply Hf; auto]. Qed.

  (** ** Combinators *)
  Lemma k_idx {A} P (f : cins A) : wp P f -> wp P (wr_idx f).
  Proof. intros Hf E a w HE Ha Hi. unfold wr_idx. eapply g_bind; [apply Hf; auto|]. intros [i w1] H. exact H. Qed.
  Lemma k_plain {A} (f : wr A) : wp (fun _ => True) (wr_plain f).
  Proof. intros E a w HE Ha Hi. unfold wr_plain. eapply g_bind; [apply g_any|]. intros b Hb. exact Hi. Qed.
  Lemma k_each {A} P (f : cwr A) : wp P f -> wp (Forall P) (wr_each f).
  Proof.
    intros Hf E l w HE Hl. revert w. induction Hl as [|a l Ha _ IH]; intros w Hi; cbn [wr_each]; [exact Hi|].
    eapply g_bind; [apply Hf; auto|]. intros [b w1] H1. cbn beta iota. eapply g_bind; [apply IH; auto|]. intros [bs w2] H2. exact H2.
  Qed.
  Lemma k_cvec {A} P k (f : cwr A) : wp P f -> wp (Forall P) (wr_cvec k f).
  Proof.
    intros Hf E a w HE Ha Hi. unfold wr_cvec. destruct (_ <? _); [|exact I]. eapply g_bind; [apply (k_each P); auto|]. intros [i w1] H1. exact H1.
  Qed.
  Lemma k_list16 {A} P (f : cwr A) : wp P f -> wp (Forall P) (wr_list16 f).
  Proof. intros Hf E a w HE Ha Hi. unfold wr_list16. eapply g_bind; [apply (k_each P); auto|]. intros [i w1] H1. exact H1. Qed.
  Lemma k_opt {A} P (f : cwr A) : wp P f -> wp (t_opt P) (wr_opt f).
  Proof. intros Hf E [a|] w HE Ha Hi; cbn [wr_opt]; [apply Hf; auto|exact Hi]. Qed.
  Lemma k_pair {A B} P Q (f : cwr A) (g : cwr B) : wp P f -> wp Q g -> wp (fun ab => P (fst ab) /\ Q (snd ab)) (wr_pair f g).
  Proof.
    intros Hf Hg E a w HE [H1 H2] Hi. unfold wr_pair. eapply g_bind; [apply Hf; auto|]. intros [x w1] Hw1. cbn beta iota.
    eapply g_bind; [apply Hg; auto|]. intros [y w2] Hw2. exact Hw2.
  Qed.
  Lemma k_via {A B} P (h : A -> B) (f : cwr B) : wp P f -> wp (fun a => P (h a)) (wr_via h f).
  Proof. intros Hf E a w HE H Hi. apply Hf; auto. Qed.
  Lemma k_none : wp (fun _ => True) wr_none.
  Proof. intros E a w HE H Hi. exact Hi. Qed.
  Lemma k_mono {A B} (P Q : A -> Prop) (f : wenv -> A -> wst -> res (B * wst)) : wp Q f -> (forall a, P a -> Q a) -> wp P f.
  Proof. intros Hf H E a w HE Ha Hi. apply Hf; auto. Qed.
  Lemma k_attr {A} P n (f : cwr A) : Txt n -> wp P f -> wp P (wr_attr n f).
  Proof.
    intros Hn Hf E a w HE H Hi. unfold wr_attr. eapply g_bind; [apply i_wtf8; auto|]. intros [x w1] Hx. cbn beta iota.
    eapply g_bind; [apply Hf; auto|]. intros [y w2] Hw2. exact Hw2.
  Qed.
  Lemma k_raw_attr : wp (n_raw Txt) wr_raw_attr.
  Proof. intros E a w HE H1 Hi. unfold wr_raw_attr. eapply g_bind; [apply i_wtf8; auto|]. intros [x w1] Hx. exact Hx. Qed.
  Lemma k_cow : wp Txt wr_cow. Proof. apply k_idx, i_wtf8. Qed.
  Lemma k_type : wp Dsc wr_type.
  Proof. apply k_idx. intros E t w HE [H _] Hi. apply i_wtf8; auto. rewrite type_to_wtf8_text. exact H. Qed.
  Lemma k_strcp t : In t [7; 8; 19; 20] -> wp Txt (wr_strcp t). Proof. intros H. apply k_idx, i_ind, H. Qed.
  Lemma k_class : wp Txt wr_class. Proof. apply k_strcp. cbn. auto. Qed.
  Lemma k_nametype : wp (fun nt => Txt (fst nt) /\ Dsc (snd nt)) wr_nametype.
  Proof. apply k_idx. intros E nt w HE [H1 H2] Hi. eapply g_bind; [apply g_display; auto|]. intros t Ht. apply i_nt; cbn; auto. Qed.
  Lemma k_cflags : wp (fun _ => True) wr_cflags. Proof. apply k_plain. Qed.
  Lemma chars_utf8 s : chars s -> sig_utf8 s = flat_map utf8 s.
  Proof. unfold sig_utf8. induction 1 as [|c l [Hc _] _ IH]; auto. cbn. rewrite encode_utf8_raw_spec, IH; auto. Qed.
  Lemma k_sig {A} (d : A -> list Z) : wp (fun a => Txt (sig_utf8 (d a))) (wr_sig d).
  Proof. intros E a w HE H Hi. unfold wr_sig. apply k_cow; auto. Qed.
  Lemma k_fsig : wp Fsg (wr_sig d_rsig).
  Proof. eapply k_mono; [apply k_sig|]. intros s [H1 H2]. cbn beta. rewrite d_r, chars_utf8; auto. Qed.
  Lemma k_msig : wp Msg (wr_sig d_method).
  Proof. eapply k_mono; [apply k_sig|]. intros s [H1 H2]. cbn beta. rewrite chars_utf8 by (apply method_chars, H1). rewrite d_method_text. exact H2. Qed.
  Lemma k_csig : wp Csg (wr_sig d_class).
  Proof. eapply k_mono; [apply k_sig|]. intros s [H1 H2]. cbn beta. rewrite d_class_text, chars_utf8; auto. Qed.
  Lemma k_bsm : wp (n_bsm Txt Dsc) wr_bsm.
  Proof.
    intros E b w HE [H1 H2] Hi. unfold wr_bsm. eapply g_bind; [apply (k_idx (fun h => n_member Txt Dsc (h_member h))); auto; apply i_mh|].
    intros [x w1] Hw1. cbn beta iota. eapply g_bind.
    - apply (k_each (n_or Txt Dsc (n_const Txt Dsc))); auto. apply k_idx, i_or, i_const.
    - intros [y w2] Hw2. exact Hw2.
  Qed.

  (** ** Annotations *)
  Lemma k_tagged {A} P t (f : cwr A) : wp P f -> wp P (AnnModel.wr_tagged t f).
  Proof. intros Hf E a w HE H Hi. unfold AnnModel.wr_tagged. eapply g_bind; [apply Hf; auto|]. intros [x w1] Hw1. exact Hw1. Qed.
  Lemma k_tagged' {A} P t (f : cwr A) : wp P f -> wp P (FrameModel.wr_tagged t f).
  Proof. intros Hf E a w HE H Hi. unfold FrameModel.wr_tagged. eapply g_bind; [apply Hf; auto|]. intros [x w1] Hw1. exact Hw1. Qed.
  Lemma k_const : wp (n_const Txt Dsc) wr_constant. Proof. apply k_idx, i_const. Qed.
  Lemma k_cint : wp (fun _ => True) wr_cint. Proof. apply (k_idx (fun _ => True)). intros E a w HE _ Hi. apply i_raw; cbn; auto. Qed.
  Lemma k_clong : wp (fun _ => True) wr_clong. Proof. apply (k_idx (fun _ => True)). intros E a w HE _ Hi. apply i_raw; cbn; auto. Qed.
  Lemma k_cfloat : wp (fun _ => True) wr_cfloat. Proof. apply (k_idx (fun _ => True)). intros E a w HE _ Hi. apply i_raw; cbn; auto. Qed.
  Lemma k_cdouble : wp (fun _ => True) wr_cdouble. Proof. apply (k_idx (fun _ => True)). intros E a w HE _ Hi. apply i_raw; cbn; auto. Qed.
  Lemma k_vals_with (f : cwr aval) (P : aval -> Prop) : wp P f -> wp (Forall (fun kv => Txt (fst kv) /\ P (snd kv))) (wr_vals_with f).
  Proof.
    intros Hf E vs w HE H Hi. unfold wr_vals_with. eapply g_bind.
    - refine (k_each (fun kv => Txt (fst kv) /\ P (snd kv)) _ _ E vs w HE H Hi). clear - Hfix Hheap Hf. intros E [k v] w HE [H1 H2] Hi. cbn beta iota.
      eapply g_bind; [apply k_cow; auto|]. intros [x w1] Hw1. cbn beta iota. eapply g_bind; [apply Hf; auto|]. intros [y w2] Hw2. exact Hw2.
    - intros [y w2] Hw2. exact Hw2.
  Qed.
  Ltac fx := apply fixed; cbn; tauto.
  Lemma k_aval : wp (n_aval Txt Dsc) wr_aval.
  Proof.
    intros E v. induction v using aval_ind'; intros w HE H0 Hi; inversion H0; subst; cbn [wr_aval].
    all: try (apply (k_tagged (fun _ => True)); auto using k_cint, k_clong, k_cfloat, k_cdouble; fail).
    - apply (k_tagged Txt); auto using k_cow.
    - eapply g_bind; [apply k_type; auto|]. intros [x w1] Hw1. cbn beta iota. eapply g_bind; [apply k_cow; auto|]. intros [y w2] Hw2. exact Hw2.
    - eapply g_bind with (Q := Txt).
      + match goal with H : t_opt Dsc ?o |- _ => destruct o end; [apply g_display; auto|]. cbn. fx.
      + intros s Hs. apply (k_tagged Txt); auto using k_cow.
    - eapply g_bind; [apply k_type; auto|]. intros [x w1] Hw1. cbn beta iota. unfold wr_vals_with. eapply g_bind with (Q := kept); [eapply g_bind with (Q := kept)|].
      + match goal with A : Forall _ vs, B : Forall _ vs |- _ => clear - Hfix Hheap HE A B Hw1; revert w1 Hw1; induction A as [|[k v] vs Hv _ IH]; intros w1 Hw1; inversion B as [|? ? [Hk Ht] Hr]; subst end;
          cbn [wr_each]; [exact Hw1|].
        eapply g_bind with (Q := kept).
        * eapply g_bind; [apply k_cow; auto|]. intros [y w2] Hw2. cbn beta iota. eapply g_bind; [apply Hv; auto|]. intros [z w3] Hw3. exact Hw3.
        * intros [y w2] Hw2. cbn beta iota. eapply g_bind; [apply (IH Hr w2 Hw2)|]. intros [z w3] Hw3. exact Hw3.
      + intros [y w2] Hw2. exact Hw2.
      + intros [y w2] Hw2. exact Hw2.
    - eapply g_bind with (Q := kept).
      + match goal with A : Forall _ vs, B : Forall _ vs |- _ => clear - Hfix Hheap HE A B Hi; revert w Hi; induction A as [|v vs Hv _ IH]; intros w1 Hw1; inversion B; subst end;
          cbn [wr_each]; [exact Hw1|].
        eapply g_bind; [apply Hv; auto|]. intros [y w2] Hw2. cbn beta iota. eapply g_bind; [apply IH; auto|]. intros [z w3] Hw3. exact Hw3.
      + intros [y w2] Hw2. exact Hw2.
  Qed.
  Lemma k_vals : wp (n_vals Txt Dsc) wr_vals. Proof. apply k_vals_with, k_aval. Qed.
  Lemma k_annot : wp (n_annot Txt Dsc) wr_annot.
  Proof.
    intros E a w HE [H1 H2] Hi. unfold wr_annot. eapply g_bind; [apply k_type; auto|]. intros [x w1] Hw1. cbn beta iota.
    eapply g_bind; [apply k_vals; auto|]. intros [y w2] Hw2. exact Hw2.
  Qed.
  Lemma k_annots : wp (Forall (n_annot Txt Dsc)) wr_annots. Proof. apply (k_cvec (n_annot Txt Dsc)), k_annot. Qed.
  Lemma k_tannot {T} (f : cwr T) : wp (fun _ => True) f -> wp (n_tannot Txt Dsc) (wr_tannot f).
  Proof.
    intros Hf E a w HE [H1 H2] Hi. unfold wr_tannot. eapply g_bind; [apply Hf; auto|]. intros [x w1] Hw1. cbn beta iota.
    eapply g_bind; [apply (k_cvec _ 1 _ (k_plain _)); auto; apply Forall_forall; auto|]. intros [y w2] Hw2. cbn beta iota.
    eapply g_bind; [apply k_type; auto|]. intros [z w3] Hw3. cbn beta iota.
    eapply g_bind; [apply k_vals; auto|]. intros [u w4] Hw4. exact Hw4.
  Qed.
  Lemma k_tannots {T} (f : wr T) : wp (Forall (n_tannot Txt Dsc)) (wr_cvec 2 (wr_tannot (wr_plain f))).
  Proof. apply (k_cvec (n_tannot Txt Dsc)), k_tannot, k_plain. Qed.

  (** ** Fields, methods, class attributes *)
  Lemma k_fattr : wp (n_fattr Txt Dsc Fsg) wr_fattr.
  Proof.
    intros E a w HE H Hi. destruct a; cbn [wr_fattr n_fattr] in *.
    - refine (k_attr (fun _ => True) _ _ _ k_none E tt w HE I Hi). fx.
    - refine (k_attr (fun _ => True) _ _ _ k_none E tt w HE I Hi). fx.
    - refine (k_attr _ _ _ _ k_fsig E _ w HE H Hi). fx.
    - refine (k_attr _ _ _ _ k_const E _ w HE H Hi). fx.
    - refine (k_attr _ _ _ _ k_annots E _ w HE H Hi). fx.
    - refine (k_attr _ _ _ _ k_annots E _ w HE H Hi). fx.
    - refine (k_attr _ _ _ _ (k_tannots _) E _ w HE H Hi). fx.
    - refine (k_attr _ _ _ _ (k_tannots _) E _ w HE H Hi). fx.
    - apply k_raw_attr; auto.
  Qed.
  Lemma k_field : wp (n_field Txt Dsc Fsg) wr_field.
  Proof.
    eapply k_mono; [apply k_via, k_pair; [apply k_cflags|]; apply k_pair; [apply k_cow|]; apply k_pair; [apply k_type|]; apply (k_cvec _ 2 _ k_fattr)|].
    intros a (H1 & H2 & H3). cbn. auto.
  Qed.
  Lemma k_mparam : wp (fun m => t_opt Txt (mp_name m)) wr_mparam.
  Proof. eapply k_mono; [apply k_via, k_pair; [apply (k_opt _ _ k_cow)|apply k_cflags]|]. cbn. auto. Qed.
  Lemma k_mattr (f : cwr code) : wp (n_code Txt Dsc Fsg) f -> wp (n_mattr Txt Dsc Fsg Msg) (wr_mattr f).
  Proof.
    intros Hf E a w HE H Hi. destruct a; cbn [wr_mattr n_mattr] in *.
    - refine (k_attr _ _ _ _ Hf E _ w HE H Hi). fx.
    - refine (k_attr (fun _ => True) _ _ _ k_none E tt w HE I Hi). fx.
    - refine (k_attr (fun _ => True) _ _ _ k_none E tt w HE I Hi). fx.
    - refine (k_attr _ _ _ _ k_msig E _ w HE H Hi). fx.
    - refine (k_attr _ _ _ _ k_annots E _ w HE H Hi). fx.
    - refine (k_attr _ _ _ _ k_annots E _ w HE H Hi). fx.
    - refine (k_attr _ _ _ _ (k_tannots _) E _ w HE H Hi). fx.
    - refine (k_attr _ _ _ _ (k_tannots _) E _ w HE H Hi). fx.
    - refine (k_attr _ _ _ _ (k_cvec _ 1 _ k_annots) E _ w HE H Hi). fx.
    - refine (k_attr _ _ _ _ (k_cvec _ 1 _ k_annots) E _ w HE H Hi). fx.
    - refine (k_attr _ _ _ _ (k_cvec _ 2 _ k_class) E _ w HE H Hi). fx.
    - refine (k_attr _ _ _ _ k_aval E _ w HE H Hi). fx.
    - refine (k_attr _ _ _ _ (k_cvec _ 1 _ k_mparam) E _ w HE H Hi). fx.
    - apply k_raw_attr; auto.
  Qed.
  Lemma k_require : wp (n_require Txt) wr_require.
  Proof.
    eapply k_mono; [apply k_via, k_pair; [apply (k_strcp 19); cbn; auto|]; apply k_pair; [apply k_cflags|apply (k_opt _ _ k_cow)]|].
    intros a [H1 H2]. cbn. auto.
  Qed.
  Lemma k_exopen : wp (n_exopen Txt) wr_exopen.
  Proof.
    eapply k_mono; [apply k_via, k_pair; [apply (k_strcp 20); cbn; auto|]; apply k_pair; [apply k_cflags|apply (k_cvec _ 2 _ (k_strcp 19 ltac:(cbn; auto)))]|].
    intros a [H1 H2]. cbn. auto.
  Qed.
  Lemma k_provide : wp (n_provide Txt) wr_provide.
  Proof. eapply k_mono; [apply k_via, k_pair; [apply k_class|apply (k_cvec _ 2 _ k_class)]|]. intros a [H1 H2]. cbn. auto. Qed.
  Lemma k_module : wp (n_module Txt) wr_module.
  Proof.
    eapply k_mono; [apply k_via, k_pair; [apply (k_strcp 19); cbn; auto|]; apply k_pair; [apply k_cflags|]; apply k_pair; [apply (k_opt _ _ k_cow)|];
      apply k_pair; [apply (k_cvec _ 2 _ k_require)|]; apply k_pair; [apply (k_cvec _ 2 _ k_exopen)|]; apply k_pair; [apply (k_cvec _ 2 _ k_exopen)|];
      apply k_pair; [apply (k_cvec _ 2 _ k_class)|apply (k_cvec _ 2 _ k_provide)]|].
    intros a (H1 & H2 & H3 & H4 & H5 & H6 & H7). cbn. auto 20.
  Qed.
  Lemma k_inner : wp (n_inner Txt) wr_inner_class.
  Proof.
    eapply k_mono; [apply k_via, k_pair; [apply k_class|]; apply k_pair; [apply (k_opt _ _ k_class)|]; apply k_pair; [apply (k_opt _ _ k_cow)|apply k_cflags]|].
    intros a (H1 & H2 & H3). cbn. auto.
  Qed.
  Lemma k_unless : wp (n_cattr Txt Dsc Csg) wr_cattr_unless_bsm.
  Proof.
    intros E a w HE H Hi. destruct a; cbn [wr_cattr_unless_bsm wr_cattr n_cattr] in *.
    - refine (k_attr _ _ _ _ k_csig E _ w HE H Hi). fx.
    - refine (k_attr (fun _ => True) _ _ _ k_none E tt w HE I Hi). fx.
    - refine (k_attr (fun _ => True) _ _ _ k_none E tt w HE I Hi). fx.
    - refine (k_attr _ _ _ _ k_cow E _ w HE H Hi). fx.
    - refine (k_attr _ _ _ _ (k_cvec _ 2 _ k_inner) E _ w HE H Hi). fx.
    - refine (k_attr _ _ _ _ (k_pair _ _ _ _ k_class (k_opt _ _ k_nametype)) E (_, _) w HE H Hi). fx.
    - refine (k_attr (fun _ => True) _ _ _ (k_plain _) E _ w HE H Hi). fx.
    - exact Hi.
    - refine (k_attr _ _ _ _ k_module E _ w HE H Hi). fx.
    - refine (k_attr _ _ _ _ (k_cvec _ 2 _ (k_strcp 20 _)) E _ w HE H Hi); [fx|cbn; auto].
    - refine (k_attr _ _ _ _ k_class E _ w HE H Hi). fx.
    - refine (k_attr _ _ _ _ k_class E _ w HE H Hi). fx.
    - refine (k_attr _ _ _ _ (k_cvec _ 2 _ k_class) E _ w HE H Hi). fx.
    - refine (k_attr _ _ _ _ k_annots E _ w HE H Hi). fx.
    - refine (k_attr _ _ _ _ k_annots E _ w HE H Hi). fx.
    - refine (k_attr _ _ _ _ (k_tannots _) E _ w HE H Hi). fx.
    - refine (k_attr _ _ _ _ (k_tannots _) E _ w HE H Hi). fx.
    - apply k_raw_attr; auto.
  Qed.

  (** ** Code *)
  Lemma k_label : wp (fun _ => True) wr_label.
  Proof. intros E a w HE H Hi. unfold wr_label. eapply g_bind; [apply g_any|]. intros i _. exact Hi. Qed.
  Lemma k_lvt : wp (fun _ => True) wr_lvt.
  Proof.
    intros E a w HE H Hi. unfold wr_lvt. eapply g_bind; [apply g_any|]. intros i _. eapply g_bind; [apply g_any|]. intros j _.
    eapply g_bind; [apply g_any|]. intros d _. exact Hi.
  Qed.
  Lemma k_label_u8 : wp (fun _ => True) wr_label_u8.
  Proof. eapply k_mono; [apply k_pair; [apply k_label|apply k_plain]|]. cbn. auto. Qed.
  Lemma k_target : wp (fun _ => True) wr_code_target.
  Proof.
    intros E t w HE _ Hi. destruct t; cbn [wr_code_target].
    1-2: refine (k_tagged' _ _ _ (k_cvec _ 2 _ k_lvt) E _ w HE _ Hi); apply Forall_forall; auto.
    1: { refine (k_tagged' (fun _ => True) _ _ _ E _ w HE I Hi). clear - Hfix Hheap. intros E c w HE H Hi. unfold wr_catch.
         eapply g_bind; [apply g_any|]. intros [i|] _; exact Hi. }
    1-4: refine (k_tagged' _ _ _ k_label E _ w HE I Hi).
    all: refine (k_tagged' _ _ _ k_label_u8 E _ w HE I Hi).
  Qed.
  Lemma k_code_tannots : wp (Forall (n_tannot Txt Dsc)) (wr_cvec 2 wr_code_tannot).
  Proof. apply (k_cvec (n_tannot Txt Dsc)), k_tannot, k_target. Qed.
  Definition row {A} (P : A -> Prop) (r : lvrow A) : Prop := Txt (lr_name r) /\ P (lr_type r).
  Lemma k_lvrow {A} (P : A -> Prop) (f : cwr A) : wp P f -> wp (row P) (wr_lvrow f).
  Proof.
    intros Hf. eapply k_mono; [apply k_via, k_pair; [apply k_plain|]; apply k_pair; [apply k_plain|]; apply k_pair; [apply k_cow|]; apply k_pair; [apply Hf|apply k_plain]|].
    intros a [H1 H2]. cbn. auto.
  Qed.
  Lemma k_handler : wp (fun x => t_opt Txt (c_type x)) wr_handler.
  Proof.
    intros E x w HE H Hi. unfold wr_handler. eapply g_bind; [apply g_any|]. intros i _. eapply g_bind; [apply g_any|]. intros j _. eapply g_bind; [apply g_any|]. intros k _.
    destruct (c_type x); [|exact Hi]. eapply g_bind; [apply i_class; auto|]. intros [n w1] Hw. exact Hw.
  Qed.
  Lemma g_lv_row {A} E v (t : A) : gives (fun r => lr_name r = v_name v /\ lr_type r = t) (lv_row E v t).
  Proof.
    unfold lv_row. eapply g_bind; [apply g_any|]. intros i _. eapply g_bind; [apply g_any|]. intros j _. eapply g_bind; [apply g_any|]. intros d _. cbn. auto.
  Qed.
  Lemma g_lv_rows E vs : Forall (n_var Txt Dsc Fsg) vs -> gives (fun r => Forall (row Dsc) (fst r) /\ Forall (row Fsg) (snd r)) (lv_rows E vs).
  Proof.
    intros Hv. induction Hv as [|v vs (H1 & H2 & H3) _ IH]; cbn [lv_rows]; [cbn; auto|].
    eapply g_bind with (Q := Forall (row Dsc)).
    - destruct (v_desc v) as [d|]; [|cbn; auto]. eapply g_bind; [apply g_lv_row|]. intros r [E1 E2]. cbn. constructor; auto. split; [rewrite E1|rewrite E2]; auto.
    - intros ds Hds. eapply g_bind with (Q := Forall (row Fsg)).
      + destruct (v_sig v) as [g|]; [|cbn; auto]. eapply g_bind; [apply g_lv_row|]. intros r [E1 E2]. cbn. constructor; auto.
        split; [rewrite E1|rewrite E2]; auto.
      + intros gs Hgs. eapply g_bind; [apply IH; auto|]. intros [ds' gs'] [H4 H5]. cbn in *. split; apply Forall_app; auto.
  Qed.
  Lemma g_kattr E a w : same E -> n_kattr Txt Dsc Fsg a -> keep w -> gives kept (wr_kattr E a w).
  Proof.
    intros HE H1 Hi. destruct a as [l|l|vs|r]; cbn [wr_kattr wr_fcattr n_kattr] in *.
    - eapply g_bind; [refine (k_attr _ _ _ _ k_code_tannots E _ w HE H1 Hi); fx|]. intros [b w1] Hw. exact Hw.
    - eapply g_bind; [refine (k_attr _ _ _ _ k_code_tannots E _ w HE H1 Hi); fx|]. intros [b w1] Hw. exact Hw.
    - eapply g_bind; [apply g_lv_rows; auto|]. intros [ds gs] [Hds Hgs]. cbn [fst snd] in *.
      assert (HD : forall w, keep w -> gives kept (wr_attr (str "LocalVariableTable") (wr_cvec 2 (wr_lvrow wr_type)) E ds w)).
      { intros w' Hw'. refine (k_attr _ _ _ _ (k_cvec _ 2 _ (k_lvrow _ _ k_type)) E _ w' HE Hds Hw'). fx. }
      assert (HG : forall w, keep w -> gives kept (wr_attr (str "LocalVariableTypeTable") (wr_cvec 2 (wr_lvrow (wr_sig d_rsig))) E gs w)).
      { intros w' Hw'. refine (k_attr _ _ _ _ (k_cvec _ 2 _ (k_lvrow _ _ k_fsig)) E _ w' HE Hgs Hw'). fx. }
      destruct ds as [|d ds], gs as [|g gs].
      + exact I.
      + eapply g_bind; [apply HG; auto|]. intros [b w1] Hw. exact Hw.
      + eapply g_bind; [apply HD; auto|]. intros [b w1] Hw. exact Hw.
      + eapply g_bind; [apply HD; auto|]. intros [b w1] Hw. cbn beta iota. eapply g_bind; [apply HG; auto|]. intros [b' w2] Hw2. exact Hw2.
    - eapply g_bind; [apply k_raw_attr; auto|]. intros [b w1] Hw. exact Hw.
  Qed.
  Lemma g_kattrs E l : same E -> Forall (n_kattr Txt Dsc Fsg) l -> forall x w, keep w -> gives kept (wr_kattrs E l x w).
  Proof.
    intros HE H. induction H as [|a l Ha _ IH]; intros x w Hi; cbn [wr_kattrs]; [exact Hi|].
    eapply g_bind; [apply g_kattr; auto|]. intros [[b y] w1] Hw. cbn beta iota. eapply g_bind; [apply g_any|]. intros z _.
    eapply g_bind; [apply IH; auto|]. intros [[b' y'] w2] Hw'. exact Hw'.
  Qed.

  (** ** Instructions *)
  Lemma i_ctype : wp (n_ctype Txt Dsc) insert_ctype.
  Proof.
    intros E c w HE H Hi. unfold insert_ctype. eapply g_bind with (Q := Txt); [|intros n Hn; apply i_class; auto].
    destruct c as [s|d t]; cbn [ctype_name n_ctype] in *; [exact (proj1 H)|]. exact (g_display (TArray d t) H).
  Qed.
  Lemma k_ldc : wp (n_or Txt Dsc (n_const Txt Dsc)) emit_ldc.
  Proof. intros E c w HE H Hi. unfold emit_ldc. eapply g_bind; [apply (i_or _ _ i_const); auto|]. intros [i w1] Hw. exact Hw. Qed.
  Lemma k_push : wp (n_or Txt Dsc (n_const Txt Dsc)) emit_push.
  Proof.
    intros E c w HE H Hi. unfold emit_push. destruct c as [d|[x|x|x|x|x|x|x|x|x]]; try (apply k_ldc; auto; fail);
      repeat match goal with |- context [if ?b then _ else _] => destruct b end; try (apply k_ldc; auto; fail); exact Hi.
  Qed.
  Lemma k_emit_idx {A} P op (f : cins A) t : wp P f -> wp P (emit_idx op f t).
  Proof. intros Hf E a w HE H Hi. unfold emit_idx. eapply g_bind; [apply Hf; auto|]. intros [i w1] Hw. exact Hw. Qed.
  Lemma k_emit : wp (n_insn Txt Dsc) emit.
  Proof.
    intros E i w HE H Hi. destruct i; cbn [emit n_insn] in *;
      try (repeat match goal with |- context [match ?b with _ => _ end] => is_var b; destruct b end; exact Hi).
    all: try exact Hi.
    all: try (refine (k_emit_idx _ _ _ _ (i_or _ _ i_ctype) E _ w HE H Hi)).
    all: try (refine (k_emit_idx _ _ _ _ (i_or _ _ i_class) E _ w HE H Hi)).
    all: try (refine (k_emit_idx _ _ _ _ (i_or _ _ i_member) E _ w HE H Hi)).
    - apply k_push; auto.
    - refine (k_emit_idx _ _ _ _ i_dyn E _ w HE H Hi).
  Qed.
  Lemma g_insn E i y w : same E -> n_insn Txt Dsc i -> keep w -> gives kept (write_insn E i y w).
  Proof.
    intros HE Hg Hi.
    assert (HD : gives kept ('(b, w) <- emit E i w ;; Ok ({| y_bufs := y_bufs y; y_cur := y_cur y ++ b; y_jumps := y_jumps y; y_labels := y_labels y |}, w))).
    { eapply g_bind; [apply k_emit; auto|]. intros [b w1] Hw. exact Hw. }
    destruct i; cbn [write_insn]; try exact HD; exact Hi.
  Qed.
  Lemma g_insns E is : same E -> Forall (n_insn Txt Dsc) is -> forall y w, keep w -> gives kept (write_insns E is y w).
  Proof.
    intros HE H. induction H as [|i is Hg _ IH]; intros y w Hi; cbn [write_insns]; [exact Hi|].
    eapply g_bind; [apply g_insn; auto|]. intros [y1 w1] H1. apply IH. exact H1.
  Qed.
  Lemma k_code : wp (n_code Txt Dsc Fsg) wr_code.
  Proof.
    intros E c w HE (H1 & H2 & H3) Hi. unfold wr_code. eapply g_bind; [apply g_insns; eauto|]. intros [y w1] Hw1. cbn beta iota.
    eapply g_bind; [apply g_any|]. intros [[n ends] body] _. cbn beta iota zeta.
    eapply g_bind; [refine (k_each _ _ k_handler _ _ _ _ H2 Hw1); exact HE|]. intros [hs w2] Hw2. cbn beta iota.
    eapply g_bind; [apply g_kattrs; [exact HE|exact H3|exact Hw2]|]. intros [[bs extra] w3] Hw3. cbn beta iota. eapply g_bind; [apply g_any|]. intros k _. exact Hw3.
  Qed.

  (** ** The class file *)
  Lemma k_method : wp (n_method Txt Dsc Fsg Msg) (wr_method wr_code).
  Proof.
    eapply k_mono; [apply k_via, k_pair; [apply k_cflags|]; apply k_pair; [apply k_cow|]; apply k_pair; [apply k_type|]; apply (k_cvec _ 2 _ (k_mattr _ k_code))|].
    intros a (H1 & H2 & H3). cbn. auto.
  Qed.
  Lemma k_members : wp (texts_class Txt) wr_members.
  Proof.
    eapply k_mono; [apply k_via, k_pair; [apply k_cflags|]; apply k_pair; [apply (k_idx _ _ i_class)|]; apply k_pair; [apply (k_opt _ _ (k_idx _ _ i_class))|];
      apply k_pair; [apply (k_list16 _ _ (k_idx _ _ i_class))|]; apply k_pair; [apply (k_list16 _ _ k_field)|];
      apply k_pair; [apply (k_list16 _ _ k_method)|apply (k_list16 _ _ k_unless)]|].
    intros a (H1 & H2 & H3 & H4 & H5 & H6). cbn. auto 20.
  Qed.
  Lemma g_rounds E fuel : same E -> forall i w, keep w -> gives kept (wr_rounds fuel E i w).
  Proof.
    intros HE. induction fuel as [|fuel IH]; intros i w Hi; cbn [wr_rounds].
    - destruct (w_bsm w) eqn:Eb; [exact Hi|exact I].
    - destruct (w_bsm w) as [|b v] eqn:Eb; [exact Hi|]. eapply g_bind; [apply g_any|]. intros k _.
      assert (Hi' : keep (with_bsm w [])) by (destruct Hi as (I1 & I2 & I3); split; [|split]; cbn; auto).
      eapply g_bind; [apply (k_each _ _ k_bsm E (b :: v) (with_bsm w []) HE); [rewrite <- Eb; apply Hi|exact Hi']|]. intros [x w1] Hw. cbn beta iota.
      eapply g_bind; [apply IH; exact Hw|]. intros [[bs k'] w2] Hw2. exact Hw2.
  Qed.
  Lemma g_table E fuel w : same E -> keep w -> gives kept (ClassModel.wr_table fuel E w).
  Proof.
    intros HE Hi. unfold ClassModel.wr_table. destruct (w_bsm w) eqn:Eb; [exact Hi|].
    eapply g_bind; [apply g_rounds; auto|]. intros [[b' i] w1] Hw. cbn beta iota.
    eapply g_bind; [apply k_cow; [exact HE|fx|exact Hw]|]. intros [n w2] Hw2. cbn beta iota. eapply g_bind; [apply g_any|]. intros k _. exact Hw2.
  Qed.
  Lemma g_body fuel md c : texts_class Txt c -> gives kept (wr_body fuel (wenv_class md heap) c).
  Proof.
    intros H. unfold wr_body. eapply g_bind.
    - apply k_members; [reflexivity|exact H|]. split; [constructor|]. split; [|cbn; lia]. destruct H as (_ & _ & _ & _ & _ & H). cbn [with_bsm w_bsm]. unfold initial_bsms.
      clear - Hfix Hheap H. induction H as [|a l Ha _ IH]; cbn [flat_map]; [constructor|]. apply Forall_app. split; auto. destruct a; auto.
    - intros [b1 w1] Hw1. cbn beta iota. eapply g_bind; [apply g_table; [reflexivity|exact Hw1]|]. intros [b2 w2] Hw2. exact Hw2.
  Qed.
End Put.

(** * The texts of what was written *)
Lemma raw_shape e bs : wr_raw e = Ok bs -> exists body, bs = raw_tag e :: body /\
  match e with
  | RWtf8 s => exists b, string_to_modified_utf8 s = Ok b /\ body = be 2 (len b) ++ b
  | _ => assoc Z.eqb (raw_tag e) body_sizes = Some (len body)
  end.
Proof.
  destruct e; unfold wr_raw; intros H; [|cbn [wr_n bind] in H; inversion H; subst; eexists; split; reflexivity..].
  unfold wr_string in H. inv_bind H. inv_bind E. inversion E; subst. inversion H; subst. eexists. split; [reflexivity|]. eauto.
Qed.
Lemma skip_len {A} (a b : list A) n : n = len a -> skipn (Z.to_nat n) (a ++ b) = b.
Proof. intros ->. unfold len. rewrite Nat2Z.id, skipn_app, skipn_all, Nat.sub_diag. reflexivity. Qed.
Lemma first_len {A} (a b : list A) n : n = len a -> firstn (Z.to_nat n) (a ++ b) = a.
Proof. intros ->. unfold len. rewrite Nat2Z.id, firstn_app, firstn_all, Nat.sub_diag. cbn. apply app_nil_r. Qed.
Lemma raw_texts e bs : wr_raw e = Ok bs -> (forall s b, e = RWtf8 s -> string_to_modified_utf8 s = Ok b -> len b < 65536) ->
  forall n left rest x, In x (texts_from (S n) left (bs ++ rest)) ->
    0 < left /\ ((exists s, e = RWtf8 s /\ string_to_modified_utf8 s = Ok x) \/ In x (texts_from n (left - raw_size e) rest)).
Proof.
  intros H Hs n left rest x Hx. destruct (raw_shape e bs H) as (body & -> & HB). cbn [app texts_from] in Hx.
  destruct (Z.leb_spec left 0) as [|Hl]; [destruct Hx|]. split; [lia|].
  destruct e; cbn [raw_tag] in HB, Hx; try (rewrite HB in Hx; cbn [Z.eqb Pos.eqb orb] in Hx; rewrite skip_len in Hx by reflexivity; right; exact Hx).
  destruct HB as (b & Eb & ->). specialize (Hs s b eq_refl Eb). cbn [Z.eqb Pos.eqb be app] in Hx. pose proof (len_nonneg b).
  assert (HL : 256 * ((len b / 256 ^ Z.of_nat 1) mod 256) + (len b / 256 ^ Z.of_nat 0) mod 256 = len b).
  { change (256 ^ Z.of_nat 1) with 256. change (256 ^ Z.of_nat 0) with 1. rewrite Z.div_1_r. rewrite (Z.mod_small (len b / 256)).
    - symmetry. apply Z.div_mod. lia.
    - split; [apply Z.div_pos; lia|apply Z.div_lt_upper_bound; lia]. }
  rewrite HL, first_len, skip_len in Hx by reflexivity. destruct Hx as [<-|Hx]; [left; eauto|right; exact Hx].
Qed.
Lemma written_texts es : (forall s b, In (RWtf8 s) es -> string_to_modified_utf8 s = Ok b -> len b < 65536) ->
  forall bss, mapM wr_raw es = Ok bss -> forall n left rest x, left <= sizes es -> In x (texts_from n left (concat bss ++ rest)) ->
  exists s, In (RWtf8 s) es /\ string_to_modified_utf8 s = Ok x.
Proof.
  induction es as [|e es IH]; intros Hs bss H n left rest x Hl Hx; (destruct n as [|n]; [destruct Hx|]); cbn [mapM] in H.
  - inversion H; subst. cbn [concat app] in Hx. cbn in Hl. destruct rest as [|t r]; [destruct Hx|]. cbn [texts_from] in Hx.
    destruct (Z.leb_spec left 0); [destruct Hx|lia].
  - inv_bind H. inv_bind H. inversion H; subst. cbn [concat] in Hx. rewrite <- app_assoc in Hx.
    destruct (raw_texts _ _ E (fun s b He Hb => Hs s b (or_introl He) Hb) _ _ _ _ Hx) as [_ [(s & -> & Hb)|Hx']].
    + exists s. split; [left; reflexivity|exact Hb].
    + destruct (IH (fun s b Hi Hb => Hs s b (or_intror Hi) Hb) _ E0 _ (left - raw_size e) _ _ ltac:(change (sizes (e :: es)) with (raw_size e + sizes es) in Hl; lia) Hx') as (s & Hi & Hb).
      exists s. split; [right; exact Hi|exact Hb].
Qed.
Lemma be_len n x : len (be n x) = Z.of_nat n.
Proof. induction n as [|n IH]; [reflexivity|]. cbn [be]. unfold len in *. cbn [List.length]. lia. Qed.
Lemma file_texts Txt fuel md heap c out : Forall Txt fixed_texts -> texts_heap Txt heap -> texts_class Txt c ->
  (forall s b, Txt s -> string_to_modified_utf8 s = Ok b -> len b < 65536) ->
  wr_classfile fuel md heap c = Ok out -> forall x, In x (pool_texts out) -> exists s, Txt s /\ string_to_modified_utf8 s = Ok x.
Proof.
  intros Hf Hh Hc Hs H x Hx. unfold wr_classfile in H. inv_bind H. inv_bind H. destruct v0 as [b w]. cbn beta iota in H. inv_bind H. apply ok_inj in H. subst out.
  pose proof (g_body Txt heap Hf Hh fuel md c Hc) as HK. rewrite E0 in HK. cbn in HK. destruct HK as (K1 & _ & K3). cbn [snd] in K1, K3.
  assert (HV : exists a0 a1 a2 a3 a4 a5 a6 a7, be 4 JVM_MAGIC ++ v = [a0; a1; a2; a3; a4; a5; a6; a7]).
  { unfold wr_version, wr_major, wr_n in E. cbn [bind] in E. inversion E. subst. cbn [be app]. repeat eexists. }
  destruct HV as (a0 & a1 & a2 & a3 & a4 & a5 & a6 & a7 & HV).
  unfold wr_pool in E1. inv_bind E1. apply ok_inj in E1. subst v0.
  rewrite (app_assoc (be 4 JVM_MAGIC)), HV in Hx. unfold pool_texts, pool_count in Hx. cbn [app be skipn] in Hx.
  rewrite Forall_forall in K1.
  destruct (written_texts (w_entries w)) with (bss := v1) (n := List.length (a0 :: a1 :: a2 :: a3 :: a4 :: a5 :: a6 :: a7 :: (w_len w / 256 ^ Z.of_nat 1) mod 256 :: (w_len w / 256 ^ Z.of_nat 0) mod 256 :: concat v1 ++ b))
    (left := 256 * ((w_len w / 256 ^ Z.of_nat 1) mod 256) + (w_len w / 256 ^ Z.of_nat 0) mod 256 - 1) (rest := b) (x := x) as (s & Hi & Hb); auto.
  - intros s b' Hi. apply Hs. exact (K1 _ Hi).
  - change (256 ^ Z.of_nat 1) with 256. change (256 ^ Z.of_nat 0) with 1. rewrite Z.div_1_r.
    pose proof (Z.div_mod (w_len w) 256 ltac:(lia)). pose proof (Z.div_pos (w_len w) 256 ltac:(lia) ltac:(lia)).
    pose proof (Z.mod_le (w_len w / 256) 256 ltac:(lia) ltac:(lia)). lia.
  - exists s. split; [exact (K1 _ Hi)|exact Hb].
Qed.
