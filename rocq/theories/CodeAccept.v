(** C55: labels in code that was read. *)
From Coq Require Import String Permutation Sorted.
From Verif Require Import Base BaseLemmas Wtf8Spec PrimModel PrimProofs TypeModel TypeSpec CpModel CpSpec CpProofs CpProps FileSpec
  SigModel SigSpec AnnModel AnnSpec AttrModel AttrSpec AttrProofs AttrProps FrameModel FrameSpec FrameProofs
  InsnModel InsnSpec InsnProofs InsnProps CodeModel CodeSpec CodeProofs CodeWrite CodeRead CodeProps CodeUndef ReadProofs.

(** * What was accepted *)

(** The bytes [b] at offset [pos] for the instruction [i] that was read:
    [at_ l o] if label [l] stands for the offset [o].  (Padding may be
    anything, offsets wrap around; a key that occurs twice in a lookupswitch
    has the last offset given for it.) *)
Definition read_as (at_ : Z -> Z -> Prop) (pos : Z) (i : insn) (b : list Z) : Prop :=
  let to l o := at_ l ((pos + o) mod 4294967296) in
  match i with
  | IJump c l => exists o, to l o /\
      ((i16 o /\ b = jcond_num c :: u2 o) \/ (c = JcAlways /\ i32 o /\ b = 200 :: u4 o))
  | IJsr l => exists o, to l o /\ ((i16 o /\ b = 168 :: u2 o) \/ (i32 o /\ b = 201 :: u4 o))
  | ITableSwitch d low ls => exists pad o high os,
      len pad = (- (pos + 1)) mod 4 /\ i32 o /\ i32 low /\ i32 high /\ Forall i32 os /\
      len os = (high - low + 1) mod 4294967296 /\
      b = 170 :: pad ++ u4 o ++ u4 low ++ u4 high ++ concat (map u4 os) /\
      to d o /\ Forall2 to ls os
  | ILookupSwitch d t => exists pad o es,
      len pad = (- (pos + 1)) mod 4 /\ i32 o /\ Forall (fun e => i32 (fst e) /\ i32 (snd e)) es /\ u32 (len es) /\
      b = 171 :: pad ++ u4 o ++ u4 (len es) ++ concat (map (fun e => u4 (fst e) ++ u4 (snd e)) es) /\
      to d o /\ NoDup (map fst t) /\
      forall k, match assoc Z.eqb k t with
                | Some l => exists o', assoc Z.eqb k (rev es) = Some o' /\ to l o'
                | None => assoc Z.eqb k (rev es) = None
                end
  | _ => exists r, raw_fmt r b
  end.
(** The instructions [is] at the offsets [ps] are the bytes [body]. *)
Fixpoint read_all (at_ : Z -> Z -> Prop) (pos : Z) (is : list insn) (ps body : list Z) : Prop :=
  match is with
  | [] => ps = [] /\ body = []
  | i :: is =>
      exists b rest ps', body = b ++ rest /\ ps = pos :: ps' /\ b <> [] /\ read_as at_ pos i b /\
        read_all at_ (pos + len b) is ps' rest
  end.

(** * One instruction *)
Definition lab (s : cst) (l o : Z) : Prop := In (o, l) (k_labels s).
Lemma lab_ext s s' l o : cst_ext s s' -> lab s l o -> lab s' l o.
Proof. intros (_ & [m Hm] & _) H. unfold lab. rewrite Hm. apply in_or_app. auto. Qed.
Definition goes (s s' : cst) : Prop := cst_ok s' /\ cst_ext s s'.
Lemma goes_refl s : cst_ok s -> goes s s.
Proof. intros. split; auto using cst_ext_refl. Qed.
Lemma goes_trans a b c : goes a b -> goes b c -> goes a c.
Proof. intros [_ H1] [H2 H3]. split; auto. eapply cst_ext_trans; eauto. Qed.
Lemma get_label_goes off s l s' : cst_ok s -> u32 off -> get_label off s = (l, s') -> goes s s' /\ lab s' l off.
Proof.
  intros Hs Ho H. pose proof (get_label_ok off s Hs Ho) as (H1 & H2 & _ & H3). rewrite H in *. cbn [fst snd] in *.
  split; [split; auto|]. apply assoc_in in H3. exact H3.
Qed.
Lemma mod_u32 x : u32 (x mod 4294967296).
Proof. unfold u32. pose proof (Z.mod_pos_bound x 4294967296). lia. Qed.
Lemma lbl_at_goes pos o s l s' : cst_ok s -> lbl_at pos o s = (l, s') -> goes s s' /\ lab s' l ((pos + o) mod 4294967296).
Proof. intros Hs H. apply get_label_goes in H; auto using mod_u32. Qed.
Lemma lbls_at_goes pos os : forall s ls s', cst_ok s -> lbls_at pos os s = (ls, s') ->
  goes s s' /\ Forall2 (fun l o => lab s' l ((pos + o) mod 4294967296)) ls os.
Proof.
  induction os as [|o os IH]; cbn [lbls_at]; intros s ls s' Hs H.
  - injection H as <- <-. auto using goes_refl.
  - destruct (lbl_at pos o s) as [l s1] eqn:E1. apply lbl_at_goes in E1 as [G1 L1]; auto.
    destruct (lbls_at pos os s1) as [ls1 s2] eqn:E2. injection H as <- <-.
    destruct (IH s1 ls1 s2) as [G2 L2]; [apply G1|assumption|].
    split; [eapply goes_trans; eauto|]. constructor; auto. eapply lab_ext; [apply G2|exact L1].
Qed.
Lemma assoc_set_assoc {V} k j (v : V) m : assoc Z.eqb j (assoc_set Z.eqb k v m) = if k =? j then Some v else assoc Z.eqb j m.
Proof.
  induction m as [|[k' v'] m IH]; cbn [assoc_set assoc].
  - rewrite (Z.eqb_sym j k). destruct (k =? j); auto.
  - destruct (Z.eqb_spec k k'); cbn [assoc].
    + subst. rewrite (Z.eqb_sym j k'). destruct (k' =? j); auto.
    + rewrite IH, (Z.eqb_sym j k'). destruct (Z.eqb_spec k' j); auto. subst. assert (k =? j = false) as -> by lia. auto.
Qed.
Lemma assoc_set_keys {V} k (v : V) m : forall j, In j (map fst (assoc_set Z.eqb k v m)) <-> j = k \/ In j (map fst m).
Proof.
  induction m as [|[k' v'] m IH]; intros j; cbn [assoc_set map fst In]; [intuition|].
  destruct (Z.eqb_spec k k'); cbn [map fst In]; [subst; intuition|]. rewrite IH. intuition.
Qed.
Lemma assoc_set_nodup {V} k (v : V) m : NoDup (map fst m) -> NoDup (map fst (assoc_set Z.eqb k v m)).
Proof.
  induction m as [|[k' v'] m IH]; cbn [assoc_set map fst]; intros H; [repeat constructor; intros []|].
  inversion H; subst. destruct (Z.eqb_spec k k'); cbn [map fst]; [constructor; auto|].
  constructor; auto. rewrite assoc_set_keys. intros [->|Hi]; auto.
Qed.
Lemma lookup_at_goes pos es : forall m s t s', cst_ok s -> InsnModel.lookup_at pos es m s = (t, s') -> NoDup (map fst m) ->
  goes s s' /\ NoDup (map fst t) /\
  forall k, match assoc Z.eqb k t with
            | Some l => match assoc Z.eqb k (rev es) with
                        | Some o => lab s' l ((pos + o) mod 4294967296)
                        | None => assoc Z.eqb k m = Some l
                        end
            | None => assoc Z.eqb k (rev es) = None /\ assoc Z.eqb k m = None
            end.
Proof.
  induction es as [|[k0 o] es IH]; cbn [InsnModel.lookup_at]; intros m s t s' Hs H Hm.
  - injection H as <- <-. split; [auto using goes_refl|]. split; auto. intros k. cbn [rev assoc].
    destruct (assoc Z.eqb k m); auto.
  - destruct (lbl_at pos o s) as [l s1] eqn:E1. apply lbl_at_goes in E1 as [G1 L1]; auto.
    destruct (IH _ _ _ _ (proj1 G1) H (assoc_set_nodup _ _ _ Hm)) as (G2 & Hn & Hk).
    split; [eapply goes_trans; eauto|]. split; auto. intros k. specialize (Hk k).
    rewrite assoc_set_assoc in Hk. cbn [rev]. rewrite assoc_app. cbn [assoc]. rewrite (Z.eqb_sym k k0).
    destruct (assoc Z.eqb k t) as [l'|].
    + destruct (assoc Z.eqb k (rev es)) as [o'|]; auto. destruct (k0 =? k); auto.
      injection Hk as <-. eapply lab_ext; [apply G2|exact L1].
    + destruct Hk as [-> Hk]. destruct (k0 =? k); [discriminate|]. auto.
Qed.

Lemma with_refs_goes s r : cst_ok s -> (exists x, r_refs r = r_refs (k_refs s) ++ x) -> goes s (with_refs s r).
Proof.
  intros Hs Hx. split; [exact Hs|]. split; [exact Hx|]. split; auto. exists []. now rewrite app_nil_r.
Qed.
Lemma dyn_at_refs md p b nt s o s' : read_dyn_at md p b nt s = Ok (o, s') -> exists x, r_refs s' = r_refs s ++ x.
Proof.
  unfold read_dyn_at. intros H. inv_bind H. destruct v as [[n t]|]; injection H as <- <-; cbn [r_refs]; eauto.
  exists []. now rewrite app_nil_r.
Qed.
Lemma dynamic_refs md p i s o s' : read_dynamic md p i s = Ok (o, s') -> exists x, r_refs s' = r_refs s ++ x.
Proof.
  unfold read_dynamic. intros H. destruct (p i) as [[]|]; try (injection H as <- <-; exists []; now rewrite app_nil_r).
  eapply dyn_at_refs; eauto.
Qed.
Lemma invokedynamic_refs md p i s o s' : read_invokedynamic md p i s = Ok (o, s') -> exists x, r_refs s' = r_refs s ++ x.
Proof.
  unfold read_invokedynamic. intros H. destruct (p i) as [[]|]; try (injection H as <- <-; exists []; now rewrite app_nil_r).
  eapply dyn_at_refs; eauto.
Qed.
Lemma conv_ordyn_goes {A} md p (f : Z -> res (option A)) i s o s' : cst_ok s -> conv_ordyn md p f i s = Ok (o, s') -> goes s s'.
Proof.
  intros Hs H. unfold conv_ordyn, read_ordyn in H. inv_bind H. destruct v as [x r]. destruct x; [|discriminate]. injection H as _ <-.
  inv_bind E. destruct v as [d r1]. apply dynamic_refs in E0. apply with_refs_goes; auto.
  destruct d; [injection E as _ <-; auto|]. inv_bind E. injection E as _ <-. auto.
Qed.
Lemma conv_ctype_goes md p i s o s' : cst_ok s -> conv_ctype md p i s = Ok (o, s') -> goes s s'.
Proof.
  intros Hs H. unfold conv_ctype in H. inv_bind H. destruct v as [x s1]. apply conv_ordyn_goes in E; auto.
  destruct x as [d|c]; [injection H as _ <-; auto|].
  assert (Hc : (t <- parse_type md c ;; match t with TArray dim t => Ok (Stat (CtArray dim t), s1) | _ => Panic PUB end) = Ok (o, s') -> s' = s1).
  { intros Hc. inv_bind Hc. destruct v; try discriminate. injection Hc as _ <-. auto. }
  assert (s' = s1) as ->; auto.
  destruct c as [|x c]; [injection H as _ <-; auto|].
  repeat match type of H with (match ?x with _ => _ end) = _ => destruct x; try (injection H as _ <-; reflexivity) end.
  exact (Hc H).
Qed.
Lemma conv_elem_goes md p i d s o s' : cst_ok s -> conv_elem md p i d s = Ok (o, s') -> goes s s' /\ exists t, o = INewArray t d.
Proof.
  intros Hs H. unfold conv_elem in H. inv_bind H. destruct v as [x s1]. apply conv_ordyn_goes in E; auto.
  destruct x as [e|c]; [injection H as <- <-; eauto|]. destruct (parse_type md c); try discriminate; injection H as <- <-; eauto.
Qed.

(** Jumps of one target: opcode, whether the offset has four bytes, the offset. *)
Definition jump_parts (r : raw) : option (Z * bool * Z) :=
  match r with
  | XIfEq a => Some (153, false, a) | XIfNe a => Some (154, false, a) | XIfLt a => Some (155, false, a)
  | XIfGe a => Some (156, false, a) | XIfGt a => Some (157, false, a) | XIfLe a => Some (158, false, a)
  | XIfICmpEq a => Some (159, false, a) | XIfICmpNe a => Some (160, false, a) | XIfICmpLt a => Some (161, false, a)
  | XIfICmpGe a => Some (162, false, a) | XIfICmpGt a => Some (163, false, a) | XIfICmpLe a => Some (164, false, a)
  | XIfACmpEq a => Some (165, false, a) | XIfACmpNe a => Some (166, false, a)
  | XGoto a => Some (167, false, a) | XJsr a => Some (168, false, a)
  | XIfNull a => Some (198, false, a) | XIfNonNull a => Some (199, false, a)
  | XGotoW a => Some (200, true, a) | XJsrW a => Some (201, true, a)
  | _ => None
  end.
Definition jumpless (i : insn) : Prop :=
  match i with IJump _ _ | IJsr _ | ITableSwitch _ _ _ | ILookupSwitch _ _ | ILabel _ | ILineNumber _ => False | _ => True end.
Definition conv_rel (at_ : Z -> Z -> Prop) (pos : Z) (r : raw) (i : insn) : Prop :=
  let to l o := at_ l ((pos + o) mod 4294967296) in
  match jump_parts r with
  | Some (op, w, a) =>
      exists l, to l a /\
        ((exists c, i = IJump c l /\ if w : bool then c = JcAlways /\ op = 200 else op = jcond_num c) \/
         (i = IJsr l /\ op = if w then 201 else 168))
  | None =>
      match r with
      | XTableSwitch o t => exists d ls, i = ITableSwitch d (t_low t) ls /\ to d o /\ Forall2 to ls (t_offs t)
      | XLookupSwitch o es => exists d t, i = ILookupSwitch d t /\ to d o /\ NoDup (map fst t) /\
          forall k, match assoc Z.eqb k t with
                    | Some l => exists o', assoc Z.eqb k (rev es) = Some o' /\ to l o'
                    | None => assoc Z.eqb k (rev es) = None
                    end
      | _ => jumpless i
      end
  end.
Lemma conv_goes md p pos r s i s' : cst_ok s -> conv md p pos r s = Ok (i, s') ->
  goes s s' /\ realb i = true /\ conv_rel (lab s') pos r i.
Proof.
  intros Hs H. pose proof (goes_refl s Hs) as HR. unfold conv_rel.
  destruct r; cbn [conv jump_parts] in *;
    try (injection H as <- <-; split; [exact HR|]; split; reflexivity || exact I).
  all: try (match type of H with (let (_, _) := ?x in _) = _ => destruct x as [l s1] eqn:E1 end; apply lbl_at_goes in E1 as [G1 L1]; [|assumption]).
  all: try (injection H as <- <-; split; [exact G1|]; split; [reflexivity|]; exists l; split; [exact L1|];
            solve [left; eexists; split; [reflexivity|]; repeat split; reflexivity | right; split; reflexivity]).
  all: try (inv_bind H; destruct v as [o s1]; first [apply conv_ordyn_goes in E; [|assumption]|apply conv_ctype_goes in E; [|assumption]];
            injection H as <- <-; split; [exact E|]; split; reflexivity || exact I).
  all: try (apply conv_elem_goes in H as (H1 & t & ->); [|assumption]; split; [exact H1|]; split; reflexivity || exact I).
  all: try (unfold conv_constant in H; inv_bind H; destruct v; [|discriminate]; injection H as <- <-; split; [exact HR|]; split; reflexivity || exact I).
  - clear HR. destruct (lbls_at pos (t_offs t) s1) as [ls s2] eqn:E2. injection H as <- <-. apply lbls_at_goes in E2 as [G2 L2]; [|apply G1].
    split; [eapply goes_trans; eauto|]. split; [reflexivity|]. exists l, ls. split; [reflexivity|]. split; [|exact L2].
    eapply lab_ext; [apply G2|exact L1].
  - clear HR. destruct (InsnModel.lookup_at pos es [] s1) as [t s2] eqn:E2. injection H as <- <-.
    apply lookup_at_goes in E2 as (G2 & N2 & L2); [|apply G1|constructor].
    split; [eapply goes_trans; eauto|]. split; [reflexivity|]. exists l, t. split; [reflexivity|].
    split; [eapply lab_ext; [apply G2|exact L1]|]. split; [exact N2|]. intros k. specialize (L2 k).
    destruct (assoc Z.eqb k t); [|apply L2]. destruct (assoc Z.eqb k (rev es)); [eauto|discriminate].
  - inv_bind H. destruct v as [d r]. destruct d; [|discriminate]. injection H as <- <-. apply invokedynamic_refs in E.
    split; [apply with_refs_goes; auto|]. split; reflexivity || exact I.
  - repeat match type of H with (match ?x with _ => _ end) = _ => destruct x; try discriminate H end;
      injection H as <- <-; (split; [exact HR|]); split; reflexivity || exact I.
  - destruct w; injection H as <- <-; (split; [exact HR|]); split; reflexivity || exact I.
Qed.

Definition raw_bytes (r : raw) (l rest : list Z) : Prop :=
  match jump_parts r with
  | Some (op, true, a) => i32 a /\ l = op :: u4 a ++ rest
  | Some (op, false, a) => i16 a /\ l = op :: u2 a ++ rest
  | None =>
      match r with
      | XTableSwitch o t =>
          i32 o /\ i32 (t_low t) /\ i32 (t_high t) /\ Forall i32 (t_offs t) /\
          len (t_offs t) = (t_high t - t_low t + 1) mod 4294967296 /\
          l = 170 :: u4 o ++ u4 (t_low t) ++ u4 (t_high t) ++ concat (map u4 (t_offs t)) ++ rest
      | XLookupSwitch o es =>
          i32 o /\ Forall (fun e => i32 (fst e) /\ i32 (snd e)) es /\ u32 (len es) /\
          l = 171 :: u4 o ++ u4 (len es) ++ concat (map (fun e => u4 (fst e) ++ u4 (snd e)) es) ++ rest
      | _ => exists u, l = u ++ rest /\ raw_fmt r u
      end
  end.
Lemma chk_s_mod md x y : chk_s md 32 x = Ok y -> y mod 4294967296 = x mod 4294967296.
Proof.
  unfold chk_s, wrap_s. change (2 ^ (32 - 1)) with 2147483648. change (2 ^ 32) with 4294967296.
  destruct md, (_ && _); intros [= <-]; lia.
Qed.
Lemma rd_raw_bytes md l r rest : bytes l -> rd_raw_insn md l = Ok (r, rest) -> raw_bytes r l rest.
Proof.
  intros Hb H. pose proof (C46_only_jvms md l r rest Hb H) as HJ. unfold raw_bytes.
  unfold rd_raw_insn in H. inv_bind H. destruct v as [op l1].
  apply rd_u8_inv in E as (-> & Hop & Hb1); auto. assert (u1 op = [op]) as Hu by (unfold u1; rewrite Z.mod_small; auto).
  rewrite Hu in *. clear Hu.
  destruct op as [|op|op]; [|do 8 (try destruct op as [op|op|])|]; try (cbn in H; discriminate H); try (exfalso; unfold u8 in Hop; lia).
  all: cbn [rd_raw_op] in H.
  all: try (match type of H with Ok _ = _ => injection H as <- <- end; exact (HJ I)).
  all: try (inv_ops; match type of H with Ok _ = _ => injection H as <- <- end; cbn [jump_parts];
    first [exact (HJ I)|split; [assumption|reflexivity]]).
  - inv_ops. injection H as <- <-. unfold rd_vec in E0. inv_bind E0. destruct v as [n lx]. change (rd_u 4) with rd_u32 in E.
    apply rd_u32_inv in E as (-> & Hn & Hb2); auto.
    apply (rd_times_inv _ (fun e => i32 (fst e) /\ i32 (snd e)) (fun e => u4 (fst e) ++ u4 (snd e))) in E0 as (-> & HF & Hlen & Hr); auto.
    2:{ intros l [a b] r Hl H'. unfold rd_switch_entry in H'. inv_ops. injection H' as <- <- <-. cbn [fst snd]. rewrite <- app_assoc. auto. }
    assert (n = len l0) as -> by (unfold len; rewrite Hlen; unfold u32 in Hn; lia).
    cbn [jump_parts]. repeat (split; [assumption|]). reflexivity.
  - inv_bind H. destruct v as [z l2]. apply rd_i32_inv in E as (-> & Hz & Hb2); auto.
    inv_bind H. destruct v as [t l3]. injection H as <- <-. unfold rd_table in E.
    inv_bind E. destruct v as [low l4]. apply rd_i32_inv in E0 as (-> & Hlow & Hb3); auto.
    inv_bind E. destruct v as [high l5]. apply rd_i32_inv in E0 as (-> & Hhigh & Hb4); auto.
    inv_bind E. rename v into d, E0 into Ed. inv_bind E. rename v into n, E0 into En.
    destruct (n <? 0) eqn:Hneg; [discriminate|]. inv_bind E. destruct v as [os lx]. injection E as <- <-. rename E0 into E.
    apply (rd_times_inv _ i32 u4) in E as (-> & HF & Hlen & Hr); auto using rd_i32_inv.
    cbn [jump_parts t_low t_high t_offs]. repeat (split; [assumption|]). split; [|reflexivity].
    assert (n < 2147483648).
    { unfold chk_s, wrap_s in En. change (2 ^ (32 - 1)) with 2147483648 in En. change (2 ^ 32) with 4294967296 in En.
      clear - En. destruct md, (_ && _) eqn:E in En; try discriminate; injection En as <-; lia. }
    apply chk_s_mod in Ed. apply chk_s_mod in En. unfold len. rewrite Hlen, Z2Nat.id by lia. lia.
Qed.

Lemma rd_raw_table md x r rest : rd_raw_insn md (170 :: x) = Ok (r, rest) -> exists d t, r = XTableSwitch d t.
Proof.
  unfold rd_raw_insn. rewrite rd_u8_cons by lia. cbn [bind rd_raw_op]. intros H. inv_bind H. destruct v. inv_bind H. destruct v.
  injection H as <- <-. eauto.
Qed.
Lemma rd_raw_lookup md x r rest : rd_raw_insn md (171 :: x) = Ok (r, rest) -> exists d t, r = XLookupSwitch d t.
Proof.
  unfold rd_raw_insn. rewrite rd_u8_cons by lia. cbn [bind rd_raw_op]. intros H. inv_bind H. destruct v. inv_bind H. destruct v.
  injection H as <- <-. eauto.
Qed.
Lemma skip_pad (l tl : list Z) j x : skipn j l = u4 x ++ tl -> len (firstn j l) = Z.of_nat j.
Proof.
  intros H. unfold len. f_equal. apply firstn_length_le. apply (f_equal (@length Z)) in H.
  rewrite app_length, skipn_length in H. change (length (u4 x)) with 4%nat in H. lia.
Qed.
Lemma rd_insn_inv md p pos s l i s' rest : bytes l -> cst_ok s -> rd_insn_at md p pos s l = Ok ((i, s'), rest) ->
  goes s s' /\ realb i = true /\ exists b, l = b ++ rest /\ b <> [] /\ read_as (lab s') pos i b.
Proof.
  intros Hb Hs H. unfold rd_insn_at in H. destruct l as [|op l]; [discriminate|].
  inv_bind H. destruct v as [r l1]. inv_bind H. destruct v as [i1 s1]. injection H as <- <- <-.
  apply conv_goes in E0 as (HG & Hr & HC); auto. split; [exact HG|]. split; [exact Hr|].
  destruct ((op =? TABLESWITCH) || (op =? LOOKUPSWITCH)) eqn:Esw.
  - set (k := Z.to_nat (4 - pos mod 4)) in *.
    assert (Hb' : bytes (op :: skipn k (op :: l))).
    { inversion Hb; subst. constructor; auto. rewrite <- (firstn_skipn k (op :: l)) in Hb. apply Forall_app in Hb. apply Hb. }
    assert (Hk : exists j, k = S j /\ Z.of_nat j = (- (pos + 1)) mod 4).
    { exists (Z.to_nat (3 - pos mod 4)). unfold k. pose proof (Z.mod_pos_bound pos 4). split; lia. }
    destruct Hk as (j & Hk & Hj). rewrite Hk in *. cbn [skipn] in *.
    assert (Hop : op = 170 \/ op = 171) by lia.
    pose proof (rd_raw_bytes _ _ _ _ Hb' E) as HB. destruct Hop as [-> | ->].
    + apply rd_raw_table in E as (o & t & ->). cbn [conv_rel raw_bytes jump_parts] in HC, HB.
      destruct HB as (Ho & Hlow & Hhigh & Hos & Hlen & HB). apply (f_equal (@tl Z)) in HB. cbn [tl] in HB. destruct HC as (d & ls & -> & Hd & Hls).
      exists (170 :: firstn j l ++ u4 o ++ u4 (t_low t) ++ u4 (t_high t) ++ concat (map u4 (t_offs t))).
      split. { cbn [app]. f_equal. rewrite <- !app_assoc, <- HB. symmetry. apply firstn_skipn. }
      split; [discriminate|]. exists (firstn j l), o, (t_high t), (t_offs t).
      split; [rewrite <- Hj; eapply skip_pad; exact HB|]. repeat (split; [assumption|]). split; [reflexivity|]. auto.
    + apply rd_raw_lookup in E as (o & t & ->). cbn [conv_rel raw_bytes jump_parts] in HC, HB.
      destruct HB as (Ho & Hes & Hlen & HB). apply (f_equal (@tl Z)) in HB. cbn [tl] in HB. destruct HC as (d & m & -> & Hd & Hn & Hm).
      exists (171 :: firstn j l ++ u4 o ++ u4 (len t) ++ concat (map (fun e => u4 (fst e) ++ u4 (snd e)) t)).
      split. { cbn [app]. f_equal. rewrite <- !app_assoc, <- HB. symmetry. apply firstn_skipn. }
      split; [discriminate|]. exists (firstn j l), o, t.
      split; [rewrite <- Hj; eapply skip_pad; exact HB|]. repeat (split; [assumption|]). split; [reflexivity|]. auto.
  - pose proof (rd_raw_bytes _ _ _ _ Hb E) as HB. unfold raw_bytes in HB. unfold conv_rel in HC.
    assert (Hop : op <> 170 /\ op <> 171) by lia.
    destruct (jump_parts r) as [[[o w] a]|] eqn:Ej.
    + destruct HC as (t & Ht & HC). destruct w; destruct HB as [Ha HB].
      * exists (o :: u4 a). split; [exact HB|]. split; [discriminate|].
        destruct HC as [(c & -> & -> & ->)|(-> & ->)]; exists a; (split; [exact Ht|]); auto.
      * exists (o :: u2 a). split; [exact HB|]. split; [discriminate|].
        destruct HC as [(c & -> & ->)|(-> & ->)]; exists a; (split; [exact Ht|]); auto.
    + assert (HX : jumpless i1 /\ exists u, op :: l = u ++ l1 /\ raw_fmt r u).
      { destruct r; try discriminate Ej; try (split; [exact HC|exact HB]); exfalso.
        - destruct HB as (_ & _ & _ & _ & _ & HB). injection HB as HB _. lia.
        - destruct HB as (_ & _ & _ & HB). injection HB as HB _. lia. }
      destruct HX as (HJ & u & Hu & HF). exists u. split; [exact Hu|].
      split; [destruct HF as (o & m & tl & _ & _ & _ & -> & _); discriminate|].
      destruct i1; try (destruct HJ; fail); exists r; exact HF.
Qed.

Lemma read_as_mono (f g : Z -> Z -> Prop) pos i b : (forall l o, f l o -> g l o) -> read_as f pos i b -> read_as g pos i b.
Proof.
  intros Hfg. destruct i; cbn [read_as]; auto.
  - intros (o & H & H'). eauto.
  - intros (o & H & H'). eauto.
  - intros (pad & o & high & os & H1 & H2 & H3 & H4 & H5 & H6 & H7 & H8 & H9). exists pad, o, high, os.
    repeat (split; [solve [auto]|]). clear - H9 Hfg. induction H9; constructor; auto.
  - intros (pad & o & es & H1 & H2 & H3 & H4 & H5 & H6 & H7 & H8). exists pad, o, es.
    repeat (split; [solve [auto]|]). intros k. specialize (H8 k). destruct (assoc Z.eqb k t); auto.
    destruct H8 as (o' & H8 & H9). eauto.
Qed.
Lemma read_all_mono (f g : Z -> Z -> Prop) is : (forall l o, f l o -> g l o) -> forall pos ps b, read_all f pos is ps b -> read_all g pos is ps b.
Proof.
  intros Hfg. induction is as [|i is IH]; cbn [read_all]; auto.
  intros pos ps b (x & rest & ps' & H1 & H2 & H3 & H4 & H5). exists x, rest, ps'. repeat (split; [solve [auto]|]).
  split; [eapply read_as_mono; eauto|auto].
Qed.
Lemma rd_insns_inv md p fuel : forall pos s l is s', bytes l -> cst_ok s -> rd_insns fuel md p pos s l = Ok (is, s') ->
  goes s s' /\ Forall (fun i => realb i = true) (map snd is) /\ read_all (lab s') pos (map snd is) (map fst is) l.
Proof.
  induction fuel as [|fuel IH]; intros pos s l is s' Hb Hs H; (destruct l as [|x l]; cbn [rd_insns] in H;
    [injection H as <- <-; split; [auto using goes_refl|]; split; [constructor|split; reflexivity]|]); [discriminate|].
  inv_bind H. destruct v as [[i s1] r]. inv_bind H. destruct v as [is1 s2]. injection H as <- <-.
  apply rd_insn_inv in E as (G1 & R1 & b & Hl & Hne & HA); auto.
  assert (Hr : bytes r) by (rewrite Hl in Hb; apply Forall_app in Hb; apply Hb).
  apply IH in E0 as (G2 & R2 & HA2); auto; [|apply G1]. split; [eapply goes_trans; eauto|]. cbn [map fst snd].
  split; [constructor; auto|]. exists b, r, (map fst is1). split; [exact Hl|]. split; [reflexivity|]. split; [exact Hne|].
  split; [eapply read_as_mono; [|exact HA]; intros; eapply lab_ext; [apply G2|assumption]|].
  rewrite Hl, len_app in HA2. replace (len b + len r - len r) with (len b) in HA2 by lia. exact HA2.
Qed.

(** * Handlers and attributes *)

(** [r] only adds labels, and the labels of what it returns are known. *)
Definition labels_ok {A} (r : srd cst A) (U : A -> list Z) : Prop :=
  forall s l a s' rest, bytes l -> cst_ok s -> r s l = Ok ((a, s'), rest) ->
  goes s s' /\ forall x, In x (U a) -> In x (map snd (k_labels s')).
Lemma known_ext s s' x : goes s s' -> In x (map snd (k_labels s)) -> In x (map snd (k_labels s')).
Proof. intros (_ & _ & [m Hm] & _) H. rewrite Hm, map_app. apply in_or_app. auto. Qed.
Lemma lab_known s l o : lab s l o -> In l (map snd (k_labels s)).
Proof. intros H. apply (in_map snd) in H. exact H. Qed.
Lemma lo_label : labels_ok rd_label (fun l => [l]).
Proof.
  intros s l a s' rest Hb Hs H. unfold rd_label in H. inv_bind H. destruct v as [i r].
  destruct (get_label i s) as [x s1] eqn:E1. injection H as <- <- <-. apply rd_u16_inv in E as (_ & Hi & _); auto.
  apply get_label_goes in E1 as [HG HL]; auto; [|unfold u16, u32 in *; lia]. split; auto. intros y [<-|[]].
  eapply lab_known; eauto.
Qed.
Lemma lo_map {A B} (h : A -> B) r U V : labels_ok r U -> (forall a x, In x (V (h a)) -> In x (U a)) -> labels_ok (srd_map h r) V.
Proof.
  intros Hr HV s l b s' rest Hb Hs H. unfold srd_map in H. inv_bind H. destruct v as [[a s1] r1]. injection H as <- <- <-.
  apply Hr in E as [HG HK]; auto.
Qed.
Lemma lo_times {A} n (r : srd cst A) U : (forall s, framed (r s)) -> labels_ok r U -> labels_ok (srd_times n r) (flat_map U).
Proof.
  intros Hf Hr. induction n as [|n IH]; intros s l b s' rest Hb Hs H; cbn [srd_times] in H.
  - injection H as <- <- <-. split; [auto using goes_refl|intros x []].
  - inv_bind H. destruct v as [[a s1] l1]. inv_bind H. destruct v as [[xs s2] l2]. injection H as <- <- <-.
    pose proof (framed_bytes _ _ _ _ (Hf s) Hb E) as Hb1. apply Hr in E as [G1 K1]; auto.
    apply IH in E0 as [G2 K2]; auto; [|apply G1]. split; [eapply goes_trans; eauto|]. cbn [flat_map].
    intros x Hx. apply in_app_or in Hx as [Hx|Hx]; auto. eapply known_ext; eauto.
Qed.
Lemma lo_vec {A} k (r : srd cst A) U : (forall s, framed (r s)) -> labels_ok r U -> labels_ok (srd_vec k r) (flat_map U).
Proof.
  intros Hf Hr s l b s' rest Hb Hs H. unfold srd_vec in H. inv_bind H. destruct v as [n l1].
  pose proof (framed_bytes _ _ _ _ (framed_u k) Hb E) as Hb1. eapply lo_times; eauto.
Qed.
Lemma lo_label_u8 : labels_ok rd_label_u8 (fun x => [fst x]).
Proof.
  intros s l a s' rest Hb Hs H. unfold rd_label_u8, srd_pair, lift in H. inv_bind H. destruct v as [[x s1] l1].
  inv_bind H. destruct v as [[y s2] l2]. injection H as <- <- <-. inv_bind E0. destruct v as [z l3]. injection E0 as <- <- <-.
  apply lo_label in E; auto.
Qed.
Lemma lo_lvt : labels_ok rd_lvt (fun t => [lt_start t; lt_end t]).
Proof.
  intros s l a s' rest Hb Hs H. unfold rd_lvt in H. inv_bind H. destruct v as [i r].
  apply rd_u16_inv in E as (_ & Hi & Hb1); auto. destruct (get_label i s) as [x s1] eqn:E1.
  inv_bind H. destruct v as [d r2]. apply rd_u16_inv in E as (_ & Hd & Hb2); auto. destruct (get_label (i + d) s1) as [y s2] eqn:E2.
  inv_bind H. destruct v as [j r3]. injection H as <- <- <-.
  apply get_label_goes in E1 as [G1 L1]; auto; [|unfold u16, u32 in *; lia].
  apply get_label_goes in E2 as [G2 L2]; [|apply G1|unfold u16, u32 in *; lia]. split; [eapply goes_trans; eauto|].
  cbn [lt_start lt_end]. intros z [<-|[<-|[]]]; eapply lab_known; [eapply lab_ext; [apply G2|exact L1]|exact L2].
Qed.
Lemma lo_target : labels_ok rd_code_target target_labels.
Proof.
  intros s l a s' rest Hb Hs H. unfold rd_code_target in H. inv_bind H. destruct v as [t l1].
  apply rd_u8_inv in E as (_ & _ & Hb1); auto.
  repeat match type of H with (if ?b then _ else _) = _ => destruct b end; try discriminate.
  1-2: eapply (lo_map _ _ _ _ (lo_vec 2 _ _ framed_lvt lo_lvt)); [|exact Hb1|exact Hs|exact H]; intros ? ? HI; exact HI.
  1: { unfold srd_map, rd_catch in H. inv_bind H. destruct v as [[c s1] l2]. injection H as <- <- <-.
       inv_bind E. destruct v as [i l3]. destruct (get_catch i s); [|discriminate]. injection E as <- <- <-.
       split; [auto using goes_refl|intros x []]. }
  1-4: eapply (lo_map _ _ _ _ lo_label); [|exact Hb1|exact Hs|exact H]; intros ? ? HI; exact HI.
  all: eapply (lo_map _ _ _ _ lo_label_u8); [|exact Hb1|exact Hs|exact H]; intros ? ? HI; exact HI.
Qed.
Lemma lo_tannot md p : labels_ok (rd_code_tannot md p) (fun a => target_labels (ta_target a)).
Proof.
  intros s l a s' rest Hb Hs H. unfold rd_code_tannot in H. inv_bind H. destruct v as [[t s1] l1].
  inv_bind H. destruct v as [b l2]. injection H as <- <- <-. apply lo_target in E; auto.
  unfold rd_tannot_rest in E0. inv_bind E0. destruct v. inv_bind E0. destruct v. inv_bind E0. destruct v. injection E0 as <- <-. exact E.
Qed.
Lemma lo_vtype p : labels_ok (rd_vtype p) (fun _ => []).
Proof.
  intros s l a s' rest Hb Hs H. split; [|intros x []]. unfold rd_vtype in H. inv_bind H. destruct v as [t l1].
  apply rd_u8_inv in E as (_ & _ & Hb1); auto.
  repeat match type of H with (if ?b then _ else _) = _ => destruct b end; try discriminate;
    try (injection H as <- <- <-; auto using goes_refl; fail).
  - inv_bind H. destruct v. injection H as <- <- <-. auto using goes_refl.
  - inv_bind H. destruct v as [[x s1] l2]. injection H as <- <- <-. apply lo_label in E; [apply E|auto|auto].
Qed.
Lemma lo_frame p : labels_ok (rd_frame p) (fun _ => []).
Proof.
  intros s l a s' rest Hb Hs H. split; [|intros x []]. unfold rd_frame in H. inv_bind H. destruct v as [t l1].
  apply rd_u8_inv in E as (_ & _ & Hb1); auto.
  repeat match type of H with (if ?b then _ else _) = _ => destruct b end; try discriminate;
    try (injection H as <- <- <-; auto using goes_refl; fail).
  - inv_bind H. destruct v as [[x s1] l2]. injection H as <- <- <-. apply lo_vtype in E; [apply E|auto|auto].
  - inv_bind H. destruct v as [d l2]. apply rd_u16_inv in E as (_ & _ & Hb2); auto.
    inv_bind H. destruct v as [[x s1] l3]. injection H as <- <- <-. apply lo_vtype in E; [apply E|auto|auto].
  - inv_bind H. destruct v. injection H as <- <- <-. auto using goes_refl.
  - inv_bind H. destruct v. injection H as <- <- <-. auto using goes_refl.
  - inv_bind H. destruct v as [d l2]. apply rd_u16_inv in E as (_ & _ & Hb2); auto.
    inv_bind H. destruct v as [[x s1] l3]. injection H as <- <- <-.
    eapply lo_times in E; [apply E| |apply lo_vtype|auto|auto]; auto with framed.
  - inv_bind H. destruct v as [d l2]. apply rd_u16_inv in E as (_ & _ & Hb2); auto.
    inv_bind H. destruct v as [[x s1] l3]. inv_bind H. destruct v as [[y s2] l4]. injection H as <- <- <-.
    assert (Hb3 : bytes l3) by (eapply framed_bytes; [|exact Hb2|exact E]; auto with framed).
    eapply lo_vec in E; [|auto with framed|apply lo_vtype|auto|auto]. destruct E as [G1 _].
    eapply lo_vec in E0; [|auto with framed|apply lo_vtype|auto|apply G1]. destruct E0 as [G2 _].
    eapply goes_trans; eauto.
Qed.
Lemma lo_handler p : labels_ok (rd_handler p) (fun x => [c_start x; c_end x; c_handler x]).
Proof.
  intros s l a s' rest Hb Hs H. unfold rd_handler in H.
  inv_bind H. destruct v as [[x s1] l1]. pose proof (framed_bytes _ _ _ _ (framed_label s) Hb E) as Hb1. apply lo_label in E as [G1 K1]; auto.
  inv_bind H. destruct v as [[y s2] l2]. pose proof (framed_bytes _ _ _ _ (framed_label s1) Hb1 E) as Hb2. apply lo_label in E as [G2 K2]; auto; [|apply G1].
  inv_bind H. destruct v as [[z s3] l3]. apply lo_label in E as [G3 K3]; auto; [|apply G2].
  inv_bind H. destruct v as [i l4].
  assert (HG : goes s s3) by (eapply goes_trans; [eapply goes_trans|]; eauto).
  assert (HK : forall w, In w [x; y; z] -> In w (map snd (k_labels s3))).
  { intros w [<-|[<-|[<-|[]]]].
    - eapply known_ext; [eapply goes_trans; [exact G2|exact G3]|]. apply K1. left. auto.
    - eapply known_ext; [exact G3|]. apply K2. left. auto.
    - apply K3. left. auto. }
  destruct (i =? 0); [injection H as <- <- <-; auto|]. destruct (read_indirect_str 7 p i); [|discriminate]. injection H as <- <- <-. auto.
Qed.
Lemma framed_handler p s : framed (rd_handler p s).
Proof. unfold rd_handler. framed. Qed.
#[export] Hint Resolve framed_handler : framed.

Lemma rd_attr_inv {B} p (known : list (list Z * rd B)) raw l b rest : bytes l -> rd_attr p known raw l = Ok (b, rest) ->
  bytes rest /\ ((exists n r body, In (n, r) known /\ bytes body /\ r body = Ok (b, [])) \/ exists a, b = raw a).
Proof.
  intros Hb H. split; [eapply framed_bytes; [apply framed_attr|exact Hb|exact H]|].
  unfold rd_attr in H. inv_bind H. destruct v as [i l1]. apply rd_u16_inv in E as (_ & _ & Hb1); auto.
  destruct (read_wtf8 p i) as [name|]; [|discriminate]. inv_bind H. destruct v as [n l2]. apply rd_u32_inv in E as (_ & _ & Hb2); auto.
  inv_bind H. destruct v as [body l3]. apply take_ok in E as [-> _]. apply Forall_app in Hb2 as [Hbody _].
  destruct (assoc _ name known) as [r|] eqn:Er; [|injection H as <- _; eauto].
  left. inv_bind H. destruct v as [b' r']. destruct r'; [|discriminate]. injection H as <- _.
  assert (exists n, In (n, r) known) as [m Hm].
  { clear - Er. induction known as [|[k v] known IH]; cbn [assoc] in Er; [discriminate|].
    destruct (list_eqb _ _ _); [injection Er as <-; exists k; left; auto|]. destruct (IH Er) as [m Hm]. exists m. right. auto. }
  exists m, r, body. auto.
Qed.
Lemma rd_times_all {A} (r : rd A) (P : A -> Prop) n : framed r -> (forall l a rest, bytes l -> r l = Ok (a, rest) -> P a) ->
  forall l xs rest, bytes l -> rd_times n r l = Ok (xs, rest) -> Forall P xs.
Proof.
  intros Hf Hr. induction n as [|n IH]; cbn [rd_times]; intros l xs rest Hb H.
  - injection H as <- _. constructor.
  - inv_bind H. destruct v as [a l1]. inv_bind H. destruct v as [ys l2]. injection H as <- _.
    constructor; [eauto|]. eapply IH; [|exact E0]. eapply framed_bytes; eauto.
Qed.
Definition rows_ok {A} (rows : list (lvrow A)) : Prop := Forall (fun r => u16 (lr_start r)) rows.
Lemma rd_rows {A} p (q : rd A) l xs rest : framed q -> bytes l -> rd_vec 2 (rd_lvrow p q) l = Ok (xs, rest) -> rows_ok xs.
Proof.
  intros Hq Hb H. unfold rd_vec in H. inv_bind H. destruct v as [n l1]. change (rd_u 2) with rd_u16 in E.
  apply rd_u16_inv in E as (_ & _ & Hb1); auto. eapply rd_times_all; [| |exact Hb1|exact H].
  - unfold rd_lvrow. auto 10 with framed.
  - clear. intros l a rest Hb H. unfold rd_lvrow, rd_map, rd_pair in H. inv_bind H. destruct v as [v r]. injection H as <- _.
    inv_bind E. destruct v0 as [x l1]. apply rd_u16_inv in E0 as (_ & Hx & _); auto. inv_bind E. destruct v0 as [y l2]. injection E as <- <-.
    destruct y as (n & s & t & i). exact Hx.
Qed.
Definition fcattr_labels (a : fcattr) : list Z :=
  match a with CaInvisible l | CaVisible l => flat_map (fun a => target_labels (ta_target a)) l | _ => [] end.
Lemma rd_fcattr_inv md p s l a s' rest : bytes l -> cst_ok s -> rd_fcattr md p s l = Ok ((a, s'), rest) ->
  bytes rest /\ goes s s' /\ (forall x, In x (fcattr_labels a) -> In x (map snd (k_labels s'))) /\
  match a with CaLocals r => rows_ok r | CaLocalTypes r => rows_ok r | _ => True end.
Proof.
  intros Hb Hs H. unfold rd_fcattr in H. apply rd_attr_inv in H as [Hr H]; auto. split; [exact Hr|].
  pose proof (goes_refl s Hs) as HR.
  destruct H as [(n & r & body & Hin & Hbody & H)|(ra & H)].
  2:{ injection H as -> ->. split; [exact HR|]. split; [intros x []|exact I]. }
  unfold fcattr_known in Hin. cbn [In] in Hin.
  destruct Hin as [Hin|[Hin|[Hin|[Hin|[Hin|[Hin|[]]]]]]]; apply (f_equal snd) in Hin; cbn [snd] in Hin; subst r.
  - unfold rd_map in H. inv_bind H. destruct v as [v r]. injection H as <- <- ->. split; [exact HR|]. split; [intros x []|exact I].
  - unfold rd_map at 1 in H. inv_bind H. destruct v as [v r]. injection H as <- <- ->. split; [exact HR|]. split; [intros x []|].
    eapply rd_rows; [|exact Hbody|exact E]. auto with framed.
  - unfold rd_map at 1 in H. inv_bind H. destruct v as [v r]. injection H as <- <- ->. split; [exact HR|]. split; [intros x []|].
    eapply rd_rows; [|exact Hbody|exact E]. auto with framed.
  - unfold srd_map in H. inv_bind H. destruct v as [[v s1] r]. injection H as <- <- ->.
    eapply lo_vec in E; [|auto with framed|apply lo_tannot|auto|auto]. destruct E. auto.
  - unfold srd_map in H. inv_bind H. destruct v as [[v s1] r]. injection H as <- <- ->.
    eapply lo_vec in E; [|auto with framed|apply lo_tannot|auto|auto]. destruct E. auto.
  - unfold srd_map in H. inv_bind H. destruct v as [[v s1] r]. injection H as <- <- ->.
    eapply lo_vec in E; [|auto with framed|apply lo_frame|auto|auto]. destruct E as [E _]. split; [exact E|]. split; [intros x []|exact I].
Qed.

Definition vars_known (s : cst) (vs : list localvar) : Prop :=
  Forall (fun v => In (v_start v) (map snd (k_labels s)) /\ In (v_end v) (map snd (k_labels s))) vs.
Lemma vars_known_ext s s' vs : goes s s' -> vars_known s vs -> vars_known s' vs.
Proof. intros HG. apply Forall_impl. intros v [H1 H2]. split; eapply known_ext; eauto. Qed.
Lemma add_var_known f s v vs : (forall x, v_start (f x) = v_start x /\ v_end (f x) = v_end x) ->
  vars_known s [v] -> vars_known s vs -> vars_known s (add_var f v vs).
Proof.
  intros Hf Hv H. inversion Hv as [|? ? [V1 V2] _]; subst.
  induction H as [|x vs [X1 X2] H IH]; cbn [add_var].
  - constructor; [|constructor]. destruct (Hf v) as [-> ->]. auto.
  - destruct (same_key x v); (constructor; [|auto]).
    + destruct (Hf x) as [-> ->]. auto.
    + auto.
Qed.
Lemma chk_u_u16 md x y : chk_u md 16 x = Ok y -> u16 y.
Proof.
  unfold chk_u, wrap_u, u16. change (2 ^ 16) with 65536. pose proof (Z.mod_pos_bound x 65536).
  destruct md, (_ && _) eqn:E; intros [= <-]; lia.
Qed.
Lemma add_vars_goes {A} md (set : A -> localvar -> localvar) rows : (forall t x, v_start (set t x) = v_start x /\ v_end (set t x) = v_end x) ->
  forall s vs vs' s', rows_ok rows -> cst_ok s -> vars_known s vs -> add_vars md set rows s vs = Ok (vs', s') ->
  goes s s' /\ vars_known s' vs'.
Proof.
  intros Hset. induction rows as [|r rows IH]; cbn [add_vars]; intros s vs vs' s' HR Hs Hv H.
  - injection H as <- <-. auto using goes_refl.
  - inversion HR; subst. destruct (get_label (lr_start r) s) as [a s1] eqn:E1. inv_bind H.
    destruct (get_label v s1) as [b s2] eqn:E2. apply chk_u_u16 in E.
    apply get_label_goes in E1 as [G1 L1]; auto; [|unfold u16, u32 in *; lia].
    apply get_label_goes in E2 as [G2 L2]; [|apply G1|unfold u16, u32 in *; lia].
    apply IH in H as [G3 K3]; auto; [|apply G2|].
    + split; [|exact K3]. eapply goes_trans; [eapply goes_trans; [exact G1|exact G2]|exact G3].
    + apply add_var_known; [apply Hset| |].
      * constructor; [|constructor]. cbn [v_start v_end]. split; eapply lab_known; [eapply lab_ext; [apply G2|exact L1]|exact L2].
      * eapply vars_known_ext; [eapply goes_trans; [exact G1|exact G2]|exact Hv].
Qed.

Definition attrs_known (s : cst) (l : list kattr) : Prop := forall x, In x (flat_map attr_labels l) -> In x (map snd (k_labels s)).
Lemma attrs_known_ext s s' l : goes s s' -> attrs_known s l -> attrs_known s' l.
Proof. intros HG H x Hx. eapply known_ext; eauto. Qed.
Lemma add_attr_goes md idx a s z z' s' : cst_ok s -> vars_known s (z_vars z) -> attrs_known s (z_attrs z) ->
  (forall x, In x (fcattr_labels a) -> In x (map snd (k_labels s))) ->
  match a with CaLocals r => rows_ok r | CaLocalTypes r => rows_ok r | _ => True end ->
  add_attr md idx a s z = Ok (z', s') -> goes s s' /\ vars_known s' (z_vars z') /\ attrs_known s' (z_attrs z').
Proof.
  intros Hs Hv Ha Hl Hr H. pose proof (goes_refl s Hs) as HR.
  assert (Hpush : forall k, (forall x, In x (attr_labels k) -> In x (map snd (k_labels s))) -> attrs_known s (z_attrs z ++ [k])).
  { intros k Hk x Hx. rewrite flat_map_app in Hx. apply in_app_or in Hx as [Hx|Hx]; [auto|]. cbn [flat_map] in Hx. rewrite app_nil_r in Hx. auto. }
  destruct a; cbn [add_attr fcattr_labels] in *.
  - inv_bind H. injection H as <- <-. auto.
  - inv_bind H. destruct v as [vs s1]. injection H as <- <-. apply add_vars_goes in E as [G K]; auto.
    split; [exact G|]. split; [exact K|]. eapply attrs_known_ext; eauto.
  - inv_bind H. destruct v as [vs s1]. injection H as <- <-. apply add_vars_goes in E as [G K]; auto.
    split; [exact G|]. split; [exact K|]. eapply attrs_known_ext; eauto.
  - injection H as <- <-. split; [exact HR|]. split; [exact Hv|]. apply Hpush. exact Hl.
  - injection H as <- <-. split; [exact HR|]. split; [exact Hv|]. apply Hpush. exact Hl.
  - injection H as <- <-. auto.
  - injection H as <- <-. split; [exact HR|]. split; [exact Hv|]. apply Hpush. intros x [].
Qed.
Lemma rd_kattrs_goes md p idx n : forall s z l z' s' rest, bytes l -> cst_ok s -> vars_known s (z_vars z) -> attrs_known s (z_attrs z) ->
  rd_kattrs n md p idx s z l = Ok (z', s', rest) -> goes s s' /\ vars_known s' (z_vars z') /\ attrs_known s' (z_attrs z').
Proof.
  induction n as [|n IH]; cbn [rd_kattrs]; intros s z l z' s' rest Hb Hs Hv Ha H.
  - injection H as <- <- <-. auto using goes_refl.
  - inv_bind H. destruct v as [[a s1] l1]. apply rd_fcattr_inv in E as (Hb1 & G1 & K1 & R1); auto.
    inv_bind H. destruct v as [z1 s2]. apply add_attr_goes in E as (G2 & V2 & A2); auto; [|apply G1|eapply vars_known_ext; eauto|eapply attrs_known_ext; eauto].
    apply IH in H as (G3 & V3 & A3); auto; [|apply G2].
    split; [|auto]. eapply goes_trans; [eapply goes_trans; [exact G1|exact G2]|exact G3].
Qed.

(** * The labels in the list of instructions *)
Lemma add_labels_some idx ls : forall m r, add_labels idx ls m = Ok r -> Forall (fun e => idx (fst e) <> None) ls.
Proof.
  induction ls as [|[off l] ls IH]; cbn [add_labels]; intros m r H; [constructor|].
  destruct (idx off) eqn:E; [|discriminate]. constructor; [cbn; congruence|eauto].
Qed.
Lemma labels_rev is : labels_in (rev is) = rev (labels_in is).
Proof.
  unfold labels_in. induction is as [|i is IH]; auto. cbn [rev flat_map]. rewrite flat_map_app, IH, rev_app_distr. f_equal.
  cbn [flat_map]. rewrite app_nil_r. destruct i; auto.
Qed.
Lemma nodup_app {A} (a b : list A) : NoDup a -> NoDup b -> (forall x, In x a -> In x b -> False) -> NoDup (a ++ b).
Proof.
  intros Ha Hb H. induction Ha as [|x a Hx Ha IH]; auto. cbn [app]. constructor.
  - rewrite in_app_iff. intros [Hi|Hi]; [auto|]. apply (H x); [left|]; auto.
  - apply IH. intros y H1 H2. apply (H y); [right|]; auto.
Qed.
Lemma nodup_weave pre is : Forall (fun i => realb i = true) is -> (forall k, NoDup (labels_in (pre k))) ->
  (forall j j' l, In l (labels_in (pre j)) -> In l (labels_in (pre j')) -> j = j') -> forall k, NoDup (labels_in (weave k pre is)).
Proof.
  intros Hr Hn Hd. induction Hr as [|i is H Hr IH]; intros k; cbn [weave]; auto.
  rewrite labels_app. cbn [labels_in flat_map]. assert (match i with ILabel l => [l] | _ => [] end = []) as -> by (destruct i; auto; discriminate).
  cbn [app]. fold (labels_in (weave (S k) pre is)). apply nodup_app; auto.
  intros l H1 H2. apply labels_weave in H2 as (j & Hj & H2); auto. specialize (Hd _ _ _ H1 H2). lia.
Qed.

(** * C55 *)
Lemma lines_lookup (lines : list (Z * Z)) k :
  labels_in (lookup_at k (map (fun '(i, line) => (i, [ILineNumber line])) lines)) = [] /\
  virtual (lookup_at k (map (fun '(i, line) => (i, [ILineNumber line])) lines)).
Proof.
  unfold lookup_at. induction lines as [|[i ln] lines IH]; cbn [map assoc]; [split; [reflexivity|constructor]|].
  destruct (k =? i); [|exact IH]. split; [reflexivity|]. repeat constructor.
Qed.
Lemma labels_labels_at idx ls k l : In l (labels_in (labels_at idx ls k)) <-> exists off, In (off, l) ls /\ idx off = Some k.
Proof.
  unfold labels_in. rewrite in_flat_map. split.
  - intros (i & Hi & Hl). apply in_labels_at in Hi as (off & l' & H1 & H2 & ->). destruct Hl as [<-|[]]. eauto.
  - intros (off & H1 & H2). exists (ILabel l). split; [|left; auto]. apply in_labels_at. eauto.
Qed.
Lemma labels_at_nodup idx ls k : NoDup (map snd ls) -> NoDup (labels_in (labels_at idx ls k)).
Proof.
  induction ls as [|[o l] ls IH]; intros H; cbn [map snd] in H; [constructor|]. inversion H as [|? ? Hx Hnd]; subst.
  unfold labels_at. cbn [flat_map fst snd]. fold (labels_at idx ls k). rewrite labels_app. apply nodup_app; auto.
  - destruct (idx o) as [j|]; [destruct (j =? k)|]; repeat constructor; intros [].
  - intros x H1 H2. apply labels_labels_at in H2 as (off & H2 & _). apply (in_map snd) in H2. cbn [snd] in H2.
    destruct (idx o) as [j|]; [destruct (j =? k)|]; try (destruct H1; fail). destruct H1 as [<-|[]]. auto.
Qed.
Lemma virtual_rev l : virtual l -> virtual (rev l).
Proof. apply Forall_rev. Qed.
Lemma virtual_labels_at idx ls k : virtual (labels_at idx ls k).
Proof. apply Forall_forall. intros i Hi. apply in_labels_at in Hi as (? & ? & _ & _ & ->). reflexivity. Qed.
Lemma cst_ok_nodup s : cst_ok s -> NoDup (map snd (k_labels s)).
Proof.
  intros (_ & _ & Hs). rewrite Hs. apply FinFun.Injective_map_NoDup; [|apply seq_NoDup]. intros x y. lia.
Qed.
Lemma nodup_fst_inj (ls : list (Z * Z)) a b l : NoDup (map snd ls) -> In (a, l) ls -> In (b, l) ls -> a = b.
Proof.
  induction ls as [|[o x] ls IH]; cbn [map snd In]; intros Hn H1 H2; [destruct H1|]. inversion Hn as [|? ? Hx Hnd]; subst.
  destruct H1 as [H1|H1], H2 as [H2|H2]; [congruence| | |eauto]; exfalso.
  - injection H1 as -> ->. apply (in_map snd) in H2. auto.
  - injection H2 as -> ->. apply (in_map snd) in H1. auto.
Qed.

(** The eight bytes of a row of the exception table. *)
Definition handler_read (at_ : Z -> Z -> Prop) (p : pool) (x : catch) (h : list Z) : Prop :=
  exists a b e t, h = u2 a ++ u2 b ++ u2 e ++ u2 t /\ u16 a /\ u16 b /\ u16 e /\ u16 t /\
    at_ (c_start x) a /\ at_ (c_end x) b /\ at_ (c_handler x) e /\
    match c_type x with
    | None => t = 0
    | Some n => exists j, p t = Some (RClass j) /\ p j = Some (RWtf8 n)
    end.
Lemma rd_label_bytes s l x s' rest : bytes l -> cst_ok s -> rd_label s l = Ok ((x, s'), rest) ->
  exists o, l = u2 o ++ rest /\ u16 o /\ bytes rest /\ goes s s' /\ lab s' x o.
Proof.
  intros Hb Hs H. unfold rd_label in H. inv_bind H. destruct v as [o r].
  apply rd_u16_inv in E as (-> & Ho & Hr); auto. destruct (get_label o s) as [y s1] eqn:E1. injection H as <- <- <-.
  apply get_label_goes in E1 as [HG HL]; auto; [|unfold u16, u32 in *; lia]. eauto 6.
Qed.
Lemma rd_handler_bytes p s l x s' rest : bytes l -> cst_ok s -> rd_handler p s l = Ok ((x, s'), rest) ->
  exists h, l = h ++ rest /\ bytes rest /\ goes s s' /\ handler_read (lab s') p x h.
Proof.
  intros Hb Hs H. unfold rd_handler in H.
  inv_bind H. destruct v as [[x1 s1] l1]. apply rd_label_bytes in E as (a & -> & Ha & Hb1 & G1 & L1); auto.
  inv_bind H. destruct v as [[x2 s2] l2]. apply rd_label_bytes in E as (b & -> & Hb' & Hb2 & G2 & L2); auto; [|apply G1].
  inv_bind H. destruct v as [[x3 s3] l3]. apply rd_label_bytes in E as (e & -> & He & Hb3 & G3 & L3); auto; [|apply G2].
  inv_bind H. destruct v as [t l4]. apply rd_u16_inv in E as (-> & Ht & Hb4); auto.
  assert (HG : goes s s3) by (eapply goes_trans; [eapply goes_trans; [exact G1|exact G2]|exact G3]).
  assert (L1' : lab s3 x1 a) by (eapply lab_ext; [apply G3|]; eapply lab_ext; [apply G2|exact L1]).
  assert (L2' : lab s3 x2 b) by (eapply lab_ext; [apply G3|exact L2]).
  exists (u2 a ++ u2 b ++ u2 e ++ u2 t).
  destruct (Z.eqb_spec t 0).
  - injection H as <- <- <-. split; [rewrite <- !app_assoc; reflexivity|]. split; [exact Hb4|]. split; [exact HG|].
    exists a, b, e, t. repeat (split; [solve [auto]|]). auto.
  - destruct (read_indirect_str 7 p t) as [nm|] eqn:En; [|discriminate].
    injection H as <- <- <-. split; [rewrite <- !app_assoc; reflexivity|]. split; [exact Hb4|]. split; [exact HG|].
    exists a, b, e, t. repeat (split; [solve [auto]|]). cbn [c_type].
    unfold read_indirect_str in En. destruct (p t) as [[]|] eqn:Ep; try discriminate En; cbn in En; try discriminate En.
    eexists. split; [reflexivity|]. unfold read_wtf8 in En. destruct (p i) as [[]|]; try discriminate En. congruence.
Qed.
Lemma handler_read_mono (f g : Z -> Z -> Prop) p x h : (forall l o, f l o -> g l o) -> handler_read f p x h -> handler_read g p x h.
Proof.
  intros Hfg (a & b & e & t & H1 & H2 & H3 & H4 & H5 & H6 & H7 & H8 & H9). exists a, b, e, t. repeat (split; [solve [auto]|]). auto.
Qed.
Lemma rd_handlers_bytes p n : forall s l xs s' rest, bytes l -> cst_ok s -> srd_times n (rd_handler p) s l = Ok ((xs, s'), rest) ->
  length xs = n /\ exists hs, l = concat hs ++ rest /\ bytes rest /\ goes s s' /\ Forall2 (handler_read (lab s') p) xs hs.
Proof.
  induction n as [|n IH]; cbn [srd_times]; intros s l xs s' rest Hb Hs H.
  - injection H as <- <- <-. split; auto. exists []. auto using goes_refl.
  - inv_bind H. destruct v as [[x s1] l1]. apply rd_handler_bytes in E as (h & -> & Hb1 & G1 & R1); auto.
    inv_bind H. destruct v as [[ys s2] l2]. injection H as <- <- <-.
    apply IH in E as (Hn & hs & -> & Hb2 & G2 & R2); auto; [|apply G1]. split; [cbn [length]; lia|].
    exists (h :: hs). split; [cbn [concat]; rewrite <- app_assoc; reflexivity|]. split; [exact Hb2|].
    split; [eapply goes_trans; [exact G1|exact G2]|]. constructor; [|exact R2].
    eapply handler_read_mono; [|exact R1]. intros. eapply lab_ext; [apply G2|assumption].
Qed.
Lemma read_as_targets at_ pos i b l : read_as at_ pos i b -> In l (targets i) -> exists o, at_ l o.
Proof.
  destruct i; cbn [read_as targets]; try (intros _ []; fail).
  - intros (o & H & _) [<-|[]]. eauto.
  - intros (o & H & _) [<-|[]]. eauto.
  - intros (pad & o & high & os & _ & _ & _ & _ & _ & _ & _ & H8 & H9) [<-|Hl]; [eauto|].
    clear - H9 Hl. induction H9 as [|? ? ? ? Hx HF IH]; [destruct Hl|]. destruct Hl as [<-|Hl]; eauto.
  - intros (pad & o & es & _ & _ & _ & _ & _ & H6 & H7 & H8) [<-|Hl]; [eauto|].
    apply in_map_iff in Hl as ([k l'] & <- & Hl). specialize (H8 k).
    rewrite (in_assoc _ _ _ H7 Hl) in H8. destruct H8 as (o' & _ & H8). eauto.
Qed.
Lemma read_all_targets at_ is : forall pos ps b l, read_all at_ pos is ps b -> In l (flat_map targets is) -> exists o, at_ l o.
Proof.
  induction is as [|i is IH]; cbn [read_all flat_map]; intros pos ps b l H Hl; [destruct Hl|].
  destruct H as (x & rest & ps' & _ & _ & _ & H4 & H5). apply in_app_or in Hl as [Hl|Hl]; eauto using read_as_targets.
Qed.
Lemma targets_strip is : flat_map targets (strip is) = flat_map targets is.
Proof.
  induction is as [|i is IH]; auto. cbn [strip filter flat_map]. fold (strip is). destruct (realb i) eqn:E; cbn [flat_map]; rewrite IH; auto.
  destruct i; try discriminate E; reflexivity.
Qed.

Lemma code_labels : forall md p s l c s' rest, bytes l -> rd_code md p s l = Ok ((c, s'), rest) ->
  exists body hs tl ps m, let at_ l o := In (o, l) m in
    l = u2 (cd_stack c) ++ u2 (cd_locals c) ++ u4 (len body) ++ body ++ u2 (len (cd_catches c)) ++ concat hs ++ tl /\
    (* [m] gives labels to offsets, no offset two and no label to two *)
    NoDup (map fst m) /\ NoDup (map snd m) /\
    (* the instructions are the body, the handlers are the exception table *)
    read_all at_ 0 (strip (cd_code c)) ps body /\ Forall2 (handler_read at_ p) (cd_catches c) hs /\
    (* every one of these labels is there once and at its offset *)
    NoDup (labels_in (cd_code c)) /\ (forall x, In x (labels_in (cd_code c)) <-> In x (map snd m)) /\
    (forall o x, In (o, x) m -> label_offset (cd_code c) ps (len body) x o) /\
    (* and so is every label that is used *)
    incl (labels_used c) (labels_in (cd_code c)) /\
    (* the attributes are read in this order, the last state has [m] *)
    exists k3 k4 z na l7 l8, cst_ok k3 /\ k_catches k3 = cd_catches c /\ bytes l7 /\
      rd_kattrs na md p (pos2idx (ps ++ [len body]) 0) k3 {| z_lines := []; z_vars := []; z_attrs := [] |} l7 = Ok (z, k4, l8) /\
      k_labels k4 = m /\ cd_attrs c = z_attrs z ++ match z_vars z with [] => [] | vs => [KLocals vs] end.
Proof.
  intros md p s l c s' rest Hb H. unfold rd_code in H.
  inv_bind H. destruct v as [stack l1]. apply rd_u16_inv in E as (-> & Hst & Hb1); auto.
  inv_bind H. destruct v as [locals l2]. apply rd_u16_inv in E as (-> & Hlo & Hb2); auto.
  inv_bind H. destruct v as [n l3]. apply rd_u32_inv in E as (-> & Hn & Hb3); auto.
  inv_bind H. destruct v as [body l4]. apply take_ok in E as [-> Hbl]. assert (len body = n) as Hbn by (unfold u32 in Hn; lia). clear Hbl.
  apply Forall_app in Hb3 as [Hbody Hb4].
  inv_bind H. destruct v as [is k1]. rename E into EI.
  assert (Hk0 : cst_ok {| k_refs := s; k_labels := []; k_catches := [] |}) by (repeat split; constructor).
  apply rd_insns_inv in EI as (G1 & HR & HA); auto.
  inv_bind H. destruct v as [nh l5]. apply rd_u16_inv in E as (-> & Hnh & Hb5); auto.
  inv_bind H. destruct v as [[cs k2] l6]. rename E into EH.
  apply rd_handlers_bytes in EH as (Hlen & hs & -> & Hb6 & G2 & HH); auto; [|apply G1].
  inv_bind H. destruct v as [na l7]. apply rd_u16_inv in E as (Hl6 & Hna & Hb7); auto.
  set (k3 := {| k_refs := k_refs k2; k_labels := k_labels k2; k_catches := cs |}) in *.
  inv_bind H. destruct v as [[z k4] l8]. rename E into EA.
  assert (Hk3 : cst_ok k3) by (apply G2).
  pose proof EA as EA0. apply rd_kattrs_goes in EA as (G3 & HV & HT); auto; [|constructor|intros x []].
  inv_bind H. rename v into ins, E into EL. injection H as <- <- <-.
  set (idx := pos2idx (map fst is ++ [n]) 0) in *.
  pose proof (add_labels_some _ _ _ _ EL) as Hsome.
  destruct (add_labels_ok idx (k_labels k4) (map (fun '(i, line) => (i, [ILineNumber line])) (z_lines z)) Hsome) as (ins' & EL' & Hins).
  assert (ins' = ins) as -> by congruence. clear EL'.
  set (pre := fun k => rev (lookup_at (Z.of_nat k) ins)).
  assert (Hcode : insert_all (length is) ins (map snd is) = weave 0 pre (map snd is)).
  { rewrite <- (map_length snd is). apply weave_all. }
  assert (Hv : forall k, virtual (pre k)).
  { intros k. apply virtual_rev. rewrite Hins. apply Forall_app. split; [apply lines_lookup|apply virtual_labels_at]. }
  assert (Hpl : forall k x, In x (labels_in (pre k)) <-> exists off, In (off, x) (k_labels k4) /\ idx off = Some (Z.of_nat k)).
  { intros k x. unfold pre. rewrite labels_rev, <- in_rev, Hins, labels_app, (proj1 (lines_lookup _ _)). apply labels_labels_at. }
  assert (Hnd : NoDup (map snd (k_labels k4))) by (apply cst_ok_nodup, G3).
  assert (Hin : forall x, In x (labels_in (weave 0 pre (map snd is))) <-> In x (map snd (k_labels k4))).
  { intros x. rewrite labels_weave by assumption. split.
    - intros (j & _ & Hj). apply Hpl in Hj as (off & Ho & _). apply (in_map snd) in Ho. exact Ho.
    - intros Hx. apply in_map_iff in Hx as ([off x'] & <- & Ho). rewrite Forall_forall in Hsome. specialize (Hsome _ Ho). cbn [fst snd] in *.
      destruct (idx off) as [k|] eqn:Ek; [|congruence]. pose proof (pos2idx_range _ _ _ _ Ek) as Hk.
      exists (Z.to_nat k). split.
      + rewrite len_app in Hk. change (len [n]) with 1 in Hk. unfold len in Hk. rewrite !map_length in *. lia.
      + apply Hpl. exists off. split; auto. rewrite Z2Nat.id by lia. auto. }
  exists body, hs, l6, (map fst is), (k_labels k4). cbn [cd_code cd_stack cd_locals cd_catches].
  rewrite Hcode, strip_weave by auto.
  assert (HL : forall a b, lab k1 a b -> In (b, a) (k_labels k4)).
  { intros a b Hab. apply (lab_ext k3); [apply G3|]. apply (lab_ext k1 k2 a b (proj2 G2)). exact Hab. }
  split.
  { rewrite Hbn. replace (len cs) with nh by (unfold len; rewrite Hlen; unfold u16 in Hnh; lia). reflexivity. }
  split; [apply G3|]. split; [exact Hnd|]. split; [eapply read_all_mono; [|exact HA]; exact HL|].
  split.
  { assert (HL2 : forall a b, lab k2 a b -> In (b, a) (k_labels k4)).
    { intros a b Hab. apply (lab_ext k3); [apply G3|exact Hab]. }
    clear - HH HL2. induction HH as [|x h xs hs Hx HH IH]; constructor; auto. eapply handler_read_mono; [exact HL2|exact Hx]. }
  split.
  { apply nodup_weave; auto.
    - intros k. unfold pre. rewrite labels_rev. apply NoDup_rev. rewrite Hins, labels_app, (proj1 (lines_lookup _ _)). apply labels_at_nodup, Hnd.
    - intros j j' x H1 H2. apply Hpl in H1 as (o1 & H1 & H1'). apply Hpl in H2 as (o2 & H2 & H2').
      assert (o1 = o2) by (eapply nodup_fst_inj; eauto). subst. rewrite H1' in H2'. injection H2'. lia. }
  split; [exact Hin|]. split.
  { intros o x Hx. rewrite Forall_forall in Hsome. specialize (Hsome _ Hx). cbn [fst] in Hsome.
    destruct (idx o) as [k|] eqn:Ek; [|congruence]. pose proof (pos2idx_range _ _ _ _ Ek) as Hk.
    exists k. split.
    - rewrite (place_weave pre (map snd is) x (Z.to_nat k)); auto.
      + f_equal. lia.
      + intros j' Hj' Hc. apply Hpl in Hc as (o' & Ho' & Hi'). assert (o' = o) by (eapply nodup_fst_inj; eauto). subst.
        rewrite Ek in Hi'. injection Hi'. lia.
      + apply Hpl. exists o. split; auto. rewrite Z2Nat.id by lia. auto.
      + rewrite len_app in Hk. change (len [n]) with 1 in Hk. unfold len in Hk. rewrite !map_length in *. lia.
    - rewrite Hbn. apply (pos2idx_nth _ 0); [exact Ek|lia]. }
  split.
  2:{ exists k3, k4, z, (Z.to_nat na), l7, l8. split; [exact Hk3|]. split; [reflexivity|]. split; [exact Hb7|]. rewrite Hbn. split; [exact EA0|]. split; [reflexivity|]. reflexivity. }
  intros x Hx. apply Hin. unfold labels_used in Hx. cbn [cd_code cd_catches cd_attrs] in Hx.
  apply in_app_or in Hx as [Hx|Hx]; [|apply in_app_or in Hx as [Hx|Hx]].
  - rewrite <- targets_strip, strip_weave in Hx by auto. destruct (read_all_targets _ _ _ _ _ _ HA Hx) as [o Ho].
    apply HL in Ho. apply (in_map snd) in Ho. exact Ho.
  - apply (known_ext k3); [exact G3|]. change (k_labels k3) with (k_labels k2). clear - HH Hx.
    induction HH as [|y h ys hs Hy HH IH]; cbn [flat_map] in Hx; [destruct Hx|]. apply in_app_or in Hx as [Hx|Hx]; auto.
    destruct Hy as (a & b & e & t & _ & _ & _ & _ & _ & Ha & Hb & He & _). destruct Hx as [<-|[<-|[<-|[]]]]; eapply lab_known; eassumption.
  - rewrite flat_map_app in Hx. apply in_app_or in Hx as [Hx|Hx]; [apply HT; exact Hx|].
    assert (HV' : In x (flat_map attr_labels [KLocals (z_vars z)])) by (destruct (z_vars z); [destruct Hx|exact Hx]). clear Hx.
    cbn [flat_map attr_labels] in HV'. rewrite app_nil_r in HV'. apply in_flat_map in HV' as (v & Hv1 & Hv2).
    unfold vars_known in HV. rewrite Forall_forall in HV. destruct (HV v Hv1) as [HV1 HV2].
    destruct (v_desc v), (v_sig v); try (destruct Hv2; fail); destruct Hv2 as [<-|[<-|[]]]; auto.
Qed.
Theorem C55_labels : forall md p s l c s' rest, bytes l -> rd_code md p s l = Ok ((c, s'), rest) ->
  exists body hs tl ps m, let at_ l o := In (o, l) m in
    l = u2 (cd_stack c) ++ u2 (cd_locals c) ++ u4 (len body) ++ body ++ u2 (len (cd_catches c)) ++ concat hs ++ tl /\
    (* [m] gives labels to offsets, no offset two and no label to two *)
    NoDup (map fst m) /\ NoDup (map snd m) /\
    (* the instructions are the body, the handlers are the exception table *)
    read_all at_ 0 (strip (cd_code c)) ps body /\ Forall2 (handler_read at_ p) (cd_catches c) hs /\
    (* every one of these labels is there once and at its offset *)
    NoDup (labels_in (cd_code c)) /\ (forall x, In x (labels_in (cd_code c)) <-> In x (map snd m)) /\
    (forall o x, In (o, x) m -> label_offset (cd_code c) ps (len body) x o) /\
    (* and so is every label that is used *)
    incl (labels_used c) (labels_in (cd_code c)).
Proof.
  intros md p s l c s' rest Hb H. destruct (code_labels _ _ _ _ _ _ _ Hb H) as (body & hs & tl & ps & m & X). exists body, hs, tl, ps, m. cbv zeta in *. tauto.
Qed.
Example C55_ex : let l := [0;1; 0;2; 0;0;0;4; 167;0;3; 177; 0;1; 0;0; 0;4; 0;3; 0;0; 0;0] in
  bytes l /\ rd_code Debug (fun _ => None) {| r_refs := []; r_next := 0 |} (l ++ [9]) =
    Ok (({| cd_stack := 1; cd_locals := 2; cd_code := [ILabel 1; IJump JcAlways 0; ILabel 0; IReturn None; ILabel 2];
            cd_catches := [{| c_start := 1; c_end := 2; c_handler := 0; c_type := None |}]; cd_attrs := [] |},
         {| r_refs := []; r_next := 0 |}), [9]).
Proof. split; [repeat constructor; unfold u8; lia|reflexivity]. Qed.
Print Assumptions C55_labels.

(** * What is rejected *)

(** [l] is used by an instruction or a handler. *)
Definition catch_labels (x : catch) : list Z := [c_start x; c_end x; c_handler x].
Lemma handlers_len W cs hs : Forall2 (fmt_handler W) cs hs -> len (concat hs) <= 8 * len cs.
Proof.
  induction 1 as [|x h xs hs' (a & b & c & t & (? & _ & _ & ->) & (? & _ & _ & ->) & (? & _ & _ & ->) & Ht & ->) _ IH]; [reflexivity|].
  assert (len t = 2) by (destruct (c_type x); cbn [fmt_opt] in Ht; [destruct Ht as (i & _ & -> & _)|subst t]; reflexivity).
  cbn [concat]. rewrite len_cons, len_app, !len_app. change (len (u2 x0)) with 2. change (len (u2 x1)) with 2. change (len (u2 x2)) with 2. lia.
Qed.
Section Boundary.
Variables (md : mode) (heap : Z -> option bsm) (W : world) (is : list insn) (ps body : list Z) (cs : list catch) (hs : list (list Z)).
Variables (stack locals : Z) (s : rst).
Hypothesis (Hreal : Forall (fun i => realb i = true /\ wf_insn heap i /\ readable i) is).
Hypothesis (Hlaid : laid enc W 0 is ps body).
Hypothesis (Hbody : len body < 4294967296).
Hypothesis (Hcs : len cs < 65536).
Hypothesis (Hhs : Forall2 (fmt_handler W) cs hs).
Hypothesis (Hst : u16 stack).
Hypothesis (Hlo : u16 locals).
Hypothesis (Hs1 : rst_ok s).
Hypothesis (Hs2 : 0 <= r_next s).
Hypothesis (Hs3 : len (W_tbl W) <= 65536).
Lemma handlers_small : small (concat hs).
Proof using Hcs Hhs. pose proof (handlers_len _ _ _ Hhs). unfold small. lia. Qed.
Lemma stripped : strip is = is.
Proof using Hreal.
  assert (HG : forall l, Forall (fun i => realb i = true /\ wf_insn heap i /\ readable i) l -> strip l = l); [|auto].
  induction 1 as [|i l [Hr _] _ IH]; auto. cbn [strip filter]. rewrite Hr. f_equal. exact IH.
Qed.
Definition code_start (na : Z) (rest : list Z) : list Z :=
  u2 stack ++ u2 locals ++ u4 (len body) ++ body ++ u2 (len cs) ++ concat hs ++ u2 na ++ rest.
Lemma rd_code_start na rest : u16 na -> exists is' cs' k, length is' = length ps /\
  code_inv false W k /\ Forall2 (insn_sim W k) is is' /\ Forall2 (catch_sim W k) cs cs' /\
  forall k3, k3 = {| k_refs := k_refs k; k_labels := k_labels k; k_catches := cs' |} ->
  rd_code md (W_pool W) s (code_start na rest) =
    ('(z, k, l) <- rd_kattrs (Z.to_nat na) md (W_pool W) (pos2idx (ps ++ [len body]) 0) k3 {| z_lines := []; z_vars := []; z_attrs := [] |} rest ;;
     ins <- add_labels (pos2idx (ps ++ [len body]) 0) (k_labels k) (map (fun '(i, line) => (i, [ILineNumber line])) (z_lines z)) ;;
     Ok (({| cd_stack := stack; cd_locals := locals; cd_code := insert_all (length is') ins is'; cd_catches := cs';
             cd_attrs := z_attrs z ++ match z_vars z with [] => [] | vs => [KLocals vs] end |}, k_refs k), l)).
Proof.
  intros Hna. unfold rd_code, code_start.
  rewrite rd_u16_u2 by auto. cbn [bind]. rewrite rd_u16_u2 by auto. cbn [bind].
  pose proof (len_nonneg body). rewrite rd_u32_u4 by (unfold u32; lia). cbn [bind]. rewrite take_app' by reflexivity. cbn [bind].
  assert (Hi0 : code_inv false W {| k_refs := s; k_labels := []; k_catches := [] |}).
  { split; [|split; [intros o l' []|apply open_refs]]. split; [|auto]. split; [constructor|]. split; [constructor|reflexivity]. }
  assert (Hfine : Forall (fun i => realb i = true -> wf_insn heap i /\ readable i) is).
  { eapply Forall_impl; [|exact Hreal]. cbn. intros i (_ & ?) _. auto. }
  destruct (rd_insns_ok false W md heap is 0 ps body _ Hlaid Hfine Hbody Hi0 (length body) (le_n _)) as (is' & s1 & HR & Hl & He1 & Hi1 & Hsim).
  rewrite stripped in Hsim. rewrite HR. cbn [bind]. rewrite (combine_fst ps is' Hl), (combine_snd ps is' Hl).
  assert (Hr1 : length (combine ps is') = length is') by (rewrite combine_length; lia). rewrite Hr1.
  pose proof (len_nonneg cs). rewrite rd_u16_u2 by (unfold u16; lia). cbn [bind].
  assert (Hn1 : Z.to_nat (len cs) = length cs) by (unfold len; lia). rewrite Hn1.
  destruct (srd_times_ok (code_inv false) cst_ext cst_ext_refl cst_ext_trans rd_handler (fun _ => True) fmt_handler catch_sim catch_sim_stable (rd_handler_ok false)
    W cs hs Hhs s1 (u2 na ++ rest) Hi1) as (cs' & s2 & HC & He2 & Hi2 & Hcsim); auto using handlers_small.
  { apply Forall_forall. auto. }
  rewrite HC. cbn [bind]. rewrite rd_u16_u2 by auto. cbn [bind].
  exists is', cs', s2. split; auto. split; auto. split; [eapply forall2_impl; [|exact Hsim]; intros a b; apply (insn_sim_stable W s1 s2); exact He2|].
  split; auto. intros k3 ->. reflexivity.
Qed.

(** A jump, a switch or a handler that refers to an offset where no instruction
    begins (nor the code ends): an error, whatever attributes follow.  (With
    such attributes something else may be wrong before that is noticed.) *)
Theorem C55_boundary : forall l o, In l (flat_map targets is ++ flat_map catch_labels cs) ->
  W_label W l = Some o -> ~ In o (ps ++ [len body]) ->
  (forall rest, rd_code md (W_pool W) s (code_start 0 rest) = Err EInvalid) /\
  (forall na rest v, u16 na -> bytes rest -> rd_code md (W_pool W) s (code_start na rest) <> Ok v).
Proof.
  intros l o Hl Ho Hout.
  assert (Hidx : pos2idx (ps ++ [len body]) 0 o = None).
  { destruct (pos2idx (ps ++ [len body]) 0 o) eqn:E; auto. apply pos2idx_in in E. contradiction. }
  assert (HK : forall k is' cs', Forall2 (insn_sim W k) is is' -> Forall2 (catch_sim W k) cs cs' -> exists x, In (o, x) (k_labels k)).
  { intros k is' cs' HI HC. assert (Hsim : exists x, label_sim W k l x).
    { apply in_app_or in Hl as [Hl|Hl]; apply in_flat_map in Hl as (a & Ha & Hl).
      - assert (exists b, insn_sim W k a b) as [b Hb].
        { clear - HI Ha. induction HI as [|x y xs ys Hxy _ IH]; [destruct Ha|]. destruct Ha as [->|Ha]; eauto. }
        destruct a; try (destruct Hl; fail); destruct b; try (destruct Hb; fail); cbn [targets insn_sim] in *.
        + destruct Hl as [<-|[]]. destruct Hb. eauto.
        + destruct Hl as [<-|[]]. eauto.
        + destruct Hb as (Hd & _ & Hls). destruct Hl as [<-|Hl]; [eauto|].
          clear - Hls Hl. induction Hls as [|x y xs ys Hxy _ IH]; [destruct Hl|]. destruct Hl as [->|Hl]; eauto.
        + destruct Hb as (Hd & tp & Hp & _ & Hls). destruct Hl as [<-|Hl]; [eauto|].
          apply (Permutation_in l (Permutation_map snd Hp)) in Hl.
          clear - Hls Hl. induction Hls as [|x y xs ys [_ Hxy] _ IH]; cbn [map] in Hl; [destruct Hl|]. destruct Hl as [<-|Hl]; eauto.
      - assert (exists b, catch_sim W k a b) as [b (H1 & H2 & H3 & _)].
        { clear - HC Ha. induction HC as [|x y xs ys Hxy _ IH]; [destruct Ha|]. destruct Ha as [->|Ha]; eauto. }
        destruct Hl as [<-|[<-|[<-|[]]]]; eauto. }
    destruct Hsim as (x & o' & Ho' & Hx). assert (o' = o) by congruence. subst o'. exists x. eapply assoc_in; exact Hx. }
  split.
  - intros rest. destruct (rd_code_start 0 rest) as (is' & cs' & k & _ & _ & HI & HC & HR); [unfold u16; lia|].
    rewrite (HR _ eq_refl). cbn [Z.to_nat rd_kattrs bind k_labels]. destruct (HK k is' cs' HI HC) as [x Hx].
    rewrite add_labels_err; [reflexivity|]. apply Exists_exists. exists (o, x). auto.
  - intros na rest v Hna Hb H. destruct (rd_code_start na rest Hna) as (is' & cs' & k & _ & Hk & HI & HC & HR).
    rewrite (HR _ eq_refl) in H. inv_bind H. destruct v0 as [[z k4] l8]. destruct (HK k is' cs' HI HC) as [x Hx].
    apply rd_kattrs_goes in E as (G3 & _ & _); auto; [|exact (proj1 (proj1 Hk))|constructor|intros y []].
    assert (Hx' : In (o, x) (k_labels k4)) by (eapply (lab_ext _ k4 x o (proj2 G3)); exact Hx).
    rewrite add_labels_err in H; [discriminate|]. apply Exists_exists. exists (o, x). auto.
Qed.
End Boundary.
(** ifeq to the second byte of sipush; an exception table that ends there *)
Definition ex_world (l : Z -> option Z) : world :=
  {| W_pool := fun _ => None; W_tbl := []; W_heap := fun _ => None; W_label := l; W_catch := fun _ => None |}.
Example C55_boundary_ex :
  let W := ex_world (fun l => Some l) in
  let is := [IPush (Stat (KI32 300)); IJump JcIntegerEqualsZero 1; IReturn None] in
  let cs := [{| c_start := 0; c_end := 2; c_handler := 6; c_type := None |}] in
  Forall (fun i => realb i = true /\ wf_insn (fun _ => None) i /\ readable i) is /\
  laid enc W 0 is [0; 3; 6] [17;1;44; 153;255;254; 177] /\
  Forall2 (fmt_handler W) cs [[0;0; 0;2; 0;6; 0;0]] /\
  In 1 (flat_map targets is ++ flat_map catch_labels cs) /\ In 2 (flat_map targets is ++ flat_map catch_labels cs) /\
  W_label W 1 = Some 1 /\ W_label W 2 = Some 2 /\ ~ In 1 ([0; 3; 6] ++ [7]) /\ ~ In 2 ([0; 3; 6] ++ [7]).
Proof.
  cbn zeta. split; [repeat constructor; cbn; unfold i32; try lia; auto|]. split.
  { cbn [laid]. split; auto. exists [17;1;44], [153;255;254; 177]. split; auto.
    split; [cbn [enc]; right; right; right; split; [lia|reflexivity]|].
    exists [3; 6]. split; auto. split; auto. exists [153;255;254], [177]. split; auto.
    split; [exists (-2); split; [exists 1; repeat split; lia|left; split; [lia|reflexivity]]|].
    exists [6]. split; auto. split; auto. exists [177], []. split; auto. split; [reflexivity|]. exists []. auto. }
  split. { constructor; [|constructor]. exists [0;0], [0;2], [0;6], [0;0].
    split; [exists 0; repeat split; lia|]. split; [exists 2; repeat split; lia|]. split; [exists 6; repeat split; lia|]. split; reflexivity. }
  repeat split; cbn; auto; intuition lia.
Qed.
Print Assumptions C55_boundary.

(** * A line number at such an offset: a panic *)

(** For every body and every line at an offset where no instruction begins
    (and which is not the end), in either mode. *)
Theorem C55_line_refuted : forall md heap W is ps body cs hs stack locals s,
  Forall (fun i => realb i = true /\ wf_insn heap i /\ readable i) is -> laid enc W 0 is ps body -> len body < 4294967296 ->
  len cs < 65536 -> Forall2 (fmt_handler W) cs hs -> u16 stack -> u16 locals -> rst_ok s -> 0 <= r_next s -> len (W_tbl W) <= 65536 ->
  forall i o line rest, 0 < i < 65536 -> W_pool W i = Some (RWtf8 (str "LineNumberTable")) -> u16 o -> u16 line ->
  ~ In o (ps ++ [len body]) ->
  rd_code md (W_pool W) s (code_start body cs hs stack locals 1 (u2 i ++ u4 6 ++ u2 1 ++ u2 o ++ u2 line ++ rest)) = Panic PIndex.
Proof.
  intros md heap W is ps body cs hs stack locals s H1 H2 H3 H4 H5 H6 H7 H8 H9 H10 i o line rest Hi Hp Ho Hln Hout.
  destruct (rd_code_start md heap W is ps body cs hs stack locals s H1 H2 H3 H4 H5 H6 H7 H8 H9 H10 1 (u2 i ++ u4 6 ++ u2 1 ++ u2 o ++ u2 line ++ rest))
    as (is' & cs' & k & _ & _ & _ & _ & HR); [unfold u16; lia|].
  rewrite (HR _ eq_refl). change (Z.to_nat 1) with 1%nat. cbn [rd_kattrs].
  set (k3 := {| k_refs := k_refs k; k_labels := k_labels k; k_catches := cs' |}).
  assert (HA : fmt_attr (str "LineNumberTable") (fmt_table2 (fmt_pair fmt_u2 fmt_u2)) W [(o, line)] (u2 i ++ u4 6 ++ u2 1 ++ u2 o ++ u2 line)).
  { exists i, (u2 1 ++ u2 o ++ u2 line). repeat split; auto; try lia. exists [u2 o ++ u2 line]. split; [cbn; lia|].
    split; [cbn [concat]; rewrite app_nil_r; reflexivity|]. constructor; [|constructor]. exists (u2 o), (u2 line).
    unfold fmt_u2; cbn [fst snd]. auto. }
  assert (HR' : rd_fcattr md (W_pool W) k3 (u2 i ++ u4 6 ++ u2 1 ++ u2 o ++ u2 line ++ rest) = Ok ((CaLines [(o, line)], k3), rest)).
  { unfold rd_fcattr. destruct (fmt_attr_read (B := fcattr * cst) _ _ _ _ _ HA) as (b & HB & Hsb & HRd); [reflexivity|].
    destruct (HRd (fcattr_known md (W_pool W) k3) (fun r => (CaRaw r, k3)) rest) as [HX _]. 
    replace (u2 i ++ u4 6 ++ u2 1 ++ u2 o ++ u2 line ++ rest) with ((u2 i ++ u4 6 ++ u2 1 ++ u2 o ++ u2 line) ++ rest) by (rewrite <- !app_assoc; reflexivity).
    eapply HX; [reflexivity|]. destruct HB as (bss & _ & -> & HF). inversion HF as [|? x ? xs Hx HF']; subst. inversion HF'; subst.
    destruct Hx as (a & c & -> & [_ ->] & [_ ->]). cbn [concat fst snd]. rewrite app_nil_r. cbn [rd_map rd_vec rd_pair].
    unfold rd_map, rd_vec. fold rd_u16. change (len [(o, line)]) with 1. rewrite (rd_u16_u2 1) by (unfold u16; lia). cbn [bind].
    change (Z.to_nat 1) with 1%nat. cbn [rd_times]. unfold rd_pair. rewrite (rd_u16_u2 o) by auto. cbn [bind].
    rewrite <- (app_nil_r (u2 line)). rewrite (rd_u16_u2 line) by auto. reflexivity. }
  rewrite HR'. cbn [bind add_attr add_lines].
  destruct (pos2idx (ps ++ [len body]) 0 o) eqn:E; [apply pos2idx_in in E; contradiction|]. reflexivity.
Qed.
Example C55_line_ex : let p i := if i =? 1 then Some (RWtf8 (str "LineNumberTable")) else None in
  rd_code Release p {| r_refs := []; r_next := 0 |}
    ([0;1; 0;1; 0;0;0;4; 17;1;44; 177; 0;0; 0;1; 0;1; 0;0;0;6; 0;1; 0;2; 0;9]) = Panic PIndex.
Proof. reflexivity. Qed.
Print Assumptions C55_line_refuted.
