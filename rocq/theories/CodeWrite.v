(** Writing a code attribute. *)
From Coq Require Import String Permutation Sorted.
From Verif Require Import Base BaseLemmas Wtf8Spec PrimModel PrimProofs TypeModel TypeSpec CpModel CpSpec CpProofs FileSpec SigModel SigSpec
  AnnModel AnnSpec AnnProofs AttrModel AttrSpec AttrProofs FrameModel FrameSpec FrameProofs InsnModel InsnSpec InsnProofs CodeModel CodeSpec CodeProofs.

(** * The attributes in the file *)
Lemma wr_u2_ok : wr_ok (wr_plain (wr_n 2)) (fun _ => u16) fmt_u2.
Proof. apply wr_plain_ok. intros E a Ha. exists (be 2 a). split; auto. intros W. split; auto. apply be2_u2. Qed.
Definition wf_lvrow {A} (P : A -> Prop) (r : lvrow A) : Prop :=
  u16 (lr_start r) /\ u16 (lr_len r) /\ jstr (lr_name r) /\ P (lr_type r) /\ u16 (lr_index r).
Lemma wr_lvrow_ok {A} (f : cwr A) P F : wr_ok f (fun _ => P) F -> wr_ok (wr_lvrow f) (fun _ => wf_lvrow P) (fmt_lvrow F).
Proof.
  intros Hf. refine (wr_mono _ _ _ _ _ (wr_via_ok _ _ _ _ (wr_pair_ok _ _ _ _ _ _ wr_u2_ok (wr_pair_ok _ _ _ _ _ _ wr_u2_ok
    (wr_pair_ok _ _ _ _ _ _ wr_cow_ok (wr_pair_ok _ _ _ _ _ _ Hf wr_u2_ok))))) _ _); auto.
Qed.
Definition wf_fcattr (E : wenv) (a : fcattr) : Prop :=
  match a with
  | CaLines l => len l < 65536 /\ Forall (fun e => u16 (fst e) /\ u16 (snd e)) l
  | CaLocals l => len l < 65536 /\ Forall (wf_lvrow wf_desc) l
  | CaLocalTypes l => len l < 65536 /\ Forall (wf_lvrow wf_field_signature) l
  | CaInvisible l | CaVisible l => len l < 65536 /\ Forall (wf_code_tannot E) l
  | CaFrames l => len l < 65536 /\ Forall (wf_frame E) l
  | CaRaw r => wf_raw code_attr_names r
  end.
Lemma wr_fcattr_ok : wr_ok wr_fcattr wf_fcattr fmt_fcattr.
Proof.
  intros E [l|l|l|l|l|l|r] w Ha Hi; cbn [wf_fcattr] in Ha.
  - refine (wr_attr_ok _ _ _ _ (wr_cvec2_ok _ _ _ (wr_pair_ok _ _ _ _ _ _ wr_u2_ok wr_u2_ok)) _ E l w Ha Hi). ascii.
  - refine (wr_attr_ok _ _ _ _ (wr_cvec2_ok _ _ _ (wr_lvrow_ok _ _ _ wr_type_ok)) _ E l w Ha Hi). ascii.
  - refine (wr_attr_ok _ _ _ _ (wr_cvec2_ok _ _ _ (wr_lvrow_ok _ _ _ wr_field_sig_ok)) _ E l w Ha Hi). ascii.
  - refine (wr_attr_ok _ _ _ _ (wr_cvec2_ok _ _ _ wr_code_tannot_ok) _ E l w Ha Hi). ascii.
  - refine (wr_attr_ok _ _ _ _ (wr_cvec2_ok _ _ _ wr_code_tannot_ok) _ E l w Ha Hi). ascii.
  - refine (wr_attr_ok _ _ _ _ (wr_cvec2_ok _ _ _ wr_frame_ok) _ E l w Ha Hi). ascii.
  - apply (wr_raw_attr_ok code_attr_names E r w Ha Hi).
Qed.
Definition wf_handler (E : wenv) (c : catch) : Prop :=
  wf_label E (c_start c) /\ wf_label E (c_end c) /\ wf_label E (c_handler c) /\
  match c_type c with Some t => jstr t | None => True end.
Lemma wr_handler_ok : wr_ok wr_handler wf_handler fmt_handler.
Proof.
  intros E c w ((a & Ha & Hua) & (b & Hb & Hub) & (h & Hh & Huh) & Ht) Hi. unfold wr_handler.
  rewrite Ha, Hb, Hh. cbn [bind].
  assert (HL : forall W, agrees E W -> fmt_label W (c_start c) (be 2 a) /\ fmt_label W (c_end c) (be 2 b) /\ fmt_label W (c_handler c) (be 2 h)).
  { intros W (_ & HL & _). repeat split; [exists a|exists b|exists h]; rewrite be2_u2; auto. }
  destruct (c_type c) as [t|] eqn:Et.
  - eapply post_bind; [apply (ins_class_ok E t w Ht Hi)|]. cbn beta. intros i w1 Hl1 Hi1 (Hu & H1 & HR).
    apply post_ret; auto. intros Hf Hbm W Ha' Hh'. destruct (HL W Ha') as (X & Y & Z).
    exists (be 2 a), (be 2 b), (be 2 h), (be 2 i). rewrite Et. repeat split; auto. cbn [fmt_opt].
    rewrite be2_u2. exists i. specialize (H1 Hf). unfold u16 in Hu. repeat split; auto; try lia.
  - apply post_ret; auto. intros Hf Hbm W Ha' Hh'. destruct (HL W Ha') as (X & Y & Z).
    exists (be 2 a), (be 2 b), (be 2 h), (be 2 0). rewrite Et. repeat split; auto.
Qed.

(** * Variables *)
Definition wf_row_var (E : wenv) (v : localvar) : Prop :=
  (exists a b, we_label E (v_start v) = Ok a /\ we_label E (v_end v) = Ok b /\ 0 <= a <= b /\ b < 65536) /\
  jstr (v_name v) /\ u16 (v_index v) /\
  match v_desc v with Some d => wf_desc d | None => True end /\
  match v_sig v with Some g => wf_field_signature g | None => True end /\
  (v_desc v <> None \/ v_sig v <> None).
Lemma lv_row_ok {A} E v (t : A) (P : A -> Prop) : wf_row_var E v -> P t ->
  exists r, lv_row E v t = Ok r /\ wf_lvrow P r /\ forall W, agrees E W -> row_for W (v, t) r.
Proof.
  intros ((a & b & Ha & Hb & Hab & Hb') & Hn & Hi & _) HP. unfold lv_row. rewrite Ha, Hb. cbn [bind].
  unfold chk_u. change (2 ^ 16) with 65536. assert ((0 <=? b - a) && (b - a <? 65536) = true) as -> by lia. cbn [bind].
  eexists. split; [reflexivity|]. split.
  - unfold wf_lvrow. cbn. unfold u16 in *. repeat split; auto; lia.
  - intros W (_ & HL & _). unfold row_for. cbn. replace (a + (b - a)) with b by lia. repeat split; auto; lia.
Qed.
Lemma lv_rows_ok E vs : Forall (wf_row_var E) vs ->
  exists ds gs, lv_rows E vs = Ok (ds, gs) /\ Forall (wf_lvrow wf_desc) ds /\ Forall (wf_lvrow wf_field_signature) gs /\
    len ds <= len vs /\ len gs <= len vs /\ (vs <> [] -> ds <> [] \/ gs <> []) /\
    forall W, agrees E W -> Forall2 (row_for W) (descs vs) ds /\ Forall2 (row_for W) (sigs vs) gs.
Proof.
  induction 1 as [|v vs Hv Hvs IH]; cbn [lv_rows].
  - exists [], []. unfold len; cbn. repeat split; auto; try lia.
  - destruct IH as (ds & gs & -> & Hds & Hgs & Hld & Hlg & _ & HR).
    assert (exists d, (match v_desc v with Some d => r <- lv_row E v d ;; Ok [r] | None => Ok [] end) = Ok d /\
      Forall (wf_lvrow wf_desc) d /\ len d <= 1 /\ (v_desc v <> None -> d <> []) /\ forall W, agrees E W ->
      Forall2 (row_for W) (match v_desc v with Some d => [(v, d)] | None => [] end) d) as (d & -> & Hd1 & Hd2 & Hd3 & Hd4).
    { destruct (v_desc v) as [d|] eqn:Ed.
      - destruct (lv_row_ok E v d wf_desc Hv) as (r & -> & Hr & HW). { destruct Hv as (_ & _ & _ & H & _). rewrite Ed in H. auto. }
        exists [r]. unfold len; cbn. repeat split; auto; try congruence; lia.
      - exists []. unfold len; cbn. repeat split; auto; lia. }
    assert (exists g, (match v_sig v with Some g => r <- lv_row E v g ;; Ok [r] | None => Ok [] end) = Ok g /\
      Forall (wf_lvrow wf_field_signature) g /\ len g <= 1 /\ (v_sig v <> None -> g <> []) /\ forall W, agrees E W ->
      Forall2 (row_for W) (match v_sig v with Some g => [(v, g)] | None => [] end) g) as (g & -> & Hg1 & Hg2 & Hg3 & Hg4).
    { destruct (v_sig v) as [g|] eqn:Ed.
      - destruct (lv_row_ok E v g wf_field_signature Hv) as (r & -> & Hr & HW). { destruct Hv as (_ & _ & _ & _ & H & _). rewrite Ed in H. auto. }
        exists [r]. unfold len; cbn. repeat split; auto; try congruence; lia.
      - exists []. unfold len; cbn. repeat split; auto; lia. }
    cbn [bind]. exists (d ++ ds), (g ++ gs). rewrite !len_app, !len_cons. repeat split; auto; try lia.
    + apply Forall_app; auto.
    + apply Forall_app; auto.
    + intros _. destruct Hv as (_ & _ & _ & _ & _ & [Hd|Hg]); [left|right]; intros X; apply app_eq_nil in X as [X _]; tauto.
    + cbn [descs flat_map]. apply Forall2_app; [apply Hd4|apply HR]; auto.
    + cbn [sigs flat_map]. apply Forall2_app; [apply Hg4|apply HR]; auto.
Qed.

(** * The attributes in memory *)
Definition wf_kattr_in (E : wenv) (a : kattr) : Prop :=
  match a with
  | KVisible l | KInvisible l => len l < 65536 /\ Forall (wf_code_tannot E) l
  | KLocals vs => vs <> [] /\ len vs < 65536 /\ Forall (wf_row_var E) vs
  | KRaw r => wf_raw code_attr_names r
  end.
Definition kattr_post (E : wenv) (a : kattr) (bx : list Z * Z) (w' : wst) : Prop :=
  0 <= snd bx <= 1 /\
  later E w' (fun W => exists fs bss, file_attrs W a fs /\ Forall2 (fmt_fcattr W) fs bss /\ fst bx = concat bss /\ len fs = 1 + snd bx).
Lemma wr_kattr_ok E a w : wf_kattr_in E a -> w_inv w -> post E w (kattr_post E a) (wr_kattr E a w).
Proof.
  intros Ha Hi.
  assert (H1 : forall x, wf_fcattr E x -> (forall W, agrees E W -> file_attrs W a [x]) ->
    post E w (kattr_post E a) ('(b, w) <- wr_fcattr E x w ;; Ok (b, 0, w))).
  { intros x Hx Hfa. eapply post_bind; [apply (wr_fcattr_ok E x w Hx Hi)|]. cbn beta. intros b w1 Hl1 Hi1 HF.
    apply post_ret; auto. split; [cbn; lia|]. intros Hf Hb W Hag Hh. exists [x], [b]. cbn [fst snd concat]. rewrite app_nil_r.
    repeat split; auto. }
  destruct a as [l|l|vs|r]; cbn [wr_kattr wf_kattr_in] in *.
  - apply H1; [auto|reflexivity].
  - apply H1; [auto|reflexivity].
  - destruct Ha as (Hne & Hlen & Hvs). destruct (lv_rows_ok E vs Hvs) as (ds & gs & -> & Hds & Hgs & Hld & Hlg & HN & HR). cbn [bind].
    specialize (HN Hne). destruct ds as [|d ds], gs as [|g gs].
    + destruct HN; congruence.
    + apply H1; [cbn [wf_fcattr]; split; auto; lia|]. intros W Hag. destruct (HR W Hag). exists [], (g :: gs). auto.
    + apply H1; [cbn [wf_fcattr]; split; auto; lia|]. intros W Hag. destruct (HR W Hag). exists (d :: ds), []. auto.
    + set (dd := d :: ds) in *. set (gg := g :: gs) in *.
      eapply post_bind; [apply (wr_fcattr_ok E (CaLocals dd) w); [cbn [wf_fcattr]; split; auto; lia|auto]|].
      cbn beta. intros b w1 Hl1 Hi1 HF1.
      eapply post_bind; [apply (wr_fcattr_ok E (CaLocalTypes gg) w1); [cbn [wf_fcattr]; split; auto; lia|auto]|].
      cbn beta. intros c w2 Hl2 Hi2 HF2. apply post_ret; auto. split; [cbn; lia|].
      pose proof (later_le _ _ _ _ Hl2 HF1) as HF1'. intros Hf Hb W Hag Hh. exists [CaLocals dd; CaLocalTypes gg], [b; c].
      cbn [fst snd concat]. rewrite app_nil_r. repeat split; auto.
      destruct (HR W Hag). exists dd, gg. auto.
  - apply H1; [auto|reflexivity].
Qed.
Lemma wr_kattrs_ok E l : forall extra w, Forall (wf_kattr_in E) l -> w_inv w -> 0 <= extra -> extra + len l < 65536 ->
  post E w (fun bx w' => extra <= snd bx <= extra + len l /\
    later E w' (fun W => exists fas bss, Forall2 (file_attrs W) l fas /\ Forall2 (fmt_fcattr W) (concat fas) bss /\
      fst bx = concat bss /\ len (concat fas) = len l + snd bx - extra)) (wr_kattrs E l extra w).
Proof.
  induction l as [|a l IH]; intros extra w Hl Hi He Hle; cbn [wr_kattrs].
  - apply post_ret; auto. unfold len in *; cbn in *. split; [lia|]. intros _ _ W _ _. exists [], []. cbn. repeat split; auto. lia.
  - inversion Hl as [|? ? Ha Hl']; subst. rewrite len_cons in *. pose proof (len_nonneg l).
    refine (post_bind E w _ _ _ (fun bx w => let '(b, x) := bx in _) (wr_kattr_ok E a w Ha Hi) _).
    intros [b x] w1 Hl1 Hi1 [Hx HF]. cbn [fst snd] in *.
    unfold chk_u. change (2 ^ 16) with 65536. assert ((0 <=? extra + x) && (extra + x <? 65536) = true) as -> by lia. cbn [bind].
    refine (post_bind E w1 _ _ _ (fun bx w => let '(c, extra) := bx in _) (IH (extra + x) w1 Hl' Hi1 _ _) _); try lia.
    intros [c e] w2 Hl2 Hi2 [Hx2 HF2]. cbn [fst snd] in *. apply post_ret; auto. cbn [fst snd]. split; [lia|].
    pose proof (later_le _ _ _ _ Hl2 HF) as HF'. intros Hf Hb W Hag Hh.
    destruct (HF' Hf Hb W Hag Hh) as (fs & bss & H1 & H2 & H3 & H4). destruct (HF2 Hf Hb W Hag Hh) as (fas & bss2 & K1 & K2 & K3 & K4).
    exists (fs :: fas), (bss ++ bss2). cbn [concat]. rewrite concat_app, len_app. repeat split; auto.
    + apply Forall2_app; auto.
    + congruence.
    + lia.
Qed.

(** * Labels and handlers *)
Lemma place_in l is n : place l is = Some n -> In l (labels_in is).
Proof.
  revert n. induction is as [|i is IH]; cbn [place labels_in flat_map]; intros n H; [discriminate|]. apply in_or_app.
  destruct (match i with ILabel l' => l' =? l | _ => false end) eqn:E.
  - left. destruct i; try discriminate. cbn. left. lia.
  - right. destruct (place l is) eqn:Ep; [eauto|discriminate].
Qed.
Lemma place_nonneg l is n : place l is = Some n -> 0 <= n.
Proof.
  revert n. induction is as [|i is IH]; cbn [place]; intros n H; [discriminate|].
  destruct (match i with ILabel l' => l' =? l | _ => false end); [injection H; lia|].
  destruct (place l is) as [m|]; [|discriminate]. specialize (IH m eq_refl). cbn in H. destruct (realb i); injection H; lia.
Qed.
Section Order.
Context (sz : Z -> insn -> Z).
Hypothesis sz_bound : forall p j, jumpb j = true -> 0 <= sz p j <= most_bytes j.
Lemma posof_ge l is : forall bss pos p, posof sz l is bss pos = Some p -> pos <= p.
Proof.
  induction is as [|i is IH]; intros [|b bss] pos p H; cbn [posof] in *; try discriminate.
  destruct (is_label l i); [injection H; lia|]. apply IH in H. destruct (jumpb i) eqn:E.
  - specialize (sz_bound pos i E). lia.
  - pose proof (len_nonneg b). lia.
Qed.
Lemma posof_zero l is : forall bss pos p, Forall2 shape is bss -> place l is = Some 0 -> posof sz l is bss pos = Some p -> p = pos.
Proof.
  induction is as [|i is IH]; intros bss pos p Hs Hp H; [discriminate|].
  inversion Hs as [|? b ? bss' [_ [Hr _]] Hs']; subst. cbn [posof place] in *. fold (is_label l i) in Hp.
  destruct (is_label l i); [injection H; lia|]. destruct (place l is) as [m|] eqn:Em; [|discriminate]. cbn in Hp.
  pose proof (place_nonneg _ _ _ Em). destruct (realb i) eqn:Er; [injection Hp; lia|]. injection Hp as ->.
  destruct (jumpb i) eqn:Ej; [destruct i; discriminate|]. rewrite Hr in H by auto. change (len (@nil Z)) with 0 in H.
  rewrite Z.add_0_r in H. eauto.
Qed.
Lemma posof_mono l l' is : forall bss pos p p' n n', Forall2 shape is bss -> place l is = Some n -> place l' is = Some n' ->
  posof sz l is bss pos = Some p -> posof sz l' is bss pos = Some p' -> n <= n' -> p <= p'.
Proof.
  induction is as [|i is IH]; intros bss pos p p' n n' Hs Hn Hn' Hp Hp' Hle; [discriminate|].
  pose proof Hs as Hs0. inversion Hs as [|? b ? bss' Hsh Hs']; subst.
  pose proof (posof_ge _ _ _ _ _ Hp') as Hge. cbn [posof place] in *. fold (is_label l i) in Hn. fold (is_label l' i) in Hn'.
  destruct (is_label l i) eqn:E1; [injection Hp; lia|].
  destruct (is_label l' i) eqn:E2.
  - injection Hp' as <-. injection Hn' as <-. destruct (place l is) as [m|] eqn:Em; [|discriminate]. cbn in Hn.
    pose proof (place_nonneg _ _ _ Em). destruct i; try discriminate. cbn in Hn. injection Hn as Hn. cbn [jumpb] in *.
    destruct Hsh as [_ [Hb _]]. rewrite Hb in Hp by auto. change (len (@nil Z)) with 0 in Hp.
    rewrite Z.add_0_r in Hp. assert (m = 0) by lia; subst m. subst n. pose proof (posof_zero _ _ _ _ _ Hs' Em Hp). lia.
  - destruct (place l is) as [m|] eqn:Em; [|discriminate]. destruct (place l' is) as [m'|] eqn:Em'; [|discriminate].
    cbn in Hn, Hn'. eapply (IH bss'); eauto. destruct (realb i); injection Hn; injection Hn'; lia.
Qed.
End Order.
Lemma catch_eqb_eq a b : catch_eqb a b = true <-> a = b.
Proof.
  unfold catch_eqb. rewrite !andb_true_iff, !Z.eqb_eq. destruct a as [s e h t], b as [s' e' h' t']; cbn. split.
  - intros [[[-> ->] ->] Ht]. f_equal. destruct t, t'; try discriminate; auto. f_equal. apply (list_eqb_eq Z.eqb Z.eqb_eq). auto.
  - intros [= -> -> -> ->]. repeat split. destruct t'; auto. apply (list_eqb_eq Z.eqb Z.eqb_eq). auto.
Qed.
Lemma position_spec c cs : forall k i, position c cs k = Some i -> k <= i < k + len cs /\ nth_error cs (Z.to_nat (i - k)) = Some c.
Proof.
  induction cs as [|x cs IH]; cbn [position]; intros k i H; [discriminate|]. rewrite len_cons. pose proof (len_nonneg cs).
  destruct (catch_eqb x c) eqn:E.
  - injection H as <-. apply catch_eqb_eq in E. subst. split; [lia|]. rewrite Z.sub_diag. reflexivity.
  - apply IH in H as [H1 H2]. split; [lia|]. replace (Z.to_nat (i - k)) with (S (Z.to_nat (i - (k + 1)))) by lia. auto.
Qed.
Lemma position_some c cs : forall k, existsb (catch_eqb c) cs = true -> exists i, position c cs k = Some i.
Proof.
  induction cs as [|x cs IH]; cbn [position existsb]; intros k H; [discriminate|].
  destruct (catch_eqb x c) eqn:E; [eauto|]. apply orb_true_iff in H as [H|H]; [|auto].
  apply catch_eqb_eq in H. subst. assert (catch_eqb x x = true) by (apply catch_eqb_eq; auto). congruence.
Qed.

(** * The attribute *)
Definition code_L (md : mode) labels ends (l : Z) : option Z := match label16 md labels ends l with Ok o => Some o | _ => None end.
Definition code_K (cs : list catch) (c : catch) : option Z := option_map (fun n => n mod 65536) (position c cs 0).
Lemma later_code E labels ends cs w C : later (code_env E labels ends cs) w C ->
  later E w (fun W => C (in_code W (code_L (we_md E) labels ends) (code_K cs))).
Proof.
  intros H Hf Hb W (Ha1 & _) Hh. apply H; auto. repeat split.
  - intros c. cbn. auto.
  - cbn. intros l o Ho. unfold code_L. rewrite Ho. reflexivity.
  - cbn. intros c o Ho. unfold code_K. congruence.
Qed.
Lemma y_labels_in is bss l x : Forall2 shape is bss -> NoDup (labels_in is) ->
  assoc Z.eqb l (y_labels (y_steps is bss y_new)) = Some x -> In l (labels_in is).
Proof.
  intros Hs Hn H. rewrite (labels_lab is bss Hs Hn) in H. destruct (in_dec Z.eq_dec l (labels_in is)) as [|Hni]; auto.
  rewrite lab_none in H by auto. discriminate.
Qed.
Lemma wr_code_ok : wr_ok wr_code (fun E c => wf_code E c /\ in_range (cd_code c)) (fmt_code_as enc0).
Proof.
  intros E c w [(Hst & Hlo & [Hnd Hin] & Hlc & Hc & Hla & Ha) Hr] Hi. unfold wr_code. set (is := cd_code c) in *.
  refine (post_bind E w _ _ _ (fun y w => _) (write_insns_ok E is y_new w _ Hi) _).
  { eapply Forall_impl; [|exact Hin]. cbn. tauto. }
  intros y w1 Hl1 Hi1 (bss & -> & Hsh & HL).
  assert (Hw : Forall (fun j => wf_switch j /\ incl (targets j) (labels_in is)) is).
  { eapply Forall_impl; [|exact Hin]. cbn. tauto. }
  destruct (in_range_assemble (we_md E) is bss Hsh Hnd Hw Hr) as (xss & -> & HF & Hlen). cbn [bind].
  set (labels := y_labels (y_steps is bss y_new)) in *. set (ends := ends_of dsz is bss) in *.
  set (E' := code_env E labels ends (cd_catches c)).
  assert (H16 : forall l, In l (labels_in is) -> label16 (we_md E) labels ends l = Ok (at_ is bss l) /\ u16 (at_ is bss l)).
  { intros l Hli. destruct (at_ok is bss Hsh Hr l Hli) as [H1 H2]. split; [|unfold u16; lia].
    apply (label16_ok dsz dsz_bound (we_md E) is bss Hsh Hnd l); auto. lia. }
  assert (HWL : forall l, In l (labels_in is) -> wf_label E' l).
  { intros l Hli. destruct (H16 l Hli). exists (at_ is bss l). auto. }
  assert (HWP : forall l, wf_label (place_env E c) l -> wf_label E' l).
  { intros l (o & Ho & _). cbn in Ho. fold is in Ho. destruct (place l is) eqn:Ep; [|discriminate]. apply HWL. eapply place_in; eauto. }
  assert (HLE : forall a b n m, place a is = Some n -> place b is = Some m -> n <= m ->
    exists x y, we_label E' a = Ok x /\ we_label E' b = Ok y /\ 0 <= x <= y /\ y < 65536).
  { intros a b n m Hn Hm Hnm. pose proof (place_in _ _ _ Hn) as Ia. pose proof (place_in _ _ _ Hm) as Ib.
    destruct (H16 a Ia) as [A1 A2]. destruct (H16 b Ib) as [B1 B2]. exists (at_ is bss a), (at_ is bss b).
    destruct (at_ok is bss Hsh Hr a Ia) as [P1 P2]. destruct (at_ok is bss Hsh Hr b Ib) as [Q1 Q2].
    pose proof (posof_mono dsz dsz_bound a b is bss 0 _ _ n m Hsh Hn Hm P1 Q1 Hnm). unfold u16 in *. repeat split; auto; lia. }
  assert (HT : forall t, wf_code_tannot (place_env E c) t -> wf_code_tannot E' t).
  { intros t (H1 & H2). split; auto.
    assert (HLv : forall x, wf_lvt (place_env E c) x -> wf_lvt E' x).
    { intros x (n & m & Hn & Hm & _ & _ & Hnm & Hu). cbn in Hn, Hm. fold is in Hn, Hm.
      destruct (place (lt_start x) is) eqn:Ea; [|discriminate]. destruct (place (lt_end x) is) eqn:Eb; [|discriminate].
      apply ok_inj in Hn, Hm. subst. destruct (HLE _ _ _ _ Ea Eb Hnm) as (u & v & Hu' & Hv' & Huv & Hv65).
      exists u, v. unfold u16 in *. repeat split; auto; lia. }
    destruct (ta_target t); cbn [wf_code_target] in *; auto; try (destruct H1; split; auto; fail).
    - destruct H1 as [? HX]. split; auto. eapply Forall_impl; [exact HLv|exact HX].
    - destruct H1 as [? HX]. split; auto. eapply Forall_impl; [exact HLv|exact HX].
    - destruct H1 as (i & Hi' & _). cbn in Hi'. destruct (existsb (catch_eqb c0) (cd_catches c)) eqn:Ex; [|discriminate].
      destruct (position_some _ _ 0 Ex) as (k & Hk). exists (k mod 65536). cbn. rewrite Hk. split; auto.
      unfold u16. pose proof (Z.mod_pos_bound k 65536). lia. }
  refine (post_bind E w1 _ _ _ (fun hs w => _) (wr_each_ok _ _ _ wr_handler_ok E' (cd_catches c) w1 _ Hi1) _).
  { eapply Forall_impl; [|exact Hc]. intros x (X1 & X2 & X3 & X4). repeat split; auto. }
  cbn beta. intros hs w2 Hl2 Hi2 HH.
  refine (post_bind E w2 _ _ _ (fun bx w => let '(bs, extra) := bx in _) (wr_kattrs_ok E' (cd_attrs c) 0 w2 _ Hi2 _ _) _); try lia.
  { eapply Forall_impl; [|exact Ha]. intros [l|l|vs|r]; cbn [wf_kattr wf_kattr_in]; auto.
    - intros [? HX]. split; auto. eapply Forall_impl; [exact HT|exact HX].
    - intros [? HX]. split; auto. eapply Forall_impl; [exact HT|exact HX].
    - intros (? & ? & HX). split; auto. split; auto. eapply Forall_impl; [|exact HX].
      intros v ((n & m & Hn & Hm & Hnm) & Hv). split; auto. fold is in Hn, Hm. eauto. }
  cbn beta. intros [bs extra] w3 Hl3 Hi3 [Hex HA]. cbn [fst snd] in *.
  unfold wrap_u, chk_u. change (2 ^ 16) with 65536. pose proof (len_nonneg (cd_attrs c)). rewrite Z.mod_small by lia.
  assert ((0 <=? len (cd_attrs c) + extra) && (len (cd_attrs c) + extra <? 65536) = true) as -> by lia. cbn [bind].
  apply post_ret; auto.
  assert (w_le w1 w3) by (eapply w_le_trans; eauto).
  pose proof (later_le _ _ _ _ H0 HL) as HL'. pose proof (later_code _ _ _ _ _ _ (later_le _ _ _ _ Hl3 HH)) as HH'.
  pose proof (later_code _ _ _ _ _ _ HA) as HA'.
  intros Hf Hb W Hag Hh. specialize (HL' Hf Hb W Hag Hh). specialize (HH' Hf Hb W Hag Hh). specialize (HA' Hf Hb W Hag Hh).
  cbn beta in *. set (L := code_L (we_md E) labels ends) in *. set (K := code_K (cd_catches c)) in *.
  destruct HH' as (hss & -> & Hhs). destruct HA' as (fas & bss2 & Hfas & Hfm & -> & Hcount).
  assert (HPL : forall l, In l (labels_in is) -> L l = Some (at_ is bss l)).
  { intros l Hli. unfold L, code_L. destruct (H16 l Hli) as [-> _]. reflexivity. }
  destruct (filled_laid (we_md E) dsz is bss dsz_bound Hsh Hnd (at_ is bss) (in_code W L K)) with (is2 := is) (bss2 := bss) (xss2 := xss) (pos := 0)
    as (ps & Hps); auto; try lia.
  { intros l Hli. destruct (at_ok is bss Hsh Hr l Hli) as [X1 X2]. repeat split; auto; try lia. }
  { eapply forall2_impl; [|exact HL']. intros i b Hib Hj pos. apply Hib; auto. }
  { intros l p Hp. pose proof (in_posof _ _ _ _ _ _ Hp) as Hli. destruct (at_ok is bss Hsh Hr l Hli) as [X1 X2].
    cbn. rewrite HPL by auto. congruence. }
  exists L, K, fas, ps, (concat xss). split; [|exact Hfas]. unfold fmt_code_with. split; [|split; [|split; [|split; [|split; [|split]]]]]; auto.
  - intros l o Ho. unfold L, code_L, label16 in Ho. destruct (assoc Z.eqb l labels) eqn:Ea; [|discriminate]. eapply y_labels_in; eauto.
  - intros x i Hx. unfold K, code_K in Hx. destruct (position x (cd_catches c) 0) as [k|] eqn:Ek; [|discriminate].
    cbn in Hx. injection Hx as <-. apply position_spec in Ek as [Hk1 Hk2]. rewrite Z.mod_small by lia. rewrite Z.sub_0_r in Hk2. split; [lia|auto].
  - lia.
  - exists (u2 (len (cd_catches c)) ++ concat hss), (u2 (len (concat fas)) ++ concat bss2).
    split; [exists hss; auto|]. split; [exists bss2; repeat split; auto; lia|].
    rewrite !be2_u2, be4_u4. rewrite <- !app_assoc. replace (len (concat fas)) with (len (cd_attrs c) + extra) by lia. reflexivity.
Qed.
