(** Properties of code attributes that are written: C52, C53, C54, C57, C58, C59. *)
From Coq Require Import String Permutation Sorted.
From Verif Require Import Base BaseLemmas Wtf8Spec PrimModel PrimProofs TypeModel TypeSpec CpModel CpSpec CpProofs CpProps FileSpec
  SigModel SigSpec AnnModel AnnSpec AttrModel AttrSpec AttrProofs AttrProps FrameModel FrameSpec FrameProofs
  InsnModel InsnSpec InsnProofs InsnProps CodeModel CodeSpec CodeProofs CodeWrite CodeRead.

(** * Offsets *)

(** [ps] are the offsets of the instructions, [n] is the end of the code: the
    offset of label [l] is that of the instruction behind it. *)
Definition label_offset (is : list insn) (ps : list Z) (n : Z) (l o : Z) : Prop :=
  exists k, place l is = Some k /\ nth_error (ps ++ [n]) (Z.to_nat k) = Some o.
Definition bytes_at (body : list Z) (pos : Z) (b : list Z) : Prop :=
  exists x y, body = x ++ b ++ y /\ len x = pos.
(** The operands of a jump at [pos] with the bytes [b]. *)
Definition jumps_to (at_ : Z -> Z -> Prop) (pos : Z) (i : insn) (b : list Z) : Prop :=
  match i with
  | IJump c l =>
      exists o, at_ l o /\
        ((-32768 <= o - pos < 32768 /\ b = jcond_num c :: u2 (o - pos)) \/ (c = JcAlways /\ b = 200 :: u4 (o - pos)))
  | IJsr l =>
      exists o, at_ l o /\ ((-32768 <= o - pos < 32768 /\ b = 168 :: u2 (o - pos)) \/ b = 201 :: u4 (o - pos))
  | ITableSwitch d low ls =>
      exists o os, at_ d o /\ Forall2 at_ ls os /\
        b = 170 :: repeat 0 (Z.to_nat ((- (pos + 1)) mod 4)) ++ u4 (o - pos) ++ u4 low ++ u4 (low + len ls - 1) ++
            concat (map (fun o => u4 (o - pos)) os)
  | ILookupSwitch d t =>
      exists o t' os, at_ d o /\ Permutation t t' /\ StronglySorted Z.lt (map fst t') /\
        Forall2 (fun e o => at_ (snd e) o) t' os /\
        b = 171 :: repeat 0 (Z.to_nat ((- (pos + 1)) mod 4)) ++ u4 (o - pos) ++ u4 (len t) ++
            concat (map (fun eo => u4 (fst (fst eo)) ++ u4 (snd eo - pos)) (combine t' os))
  | _ => True
  end.
Lemma pos2idx_nth ps : forall k o n, pos2idx ps k o = Some (k + n) -> 0 <= n -> nth_error ps (Z.to_nat n) = Some o.
Proof.
  induction ps as [|q ps IH]; cbn [pos2idx]; intros k o n H Hn; [discriminate|]. destruct (Z.eqb_spec q o).
  - injection H as H. assert (n = 0) by lia. subst. reflexivity.
  - assert (0 < n). { pose proof (pos2idx_range _ _ _ _ H). lia. }
    specialize (IH (k + 1) o (n - 1)). replace (Z.to_nat n) with (S (Z.to_nat (n - 1))) by lia. apply IH; [|lia].
    rewrite H. f_equal. lia.
Qed.
Lemma laid0_laid W is pos ps bs : laid enc0 W pos is ps bs -> laid enc W pos is ps bs.
Proof. apply laid_mono. intros ? ? ? [? _]. auto. Qed.
Lemma laid_split W is : forall pos ps bs a i b, laid enc0 W pos is ps bs -> strip is = a ++ i :: b ->
  exists x c y, bs = x ++ c ++ y /\ nth_error ps (length a) = Some (pos + len x) /\ enc0 (pos + len x) W i c /\
    nth_error (ps ++ [pos + len bs]) (S (length a)) = Some (pos + len x + len c).
Proof.
  induction is as [|j is IH]; intros pos ps bs a i b H Hs; cbn [strip filter laid] in *; [destruct a; discriminate|].
  destruct H as (_ & c & rest & -> & Hc & H). destruct (realb j) eqn:Er.
  - destruct H as (ps' & -> & H). destruct a as [|a0 a]; cbn [app] in Hs.
    + injection Hs as -> _. exists [], c, rest. change (len (@nil Z)) with 0. rewrite Z.add_0_r. cbn [length nth_error app]. split; auto. split; auto. split; auto.
      destruct (laid_head _ _ _ _ _ (laid0_laid _ _ _ _ _ H)) as (t & Ht). rewrite len_app, Z.add_assoc, Ht. reflexivity.
    + injection Hs as -> Hs. destruct (IH _ _ _ _ _ _ H Hs) as (x & c' & y & -> & H1 & H2 & H3). exists (c ++ x), c', y.
      rewrite <- !app_assoc. split; auto. cbn [length nth_error app]. rewrite !len_app in *. rewrite Z.add_assoc. split; auto. split; auto.
      rewrite Z.add_assoc. exact H3.
  - assert (c = []) as -> by (destruct Hc as [Hc _]; eapply enc_virtual; eauto). change (len (@nil Z)) with 0 in H. rewrite Z.add_0_r in H. cbn [app].
    apply (IH _ _ _ _ _ _ H Hs).
Qed.
Lemma laid_offset W is ps body l o : laid enc W 0 is ps body -> NoDup (labels_in is) ->
  (forall l o, W_label W l = Some o -> In l (labels_in is)) -> W_label W l = Some o -> label_offset is ps (len body) l o.
Proof.
  intros H Hn HL Ho. destruct (place_some l is (HL l o Ho)) as (k & Hk).
  destruct (laid_place W l is 0 ps body k 0 H Hn Hk) as (o' & Ho' & Hi). assert (o' = o) by congruence. subst.
  exists k. split; auto. apply (pos2idx_nth _ 0 o k Hi). eapply place_nonneg; eauto.
Qed.
Lemma pad_unique pos (pad : list Z) : 0 <= len pad <= 3 -> (pos + 1 + len pad) mod 4 = 0 -> len pad = (- (pos + 1)) mod 4.
Proof. intros. lia. Qed.
Lemma app_same_len {A} (a b c d : list A) : a ++ b = c ++ d -> len a = len c -> a = c /\ b = d.
Proof.
  revert c. induction a as [|x a IH]; intros [|y c] H Hl; rewrite ?len_cons in Hl; try (pose proof (len_nonneg a)); try (pose proof (len_nonneg c)); auto;
    try (change (len (@nil A)) with 0 in Hl; lia).
  cbn in H. injection H as -> H. destruct (IH c H) as [-> ->]; [lia|]. auto.
Qed.
Lemma enc0_jumps W pos i b (at_ : Z -> Z -> Prop) : (forall l o, W_label W l = Some o -> at_ l o) -> enc0 pos W i b -> jumps_to at_ pos i b.
Proof.
  intros HA [He Hp].
  assert (HR : forall l o, rel W pos l o -> exists t, at_ l t /\ o = t - pos).
  { intros l o (t & Ht & _ & ->). eauto. }
  assert (H4 : forall l d, enc_off4 W pos l d -> exists t, at_ l t /\ d = u4 (t - pos)).
  { intros l d (o & Ho & _ & ->). destruct (HR l o Ho) as (t & Ht & ->). eauto. }
  destruct i; cbn [enc jumps_to] in *; auto.
  - destruct He as (o & Ho & Hb). destruct (HR _ _ Ho) as (t & Ht & ->). exists t. split; auto.
    destruct Hb as [[Hr ->]|(_ & w & Hw & ->)]; [left; auto|right]. destruct c; inversion Hw; subst; auto.
  - destruct He as (o & Ho & Hb). destruct (HR _ _ Ho) as (t & Ht & ->). exists t. split; auto.
    destruct Hb as [[Hr ->]|(_ & w & Hw & ->)]; [left; auto|right]. injection Hw as <-; auto.
  - destruct He as (pad & d & oss & -> & P1 & P2 & _ & _ & _ & Hd & Hos). destruct (H4 _ _ Hd) as (t & Ht & ->).
    assert (exists os, Forall2 at_ ls os /\ oss = map (fun o => u4 (o - pos)) os) as (os & Hos' & ->).
    { clear - Hos H4. induction Hos as [|l b ls bs Hb _ IH]; [exists []; auto|]. destruct IH as (os & IH1 & ->). destruct (H4 _ _ Hb) as (t & Ht & ->).
      exists (t :: os). split; auto. }
    exists t, os. split; auto. split; auto. destruct Hp as (op & rest & Hp). injection Hp as _ Hp.
    apply app_same_len in Hp as [-> _]; [reflexivity|]. rewrite len_repeat by lia. apply pad_unique; auto.
  - destruct He as (pad & d & t' & ess & -> & P1 & P2 & _ & Hperm & Hsort & Hd & Hes). destruct (H4 _ _ Hd) as (td & Ht & ->).
    assert (exists os, Forall2 (fun e o => at_ (snd e) o) t' os /\ ess = map (fun eo => u4 (fst (fst eo)) ++ u4 (snd eo - pos)) (combine t' os)) as (os & Hos' & ->).
    { clear - Hes H4. induction Hes as [|l b ls bs (o & -> & _ & Hb) _ IH]; [exists []; auto|]. destruct IH as (os & IH1 & ->). destruct (H4 _ _ Hb) as (t & Ht & ->).
      exists (t :: os). split; auto. }
    exists td, t', os. split; auto. split; auto. split; auto. split; auto. destruct Hp as (op & rest & Hp). injection Hp as _ Hp.
    apply app_same_len in Hp as [-> _]; [reflexivity|]. rewrite len_repeat by lia. apply pad_unique; auto.
Qed.

(** * C52, C53: what is written *)

(** [c] as the bytes [bs]: the code has the length that is declared and the
    instructions are one behind the other. *)
Definition code_bytes (c : code) (bs : list Z) (ps body rest : list Z) : Prop :=
  bs = u2 (cd_stack c) ++ u2 (cd_locals c) ++ u4 (len body) ++ body ++ rest /\ len body < 4294967296 /\
  length ps = length (strip (cd_code c)) /\
  forall a i b, strip (cd_code c) = a ++ i :: b ->
    exists pos bi, nth_error (ps ++ [len body]) (length a) = Some pos /\ bytes_at body pos bi /\
      nth_error (ps ++ [len body]) (S (length a)) = Some (pos + len bi).
Lemma code_written E c bs p tbl : wf_code E c -> in_range (cd_code c) -> in_file wr_code E c bs p tbl ->
  exists L K fas ps body rest, fmt_code_with enc0 (world_of E p tbl) c L K (concat fas) ps body bs /\
    Forall2 (file_attrs (in_code (world_of E p tbl) L K)) (cd_attrs c) fas /\ code_bytes c bs ps body rest /\
    (forall l o, L l = Some o -> label_offset (cd_code c) ps (len body) l o) /\
    forall a i b, strip (cd_code c) = a ++ i :: b ->
      exists pos bi, nth_error (ps ++ [len body]) (length a) = Some pos /\ bytes_at body pos bi /\
        nth_error (ps ++ [len body]) (S (length a)) = Some (pos + len bi) /\
        jumps_to (label_offset (cd_code c) ps (len body)) pos i bi.
Proof.
  intros Hw Hr H. pose proof (wr_ok_file _ _ _ _ _ _ _ _ wr_code_ok (conj Hw Hr) H) as (L & K & fas & ps & body & HF & Hfa).
  pose proof HF as (HL & HK & Hst & Hlo & Hlb & Hlaid & hs & as_ & Hhs & Has & Hbs).
  set (W1 := in_code (world_of E p tbl) L K) in *. pose proof (laid0_laid _ _ _ _ _ Hlaid) as Hlaid'.
  destruct Hw as (_ & _ & [Hnd _] & _).
  assert (HO : forall l o, L l = Some o -> label_offset (cd_code c) ps (len body) l o).
  { intros l o Ho. apply (laid_offset W1); auto. }
  assert (HJ : forall a i b, strip (cd_code c) = a ++ i :: b ->
      exists pos bi, nth_error (ps ++ [len body]) (length a) = Some pos /\ bytes_at body pos bi /\
        nth_error (ps ++ [len body]) (S (length a)) = Some (pos + len bi) /\
        jumps_to (label_offset (cd_code c) ps (len body)) pos i bi).
  { intros a i b Hs. destruct (laid_split _ _ _ _ _ _ _ _ Hlaid Hs) as (x & y & z & Hbody & H1 & H2 & H3). cbn [Z.add] in *.
    exists (len x), y. split; [rewrite nth_error_app1; auto; apply nth_error_Some; congruence|]. split; [exists x, z; auto|]. split; auto.
    apply (enc0_jumps W1); auto. }
  exists L, K, fas, ps, body, (hs ++ as_). split; auto. split; auto. split.
  { split; auto. split; auto. split; [eapply laid_len; eauto|]. intros a i b Hs. destruct (HJ a i b Hs) as (pos & bi & ? & ? & ? & _). eauto. }
  split; auto.
Qed.
Theorem C52_offsets : forall E c, wf_code E c -> in_range (cd_code c) ->
  writes wr_code E c /\
  forall bs p tbl, in_file wr_code E c bs p tbl -> exists ps body rest, code_bytes c bs ps body rest /\
    forall a i b, strip (cd_code c) = a ++ i :: b ->
      exists pos bi, nth_error (ps ++ [len body]) (length a) = Some pos /\ bytes_at body pos bi /\
        nth_error (ps ++ [len body]) (S (length a)) = Some (pos + len bi) /\
        jumps_to (label_offset (cd_code c) ps (len body)) pos i bi.
Proof.
  intros E c Hw Hr. split; [eapply (wr_ok_writes wr_code); [apply wr_code_ok|split; auto]|].
  intros bs p tbl H. destruct (code_written E c bs p tbl Hw Hr H) as (L & K & fas & ps & body & rest & _ & _ & H1 & _ & H2).
  exists ps, body, rest. auto.
Qed.
(** The whole attribute, the other instructions included. *)
Theorem C52_format : forall E c, wf_code E c -> in_range (cd_code c) ->
  writes wr_code E c /\ forall bs p tbl, in_file wr_code E c bs p tbl -> fmt_code (world_of E p tbl) c bs.
Proof.
  intros E c Hw Hr. split; [eapply (wr_ok_writes wr_code); [apply wr_code_ok|split; auto]|].
  intros bs p tbl H. pose proof (wr_ok_file _ _ _ _ _ _ _ _ wr_code_ok (conj Hw Hr) H) as (L & K & fas & ps & body & HF & Hfa).
  exists L, K, fas, ps, body. split; auto. destruct HF as (HL & HK & Hst & Hlo & Hlb & Hlaid & hs & as_ & Hhs & Has & Hbs).
  split; [exact HL|]. split; [exact HK|]. split; [exact Hst|]. split; [exact Hlo|]. split; [exact Hlb|]. split; [apply laid0_laid; auto|]. exists hs, as_. auto.
Qed.
(** Code that cannot be longer than 32764 bytes is in range. *)
Lemma room_nn is : 0 <= room is.
Proof.
  induction is as [|i is IH]; cbn [room]; [lia|]. enough (0 <= most_bytes i) by lia.
  destruct i; cbn [most_bytes]; try (match goal with |- context [len ?t] => pose proof (len_nonneg t) end; lia); try lia. destruct c; lia.
Qed.
Lemma in_range_small is : room is <= 32764 -> Forall (fun i => incl (targets i) (labels_in is)) is -> in_range is.
Proof.
  intros Hr Ht. split; [lia|]. intros a j b l -> Hs Hl. rewrite Forall_forall in Ht.
  assert (Hj : In j (a ++ j :: b)) by (apply in_or_app; right; left; auto). specialize (Ht j Hj l Hl).
  rewrite room_app in Hr. cbn [room] in Hr. rewrite labels_app in Ht. apply in_app_or in Ht.
  assert (HS : forall x, In l (labels_in x) -> exists x1 x2, x = x1 ++ ILabel l :: x2).
  { clear. intros x Hx. unfold labels_in in Hx. apply in_flat_map in Hx as (i & Hi & Hl). destruct i; try destruct Hl as []; subst.
    apply in_split; auto. contradiction. }
  assert (3 <= most_bytes j) by (destruct j as [| | | | | | | | | | |[]| | | | | | | | | | | | | | | | | | | | | | | | | | | | | ]; cbn in *; try contradiction; lia).
  destruct Ht as [Ht|Ht].
  - right. destruct (HS _ Ht) as (a1 & a2 & ->). exists a1, a2. split; auto. rewrite room_app in Hr. cbn [room most_bytes] in Hr.
    pose proof (room_nn a1); pose proof (room_nn b). lia.
  - left. assert (Ht' : In l (labels_in b)) by (destruct j; try contradiction; exact Ht).
    destruct (HS _ Ht') as (b1 & b2 & ->). exists b1, b2. split; auto. rewrite room_app in Hr. cbn [room most_bytes] in Hr.
    pose proof (room_nn b2); pose proof (room_nn a). lia.
Qed.

Definition ex_catch : catch := {| c_start := 7; c_end := 9; c_handler := 9; c_type := Some [69] |}.
Definition ex_var : localvar := {| v_start := 7; v_end := 4; v_name := [120]; v_desc := Some TInt; v_sig := None; v_index := 1 |}.
Definition ex_code : code := {|
  cd_stack := 2; cd_locals := 3;
  cd_code := [ILabel 7; IPush (Stat (KI32 300)); IJump JcIntegerEqualsZero 9; ILookupSwitch 9 [(5, 7); (-1, 9)];
              ITableSwitch 7 3 [9; 7]; ILineNumber 12; ILabel 9; IThrow; ILabel 4];
  cd_catches := [ex_catch];
  cd_attrs := [KLocals [ex_var];
    KVisible [{| ta_target := KtCatch ex_catch; ta_path := []; ta_type := TRef [65]; ta_vals := [] |}];
    KRaw {| ra_name := str "Foo"; ra_body := [1; 2] |}] |}.
Definition ex_code_bytes : list Z :=
  [0;2; 0;3; 0;0;0;57; 17;1;44; 153;0;53;
   171; 0; 0;0;0;50; 0;0;0;2; 255;255;255;255; 0;0;0;50; 0;0;0;5; 255;255;255;250;
   170; 0;0;0; 255;255;255;224; 0;0;0;3; 0;0;0;4; 0;0;0;24; 255;255;255;224; 191;
   0;1; 0;0; 0;56; 0;56; 0;2;
   0;3; 0;3; 0;0;0;12; 0;1; 0;0; 0;57; 0;4; 0;5; 0;1;
        0;6; 0;0;0;10; 0;1; 66; 0;0; 0; 0;7; 0;0;
        0;8; 0;0;0;2; 1;2].
Lemma ex_code_wf : wf_code ex_ienv ex_code /\ in_range (cd_code ex_code) /\ code_readable ex_code.
Proof.
  assert (HT : Forall (fun i => incl (targets i) (labels_in (cd_code ex_code))) (cd_code ex_code)).
  { unfold ex_code. cbn [cd_code]. repeat (apply Forall_cons || apply Forall_nil); intros l Hl; cbn in *; intuition (subst; auto). }
  split; [|split; [apply in_range_small; [cbn; lia|exact HT]|split; repeat constructor; cbn; try discriminate; intros; auto]].
  split; [cbn; unfold u16; lia|]. split; [cbn; unfold u16; lia|]. split.
  { split; [repeat constructor; cbn; intuition lia|]. rewrite Forall_forall in HT. apply Forall_forall. intros i Hi. specialize (HT i Hi).
    assert (wf_insn (we_heap ex_ienv) i /\ sound i /\ wf_switch i); [|intuition auto].
    cbn in Hi. repeat destruct Hi as [<-|Hi]; try destruct Hi; cbn; unfold i32; try (repeat split; auto; try lia; repeat constructor; cbn; intuition lia). }
  split; [cbn; lia|]. split.
  { apply Forall_cons; [|apply Forall_nil]. split; [cbn; auto|]. split; [cbn; auto|]. split; [cbn; auto|]. cbn [c_type ex_catch]. ascii. }
  split; [cbn; lia|]. unfold ex_code. cbn [cd_attrs]. repeat (apply Forall_cons || apply Forall_nil).
  - split; [discriminate|]. split; [cbn; lia|]. apply Forall_cons; [|apply Forall_nil]. split; [exists 0, 5; repeat split; auto; lia|].
    split; [ascii|]. split; [cbn; unfold u16; lia|]. split; [split; [exact I|ascii]|]. split; [exact I|]. left; discriminate.
  - split; [cbn; lia|]. apply Forall_cons; [|apply Forall_nil]. split; [exists 0; split; [reflexivity|unfold u16; lia]|].
    split; [cbn; lia|]. split; [constructor|]. split; [split; [split; [apply wf_name; reflexivity|cbn; lia]|ascii]|]. split; [cbn; lia|]. split; constructor.
  - split; [ascii|]. cbn. intuition discriminate.
Qed.
Example C52_ex : wf_code ex_ienv ex_code /\ in_range (cd_code ex_code) /\
  exists p tbl, in_file wr_code ex_ienv ex_code ex_code_bytes p tbl.
Proof. split; [apply ex_code_wf|]. split; [apply ex_code_wf|]. file_eval. Qed.
Print Assumptions C52_offsets.
Print Assumptions C52_format.

(** * C53 *)
Lemma rows_map pos (t : list (Z * Z)) : forall os, map (fun ko => u4 (fst ko) ++ u4 (snd ko)) (combine (map fst t) (map (fun o => o - pos) os)) =
  map (fun eo : Z * Z * Z => u4 (fst (fst eo)) ++ u4 (snd eo - pos)) (combine t os).
Proof. induction t as [|e t IH]; intros [|o os]; cbn [map combine]; auto. f_equal. apply IH. Qed.
Theorem C53_written_partial : forall E c, wf_code E c -> in_range (cd_code c) ->
  forall bs p tbl, in_file wr_code E c bs p tbl -> exists ps body rest, code_bytes c bs ps body rest /\
  forall a i b, strip (cd_code c) = a ++ i :: b ->
  exists pos, nth_error (ps ++ [len body]) (length a) = Some pos /\
    match i with
    | ITableSwitch _ low ls =>
        exists pad d os, 0 <= pad <= 3 /\ (pos + 1 + pad) mod 4 = 0 /\ length os = length ls /\
          bytes_at body pos (170 :: repeat 0 (Z.to_nat pad) ++ u4 d ++ u4 low ++ u4 (low + len ls - 1) ++ concat (map u4 os))
    | ILookupSwitch _ t =>
        exists pad d t' os, 0 <= pad <= 3 /\ (pos + 1 + pad) mod 4 = 0 /\
          Permutation t t' /\ StronglySorted Z.lt (map fst t') /\ length os = length t' /\
          bytes_at body pos (171 :: repeat 0 (Z.to_nat pad) ++ u4 d ++ u4 (len t) ++
            concat (map (fun ko => u4 (fst ko) ++ u4 (snd ko)) (combine (map fst t') os)))
    | _ => True
    end.
Proof.
  intros E c Hw Hr bs p tbl H. destruct (code_written E c bs p tbl Hw Hr H) as (L & K & fas & ps & body & rest & _ & _ & H1 & _ & H2).
  exists ps, body, rest. split; auto. intros a i b Hs. destruct (H2 a i b Hs) as (pos & bi & P1 & P2 & _ & P4). exists pos. split; auto.
  destruct i; auto.
  - destruct P4 as (o & os & _ & Hos & ->). exists ((- (pos + 1)) mod 4), (o - pos), (map (fun o => o - pos) os).
    split; [lia|]. split; [lia|]. split; [rewrite map_length; symmetry; apply (Forall2_len _ _ _ Hos)|]. rewrite map_map. exact P2.
  - destruct P4 as (o & t' & os & _ & Hp & Hsort & Hos & ->). exists ((- (pos + 1)) mod 4), (o - pos), t', (map (fun o => o - pos) os).
    split; [lia|]. split; [lia|]. split; auto. split; auto. split; [rewrite map_length; symmetry; apply (Forall2_len _ _ _ Hos)|].
    rewrite rows_map. exact P2.
Qed.
Example C53_ex : wf_code ex_ienv ex_code /\ in_range (cd_code ex_code) /\
  (exists p tbl, in_file wr_code ex_ienv ex_code ex_code_bytes p tbl) /\
  exists a d t b, strip (cd_code ex_code) = a ++ ILookupSwitch d t :: b /\ ~ StronglySorted Z.lt (map fst t).
Proof.
  split; [apply ex_code_wf|]. split; [apply ex_code_wf|]. split; [file_eval|].
  eexists [_; _], _, _, _. split; [reflexivity|]. intros H. inversion H as [|? ? _ H2]; subst. inversion H2; subst. lia.
Qed.
Print Assumptions C53_written_partial.
(** At any position, whatever the bytes that are skipped are: tableswitch ... *)
Definition any_label (p : pool) : world :=
  {| W_pool := p; W_tbl := []; W_heap := fun _ => None; W_label := Some; W_catch := fun _ => None |}.
Definition at_offset (s : cst) (o l : Z) : Prop := assoc Z.eqb o (k_labels s) = Some l.
Lemma any_off4 p pos o : -2147483648 <= o < 2147483648 -> 0 <= pos + o < 4294967296 -> enc_off4 (any_label p) pos (pos + o) (u4 o).
Proof. intros H1 H2. exists o. split; [|auto]. exists (pos + o). split; [reflexivity|]. split; auto. lia. Qed.
Lemma len_concat_map4 {A} (f : A -> list Z) l : (forall a, len (f a) = 4) -> len (concat (map f l)) = 4 * len l.
Proof. intros Hf. induction l as [|a l IH]; cbn [map concat]; [reflexivity|]. rewrite len_app, len_cons, Hf, IH. lia. Qed.
Lemma len_concat_map8 {A} (f : A -> list Z) l : (forall a, len (f a) = 8) -> len (concat (map f l)) = 8 * len l.
Proof. intros Hf. induction l as [|a l IH]; cbn [map concat]; [reflexivity|]. rewrite len_app, len_cons, Hf, IH. lia. Qed.
Lemma sorted_keys_unique (a b : list (Z * Z)) : Permutation a b -> StronglySorted Z.lt (map fst a) -> StronglySorted Z.lt (map fst b) -> b = a.
Proof.
  revert b. induction a as [|x a IH]; intros b Hp Ha Hb.
  - apply Permutation_nil in Hp. auto.
  - destruct b as [|y b]; [apply Permutation_sym, Permutation_nil in Hp; discriminate|]. cbn [map] in *.
    inversion Ha as [|? ? Ha1 Ha2]; subst. inversion Hb as [|? ? Hb1 Hb2]; subst. rewrite Forall_forall in Ha2, Hb2.
    assert (y = x).
    { assert (Hx : In x (y :: b)) by (eapply Permutation_in; [exact Hp|left; auto]). assert (Hy : In y (x :: a)) by (eapply Permutation_in; [apply Permutation_sym; exact Hp|left; auto]).
      destruct Hx as [Hx|Hx]; auto. destruct Hy as [Hy|Hy]; auto. pose proof (Ha2 _ (in_map fst _ _ Hy)). pose proof (Hb2 _ (in_map fst _ _ Hx)). lia. }
    subst. f_equal. apply IH; auto. eapply Permutation_cons_inv; eauto.
Qed.
Theorem C53_reads_table : forall md p pos pad d low os s rest, 0 <= pos -> len pad = (- (pos + 1)) mod 4 ->
  -2147483648 <= low -> 1 <= len os -> low + len os - 1 < 2147483648 ->
  Forall (fun o => -2147483648 <= o < 2147483648 /\ 0 <= pos + o < 4294967296) (d :: os) ->
  cst_ok s -> rst_ok (k_refs s) -> 0 <= r_next (k_refs s) -> 16 + 4 * len os < 4294967296 ->
  exists d' ls s', rd_insn_at md p pos s
      ((170 :: pad ++ u4 d ++ u4 low ++ u4 (low + len os - 1) ++ concat (map u4 os)) ++ rest) =
      Ok ((ITableSwitch d' low ls, s'), rest) /\
    at_offset s' (pos + d) d' /\ Forall2 (at_offset s') (map (fun o => pos + o) os) ls /\ cst_ext s s' /\ cst_ok s'.
Proof.
  intros md p pos pad d low os s rest Hpos Hpad Hlow Hn Hhigh Hos Hs Hr Hr0 Hlen. inversion Hos as [|? ? Hd Hos']; subst.
  assert (Henc : enc pos (any_label p) (ITableSwitch (pos + d) low (map (fun o => pos + o) os))
    (170 :: pad ++ u4 d ++ u4 low ++ u4 (low + len os - 1) ++ concat (map u4 os))).
  { exists pad, (u4 d), (map u4 os). rewrite len_map. split; auto. split; [lia|]. split; [lia|]. split; [lia|]. split; auto. split; auto.
    split; [apply any_off4; apply Hd|]. clear - Hos'. induction Hos'; constructor; auto. apply any_off4; apply H. }
  assert (Hl : len (170 :: pad ++ u4 d ++ u4 low ++ u4 (low + len os - 1) ++ concat (map u4 os)) < 4294967296).
  { rewrite len_cons, !len_app, len_concat_map4 by reflexivity. change (len (u4 d)) with 4. change (len (u4 low)) with 4.
    change (len (u4 (low + len os - 1))) with 4. lia. }
  destruct (C48_foreign md (any_label p) (fun _ => None) pos (ITableSwitch (pos + d) low (map (fun o => pos + o) os)) _ s rest I I Henc Hl Hs Hr Hr0) as (i' & s' & H1 & H2 & _ & H4 & H5); [cbn; lia|].
  destruct i'; cbn [insn_sim] in H5; try contradiction. destruct H5 as ((o & Ho & Ha) & -> & Hls). injection Ho as <-.
  exists dflt, ls, s'. split; auto. split; auto. split; auto. eapply forall2_impl; [|exact Hls]. intros a b (o & Ho & Hb). injection Ho as <-. exact Hb.
Qed.
(** ... and lookupswitch. *)
Theorem C53_reads_lookup : forall md p pos pad d es s rest, 0 <= pos -> len pad = (- (pos + 1)) mod 4 ->
  StronglySorted Z.lt (map fst es) -> Forall i32 (map fst es) -> 12 + 8 * len es < 2147483648 ->
  Forall (fun o => -2147483648 <= o < 2147483648 /\ 0 <= pos + o < 4294967296) (d :: map snd es) ->
  cst_ok s -> rst_ok (k_refs s) -> 0 <= r_next (k_refs s) ->
  exists d' t s', rd_insn_at md p pos s
      ((171 :: pad ++ u4 d ++ u4 (len es) ++ concat (map (fun e => u4 (fst e) ++ u4 (snd e)) es)) ++ rest) =
      Ok ((ILookupSwitch d' t, s'), rest) /\
    at_offset s' (pos + d) d' /\
    Forall2 (fun e e' => fst e' = fst e /\ at_offset s' (pos + snd e) (snd e')) es t /\ cst_ext s s' /\ cst_ok s'.
Proof.
  intros md p pos pad d es s rest Hpos Hpad Hsort Hk Hn Hos Hs Hr Hr0. inversion Hos as [|? ? Hd Hos']; subst.
  set (f := fun e : Z * Z => (fst e, pos + snd e)).
  assert (Hfst : map fst (map f es) = map fst es) by (rewrite map_map; reflexivity).
  assert (Henc : enc pos (any_label p) (ILookupSwitch (pos + d) (map f es))
    (171 :: pad ++ u4 d ++ u4 (len es) ++ concat (map (fun e => u4 (fst e) ++ u4 (snd e)) es))).
  { exists pad, (u4 d), (map f es), (map (fun e => u4 (fst e) ++ u4 (snd e)) es). rewrite len_map, Hfst. split; auto. split; [lia|]. split; [lia|].
    split; [lia|]. split; auto. split; auto. split; [apply any_off4; apply Hd|]. clear - Hos' Hk.
    induction es as [|e es IH]; cbn [map] in *; constructor; inversion Hos'; subst; inversion Hk; subst; auto.
    exists (u4 (snd e)). split; [reflexivity|]. split; [cbn; unfold i32 in *; lia|]. cbn [snd f]. apply any_off4; apply H1. }
  assert (Hl : len (171 :: pad ++ u4 d ++ u4 (len es) ++ concat (map (fun e => u4 (fst e) ++ u4 (snd e)) es)) < 4294967296).
  { rewrite len_cons, !len_app, len_concat_map8 by reflexivity. change (len (u4 d)) with 4. change (len (u4 (len es))) with 4. lia. }
  destruct (C48_foreign md (any_label p) (fun _ => None) pos (ILookupSwitch (pos + d) (map f es)) _ s rest I I Henc Hl Hs Hr Hr0) as (i' & s' & H1 & H2 & _ & H4 & H5); [cbn; lia|].
  destruct i'; cbn [insn_sim] in H5; try contradiction. destruct H5 as ((o & Ho & Ha) & t0 & Hp & Hst & Hls). injection Ho as <-.
  exists dflt, t, s'. split; auto. split; auto. split; auto.
  assert (Hf0 : map fst t = map fst t0). { clear - Hls. induction Hls as [|? ? ? ? [HH _]]; cbn; auto. rewrite HH, IHHls. reflexivity. }
  assert (t0 = map f es) as ->.
  { apply (sorted_keys_unique (map f es) t0); auto; [rewrite Hfst; auto|rewrite <- Hf0; auto]. }
  clear - Hls. revert t Hls. induction es as [|e es IH]; cbn [map]; intros t Hls; inversion Hls as [|? ? ? ? [A (o & Ho & Hb)] Hr]; subst; constructor; auto.
  split; auto. injection Ho as <-. exact Hb.
Qed.
Example C53_reads_ex : exists d t s',
  rd_insn_at Debug (fun _ => None) 6 ex_cst ((171 :: [9] ++ u4 50 ++ u4 2 ++ concat (map (fun e => u4 (fst e) ++ u4 (snd e)) [(-1, 50); (5, -6)])) ++ [191]) =
  Ok ((ILookupSwitch d t, s'), [191]) /\ at_offset s' 56 d /\ Forall2 (fun e e' => fst e' = fst e /\ at_offset s' (6 + snd e) (snd e')) [(-1, 50); (5, -6)] t.
Proof.
  destruct (C53_reads_lookup Debug (fun _ => None) 6 [9] 50 [(-1, 50); (5, -6)] ex_cst [191]) as (d & t & s' & H1 & H2 & H3 & _).
  1, 2, 5: cbn; lia. 1, 2, 3: repeat constructor; cbn; unfold i32; lia.
  1, 2, 3: apply ex_cst_ok.
  exists d, t, s'. auto.
Qed.
Print Assumptions C53_reads_table.
Print Assumptions C53_reads_lookup.

(** * C54: far jumps *)
Definition over (j : insn) (n : nat) : code := {|
  cd_stack := 1; cd_locals := 1; cd_code := j :: repeat INoOp n ++ [ILabel 0; IReturn None]; cd_catches := []; cd_attrs := [] |}.
Definition over_bytes (declared : Z) (jump : list Z) (n : nat) : list Z :=
  u2 1 ++ u2 1 ++ u4 declared ++ (jump ++ repeat 0 n ++ [177]) ++ u2 0 ++ u2 0.
Lemma write_nops E n : forall y w, write_insns E (repeat INoOp n ++ [ILabel 0; IReturn None]) y w =
  Ok ({| y_bufs := y_bufs y; y_cur := y_cur y ++ repeat 0 n ++ [177]; y_jumps := y_jumps y;
         y_labels := assoc_set Z.eqb 0 (len (y_bufs y), len (y_cur y) + Z.of_nat n) (y_labels y) |}, w).
Proof.
  induction n as [|n IH]; intros y w; cbn [repeat app write_insns].
  - cbn. rewrite Z.add_0_r. reflexivity.
  - unfold write_insn at 1. change (emit E INoOp w) with (Ok ([0], w)). cbn [bind]. rewrite IH. cbn [y_bufs y_cur y_jumps y_labels].
    rewrite <- app_assoc. cbn [app]. rewrite len_app. change (len [0]) with 1.
    replace (len (y_cur y) + Z.of_nat (S n)) with (len (y_cur y) + 1 + Z.of_nat n) by lia. reflexivity.
Qed.
Definition over_jump (md : mode) (j : insn) (n size : Z) (b : list Z) : Prop :=
  jump_size [(0, (1, n))] [max_size j] 0 j = Ok size /\ emit_jump md [(0, (1, n))] [size] size size j = Ok b.
Lemma wr_over E j n w size b : short j -> over_jump (we_md E) j (Z.of_nat n) size b ->
  wr_code E (over j n) w = Ok (over_bytes (size + Z.of_nat n + 1) b n, w).
Proof.
  intros Hj [H1 H2]. unfold wr_code, over. cbn [cd_code cd_stack cd_locals cd_catches cd_attrs write_insns].
  assert (write_insn E j y_new w = Ok ({| y_bufs := [[]]; y_cur := []; y_jumps := [j]; y_labels := [] |}, w)) as ->
    by (destruct j; try destruct Hj; reflexivity). cbn [bind]. rewrite write_nops. cbn [bind y_bufs y_cur y_jumps y_labels app].
  unfold assemble. cbn [y_bufs y_cur y_jumps y_labels app index_hints actual assoc_set].
  change (len [[]]) with 1. change (len (@nil Z)) with 0. rewrite !Z.add_0_l, Z.add_0_r, H1. cbn [bind map fst emit_jumps actual].
  rewrite !Z.add_0_l, H2. cbn [bind]. rewrite app_nil_r. change (wr_each wr_handler _ [] w) with (@Ok (list Z * wst) ([], w)). cbn [bind wr_kattrs].
  change (chk_u (we_md E) 16 (wrap_u 16 (len (@nil kattr)) + 0)) with (Ok 0). cbn [bind]. f_equal. f_equal.
  unfold over_bytes. rewrite be2_u2, be4_u4. rewrite len_app. change (len [177]) with 1. unfold len at 1. rewrite repeat_length.
  rewrite app_nil_r. replace (size + (Z.of_nat n + 1)) with (size + Z.of_nat n + 1) by lia. reflexivity.
Qed.
Lemma wrap_s_small x : -2147483648 <= x < 2147483648 -> wrap_s 32 x = x.
Proof. intros H. unfold wrap_s. change (2 ^ (32 - 1)) with 2147483648. change (2 ^ 32) with 4294967296. rewrite Z.mod_small by lia. lia. Qed.
Lemma wrap_u_small x : 0 <= x < 4294967296 -> wrap_u 32 x = x.
Proof. intros H. unfold wrap_u. change (2 ^ 32) with 4294967296. rewrite Z.mod_small; lia. Qed.
Lemma resolve_over md n size : 0 <= n -> 0 <= size <= 8 -> n + size < 2147483648 -> resolve md [(0, (1, n))] [size] size size 0 = Ok (n + size).
Proof.
  intros Hn Hs Hr. unfold resolve, find_label. cbn [assoc Z.eqb bind].
  change (buf_start [size] 1) with (Ok size). cbn [bind]. rewrite !wrap_u_small by lia.
  unfold chk_u. change (2 ^ 32) with 4294967296. assert ((0 <=? size + n) && (size + n <? 4294967296) = true) as -> by lia. cbn [bind].
  rewrite (wrap_s_small (size + n)), (wrap_s_small size), wrap_s_small by lia. rewrite chk_s_ok; [f_equal; lia|].
  change (2 ^ (32 - 1)) with 2147483648. lia.
Qed.
Lemma hint_over n h : hint_of [(0, (1, n))] [h] 0 = Ok (h + n).
Proof. reflexivity. Qed.
(** goto and jsr *)
Definition wide_op (j : insn) : Z := match j with IJsr _ => 201 | _ => 200 end.
Definition plain_jump (j : insn) : Prop := j = IJump JcAlways 0 \/ j = IJsr 0.
Lemma over_plain md j n : plain_jump j -> 32765 <= n -> n + 5 < 2147483648 ->
  let size := if n <=? 65530 then 3 else 5 in over_jump md j n size (wide_op j :: u4 (n + size)).
Proof.
  intros Hj Hn Hn2 size. assert (Hs : size = if 5 + n <=? 65535 then 3 else 5) by (unfold size; destruct (n <=? 65530) eqn:A, (5 + n <=? 65535) eqn:B; lia).
  assert (3 <= size <= 5) by (unfold size; destruct (n <=? 65530); lia).
  destruct Hj as [-> | ->]; split.
  - cbn [jump_size]. change (max_size (IJump JcAlways 0)) with 5. rewrite hint_over. cbn [bind]. rewrite Hs. destruct (5 + n <=? 65535); reflexivity.
  - cbn [emit_jump]. rewrite resolve_over by lia. cbn [bind]. unfold fits_i16. assert ((-32768 <=? n + size) && (n + size <=? 32767) = false) as -> by lia.
    rewrite be4_u4. reflexivity.
  - cbn [jump_size]. change (max_size (IJsr 0)) with 5. rewrite hint_over. cbn [bind]. rewrite Hs. destruct (5 + n <=? 65535); reflexivity.
  - cbn [emit_jump]. rewrite resolve_over by lia. cbn [bind]. unfold fits_i16. assert ((-32768 <=? n + size) && (n + size <=? 32767) = false) as -> by lia.
    rewrite be4_u4. reflexivity.
Qed.
Lemma u4_inj x y : 0 <= x < 4294967296 -> 0 <= y < 4294967296 -> u4 x = u4 y -> x = y.
Proof.
  intros Hx Hy H. pose proof (rd_u32_u4 x [] Hx) as H1. pose proof (rd_u32_u4 y [] Hy) as H2. rewrite H, H2 in H1. injection H1. auto.
Qed.
Lemma laid_nops W n : forall pos ps bs, laid enc W pos (repeat INoOp n ++ [ILabel 0; IReturn None]) ps bs ->
  bs = repeat 0 n ++ [177] /\ W_label W 0 = Some (pos + Z.of_nat n).
Proof.
  induction n as [|n IH]; cbn [repeat app]; intros pos ps bs H; cbn [laid realb] in H.
  - destruct H as (HL & b & r & -> & Hb & H). cbn [enc] in Hb. subst b. destruct H as (_ & b & r' & -> & Hb & ps' & _ & _ & ->).
    cbn [enc] in Hb. subst b. split; [reflexivity|]. rewrite HL. f_equal. lia.
  - destruct H as (_ & b & r & -> & Hb & ps' & -> & H). cbn [enc] in Hb. subst b. destruct (IH _ _ _ H) as [-> HL]. split; [reflexivity|].
    rewrite HL. f_equal. change (len [0]) with 1. lia.
Qed.
Lemma nops_laid W n : forall pos, W_label W 0 = Some (pos + Z.of_nat n) ->
  exists ps, laid enc W pos (repeat INoOp n ++ [ILabel 0; IReturn None]) ps (repeat 0 n ++ [177]).
Proof.
  induction n as [|n IH]; cbn [repeat app]; intros pos H.
  - exists [pos]. cbn [laid realb]. split; [rewrite H; f_equal; lia|]. exists [], [177]. split; auto. split; [reflexivity|].
    split; auto. exists [177], []. split; auto. split; [reflexivity|]. exists []. split; [|auto]. change (len (@nil Z)) with 0. f_equal. lia.
  - destruct (IH (pos + 1)) as (ps & HP); [rewrite H; f_equal; lia|]. exists (pos :: ps). cbn [laid realb]. split; auto. exists [0], (repeat 0 n ++ [177]).
    split; auto. split; [reflexivity|]. exists ps. auto.
Qed.
(** Between 32765 and 65530 one-byte instructions: the jump has five bytes, but
    three were counted; so two bytes of the code are outside of it and the jump
    goes to the middle of nowhere, two bytes before its label. *)
Theorem C54_goto_refuted : forall E j n w, plain_jump j -> 32765 <= Z.of_nat n <= 65530 ->
  let bs := over_bytes (Z.of_nat n + 4) (wide_op j :: u4 (Z.of_nat n + 3)) n in
  wr_code E (over j n) w = Ok (bs, w) /\ forall W, ~ fmt_code W (over j n) bs.
Proof.
  intros E j n w Hj Hn bs. split.
  - pose proof (over_plain (we_md E) j (Z.of_nat n) Hj ltac:(lia) ltac:(lia)) as H. cbv zeta in H. assert (Z.of_nat n <=? 65530 = true) as E1 by lia. rewrite E1 in H.
    rewrite (wr_over E j n w _ _ (ltac:(destruct Hj as [-> | ->]; exact I)) H). unfold bs. do 3 f_equal. lia.
  - intros W (L & K & fas & ps & body & (_ & _ & _ & _ & Hlb & HF & hs & as_ & _ & _ & Hbs) & _).
    unfold bs, over_bytes, over in Hbs. cbn [cd_stack cd_locals] in Hbs. apply app_inv_head, app_inv_head in Hbs.
    apply app_same_len in Hbs as [Hbs _]; [|reflexivity]. pose proof (len_nonneg body). apply u4_inj in Hbs; [|lia|lia].
    cbn [cd_code over] in HF. assert (Hreal : realb j = true) by (destruct Hj as [-> | ->]; reflexivity).
    cbn [laid] in HF. rewrite Hreal in HF. destruct HF as (_ & b & r & -> & Hb & ps' & _ & HF).
    destruct (laid_nops _ _ _ _ _ HF) as [-> HL]. rewrite !len_app in Hbs. change (len [177]) with 1 in Hbs.
    assert (Hr : len (repeat 0 n) = Z.of_nat n) by (unfold len; rewrite repeat_length; auto). rewrite Hr in Hbs.
    assert (Hlen : len b = 3) by lia. rewrite Hlen in HL.
    assert (HJ : enc_jump (in_code W L K) 0 (match j with IJsr _ => 168 | _ => 167 end) (Some (wide_op j)) 0 b) by (destruct Hj as [-> | ->]; exact Hb).
    destruct HJ as (o & (t & Ht & _ & ->) & Ho). rewrite HL in Ht. injection Ht as <-. destruct Ho as [[Ho _]|(_ & x & _ & ->)]; [lia|].
    change (len (x :: u4 (0 + 3 + Z.of_nat n - 0))) with 5 in Hlen. lia.
Qed.
Example C54_goto_ex : plain_jump (IJump JcAlways 0) /\ plain_jump (IJsr 0) /\ 32765 <= Z.of_nat (Z.to_nat 40000) <= 65530.
Proof. split; [left; reflexivity|]. split; [right; reflexivity|lia]. Qed.
Print Assumptions C54_goto_refuted.
(** A conditional jump that is too far is written as ten bytes, the first three
    of which are the opposite jump - to itself. *)
Theorem C54_conditional_refuted : forall E c n w, c <> JcAlways -> 32765 <= Z.of_nat n -> Z.of_nat n + 8 < 2147483648 ->
  exists c' declared o, jcond_neg c = Some c' /\
    wr_code E (over (IJump c 0) n) w = Ok (over_bytes declared (jcond_num c' :: [0; 0] ++ [0; 5; 200] ++ u4 o) n, w) /\
    forall md p s rest, cst_ok s -> rst_ok (k_refs s) -> 0 <= r_next (k_refs s) ->
    exists l s', rd_insn_at md p 0 s ((jcond_num c' :: [0; 0]) ++ rest) = Ok ((IJump c' l, s'), rest) /\ at_offset s' 0 l.
Proof.
  intros E c n w Hc Hn Hn2. assert (exists c', jcond_neg c = Some c') as (c' & Hc') by (destruct c; try congruence; cbn; eauto).
  set (size := if 8 + Z.of_nat n <=? 65535 then 3 else 8). assert (3 <= size <= 8) by (unfold size; destruct (8 + Z.of_nat n <=? 65535); lia).
  exists c', (size + Z.of_nat n + 1), (Z.of_nat n + size). split; auto. split.
  - apply wr_over; [exact I|]. assert (Hm : max_size (IJump c 0) = 8) by (destruct c; congruence || reflexivity). split.
    + assert (jump_size [(0, (1, Z.of_nat n))] [max_size (IJump c 0)] 0 (IJump c 0) =
        (h <- hint_of [(0, (1, Z.of_nat n))] [max_size (IJump c 0)] 0 ;; Ok (1 + if h <=? 65535 then 2 else 7))) as -> by (destruct c; congruence || reflexivity).
      rewrite Hm, hint_over. cbn [bind]. unfold size. destruct (8 + Z.of_nat n <=? 65535); reflexivity.
    + assert (emit_jump (we_md E) [(0, (1, Z.of_nat n))] [size] size size (IJump c 0) =
        (o <- resolve (we_md E) [(0, (1, Z.of_nat n))] [size] size size 0 ;;
         if fits_i16 o then Ok (be 1 (jcond_op c) ++ be 2 o)
         else match jcond_neg c with Some c' => Ok (be 1 (jcond_op c') ++ be 4 5 ++ be 1 GOTO_W ++ be 4 o) | None => Panic PUnwrap end)) as ->
        by (destruct c; congruence || reflexivity).
      rewrite resolve_over by lia. cbn [bind]. unfold fits_i16. assert ((-32768 <=? Z.of_nat n + size) && (Z.of_nat n + size <=? 32767) = false) as -> by lia.
      rewrite Hc', !be4_u4. destruct c'; reflexivity.
  - intros md p s rest Hs Hr Hr0.
    assert (Henc : enc 0 (any_label p) (IJump c' 0) (jcond_num c' :: u2 0)).
    { exists 0. split; [exists 0; cbn; repeat split; lia|]. left. split; [lia|reflexivity]. }
    destruct (C48_foreign md (any_label p) (fun _ => None) 0 (IJump c' 0) _ s rest I I Henc (eq_refl) Hs Hr Hr0) as (i' & s' & H1 & _ & _ & _ & H5); [cbn; lia|].
    destruct i'; cbn [insn_sim] in H5; try contradiction. destruct H5 as (-> & o & Ho & Ha). injection Ho as <-. exists l, s'. auto.
Qed.
Example C54_conditional_ex : JcIntegerLessThan <> JcAlways /\ 32765 <= Z.of_nat (Z.to_nat 40000) /\ Z.of_nat (Z.to_nat 40000) + 8 < 2147483648.
Proof. split; [discriminate|lia]. Qed.
Print Assumptions C54_conditional_refuted.
(** More than 65530: the jump has the five bytes that were counted. *)
Theorem C54_goto_partial : forall E j n w W, plain_jump j -> 65530 < Z.of_nat n -> Z.of_nat n + 5 < 2147483648 ->
  exists bs, wr_code E (over j n) w = Ok (bs, w) /\ fmt_code W (over j n) bs.
Proof.
  intros E j n w W Hj Hn Hn2. eexists. split.
  - pose proof (over_plain (we_md E) j (Z.of_nat n) Hj ltac:(lia) ltac:(lia)) as H. cbv zeta in H. assert (Z.of_nat n <=? 65530 = false) as E1 by lia. rewrite E1 in H.
    apply (wr_over E j n w _ _ (ltac:(destruct Hj as [-> | ->]; exact I)) H).
  - set (L := fun l : Z => if l =? 0 then Some (5 + Z.of_nat n) else None). set (W1 := in_code W L (fun _ => None)).
    destruct (nops_laid W1 n 5 eq_refl) as (ps & HP).
    assert (Hlab : labels_in (cd_code (over j n)) = [0]).
    { cbn [over cd_code]. change (j :: repeat INoOp n ++ [ILabel 0; IReturn None]) with ([j] ++ repeat INoOp n ++ [ILabel 0; IReturn None]).
      rewrite !labels_app. assert (labels_in [j] = []) as -> by (destruct Hj as [-> | ->]; reflexivity). cbn [app].
      assert (labels_in (repeat INoOp n) = []) as -> by (clear; induction n; auto). reflexivity. }
    exists L, (fun _ => None), [], (0 :: ps), ((wide_op j :: u4 (Z.of_nat n + 5)) ++ repeat 0 n ++ [177]). split; [|constructor].
    assert (Hlen : len ((wide_op j :: u4 (Z.of_nat n + 5)) ++ repeat 0 n ++ [177]) = 5 + Z.of_nat n + 1).
    { rewrite !len_app. change (len (wide_op j :: u4 (Z.of_nat n + 5))) with 5. change (len [177]) with 1. unfold len. rewrite repeat_length. lia. }
    split; [intros l o H; rewrite Hlab; unfold L in H; destruct (Z.eqb_spec l 0); [left; auto|discriminate]|]. split; [discriminate|].
    split; [cbn; unfold u16; lia|]. split; [cbn; unfold u16; lia|]. split; [rewrite Hlen; lia|]. split.
    + cbn [over cd_code laid]. assert (realb j = true) as -> by (destruct Hj as [-> | ->]; reflexivity).
      split; [destruct Hj as [-> | ->]; exact I|]. exists (wide_op j :: u4 (Z.of_nat n + 5)), (repeat 0 n ++ [177]). split; auto. split.
      * assert (HJ : enc_jump W1 0 (match j with IJsr _ => 168 | _ => 167 end) (Some (wide_op j)) 0 (wide_op j :: u4 (Z.of_nat n + 5))).
        { exists (Z.of_nat n + 5). split; [exists (5 + Z.of_nat n); cbn; repeat split; try lia|]. right. split; [lia|]. exists (wide_op j). auto. }
        destruct Hj as [-> | ->]; exact HJ.
      * exists ps. split; auto.
    + exists (u2 0), (u2 0). split; [exists []; split; [cbn; lia|]; split; [reflexivity|constructor]|].
      split; [exists []; split; [cbn; lia|]; split; [reflexivity|constructor]|]. rewrite Hlen. unfold over_bytes. cbn [over cd_stack cd_locals].
      rewrite <- !app_assoc. reflexivity.
Qed.
Example C54_partial_ex : plain_jump (IJsr 0) /\ 65530 < Z.of_nat (Z.to_nat 70000) /\ Z.of_nat (Z.to_nat 70000) + 5 < 2147483648.
Proof. split; [right; reflexivity|lia]. Qed.
Print Assumptions C54_goto_partial.

(** * C57: ranges *)

(** Code in range; otherwise the code itself may be wrong (C54). *)
Theorem C57_ranges_partial : forall E c, wf_code E c -> in_range (cd_code c) ->
  forall bs p tbl, in_file wr_code E c bs p tbl ->
  exists ps body rows fas ats, code_bytes c bs ps body (u2 (len (cd_catches c)) ++ concat rows ++ u2 (len (concat fas)) ++ concat ats) /\
    let at_ := label_offset (cd_code c) ps (len body) in
    Forall2 (fun x row => exists a b h t, at_ (c_start x) a /\ at_ (c_end x) b /\ at_ (c_handler x) h /\
      u16 a /\ u16 b /\ u16 h /\ len t = 2 /\ row = u2 a ++ u2 b ++ u2 h ++ t) (cd_catches c) rows /\
    (exists W1, W_pool W1 = p /\ Forall2 (fmt_fcattr W1) (concat fas) ats) /\
    Forall2 (fun x fs => match x with
      | KLocals vs =>
          let row A (vt : localvar * A) r := at_ (v_start (fst vt)) (lr_start r) /\ at_ (v_end (fst vt)) (lr_start r + lr_len r) /\
            lr_name r = v_name (fst vt) /\ lr_index r = v_index (fst vt) /\ lr_type r = snd vt in
          exists ds gs, Forall2 (row ty) (descs vs) ds /\ Forall2 (row rsig) (sigs vs) gs /\
            fs = (match ds with [] => [] | _ => [CaLocals ds] end) ++ (match gs with [] => [] | _ => [CaLocalTypes gs] end)
      | KVisible l => fs = [CaVisible l]
      | KInvisible l => fs = [CaInvisible l]
      | KRaw r => fs = [CaRaw r]
      end) (cd_attrs c) fas.
Proof.
  intros E c Hw Hr bs p tbl H. destruct (code_written E c bs p tbl Hw Hr H) as (L & K & fas & ps & body & rest & HF & Hfas & HB & HL & _).
  destruct HF as (_ & _ & _ & _ & _ & _ & hs & as_ & (hss & _ & -> & Hhs) & (ass & _ & -> & Has) & Hbs).
  set (W1 := in_code (world_of E p tbl) L K) in *. exists ps, body, hss, fas, ass. split.
  { destruct HB as (B1 & B2). split; [|exact B2]. rewrite Hbs, <- !app_assoc. reflexivity. }
  cbv zeta. split; [|split; [exists W1; auto|]].
  - eapply forall2_impl; [|exact Hhs]. intros x row (a & b & h & t & (oa & A1 & A2 & ->) & (ob & B1 & B2 & ->) & (oh & C1 & C2 & ->) & Ht & ->).
    exists oa, ob, oh, t. do 6 (split; [solve [auto]|]). split; [|reflexivity]. destruct (c_type x); cbn [fmt_opt] in Ht; [destruct Ht as (i & _ & -> & _)|subst t]; reflexivity.
  - eapply forall2_impl; [|exact Hfas]. intros x fs Hx. destruct x; auto. destruct Hx as (ds & gs & Hd & Hg & ->). exists ds, gs.
    split; [|split; [|reflexivity]]; (eapply forall2_impl; [|eassumption]); intros vt r (R1 & R2 & _ & _ & _ & R3 & R4 & R5); auto.
Qed.
Example C57_ex : wf_code ex_ienv ex_code /\ in_range (cd_code ex_code) /\ cd_catches ex_code <> [] /\
  exists p tbl, in_file wr_code ex_ienv ex_code ex_code_bytes p tbl.
Proof. split; [apply ex_code_wf|]. split; [apply ex_code_wf|]. split; [discriminate|file_eval]. Qed.
Print Assumptions C57_ranges_partial.

(** * C58: round trip *)

(** Any correct code attribute is read; in [s'] are the references of the
    dynamic constants, [C26] says what becomes of them. *)
Theorem C58_foreign : forall md E W c bs s rest, wf_code E c -> code_readable c -> fmt_code W c bs -> len bs < 4294967296 ->
  rst_ok s -> 0 <= r_next s -> len (W_tbl W) <= 65536 ->
  exists c' s', rd_code md (W_pool W) s (bs ++ rest) = Ok ((c', s'), rest) /\
    rst_ok s' /\ (exists x, r_refs s' = r_refs s ++ x) /\ code_rel (dyn_read W s') c c'.
Proof.
  intros md E W c bs s rest Hw Hr HF Hs I1 I2 I3.
  destruct (rd_code_ok false md E W s c bs rest (conj I1 (conj I2 (conj I3 (open_refs W s)))) (conj Hw Hr) HF Hs) as (c' & s' & H1 & H2 & (H3 & _) & H4).
  exists c', s'. auto.
Qed.
Theorem C58_roundtrip_partial : forall E c, wf_code E c -> in_range (cd_code c) -> code_readable c ->
  writes wr_code E c /\
  forall bs p tbl, in_file wr_code E c bs p tbl -> len bs < 4294967296 ->
  forall md s rest, rst_ok s -> 0 <= r_next s ->
  exists c' s', rd_code md p s (bs ++ rest) = Ok ((c', s'), rest) /\
    rst_ok s' /\ (exists x, r_refs s' = r_refs s ++ x) /\ code_rel (dyn_read (world_of E p tbl) s') c c'.
Proof.
  intros E c Hw Hr Hrd. destruct (C52_format E c Hw Hr) as [HA HB]. split; auto. intros bs p tbl H Hs md s rest I1 I2.
  apply (C58_foreign md E (world_of E p tbl) c bs s rest); auto.
  destruct H as (? & ? & ? & ? & ? & ? & w2 & ? & ? & ? & ? & _ & _ & _ & _ & _ & _ & Hb & _ & _ & _ & ->). exact Hb.
Qed.
Example C58_ex : wf_code ex_ienv ex_code /\ in_range (cd_code ex_code) /\ code_readable ex_code /\
  exists p tbl, in_file wr_code ex_ienv ex_code ex_code_bytes p tbl.
Proof. split; [apply ex_code_wf|]. split; [apply ex_code_wf|]. split; [apply ex_code_wf|file_eval]. Qed.
Print Assumptions C58_foreign.
Print Assumptions C58_roundtrip_partial.

(** * C59: line numbers are not written *)
Definition no_lines (c : code) : code :=
  {| cd_stack := cd_stack c; cd_locals := cd_locals c;
     cd_code := filter (fun i => match i with ILineNumber _ => false | _ => true end) (cd_code c);
     cd_catches := cd_catches c; cd_attrs := cd_attrs c |}.
Lemma write_no_lines E is : forall y w,
  write_insns E (filter (fun i => match i with ILineNumber _ => false | _ => true end) is) y w = write_insns E is y w.
Proof.
  induction is as [|i is IH]; intros y w; [reflexivity|].
  assert (HC : write_insns E (i :: is) y w = ('(y, w) <- write_insn E i y w ;; write_insns E is y w)) by reflexivity. rewrite HC. clear HC.
  destruct i; cbn [filter];
    try (match goal with |- write_insns E (?i :: ?l) y w = _ =>
      change (write_insns E (i :: l) y w) with ('(y, w) <- write_insn E i y w ;; write_insns E l y w) end;
      destruct (write_insn E _ y w) as [[y' w']| |]; cbn [bind]; auto).
  rewrite IH. reflexivity.
Qed.
(** Nothing in the file depends on line numbers. *)
Theorem C59_refuted : forall E c w, wr_code E c w = wr_code E (no_lines c) w.
Proof. intros E c w. unfold wr_code. cbn [no_lines cd_code cd_stack cd_locals cd_catches cd_attrs]. rewrite write_no_lines. reflexivity. Qed.
Example C59_ex : no_lines ex_code <> ex_code /\ wf_code ex_ienv ex_code /\
  exists p tbl, in_file wr_code ex_ienv ex_code ex_code_bytes p tbl.
Proof. split; [discriminate|]. split; [apply ex_code_wf|file_eval]. Qed.
Print Assumptions C59_refuted.
