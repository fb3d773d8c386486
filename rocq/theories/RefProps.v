(** C88: borrowed constant pool entries. *)
From Coq Require Import Lia.
From Verif Require Import Base BaseLemmas Wtf8Spec Wtf8Model MutfModel MutfProofs PrimModel PrimProofs TypeModel TypeSpec TypeProofs CpModel CpSpec CpProofs CpProps RefModel.

(** The entry with the same content that owns its string. *)
Definition owned (e : cref) : raw_entry :=
  match e with
  | FUtf8 s => RWtf8 s | FInt i => RInt i | FFloat b => RFloat b | FLong i => RLong i | FDouble b => RDouble b
  | FClass i => RClass i | FString i => RString i | FField a b => RField a b | FMethod a b => RMethod a b
  | FItfMethod a b => RItfMethod a b | FNameType a b => RNameType a b | FMHandle k m => RMHandle k m | FMType d => RMType d
  | FDynamic b nt => RDynamic b nt | FInvokeDynamic b nt => RInvokeDynamic b nt | FModule n => RModule n | FPackage n => RPackage n
  end.
Definition borrows (e : cref) : bool := match e with FUtf8 _ => true | _ => false end.

(** Strings: whatever the string, what is written begins with tag 0.  These
    bytes are no constant pool entry (JVMS 4.4), neither reader takes them, and
    the entry that owns its string is written differently. *)
Theorem C88_refuted : forall s bs, wr_cref (FUtf8 s) = Ok bs ->
  (forall e, ~ entry_fmt e bs) /\ wr_raw (RWtf8 s) <> Ok bs /\
  (forall rest, rd_raw (bs ++ rest) = Err EInvalid) /\ (forall rest, rd_cref (bs ++ rest) = Err EInvalid).
Proof.
  intros s bs H. unfold wr_cref in H. inv_bind H. injection H as <-. change ((cref_tag (FUtf8 s) / 256 ^ 0) mod 256) with 0.
  split; [|split; [|split]].
  all: try (intros rest; cbn [app]; unfold rd_raw, rd_cref; rewrite tag_read by (unfold u8; lia); reflexivity).
  - intros e He. inversion He.
  - intros Hw. unfold wr_raw in Hw. inv_bind Hw. discriminate Hw.
Qed.
Example C88_refuted_ex : wr_cref (FUtf8 [65; 66]) = Ok [0; 65; 66] /\ wr_raw (RWtf8 [65; 66]) = Ok [1; 0; 2; 65; 66].
Proof. split; reflexivity. Qed.
Print Assumptions C88_refuted.

(** Without the length the end of the string cannot be told either: one entry
    and two entries with the same bytes. *)
Lemma ascii_mutf s : Forall (fun b => 1 <= b <= 127) s -> string_to_modified_utf8 s = Ok s.
Proof.
  intros H. assert (E : flat_map utf8 s = s /\ mutf8_of (flat_map utf16 s) = s /\ Forall is_cp s).
  { induction H as [|b s Hb _ (H1 & H2 & H3)]; [repeat split; constructor|]. unfold mutf8_of in *. cbn [flat_map].
    assert (utf8 b = [b]) as -> by (unfold utf8; destruct (Z.ltb_spec b 0x80); [reflexivity|lia]).
    assert (utf16 b = [b]) as -> by (unfold utf16; destruct (Z.ltb_spec b 0x10000); [reflexivity|lia]). cbn [app flat_map].
    assert (mutf8_unit b = [b]) as -> by (unfold mutf8_unit; destruct (Z.leb_spec 1 b), (Z.leb_spec b 0x7F); [reflexivity|lia..]). cbn [app].
    rewrite H1, H2. repeat split. constructor; [unfold is_cp; lia|exact H3]. }
  destruct E as (H1 & H2 & H3). rewrite <- H1 at 1. rewrite string_to_mutf8_spec, H2 by exact H3. reflexivity.
Qed.
Theorem C88_ambiguous_refuted : forall s i, Forall (fun b => 1 <= b <= 127) s -> Forall (fun b => 1 <= b <= 127) (u4 i) ->
  exists b1 b2, wr_cref (FUtf8 s) = Ok b1 /\ wr_cref (FInt i) = Ok b2 /\ wr_cref (FUtf8 (s ++ 3 :: u4 i)) = Ok (b1 ++ b2).
Proof.
  intros s i Hs Hi. assert (HA : forall s, Forall (fun b => 1 <= b <= 127) s -> wr_cref (FUtf8 s) = Ok (0 :: s)).
  { intros t Ht. unfold wr_cref, wr_strref. rewrite ascii_mutf by exact Ht. reflexivity. }
  exists (0 :: s), (3 :: u4 i). split; [apply HA, Hs|]. split; [unfold wr_cref, wr_n; rewrite be4_u4; reflexivity|]. rewrite HA; [reflexivity|].
  apply Forall_app. split; [exact Hs|]. constructor; [lia|exact Hi].
Qed.
Example C88_ambiguous_ex : Forall (fun b => 1 <= b <= 127) (u4 0x01020304) /\ Forall (fun b => 1 <= b <= 127) [65; 66].
Proof. split; repeat constructor; lia. Qed.
Print Assumptions C88_ambiguous_refuted.

(** All other entries are written like the ones that own their content, and
    read back. *)
Theorem C88_others_partial : forall e, borrows e = false -> entry_wf (owned e) ->
  exists bs, wr_cref e = Ok bs /\ entry_fmt (owned e) bs /\ wr_raw (owned e) = Ok bs /\
  forall rest, rd_cref (bs ++ rest) = Ok (e, rest).
Proof.
  intros e Hs He. destruct (wr_raw_ok _ He) as (bs & Hw & Hf). exists bs. split; [|split; [exact Hf|split; [exact Hw|]]].
  - rewrite <- Hw. destruct e; [discriminate|reflexivity..].
  - intros rest. unfold rd_cref. clear Hw. destruct e; cbn [owned] in *; [discriminate| | | | | | | | | | | | | | | |];
    inversion Hf; subst; cbn [app]; rewrite tag_read by (unfold u8; lia); cbn [bind];
    cbn [entry_wf] in He; rewrite <- ?app_assoc; try match type of He with _ /\ u16 _ => destruct He end;
    (match goal with |- pick ?t cref_tags cref_readers ?l = _ => let r := eval cbv [pick cref_tags derive_tags derive_tags_from cref_readers repeat app Z.eqb Pos.eqb Z.add Pos.add Pos.succ] in (pick t cref_tags cref_readers) in change (pick t cref_tags cref_readers) with r end);
    cbv beta; unfold rd_f1, rd_f2;
    rewrite ?rd_i32_u4, ?rd_f32_u4, ?rd_i64_u8, ?rd_f64_u8, ?rd_u16_u2, ?rd_u8_u1 by auto; cbn [bind];
    rewrite ?rd_u16_u2 by auto; reflexivity.
Qed.
Example C88_others_ex : entry_wf (owned (FMHandle 6 20)) /\ wr_cref (FMHandle 6 20) = Ok [15; 6; 0; 20].
Proof. split; [cbn; unfold u8, u16; lia|reflexivity]. Qed.
Print Assumptions C88_others_partial.
