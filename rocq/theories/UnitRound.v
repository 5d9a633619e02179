(* Facts for C57: the temporal unit parser on what the sequencer writes. *)
From Coq Require Import Permutation.
From Verif Require Import TempUnit Base WriteBuf ReadBuf Leb BufSpec LebSpec BitFacts WriteBufFacts ReadBufFacts LebFacts
  ParseFacts EndToEnd ObuHeader ObuHeaderFacts FrameFacts SeqFacts BndFacts PureFacts SimpleObus CodecConfig Params
  Timing PropsTiming ParamManager PropsPM Processor PropsObu PropsParams ProcFacts StreamSpec StreamFacts Session SessionFacts PropsProc PropsSession DescFacts Sequencer SeqRound.
Local Open Scope Z_scope.

(* ---- the bytes of a written OBU ---- *)
Lemma bits_bytes : forall n l, length l = (8 * n)%nat -> exists o, bytes_bits o = l /\ Forall byteP o.
Proof.
  induction n as [|n IH]; intros l L.
  { destruct l; [|cbn [length] in L; lia]. exists []. split; [reflexivity|constructor]. }
  do 8 (destruct l as [|? l]; [cbn [length] in L; lia|]). destruct (IH l) as (o & Eo & Ho); [cbn [length] in L; lia|].
  match goal with |- exists o, bytes_bits o = ?a :: ?b :: ?c :: ?d :: ?e :: ?f :: ?g :: ?h :: l /\ _ => exists (ofbits [a; b; c; d; e; f; g; h] :: o) end.
  split; [cbn [bytes_bits flat_map]; fold (bytes_bits o); rewrite Eo; destruct b, b0, b1, b2, b3, b4, b5, b6; reflexivity|].
  constructor; [|exact Ho]. destruct b, b0, b1, b2, b3, b4, b5, b6; split; vm_compute; congruence.
Qed.
Lemma written_obu g h payload footer bs : lebgen_wf g -> header_wf h -> Forall winstr_wf payload -> Forall byteP footer ->
  wbits (write_obu g h payload footer) = Ok bs -> exists o, bytes_bits o = bs /\ is_obu o.
Proof.
  intros Hg Hh Hp Hf E. destruct (write_obu_ok g h payload footer bs Hp Hf E) as (pb & hb & Ep & M & Eh & ->).
  destruct (write_header_ok _ _ _ _ Hg Hh Eh) as (te & ts & ls & lb & lo & _ & _ & (_ & Il & Vl & Ll) & Hn & Fb & -> & Hs & _).
  apply Nat.mod_divides in M as [k M]; [|lia]. destruct (bits_bytes k pb M) as (po & <- & Fp).
  assert (length (first_byte h) = 8 * 1)%nat as L1 by (unfold first_byte; rewrite app_length; cbn [length]; rewrite ?bits_of_length; reflexivity).
  destruct (bits_bytes 1 _ L1) as (fb & Ef & Ff). rewrite <- Ef in L1. rewrite bytes_bits_length in L1. destruct fb as [|b0 [|b1 fb]]; cbn [length] in L1; try lia.
  rewrite bytes_bits_length in M. assert (length po = k) as Lk by lia.
  assert (zlen (bytes_bits po) / 8 = zlen po) as Lz by (unfold zlen; rewrite bytes_bits_length, Nat2Z.inj_mul; change (Z.of_nat 8) with 8; rewrite Z.mul_comm, Z.div_mul by lia; reflexivity).
  rewrite Lz in *. exists (b0 :: lo ++ (te ++ ts ++ ls ++ lb) ++ po ++ footer). split.
  { change (b0 :: lo ++ (te ++ ts ++ ls ++ lb) ++ po ++ footer) with ([b0] ++ lo ++ (te ++ ts ++ ls ++ lb) ++ po ++ footer). rewrite (bytes_bits_app [b0]), Ef.
    rewrite (bytes_bits_app lo), (bytes_bits_app (te ++ ts ++ ls ++ lb)), (bytes_bits_app po), <- !app_assoc. reflexivity. }
  exists b0, lo, ((te ++ ts ++ ls ++ lb) ++ po ++ footer). split; [reflexivity|]. split; [inversion Ff; assumption|]. split; [exact Il|].
  assert (zlen ((te ++ ts ++ ls ++ lb) ++ po ++ footer) = zlen (te ++ ts ++ ls ++ lb) + (zlen po + zlen footer)) as Lb by (unfold zlen; rewrite !app_length; lia).
  split; [unfold zlen; lia|]. split; [rewrite Vl, Lb; reflexivity|]. split; [rewrite !Forall_app in *; tauto|].
  rewrite Lb. pose proof (zlen_nonneg lo). lia.
Qed.

(* ---- one OBU ---- *)
Lemma process_written fuel cap D s o h n hl x s1 it : (8 <= fuel)%nat -> (1 <= cap)%nat -> is_obu o ->
  let at_ k := mkC (bytes_bits o) k (Some true) in
  arun read_header (at_ O) = (Ok (h, n), at_ hl) -> Z.of_nat hl + 8 * n = 8 * zlen o -> temporal_unit_type (h_type h) = true ->
  arun (parse_payload D h n) (at_ hl) = (Ok x, at_ (8 * length o)%nat) -> store D s h x = (Ok tt, s1, it) ->
  process_at fuel cap D s 0 o = Ok (mkOut (Ok tt) s1 it true, 8 * zlen o).
Proof.
  intros Hf Hc Ho at_ E1 L T E2 E3. pose proof (obu_bytes _ Ho) as By. pose proof (obu_len _ Ho) as Hl. change (2^21) with 2097152 in Hl.
  unfold process_at. rewrite crun_read_at by (try assumption; unfold zlen; lia). cbn [Z.mul]. change (Z.to_nat (8 * 0)) with 0%nat.
  assert (cok (at_ O)) as K by (unfold cok, at_; cbn [c_pos c_bits]; lia).
  assert (zlen o < 2^32 - 64) as Sm by (change (2^32) with 4294967296; lia).
  change (at_ O) with (at_byte o 0) in E1, K.
  assert (exists q, hl = 8 * q)%nat as [q Eq].
  { exists (Z.to_nat (zlen o - n)). unfold zlen in *. lia. }
  unfold at_ in E1. rewrite Eq in E1. change (mkC (bytes_bits o) (8 * q) (Some true)) with (at_byte o q) in E1.
  destruct (header_facts o Sm 0 h n q ltac:(lia) E1) as (total & r' & F & Hn & Et & Hpq).
  unfold proc_obu. change (mkC (bytes_bits o) 0 (Some true)) with (at_byte o 0). rewrite arun_bind, arun_rcatch, (arun_peek _ K).
  replace (mkC (c_bits (at_byte o 0)) (c_pos (at_byte o 0)) (Some true)) with (at_byte o 0) by reflexivity.
  pose proof (arun_prun _ pure_fill _ K) as P. rewrite at_byte_skip, F in P. destruct P as [v P]. rewrite P. clear P v. cbn [snd].
  rewrite arun_bind, (arun_avail o 0) by lia. unfold zlen in *. replace (Z.of_nat (length o - 0) <? total) with false by lia.
  rewrite arun_bind, arun_rtell. replace (mkC (c_bits (at_byte o 0)) (c_pos (at_byte o 0)) (Some true)) with (at_byte o 0) by reflexivity.
  rewrite arun_bind, E1. cbn [fst snd]. rewrite T, arun_bind. unfold at_ in E2. rewrite Eq in E2. change (mkC (bytes_bits o) (8 * q) (Some true)) with (at_byte o q) in E2. rewrite E2, E3.
  cbn [arun at_result c_pos]. do 2 f_equal. lia.
Qed.
Lemma process_skipped fuel cap D s o h n hl : (8 <= fuel)%nat -> (1 <= cap)%nat -> is_obu o ->
  let at_ k := mkC (bytes_bits o) k (Some true) in
  arun read_header (at_ O) = (Ok (h, n), at_ hl) -> Z.of_nat hl + 8 * n = 8 * zlen o ->
  24 <= h_type h <= 30 \/ (h_red h = true /\ temporal_unit_type (h_type h) = false) ->
  process_at fuel cap D s 0 o = Ok (mkOut (Ok tt) s INone true, 8 * zlen o).
Proof.
  intros Hf Hc Ho at_ E1 L T. pose proof (obu_bytes _ Ho) as By. pose proof (obu_len _ Ho) as Hl. change (2^21) with 2097152 in Hl.
  unfold process_at. rewrite crun_read_at by (try assumption; unfold zlen; lia). change (Z.to_nat (8 * 0)) with 0%nat.
  assert (cok (at_ O)) as K by (unfold cok, at_; cbn [c_pos c_bits]; lia).
  assert (zlen o < 2^32 - 64) as Sm by (change (2^32) with 4294967296; lia).
  change (at_ O) with (at_byte o 0) in E1, K.
  assert (exists q, hl = 8 * q)%nat as [q Eq].
  { exists (Z.to_nat (zlen o - n)). unfold zlen in *. lia. }
  unfold at_ in E1. rewrite Eq in E1. change (mkC (bytes_bits o) (8 * q) (Some true)) with (at_byte o q) in E1.
  destruct (header_facts o Sm 0 h n q ltac:(lia) E1) as (total & r' & F & Hn & Et & Hpq).
  unfold proc_obu. change (mkC (bytes_bits o) 0 (Some true)) with (at_byte o 0). rewrite arun_bind, arun_rcatch, (arun_peek _ K).
  replace (mkC (c_bits (at_byte o 0)) (c_pos (at_byte o 0)) (Some true)) with (at_byte o 0) by reflexivity.
  pose proof (arun_prun _ pure_fill _ K) as P. rewrite at_byte_skip, F in P. destruct P as [v P]. rewrite P. clear P v. cbn [snd].
  rewrite arun_bind, (arun_avail o 0) by lia. unfold zlen in *. replace (Z.of_nat (length o - 0) <? total) with false by lia.
  rewrite arun_bind, arun_rtell. replace (mkC (c_bits (at_byte o 0)) (c_pos (at_byte o 0)) (Some true)) with (at_byte o 0) by reflexivity.
  rewrite arun_bind, E1. cbn [fst snd].
  assert (temporal_unit_type (h_type h) = false) as TF.
  { destruct T as [T|[_ T]]; [|exact T]. unfold temporal_unit_type, is_audio_frame, kTemporalDelimiter, kAudioFrame, kAudioFrameId0, kAudioFrameId17, kParameterBlock. lia. }
  rewrite TF.
  assert (arun (rignore n ;;; RRet (mkOut (Ok tt) s INone true)) (at_byte o q) = (Ok (mkOut (Ok tt) s INone true), mkC (bytes_bits o) (8 * length o) (Some true))) as IG.
  { rewrite arun_bind. unfold at_byte. rewrite arun_rignore by (unfold zlen; rewrite ?bytes_bits_length; lia). cbn [arun]. do 3 f_equal. lia. }
  replace ((h_type h =? kSequenceHeader) && negb (h_red h)) with false by (unfold kSequenceHeader; destruct T as [T|[-> _]]; [lia|rewrite andb_false_r; reflexivity]).
  destruct (_ || _) eqn:O.
  - destruct T as [T|[Hr _]]; [unfold kSequenceHeader, kCodecConfig, kAudioElement, kMixPresentation in O; lia|]. rewrite arun_bind, Hr. cbn [rcheck arun]. rewrite IG.
    cbn [at_result c_pos]. do 2 f_equal. lia.
  - rewrite IG. cbn [at_result c_pos]. do 2 f_equal. lia.
Qed.

(* What an OBU, given by its bits, yields. *)
Definition yields (fuel cap : nat) (D : descs) (s : pst) (bs : list bool) (s1 : pst) (it : item) : Prop :=
  exists o, bytes_bits o = bs /\ is_obu o /\ process_at fuel cap D s 0 o = Ok (mkOut (Ok tt) s1 it true, 8 * zlen o).
Section Yields.
Variables (fuel cap : nat) (D : descs).
Hypotheses (Hfuel : (8 <= fuel)%nat) (Hcap : (1 <= cap)%nat).
Lemma yields_parsed {A} g h payload footer bs (d : header -> Z -> rprog A) (a : A) f s s1 it x :
  lebgen_wf g -> header_wf h -> Forall winstr_wf payload -> Forall byteP footer -> wbits (write_obu g h payload footer) = Ok bs ->
  parses (read_obu d) bs (norm_header h, a, f) -> temporal_unit_type (h_type h) = true ->
  (forall n c c', cok c -> c_valid c = Some true -> arun (read_payload n (d (norm_header h) n)) c = (Ok (a, f), c') -> arun (parse_payload D (norm_header h) n) c = (Ok x, c')) ->
  store D s (norm_header h) x = (Ok tt, s1, it) -> yields fuel cap D s bs s1 it.
Proof.
  intros Hg Hh Hp Hf E P T G St. destruct (written_obu g h payload footer bs Hg Hh Hp Hf E) as (o & Eo & Io).
  exists o. split; [exact Eo|]. split; [exact Io|]. destruct (parsed_obu d bs (norm_header h) a f [] [] P) as (n & hl & E1 & E2 & L). cbv beta zeta in *.
  cbn [app length Nat.add] in E1, E2. rewrite app_nil_r, <- Eo in E1, E2. unfold zlen in L. rewrite <- Eo, bytes_bits_length in L.
  apply (process_written fuel cap D s o (norm_header h) n hl x s1 it); try assumption.
  - unfold zlen. lia.
  - rewrite norm_type. exact T.
  - rewrite bytes_bits_length in E2. apply G; [|reflexivity|exact E2]. pose proof (arun_cok read_header (mkC (bytes_bits o) 0 (Some true)) ltac:(unfold cok; cbn [c_pos c_bits]; lia)) as K.
    rewrite E1 in K. exact K.
Qed.
Lemma parses_aframe g h f footer bs : lebgen_wf g -> header_wf h -> aframe_wf f -> Forall byteP footer -> wbits (write_aframe_obu g h f footer) = Ok bs ->
  parses (read_obu read_aframe) bs (norm_header (set_type h (audio_frame_type (af_id f))), mkAF (af_id f) (af_bytes f ++ footer), []).
Proof.
  intros Hg (Ht & He & Hs & Hx) [Hid Hb] Hf E. unfold write_aframe_obu in E.
  set (h' := set_type h (audio_frame_type (af_id f))) in *.
  pose proof (audio_type_range (af_id f) ltac:(destruct Hid; lia)) as Hty.
  assert (header_wf h') as Hh' by (repeat split; cbn; try assumption; try lia; apply He || apply Hs).
  assert (Forall winstr_wf (write_aframe g h' f)) as Hw.
  { unfold write_aframe. wf_split; [|apply wspan_wf; exact Hb]. destruct (h_type h' =? kAudioFrame); [|constructor].
    apply wuleb_wf; assumption. }
  eapply parses_obu; try eassumption. intros pb Epb Hm. unfold write_aframe in Epb.
  apply wbits_app_ok in Epb as (ib & sb & Ei & Es & ->). apply wspan_ok in Es as ->.
  exists (ib ++ bytes_bits (af_bytes f ++ footer)). rewrite bytes_bits_app.
  split; [cbn [bytes_bits flat_map]; rewrite app_nil_r, <- app_assoc; reflexivity|]. split; [constructor|].
  rewrite <- bytes_bits_app.
  assert (forall sz, zlen ib = 8 * sz -> 0 <= sz ->
     rcheck (negb ((zlen (ib ++ bytes_bits (af_bytes f)) / 8 + zlen footer <? 0) ||
                   (zlen (ib ++ bytes_bits (af_bytes f)) / 8 + zlen footer <? sz))) InvalidArgument = RRet tt /\
     Z.to_nat (zlen (ib ++ bytes_bits (af_bytes f)) / 8 + zlen footer - sz) = length (af_bytes f ++ footer)) as SZ.
  { intros sz Hsz Hsz0. unfold zlen in *. rewrite !app_length, bytes_bits_length in *.
    replace (_ || _) with false by lia. split; [reflexivity|]. lia. }
  unfold read_aframe. rewrite norm_type.
  assert (Forall byteP (af_bytes f ++ footer)) as Hbf by (apply Forall_app; auto).
  destruct (h_type h' =? kAudioFrame) eqn:Ety.
  - destruct (wuleb_enc _ _ _ Hg Hid Ei) as (l & El & ->).
    destruct (SZ (zlen l)) as [S1 S2]; [unfold zlen; rewrite bytes_bits_length; lia|apply zlen_nonneg|].
    eapply parses_bind; [eapply parses_enc_sz; [exact Hid|exact El]| |reflexivity]. cbn [fst snd]. rewrite S1, S2. cbn [rb].
    eapply parses_map; [apply parses_span; exact Hbf|]. reflexivity.
  - apply wbits_nil_ok in Ei as ->. destruct (SZ 0) as [S1 S2]; [reflexivity|lia|]. cbn [app] in *.
    eapply (parses_bind _ _ []); [apply parses_ret| |reflexivity]. cbn [fst snd]. rewrite S1, S2. cbn [rb].
    eapply parses_map; [apply parses_span; exact Hbf|]. f_equal.
    assert (h_type h' = 6 + af_id f /\ af_id f <= 17) as [Eh Hle].
    { change (h_type h') with (audio_frame_type (af_id f)) in *. rewrite C19_type_of_id in * by (destruct Hid; lia).
      destruct (af_id f <=? 17) eqn:E17; [lia|discriminate]. }
    rewrite Eh. unfold u32, kAudioFrameId0, u32P in *. change (2^32) with 4294967296. lia.
Qed.
Lemma frame_type id : 0 <= id -> is_audio_frame (audio_frame_type id) = true.
Proof. intro H. rewrite C19_type_of_id by exact H. unfold is_audio_frame, kAudioFrame, kAudioFrameId0, kAudioFrameId17. destruct (id <=? 17) eqn:E; lia. Qed.
Lemma yields_frame g h f footer bs s s1 it : lebgen_wf g -> header_wf h -> aframe_wf f -> Forall byteP footer -> wbits (write_aframe_obu g h f footer) = Ok bs ->
  store_frame D s (norm_header (set_type h (audio_frame_type (af_id f)))) (mkAF (af_id f) (af_bytes f ++ footer)) = (Ok tt, s1, it) -> yields fuel cap D s bs s1 it.
Proof.
  intros Hg Hh Hf Hb E St. pose proof (parses_aframe _ _ _ _ _ Hg Hh Hf Hb E) as P. pose proof Hf as [Hid Hby].
  assert (0 <= af_id f) as H0 by (destruct Hid; lia).
  eapply (yields_parsed g _ _ _ _ read_aframe); [exact Hg| | |exact Hb|exact E|exact P| | |].
  - apply set_type_wf'; [exact Hh|apply audio_type_range; exact H0].
  - unfold write_aframe. wf_split; [|apply wspan_wf; exact Hby]. destruct (_ =? kAudioFrame); [|constructor]. apply wuleb_wf; assumption.
  - cbn [set_type h_type]. unfold temporal_unit_type. rewrite (frame_type _ H0). lia.
  - intros n c c' _ _ R. unfold parse_payload. rewrite norm_type. cbn [set_type h_type]. rewrite (frame_type _ H0), arun_bind, arun_rcatch, R. cbn [arun fst]. reflexivity.
  - exact St.
Qed.
Lemma arun_peek_id d h n c b c' : cok c -> c_valid c = Some true -> arun (read_pblock d h n) c = (Ok b, c') -> arun peek_parameter_id c = (Ok (bl_id b), c).
Proof.
  intros Hcc Hv R. unfold read_pblock in R. apply arun_rres_ok in R as ([] & V & R). apply arun_bind_ok in R as (id & c1 & R1 & R).
  apply arun_rcheck_ok in R as (I & R).
  assert (bl_id b = id) as ->.
  { destruct (mode0 _); apply arun_bind_ok in R as (l & c2 & R2 & R); cbn [arun] in R; injection R as <- _; reflexivity. }
  destruct c as [bb pp vv]. cbn [c_valid] in Hv. subst vv. set (c := mkC bb pp (Some true)) in *.
  unfold peek_parameter_id. rewrite arun_bind, arun_rtell, arun_bind, arun_catch. cbn [c_bits c_pos].
  change (mkC (c_bits c) (c_pos c) (Some true)) with c. pose proof (arun_valid ruleb c eq_refl) as [Vd _]. pose proof (arun_bits ruleb c) as B.
  rewrite R1 in Vd, B |- *. destruct c1 as [b1 p1 v1]. cbn [snd c_valid c_bits] in Vd, B. subst v1 b1.
  rewrite arun_bind, arun_rseek_ok by (unfold cok in Hcc; unfold zlen; cbn [c_bits c_pos]; lia). cbn [arun c_pos].
  unfold c. do 2 f_equal. cbn [c_pos]. lia.
Qed.
Lemma yields_block g h d b footer bs s s1 it : lebgen_wf g -> header_wf h -> pdef_wf d -> fits d b -> Forall byteP footer -> m_find (bl_id b) (d_defs D) = Some d ->
  wbits (write_pblock_obu g h d b footer) = Ok bs ->
  store_block s (norm_header (set_type h kParameterBlock)) d (stored_block b) = (Ok tt, s1, it) -> yields fuel cap D s bs s1 it.
Proof.
  intros Hg Hh Hd Hb Hf Hm E St. unfold write_pblock_obu in E.
  assert (header_wf (set_type h kParameterBlock)) as Hh' by (apply set_type_wf'; [exact Hh|unfold kParameterBlock; lia]).
  assert (Forall winstr_wf (write_pblock g d b)) as W by (apply write_pblock_wf; assumption).
  eapply (yields_parsed g _ _ _ _ (read_pblock d) _ _ s s1 it (inr (PBlock d (stored_block b)))); [exact Hg|exact Hh'|exact W|exact Hf|exact E| |reflexivity| |exact St].
  - eapply parses_obu_bounded; try eassumption. intro n. apply rt_pblock; assumption.
  - intros n c c' K Hv R. destruct (read_payload_ok _ _ _ _ _ _ K R) as (c1 & R1 & _). destruct c as [bb pp vv]. cbn [c_valid c_bits c_pos] in *. subst vv.
    unfold parse_payload. rewrite norm_type. cbn [set_type h_type]. change (is_audio_frame kParameterBlock) with false. cbv iota. rewrite Z.eqb_refl.
    rewrite arun_bind, arun_rcatch, (arun_peek_id _ _ _ _ _ _ K eq_refl R1). change (bl_id (stored_block b)) with (bl_id b). rewrite Hm, arun_bind, arun_rcatch, R. cbn [arun fst]. reflexivity.
Qed.
Lemma yields_td g h payload footer bs s : lebgen_wf g -> header_wf h -> Forall winstr_wf payload -> Forall byteP footer -> h_type h = kTemporalDelimiter ->
  wbits (write_obu g h payload footer) = Ok bs -> yields fuel cap D s bs s (IDelim (norm_header h)).
Proof.
  intros Hg Hh Hp Hf T E. destruct (write_obu_ok g h payload footer bs Hp Hf E) as (pb & hb & Ep & M & Eh & Eb).
  apply Nat.mod_divides in M as [k M]; [|lia]. destruct (bits_bytes k pb M) as (po & Epo & Fp).
  eapply (yields_parsed g h payload footer bs read_td tt (po ++ footer) s s _ (inr PDelim)); try assumption; [| | |reflexivity].
  - refine (parses_obu g h payload footer bs read_td tt (po ++ footer) Hg Hh Hp Hf E _). intros pb' Ep' _. rewrite Ep in Ep'. injection Ep' as <-. exists []. split; [cbn [app]; rewrite bytes_bits_app, Epo; reflexivity|].
    split; [apply Forall_app; auto|]. apply parses_ret.
  - rewrite T. reflexivity.
  - intros n c c' _ _ R. unfold parse_payload. rewrite norm_type, T. change (is_audio_frame kTemporalDelimiter) with false. change (kTemporalDelimiter =? kParameterBlock) with false. cbv iota.
    rewrite arun_bind, arun_rcatch, R. reflexivity.
Qed.
Lemma yields_skipped g h payload footer bs s : lebgen_wf g -> header_wf h -> Forall winstr_wf payload -> Forall byteP footer ->
  24 <= h_type h <= 30 \/ (h_red h = true /\ temporal_unit_type (h_type h) = false) ->
  wbits (write_obu g h payload footer) = Ok bs -> yields fuel cap D s bs s INone.
Proof.
  intros Hg Hh Hp Hf T E. destruct (written_obu g h payload footer bs Hg Hh Hp Hf E) as (o & Eo & Io).
  exists o. split; [exact Eo|]. split; [exact Io|]. destruct (write_obu_ok g h payload footer bs Hp Hf E) as (pb & hb & Ep & M & Eh & Eb).
  pose proof (arun_valid read_header (mkC ([] ++ hb ++ pb ++ bytes_bits footer) 0 (Some true)) eq_refl) as [V _].
  destruct (parses_header _ _ _ _ Hg Hh Eh [] (pb ++ bytes_bits footer) (Some true)) as [v X]. cbn [length] in X. rewrite X in V. cbn [snd c_valid] in V. subst v.
  cbn [app Nat.add] in X. rewrite <- Eb, <- Eo in X. apply Nat.mod_divides in M as [k M]; [|lia].
  assert (zlen pb / 8 = Z.of_nat k) as Lk by (unfold zlen; rewrite M, Nat2Z.inj_mul; change (Z.of_nat 8) with 8; rewrite Z.mul_comm, Z.div_mul by lia; reflexivity).
  assert (8 * length o = length hb + 8 * k + 8 * length footer)%nat as Lo by (rewrite <- bytes_bits_length, Eo, Eb, !app_length, bytes_bits_length; lia).
  apply (process_skipped fuel cap D s o (norm_header h) (zlen pb / 8 + zlen footer) (length hb)); try assumption; [unfold zlen in *; lia|].
  rewrite norm_type, norm_red. exact T.
Qed.
End Yields.
