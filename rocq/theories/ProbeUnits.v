(* Facts for C66: what the probe sees in OBUs that the muxer wrote. *)
From Coq Require Import Permutation.
From Verif Require Import TempUnit Base WriteBuf ReadBuf Leb BufSpec LebSpec BitFacts WriteBufFacts ReadBufFacts LebFacts
  ParseFacts EndToEnd ObuHeader ObuHeaderFacts FrameFacts SeqFacts BndFacts PureFacts SimpleObus CodecConfig Params
  Timing PropsTiming ParamManager Processor PropsObu PropsParams ProcFacts PropsProc DescFacts Sequencer SeqRound PropsSeqDesc UnitRound PropsSeqUnits Probe ProbeFacts PropsProbe.
Local Open Scope Z_scope.

Definition obu_shows (full : bool) (T : ptables) (o : list Z) (ev : event) : Prop := is_obu o /\ forall e, look full T (o ++ e) = VNext (zlen o) ev.
Definition shows (full : bool) (T : ptables) (bs : list bool) (evs : list event) : Prop :=
  exists os, bytes_bits (concat os) = bs /\ Forall2 (obu_shows full T) os evs.
Lemma shows_nil full T : shows full T [] [].
Proof. exists []. split; [reflexivity|constructor]. Qed.
Lemma shows_app full T b1 e1 b2 e2 : shows full T b1 e1 -> shows full T b2 e2 -> shows full T (b1 ++ b2) (e1 ++ e2).
Proof. intros (o1 & <- & F1) (o2 & <- & F2). exists (o1 ++ o2). split; [rewrite concat_app; apply bytes_bits_app|apply Forall2_app; assumption]. Qed.
Lemma shows_one full T o ev : obu_shows full T o ev -> shows full T (bytes_bits o) [ev].
Proof. intro H. exists [o]. cbn [concat]. rewrite app_nil_r. split; [reflexivity|constructor; [exact H|constructor]]. Qed.

Lemma look_written full T g h payload footer bs : lebgen_wf g -> header_wf h -> Forall winstr_wf payload -> Forall byteP footer ->
  wbits (write_obu g h payload footer) = Ok bs ->
  exists o pb n, bytes_bits o = bs /\ is_obu o /\ wbits payload = Ok pb /\ (length pb mod 8 = 0)%nat /\ n = zlen pb / 8 + zlen footer /\ zlen pb <= 2^24 /\
    forall e, look full T (o ++ e) = if (h_type h =? kSequenceHeader) && negb (h_red h) then VStop NextSequence
                                     else VNext (zlen o) (seen full T (norm_header h) n (pb ++ bytes_bits footer) (bytes_bits e)).
Proof.
  intros Hg Hh Hp Hf E. destruct (written_obu g h payload footer bs Hg Hh Hp Hf E) as (o & Eo & Io).
  destruct (write_obu_ok g h payload footer bs Hp Hf E) as (pb & hb & Ep & M & Eh & Eb).
  exists o, pb, (zlen pb / 8 + zlen footer). split; [exact Eo|]. split; [exact Io|]. split; [exact Ep|]. split; [exact M|]. split; [reflexivity|]. split.
  { destruct (write_header_ok _ _ _ _ Hg Hh Eh) as (te & ts & ls & lb & lo & _ & _ & _ & _ & _ & _ & Hle & _).
    pose proof (zlen_nonneg (te ++ ts ++ ls ++ lb)). pose proof (zlen_nonneg lo). pose proof (zlen_nonneg footer).
    change (2^21) with 2097152 in Hle. change (2^24) with 16777216. unfold zlen in *. lia. }
  intro e. unfold look. destruct (obu_fill o e Io) as (t & r & ->).
  assert (zlen (o ++ e) <? zlen o = false) as -> by (unfold zlen; rewrite app_length; lia).
  replace (Z.to_nat (zlen o)) with (length o) by (unfold zlen; lia).
  rewrite firstn_app, Nat.sub_diag, firstn_all, firstn_O, app_nil_r, skipn_app, skipn_all, Nat.sub_diag. cbn [app skipn].
  rewrite Eo, Eb, (parses_prun _ _ _ _ pure_header (parses_header _ _ _ _ Hg Hh Eh)). rewrite norm_type, norm_red. reflexivity.
Qed.
Lemma shows_frame full T g h f footer bs : lebgen_wf g -> header_wf h -> aframe_wf f -> Forall byteP footer -> wbits (write_aframe_obu g h f footer) = Ok bs ->
  shows full T bs [EFrame (af_id f) (h_trim_start (norm_header (set_type h (audio_frame_type (af_id f))))) (h_trim_end (norm_header (set_type h (audio_frame_type (af_id f)))))].
Proof.
  intros Hg Hh [Hid Hb] Hf E. unfold write_aframe_obu in E. set (h' := set_type h (audio_frame_type (af_id f))) in *.
  assert (0 <= af_id f) as H0 by (destruct Hid; lia).
  assert (header_wf h') as Hh' by (apply set_type_wf'; [exact Hh|apply audio_type_range; exact H0]).
  assert (Forall winstr_wf (write_aframe g h' f)) as Hw.
  { unfold write_aframe. wf_split; [|apply wspan_wf; exact Hb]. destruct (h_type h' =? kAudioFrame); [|constructor]. apply wuleb_wf; assumption. }
  destruct (look_written full T g h' _ footer bs Hg Hh' Hw Hf E) as (o & pb & n & <- & Io & Ep & M & -> & _ & L). apply shows_one. split; [exact Io|]. intro e. rewrite L. clear L.
  assert (is_audio_frame (h_type h') = true) as At by (change (h_type h') with (audio_frame_type (af_id f)); rewrite C19_type_of_id by exact H0; unfold is_audio_frame, kAudioFrame, kAudioFrameId0, kAudioFrameId17; destruct (af_id f <=? 17) eqn:Q; lia).
  replace ((h_type h' =? kSequenceHeader) && negb (h_red h')) with false by (unfold is_audio_frame, kSequenceHeader, kAudioFrame, kAudioFrameId0, kAudioFrameId17 in *; lia).
  unfold seen. rewrite norm_type, At. unfold frame_seen. rewrite norm_type. f_equal.
  unfold write_aframe in Ep. apply wbits_app_ok in Ep as (ib & sb & Ei & Es & ->).
  destruct (h_type h' =? kAudioFrame) eqn:Ety.
  - destruct (wuleb_enc _ _ _ Hg Hid Ei) as (l & El & ->). rewrite <- app_assoc, (parses_prun _ _ _ _ pure_ruleb_sz (parses_enc_sz _ _ _ Hid El)). reflexivity.
  - f_equal. change (h_type h') with (audio_frame_type (af_id f)) in *. rewrite C19_type_of_id in * by exact H0. unfold kAudioFrame, kAudioFrameId0 in *. destruct (af_id f <=? 17) eqn:E17; lia.
Qed.
Lemma prun_peek d h n w b r : prun (read_pblock d h n) w = POk b r -> exists r', prun ruleb w = POk (bl_id b) r'.
Proof.
  intro R. unfold read_pblock in R. rewrite prun_bind in R. destruct (prun (rres _) w) as [|?|[] w1] eqn:V; try discriminate R.
  assert (w1 = w) as ->. { destruct (pd_validate d) as [[]|?| | |]; cbn [rres prun] in V; try discriminate V. injection V as <-. reflexivity. }
  rewrite prun_bind in R. destruct (prun ruleb w) as [|?|id w2]; try discriminate R. exists w2. f_equal.
  rewrite prun_bind in R. destruct (prun (rcheck _ _) w2) as [|?|[] w3]; try discriminate R.
  destruct (mode0 _); rewrite prun_bind in R; (destruct (prun _ _) as [|?|l w4] in R; try discriminate R); cbn [prun] in R; injection R as <- _; reflexivity.
Qed.
Lemma shows_block full T g h d b footer bs : lebgen_wf g -> header_wf h -> pdef_wf d -> fits d b -> Forall byteP footer -> m_find (bl_id b) (pt_defs T) = Some d ->
  wbits (write_pblock_obu g h d b footer) = Ok bs -> shows full T bs [EBlock (bl_id b) (if full then Some (d, stored_block b) else None)].
Proof.
  intros Hg Hh Hd Hb Hf Hm E. unfold write_pblock_obu in E.
  assert (header_wf (set_type h kParameterBlock)) as Hh' by (apply set_type_wf'; [exact Hh|unfold kParameterBlock; lia]).
  assert (Forall winstr_wf (write_pblock g d b)) as W by (apply write_pblock_wf; assumption).
  destruct (look_written full T g _ _ footer bs Hg Hh' W Hf E) as (o & pb & n & <- & Io & Ep & M & -> & B & L). apply shows_one. split; [exact Io|]. intro e. rewrite L. clear L.
  cbn [set_type h_type]. change (kParameterBlock =? kSequenceHeader) with false. cbn [andb]. f_equal. unfold seen. rewrite norm_type. cbn [set_type h_type].
  change (is_audio_frame kParameterBlock) with false. rewrite Z.eqb_refl. cbv iota. unfold block_seen.
  set (hn := norm_header _). set (n := zlen pb / 8 + zlen footer).
  pose proof (fun x => parses_prun _ _ _ x (pure_pblock d hn n) (rt_pblock g d b hn n Hg Hd Hb pb Ep B)) as P.
  destruct (prun_peek _ _ _ _ _ _ (P (bytes_bits footer ++ bytes_bits e))) as (r' & R'). rewrite app_assoc in R'. rewrite R'.
  change (bl_id (stored_block b)) with (bl_id b). rewrite Hm. destruct full; [|reflexivity].
  unfold lpay. rewrite P, bytes_bits_length. replace (8 * length footer)%nat with (length footer * 8)%nat by lia. rewrite Nat.mod_mul, Nat.div_mul by discriminate. cbn [Nat.eqb].
  assert (prun (rspan (length footer)) (bytes_bits footer) = POk footer []) as ->.
  { pose proof (parses_prun _ _ _ [] (pure_rspan (length footer)) (parses_span footer Hf)) as Q. rewrite app_nil_r in Q. exact Q. }
  reflexivity.
Qed.
Lemma shows_td full T g h payload footer bs : lebgen_wf g -> header_wf h -> Forall winstr_wf payload -> Forall byteP footer -> h_type h = kTemporalDelimiter ->
  wbits (write_obu g h payload footer) = Ok bs -> shows full T bs [EDelim].
Proof.
  intros Hg Hh Hp Hf Ht E. destruct (look_written full T g h payload footer bs Hg Hh Hp Hf E) as (o & pb & n & <- & Io & _ & _ & _ & _ & L). apply shows_one. split; [exact Io|]. intro e. rewrite L.
  unfold seen. rewrite norm_type, Ht. reflexivity.
Qed.
Lemma shows_skipped full T g h payload footer bs : lebgen_wf g -> header_wf h -> Forall winstr_wf payload -> Forall byteP footer ->
  24 <= h_type h <= 30 \/ (h_red h = true /\ temporal_unit_type (h_type h) = false) ->
  wbits (write_obu g h payload footer) = Ok bs -> shows full T bs [EOther].
Proof.
  intros Hg Hh Hp Hf Ht E. destruct (look_written full T g h payload footer bs Hg Hh Hp Hf E) as (o & pb & n & <- & Io & _ & _ & _ & _ & L). apply shows_one. split; [exact Io|]. intro e. rewrite L.
  replace ((h_type h =? kSequenceHeader) && negb (h_red h)) with false by (unfold kSequenceHeader; destruct Ht as [Ht|[-> Ht]]; [|cbn [negb]; rewrite andb_false_r; reflexivity]; lia).
  unfold seen. rewrite norm_type. f_equal. unfold temporal_unit_type in Ht. unfold is_audio_frame, kParameterBlock, kTemporalDelimiter, kAudioFrame, kAudioFrameId0, kAudioFrameId17 in *.
  replace ((6 <=? h_type h) && (h_type h <=? 23) || (h_type h =? 5)) with false by lia. replace (h_type h =? 3) with false by lia. replace (h_type h =? 4) with false by lia. reflexivity.
Qed.

(* ---- the events of a unit ---- *)
Definition trimmed_start (f : obu aframe) : Z := if h_flag (ob_h f) then h_trim_start (ob_h f) else 0.
Definition trimmed_end (f : obu aframe) : Z := if h_flag (ob_h f) then h_trim_end (ob_h f) else 0.
Definition block_event (full : bool) (b : obu (pdef * pblock)) : event := EBlock (block_id b) (if full then Some (fst (ob_v b), stored_block (snd (ob_v b))) else None).
Definition frame_event (f : obu aframe) : event := EFrame (frame_id f) (trimmed_start f) (trimmed_end f).
Definition unit_events (full delims : bool) (k1 k2 k3 : nat) (u : tunit) : list event :=
  (if delims then [EDelim] else []) ++ repeat EOther k1 ++ map (block_event full) (tu_blocks u) ++ repeat EOther k2 ++ map frame_event (tu_frames u) ++ repeat EOther k3.
Lemma shows_frames full T g l : lebgen_wf g -> Forall (obu_wf aframe_wf) l -> forall bs, wbits (flat_map (fun f => write_aframe_obu g (ob_h f) (ob_v f) (ob_foot f)) l) = Ok bs ->
  shows full T bs (map frame_event l).
Proof.
  intros Hg H. induction H as [|f l (W1 & W2 & W3) _ IH]; intros bs E; cbn [flat_map map] in *. { cbn [wbits] in E. injection E as <-. apply shows_nil. }
  apply wbits_app_ok in E as (b & r & E1 & E2 & ->). change (frame_event f :: map frame_event l) with ([frame_event f] ++ map frame_event l). apply shows_app; [|apply IH; exact E2].
  pose proof (shows_frame full T g _ _ _ _ Hg W1 W2 W3 E1) as P. destruct W2 as [Hid _]. assert (is_audio_frame (audio_frame_type (af_id (ob_v f))) = true) as At.
  { destruct Hid as [H0 _]. rewrite C19_type_of_id by exact H0. unfold is_audio_frame, kAudioFrame, kAudioFrameId0, kAudioFrameId17. destruct (af_id (ob_v f) <=? 17) eqn:Q; lia. }
  unfold frame_event, frame_id, trimmed_start, trimmed_end. unfold norm_header, trimming_flag in P. cbn [set_type h_type h_flag] in P. rewrite At in P. cbn [set_type] in P. destruct (h_flag (ob_h f)); exact P.
Qed.
Lemma shows_blocks full T g l : lebgen_wf g -> Forall (obu_wf (fun x => m_find (bl_id (snd x)) (pt_defs T) = Some (fst x) /\ pdef_wf (fst x) /\ fits (fst x) (snd x))) l ->
  forall bs, wbits (flat_map (fun b => write_pblock_obu g (ob_h b) (fst (ob_v b)) (snd (ob_v b)) (ob_foot b)) l) = Ok bs -> shows full T bs (map (block_event full) l).
Proof.
  intros Hg H. induction H as [|f l (W1 & (V1 & V2 & V3) & W3) _ IH]; intros bs E; cbn [flat_map map] in *. { cbn [wbits] in E. injection E as <-. apply shows_nil. }
  apply wbits_app_ok in E as (b & r & E1 & E2 & ->). change (block_event full f :: map (block_event full) l) with ([block_event full f] ++ map (block_event full) l). apply shows_app; [|apply IH; exact E2].
  exact (shows_block full T g _ _ _ _ _ Hg W1 V2 V3 W3 V1 E1).
Qed.
Lemma shows_arb full T g l : lebgen_wf g -> Forall (fun a => obu_wf (Forall byteP) (ar_obu a) /\ ignored a) l -> forall bs, wbits (flat_map (write_arbitrary_obu g) l) = Ok bs ->
  shows full T bs (repeat EOther (length l)).
Proof.
  intros Hg H. induction H as [|a l ((W1 & W2 & W3) & V) _ IH]; intros bs E; cbn [flat_map length repeat] in *. { cbn [wbits] in E. injection E as <-. apply shows_nil. }
  apply wbits_app_ok in E as (b & r & E1 & E2 & ->). change (EOther :: repeat EOther (length l)) with ([EOther] ++ repeat EOther (length l)). apply shows_app; [|apply IH; exact E2].
  unfold write_arbitrary_obu in E1.
  assert (Forall winstr_wf (write_arbitrary (ob_v (ar_obu a)) (ar_invalid a))) as Wp by (unfold write_arbitrary; wf_split; [apply wspan_wf; exact W2|apply wcheck_wf]).
  assert (0 <= ar_type a < 32) as R by (unfold ignored, kSequenceHeader, kCodecConfig, kAudioElement, kMixPresentation, kTemporalDelimiter in V; lia).
  assert (header_wf (set_type (ob_h (ar_obu a)) (ar_type a))) as Hh by (apply set_type_wf'; assumption).
  eapply shows_skipped; try eassumption. cbn [set_type h_type h_red]. destruct V as [V'|[V' X]]; [left; exact V'|right; split; [exact V'|]].
  destruct X as [X|[X|[X|X]]]; rewrite X; reflexivity.
Qed.
Lemma unit_shows full T D n g delims earlier u bs : lebgen_wf g -> pt_defs T = d_defs D -> unit_ok D n earlier u -> undelimited u -> wbits (write_unit g delims u) = Ok bs ->
  exists k1 k2 k3, shows full T bs (unit_events full delims k1 k2 k3 u).
Proof.
  intros Hg ED (U1 & U2 & U3 & U4 & U5 & U6) Un E. unfold write_unit in E.
  apply wbits_app_ok in E as (b1 & r1 & E1 & E & ->). apply wbits_app_ok in E as (b2 & r2 & E2 & E & ->). apply wbits_app_ok in E as (b3 & r3 & E3 & E & ->).
  apply wbits_app_ok in E as (b4 & r4 & E4 & E & ->). apply wbits_app_ok in E as (b5 & b6 & E5 & E6 & ->). rewrite with_hook_filter in E2, E4, E6.
  assert (forall k, k = BeforeBlocks \/ k = AfterBlocks \/ k = AfterFrames -> Forall (fun a => obu_wf (Forall byteP) (ar_obu a) /\ ignored a) (filter (fun a => if hook_eq_dec (ar_hook a) k then true else false) (tu_arb u))) as K.
  { intros k Hk. destruct (hook_members k (tu_arb u) Hk U6) as [K _]. pose proof (hook_ignored k _ Un K) as I. rewrite Forall_forall in *. intros a Ha. split; [apply (K a Ha)|apply (I a Ha)]. }
  exists (length (filter (fun a => if hook_eq_dec (ar_hook a) BeforeBlocks then true else false) (tu_arb u))), (length (filter (fun a => if hook_eq_dec (ar_hook a) AfterBlocks then true else false) (tu_arb u))),
    (length (filter (fun a => if hook_eq_dec (ar_hook a) AfterFrames then true else false) (tu_arb u))).
  unfold unit_events. apply shows_app; [|apply shows_app; [|apply shows_app; [|apply shows_app; [|apply shows_app]]]].
  - destruct delims; [|cbn [wbits] in E1; injection E1 as <-; apply shows_nil]. unfold write_td_obu in E1. refine (shows_td full T g _ _ _ b1 Hg _ _ _ _ E1).
    + apply set_type_wf'; [|unfold kTemporalDelimiter; lia]. unfold header_wf, default_header, u32P. cbn [h_type h_trim_end h_trim_start h_ext]. change (2^32) with 4294967296. lia.
    + constructor.
    + constructor.
    + reflexivity.
  - eapply shows_arb; eauto.
  - apply (shows_blocks full T g _ Hg); [|exact E3]. eapply Forall_impl; [|exact U5]. intros x (V1 & (W1 & W2 & W3 & _) & V3). rewrite ED. split; [exact V1|]. auto.
  - eapply shows_arb; eauto.
  - apply (shows_frames full T g _ Hg U3 _ E5).
  - eapply shows_arb; eauto.
Qed.

(* ---- the walk over shown OBUs ---- *)
Fixpoint place (off : Z) (os : list (list Z)) (evs : list event) : list (Z * event) :=
  match os, evs with o :: os', e :: evs' => (off, e) :: place (off + zlen o) os' evs' | _, _ => [] end.
Lemma walk_shows full T go os evs : Forall2 (obu_shows full T) os evs -> (forall i o d, go i o d = true) -> forall k i off s rest, (length os <= k)%nat ->
  exists i', walk full T go k i off s (concat os ++ rest) = walk full T go (k - length os) i' (off + zlen (concat os)) (PropsProbe.steps full T (place off os evs) s) rest.
Proof.
  intros F G. induction F as [|o e os evs [Io L] F IH]; intros k i off s rest Hk.
  - exists i. cbn [concat app length place PropsProbe.steps fold_left]. change (zlen []) with 0. rewrite Nat.sub_0_r, Z.add_0_r. reflexivity.
  - cbn [length] in Hk. destruct k as [|k]; [lia|]. cbn [walk concat]. rewrite <- app_assoc, G, L. cbn [negb].
    replace (Z.to_nat (zlen o)) with (length o) by (unfold zlen; lia). rewrite skipn_app, skipn_all, Nat.sub_diag. cbn [app skipn].
    destruct (IH k (i + 1) (off + zlen o) (tally full T off e s) rest ltac:(lia)) as (i' & ->). exists i'. cbn [length place PropsProbe.steps fold_left fst snd]. rewrite zlen_app, Z.add_assoc. reflexivity.
Qed.
Lemma place_app os1 evs1 : length os1 = length evs1 -> forall off os2 evs2, place off (os1 ++ os2) (evs1 ++ evs2) = place off os1 evs1 ++ place (off + zlen (concat os1)) os2 evs2.
Proof.
  revert evs1. induction os1 as [|o os1 IH]; intros [|e evs1] L off os2 evs2; try discriminate L; cbn [app concat place]. { change (zlen []) with 0. rewrite Z.add_0_r. reflexivity. }
  rewrite IH by (cbn [length] in L; lia). rewrite zlen_app, Z.add_assoc. reflexivity.
Qed.
Lemma place_events os evs : length os = length evs -> forall off, map snd (place off os evs) = evs.
Proof. revert evs. induction os as [|o os IH]; intros [|e evs] L off; try discriminate L; [reflexivity|]. cbn [place map snd]. rewrite IH by (cbn [length] in L; lia). reflexivity. Qed.
Lemma place_range full T os evs : Forall2 (obu_shows full T) os evs -> forall off, Forall (fun x => off <= fst x < off + zlen (concat os)) (place off os evs).
Proof.
  induction 1 as [|o e os evs [Io _] _ IH]; intro off; [constructor|]. cbn [place concat]. rewrite zlen_app. pose proof (obu_len _ Io). pose proof (zlen_nonneg (concat os)). constructor; [cbn [fst]; lia|].
  eapply Forall_impl; [|apply IH]. intros x Hx. cbv beta in Hx. lia.
Qed.
