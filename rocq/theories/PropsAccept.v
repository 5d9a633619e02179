(* Exactly which header flags, codec configs, parameter definitions and down-mix modes are accepted (C14, C21, C23, C24, C37). *)
From Verif Require Import Base WriteBuf ReadBuf Leb BufSpec LebSpec BitFacts WriteBufFacts ReadBufFacts LebFacts
  ParseFacts EndToEnd ObuHeader ObuHeaderFacts FrameFacts SeqFacts SimpleObus PropsObu BndFacts CodecConfig PropsCodec Params PropsParams AudioElement PropsAE.

(* ---- acceptance of a writer, compositionally ---- *)
Definition okb (w : wprog) : bool := is_ok (wbits w).
Lemma okb_wrun w b : Forall winstr_wf w -> (exists bs, holds b bs) -> is_ok (fst (wrun w b)) = okb w.
Proof.
  intros Hw [bs H]. destruct (wrun_spec w b bs Hw H) as [E _]. rewrite E. unfold okb, status_of. destruct (wbits w); reflexivity.
Qed.
Lemma okb_app a b : okb (a ++ b) = okb a && okb b.
Proof. unfold okb. rewrite wbits_app. destruct (wbits a); try reflexivity. cbn [rbind is_ok]. destruct (wbits b); reflexivity. Qed.
Lemma okb_lit v n : 1 <= n <= 32 -> okb (wlit v n) = (v <? 2^n).
Proof.
  intro H. unfold okb, wlit. cbn [wbits wspec]. replace (0 <=? n) with true by lia. replace (n =? 0) with false by lia. replace (n <=? 32) with true by lia.
  change (32 <=? 64) with true. cbn [andb orb]. destruct (v <? 2^n); reflexivity.
Qed.
Lemma okb_lit64 v n : 1 <= n <= 64 -> okb (wlit64 v n) = (v <? 2^n).
Proof.
  intro H. unfold okb, wlit64. cbn [wbits wspec]. replace (0 <=? n) with true by lia. replace (n =? 0) with false by lia. replace (n <=? 64) with true by lia.
  change (64 <=? 64) with true. cbn [andb orb]. destruct (v <? 2^n); reflexivity.
Qed.
Lemma okb_wcheck b e : okb (wcheck b e) = b. Proof. destruct b; reflexivity. Qed.
Lemma okb_wres r : okb (wres r) = is_ok r. Proof. destruct r as [[]| | | |]; reflexivity. Qed.
Lemma okb_span l : okb (wspan l) = true. Proof. reflexivity. Qed.
Lemma okb_bool b : okb (wbool b) = true. Proof. destruct b; reflexivity. Qed.
Lemma okb_signed16 v : okb (wsigned16 v) = true.
Proof.
  change (wsigned16 v) with (wlit (Z.land (u32 v) 65535) 16). rewrite okb_lit by lia. apply Z.ltb_lt. change 65535 with (Z.ones 16). rewrite Z.land_ones by lia. apply Z.mod_pos_bound. reflexivity.
Qed.
Lemma okb_nil : okb [] = true. Proof. reflexivity. Qed.
Lemma okb_fail e : okb [WFail e] = false. Proof. reflexivity. Qed.
Lemma ok_vcond b : is_ok (vcond b) = b. Proof. destruct b; reflexivity. Qed.
Lemma ok_veq a b : is_ok (veq a b) = (a =? b). Proof. apply ok_vcond. Qed.
Lemma ok_rthen {A} r (k : res A) : is_ok (r >>> k) = is_ok r && is_ok k.
Proof. destruct r as [[]| | | |]; reflexivity. Qed.
Lemma okb_uleb_min v : 0 <= v < 2^32 -> okb (wuleb LebMin v) = true.
Proof. intro H. unfold okb, wuleb. destruct (uleb_min_spec v H) as (l & -> & _). reflexivity. Qed.

(* ------------------------------------------------------------------ header flags (C37) *)
(* SPEC: the OBU types (IAMF 3.2): 3 parameter block, 4 temporal delimiter, 5..23 audio frames, 2 mix presentation. *)
Definition may_be_redundant (t : Z) : Prop := t <> 3 /\ t <> 4 /\ ~ (5 <= t <= 23).
Definition may_have_flag (t : Z) : Prop := t = 2 \/ t = 4 \/ 5 <= t <= 23.
Definition flags_legal (h : header) : Prop :=
  (h_red h = true -> may_be_redundant (h_type h)) /\ (h_flag h = true -> may_have_flag (h_type h)).
Lemma redundant_spec t : redundant_allowed t = true <-> may_be_redundant t.
Proof.
  unfold redundant_allowed, may_be_redundant, is_audio_frame, kAudioFrameId0, kAudioFrameId17, kAudioFrame, kTemporalDelimiter, kParameterBlock.
  match goal with |- context[if ?b then _ else _] => destruct b eqn:E end; split; try discriminate; lia.
Qed.
Lemma flag_spec t : flag_allowed t = true <-> may_have_flag t.
Proof. unfold flag_allowed, may_have_flag, is_audio_frame, kAudioFrameId0, kAudioFrameId17, kAudioFrame, kTemporalDelimiter, kMixPresentation. lia. Qed.
Lemma validate_legal h : header_validate h = Ok tt <-> flags_legal h.
Proof.
  unfold header_validate, flags_legal. rewrite <- redundant_spec, <- flag_spec.
  destruct (h_red h), (h_flag h), (redundant_allowed (h_type h)), (flag_allowed (h_type h)); cbn [andb negb];
    (split; [intro X; try discriminate; split; intro Y; congruence|intros [A B]; try reflexivity; exfalso; try specialize (A eq_refl); try specialize (B eq_refl); discriminate]).
Qed.

(* Whatever was written before: a header with illegal flags is refused, one with legal flags is written if the OBU is small
   enough for its size to be encoded in three bytes (C14 gives the 2 MiB limit that holds in general). *)
Theorem C37_writer_flags : forall g h n before w1,
  lebgen_wf g -> header_wf h -> Forall winstr_wf before -> wrun before w_empty = (Ok tt, w1) ->
  (is_ok (fst (wrun (write_header g h n) w1)) = true -> flags_legal h) /\
  (g = LebMin -> 0 <= n -> n + match h_ext h with Some e => zlen e | None => 0 end <= 2^21 - 32 -> flags_legal h ->
   is_ok (fst (wrun (write_header g h n) w1)) = true).
Proof.
  intros g h n before w1 Hg Hh Hb E1. destruct (wrun_holds _ _ Hb E1) as (pre & _ & H1).
  rewrite okb_wrun; [|apply write_header_wf; assumption|exists pre; exact H1]. split.
  - intro O. unfold okb in O. destruct (wbits (write_header g h n)) as [bs| | | |] eqn:E; try discriminate.
    destruct (write_header_ok g h n bs Hg Hh E) as (te & ts & ls & lb & lo & _ & _ & _ & _ & _ & _ & _ & V). apply validate_legal. exact V.
  - intros -> Hn Hl V. apply validate_legal in V. change (2^21 - 32) with 2097120 in Hl.
    assert (exists fb, wbits (fields_after_obu_size LebMin h) = Ok fb /\ zlen fb <= 8 * (15 + match h_ext h with Some e => zlen e | None => 0 end)) as (fb & Ef & Lf).
    { pose proof Hh as (Ht & He & Hs & Hx). unfold u32P in *. unfold fields_after_obu_size.
      assert (exists a, wbits (if trimming_flag h then wuleb LebMin (h_trim_end h) ++ wuleb LebMin (h_trim_start h) else []) = Ok a /\ zlen a <= 80) as (a & Ea & La).
      { destruct (trimming_flag h); [|exists []; split; [reflexivity|unfold zlen; cbn [length]; lia]].
        destruct (uleb_min_spec _ He) as (l1 & A1 & _ & _ & N1 & _). destruct (uleb_min_spec _ Hs) as (l2 & A2 & _ & _ & N2 & _).
        exists (bytes_bits l1 ++ bytes_bits l2). split; [apply wbits_app_ok; exists (bytes_bits l1), (bytes_bits l2); unfold wuleb; rewrite A1, A2; split; [apply wspan_total|split; [apply wspan_total|reflexivity]]|].
        unfold zlen. rewrite app_length, !bytes_bits_length. lia. }
      assert (exists b, wbits (match h_ext h with Some e => wuleb LebMin (ext_size h) ++ wspan e | None => [] end) = Ok b /\
                        zlen b <= 8 * (5 + match h_ext h with Some e => zlen e | None => 0 end)) as (b & Eb & Lb).
      { unfold ext_size. destruct (h_ext h) as [e|]; [|exists []; split; [reflexivity|unfold zlen; cbn [length]; lia]].
        destruct (uleb_min_spec _ (u32_range (zlen e))) as (l1 & A1 & _ & _ & N1 & _).
        exists (bytes_bits l1 ++ bytes_bits e). split; [apply wbits_app_ok; exists (bytes_bits l1), (bytes_bits e); unfold wuleb; rewrite A1; split; [apply wspan_total|split; [apply wspan_total|reflexivity]]|].
        unfold zlen. rewrite app_length, !bytes_bits_length. lia. }
      exists (a ++ b). split; [apply wbits_app_ok; eauto|]. rewrite zlen_app. lia. }
    assert (exists os, obu_size_and_validate LebMin h n = Ok os /\ 0 <= os < 2^32) as (os & Eos & Ro).
    { unfold obu_size_and_validate. assert (0 <= match h_ext h with Some e => zlen e | None => 0 end) as Ze by (destruct (h_ext h); [apply zlen_nonneg|lia]).
      change (2^32 - 1) with 4294967295. replace ((n <? 0) || (n >? 4294967295)) with false by lia.
      rewrite temp_write_eq by (apply fields_wf; assumption). rewrite Ef. cbn [map_res rbind w_off w_bytes].
      destruct (fields_ok LebMin h fb Hg Hh Ef) as (te & ts & ls & lb & T & X & -> & F). rewrite (pack_bytes _ F).
      set (fs := te ++ ts ++ ls ++ lb) in *. pose proof (zlen_nonneg fs) as Z0. assert (zlen (bytes_bits fs) = 8 * zlen fs) as Z8 by (unfold zlen; rewrite bytes_bits_length; lia).
      rewrite Z8 in *. replace (negb (8 * zlen fs mod 8 =? 0) || (zlen fs >? 4294967295)) with false by lia.
      unfold add_u32_check. change (2^32 - 1) with 4294967295. replace (zlen fs + n >? 4294967295) with false by lia. cbn [rbind].
      assert (0 <= zlen fs + n < 2^32) as Ro by (change (2^32) with 4294967296; lia).
      destruct (uleb_min_spec _ Ro) as (l & A & L1 & L2 & L3 & L4).
      assert (wbits (wuleb LebMin (zlen fs + n)) = Ok (bytes_bits l)) as Ew by (unfold wuleb; rewrite A; apply wspan_total).
      rewrite temp_write_eq by (apply wuleb_wf; [exact I|exact Ro]). rewrite Ew. cbn [map_res rbind w_bytes]. rewrite (pack_bytes _ (is_leb_bytes _ L1)).
      rewrite two_mb_ok by (unfold zlen in *; lia). change (2^21) with 2097152. replace (zlen fs + n <=? 2097152 - 1 - zlen l) with true by (unfold zlen in *; lia).
      cbn [rbind]. rewrite V. cbn [rbind]. eexists. split; [reflexivity|exact Ro]. }
    unfold write_header. rewrite Eos. rewrite !okb_app. rewrite okb_lit by lia. rewrite !okb_bool. rewrite okb_uleb_min by exact Ro.
    unfold okb. rewrite Ef. cbn [is_ok andb]. destruct Hh as (Ht & _). change (2^5) with 32. replace (h_type h <? 32) with true by lia. reflexivity.
Qed.

Theorem C37_reader_flags : forall src cap fuel p h payload q,
  Forall byteP src -> (1 <= cap)%nat -> (8 <= fuel)%nat -> 0 <= p <= 8 * zlen src ->
  fst (crun fuel (read_at p read_header) (r_create cap src)) = Ok ((h, payload), q) -> flags_legal h.
Proof.
  intros src cap fuel p h payload q Hs Hc Hf Hp E. rewrite crun_read_at in E by assumption.
  unfold at_result in E. destruct (arun _ _) as [[x|e| | |] c'] eqn:R; try discriminate. injection E as -> _.
  unfold read_header in R. do 5 (apply arun_bind_ok in R as (? & ? & _ & R)). apply arun_rres_ok in R as ([] & _ & R).
  do 2 (apply arun_bind_ok in R as (? & ? & _ & R)). apply arun_rcheck_ok in R as [_ R]. apply arun_bind_ok in R as (? & ? & _ & R).
  apply arun_rres_ok in R as ([] & V & R). cbn [arun] in R. injection R as <- _ _. apply validate_legal. exact V.
Qed.
(* A legal header is not refused by the reader because of its flags: what a writer writes is read back (C13). *)

Example C37_ex : flags_legal (mkH 2 true true 0 0 None) /\ ~ flags_legal (mkH 3 true false 0 0 None) /\ ~ flags_legal (mkH 1 false true 0 0 None).
Proof.
  unfold flags_legal, may_be_redundant, may_have_flag. cbn [h_type h_red h_flag]. split; [split; intros _; lia|]. split.
  - intros [A _]. specialize (A eq_refl). lia.
  - intros [_ A]. specialize (A eq_refl). lia.
Qed.

(* ------------------------------------------------------------------ codec configs (C21) *)
(* SPEC *)
Definition lpcm_legal (roll : Z) (d : lpcm) : Prop :=
  roll = 0 /\ In (lp_flags d) [0; 1] /\ In (lp_size d) [16; 24; 32] /\ In (lp_rate d) [16000; 32000; 44100; 48000; 96000].
(* roll = -ceil(3840 / n) *)
Definition opus_legal (n roll : Z) (d : opus) : Prop :=
  (roll <= 0 /\ (- roll - 1) * n < 3840 <= - roll * n) /\
  1 <= op_version d <= 15 /\ op_channels d = 2 /\ op_gain d = 0 /\ op_family d = 0.
Definition aac_legal (roll : Z) (d : aac) : Prop :=
  roll = -1 /\ aa_tag d = 4 /\ aa_oti d = 64 /\ aa_stream d = 5 /\ aa_up d = false /\ aa_reserved d = true /\ aa_dsi_tag d = 5 /\
  as_type (aa_asc d) = 2 /\ as_channels (aa_asc d) = 2 /\ as_flf (aa_asc d) = false /\ as_docc (aa_asc d) = false /\ as_ext (aa_asc d) = false /\
  0 <= as_freq (aa_asc d) <= 12.
Definition flac_legal_to_decode (n roll : Z) (d : flac) : Prop :=
  roll = 0 /\ exists s t, d = mkFB 0 (FInfo s) :: t /\
    In (si_rate s) [8000; 16000; 22050; 24000; 32000; 44100; 48000; 88200; 96000; 176400; 192000] /\ In (si_bps s) [15; 23; 31] /\
    si_maxb s = n /\ si_minb s = n /\ si_channels s = 1 /\ 0 <= si_total s < 2^36.
Definition flac_legal_to_encode (n roll : Z) (d : flac) : Prop :=
  flac_legal_to_decode n roll d /\ forall s t, d = mkFB 0 (FInfo s) :: t -> si_minf s = 0 /\ si_maxf s = 0 /\ si_md5 s = repeat 0 16.
(* 4 ASCII characters: Opus, mp4a, fLaC, ipcm *)
Definition fourcc (a b c d : Z) : Z := ((a * 256 + b) * 256 + c) * 256 + d.
Definition dec_legal (flac_ok : Z -> Z -> flac -> Prop) (c : codec_config) : Prop :=
  match cc_dec c with
  | DOpus d => cc_codec c = fourcc 79 112 117 115 /\ opus_legal (cc_frame c) (cc_roll c) d
  | DAac d => cc_codec c = fourcc 109 112 52 97 /\ aac_legal (cc_roll c) d
  | DFlac d => cc_codec c = fourcc 102 76 97 67 /\ flac_ok (cc_frame c) (cc_roll c) d
  | DLpcm d => cc_codec c = fourcc 105 112 99 109 /\ lpcm_legal (cc_roll c) d
  end.
Definition legal_to_encode (c : codec_config) : Prop := 1 <= cc_frame c <= 96000 /\ dec_legal flac_legal_to_encode c.
Definition legal_to_decode (c : codec_config) : Prop := 1 <= cc_frame c <= 96000 /\ dec_legal flac_legal_to_decode c.
(* What must fit the bit widths and size limits for the writer to have anywhere to put it. *)
Definition sinfo_fits (s : sinfo) : Prop := si_minf s < 2^24 /\ si_maxf s < 2^24 /\ si_rate s < 2^20 /\ si_channels s < 8 /\ si_bps s < 32 /\ si_total s < 2^36.
Definition fblock_fits (b : fblock) : Prop :=
  0 <= fb_type b < 128 /\ match fb_payload b with FInfo s => fb_type b = 0 /\ sinfo_fits s | FBlob x => fb_type b <> 0 /\ zlen x < 2^24 end.
Definition dec_fits (d : dconf) : Prop :=
  match d with
  | DAac d => aa_bufsize d < 2^24 /\ zlen (aa_dsi_ext d) <= 2^21 /\ zlen (aa_ext d) <= 2^21
  | DFlac d => Forall fblock_fits d
  | _ => True
  end.

Lemma ok_unit (r : res unit) : is_ok r = true <-> r = Ok tt. Proof. destruct r as [[]| | | |]; split; try reflexivity; discriminate. Qed.
Lemma lpcm_validate_spec roll d : lpcm_validate roll d = Ok tt <-> lpcm_legal roll d.
Proof.
  rewrite <- ok_unit. unfold lpcm_validate, lpcm_legal. rewrite !ok_rthen, ok_veq, !ok_vcond. unfold lpcm_size_ok, lpcm_rate_ok. cbn [In].
  destruct ((lp_flags d =? 0) || (lp_flags d =? 1)) eqn:F; cbn [is_ok]; lia.
Qed.
Lemma opus_roll_spec n roll : 1 <= n <= 96000 -> (opus_validate_roll n roll = Ok tt <-> roll <= 0 /\ (- roll - 1) * n < 3840 <= - roll * n).
Proof.
  intro Hn. destruct (opus_roll n) as [e| | | |] eqn:R.
  2-5: (exfalso; unfold opus_roll in R; replace (n =? 0) with false in R by lia; discriminate).
  destruct (C21_required_roll kIdOpus n e Hn R) as [(E1 & E2) _]; [reflexivity|].
  unfold opus_validate_roll. rewrite R. cbn [rbind]. rewrite <- ok_unit, ok_veq. split; [intro Q; assert (roll = e) as -> by lia; auto|].
  intros (Q1 & Q2). assert (roll = e); [|lia]. nia.
Qed.
Lemma opus_validate_spec d : u8P (op_version d) -> (opus_validate d = Ok tt <-> 1 <= op_version d <= 15 /\ op_channels d = 2 /\ op_gain d = 0 /\ op_family d = 0).
Proof.
  intro H. rewrite <- ok_unit. unfold opus_validate. rewrite !ok_rthen, ok_vcond, !ok_veq.
  assert (Z.shiftr (Z.land (op_version d) 240) 4 = op_version d / 16) as ->.
  { rewrite Z.shiftr_land. change (Z.shiftr 240 4) with (Z.ones 4). rewrite Z.land_ones by lia. rewrite Z.shiftr_div_pow2 by lia. change (2^4) with 16.
    apply Z.mod_small. pw. }
  destruct (op_version d / 16 >? 0) eqn:G; cbn [is_ok]; pw.
Qed.
Lemma aac_freq_spec i : is_ok (aac_freq i) = true <-> 0 <= i <= 12.
Proof.
  split.
  - destruct (aac_freq i) as [f| | | |] eqn:E; try discriminate. intros _. apply (aac_freq_ok _ _ E).
  - intro H. assert (In i [0;1;2;3;4;5;6;7;8;9;10;11;12]) as I by (cbn [In]; lia).
    cbn [In] in I. repeat (destruct I as [<-|I]; [reflexivity|]). contradiction.
Qed.
Lemma aac_validate_spec roll d : (veq roll (-1) >>> aac_validate d) = Ok tt <-> aac_legal roll d.
Proof.
  rewrite <- ok_unit. unfold aac_validate, aac_legal. rewrite !ok_rthen, !ok_veq, !ok_vcond.
  assert (is_ok (rbind (aac_freq (as_freq (aa_asc d))) (fun _ => Ok tt)) = is_ok (aac_freq (as_freq (aa_asc d)))) as -> by (destruct (aac_freq _); reflexivity).
  rewrite !andb_true_iff, !Z.eqb_eq, !Bool.eqb_true_iff, aac_freq_spec. tauto.
Qed.
Lemma flac_dec_spec n roll d : (veq roll 0 >>> flac_validate_dec n d) = Ok tt <-> flac_legal_to_decode n roll d.
Proof.
  rewrite <- ok_unit, ok_rthen, ok_veq, andb_true_iff, Z.eqb_eq. unfold flac_legal_to_decode.
  apply and_iff_compat_l. unfold flac_validate_dec, flac_info. destruct d as [|[ty pl] t]; [split; [discriminate|intros (? & ? & E & _); discriminate]|].
  cbn [fb_type fb_payload]. destruct (ty =? 0) eqn:T; cbn [negb].
  2: { split; [discriminate|]. intros (s & t' & E & _). injection E as -> _ _. lia. }
  assert (ty = 0) as -> by lia. destruct pl as [s|b]; [|split; [discriminate|intros (? & ? & E & _); discriminate]].
  cbn [rbind]. rewrite !ok_rthen, !ok_veq, !ok_vcond. unfold vrange. rewrite ok_vcond. unfold flac_rate_ok, flac_rates, flac_bps_ok. cbn [existsb].
  change (2^36) with 68719476736. split.
  - intro H. exists s, t. split; [reflexivity|]. cbn [In]. lia.
  - intros (s' & t' & E & H). injection E as <- <-. cbn [In] in H. lia.
Qed.
Lemma flac_enc_spec n roll d : (veq roll 0 >>> flac_validate_enc n d) = Ok tt <-> flac_legal_to_encode n roll d.
Proof.
  unfold flac_legal_to_encode. rewrite <- flac_dec_spec. rewrite <- !ok_unit, !ok_rthen. unfold flac_validate_enc. rewrite ok_rthen, andb_assoc.
  rewrite andb_true_iff. split; (intros [A B]; split; [exact A|]); rewrite <- ok_rthen, ok_unit, flac_dec_spec in A; destruct A as (_ & s & t & -> & _).
  - change (flac_info _) with (Ok s) in B. cbn [rbind] in B. rewrite !ok_rthen, !ok_veq, ok_vcond in B. intros s' t' E. injection E as <- <-.
    destruct (list_eq_dec _ _ _) as [M|M]; [|rewrite !andb_false_r in B; discriminate]. split; [lia|]. split; [lia|exact M].
  - change (flac_info _) with (Ok s). cbn [rbind]. rewrite !ok_rthen, !ok_veq, ok_vcond. destruct (B s t eq_refl) as (-> & -> & ->). 
    destruct (list_eq_dec _ _ _) as [M|M]; [reflexivity|congruence].
Qed.

Lemma okb_ex w : okb w = true <-> exists bs, wbits w = Ok bs.
Proof. unfold okb. destruct (wbits w); cbn [is_ok]; split; try discriminate; eauto; intros [? ?]; discriminate. Qed.
Lemma okb_sized inner : Forall winstr_wf inner -> okb (write_sized inner) = true -> okb inner = true.
Proof. intros Hw H. apply okb_ex in H as [bs H]. apply write_sized_ok in H as (ib & lo & H & _); [|exact Hw]. apply okb_ex. eauto. Qed.
Lemma okb_sized_intro inner ib : Forall winstr_wf inner -> wbits inner = Ok ib -> (length ib mod 8 = 0)%nat -> zlen ib <= 2^30 -> okb (write_sized inner) = true.
Proof.
  intros Hw E M L. unfold write_sized. rewrite temp_write_eq by exact Hw. rewrite E. change (map_res _ (Ok ib)) with (Ok (mkW (pack ib) (zlen ib))). cbn [w_off w_bytes]. change (2^30) with 1073741824 in L.
  replace (negb (zlen ib mod 8 =? 0)) with false by (unfold zlen; lia). 
  assert (zlen (pack ib) = Z.of_nat ((length ib + 7) / 8)) as -> by (unfold zlen; rewrite pack_length; reflexivity). unfold kMaxClassSize. change (2^28 - 1) with 268435455.
  unfold zlen in L. replace (Z.of_nat ((length ib + 7) / 8) >? 268435455) with false by lia. rewrite okb_app, okb_span, andb_true_r.
  unfold okb, wiso. destruct (iso_bytes_spec (Z.of_nat ((length ib + 7) / 8))) as (l & -> & _); [|reflexivity]. change (2^32) with 4294967296. lia.
Qed.

Lemma okb_sinfo s : sinfo_wf s -> (okb (write_sinfo s) = true <-> sinfo_fits s).
Proof.
  intros (H1 & H2 & H3 & H4 & H5 & H6 & H7 & H8 & H9). unfold write_sinfo. rewrite !okb_app, !okb_lit by lia. rewrite okb_lit64 by lia. rewrite okb_span. unfold sinfo_fits.
  change (2^5) with 32. change (2^3) with 8. pw.
Qed.
Lemma okb_fblocks l : Forall fblock_wf l -> Forall (fun b => match fb_payload b with FBlob x => zlen x < 2^32 | _ => True end) l ->
  (okb (write_fblocks l) = true <-> Forall fblock_fits l).
Proof.
  intros H L. induction l as [|b l IH]; [split; [constructor|reflexivity]|]. inversion H as [|? ? Hb Hl]; subst. inversion L as [|? ? Lb Ll]; subst. specialize (IH Hl Ll).
  cbn [write_fblocks]. rewrite !okb_app, okb_bool. cbn [andb]. rewrite andb_true_iff, IH, Forall_cons_iff. apply and_iff_compat_r.
  unfold write_fblock, fblock_fits. rewrite okb_app, okb_lit by lia. change (2^7) with 128. destruct Hb as [Ht Hp].
  destruct (fb_type b =? 0) eqn:T; destruct (fb_payload b) as [s|x]; try (rewrite okb_fail, andb_false_r; split; [discriminate|]; intros (_ & A & B); lia).
  - rewrite okb_app, okb_lit by lia. change (34 <? 2^24) with true. cbn [andb]. rewrite andb_true_iff, (okb_sinfo s Hp), Z.ltb_lt. apply Z.eqb_eq in T. rewrite T. split; [intros [A B]|intros (A & _ & B)]; (split; [lia|]); auto.
  - rewrite okb_app, okb_lit, okb_span by lia. pose proof (zlen_nonneg x). unfold u32. change (2^32) with 4294967296 in *. rewrite Z.mod_small by lia. change (2^24) with 16777216. unfold u8P in Ht. change (2^8) with 256 in Ht. lia.
Qed.
Lemma okb_write_aac roll d : aac_wf d -> zlen (aa_dsi_ext d) <= 2^21 -> zlen (aa_ext d) <= 2^21 ->
  (okb (write_aac roll d) = true <-> aac_legal roll d /\ aa_bufsize d < 2^24).
Proof.
  intros (H1 & H2 & H3 & H4 & H5 & H6 & H7 & (H8 & H9 & H10) & H11 & H12) L1 L2. unfold write_aac. rewrite !okb_app, !okb_wres, okb_lit by lia.
  rewrite <- aac_validate_spec, <- ok_unit, ok_rthen. set (inner := wlit (aa_oti d) 8 ++ _).
  assert (Forall winstr_wf (write_asc (aa_asc d) ++ wspan (aa_dsi_ext d))) as W0.
  { unfold write_asc. wf_split; first [apply wlit_wf|apply wbool_wf|apply wspan_wf; exact H11]; try pw. pose proof (u32_range (as_freq (aa_asc d))). pw. }
  assert (Forall winstr_wf inner) as Wi.
  { unfold inner, write_dsi. wf_split; first [apply wlit_wf; pw|apply wbool_wf|apply wspan_wf; exact H12|apply write_sized_wf; exact W0]. }
  split.
  - intro H. rewrite !andb_true_iff in H. destruct H as (V1 & V2 & _ & S). rewrite V1, V2. split; [reflexivity|].
    apply okb_sized in S; [|exact Wi]. unfold inner in S. rewrite !okb_app, !okb_lit in S by lia. lia.
  - intros [V B]. assert (aac_legal roll d) as Lg by (apply aac_validate_spec, ok_unit; rewrite ok_rthen; exact V).
    apply andb_true_iff in V as [V1 V2]. rewrite V1, V2.
    destruct Lg as (_ & T1 & T2 & T3 & _ & _ & T4 & T5 & T6 & _ & _ & _ & T7). cbn [andb]. change (2^8) with 256. replace (aa_tag d <? 256) with true by lia. cbn [andb].
    assert (exists ab, wbits (write_asc (aa_asc d) ++ wspan (aa_dsi_ext d)) = Ok ab /\ zlen ab = 16 + 8 * zlen (aa_dsi_ext d)) as (ab & Ea & La).
    { assert (okb (write_asc (aa_asc d) ++ wspan (aa_dsi_ext d)) = true) as O.
      { unfold write_asc. rewrite !okb_app, !okb_lit, !okb_bool, okb_span by lia. change (2^5) with 32. change (2^4) with 16. unfold u32. rewrite Z.mod_small by pw. lia. }
      apply okb_ex in O as [ab O]. exists ab. split; [exact O|]. unfold write_asc in O. repeat (apply wbits_app_ok in O as (? & ? & ? & O & ->)). 
      repeat match goal with
      | H : wbits (_ ++ _) = Ok _ |- _ => apply wbits_app_ok in H as (? & ? & ? & ? & ->)
      | H : wbits (wlit _ _) = Ok _ |- _ => apply wlit_ok in H as (_ & _ & ->)
      | H : wbits (wbool _) = Ok _ |- _ => apply wbool_ok in H as ->
      | H : wbits (wspan _) = Ok _ |- _ => apply wspan_ok in H as ->
      end. rewrite !zlen_app. unfold zlen. rewrite !bits_length, bytes_bits_length. cbn [length]. lia. }
    change (2^21) with 2097152 in *. pose proof (zlen_nonneg (aa_dsi_ext d)) as Z1. pose proof (zlen_nonneg (aa_ext d)) as Z2.
    assert (okb (write_sized (write_asc (aa_asc d) ++ wspan (aa_dsi_ext d))) = true) as S1.
    { apply (okb_sized_intro _ ab W0 Ea); [unfold zlen in La; lia|change (2^30) with 1073741824; lia]. }
    assert (okb inner = true) as S2.
    { unfold inner, write_dsi. rewrite !okb_app, !okb_lit, !okb_bool, okb_span by lia. rewrite S1. change (2^8) with 256. change (2^6) with 64. pw. }
    apply okb_ex in S2 as [ib S2]. apply (okb_sized_intro _ ib Wi S2).
    all: unfold inner, write_dsi in S2; apply wbits_app_ok in S2 as (i1 & r1 & I1 & S2 & ->); apply wbits_app_ok in S2 as (i2 & r2 & I2 & S2 & ->);
      apply wbits_app_ok in S2 as (i3 & r3 & I3 & S2 & ->); apply wbits_app_ok in S2 as (i4 & r4 & I4 & S2 & ->); apply wbits_app_ok in S2 as (i5 & r5 & I5 & S2 & ->);
      apply wbits_app_ok in S2 as (i6 & r6 & I6 & S2 & ->); apply wbits_app_ok in S2 as (i7 & r7 & I7 & S2 & ->); apply wbits_app_ok in S2 as (i8 & r8 & I8 & S2 & ->);
      apply wbits_app_ok in I8 as (i9 & r9 & I9 & I8 & ->);
      apply wlit_ok in I1 as (_ & _ & ->); apply wlit_ok in I2 as (_ & _ & ->); apply wbool_ok in I3 as ->; apply wbool_ok in I4 as ->;
      apply wlit_ok in I5 as (_ & _ & ->); apply wlit_ok in I6 as (_ & _ & ->); apply wlit_ok in I7 as (_ & _ & ->); apply wlit_ok in I9 as (_ & _ & ->);
      apply wspan_ok in S2 as ->; apply write_sized_ok in I8 as (ab' & lo & E' & M' & Lo & _ & ->); [|exact W0]; rewrite Ea in E'; injection E' as <-;
      unfold wiso in Lo; destruct (iso_bytes_spec (zlen ab / 8)) as (l & El & _ & _ & N1 & N2); [change (2^32) with 4294967296; lia|]; rewrite El in Lo; apply wspan_ok in Lo as ->;
      rewrite !app_length || rewrite !zlen_app; unfold zlen in *; rewrite ?app_length, !bits_length, !bytes_bits_length; cbn [length]; change (2^30) with 1073741824.
    + lia.
    + lia.
Qed.

(* Whatever was written before: the payload of a Codec Config OBU is accepted exactly when every field has a legal value and
   fits.  The three size hypotheses exclude blobs that no OBU could hold. *)
Definition blobs_bounded (d : dconf) : Prop :=
  match d with
  | DAac d => zlen (aa_dsi_ext d) <= 2^21 /\ zlen (aa_ext d) <= 2^21
  | DFlac d => Forall (fun b => match fb_payload b with FBlob x => zlen x < 2^32 | _ => True end) d
  | _ => True
  end.
Lemma okb_write_dconf c : codec_wf c -> 1 <= cc_frame c <= 96000 -> blobs_bounded (cc_dec c) ->
  (okb (write_dconf c) = true <-> dec_legal flac_legal_to_encode c /\ dec_fits (cc_dec c)).
Proof.
  intros (_ & H2 & H3 & H4 & Hd) Hn Hb. unfold write_dconf, dec_legal. change (fourcc 79 112 117 115) with kIdOpus. change (fourcc 109 112 52 97) with kIdAac.
  change (fourcc 102 76 97 67) with kIdFlac. change (fourcc 105 112 99 109) with kIdLpcm.
  assert (forall d, cc_dec c = DOpus d -> (okb (write_opus (cc_frame c) (cc_roll c) d) = true <-> opus_legal (cc_frame c) (cc_roll c) d)) as K1.
  { intros d E. rewrite E in Hd. destruct Hd as (D1 & D2 & D3 & D4 & D5 & D6). unfold write_opus, opus_legal.
    rewrite !okb_app, !okb_wres, !okb_lit, okb_signed16 by lia. rewrite <- opus_roll_spec by exact Hn. rewrite <- opus_validate_spec by exact D1.
    rewrite <- !ok_unit. destruct (is_ok _); cbn [andb]; [|split; [discriminate|intros [A _]; discriminate]]. destruct (is_ok _); cbn [andb]; [|split; [discriminate|intros [_ A]; discriminate]].
    split; [auto|]. intros _. pw. }
  assert (forall d, cc_dec c = DLpcm d -> (okb (write_lpcm (cc_roll c) d) = true <-> lpcm_legal (cc_roll c) d)) as K2.
  { intros d E. rewrite E in Hd. destruct Hd as (D1 & D2 & D3). unfold write_lpcm. rewrite !okb_app, !okb_wres, !okb_lit by lia. rewrite <- lpcm_validate_spec, <- ok_unit.
    destruct (is_ok _); cbn [andb]; [|split; discriminate]. split; [auto|]. intros _. pw. }
  assert (forall d, cc_dec c = DAac d -> (okb (write_aac (cc_roll c) d) = true <-> aac_legal (cc_roll c) d /\ dec_fits (DAac d))) as K3.
  { intros d E. rewrite E in Hd, Hb. destruct Hb as [B1 B2]. rewrite (okb_write_aac _ d Hd B1 B2). cbn [dec_fits]. tauto. }
  assert (forall d, cc_dec c = DFlac d -> (okb (write_flac (cc_frame c) (cc_roll c) d) = true <-> flac_legal_to_encode (cc_frame c) (cc_roll c) d /\ dec_fits (DFlac d))) as K4.
  { intros d E. rewrite E in Hd, Hb. unfold write_flac. rewrite !okb_app, !okb_wres. rewrite <- flac_enc_spec, <- ok_unit, ok_rthen. cbn [dec_fits]. rewrite <- (okb_fblocks d Hd Hb).
    rewrite !andb_true_iff. tauto. }
  destruct (cc_dec c) as [d|d|d|d] eqn:E.
  - destruct (Z.eqb_spec (cc_codec c) kIdOpus) as [Q|Q]; [rewrite (K1 d eq_refl); cbn [dec_fits]; tauto|].
    repeat match goal with |- context[if ?b then _ else _] => destruct b end; rewrite okb_fail; split; try discriminate; tauto.
  - destruct (Z.eqb_spec (cc_codec c) kIdOpus) as [Q|Q]; [rewrite okb_fail, Q; split; [discriminate|]; intros [[A _] _]; discriminate|].
    destruct (Z.eqb_spec (cc_codec c) kIdLpcm) as [Q2|Q2]; [rewrite okb_fail, Q2; split; [discriminate|]; intros [[A _] _]; discriminate|].
    destruct (Z.eqb_spec (cc_codec c) kIdAac) as [Q3|Q3]; [rewrite (K3 d eq_refl); tauto|].
    destruct (_ =? kIdFlac); rewrite okb_fail; split; try discriminate; tauto.
  - destruct (Z.eqb_spec (cc_codec c) kIdOpus) as [Q|Q]; [rewrite okb_fail, Q; split; [discriminate|]; intros [[A _] _]; discriminate|].
    destruct (Z.eqb_spec (cc_codec c) kIdLpcm) as [Q2|Q2]; [rewrite okb_fail, Q2; split; [discriminate|]; intros [[A _] _]; discriminate|].
    destruct (Z.eqb_spec (cc_codec c) kIdAac) as [Q3|Q3]; [rewrite okb_fail, Q3; split; [discriminate|]; intros [[A _] _]; discriminate|].
    destruct (Z.eqb_spec (cc_codec c) kIdFlac) as [Q4|Q4]; [rewrite (K4 d eq_refl); tauto|]. rewrite okb_fail; split; try discriminate; tauto.
  - destruct (Z.eqb_spec (cc_codec c) kIdOpus) as [Q|Q]; [rewrite okb_fail, Q; split; [discriminate|]; intros [[A _] _]; discriminate|].
    destruct (Z.eqb_spec (cc_codec c) kIdLpcm) as [Q2|Q2]; [rewrite (K2 d eq_refl); cbn [dec_fits]; tauto|].
    repeat match goal with |- context[if ?b then _ else _] => destruct b end; rewrite okb_fail; split; try discriminate; tauto.
Qed.
Theorem C21_writer_accepts_exactly : forall c before w1,
  codec_wf c -> blobs_bounded (cc_dec c) -> Forall winstr_wf before -> wrun before w_empty = (Ok tt, w1) ->
  (is_ok (fst (wrun (write_codec_config LebMin c) w1)) = true <-> legal_to_encode c /\ dec_fits (cc_dec c)).
Proof.
  intros c before w1 Hc Hb Hw E1. destruct (wrun_holds _ _ Hw E1) as (pre & _ & H1).
  rewrite okb_wrun; [|apply write_codec_config_wf; [exact I|exact Hc]|exists pre; exact H1].
  pose proof Hc as (U1 & U2 & U3 & U4 & _). unfold write_codec_config. rewrite !okb_app, okb_signed16, okb_wcheck, okb_lit by lia.
  rewrite !okb_uleb_min by assumption. unfold legal_to_encode. cbn [andb]. replace (cc_codec c <? 2^32) with true by (unfold u32P in *; lia). cbn [andb].
  unfold frame_size_ok. destruct ((1 <=? cc_frame c) && (cc_frame c <=? 96000)) eqn:F; cbn [andb]; [|split; [discriminate|intros [[A _] _]; lia]].
  rewrite okb_write_dconf; [|exact Hc|lia|exact Hb]. split; [intros [A B]|intros [[_ A] B]]; repeat split; try assumption; lia.
Qed.

Theorem C21_reader_accepts_only_legal : forall src cap fuel p h n c q,
  Forall byteP src -> (1 <= cap)%nat -> (8 <= fuel)%nat -> 0 <= p <= 8 * zlen src ->
  fst (crun fuel (read_at p (read_codec_config h n)) (r_create cap src)) = Ok (c, q) -> legal_to_decode c.
Proof.
  intros src cap fuel p h n c q Hs Hc Hf Hp E. rewrite crun_read_at in E by assumption.
  unfold at_result in E. destruct (arun _ _) as [[x|e| | |] c'] eqn:R; try discriminate. injection E as -> _.
  set (c0 := mkC _ _ _) in R. assert (cok c0) as K0 by (unfold c0, cok, zlen in *; cbn [c_pos c_bits]; rewrite bytes_bits_length; lia). clearbody c0.
  unfold read_codec_config in R. apply arun_bind_ok in R as (id & c1 & R1 & R). pose proof (arun_cok_ok _ _ _ _ K0 R1) as K1.
  apply arun_bind_ok in R as (codec & c2 & R2 & R). pose proof (arun_cok_ok _ _ _ _ K1 R2) as K2.
  apply arun_bind_ok in R as (m & c3 & R3 & R). pose proof (arun_cok_ok _ _ _ _ K2 R3) as K3.
  apply arun_rcheck_ok in R as [F R]. apply arun_bind_ok in R as (roll & c4 & R4 & R). pose proof (arun_cok_ok _ _ _ _ K3 R4) as K4.
  apply arun_bind_ok in R as (d & c5 & D & R). cbn [arun] in R. injection R as <- _. unfold legal_to_decode, dec_legal. cbn [cc_frame cc_dec cc_codec cc_roll].
  unfold frame_size_ok in F. split; [lia|]. unfold read_dconf in D.
  change (fourcc 79 112 117 115) with kIdOpus. change (fourcc 109 112 52 97) with kIdAac. change (fourcc 102 76 97 67) with kIdFlac. change (fourcc 105 112 99 109) with kIdLpcm.
  destruct (codec =? kIdOpus) eqn:I1.
  { apply arun_bind_ok in D as (x & c6 & D & D'). cbn [arun] in D'. injection D' as <- _. split; [lia|]. unfold read_opus in D. apply arun_rres_ok in D as ([] & V & D).
    apply arun_bind_ok in D as (ve & c7 & D1 & D). destruct (arun_lit_range 8 8 c4 ve c7 K4 ltac:(lia) eq_refl D1) as (Rv & _).
    do 5 (apply arun_bind_ok in D as (? & ? & _ & D)). apply arun_rres_ok in D as ([] & V2 & D). cbn [arun] in D. injection D as <- _.
    apply opus_roll_spec in V; [|lia]. split; [exact V|]. apply opus_validate_spec in V2; [exact V2|]. cbn [op_version].  exact Rv. }
  destruct (codec =? kIdLpcm) eqn:I2.
  { apply arun_bind_ok in D as (x & c6 & D & D'). cbn [arun] in D'. injection D' as <- _. split; [lia|]. unfold read_lpcm in D.
    do 3 (apply arun_bind_ok in D as (? & ? & _ & D)). apply arun_rres_ok in D as ([] & V2 & D). cbn [arun] in D. injection D as <- _. apply lpcm_validate_spec. exact V2. }
  destruct (codec =? kIdAac) eqn:I3.
  { apply arun_bind_ok in D as (x & c6 & D & D'). cbn [arun] in D'. injection D' as <- _. split; [lia|]. unfold read_aac in D.
    do 14 (apply arun_bind_ok in D as (? & ? & _ & D)). apply arun_rres_ok in D as ([] & V & D). cbv zeta in D. apply arun_rres_ok in D as ([] & V2 & D).
    cbn [arun] in D. injection D as <- _. apply aac_validate_spec. rewrite V. exact V2. }
  destruct (codec =? kIdFlac) eqn:I4; [|discriminate].
  apply arun_bind_ok in D as (x & c6 & D & D'). cbn [arun] in D'. injection D' as <- _. split; [lia|]. unfold read_flac in D. apply arun_rres_ok in D as ([] & V & D).
  apply arun_bind_ok in D as (? & ? & _ & D). apply arun_rres_ok in D as ([] & V2 & D). cbn [arun] in D. injection D as <- _. apply flac_dec_spec. rewrite V. exact V2.
Qed.

(* The output rate, input rate and bit depth the library reports for a codec config. *)
Definition mpeg4_rates : list (Z * Z) :=
  [(0, 96000); (1, 88200); (2, 64000); (3, 48000); (4, 44100); (5, 32000); (6, 24000); (7, 22050); (8, 16000); (9, 12000); (10, 11025); (11, 8000); (12, 7350)].
Definition reported (int_pcm_bits : Z) (d : dconf) (out inp depth : Z) : Prop :=
  match d with
  | DOpus d => out = 48000 /\ inp = op_rate d /\ depth = 32
  | DLpcm d => out = lp_rate d /\ inp = lp_rate d /\ depth = lp_size d
  | DAac d => In (as_freq (aa_asc d), out) mpeg4_rates /\ inp = out /\ depth = int_pcm_bits
  | DFlac d => forall s t, d = mkFB 0 (FInfo s) :: t -> out = si_rate s /\ inp = si_rate s /\ depth = si_bps s + 1
  end.
Theorem C21_reported_rates : forall bits c, legal_to_decode c ->
  exists out inp depth, finish_codec_config bits c = Ok (c, (out, inp, depth)) /\ reported bits (cc_dec c) out inp depth.
Proof.
  intros bits c [_ L]. unfold finish_codec_config, codec_stats, dec_legal in *.
  change (fourcc 79 112 117 115) with kIdOpus in L. change (fourcc 109 112 52 97) with kIdAac in L. change (fourcc 102 76 97 67) with kIdFlac in L. change (fourcc 105 112 99 109) with kIdLpcm in L.
  destruct (cc_dec c) as [d|d|d|d]; destruct L as [-> L].
  - change (kIdOpus =? kIdOpus) with true. exists 48000, (op_rate d), 32. split; reflexivity || (cbn [reported]; auto).
  - change (kIdAac =? kIdOpus) with false. change (kIdAac =? kIdLpcm) with false. change (kIdAac =? kIdAac) with true. cbn iota.
    destruct L as (_ & _ & _ & _ & _ & _ & _ & _ & _ & _ & _ & _ & L).
    assert (In (as_freq (aa_asc d)) [0;1;2;3;4;5;6;7;8;9;10;11;12]) as I by (cbn [In]; lia). cbn [In] in I. cbn [reported].
    repeat (destruct I as [E|I]; [rewrite <- E; eexists; eexists; eexists; split; [reflexivity|]; split; [|split; reflexivity]; cbn [mpeg4_rates In]; tauto|]). contradiction.
  - change (kIdFlac =? kIdOpus) with false. change (kIdFlac =? kIdLpcm) with false. change (kIdFlac =? kIdAac) with false. change (kIdFlac =? kIdFlac) with true. cbn iota.
    destruct L as (_ & s & t & -> & L1 & L2 & _). change (flac_info _) with (Ok s). cbn [rbind]. cbn [In] in L1, L2.
    assert (flac_rate_ok (si_rate s) = true) as -> by (unfold flac_rate_ok, flac_rates; cbn [existsb]; lia).
    assert (flac_bps_ok (si_bps s) = true) as -> by (unfold flac_bps_ok; lia). change (vcond true) with (Ok tt). cbn [rthen rbind fst].
    replace (si_rate s =? 0) with false by lia. cbn [rbind]. eexists; eexists; eexists; split; [reflexivity|]. cbn [reported]. intros s' t' E. injection E as <- <-.
    split; [reflexivity|]. split; [reflexivity|]. unfold u8. change (2^8) with 256. rewrite Z.mod_small; lia.
  - change (kIdLpcm =? kIdOpus) with false. change (kIdLpcm =? kIdLpcm) with true. cbn iota. destruct L as (_ & _ & L1 & L2). cbn [In] in L1, L2.
    assert (lpcm_rate_ok (lp_rate d) = true) as -> by (unfold lpcm_rate_ok; lia). assert (lpcm_size_ok (lp_size d) = true) as -> by (unfold lpcm_size_ok; lia).
    change (vcond true) with (Ok tt). cbn [rthen rbind fst]. replace (lp_rate d =? 0) with false by lia. cbn [rbind]. eexists; eexists; eexists; split; [reflexivity|]. cbn [reported]. auto.
Qed.

Example C21_accept_ex :
  legal_to_encode (mkCC 3 kIdLpcm 960 0 (DLpcm (mkLpcm 1 24 44100))) /\ dec_fits (DLpcm (mkLpcm 1 24 44100)) /\
  ~ legal_to_encode (mkCC 3 kIdLpcm 960 0 (DLpcm (mkLpcm 1 24 44101))).
Proof.
  split; [split; [cbn [cc_frame]; lia|]; split; [reflexivity|]; unfold lpcm_legal; cbn [In lp_flags lp_size lp_rate cc_roll]; lia|]. split; [exact I|].
  intros [_ [_ (_ & _ & _ & H)]]. cbn [In lp_rate] in H. lia.
Qed.

(* ------------------------------------------------------------------ parameter definitions (C23) *)
(* Validate(): a positive rate; demixing and recon gain definitions (types 1 and 2) carry their schedule, of one subblock. *)
Definition definition_valid (d : pdef) : Prop :=
  pb_rate (pd_base d) <> 0 /\
  (pd_type (pd_kind d) = 1 \/ pd_type (pd_kind d) = 2 ->
   exists s, pb_sched (pd_base d) = Some s /\ s_dur s <> 0 /\ s_const s = s_dur s).
Lemma pd_validate_spec d : pd_validate d = Ok tt <-> definition_valid d.
Proof.
  rewrite <- ok_unit. unfold pd_validate, pb_validate, definition_valid. rewrite ok_rthen, ok_vcond, andb_true_iff, negb_true_iff, Z.eqb_neq.
  apply and_iff_compat_l. destruct ((pd_type (pd_kind d) =? 1) || (pd_type (pd_kind d) =? 2)) eqn:T.
  - rewrite !ok_rthen, !ok_vcond, ok_veq. unfold mode0, pb_dur, pb_const. destruct (pb_sched (pd_base d)) as [s|].
    + split; [intros H _; exists s; split; [reflexivity|lia]|]. intros H. destruct H as (s' & E & H); [lia|]. injection E as <-. lia.
    + split; [discriminate|]. intro H. destruct H as (s' & E & H); [lia|]. discriminate.
  - split; [intros _ H; lia|reflexivity].
Qed.
(* A definition (other than an extension) is written only if it is valid; whatever was written before. *)
Theorem C23_writer_only_accepts_valid : forall g d before w1,
  lebgen_wf g -> pdef_wf d -> is_extended (pd_kind d) = false -> Forall winstr_wf before -> wrun before w_empty = (Ok tt, w1) ->
  is_ok (fst (wrun (write_pdef g d) w1)) = true -> definition_valid d.
Proof.
  intros g d before w1 Hg Hd Hx Hb E1. destruct (wrun_holds _ _ Hb E1) as (pre & _ & H1). rewrite okb_wrun; [|apply write_pdef_wf; assumption|exists pre; exact H1].
  intro O. apply pd_validate_spec. apply ok_unit. unfold write_pdef in O. unfold pd_validate.
  destruct (pd_kind d); try discriminate; unfold write_pbase in O; rewrite !okb_app, okb_wres in O; destruct (is_ok _); reflexivity || discriminate.
Qed.
(* The reader, on arbitrary data, when the schedule is in the definition (mode 1 is not checked: C23_mode1_not_validated_refuted). *)
Theorem C23_reader_only_accepts_definition_valid_partial : forall d0 src cap fuel p d q,
  Forall byteP src -> (1 <= cap)%nat -> (8 <= fuel)%nat -> 0 <= p <= 8 * zlen src -> is_extended (pd_kind d0) = false ->
  fst (crun fuel (read_at p (read_pdef d0)) (r_create cap src)) = Ok (d, q) -> pb_sched (pd_base d) <> None -> definition_valid d.
Proof.
  intros d0 src cap fuel p d q Hs Hc Hf Hp Hx E Hn. destruct (pb_sched (pd_base d)) as [s|] eqn:S; [|contradiction].
  apply pd_validate_spec. eapply C23_reader_accepts_valid_partial; eassumption.
Qed.

(* ------------------------------------------------------------------ down-mix modes (C24) *)
Definition dmixp_modes : list Z := [0; 1; 2; 4; 5; 6].
Lemma dmixp_spec m : dmixp_ok m = true <-> In m dmixp_modes.
Proof. unfold dmixp_ok, dmixp_modes. cbn [In]. lia. Qed.
Theorem C24_written_modes : forall g m r before w1,
  0 <= m < 2^8 -> 0 <= r < 32 -> Forall winstr_wf before -> wrun before w_empty = (Ok tt, w1) ->
  (is_ok (fst (wrun (write_pdata g (DDemix m r)) w1)) = true <-> In m dmixp_modes).
Proof.
  intros g m r before w1 Hm Hr Hb E1. destruct (wrun_holds _ _ Hb E1) as (pre & _ & H1). change (2^8) with 256 in Hm. rewrite okb_wrun; [|cbn [write_pdata]; unfold write_demix; wf_split; first [apply wlit_wf; pw|apply wcheck_wf]|exists pre; exact H1].
  cbn [write_pdata]. unfold write_demix. rewrite !okb_app, !okb_lit, okb_wcheck by lia. change (2^3) with 8. change (2^5) with 32. rewrite !andb_true_iff, dmixp_spec.
  split; [tauto|]. intro I. repeat split; try exact I; unfold dmixp_modes in I; cbn [In] in I; lia.
Qed.
Theorem C24_read_modes : forall src cap fuel p k x q,
  Forall byteP src -> (1 <= cap)%nat -> (8 <= fuel)%nat -> 0 <= p <= 8 * zlen src -> pd_type k = 1 -> is_extended k = false ->
  (fst (crun fuel (read_at p (read_pdata k)) (r_create cap src)) = Ok (x, q) ->
   exists m r, x = DDemix m r /\ In m dmixp_modes /\ q = p + 8).
Proof.
  intros src cap fuel p k x q Hs Hc Hf Hp T Hx E. rewrite crun_read_at in E by assumption.
  unfold at_result in E. destruct (arun _ _) as [[y|e| | |] c'] eqn:R; try discriminate. injection E as -> <-.
  set (c0 := mkC _ _ _) in R. assert (cok c0) as K0 by (unfold c0, cok, zlen in *; cbn [c_pos c_bits]; rewrite bytes_bits_length; lia).
  destruct k; try discriminate. cbn [read_pdata] in R. apply arun_bind_ok in R as ([m r] & c1 & R & R'). cbn [arun fst snd] in R'. injection R' as <- <-.
  unfold read_demix in R. apply arun_bind_ok in R as (m' & c2 & R1 & R). destruct (arun_lit_inv 3 8 c0 m' c2 K0 eq_refl R1) as (_ & Q1 & K1).
  apply arun_bind_ok in R as (r' & c3 & R2 & R). destruct (arun_lit_inv 5 8 c2 r' c3 K1 eq_refl R2) as (_ & Q2 & K2).
  apply arun_rcheck_ok in R as [M R]. cbn [arun] in R. injection R as -> -> <-. exists m, r. split; [reflexivity|]. split; [apply dmixp_spec; exact M|].
  rewrite Q2, Q1. unfold c0. cbn [c_pos]. lia.
Qed.
Example C24_modes_ex : is_ok (fst (wrun (write_pdata LebMin (DDemix 4 1)) w_empty)) = true /\ is_ok (fst (wrun (write_pdata LebMin (DDemix 3 1)) w_empty)) = false.
Proof. split; reflexivity. Qed.
