(* C21: Codec Config OBU. *)
From Verif Require Import Base WriteBuf ReadBuf Leb BufSpec LebSpec BitFacts WriteBufFacts ReadBufFacts LebFacts
  ParseFacts EndToEnd ObuHeader ObuHeaderFacts FrameFacts SeqFacts SimpleObus BndFacts CodecConfig PropsObu.

(* ---- well-formed C++ values (each field in the range of its type) ---- *)
Definition u8P (v : Z) := 0 <= v < 2^8.
Definition u16P (v : Z) := 0 <= v < 2^16.
Definition s16P (v : Z) := -2^15 <= v < 2^15.
Definition lpcm_wf (d : lpcm) := u8P (lp_flags d) /\ u8P (lp_size d) /\ u32P (lp_rate d).
Definition opus_wf (d : opus) := u8P (op_version d) /\ u8P (op_channels d) /\ u16P (op_pre_skip d) /\ u32P (op_rate d) /\
  s16P (op_gain d) /\ u8P (op_family d).
Definition asc_wf (a : asc) := u8P (as_type a) /\ -2^31 <= as_freq a < 2^31 /\ u8P (as_channels a).
Definition aac_wf (d : aac) := u8P (aa_tag d) /\ u8P (aa_oti d) /\ u8P (aa_stream d) /\ u32P (aa_bufsize d) /\ u32P (aa_max d) /\
  u32P (aa_avg d) /\ u8P (aa_dsi_tag d) /\ asc_wf (aa_asc d) /\ Forall byteP (aa_dsi_ext d) /\ Forall byteP (aa_ext d).
Definition sinfo_wf (s : sinfo) := u16P (si_minb s) /\ u16P (si_maxb s) /\ u32P (si_minf s) /\ u32P (si_maxf s) /\ u32P (si_rate s) /\
  u8P (si_channels s) /\ u8P (si_bps s) /\ 0 <= si_total s < 2^64 /\ length (si_md5 s) = 16%nat /\ Forall byteP (si_md5 s).
Definition fblock_wf (b : fblock) := u8P (fb_type b) /\
  match fb_payload b with FInfo s => sinfo_wf s | FBlob x => Forall byteP x end.
Definition dconf_wf (d : dconf) :=
  match d with DOpus d => opus_wf d | DAac d => aac_wf d | DFlac d => Forall fblock_wf d | DLpcm d => lpcm_wf d end.
Definition codec_wf (c : codec_config) := u32P (cc_id c) /\ u32P (cc_codec c) /\ u32P (cc_frame c) /\ s16P (cc_roll c) /\ dconf_wf (cc_dec c).

Ltac pw := unfold u8P, u16P, u32P, s16P in *; change (2^8) with 256 in *; change (2^16) with 65536 in *;
  change (2^32) with 4294967296 in *; change (2^15) with 32768 in *; change (2^31) with 2147483648 in *;
  change (2^64) with 18446744073709551616 in *; lia.
Ltac lit := apply rtb_rt, rt_lit; pw.

(* ---- LPCM ---- *)
Lemma write_lpcm_wf roll d : lpcm_wf d -> Forall winstr_wf (write_lpcm roll d).
Proof. intros (H1 & H2 & H3). unfold write_lpcm. wf_split; [apply wres_wf|apply wlit_wf; pw..]. Qed.
Lemma rt_lpcm roll d : lpcm_wf d -> rtb (write_lpcm roll d) (read_lpcm roll) d.
Proof.
  intros (H1 & H2 & H3). unfold write_lpcm, read_lpcm. apply rtb_wres. intro V.
  eapply rtb_seq; [lit|]. eapply rtb_seq; [lit|]. eapply rtb_last; [lit|].
  destruct d as [f s r]; cbn [lp_flags lp_size lp_rate] in *. eapply rtb_rres; [exact V|]. apply rtb_ret_eq. reflexivity.
Qed.

(* ---- Opus ---- *)
Lemma write_opus_wf n roll d : opus_wf d -> Forall winstr_wf (write_opus n roll d).
Proof.
  intros (H1 & H2 & H3 & H4 & H5 & H6). unfold write_opus.
  wf_split; [apply wres_wf|apply wres_wf|apply wlit_wf; pw..|apply wsigned16_wf|apply wlit_wf; pw].
Qed.
Lemma rt_opus n roll d : opus_wf d -> rtb (write_opus n roll d) (read_opus n roll) d.
Proof.
  intros (H1 & H2 & H3 & H4 & H5 & H6). unfold write_opus, read_opus. apply rtb_wres. intro R. apply rtb_wres. intro V.
  eapply rtb_rres; [exact R|].
  eapply rtb_seq; [lit|]. eapply rtb_seq; [lit|]. eapply rtb_seq; [lit|]. eapply rtb_seq; [lit|].
  eapply rtb_seq; [apply rtb_rt, rt_signed16; pw|]. eapply rtb_last; [lit|].
  destruct d as [v c p r g f]; cbn [op_version op_channels op_pre_skip op_rate op_gain op_family] in *.
  eapply rtb_rres; [exact V|]. apply rtb_ret_eq. reflexivity.
Qed.

(* ---- AAC ---- *)
Definition sized {X B} (body : rprog X) (k : X -> list Z -> rprog B) : rprog B :=
  e <- expected_position ;; x <- body ;; y <- advance_to e ;; k x y.

Lemma parses_sized {X B} (body : rprog X) (k : X -> list Z -> rprog B) size ib x ext b lo :
  0 <= size <= kMaxClassSize -> wbits (wiso size) = Ok lo ->
  parses body ib x -> Forall byteP ext -> zlen ext <= 2^21 -> zlen ib + 8 * zlen ext = 8 * size ->
  parses (k x ext) [] b -> parses (sized body k) (lo ++ ib ++ bytes_bits ext) b.
Proof.
  intros Hs Elo Pb He Hl Hsz Pk pre rest v. unfold sized, expected_position.
  assert (parses (riso kMaxClassSize) lo size) as Pi.
  { apply (rt_iso size kMaxClassSize); [unfold kMaxClassSize in *; change (2^28) with 268435456 in *; change (2^32) with 4294967296; lia| |exact Elo].
    unfold kMaxClassSize in *. change (2^28) with 268435456 in *. change (2^32) with 4294967296. lia. }
  rewrite arun_bind, arun_bind. rewrite <- !app_assoc.
  destruct (Pi pre (ib ++ bytes_bits ext ++ rest) v) as [v1 Q1]. rewrite Q1. rewrite arun_bind, arun_rtell. cbn [c_bits c_pos arun].
  rewrite arun_bind. destruct (Pb (pre ++ lo) (bytes_bits ext ++ rest) (Some true)) as [v2 Q2].
  rewrite app_length in Q2. rewrite <- !app_assoc in Q2. rewrite Q2.
  rewrite arun_bind. unfold advance_to at 1. rewrite arun_bind, arun_rtell. cbn [c_bits c_pos].
  set (L := (length pre + length lo + length ib)%nat).
  assert (forall v3, exists v', arun (k x ext) (mkC (pre ++ lo ++ ib ++ bytes_bits ext ++ rest) (L + length (bytes_bits ext)) v3) =
            (Ok b, mkC (pre ++ lo ++ ib ++ bytes_bits ext ++ rest) (length pre + length (lo ++ ib ++ bytes_bits ext)) v')) as K.
  { intro v3. destruct (Pk (pre ++ lo ++ ib ++ bytes_bits ext) rest v3) as [v' Q]. exists v'.
    cbn [app length] in Q. rewrite <- !app_assoc in Q. rewrite Nat.add_0_r in Q. 
    replace (length (pre ++ lo ++ ib ++ bytes_bits ext)) with (L + length (bytes_bits ext))%nat in Q by (rewrite !app_length; unfold L; lia).
    rewrite Q. do 2 f_equal. rewrite !app_length. unfold L. lia. }
  unfold zlen in *. rewrite bytes_bits_length in K.
  destruct (Z.of_nat L =? Z.of_nat (length pre + length lo) + size * 8) eqn:E.
  - assert (ext = []) as -> by (destruct ext; [reflexivity|cbn [length] in *; unfold L in *; lia]). cbn [arun].
    destruct (K (Some true)) as [v' K']. exists v'. cbn [length] in K'. replace (L + 8 * 0)%nat with L in K' by lia. exact K'.
  - replace (Z.of_nat L <? Z.of_nat (length pre + length lo) + size * 8) with true by (unfold L in *; lia).
    replace (Z.to_nat ((Z.of_nat (length pre + length lo) + size * 8 - Z.of_nat L) / 8)) with (length ext) by (unfold L; lia).
    replace ((Z.of_nat (length pre + length lo) + size * 8 - Z.of_nat L) / 8 >? 2 ^ 21) with false
      by (change (2^21) with 2097152 in *; unfold L; lia).
    destruct (parses_span ext He (pre ++ lo ++ ib) rest (Some true)) as [v3 Q3].
    replace (length (pre ++ lo ++ ib)) with L in Q3 by (rewrite !app_length; unfold L; lia). rewrite <- !app_assoc in Q3.
    rewrite Q3. rewrite bytes_bits_length. apply K.
Qed.

Lemma write_asc_ok a bs : asc_wf a -> wbits (write_asc a) = Ok bs -> length bs = 16%nat.
Proof.
  intros _ H. unfold write_asc in H.
  apply wbits_app_ok in H as (b1 & r1 & H1 & H & ->). apply wbits_app_ok in H as (b2 & r2 & H2 & H & ->).
  apply wbits_app_ok in H as (b3 & r3 & H3 & H & ->). apply wbits_app_ok in H as (b4 & r4 & H4 & H & ->).
  apply wbits_app_ok in H as (b5 & b6 & H5 & H6 & ->).
  apply wlit_ok in H1 as (_ & _ & ->). apply wlit_ok in H2 as (_ & _ & ->). apply wlit_ok in H3 as (_ & _ & ->).
  unfold wbool in *. apply wlit_ok in H4 as (_ & _ & ->). apply wlit_ok in H5 as (_ & _ & ->). apply wlit_ok in H6 as (_ & _ & ->).
  rewrite !app_length, !bits_length. reflexivity.
Qed.
Lemma write_asc_wf a : asc_wf a -> Forall winstr_wf (write_asc a).
Proof.
  intros (H1 & H2 & H3). unfold write_asc. wf_split; [apply wlit_wf; pw| |apply wlit_wf; pw|apply wbool_wf..].
  apply wlit_wf. pose proof (u32_range (as_freq a)). pw.
Qed.
Lemma aac_freq_ok i f : aac_freq i = Ok f -> 0 <= i <= 12 /\ 7350 <= f <= 96000.
Proof.
  unfold aac_freq. destruct ((i =? 13) || (i =? 14)) eqn:E; [discriminate|]. destruct (i <? 0) eqn:N; [discriminate|].
  destruct (nth_error aac_freqs (Z.to_nat i)) as [x|] eqn:Q; [|discriminate]. intros [= <-].
  assert (Z.to_nat i < length aac_freqs)%nat as L by (apply nth_error_Some; congruence).
  cbn [aac_freqs length] in L. split; [lia|].
  apply nth_error_In in Q. unfold aac_freqs in Q. cbn [In] in Q. lia.
Qed.
Lemma rt_asc a f : asc_wf a -> aac_freq (as_freq a) = Ok f -> rt (write_asc a) read_asc a.
Proof.
  intros (H1 & H2 & H3) F. pose proof (aac_freq_ok _ _ F) as [R _]. unfold write_asc, read_asc.
  assert (u32 (as_freq a) = as_freq a) as -> by (unfold u32; apply Z.mod_small; pw).
  eapply rt_seq; [apply rt_lit; pw|]. eapply rt_seq; [apply rt_lit; pw|]. eapply rt_rres; [exact F|].
  eapply rt_seq; [apply rt_lit; pw|]. eapply rt_seq; [apply rt_bool|]. eapply rt_seq; [apply rt_bool|].
  eapply rt_last; [apply rt_bool|]. apply rt_ret_eq. destruct a; reflexivity.
Qed.

Lemma write_sized_wf inner : Forall winstr_wf inner -> Forall winstr_wf (write_sized inner).
Proof.
  intro Hw. unfold write_sized. destruct (temp_write inner) as [t|c| | |] eqn:E; try (repeat constructor).
  destruct (temp_write_ok _ _ Hw E) as (bs & _ & -> & _).
  destruct (negb _); [repeat constructor|]. pose proof (zlen_nonneg (pack bs)).
  destruct (zlen (pack bs) >? kMaxClassSize) eqn:L; [repeat constructor|].
  wf_split; [apply wiso_wf|apply wspan_wf, pack_spec].
  unfold kMaxClassSize in L. change (2^28) with 268435456 in L. change (2^32) with 4294967296. lia.
Qed.
Lemma write_sized_ok inner bs : Forall winstr_wf inner -> wbits (write_sized inner) = Ok bs ->
  exists ib lo, wbits inner = Ok ib /\ (length ib mod 8 = 0)%nat /\ wbits (wiso (zlen ib / 8)) = Ok lo /\
    0 <= zlen ib / 8 <= kMaxClassSize /\ bs = lo ++ ib.
Proof.
  intros Hw H. unfold write_sized in H. destruct (temp_write inner) as [t|c| | |] eqn:E; try discriminate.
  destruct (temp_write_ok _ _ Hw E) as (ib & E1 & E2 & E3). rewrite E2, E3 in *.
  destruct (negb (zlen ib mod 8 =? 0)) eqn:M; [discriminate|].
  assert ((length ib mod 8 = 0)%nat) as Hm by (unfold zlen in M; lia).
  assert (zlen (pack ib) = zlen ib / 8) as L by (unfold zlen; rewrite pack_length; lia). rewrite L in H.
  destruct (zlen ib / 8 >? kMaxClassSize) eqn:Hc; [discriminate|].
  apply wbits_app_ok in H as (lo & sb & Hlo & Hs & ->). apply wspan_ok in Hs as ->.
  exists ib, lo. split; [exact E1|]. split; [exact Hm|]. split; [exact Hlo|]. split; [pose proof (zlen_nonneg ib); lia|].
  f_equal. apply pack_aligned. exact Hm.
Qed.

(* nested form of the reader, equal in every run *)
Definition aac_body2 : rprog (Z * Z * bool * bool * Z * Z * Z * Z * (asc * list Z)) :=
  oti <- rlit 8 8 ;; st <- rlit 6 8 ;; up <- rbool ;; rs <- rbool ;;
  bs <- rlit 24 32 ;; mx <- rlit 32 32 ;; av <- rlit 32 32 ;; dtag <- rlit 8 8 ;;
  y <- sized read_asc (fun a x => RRet (a, x)) ;; RRet (oti, st, up, rs, bs, mx, av, dtag, y).
Definition read_aac' (roll : Z) : rprog aac :=
  tag <- rlit 8 8 ;;
  sized aac_body2 (fun z x1 =>
    let '(oti, st, up, rs, bs, mx, av, dtag, (a, x2)) := z in
    rres (veq roll (-1)) ;;;
    rres (aac_validate (mkAac tag oti st up rs bs mx av dtag a x2 x1)) ;;; RRet (mkAac tag oti st up rs bs mx av dtag a x2 x1)).

Ltac astep := rewrite ?arun_bind; match goal with
  |- context [match arun ?p ?c with _ => _ end] => destruct (arun p c) as [[?x|?e| | |] ?c]; try reflexivity end.
Lemma read_aac_eq roll c : arun (read_aac roll) c = arun (read_aac' roll) c.
Proof.
  unfold read_aac, read_aac', sized, aac_body2. 
  do 9 astep. rewrite ?arun_bind. astep. rewrite ?arun_bind. unfold sized. rewrite ?arun_bind. astep. repeat astep.
Qed.

Lemma rtb_bits {A} w (p : rprog A) a bs : rtb w p a -> wbits w = Ok bs -> zlen bs <= 2^24 -> parses p bs a.
Proof. intros H E L. apply H; assumption. Qed.

Lemma rthen_ok {A} r (k : res A) x : (r >>> k) = Ok x -> r = Ok tt /\ k = Ok x.
Proof. destruct r as [[]| | | |]; try discriminate. auto. Qed.
Lemma vcond_ok b : vcond b = Ok tt -> b = true.
Proof. destruct b; [reflexivity|discriminate]. Qed.

Definition aac_inner1 (d : aac) : wprog :=
  wlit (aa_oti d) 8 ++ wlit (aa_stream d) 6 ++ wbool (aa_up d) ++ wbool (aa_reserved d) ++
  wlit (aa_bufsize d) 24 ++ wlit (aa_max d) 32 ++ wlit (aa_avg d) 32 ++ write_dsi d ++ wspan (aa_ext d).
Lemma write_dsi_wf d : aac_wf d -> Forall winstr_wf (write_dsi d).
Proof.
  intros (H1 & H2 & H3 & H4 & H5 & H6 & H7 & H8 & H9 & H10). unfold write_dsi. wf_split; [apply wlit_wf; pw|].
  apply write_sized_wf. wf_split; [apply write_asc_wf; assumption|apply wspan_wf; assumption].
Qed.
Lemma aac_inner1_wf d : aac_wf d -> Forall winstr_wf (aac_inner1 d).
Proof.
  intros H. pose proof (write_dsi_wf d H) as D. destruct H as (H1 & H2 & H3 & H4 & H5 & H6 & H7 & H8 & H9 & H10).
  unfold aac_inner1. wf_split; first [exact D | apply wbool_wf | apply wspan_wf; assumption | apply wlit_wf; pw].
Qed.
Lemma write_aac_wf roll d : aac_wf d -> Forall winstr_wf (write_aac roll d).
Proof.
  intros H. pose proof (aac_inner1_wf d H) as D. destruct H as (H1 & _). unfold write_aac.
  wf_split; [apply wres_wf|apply wres_wf|apply wlit_wf; pw|apply write_sized_wf; exact D].
Qed.

Lemma aac_validate_freq d : aac_validate d = Ok tt -> exists f, aac_freq (as_freq (aa_asc d)) = Ok f.
Proof.
  unfold aac_validate. intro H. do 11 apply rthen_ok in H as [_ H].
  destruct (aac_freq (as_freq (aa_asc d))) as [f| | | |]; try discriminate. eauto.
Qed.

Lemma rt_dsi d f ib : aac_wf d -> aac_freq (as_freq (aa_asc d)) = Ok f ->
  wbits (write_sized (write_asc (aa_asc d) ++ wspan (aa_dsi_ext d))) = Ok ib -> zlen ib <= 2^24 ->
  parses (sized read_asc (fun a x => RRet (a, x))) ib (aa_asc d, aa_dsi_ext d).
Proof.
  intros (H1 & H2 & H3 & H4 & H5 & H6 & H7 & H8 & H9 & H10) F E L.
  apply write_sized_ok in E as (b & lo & Eb & Hm & Elo & Hs & ->);
    [|wf_split; [apply write_asc_wf; assumption|apply wspan_wf; assumption]].
  apply wbits_app_ok in Eb as (ab & xb & Ea & Ex & ->). apply wspan_ok in Ex as ->.
  pose proof (write_asc_ok _ _ H8 Ea) as La. rewrite zlen_app in L. pose proof (zlen_nonneg lo).
  eapply parses_sized; [exact Hs|exact Elo|apply (rt_asc _ _ H8 F); exact Ea|exact H9| | |apply parses_ret].
  - unfold zlen in *. rewrite app_length, bytes_bits_length in L. change (2^24) with 16777216 in L. change (2^21) with 2097152. lia.
  - unfold zlen in *. rewrite app_length, bytes_bits_length in *. lia.
Qed.

Lemma rt_aac roll d : aac_wf d -> rtb (write_aac roll d) (read_aac roll) d.
Proof.
  intros Hd bs E L. eapply parses_ext; [apply read_aac_eq|]. revert bs E L.
  change (rtb (write_aac roll d) (read_aac' roll) d). unfold write_aac, read_aac'.
  apply rtb_wres. intro R. apply rtb_wres. intro V. destruct (aac_validate_freq d V) as [f F].
  fold (aac_inner1 d). pose proof (aac_inner1_wf d Hd) as Hw. pose proof Hd as (H1 & H2 & H3 & H4 & H5 & H6 & H7 & H8 & H9 & H10).
  eapply rtb_seq; [lit|]. intros bs E L.
  apply write_sized_ok in E as (ib & lo & Eb & Hm & Elo & Hs & ->); [|exact Hw]. rewrite zlen_app in L. pose proof (zlen_nonneg lo).
  assert (exists bb, ib = bb ++ bytes_bits (aa_ext d) /\
    parses aac_body2 bb (aa_oti d, aa_stream d, aa_up d, aa_reserved d, aa_bufsize d, aa_max d, aa_avg d, aa_dsi_tag d, (aa_asc d, aa_dsi_ext d)))
    as (bb & -> & Pb).
  { unfold aac_inner1 in Eb.
    apply wbits_app_ok in Eb as (b1 & r1 & E1 & Eb & ->). apply wbits_app_ok in Eb as (b2 & r2 & E2 & Eb & ->).
    apply wbits_app_ok in Eb as (b3 & r3 & E3 & Eb & ->). apply wbits_app_ok in Eb as (b4 & r4 & E4 & Eb & ->).
    apply wbits_app_ok in Eb as (b5 & r5 & E5 & Eb & ->). apply wbits_app_ok in Eb as (b6 & r6 & E6 & Eb & ->).
    apply wbits_app_ok in Eb as (b7 & r7 & E7 & Eb & ->). apply wbits_app_ok in Eb as (b8 & xb & E8 & Ex & ->).
    apply wspan_ok in Ex as ->. unfold write_dsi in E8. apply wbits_app_ok in E8 as (b9 & b10 & E9 & E10 & ->).
    exists (b1 ++ b2 ++ b3 ++ b4 ++ b5 ++ b6 ++ b7 ++ b9 ++ b10). split; [rewrite <- !app_assoc; reflexivity|].
    assert (zlen b10 <= 2^24) as L10. { rewrite !zlen_app in L. repeat match goal with |- _ => idtac end.
      pose proof (zlen_nonneg b1). pose proof (zlen_nonneg b2). pose proof (zlen_nonneg b3). pose proof (zlen_nonneg b4).
      pose proof (zlen_nonneg b5). pose proof (zlen_nonneg b6). pose proof (zlen_nonneg b7). pose proof (zlen_nonneg b9).
      pose proof (zlen_nonneg (bytes_bits (aa_ext d))). lia. }
    unfold aac_body2.
    eapply parses_bind; [eapply parses_wlit; [exact E1|pw..]| |reflexivity].
    eapply parses_bind; [eapply parses_wlit; [exact E2|pw..]| |reflexivity].
    eapply parses_bind; [apply parses_wbool; exact E3| |reflexivity].
    eapply parses_bind; [apply parses_wbool; exact E4| |reflexivity].
    eapply parses_bind; [eapply parses_wlit; [exact E5|pw..]| |reflexivity].
    eapply parses_bind; [eapply parses_wlit; [exact E6|pw..]| |reflexivity].
    eapply parses_bind; [eapply parses_wlit; [exact E7|pw..]| |reflexivity].
    eapply parses_bind; [eapply parses_wlit; [exact E9|pw..]| |reflexivity].
    eapply parses_map; [eapply rt_dsi; eassumption|]. reflexivity. }
  eapply parses_sized; [exact Hs|exact Elo|exact Pb|exact H10| | |].
  - unfold zlen in *. rewrite app_length, bytes_bits_length in L. change (2^24) with 16777216 in L. change (2^21) with 2097152. lia.
  - unfold zlen in *. rewrite app_length, bytes_bits_length in *. lia.
  - eapply parses_rres_ok; [exact R|]. eapply parses_rres_ok; [|apply parses_ret_eq; destruct d; reflexivity].
    rewrite <- V. f_equal. destruct d; reflexivity.
Qed.

(* ---- FLAC ---- *)
Lemma write_sinfo_wf s : sinfo_wf s -> Forall winstr_wf (write_sinfo s).
Proof.
  intros (H1 & H2 & H3 & H4 & H5 & H6 & H7 & H8 & H9 & H10). unfold write_sinfo.
  wf_split; [apply wlit_wf; pw..|apply wlit64_wf; pw|apply wspan_wf; assumption].
Qed.
Lemma write_fblock_wf b : fblock_wf b -> Forall winstr_wf (write_fblock b).
Proof.
  intros [H1 H2]. unfold write_fblock. wf_split; [apply wlit_wf; pw|]. destruct (fb_type b =? 0); destruct (fb_payload b) as [s|x].
  - wf_split; [apply wlit_wf; pw|apply write_sinfo_wf; exact H2].
  - repeat constructor.
  - repeat constructor.
  - wf_split; [apply wlit_wf; pose proof (u32_range (zlen x)); pw|apply wspan_wf; exact H2].
Qed.
Lemma write_fblocks_wf l : Forall fblock_wf l -> Forall winstr_wf (write_fblocks l).
Proof.
  induction 1 as [|b l Hb Hl IH]; [constructor|]. cbn [write_fblocks].
  wf_split; [apply wbool_wf|apply write_fblock_wf; exact Hb|exact IH].
Qed.
Lemma write_flac_wf n roll d : Forall fblock_wf d -> Forall winstr_wf (write_flac n roll d).
Proof. intro H. unfold write_flac. wf_split; [apply wres_wf|apply wres_wf|apply write_fblocks_wf; exact H]. Qed.

Lemma rt_lit64 n max data : 0 <= data -> 0 < n -> n <= max -> n <= 64 -> rt (wlit64 data n) (rlit n max) data.
Proof.
  intros D N M M2 bs H. unfold wlit64 in H. apply wbits_cons_ok in H as (a & b & H1 & H2 & ->).
  apply wbits_nil_ok in H2 as ->. rewrite app_nil_r. cbn [wspec] in H1.
  destruct ((0 <=? n) && ((n =? 0) || ((n <=? 64) && (64 <=? 64) && (data <? 2 ^ n)))) eqn:E; [|discriminate].
  injection H1 as <-. apply parses_lit; [unfold legal_width; lia|lia].
Qed.
Lemma rt_sinfo s : sinfo_wf s -> rt (write_sinfo s) read_sinfo s.
Proof.
  intros (H1 & H2 & H3 & H4 & H5 & H6 & H7 & H8 & H9 & H10). unfold write_sinfo, read_sinfo.
  do 7 (eapply rt_seq; [apply rt_lit; pw|]). eapply rt_seq; [apply rt_lit64; pw|].
  eapply rt_last; [apply rt_span; [exact H10|symmetry; exact H9]|]. apply rt_ret_eq. destruct s; reflexivity.
Qed.
Lemma rt_fblock b : fblock_wf b -> rtb (write_fblock b) read_fblock b.
Proof.
  intros [H1 H2]. unfold write_fblock, read_fblock. eapply rtb_seq; [lit|].
  destruct (fb_type b =? 0) eqn:T; destruct b as [ty p]; cbn [fb_type fb_payload] in *.
  - destruct p as [s|x]; [|apply rtb_wfail]. eapply rtb_seq; [lit|]. eapply rtb_last; [apply rtb_rt, rt_sinfo; exact H2|].
    apply rtb_ret_eq. reflexivity.
  - destruct p as [s|x]; [apply rtb_wfail|]. intros bs E L. apply wbits_app_ok in E as (lb & xb & El & Ex & ->).
    pose proof (zlen_nonneg lb). pose proof (zlen_nonneg x). rewrite zlen_app in L. pose proof Ex as Ex'. apply wspan_ok in Ex'.
    assert (zlen x <= 2^21) as Lx.
    { rewrite Ex' in L. unfold zlen in *. rewrite bytes_bits_length in L. change (2^24) with 16777216 in L. change (2^21) with 2097152. lia. }
    assert (u32 (zlen x) = zlen x) as Eu.
    { unfold u32. change (2^21) with 2097152 in Lx. change (2^32) with 4294967296. lia. }
    rewrite Eu in El. eapply parses_bind; [eapply parses_wlit; [exact El|pw..]| |reflexivity].
    apply parses_check; [change (2^21) with 2097152 in *; lia|].
    eapply parses_map; [apply (rt_span x (Z.to_nat (zlen x)) H2); [unfold zlen; lia|exact Ex]|]. reflexivity.
Qed.
Lemma rt_fblocks l k : Forall fblock_wf l -> l <> [] -> (length l <= k)%nat -> rtb (write_fblocks l) (read_fblocks k) l.
Proof.
  intros H. revert k. induction H as [|b l Hb Hl IH]; intros k N K; [congruence|]. destruct k as [|k]; [cbn [length] in K; lia|].
  cbn [write_fblocks read_fblocks]. eapply rtb_seq; [apply rtb_rt, rt_bool|].
  eapply rtb_seq; [apply rt_fblock; exact Hb|]. destruct l as [|b' l].
  - apply rtb_ret_eq. reflexivity.
  - eapply rtb_last; [apply IH; [congruence|cbn [length] in *; lia]|]. apply rtb_ret_eq. reflexivity.
Qed.
Lemma rt_flac n roll d : Forall fblock_wf d -> (length d <= 128)%nat -> rtb (write_flac n roll d) (read_flac n roll) d.
Proof.
  intros H K. unfold write_flac, read_flac. apply rtb_wres. intro R. apply rtb_wres. intro V.
  apply rthen_ok in V as [V _]. eapply rtb_rres; [exact R|].
  eapply rtb_last; [apply rt_fblocks; [exact H| |exact K]; intros ->; discriminate|].
  eapply rtb_rres; [exact V|]. apply rtb_ret_eq. reflexivity.
Qed.

(* ---- the OBU ---- *)
Lemma write_dconf_wf c : codec_wf c -> Forall winstr_wf (write_dconf c).
Proof.
  intros (H1 & H2 & H3 & H4 & H5). unfold write_dconf, dconf_wf in *.
  destruct (cc_codec c =? kIdOpus); [destruct (cc_dec c); try (repeat constructor); apply write_opus_wf; exact H5|].
  destruct (cc_codec c =? kIdLpcm); [destruct (cc_dec c); try (repeat constructor); apply write_lpcm_wf; exact H5|].
  destruct (cc_codec c =? kIdAac); [destruct (cc_dec c); try (repeat constructor); apply write_aac_wf; exact H5|].
  destruct (cc_codec c =? kIdFlac); [destruct (cc_dec c); try (repeat constructor); apply write_flac_wf; exact H5|].
  repeat constructor.
Qed.
Lemma write_codec_config_wf g c : lebgen_wf g -> codec_wf c -> Forall winstr_wf (write_codec_config g c).
Proof.
  intros Hg Hc. pose proof (write_dconf_wf c Hc) as D. destruct Hc as (H1 & H2 & H3 & H4 & H5). unfold write_codec_config.
  wf_split; [apply wuleb_wf; assumption|apply wlit_wf; pw|apply wcheck_wf|apply wuleb_wf; assumption|apply wsigned16_wf|exact D].
Qed.

Definition at_most_128_flac_blocks (d : dconf) : Prop := match d with DFlac l => (length l <= 128)%nat | _ => True end.

Lemma rt_dconf c : codec_wf c -> at_most_128_flac_blocks (cc_dec c) ->
  rtb (write_dconf c) (read_dconf (cc_codec c) (cc_frame c) (cc_roll c)) (cc_dec c).
Proof.
  intros (H1 & H2 & H3 & H4 & H5) K. unfold write_dconf, read_dconf, dconf_wf, at_most_128_flac_blocks in *.
  destruct (cc_codec c =? kIdOpus); [|destruct (cc_codec c =? kIdLpcm); [|destruct (cc_codec c =? kIdAac); [|destruct (cc_codec c =? kIdFlac)]]];
    try apply rtb_wfail; destruct (cc_dec c) as [d|d|d|d]; try apply rtb_wfail.
  - eapply rtb_last; [apply rt_opus; exact H5|apply rtb_ret_eq; reflexivity].
  - eapply rtb_last; [apply rt_lpcm; exact H5|apply rtb_ret_eq; reflexivity].
  - eapply rtb_last; [apply rt_aac; exact H5|apply rtb_ret_eq; reflexivity].
  - eapply rtb_last; [apply rt_flac; [exact H5|exact K]|apply rtb_ret_eq; reflexivity].
Qed.

(* Every field comes back, for every codec; FLAC with at most 128 metadata blocks (see the refutation below). *)
Theorem C21_codec_config_round_trip_partial : forall g h c footer,
  lebgen_wf g -> header_wf h -> codec_wf c -> Forall byteP footer -> at_most_128_flac_blocks (cc_dec c) ->
  reads_back (write_codec_config_obu g h c footer) (read_obu read_codec_config) (norm_header (set_type h kCodecConfig), c, footer).
Proof.
  intros g h c footer Hg Hh Hc Hf K. apply obu_round_trip_bounded; try assumption.
  - apply set_type_wf'; [exact Hh|unfold kCodecConfig; lia].
  - apply write_codec_config_wf; assumption.
  - intros n. pose proof Hc as (H1 & H2 & H3 & H4 & H5). unfold write_codec_config, read_codec_config.
    eapply rtb_seq; [apply rtb_rt, rt_uleb; assumption|]. eapply rtb_seq; [lit|]. apply rtb_wcheck. intro F.
    eapply rtb_seq; [apply rtb_rt, rt_uleb; assumption|]. apply rtb_rcheck; [exact F|].
    eapply rtb_seq; [apply rtb_rt, rt_signed16; pw|]. eapply rtb_last; [apply rt_dconf; assumption|].
    apply rtb_ret_eq. destruct c; reflexivity.
Qed.

(* FALSE in general (finding F10): the FLAC writer has no limit on the number of metadata blocks, the reader stops at 128. *)
Definition flac_info_ex : sinfo := mkSI 64 64 0 0 48000 1 15 0 (repeat 0 16).
Definition many_blocks : codec_config :=
  mkCC 0 kIdFlac 64 0 (DFlac (mkFB 0 (FInfo flac_info_ex) :: repeat (mkFB 1 (FBlob [])) 128)).
Theorem C21_129_flac_blocks_refuted :
  codec_wf many_blocks /\
  let w2 := snd (wrun (write_codec_config_obu LebMin (mkH 0 false false 0 0 None) many_blocks []) w_empty) in
  wrun (write_codec_config_obu LebMin (mkH 0 false false 0 0 None) many_blocks []) w_empty = (Ok tt, w2) /\
  fst (crun 8 (read_at 0 (read_obu read_codec_config)) (r_create 64 (w_bytes w2))) = Err InvalidArgument.
Proof.
  split.
  - unfold codec_wf, many_blocks, kIdFlac. cbn [cc_id cc_codec cc_frame cc_roll cc_dec dconf_wf].
    split; [pw|]. split; [pw|]. split; [pw|]. split; [pw|].
    constructor; [|apply Forall_forall; intros x Hx; apply repeat_spec in Hx as ->; split; [cbn [fb_type]; pw|constructor]].
    split; [cbn [fb_type]; pw|]. cbn [fb_payload]. unfold sinfo_wf. cbn [flac_info_ex si_minb si_maxb si_minf si_maxf si_rate si_channels si_bps si_total si_md5].
    repeat split; try pw. apply Forall_forall. intros x Hx. apply repeat_spec in Hx as ->. unfold byteP. lia.
  - cbv zeta. split; [|vm_compute; reflexivity].
    vm_compute. reflexivity.
Qed.

(* The roll distance the library computes is the one it accepts: -ceil(3840/n) for Opus, 0 for LPCM and FLAC, -1 for AAC;
   a config created with the automatic override, if written, always carries it. *)
Theorem C21_required_roll : forall codec n r, 1 <= n <= 96000 -> required_roll codec n = Ok r ->
  (codec = kIdOpus -> r <= 0 /\ (- r - 1) * n < 3840 <= - r * n) /\
  (codec = kIdLpcm \/ codec = kIdFlac -> r = 0) /\ (codec = kIdAac -> r = -1).
Proof.
  intros codec n r Hn H. unfold required_roll in H. split; [|split].
  - intros ->. change (kIdOpus =? kIdOpus) with true in H. cbn iota in H. unfold opus_roll in H.
    replace (n =? 0) with false in H by lia.
    assert (0 <= 3840 / n <= 3840) as Q. { split; [apply Z.div_pos; lia|]. apply Z.div_le_upper_bound; nia. }
    assert (forall x, 0 <= x <= 3841 -> s16 x = x) as S1.
    { intros x Hx. unfold s16, sN. change (2^16) with 65536. change (2^(16-1)) with 32768. rewrite Z.mod_small by lia.
      replace (x <? 32768) with true by lia. reflexivity. }
    assert (forall x, -3841 <= x <= 0 -> s16 x = x) as S2.
    { intros x Hx. unfold s16, sN. change (2^16) with 65536. change (2^(16-1)) with 32768.
      destruct (Z.eq_dec x 0) as [->|]; [reflexivity|]. replace (x mod 65536) with (x + 65536) by (rewrite <- (Z.mod_add x 1) by lia; rewrite Z.mod_small; lia).
      replace (x + 65536 <? 32768) with false by lia. lia. }
    rewrite (S1 (3840 / n)) in H by lia. pose proof (Z.div_mod 3840 n ltac:(lia)) as D. pose proof (Z.mod_pos_bound 3840 n ltac:(lia)) as M.
    set (q := 3840 / n) in *. set (m := 3840 mod n) in *. clearbody q m.
    destruct (m =? 0) eqn:E; cbn [negb] in H.
    + rewrite S2 in H by lia. injection H as <-. assert (m = 0) as -> by lia. nia.
    + rewrite (S1 (q + 1)) in H by lia. rewrite S2 in H by lia. injection H as <-. nia.
  - intros [->| ->]; cbn in H; injection H as <-; reflexivity.
  - intros ->. cbn in H. injection H as <-. reflexivity.
Qed.

Lemma read_dconf_roll codec n roll c d c' : arun (read_dconf codec n roll) c = (Ok d, c') -> required_roll codec n = Ok roll.
Proof.
  unfold read_dconf, required_roll. intro E.
  destruct (codec =? kIdOpus).
  { apply arun_bind_ok in E as (x & c1 & E & _). unfold read_opus in E. apply arun_rres_ok in E as ([] & V & _).
    unfold opus_validate_roll in V. destruct (opus_roll n) as [r| | | |]; try discriminate. cbn [rbind] in V. apply vcond_ok in V. f_equal. lia. }
  destruct (codec =? kIdLpcm).
  { apply arun_bind_ok in E as (x & c1 & E & _). unfold read_lpcm in E.
    do 3 (apply arun_bind_ok in E as (? & ? & _ & E)). apply arun_rres_ok in E as ([] & V & _). apply rthen_ok in V as [V _].
    apply vcond_ok in V. f_equal. lia. }
  destruct (codec =? kIdAac) eqn:A.
  { assert (codec =? kIdFlac = false) as -> by (apply Z.eqb_eq in A as ->; reflexivity).
    apply arun_bind_ok in E as (x & c1 & E & _). unfold read_aac in E.
    do 14 (apply arun_bind_ok in E as (? & ? & _ & E)). apply arun_rres_ok in E as ([] & V & _).
    apply vcond_ok in V. f_equal. lia. }
  destruct (codec =? kIdFlac); [|discriminate].
  apply arun_bind_ok in E as (x & c1 & E & _). unfold read_flac in E. apply arun_rres_ok in E as ([] & V & _).
  apply vcond_ok in V. f_equal. lia.
Qed.
Lemma read_codec_config_inv h n c0 c c' : arun (read_codec_config h n) c0 = (Ok c, c') ->
  1 <= cc_frame c <= 96000 /\ required_roll (cc_codec c) (cc_frame c) = Ok (cc_roll c).
Proof.
  intro E. unfold read_codec_config in E. do 3 (apply arun_bind_ok in E as (? & ? & _ & E)).
  apply arun_rcheck_ok in E as [F E]. apply arun_bind_ok in E as (roll & ? & _ & E). apply arun_bind_ok in E as (d & ? & D & E).
  cbn [arun] in E. injection E as <- _. cbn [cc_frame cc_codec cc_roll]. unfold frame_size_ok in F.
  split; [lia|eapply read_dconf_roll; exact D].
Qed.

(* What the reader (CreateFromBuffer) accepts, on arbitrary data: frame size 1..96000, the required roll distance, a positive
   sample rate, a bit depth of 16, 24 or 32 (AAC: whatever the decoder library was compiled with). *)
Theorem C21_reader_only_accepts_valid : forall src cap fuel p c q bits stats,
  Forall byteP src -> (1 <= cap)%nat -> (8 <= fuel)%nat -> 0 <= p <= 8 * zlen src ->
  (exists h n, fst (crun fuel (read_at p (read_codec_config h n)) (r_create cap src)) = Ok (c, q)) ->
  finish_codec_config bits c = Ok (c, stats) ->
  1 <= cc_frame c <= 96000 /\ required_roll (cc_codec c) (cc_frame c) = Ok (cc_roll c) /\
  0 < fst (fst stats) /\ (cc_codec c <> kIdAac -> snd stats = 16 \/ snd stats = 24 \/ snd stats = 32).
Proof.
  intros src cap fuel p c q bits stats Hs Hc Hf Hp (h & n & E) F. rewrite crun_read_at in E by assumption.
  unfold at_result in E. destruct (arun _ _) as [[c0|e| | |] d] eqn:R; try discriminate. injection E as -> _.
  destruct (read_codec_config_inv _ _ _ _ _ R) as (N & RR). split; [exact N|]. split; [exact RR|].
  unfold finish_codec_config in F. destruct (codec_stats bits c) as [s| | | |] eqn:S; try discriminate. cbn [rbind] in F. injection F as ->.
  unfold codec_stats in S. revert S.
  match goal with |- rbind ?x _ = _ -> _ => destruct x as [s0| | | |] eqn:X; try discriminate end. cbn [rbind].
  destruct (fst (fst s0) =? 0) eqn:Z0; [discriminate|]. intros [= ->].
  destruct (cc_codec c =? kIdOpus) eqn:C1.
  { destruct (cc_dec c); try discriminate. injection X as <-. cbn [fst snd]. split; [lia|]. tauto. }
  destruct (cc_codec c =? kIdLpcm) eqn:C2.
  { destruct (cc_dec c); try discriminate. apply rthen_ok in X as [X1 X]. apply rthen_ok in X as [X2 X]. injection X as <-.
    apply vcond_ok in X1. apply vcond_ok in X2. unfold lpcm_rate_ok, lpcm_size_ok in *. cbn [fst snd] in *. split; [lia|]. intros _. lia. }
  destruct (cc_codec c =? kIdAac) eqn:C3.
  { destruct (cc_dec c) as [|d0| |]; try discriminate. destruct (aac_freq (as_freq (aa_asc d0))) as [f| | | |] eqn:Fq; try discriminate.
    cbn [rbind] in X. injection X as <-. apply aac_freq_ok in Fq as [_ Fq]. cbn [fst snd]. split; [lia|]. intro K. exfalso. apply K. lia. }
  destruct (cc_codec c =? kIdFlac) eqn:C4; [|discriminate].
  destruct (cc_dec c) as [| |d0|]; try discriminate. destruct (flac_info d0) as [si| | | |]; try discriminate. cbn [rbind] in X.
  apply rthen_ok in X as [X1 X]. apply rthen_ok in X as [X2 X]. injection X as <-. apply vcond_ok in X1. apply vcond_ok in X2.
  unfold flac_rate_ok, flac_rates, flac_bps_ok in *. cbn [existsb] in X1. cbn [fst snd] in *. split; [lia|]. intros _.
  destruct (si_bps si =? 15) eqn:B1; [left|destruct (si_bps si =? 23) eqn:B2; [right; left|right; right]].
  - replace (si_bps si) with 15 by lia. reflexivity.
  - replace (si_bps si) with 23 by lia. reflexivity.
  - replace (si_bps si) with 31 by lia. reflexivity.
Qed.

Example C21_ex :
  let c := mkCC 200 kIdAac 1024 (-1) (DAac (mkAac 4 64 5 false true 0 0 5 5 (mkAsc 2 3 2 false false false) [7; 8] [9])) in
  let w2 := snd (wrun (write_codec_config_obu LebMin (mkH 0 true false 0 0 None) c [1; 2]) w_empty) in
  codec_wf c /\ at_most_128_flac_blocks (cc_dec c) /\
  fst (crun 8 (read_at 0 (read_obu read_codec_config)) (r_create 4 (w_bytes w2))) = Ok ((mkH 0 true false 0 0 None, c, [1; 2]), w_off w2).
Proof.
  cbv zeta. split; [|split; [exact I|vm_compute; reflexivity]]. unfold codec_wf, dconf_wf, aac_wf, asc_wf, kIdAac. cbn [cc_id cc_codec cc_frame cc_roll cc_dec
    aa_tag aa_oti aa_stream aa_bufsize aa_max aa_avg aa_dsi_tag aa_asc aa_dsi_ext aa_ext as_type as_freq as_channels].
  repeat split; try pw; repeat constructor; unfold byteP; lia.
Qed.
