(* Model of obu/codec_config.cc and obu/decoder_config/{lpcm,opus,aac,flac}_decoder_config.cc.
   std::get<T>(variant) on the wrong alternative throws std::bad_variant_access; it is modelled as Err Internal. *)
From Verif Require Import Base WriteBuf ReadBuf Leb ObuHeader SimpleObus.

(* MODELS common/utils/validation_utils.h ValidateEqual / ValidateNotEqual / ValidateInRange *)
Definition vcond (b : bool) : res unit := if b then Ok tt else Err InvalidArgument.
Definition veq (a b : Z) : res unit := vcond (a =? b).
Definition vrange (v lo hi : Z) : res unit := vcond ((lo <=? v) && (v <=? hi)).
Definition rthen {A} (r : res unit) (k : res A) : res A := rbind r (fun _ => k).
Notation "a >>> b" := (rthen a b) (at level 70, right associativity).

(* ---- LPCM ---- *)
Record lpcm := mkLpcm { lp_flags : Z; lp_size : Z; lp_rate : Z }.
(* MODELS lpcm_decoder_config.cc:28-38 *)
Definition lpcm_size_ok (s : Z) : bool := (s =? 16) || (s =? 24) || (s =? 32).
(* MODELS lpcm_decoder_config.cc:40-52 *)
Definition lpcm_rate_ok (r : Z) : bool := (r =? 16000) || (r =? 32000) || (r =? 44100) || (r =? 48000) || (r =? 96000).
(* MODELS lpcm_decoder_config.cc:55-78, 87-92 Validate *)
Definition lpcm_validate (roll : Z) (d : lpcm) : res unit :=
  veq roll 0 >>>
  (if (lp_flags d =? 0) || (lp_flags d =? 1) then Ok tt else Err Unimplemented) >>>
  vcond (lpcm_size_ok (lp_size d)) >>> vcond (lpcm_rate_ok (lp_rate d)).
(* MODELS lpcm_decoder_config.cc:94-102 *)
Definition write_lpcm (roll : Z) (d : lpcm) : wprog :=
  wres (lpcm_validate roll d) ++ wlit (lp_flags d) 8 ++ wlit (lp_size d) 8 ++ wlit (lp_rate d) 32.
(* MODELS lpcm_decoder_config.cc:104-114 *)
Definition read_lpcm (roll : Z) : rprog lpcm :=
  f <- rlit 8 8 ;; s <- rlit 8 8 ;; r <- rlit 32 32 ;;
  rres (lpcm_validate roll (mkLpcm f s r)) ;;; RRet (mkLpcm f s r).

(* ---- Opus ---- *)
Record opus := mkOpus { op_version : Z; op_channels : Z; op_pre_skip : Z; op_rate : Z; op_gain : Z; op_family : Z }.
(* MODELS opus_decoder_config.cc:87-108 GetRequiredAudioRollDistance; 3840 / n and 3840 % n are in uint32_t. *)
Definition opus_roll (n : Z) : res Z :=
  if n =? 0 then Err InvalidArgument
  else let r := s16 (3840 / n) in
       let r' := if negb (3840 mod n =? 0) then s16 (r + 1) else r in Ok (s16 (-1 * r')).
(* MODELS opus_decoder_config.cc:71-83 *)
Definition opus_validate_roll (n roll : Z) : res unit := rbind (opus_roll n) (fun e => veq roll e).
(* MODELS opus_decoder_config.cc:32-69 ValidatePayload *)
Definition opus_validate (d : opus) : res unit :=
  vcond (negb (op_version d =? 0)) >>>
  (if Z.shiftr (Z.land (op_version d) 240) 4 >? 0 then Err Unimplemented else Ok tt) >>>
  veq (op_channels d) 2 >>> veq (op_gain d) 0 >>> veq (op_family d) 0.
(* MODELS opus_decoder_config.cc:110-124 *)
Definition write_opus (n roll : Z) (d : opus) : wprog :=
  wres (opus_validate_roll n roll) ++ wres (opus_validate d) ++
  wlit (op_version d) 8 ++ wlit (op_channels d) 8 ++ wlit (op_pre_skip d) 16 ++ wlit (op_rate d) 32 ++
  wsigned16 (op_gain d) ++ wlit (op_family d) 8.
(* MODELS opus_decoder_config.cc:126-141 *)
Definition read_opus (n roll : Z) : rprog opus :=
  rres (opus_validate_roll n roll) ;;;
  v <- rlit 8 8 ;; c <- rlit 8 8 ;; p <- rlit 16 16 ;; r <- rlit 32 32 ;; g <- rsigned16 ;; f <- rlit 8 8 ;;
  rres (opus_validate (mkOpus v c p r g f)) ;;; RRet (mkOpus v c p r g f).

(* ---- AAC ---- *)
(* AudioSpecificConfig (aac_decoder_config.h) *)
Record asc := mkAsc { as_type : Z; as_freq : Z; as_channels : Z; as_flf : bool; as_docc : bool; as_ext : bool }.
Record aac := mkAac {
  aa_tag : Z; aa_oti : Z; aa_stream : Z; aa_up : bool; aa_reserved : bool; aa_bufsize : Z; aa_max : Z; aa_avg : Z;
  aa_dsi_tag : Z; aa_asc : asc; aa_dsi_ext : list Z; aa_ext : list Z }.
(* MODELS aac_decoder_config.cc:135-153 GetSampleFrequency with the table of aac_decoder_config.h *)
Definition aac_freqs : list Z := [96000; 88200; 64000; 48000; 44100; 32000; 24000; 22050; 16000; 12000; 11025; 8000; 7350].
Definition aac_freq (i : Z) : res Z :=
  if (i =? 13) || (i =? 14) then Err Unimplemented
  else if i <? 0 then Err NotFound
  else match nth_error aac_freqs (Z.to_nat i) with Some f => Ok f | None => Err NotFound end.
(* MODELS aac_decoder_config.cc:157-202 Validate *)
Definition aac_validate (d : aac) : res unit :=
  veq (aa_tag d) 4 >>> veq (aa_oti d) 64 >>> veq (aa_stream d) 5 >>>
  vcond (Bool.eqb (aa_up d) false) >>> vcond (Bool.eqb (aa_reserved d) true) >>> veq (aa_dsi_tag d) 5 >>>
  veq (as_type (aa_asc d)) 2 >>> veq (as_channels (aa_asc d)) 2 >>>
  vcond (Bool.eqb (as_flf (aa_asc d)) false) >>> vcond (Bool.eqb (as_docc (aa_asc d)) false) >>>
  vcond (Bool.eqb (as_ext (aa_asc d)) false) >>>
  rbind (aac_freq (as_freq (aa_asc d))) (fun _ => Ok tt).
(* MODELS aac_decoder_config.cc:204-216 *)
Definition write_asc (a : asc) : wprog :=
  wlit (as_type a) 5 ++ wlit (u32 (as_freq a)) 4 ++ wlit (as_channels a) 4 ++
  wbool (as_flf a) ++ wbool (as_docc a) ++ wbool (as_ext a).
(* MODELS aac_decoder_config.cc:60-75 PrependWithIso14496_1Expanded applied to what [inner] writes in a fresh buffer.
   The ABSL_CHECK on alignment is the WFail Internal (an abort in the code); C21 shows it is not reached. *)
Definition kMaxClassSize := 2^28 - 1.
Definition write_sized (inner : wprog) : wprog :=
  match temp_write inner with
  | Ok t => if negb (w_off t mod 8 =? 0) then [WFail Internal]
            else if zlen (w_bytes t) >? kMaxClassSize then [WFail ResourceExhausted]
            else wiso (zlen (w_bytes t)) ++ wspan (w_bytes t)
  | Err c => [WFail c] | _ => [WFail Internal]
  end.
(* MODELS aac_decoder_config.cc:77-96 WriteDecoderSpecificInfo *)
Definition write_dsi (d : aac) : wprog :=
  wlit (aa_dsi_tag d) 8 ++ write_sized (write_asc (aa_asc d) ++ wspan (aa_dsi_ext d)).
(* MODELS aac_decoder_config.cc:239-269 *)
Definition write_aac (roll : Z) (d : aac) : wprog :=
  wres (veq roll (-1)) ++ wres (aac_validate d) ++ wlit (aa_tag d) 8 ++
  write_sized (wlit (aa_oti d) 8 ++ wlit (aa_stream d) 6 ++ wbool (aa_up d) ++ wbool (aa_reserved d) ++
               wlit (aa_bufsize d) 24 ++ wlit (aa_max d) 32 ++ wlit (aa_avg d) 32 ++ write_dsi d ++ wspan (aa_ext d)).
(* MODELS aac_decoder_config.cc:98-105 GetExpectedPositionFromIso14496_1Expanded *)
Definition expected_position : rprog Z := s <- riso kMaxClassSize ;; t <- rtell ;; RRet (t + s * 8).
(* MODELS aac_decoder_config.cc:107-133 AdvanceBufferToPosition; an untouched extension is the empty vector. *)
Definition advance_to (expected : Z) : rprog (list Z) :=
  t <- rtell ;;
  if t =? expected then RRet []
  else if t <? expected then
    let n := (expected - t) / 8 in
    if n >? 2^21 then RFail InvalidArgument else rspan (Z.to_nat n)
  else RFail OutOfRange.
(* MODELS aac_decoder_config.cc:218-237 AudioSpecificConfig::Read *)
Definition read_asc : rprog asc :=
  ty <- rlit 5 8 ;; fr <- rlit 4 8 ;; rres (aac_freq fr) ;;; ch <- rlit 4 8 ;;
  b1 <- rbool ;; b2 <- rbool ;; b3 <- rbool ;; RRet (mkAsc ty fr ch b1 b2 b3).
(* MODELS aac_decoder_config.cc:271-308 *)
Definition read_aac (roll : Z) : rprog aac :=
  tag <- rlit 8 8 ;;
  e1 <- expected_position ;;
  oti <- rlit 8 8 ;; st <- rlit 6 8 ;; up <- rbool ;; rs <- rbool ;;
  bs <- rlit 24 32 ;; mx <- rlit 32 32 ;; av <- rlit 32 32 ;;
  dtag <- rlit 8 8 ;;
  e2 <- expected_position ;;
  a <- read_asc ;;
  x2 <- advance_to e2 ;;
  x1 <- advance_to e1 ;;
  rres (veq roll (-1)) ;;;
  let d := mkAac tag oti st up rs bs mx av dtag a x2 x1 in
  rres (aac_validate d) ;;; RRet d.

(* ---- FLAC ---- *)
Record sinfo := mkSI { si_minb : Z; si_maxb : Z; si_minf : Z; si_maxf : Z; si_rate : Z; si_channels : Z; si_bps : Z;
                       si_total : Z; si_md5 : list Z }.
Inductive fpayload := FInfo (s : sinfo) | FBlob (b : list Z).
Record fblock := mkFB { fb_type : Z; fb_payload : fpayload }.
Definition flac := list fblock.
(* MODELS flac_decoder_config.cc:39-52 GetStreamInfo *)
Definition flac_info (d : flac) : res sinfo :=
  match d with
  | [] => Err InvalidArgument
  | b :: _ => if negb (fb_type b =? 0) then Err InvalidArgument
              else match fb_payload b with FInfo s => Ok s | FBlob _ => Err Internal end
  end.
(* MODELS flac_decoder_config.cc:56-69 *)
Definition flac_rates : list Z := [88200; 176400; 192000; 8000; 16000; 22050; 24000; 32000; 44100; 48000; 96000].
Definition flac_rate_ok (r : Z) : bool := existsb (Z.eqb r) flac_rates.
(* MODELS flac_decoder_config.cc:71-81 *)
Definition flac_bps_ok (b : Z) : bool := (b =? 15) || (b =? 23) || (b =? 31).
(* MODELS flac_decoder_config.cc:93-118 ValidateDecodingRestrictions (with 83-91) *)
Definition flac_validate_dec (n : Z) (d : flac) : res unit :=
  rbind (flac_info d) (fun s =>
  vcond (flac_rate_ok (si_rate s)) >>> vcond (flac_bps_ok (si_bps s)) >>>
  veq (si_maxb s) n >>> veq (si_minb s) n >>> veq (si_channels s) 1 >>> vrange (si_total s) 0 68719476735).
(* MODELS flac_decoder_config.cc:120-146 ValidateEncodingRestrictions *)
Definition flac_validate_enc (n : Z) (d : flac) : res unit :=
  flac_validate_dec n d >>>
  rbind (flac_info d) (fun s =>
  veq (si_minf s) 0 >>> veq (si_maxf s) 0 >>> vcond (if list_eq_dec Z.eq_dec (si_md5 s) (repeat 0 16) then true else false)).
(* MODELS flac_decoder_config.cc:154-167 *)
Definition write_sinfo (s : sinfo) : wprog :=
  wlit (si_minb s) 16 ++ wlit (si_maxb s) 16 ++ wlit (si_minf s) 24 ++ wlit (si_maxf s) 24 ++ wlit (si_rate s) 20 ++
  wlit (si_channels s) 3 ++ wlit (si_bps s) 5 ++ wlit64 (si_total s) 36 ++ wspan (si_md5 s).
(* MODELS flac_decoder_config.cc:189-201 *)
Definition read_sinfo : rprog sinfo :=
  a <- rlit 16 16 ;; b <- rlit 16 16 ;; c <- rlit 24 32 ;; d <- rlit 24 32 ;; e <- rlit 20 32 ;;
  f <- rlit 3 8 ;; g <- rlit 5 8 ;; h <- rlit 36 64 ;; i <- rspan 16 ;; RRet (mkSI a b c d e f g h i).
(* MODELS flac_decoder_config.cc:212-241: one iteration of the loop, after is_last_block *)
Definition write_fblock (b : fblock) : wprog :=
  wlit (fb_type b) 7 ++
  (if fb_type b =? 0
   then match fb_payload b with FInfo s => wlit 34 24 ++ write_sinfo s | FBlob _ => [WFail InvalidArgument] end
   else match fb_payload b with FBlob x => wlit (u32 (zlen x)) 24 ++ wspan x | FInfo _ => [WFail InvalidArgument] end).
Fixpoint write_fblocks (l : list fblock) : wprog :=
  match l with
  | [] => []
  | b :: t => wbool (match t with [] => true | _ => false end) ++ write_fblock b ++ write_fblocks t
  end.
(* MODELS flac_decoder_config.cc:205-244 *)
Definition write_flac (n roll : Z) (d : flac) : wprog :=
  wres (veq roll 0) ++ wres (flac_validate_enc n d) ++ write_fblocks d.
(* MODELS flac_decoder_config.cc:264-293: one block.  The STREAMINFO length field is read and ignored. *)
Definition read_fblock : rprog fblock :=
  ty <- rlit 7 8 ;; len <- rlit 24 32 ;;
  if ty =? 0 then s <- read_sinfo ;; RRet (mkFB ty (FInfo s))
  else rcheck (negb (len >? 2^21)) InvalidArgument ;;; x <- rspan (Z.to_nat len) ;; RRet (mkFB ty (FBlob x)).
(* MODELS flac_decoder_config.cc:255-295: the loop; [k] = blocks still allowed (kMaxMetadataBlocks = 128) *)
Fixpoint read_fblocks (k : nat) : rprog (list fblock) :=
  match k with
  | O => RFail InvalidArgument
  | S k' => last <- rbool ;; b <- read_fblock ;;
            if last then RRet [b] else t <- read_fblocks k' ;; RRet (b :: t)
  end.
(* MODELS flac_decoder_config.cc:246-298 *)
Definition read_flac (n roll : Z) : rprog flac :=
  rres (veq roll 0) ;;; d <- read_fblocks 128 ;; rres (flac_validate_dec n d) ;;; RRet d.

(* ---- Codec Config OBU ---- *)
Inductive dconf := DOpus (d : opus) | DAac (d : aac) | DFlac (d : flac) | DLpcm (d : lpcm).
Definition kIdOpus := 1332770163. Definition kIdFlac := 1716281667.
Definition kIdLpcm := 1768973165. Definition kIdAac := 1836069985.
Record codec_config := mkCC { cc_id : Z; cc_codec : Z; cc_frame : Z; cc_roll : Z; cc_dec : dconf }.
(* MODELS codec_config.cc:38-57 *)
Definition frame_size_ok (n : Z) : bool := (1 <=? n) && (n <=? 96000).
(* MODELS codec_config.cc:161-184 ValidateAndWriteDecoderConfig *)
Definition write_dconf (c : codec_config) : wprog :=
  if cc_codec c =? kIdOpus then match cc_dec c with DOpus d => write_opus (cc_frame c) (cc_roll c) d | _ => [WFail Internal] end
  else if cc_codec c =? kIdLpcm then match cc_dec c with DLpcm d => write_lpcm (cc_roll c) d | _ => [WFail Internal] end
  else if cc_codec c =? kIdAac then match cc_dec c with DAac d => write_aac (cc_roll c) d | _ => [WFail Internal] end
  else if cc_codec c =? kIdFlac then match cc_dec c with DFlac d => write_flac (cc_frame c) (cc_roll c) d | _ => [WFail Internal] end
  else [WFail InvalidArgument].
(* MODELS codec_config.cc:279-292 ValidateAndWritePayload *)
Definition write_codec_config (g : lebgen) (c : codec_config) : wprog :=
  wuleb g (cc_id c) ++ wlit (cc_codec c) 32 ++ wcheck (frame_size_ok (cc_frame c)) InvalidArgument ++
  wuleb g (cc_frame c) ++ wsigned16 (cc_roll c) ++ write_dconf c.
(* MODELS codec_config.cc:186-225 ReadAndValidateDecoderConfig *)
Definition read_dconf (codec frame roll : Z) : rprog dconf :=
  if codec =? kIdOpus then d <- read_opus frame roll ;; RRet (DOpus d)
  else if codec =? kIdLpcm then d <- read_lpcm roll ;; RRet (DLpcm d)
  else if codec =? kIdAac then d <- read_aac roll ;; RRet (DAac d)
  else if codec =? kIdFlac then d <- read_flac frame roll ;; RRet (DFlac d)
  else RFail InvalidArgument.
(* MODELS codec_config.cc:294-308 ReadAndValidatePayloadDerived *)
Definition read_codec_config (h : header) (payload_size : Z) : rprog codec_config :=
  id <- ruleb ;; codec <- rlit 32 64 ;; n <- ruleb ;;
  rcheck (frame_size_ok n) InvalidArgument ;;;
  roll <- rsigned16 ;; d <- read_dconf codec n roll ;; RRet (mkCC id codec n roll d).
Definition write_codec_config_obu (g : lebgen) (h : header) (c : codec_config) (footer : list Z) : wprog :=
  write_obu g (set_type h kCodecConfig) (write_codec_config g c) footer.

(* MODELS codec_config.cc:92-142 SetSampleRatesAndBitDepths: (output rate, input rate, bit depth).  AAC's bit depth is
   sizeof(INT_PCM) * 8 of fdk_aac (aac_decoder_config.cc:317-321): the parameter [int_pcm_bits]. *)
Definition codec_stats (int_pcm_bits : Z) (c : codec_config) : res (Z * Z * Z) :=
  rbind
    (if cc_codec c =? kIdOpus then match cc_dec c with DOpus d => Ok (48000, op_rate d, 32) | _ => Err Internal end
     else if cc_codec c =? kIdLpcm then
       match cc_dec c with
       | DLpcm d => vcond (lpcm_rate_ok (lp_rate d)) >>> vcond (lpcm_size_ok (lp_size d)) >>> Ok (lp_rate d, lp_rate d, lp_size d)
       | _ => Err Internal end
     else if cc_codec c =? kIdAac then
       match cc_dec c with
       | DAac d => rbind (aac_freq (as_freq (aa_asc d))) (fun f => Ok (f, f, int_pcm_bits))
       | _ => Err Internal end
     else if cc_codec c =? kIdFlac then
       match cc_dec c with
       | DFlac d => rbind (flac_info d) (fun s => vcond (flac_rate_ok (si_rate s)) >>> vcond (flac_bps_ok (si_bps s)) >>>
                                                 Ok (si_rate s, si_rate s, u8 (si_bps s + 1)))
       | _ => Err Internal end
     else Err InvalidArgument)
    (fun s => if fst (fst s) =? 0 then Err InvalidArgument else Ok s).
(* MODELS codec_config.cc:59-90 OverrideAudioRollDistance *)
Definition required_roll (codec n : Z) : res Z :=
  if codec =? kIdOpus then opus_roll n
  else if codec =? kIdLpcm then Ok 0 else if codec =? kIdFlac then Ok 0 else if codec =? kIdAac then Ok (-1)
  else Err InvalidArgument.
(* MODELS codec_config.cc:229-249 Create, with 144-159 InitializeCodecConfigAndMetadata *)
Definition create_codec_config (int_pcm_bits : Z) (c : codec_config) (override : bool) : res (codec_config * (Z * Z * Z)) :=
  vcond (frame_size_ok (cc_frame c)) >>>
  rbind (codec_stats int_pcm_bits c) (fun s =>
  if override
  then rbind (required_roll (cc_codec c) (cc_frame c)) (fun r => Ok (mkCC (cc_id c) (cc_codec c) (cc_frame c) r (cc_dec c), s))
  else Ok (c, s)).
(* MODELS codec_config.cc:264-277 CreateFromBuffer after the payload has been read *)
Definition finish_codec_config (int_pcm_bits : Z) (c : codec_config) : res (codec_config * (Z * Z * Z)) :=
  rbind (codec_stats int_pcm_bits c) (fun s => Ok (c, s)).
