(* Model of obu/obu_header.{h,cc} and obu/obu_base.cc. *)
From Verif Require Import Base WriteBuf ReadBuf Leb.

(* MODELS obu_header.h:40-65 ObuType (values of the enum). *)
Definition kCodecConfig := 0. Definition kAudioElement := 1. Definition kMixPresentation := 2.
Definition kParameterBlock := 3. Definition kTemporalDelimiter := 4. Definition kAudioFrame := 5.
Definition kAudioFrameId0 := 6. Definition kAudioFrameId17 := 23. Definition kMetadata := 24.
Definition kSequenceHeader := 31.

(* MODELS obu_header.h:117-223 ObuHeader (fields). *)
Record header := mkH {
  h_type : Z; h_red : bool; h_flag : bool; h_trim_end : Z; h_trim_start : Z; h_ext : option (list Z) }.

(* MODELS obu_header.cc:39-42 *)
Definition is_audio_frame (t : Z) : bool :=
  ((kAudioFrameId0 <=? t) && (t <=? kAudioFrameId17)) || (t =? kAudioFrame).
(* MODELS obu_header.cc:46-52 *)
Definition redundant_allowed (t : Z) : bool :=
  if is_audio_frame t || (t =? kTemporalDelimiter) || (t =? kParameterBlock) then false else true.
(* MODELS obu_header.cc:54-57 *)
Definition flag_allowed (t : Z) : bool :=
  is_audio_frame t || (t =? kTemporalDelimiter) || (t =? kMixPresentation).
(* MODELS obu_header.cc:61-77 *)
Definition header_validate (h : header) : res unit :=
  if h_red h && negb (redundant_allowed (h_type h)) then Err InvalidArgument
  else if h_flag h && negb (flag_allowed (h_type h)) then Err InvalidArgument
  else Ok tt.
(* MODELS obu_header.cc:327-334 GetObuTrimmingStatusFlag *)
Definition trimming_flag (h : header) : bool := if is_audio_frame (h_type h) then h_flag h else false.
(* MODELS obu_header.cc:336-343 GetOptionalFieldsFlag *)
Definition optional_fields_flag (h : header) : bool := if h_type h =? kMixPresentation then h_flag h else false.
(* MODELS obu_header.cc:345-355 GetIsKeyFrame *)
Definition is_key_frame (h : header) : bool := if h_type h =? kTemporalDelimiter then negb (h_flag h) else false.
(* MODELS obu_header.cc:357-359 *)
Definition ext_flag (h : header) : bool := match h_ext h with Some _ => true | None => false end.
(* MODELS obu_header.cc:361-364 (size_t converted to uint32_t) *)
Definition ext_size (h : header) : Z := match h_ext h with Some e => u32 (zlen e) | None => 0 end.
(* MODELS obu_header.cc:220-235 IsTemporalUnitObuType *)
Definition temporal_unit_type (t : Z) : bool := is_audio_frame t || (t =? kParameterBlock) || (t =? kTemporalDelimiter).

(* MODELS obu_header.cc:79-95 WriteFieldsAfterObuSize *)
Definition fields_after_obu_size (g : lebgen) (h : header) : wprog :=
  (if trimming_flag h then wuleb g (h_trim_end h) ++ wuleb g (h_trim_start h) else []) ++
  (match h_ext h with Some e => wuleb g (ext_size h) ++ wspan e | None => [] end).

(* MODELS obu_header.cc:106-121; obu/types.h kMaxLeb128Size = 8, kEntireObuSizeMaxTwoMegabytes = 1 << 21. *)
Definition under_two_megabytes (obu_size size_of_obu_size : Z) : res unit :=
  if size_of_obu_size <=? 8 then
    let max_obu_size := u32 (2^21 - 1 - size_of_obu_size) in
    if obu_size >? max_obu_size then Err InvalidArgument else Ok tt
  else Abort.

(* MODELS numeric_utils.cc:28-39 AddUint32CheckOverflow *)
Definition add_u32_check (a b : Z) : res Z := if a + b >? 2^32 - 1 then Err InvalidArgument else Ok (a + b).

(* The bytes a writer produces in a fresh temporary WriteBitBuffer, with the final bit offset. *)
Definition temp_write (p : wprog) : res wbuf :=
  match wrun p w_empty with
  | (Ok _, t) => Ok t | (Err c, _) => Err c | (Abort, _) => Abort | (UB, _) => UB | (Diverge, _) => Diverge
  end.

(* MODELS obu_header.cc:136-185 GetObuSizeAndValidate (with 123-131) *)
Definition obu_size_and_validate (g : lebgen) (h : header) (payload_size : Z) : res Z :=
  if (payload_size <? 0) || (payload_size >? 2^32 - 1) then Err InvalidArgument
  else
    rbind (temp_write (fields_after_obu_size g h)) (fun t =>
    if negb (w_off t mod 8 =? 0) || (zlen (w_bytes t) >? 2^32 - 1) then Err Unknown
    else
      rbind (add_u32_check (zlen (w_bytes t)) payload_size) (fun obu_size =>
      rbind (temp_write (wuleb g obu_size)) (fun t2 =>
      rbind (under_two_megabytes obu_size (zlen (w_bytes t2))) (fun _ =>
      rbind (header_validate h) (fun _ => Ok obu_size))))).

(* MODELS obu_header.cc:249-265 ObuHeader::ValidateAndWrite *)
Definition write_header (g : lebgen) (h : header) (payload_size : Z) : wprog :=
  match obu_size_and_validate g h payload_size with
  | Ok obu_size =>
      wlit (h_type h) 5 ++ wbool (h_red h) ++ wbool (h_flag h) ++ wbool (ext_flag h) ++
      wuleb g obu_size ++ fields_after_obu_size g h
  | Err c => [WFail c]
  | _ => [WFail Internal]
  end.

(* MODELS obu_header.cc:190-198 GetObuPayloadSize: int8_t + int8_t + int8_t promotes to int, + uint32_t converts the
   sum to uint32_t (it wraps); the subtraction is in int64_t. *)
Definition obu_payload_size (obu_size end_size start_size ext_size_size ext_bytes : Z) : Z :=
  obu_size - u32 (end_size + start_size + ext_size_size + ext_bytes).

(* MODELS obu_header.cc:274-325 ObuHeader::ReadAndValidate on a default-constructed header (as all callers do). *)
Definition read_header : rprog (header * Z) :=
  t <- rlit 5 64 ;;
  red <- rbool ;;
  flag <- rbool ;;
  ext <- rbool ;;
  os <- ruleb_sz ;;
  rres (under_two_megabytes (fst os) (snd os)) ;;;
  let h0 := mkH t red flag 0 0 None in
  trims <- (if trimming_flag h0
            then e <- ruleb_sz ;; s <- ruleb_sz ;; RRet (e, s)
            else RRet ((0, 0), (0, 0))) ;;
  es <- (if ext then ruleb_sz else RRet (0, 0)) ;;
  let payload := obu_payload_size (fst os) (snd (fst trims)) (snd (snd trims)) (snd es) (fst es) in
  rcheck (negb (payload <? 0)) InvalidArgument ;;;
  eb <- (if ext then b <- rspan (Z.to_nat (fst es)) ;; RRet (Some b) else RRet None) ;;
  let h := mkH t red flag (fst (fst trims)) (fst (snd trims)) eb in
  rres (header_validate h) ;;;
  RRet (h, payload).

(* MODELS obu_header.cc:200-216 FillHeaderMetadata: (obu_type, total_obu_size); the sum is in uint32_t. *)
Definition fill_header_metadata : rprog (Z * Z) :=
  t <- rlit 5 64 ;;
  rbool ;;; rbool ;;; rbool ;;;
  os <- ruleb_sz ;;
  RRet (t, u32 (fst os + snd os + 1)).

(* MODELS obu_header.cc:237-247 PeekObuTypeAndTotalObuSize *)
Definition peek_header : rprog (Z * Z) :=
  p <- rtell ;;
  m <- rcatch fill_header_metadata ;;
  rseek p ;;;
  match m with inl c => RFail c | inr x => RRet x end.

(* MODELS obu_base.cc:31-68 ValidateAndWriteObu.  [payload] is the virtual ValidateAndWritePayload.  The final check
   (expected_end_payload) compares two offsets that are equal by C01 and is omitted. *)
Definition write_obu (g : lebgen) (h : header) (payload : wprog) (footer : list Z) : wprog :=
  match temp_write (payload ++ wspan footer) with
  | Ok t =>
      if negb (w_off t mod 8 =? 0) then [WFail InvalidArgument]
      else write_header g h (zlen (w_bytes t)) ++ wspan (w_bytes t)
  | Err c => [WFail c]
  | _ => [WFail Internal]
  end.

(* MODELS obu_base.cc:70-97 ReadAndValidatePayload.  [derived] is the virtual ReadAndValidatePayloadDerived. *)
Definition read_payload {A} (payload_size : Z) (derived : rprog A) : rprog (A * list Z) :=
  p0 <- rtell ;;
  a <- derived ;;
  p1 <- rtell ;;
  let expected := p0 + payload_size * 8 in
  if expected =? p1 then RRet (a, [])
  else if expected >? p1 then
    if negb ((expected - p1) mod 8 =? 0) then RFail InvalidArgument
    else f <- rspan (Z.to_nat ((expected - p1) / 8)) ;; RRet (a, f)
  else RFail InvalidArgument.

(* Reading a whole OBU: header, then the payload parser for it (which may depend on the header and size). *)
Definition read_obu {A} (derived : header -> Z -> rprog A) : rprog (header * A * list Z) :=
  hp <- read_header ;;
  af <- read_payload (snd hp) (derived (fst hp) (snd hp)) ;;
  RRet (fst hp, fst af, snd af).
