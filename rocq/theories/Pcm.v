(* Models of the PCM sample code: cli/sample_processing_utils.cc WritePcmSample, common/utils/numeric_utils (conversions),
   cli/cli_util.cc WritePcmFrameToBuffer, cli/codec/lpcm_decoder.cc, cli/codec/lpcm_encoder.cc, cli/wav_writer.cc PushFrame,
   api/decoder/iamf_decoder.cc WriteFrameToSpan.  double and float are Flocq's IEEE 754 binary64 and binary32. *)
From Verif Require Import Base WriteBuf CodecConfig.
From Flocq Require Import Core BinarySingleNaN.
Open Scope Z_scope.

(* ---- floating point ---- *)
Definition double := binary_float 53 1024.
Definition single := binary_float 24 128.
Global Instance prec53 : FLX.Prec_gt_0 53 := eq_refl.
Global Instance emax1024 : Prec_lt_emax 53 1024 := eq_refl.
Global Instance prec24 : FLX.Prec_gt_0 24 := eq_refl.
Global Instance emax128 : Prec_lt_emax 24 128 := eq_refl.
(* m * 2^e as a double (rounded to nearest even, like every conversion and literal) *)
Definition dbl (m e : Z) : double := binary_normalize 53 1024 _ _ mode_NE m e false.
Definition sgl (m e : Z) : single := binary_normalize 24 128 _ _ mode_NE m e false.
(* MODELS static_cast<double>(float): always exact *)
Definition to_double (x : single) : double :=
  match x with
  | B754_zero s => B754_zero s | B754_infinity s => B754_infinity s | B754_nan => B754_nan
  | B754_finite s m e _ => binary_normalize 53 1024 _ _ mode_NE (if s then Zneg m else Zpos m) e s
  end.
(* MODELS numeric_utils.h:154-158 kMaxInt32PlusOneAsDouble *)
Definition two31 : double := dbl 1 31.
(* MODELS numeric_utils.h:167-176 Int32ToNormalizedFloatingPoint<double> *)
Definition int32_to_double (v : Z) : double := Bdiv mode_NE (dbl v 0) two31.
(* MODELS numeric_utils.cc:103-117 ClipDoubleToInt32.  (The limits are converted to double, exactly.) *)
Definition clip_to_int32 (x : double) : res Z :=
  if is_nan x then Err InvalidArgument
  else if Bltb (dbl (2^31 - 1) 0) x then Ok (2^31 - 1)
  else if Bltb x (dbl (- 2^31) 0) then Ok (- 2^31)
  else Ok (Btrunc x).
(* MODELS std::clamp *)
Definition clamp (v lo hi : double) : double := if Bltb v lo then lo else if Bltb hi v then hi else v.
(* MODELS numeric_utils.h:192-205 NormalizedFloatingPointToInt32<double> *)
Definition double_to_int32 (x : double) : res Z :=
  if is_nan x || negb (is_finite x) then Err InvalidArgument
  else clip_to_int32 (Bmult mode_NE (clamp x (dbl (-1) 0) (dbl 1 0)) two31).
(* MODELS numeric_utils.cc:41-49 FloatToQ7_8: comparisons against an int (converted to float) and a double *)
Definition float_to_q7_8 (x : single) : res Z :=
  if is_nan x || Bltb x (sgl (-128) 0) || Bltb (Bminus mode_NE (dbl 128 0) (Bdiv mode_NE (dbl 1 0) (dbl 256 0))) (to_double x) then Err Unknown
  else Ok (s16 (Btrunc (Bmult mode_NE x (sgl 256 0)))).
(* MODELS numeric_utils.cc:51-53 Q7_8ToFloat *)
Definition q7_8_to_float (v : Z) : single := Bdiv mode_NE (Bmult mode_NE (sgl v 0) (sgl 1 0)) (sgl 256 0).
(* MODELS numeric_utils.cc:55-64 FloatToQ0_8 *)
Definition float_to_q0_8 (x : single) : res Z :=
  if is_nan x || Bltb x (sgl 0 0) || Bleb (sgl 1 0) x then Err Unknown
  else Ok (u8 (Btrunc (Bmult mode_NE x (sgl 256 0)))).
(* MODELS numeric_utils.cc:66-68 Q0_8ToFloat *)
Definition q0_8_to_float (v : Z) : single := Bdiv mode_NE (Bmult mode_NE (sgl v 0) (sgl 1 0)) (sgl 256 0).

(* ---- bytes ---- *)
(* MODELS buffer[write_position++] = byte *)
Definition buf_put (buf : list Z) (pos v : Z) : res (list Z) :=
  if (0 <=? pos) && (pos <? zlen buf) then Ok (firstn (Z.to_nat pos) buf ++ v :: skipn (S (Z.to_nat pos)) buf) else UB.
(* MODELS sample_processing_utils.cc:167-175: the loop; [n] iterations are left.  A store out of bounds leaves the state: UB *)
Fixpoint pcm_loop (n : nat) (sample size : Z) (be : bool) (shift : Z) (buf : list Z) (pos : Z) : res unit * list Z * Z :=
  match n with
  | O => (Ok tt, buf, pos)
  | S n' =>
      let byte := if be then Z.land (Z.shiftr sample ((32 - size) + (32 - (shift + 8)))) 255
                  else Z.land (Z.shiftr sample shift) 255 in
      match buf_put buf pos byte with
      | Ok b => pcm_loop n' sample size be (shift + 8) b (pos + 1)
      | _ => (UB, buf, pos)
      end
  end.
(* MODELS sample_processing_utils.cc:158-178 WritePcmSample: status, buffer, write_position *)
Definition write_pcm (sample size : Z) (be : bool) (buf : list Z) (pos : Z) : res unit * list Z * Z :=
  if negb (size mod 8 =? 0) || (size >? 32) then (Err InvalidArgument, buf, pos)
  else pcm_loop (Z.to_nat (size / 8)) sample size be (32 - size) buf pos.
(* MODELS numeric_utils.cc:70-89 LittleEndianBytesToInt32 *)
Fixpoint le_loop (l : list Z) (n i acc : Z) : Z :=
  match l with [] => acc | b :: t => le_loop t n (i + 1) (Z.lor acc (s32 (Z.shiftl b (8 * ((4 - n) + i))))) end.
Definition le_to_int32 (l : list Z) : res Z :=
  if (zlen l >? 4) || (zlen l <? 1) then Err InvalidArgument else Ok (le_loop l (zlen l) 0 0).
(* MODELS numeric_utils.cc:91-101 BigEndianBytesToInt32 *)
Definition be_to_int32 (l : list Z) : res Z := le_to_int32 (rev l).

(* ---- frames ---- *)
(* frame[c][t] *)
Definition at_ct {A} (frame : list (list A)) (c t : nat) : res A :=
  match nth_error frame c with Some ch => match nth_error ch t with Some a => Ok a | None => UB end | None => UB end.
(* The loop nest "for t, for c: convert the sample, WritePcmSample": [order] lists the (t, c) pairs still to visit. *)
Fixpoint write_samples {A} (conv : A -> res Z) (frame : list (list A)) (size : Z) (be : bool) (order : list (nat * nat))
  (buf : list Z) (pos : Z) : res unit * list Z * Z :=
  match order with
  | [] => (Ok tt, buf, pos)
  | (t, c) :: rest =>
      match rbind (at_ct frame c t) conv with
      | Ok v => match write_pcm (u32 v) size be buf pos with
                | (Ok _, b, p) => write_samples conv frame size be rest b p
                | e => e
                end
      | Err e => (Err e, buf, pos) | Abort => (Abort, buf, pos) | UB => (UB, buf, pos) | Diverge => (Diverge, buf, pos)
      end
  end.
Definition tick_order (ticks channels : nat) : list (nat * nat) :=
  flat_map (fun t => map (fun c => (t, c)) (seq 0 channels)) (seq 0 ticks).
(* MODELS iamf_decoder.cc:245-254 BytesPerSample; the third value stands for every other enumerator *)
Inductive sample_type := Int16LE | Int32LE | OtherType.
Definition bytes_per_sample (s : sample_type) : Z := match s with Int16LE => 2 | Int32LE => 4 | OtherType => 0 end.
Definition ticks_of {A} (frame : list (list A)) : Z := match frame with ch :: _ => zlen ch | [] => 0 end.
(* MODELS iamf_decoder.cc:256-290 ValidateWriteFrameToSpan.  IamfStatus has no code: every error is Unknown here.
   size_t is 64 bits. *)
Definition validate_span {A} (frame : list (list A)) (s : sample_type) (span : list Z) : res unit :=
  match frame with
  | [] => Err Unknown
  | _ =>
      let bps := bytes_per_sample s in
      if bps =? 0 then Err Unknown
      else let n := ticks_of frame in
      if negb (forallb (fun ch => zlen ch =? n) frame) then Err Unknown
      else if negb (n =? 0) && (zlen frame >? (2^64 - 1) / n / bps) then Err Unknown
      else if zlen span <? u64 (u64 (zlen frame * n) * bps) then Err Unknown
      else Ok tt
  end.
(* MODELS iamf_decoder.cc:292-327 WriteFrameToSpan: status, output bytes, bytes_written *)
Definition write_frame_to_span (frame : list (list double)) (s : sample_type) (span : list Z) (bytes_written : Z) : res unit * list Z * Z :=
  match validate_span frame s span with
  | Ok _ =>
      let bits_per_sample := bytes_per_sample s * 8 in
      match write_samples double_to_int32 frame bits_per_sample false (tick_order (Z.to_nat (ticks_of frame)) (length frame)) span 0 with
      | (Ok _, b, p) => (Ok tt, b, p)
      | (Err _, b, _) => (Err Unknown, b, bytes_written)
      | (e, b, _) => (e, b, bytes_written)
      end
  | e => (e, span, bytes_written)
  end.
(* MODELS cli_util.cc:175-201 WritePcmFrameToBuffer (buffer.resize gives zeros, or keeps old bytes, all of which are overwritten:
   the model starts from zeros).  frame[0] of an empty frame is UB. *)
Definition write_pcm_frame (frame : list (list Z)) (depth : Z) (be : bool) : res (list Z) :=
  if negb (depth mod 8 =? 0) then Err InvalidArgument
  else match frame with
       | [] => UB
       | ch :: _ =>
           let num := zlen frame * zlen ch in
           let buf := repeat 0 (Z.to_nat (num * (depth / 8))) in
           if num =? 0 then Ok buf
           else match write_samples (fun v => Ok v) frame depth be (tick_order (length ch) (length frame)) buf 0 with
                | (Ok _, b, _) => Ok b
                | (Err e, _, _) => Err e | (Abort, _, _) => Abort | (UB, _, _) => UB | (Diverge, _, _) => Diverge
                end
       end.
(* MODELS encoder_base.cc:35-52 ValidateInputSamples and lpcm_encoder.cc:63-84 EncodeAudioFrame ([little]: sample_format_flags).
   Only the first channel's length is checked. *)
Definition lpcm_encode (channels spf depth : Z) (little : bool) (samples : list (list Z)) : res (list Z) :=
  if negb (zlen samples =? channels) then Err InvalidArgument
  else match samples with
       | [] => Err InvalidArgument
       | ch :: _ => if negb (zlen ch =? spf) then Err InvalidArgument else write_pcm_frame samples depth (negb little)
       end.
(* MODELS lpcm_decoder.cc:90-101 one sample *)
Definition lpcm_sample (little : bool) (bps : Z) (data : list Z) (offset : Z) : res double :=
  if (offset <? 0) || (offset + bps >? zlen data) then UB
  else let b := firstn (Z.to_nat bps) (skipn (Z.to_nat offset) data) in
       map_res int32_to_double (if little then le_to_int32 b else be_to_int32 b).
Fixpoint res_list {A} (l : list (res A)) : res (list A) :=
  match l with [] => Ok [] | r :: t => rbind r (fun a => rbind (res_list t) (fun x => Ok (a :: x))) end.
(* MODELS lpcm_decoder.cc:61-104 DecodeAudioFrame; the decoded samples by channel *)
Definition lpcm_decode (channels spf bps : Z) (little : bool) (data : list Z) : res (list (list double)) :=
  if negb (zlen data mod bps =? 0) || negb ((zlen data / bps) mod channels =? 0) then Err InvalidArgument
  else let ticks := zlen data / bps / channels in
       if ticks >? spf then Err InvalidArgument
       else res_list (map (fun c => res_list (map (fun t => lpcm_sample little bps data ((t * channels + c) * bps))
                                                (map Z.of_nat (seq 0 (Z.to_nat ticks)))))
                          (map Z.of_nat (seq 0 (Z.to_nat channels)))).
