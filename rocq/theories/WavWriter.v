(* Model of cli/wav_writer.cc with the checks of cli/sample_processor_base.cc: the writer of WAV files.
   The header is written by a library (audio-to-tactile): [hdr n] are the bytes it writes for n samples (of all channels together) and the
   writer's rate, channels and bit depth.  Writes to the file are taken to succeed. *)
From Verif Require Import Base Pcm.
Open Scope Z_scope.

Section Wav.
Variable hdr : Z -> list Z.
(* MODELS wav_writer.h:117-132, sample_processor_base.h (state_, max_input_samples_per_frame_, num_channels_).  [w_open]: file_ is not null;
   [w_disk]: the bytes of the file, [None] if it was removed; [w_header]: wav_header_writer_ is not empty *)
Record wav := mkWav { w_nch : Z; w_bits : Z; w_max : Z; w_header : bool; w_taking : bool; w_open : bool; w_disk : option (list Z); w_total : Z; w_buf : list Z }.
(* MODELS wav_writer.cc:124-171 Create and 232-247: null for other bit depths.  [nch], [max]: not negative *)
Definition wav_create (nch bits max : Z) (header : bool) : option wav :=
  if (bits =? 16) || (bits =? 24) || (bits =? 32)
  then Some (mkWav nch bits max header true true (Some (if header then hdr 0 else [])) 0 (repeat 0 (Z.to_nat (nch * max * (bits / 8)))))
  else None.
(* MODELS wav_writer.cc:52-101 WriteSamplesInternal; a remainder by 0: UB *)
Definition write_internal (bytes : list Z) (w : wav) : res unit * wav :=
  if negb (w_open w) then (Err FailedPrecondition, w)
  else if zlen bytes =? 0 then (Ok tt, w)
  else if w_bits w * w_nch w / 8 =? 0 then (UB, w)
  else if negb (zlen bytes mod (w_bits w * w_nch w / 8) =? 0) then (Err InvalidArgument, w)
  else
    let total := zlen bytes / (w_bits w / 8) in
    if total / w_nch w >? w_max w then (Err InvalidArgument, w)
    else (Ok tt, mkWav (w_nch w) (w_bits w) (w_max w) (w_header w) (w_taking w) (w_open w)
                       (match w_disk w with Some d => Some (d ++ bytes) | None => None end) (w_total w + total) (w_buf w)).
(* MODELS wav_writer.cc:103-119 MaybeFinalizeFile: the header is written over the first bytes *)
Definition finalize_file (w : wav) : wav :=
  if w_open w
  then mkWav (w_nch w) (w_bits w) (w_max w) (w_header w) (w_taking w) false
             (match w_disk w with Some d => Some (if w_header w then hdr (w_total w) ++ skipn (length (hdr (w_total w))) d else d) | None => None end)
             (w_total w) (w_buf w)
  else w.
(* MODELS wav_writer.cc:179-211 PushFrameDerived *)
Definition push_derived (frame : list (list double)) (w : wav) : res unit * wav :=
  let n := ticks_of frame in
  if negb (forallb (fun ch => zlen ch =? n) frame) then (Err InvalidArgument, w)
  else
    let '(r, b, p) := write_samples double_to_int32 frame (w_bits w) false (tick_order (Z.to_nat n) (length frame)) (w_buf w) 0 in
    let w' := mkWav (w_nch w) (w_bits w) (w_max w) (w_header w) (w_taking w) (w_open w) (w_disk w) (w_total w) b in
    match r with
    | Ok _ => write_internal (firstn (Z.to_nat p) b) w'
    | Err c => (Err c, w')
    | Abort => (Abort, w') | UB => (UB, w') | Diverge => (Diverge, w')
    end.
(* MODELS sample_processor_base.cc:28-56 PushFrame *)
Definition push_frame (frame : list (list double)) (w : wav) : res unit * wav :=
  if negb (w_taking w) then (Err FailedPrecondition, w)
  else if negb (zlen frame =? w_nch w) then (Err InvalidArgument, w)
  else if negb (forallb (fun ch => (zlen ch =? ticks_of frame) && (zlen ch <=? w_max w)) frame) then (Err InvalidArgument, w)
  else push_derived frame w.
(* MODELS sample_processor_base.cc:58-69 Flush, wav_writer.cc:213-218 FlushDerived *)
Definition wav_flush (w : wav) : res unit * wav :=
  if negb (w_taking w) then (Err FailedPrecondition, w)
  else (Ok tt, finalize_file (mkWav (w_nch w) (w_bits w) (w_max w) (w_header w) false (w_open w) (w_disk w) (w_total w) (w_buf w))).
(* MODELS wav_writer.cc:226-230 Abort: std::fclose of a null pointer: UB *)
Definition wav_abort (w : wav) : res unit * wav :=
  if w_open w then (Ok tt, mkWav (w_nch w) (w_bits w) (w_max w) (w_header w) (w_taking w) false None (w_total w) (w_buf w)) else (UB, w).
(* MODELS wav_writer.cc:173-177: the destructor *)
Definition wav_destroy (w : wav) : wav := finalize_file w.

(* the calls of a user: PushFrame, WritePcmSamples (wav_writer.cc:220-224), Flush, Abort *)
Inductive wcall := WPush (frame : list (list double)) | WWrite (bytes : list Z) | WFlush | WAbort.
Definition wav_call (c : wcall) (w : wav) : res unit * wav :=
  match c with WPush f => push_frame f w | WWrite b => write_internal b w | WFlush => wav_flush w | WAbort => wav_abort w end.
(* the results of calls in turn, and the state after them *)
Fixpoint wav_run (l : list wcall) (w : wav) : list (res unit) * wav :=
  match l with
  | [] => ([], w)
  | c :: t => let '(r, w1) := wav_call c w in let '(rs, w2) := wav_run t w1 in (r :: rs, w2)
  end.
End Wav.
