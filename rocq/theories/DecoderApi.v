(* The public decoder: iamf/api/decoder/iamf_decoder.cc.  The model covers the state machine of IamfDecoder on top of the read
   buffer (ReadBuf.v), temporal unit processing (Processor.v), channel reordering (Reorder.v) and PCM output (Pcm.v).
   Abstract, as an environment about which the theorems assume only what they state: parsing the descriptor OBUs together with the
   selection of mix and layout (any reader program), and rendering a temporal unit (any function with a state). *)
From Verif Require Import Base ReadBuf Processor Session MixPresentation Reorder Pcm.

Definition frame := list (list double).

(* What ObuProcessor::CreateForRendering hands over: descriptors and initial processing state, the renderer's initial state,
   and the answers of GetOutputMixPresentationId, GetOutputLayout (layout_type, specific_layout), GetOutputSampleRate,
   GetOutputFrameSize (obu_processor.cc:494-523), which are fixed at creation. *)
Record newproc (R : Type) := mkNP {
  np_D : descs; np_s : pst; np_R : R; np_mix : res Z; np_layout : res (Z * speclay); np_rate : res Z; np_size : res Z }.
Arguments mkNP {R}. Arguments np_D {R}. Arguments np_s {R}. Arguments np_R {R}. Arguments np_mix {R}. Arguments np_layout {R}.
Arguments np_rate {R}. Arguments np_size {R}.

(* [e_create from_descriptors requested_mix]: the reader program run by ObuProcessor::CreateForRendering; None = nullptr, and
   the flag output_insufficient_data; or a crash.
   [e_render state unit pending]: ObuProcessor::RenderTemporalUnitAndMeasureLoudness for a unit with audio frames
   (obu_processor.cc:649-722); besides the rendered frame it gives the renderer's next state and what becomes of the frame
   rendered before, since frames are spans into the renderer's memory. *)
Record env (M R : Type) := mkEnv {
  e_create : bool -> M -> rprog (res (option (newproc R) * bool));
  e_render : R -> outunit -> frame -> res frame * frame * R }.
Arguments mkEnv {M R}. Arguments e_create {M R}. Arguments e_render {M R}.

(* An ObuProcessor.  [p_gen]: which of the decoder's read buffers its raw pointer refers to. *)
Record proc (R : Type) := mkP {
  p_D : descs; p_s : pst; p_u : units; p_R : R; p_rate : res Z; p_size : res Z; p_gen : nat }.
Arguments mkP {R}. Arguments p_D {R}. Arguments p_s {R}. Arguments p_u {R}. Arguments p_R {R}. Arguments p_rate {R}.
Arguments p_size {R}. Arguments p_gen {R}.

(* MODELS iamf_decoder.cc:61-130 DecoderState.  [ds_gen] counts the read buffers created; desired profiles and trimming settings
   are part of the environment.  [ds_mix]: actual_mix_presentation_id and actual_layout, None before they are assigned. *)
Record dstate (M R : Type) := mkDS {
  ds_ended : bool; ds_proc : option (proc R); ds_buf : rbuf; ds_gen : nat; ds_frame : frame; ds_req : M;
  ds_mix : option (Z * (Z * speclay)); ds_type : sample_type; ds_fromd : bool; ds_desc : list Z;
  ds_scheme : scheme; ds_reord : option (scheme * Z) }.
Arguments mkDS {M R}. Arguments ds_ended {M R}. Arguments ds_proc {M R}. Arguments ds_buf {M R}. Arguments ds_gen {M R}.
Arguments ds_frame {M R}. Arguments ds_req {M R}. Arguments ds_mix {M R}. Arguments ds_type {M R}. Arguments ds_fromd {M R}.
Arguments ds_desc {M R}. Arguments ds_scheme {M R}. Arguments ds_reord {M R}.

Section Decoder.
Context {M R : Type} (fuel k : nat) (e : env M R).
Local Notation st := (dstate M R).

Definition set_buf (d : st) (b : rbuf) : st :=
  mkDS (ds_ended d) (ds_proc d) b (ds_gen d) (ds_frame d) (ds_req d) (ds_mix d) (ds_type d) (ds_fromd d) (ds_desc d) (ds_scheme d) (ds_reord d).
Definition set_frame (d : st) (f : frame) : st :=
  mkDS (ds_ended d) (ds_proc d) (ds_buf d) (ds_gen d) f (ds_req d) (ds_mix d) (ds_type d) (ds_fromd d) (ds_desc d) (ds_scheme d) (ds_reord d).
Definition set_proc (d : st) (p : option (proc R)) : st :=
  mkDS (ds_ended d) p (ds_buf d) (ds_gen d) (ds_frame d) (ds_req d) (ds_mix d) (ds_type d) (ds_fromd d) (ds_desc d) (ds_scheme d) (ds_reord d).
Definition set_mix (d : st) (m : option (Z * (Z * speclay))) : st :=
  mkDS (ds_ended d) (ds_proc d) (ds_buf d) (ds_gen d) (ds_frame d) (ds_req d) m (ds_type d) (ds_fromd d) (ds_desc d) (ds_scheme d) (ds_reord d).
Definition set_desc (d : st) (l : list Z) : st :=
  mkDS (ds_ended d) (ds_proc d) (ds_buf d) (ds_gen d) (ds_frame d) (ds_req d) (ds_mix d) (ds_type d) (ds_fromd d) l (ds_scheme d) (ds_reord d).
Definition set_reord (d : st) (o : option (scheme * Z)) : st :=
  mkDS (ds_ended d) (ds_proc d) (ds_buf d) (ds_gen d) (ds_frame d) (ds_req d) (ds_mix d) (ds_type d) (ds_fromd d) (ds_desc d) (ds_scheme d) o.
Definition set_ended (d : st) (b : bool) : st :=
  mkDS b (ds_proc d) (ds_buf d) (ds_gen d) (ds_frame d) (ds_req d) (ds_mix d) (ds_type d) (ds_fromd d) (ds_desc d) (ds_scheme d) (ds_reord d).
Definition set_fromd (d : st) (b : bool) : st :=
  mkDS (ds_ended d) (ds_proc d) (ds_buf d) (ds_gen d) (ds_frame d) (ds_req d) (ds_mix d) (ds_type d) b (ds_desc d) (ds_scheme d) (ds_reord d).
Definition set_req (d : st) (m : M) : st :=
  mkDS (ds_ended d) (ds_proc d) (ds_buf d) (ds_gen d) (ds_frame d) m (ds_mix d) (ds_type d) (ds_fromd d) (ds_desc d) (ds_scheme d) (ds_reord d).
Definition set_fresh_buf (d : st) (b : rbuf) : st :=
  mkDS (ds_ended d) (ds_proc d) b (S (ds_gen d)) (ds_frame d) (ds_req d) (ds_mix d) (ds_type d) (ds_fromd d) (ds_desc d) (ds_scheme d) (ds_reord d).

(* A crash (abort, undefined behaviour, endless loop) stays one; [Ok] cannot occur where this is used. *)
Definition crash {A B} (r : res A) : res B :=
  match r with Ok _ => Abort | Err c => Err c | Abort => Abort | UB => UB | Diverge => Diverge end.

(* MODELS iamf_decoder.cc:137-163: run the parser, then rewind and read the bytes it consumed.  The processor's error is only
   logged.  A negative number of consumed bytes would make resize throw. *)
Definition create_prog (fromd : bool) (m : M) : rprog (res (newproc R * list Z)) :=
  p0 <- rtell ;;
  x <- rcatch (e_create e fromd m) ;;
  match x with
  | inr (Ok (Some np, _)) =>
      p1 <- rtell ;;
      let n := Z.quot (p1 - p0) 8 in
      if n <? 0 then RRet Abort
      else rseek p0 ;;; bytes <- rspan (Z.to_nat n) ;; RRet (Ok (np, bytes))
  | inr (Ok (None, insufficient)) => RRet (Err (if insufficient && negb fromd then ResourceExhausted else InvalidArgument))
  | inr (Err _) => RRet (Err InvalidArgument)
  | inr r => RRet (crash r)
  | inl _ => RRet (Err InvalidArgument)
  end.
(* MODELS iamf_decoder.cc:135-183 CreateObuProcessor *)
Definition create_processor (d : st) : res unit * st :=
  match crun fuel (create_prog (ds_fromd d) (ds_req d)) (ds_buf d) with
  | (Ok (Ok (np, bytes)), b1) =>
      let d1 := set_desc (set_buf d b1) bytes in
      match r_flush b1 with
      | (Ok _, b2) =>
          let d2 := set_buf d1 b2 in
          match np_mix np with
          | Ok mix =>
              match np_layout np with
              | Ok lay =>
                  (Ok tt, set_proc (set_mix d2 (Some (mix, lay)))
                            (Some (mkP (np_D np) (np_s np) (mkU tud_empty tud_empty) (np_R np) (np_rate np) (np_size np) (ds_gen d))))
              | r => (crash r, d2)
              end
          | r => (crash r, d2)
          end
      | (r, b2) => (crash r, set_buf d1 b2)
      end
  | (Ok r, b1) => (crash r, set_buf d b1)
  | (r, b1) => (crash r, set_buf d b1)
  end.

(* MODELS obu_processor.cc:649-658: without audio frames there is nothing to render.  If no frame is pending (no spans), the
   renderer cannot change one. *)
Definition render_unit (r : R) (u : outunit) (pending : frame) : res frame * frame * R :=
  match un_frames u with
  | [] => (Ok [], pending, r)
  | _ => let '(x, old, r1) := e_render e r u pending in (x, match pending with [] => [] | _ => old end, r1)
  end.

(* What a call does: its status, the bytes it reports as written, the frames which the renderer handed over during it. *)
Record reply := mkReply { r_status : res unit; r_bytes : list Z; r_rendered : list frame }.

(* AbslToIamfStatus forgets the code. *)
Definition to_iamf {A} (r : res A) : res unit :=
  match r with Ok _ => Ok tt | Err _ => Err Unknown | Abort => Abort | UB => UB | Diverge => Diverge end.

(* MODELS iamf_decoder.cc:205-243 DecodeOneTemporalUnit.  The processor reads through a raw pointer: with a buffer which no longer
   exists this is undefined. *)
Definition decode_one (eos : bool) (d : st) : res unit * st * list frame :=
  match ds_proc d with
  | None => (Err Unknown, d, [])
  | Some p =>
      if negb (Nat.eqb (p_gen p) (ds_gen d)) then (UB, d, [])
      else
        match process_unit (crun_with fuel) k (p_D p) eos (p_s p) (p_u p) (ds_buf d) with
        | (Ok (out, _), s1, u1, b1) =>
            let upd (d0 : st) r1 := set_proc (set_buf d0 b1) (Some (mkP (p_D p) s1 u1 r1 (p_rate p) (p_size p) (p_gen p))) in
            let finish (d1 : st) fs := match r_flush (ds_buf d1) with
                                       | (Ok _, b2) => (Ok tt, set_buf d1 b2, fs)
                                       | (r, b2) => (to_iamf r, set_buf d1 b2, fs)
                                       end in
            match out with
            | None => finish (upd d (p_R p)) []
            | Some ou =>
                match render_unit (p_R p) ou (ds_frame d) with
                | (Ok f, _, r1) =>
                    match (match ds_reord d with Some (sch, ss) => reorder sch ss f | None => Ok f end) with
                    | Ok f' => finish (set_frame (upd d r1) f') [f']
                    | Err _ => (Abort, set_frame (upd d r1) f, [])
                    | r => (to_iamf r, set_frame (upd d r1) f, [])
                    end
                | (r, old, r1) => (to_iamf r, set_frame (upd d r1) old, [])
                end
            end
        | (r, s1, u1, b1) =>
            (to_iamf r, set_proc (set_buf d b1) (Some (mkP (p_D p) s1 u1 (p_R p) (p_rate p) (p_size p) (p_gen p))), [])
        end
  end.

(* MODELS iamf_decoder.cc:340-366 Create (kInitialBufferSize = 1024) *)
Definition create (m : M) (sch : scheme) (ty : sample_type) : st :=
  mkDS false None (r_stream 1024) 0 [] m None ty false [] sch None.
(* MODELS iamf_decoder.cc:368-389 CreateFromDescriptors: the decoder is handed out even if the status is an error *)
Definition create_from_descriptors (m : M) (sch : scheme) (ty : sample_type) (bytes : list Z) : res unit * st :=
  let d := create m sch ty in
  match r_push bytes (ds_buf d) with
  | (Ok _, b1) => let '(r, d1) := create_processor (set_fromd (set_buf d b1) true) in (to_iamf r, d1)
  | (r, b1) => (to_iamf r, set_buf d b1)
  end.

(* MODELS iamf_decoder.cc:414-423 *)
Definition reorderer_for (d : st) : option (scheme * Z) :=
  match ds_mix d with
  | Some (_, (_, LSs ss _)) => Some (ds_scheme d, ss)
  | _ => ds_reord d
  end.
(* MODELS iamf_decoder.cc:391-438 Decode *)
Definition decode (bytes : list Z) (d : st) : reply * st :=
  if ds_ended d then (mkReply (Err Unknown) [] [], d)
  else match r_push bytes (ds_buf d) with
       | (Ok _, b1) =>
           let d1 := set_buf d b1 in
           match ds_proc d1 with
           | None =>
               let '(r, d2) := create_processor d1 in
               (mkReply (match r with Ok _ | Err ResourceExhausted => Ok tt | r => to_iamf r end) [] [], d2)
           | Some _ =>
               let d2 := set_reord d1 (reorderer_for d1) in
               match ds_frame d2 with
               | [] => let '(r, d3, fs) := decode_one (ds_fromd d2) d2 in (mkReply r [] fs, d3)
               | _ => (mkReply (Ok tt) [] [], d2)
               end
           end
       | (r, b1) => (mkReply (to_iamf r) [] [], set_buf d b1)
       end.

(* MODELS iamf_decoder.cc:440-466 GetOutputTemporalUnit; [span] is the caller's buffer.  [r_bytes] are the first bytes_written
   bytes of the buffer afterwards. *)
Definition get_unit (span : list Z) (d : st) : reply * st :=
  match ds_frame d with
  | [] => (mkReply (Ok tt) [] [], d)
  | _ =>
      match write_frame_to_span (ds_frame d) (ds_type d) span 0 with
      | (Abort, _, _) => (mkReply Abort [] [], d)
      | (UB, _, _) => (mkReply UB [] [], d)
      | (Diverge, _, _) => (mkReply Diverge [] [], d)
      | (status, span', written) =>
          let d1 := match status with Ok _ => set_frame d [] | _ => d end in
          let '(r, d2, fs) := decode_one (ds_fromd d || ds_ended d) d1 in
          (mkReply (match r with Ok _ => status | _ => r end) (firstn (Z.to_nat written) span') fs, d2)
      end
  end.

(* MODELS iamf_decoder.cc:592-608 SignalEndOfDecoding *)
Definition signal_end (d : st) : reply * st :=
  let d1 := set_ended d true in
  match ds_fromd d1, ds_frame d1, ds_proc d1 with
  | false, [], Some _ => let '(r, d2, fs) := decode_one true d1 in (mkReply r [] fs, d2)
  | _, _, _ => (mkReply (Ok tt) [] [], d1)
  end.

(* MODELS iamf_decoder.cc:538-569 Reset *)
Definition reset (d : st) : reply * st :=
  if negb (ds_fromd d) then (mkReply (Err Unknown) [] [], d)
  else
    let d1 := set_ended (set_reord (set_frame d []) None) false in
    let d2 := set_fresh_buf d1 (r_stream 1024) in
    match r_push (ds_desc d2) (ds_buf d2) with
    | (Ok _, b1) => let '(r, d3) := create_processor (set_buf d2 b1) in (mkReply (to_iamf r) [] [], d3)
    | (r, b1) => (mkReply (to_iamf r) [] [], set_buf d2 b1)
    end.

(* MODELS mix_presentation_conversion.cc:28-92 and 148-155 InternalToApiType of a layout: Some sound system, or None for binaural *)
Definition api_layout (l : Z * speclay) : res (option Z) :=
  match l with
  | (t, LRb _) => if t =? 3 then Ok None else Err InvalidArgument
  | (t, LSs ss _) => if negb (t =? 2) then Err InvalidArgument
                     else if (0 <=? ss) && (ss <=? 13) then Ok (Some ss) else Err InvalidArgument
  end.
(* MODELS iamf_decoder.cc:571-590 ResetWithNewMix; [selected] is what it reports *)
Definition reset_with_mix (m : M) (d : st) : reply * st * option (Z * option Z) :=
  if negb (ds_fromd d) then (mkReply (Err Unknown) [] [], d, None)
  else
    let '(r, d1) := reset (set_req d m) in
    match r_status r with
    | Ok _ =>
        match ds_mix d1 with
        | Some (mix, lay) => match api_layout lay with
                             | Ok l => (mkReply (Ok tt) [] [], d1, Some (mix, l))
                             | x => (mkReply (to_iamf x) [] [], d1, None)
                             end
        | None => (mkReply UB [] [], d1, None)
        end
    | _ => (r, d1, None)
    end.

(* MODELS iamf_decoder.cc:468-474 IsTemporalUnitAvailable, IsDescriptorProcessingComplete *)
Definition available (d : st) : bool := match ds_frame d with [] => false | _ => true end.
Definition complete (d : st) : bool := match ds_proc d with Some _ => true | None => false end.
(* MODELS iamf_decoder.cc:476-536 the getters.  A processor exists only with actual mix and layout assigned (UB otherwise). *)
Definition get_mix (d : st) : res (Z * option Z) :=
  if negb (complete d) then Err Unknown
  else match ds_mix d with
       | Some (mix, lay) => match api_layout lay with Ok l => Ok (mix, l) | _ => Err Unknown end
       | None => UB
       end.
Definition get_channels (d : st) : res Z :=
  if negb (complete d) then Err Unknown
  else match ds_mix d with
       | Some (_, (t, s)) => match num_channels t s with Err _ => Err Unknown | r => r end
       | None => UB
       end.
Definition get_rate (d : st) : res Z :=
  match ds_proc d with Some p => match p_rate p with Err _ => Err Unknown | r => r end | None => Err Unknown end.
Definition get_size (d : st) : res Z :=
  match ds_proc d with Some p => match p_size p with Err _ => Err Unknown | r => r end | None => Err Unknown end.

(* A client: calls in any order. *)
Inductive call := CDecode (bytes : list Z) | CGet (span : list Z) | CEnd | CReset | CResetMix (m : M).
Definition step (c : call) (d : st) : reply * st :=
  match c with
  | CDecode bytes => decode bytes d
  | CGet span => get_unit span d
  | CEnd => signal_end d
  | CReset => reset d
  | CResetMix m => fst (reset_with_mix m d)
  end.
(* The replies to a history of calls; after a crash there are no further replies. *)
Definition crashed {A} (r : res A) : bool := match r with Ok _ | Err _ => false | _ => true end.
Fixpoint calls (cs : list call) (d : st) : list reply * st :=
  match cs with
  | [] => ([], d)
  | c :: rest =>
      let '(r, d1) := step c d in
      if crashed (r_status r) then ([r], d1)
      else let '(rs, d2) := calls rest d1 in (r :: rs, d2)
  end.
End Decoder.
Arguments call : clear implicits.
