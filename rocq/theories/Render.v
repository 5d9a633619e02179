(* Model of rendering a temporal unit: cli/obu_processor.cc:649-800 (RenderTemporalUnitAndMeasureLoudness,
   ConfigureSimplifiedAudioProcessingPipeline), cli/audio_frame_decoder.cc, cli/rendering_mix_presentation_finalizer.cc,
   cli/renderer_factory.cc, cli/renderer/default_layout_renderer.cc, audio_element_renderer_base.cc, _passthrough.cc,
   _channel_to_channel.cc, _ambisonics_to_channel.cc, loudspeakers_renderer.cc, renderer_utils.cc and
   cli/sample_processing_utils.cc:36-137.  Everything is over an arithmetic on samples (type T) and on gains (type F); the C++ code
   is the instance with double and float.
   Parameters (record [renv]): the codecs, the library for binaural rendering (OBR), the table of precomputed gain matrices, the
   interpolation formulas of mix gains, the trimming settings.
   Hash maps are association lists in iteration order.  Not modelled: loudness calculators and sample processors, which the
   decoder does not use (obu_processor.cc:779-783), logging. *)
From Verif Require Import Base WriteBuf ObuHeader SimpleObus CodecConfig Params AudioElement MixPresentation Timing ParamManager AeData
  Profile MixSelect MixGain Processor Demix.

Record renv (T F B C : Type) := mkRenv {
  r_A : arith T;
  (* the formulas of obu_util.h:55-120 and std::pow(10.0f, x / 20.0f), as in MixGain.v; x *= gain *)
  r_step : Z -> F; r_linear : Z -> Z -> Z -> Z -> F; r_bezier : Z -> Z -> Z -> Z -> Z -> Z -> F; r_tolin : F -> F; r_scale : T -> F -> T;
  (* get_gains.cc GetGainsForLayoutPair: the matrix from a sound system (inl) or an ambisonics order (inr) to a sound system *)
  r_table : Z + Z -> Z -> res (list (list T));
  (* AudioElementRendererBinaural up to the creation of the OBR object; one call of it on a frame: two channels of at least the
     number of samples given *)
  r_obr_new : aelem -> Z -> Z -> option B; r_obr : B -> list (list T) -> res (list (list T)) * B;
  (* audio_frame_decoder.cc:46-92 CreateDecoder for a number of channels, DecoderBase::DecodeAudioFrame *)
  r_newdec : codec_config -> Z -> res C; r_decode : C -> list Z -> res (list (list T)) * C;
  (* TrimmingSettings *)
  r_trim_begin : bool; r_trim_end : bool }.
Arguments mkRenv {T F B C}. Arguments r_A {T F B C}. Arguments r_step {T F B C}. Arguments r_linear {T F B C}. Arguments r_bezier {T F B C}.
Arguments r_tolin {T F B C}. Arguments r_scale {T F B C}. Arguments r_table {T F B C}. Arguments r_obr_new {T F B C}. Arguments r_obr {T F B C}.
Arguments r_newdec {T F B C}. Arguments r_decode {T F B C}. Arguments r_trim_begin {T F B C}. Arguments r_trim_end {T F B C}.

(* A channel of the arrangement: a label, or kOmitted (None) *)
Definition slot := option label.
(* MODELS channel_label.cc:67-76 SetLabelsToOmittedExceptFor *)
Definition keep (l order : list label) : list slot := map (fun x => if lab_in x l then Some x else None) order.
Definition order_714 : list label := [L7; R7; Centre; LFE; Lss7; Rss7; Lrs7; Rrs7; Ltf4; Rtf4; Ltb4; Rtb4].
Definition order_514 : list label := [L5; R5; Centre; LFE; Ls5; Rs5; Ltf4; Rtf4; Ltb4; Rtb4].
Definition order_916 : list label := [FL; FR; FC; LFE; BL; BR; FLc; FRc; SiL; SiR; TpFL; TpFR; TpBL; TpBR; TpSiL; TpSiR].
Definition order_10293 : list label :=
  [FL; FR; FC; LFE; BL; BR; FLc; FRc; BC; LFE2; SiL; SiR; TpFL; TpFR; TpFC; TpC; TpBL; TpBR; TpSiL; TpSiR; TpBC; BtFC; BtFL; BtFR].
Definition order_7154 : list label :=
  [L7; R7; Centre; LFE; Lss7; Rss7; Lrs7; Rrs7; Ltf4; Rtf4; Ltb4; Rtb4; TpC; BtFL; BtFR; BtBL; BtBR].
(* MODELS channel_label.cc:78-194 LookupEarChannelOrderFromExpandedLoudspeakerLayout *)
Definition ear_order_expanded (e : Z) : res (list slot) :=
  if e =? 0 then Ok (keep [LFE] order_714)
  else if e =? 1 then Ok (keep [Ls5; Rs5] order_514)
  else if e =? 2 then Ok (keep [Lss7; Rss7] order_714)
  else if e =? 3 then Ok (keep [Lrs7; Rrs7] order_714)
  else if e =? 4 then Ok (keep [Ltf4; Rtf4] order_714)
  else if e =? 5 then Ok (keep [Ltb4; Rtb4] order_714)
  else if e =? 6 then Ok (keep [Ltf4; Rtf4; Ltb4; Rtb4] order_714)
  else if e =? 7 then Ok (keep [L7; R7; Centre] order_714)
  else if e =? 8 then Ok (map Some order_916)
  else if e =? 9 then Ok (keep [FL; FR] order_916)
  else if e =? 10 then Ok (keep [SiL; SiR] order_916)
  else if e =? 11 then Ok (keep [TpSiL; TpSiR] order_916)
  else if e =? 12 then Ok (keep [TpFL; TpFR; TpSiL; TpSiR; TpBL; TpBR] order_916)
  else if e =? 13 then Ok (map Some order_10293)
  else if e =? 14 then Ok (keep [LFE; LFE2] order_10293)
  else if e =? 15 then Ok (keep [BtFC; BtFL; BtFR] order_10293)
  else if e =? 16 then Ok (map Some order_7154)
  else if e =? 17 then Ok (keep [BtFL; BtFR; BtBL; BtBR] order_7154)
  else if e =? 18 then Ok (keep [TpC] order_7154)
  else if e =? 19 then Ok (keep [Ltf4; Rtf4; Ltb4; Rtb4; TpC] order_7154)
  else Err InvalidArgument.
(* MODELS channel_label.cc:437-451 LookupEarChannelOrderFromScalableLoudspeakerLayout *)
Definition channel_order (ly : layer) : res (list slot) :=
  if ly_layout ly =? kExpanded then match ly_exp ly with None => Err InvalidArgument | Some e => ear_order_expanded e end
  else rbind (ear_order (ly_layout ly)) (fun l => Ok (map Some l)).

(* std::get<LoudspeakersSsConventionLayout>(layout.specific_layout) throws on the other alternative *)
Definition sound_system (l : lay) : res Z := match snd l with LSs s _ => Ok s | LRb _ => Abort end.
(* MODELS audio_element_renderer_passthrough.cc:40-65 IsLoudspeakerLayoutEquivalentToSoundSystem; the table *)
Definition layout_of_system (ss : Z) : res Z :=
  if ss =? 12 then Ok 0 else if ss =? 0 then Ok 1 else if ss =? 1 then Ok 2 else if ss =? 2 then Ok 3 else if ss =? 3 then Ok 4
  else if ss =? 8 then Ok 5 else if ss =? 10 then Ok 6 else if ss =? 9 then Ok 7 else if ss =? 11 then Ok 8 else Err NotFound.
(* MODELS audio_element_renderer_passthrough.cc:67-108 and audio_element_renderer_channel_to_channel.cc:62-95: the sound system on
   which an expanded layout is based *)
Definition system_of_expanded (e : Z) : res Z :=
  if e =? 1 then Ok 3
  else if (e =? 0) || (2 <=? e) && (e <=? 7) then Ok 9
  else if (8 <=? e) && (e <=? 12) then Ok 13
  else if (13 <=? e) && (e <=? 15) then Ok 7
  else if (16 <=? e) && (e <=? 19) then Ok 14
  else Err InvalidArgument.
(* MODELS audio_element_renderer_passthrough.cc:110-145 CanChannelAudioLayerConfigPassThroughToLayout *)
Definition can_pass (ly : layer) (l : lay) : res bool :=
  if fst l =? 2 then
    rbind (sound_system l) (fun ss =>
    if (ly_layout ly =? 9) && (ss =? 0) then Ok true
    else if ly_layout ly =? kExpanded then
      match ly_exp ly with None => Err InvalidArgument | Some e => rbind (system_of_expanded e) (fun s => Ok (s =? ss)) end
    else rbind (layout_of_system ss) (fun x => Ok (x =? ly_layout ly)))
  else if fst l =? 3 then Ok (ly_layout ly =? 9)
  else Err InvalidArgument.
(* MODELS audio_element_renderer_passthrough.cc:147-171 FindEquivalentLayer *)
Fixpoint find_layer (ls : list layer) (l : lay) : res layer :=
  match ls with
  | [] => Err InvalidArgument
  | ly :: t => rbind (can_pass ly l) (fun b => if b then Ok ly else find_layer t l)
  end.
(* A creation which fails gives nullptr (None); a crash stays one *)
Definition or_null {X} (r : res X) : res (option X) := match r with Ok x => Ok (Some x) | Err _ => Ok None | Abort => Abort | UB => UB | Diverge => Diverge end.

(* MODELS audio_element_renderer_channel_to_channel.cc:97-128 LookupInputKeyFromLoudspeakerLayout; a key is the number of the sound
   system with this name (renderer_utils.cc:134-150) *)
Definition input_key (ly : layer) : res Z :=
  if ly_layout ly =? kExpanded then match ly_exp ly with None => Err InvalidArgument | Some e => system_of_expanded e end
  else match find (fun s => match layout_of_system s with Ok x => x =? ly_layout ly | _ => false end) [12; 0; 1; 2; 3; 8; 9; 10; 11] with
       | Some s => Ok s | None => Err NotFound end.
(* MODELS renderer_utils.cc:125-166 LookupOutputKeyFromPlaybackLayout *)
Definition output_key (l : lay) : res Z :=
  if fst l =? 2 then rbind (sound_system l) (fun ss => if (0 <=? ss) && (ss <=? 14) then Ok ss else Err NotFound) else Err Unimplemented.
(* MODELS renderer_utils.cc:168-189 GetAmbisonicsOrder *)
Definition ambisonics_order (n : Z) : res Z :=
  match find (fun i => (i + 1) * (i + 1) =? n) (map Z.of_nat (seq 0 15)) with Some i => Ok i | None => Err InvalidArgument end.
(* MODELS renderer_utils.cc:40-81 GetChannelLabelsFromAmbisonicsMonoConfig: the channels of the mapping *)
Fixpoint mono_slots (mapping : list Z) (subs : list Z) (m : labmap) : res (list slot) :=
  match mapping with
  | [] => Ok []
  | i :: t =>
      rbind (if i =? 255 then Ok None
             else match nth_error subs (Z.to_nat i) with
                  | None => UB
                  | Some s => match m_find s m with Some [l] => Ok (Some l) | Some _ => Err InvalidArgument | None => Err NotFound end
                  end) (fun x => rbind (mono_slots t subs m) (fun r => Ok (x :: r)))
  end.
(* MODELS renderer_utils.cc:83-121 GetChannelLabelsFromAmbisonicsProjectionConfig *)
Fixpoint projection_slots (subs : list Z) (m : labmap) : res (list slot) :=
  match subs with
  | [] => Ok []
  | s :: t => match m_find s m with
              | None => Err NotFound
              | Some l => rbind (projection_slots t m) (fun r => Ok (map Some l ++ r))
              end
  end.
(* MODELS renderer_utils.cc:199-214 GetChannelLabelsForAmbisonics *)
Definition ambisonics_slots (c : ambi) (subs : list Z) (m : labmap) : res (list slot) :=
  match c with
  | AMono n mapping => veq n (zlen subs) >>> mono_slots mapping subs m
  | AProj _ n coupled _ =>
      veq n (zlen subs) >>> rbind (projection_slots subs m) (fun l => veq (zlen l) (n + coupled) >>> Ok l)
  end.
(* MODELS ambisonics_config.h GetOutputChannelCount *)
Definition ambisonics_channels (c : ambi) : Z := match c with AMono _ mapping => zlen mapping | AProj out _ _ _ => out end.

Section Render.
Context {T F B C : Type} (E : renv T F B C).
Local Notation A := (r_A E).
Local Notation chan := (@samples T).
Definition zero : T := a_lit A 0 1.
Definition one : T := a_lit A 1 1.
Declare Scope arith_scope.
Notation "x + y" := (a_add A x y) (only parsing) : arith_scope.
Notation "x * y" := (a_mul A x y) (only parsing) : arith_scope.
Delimit Scope arith_scope with A.

(* MODELS sample_processing_utils.cc:43-65: the common length of the channels with a label *)
Fixpoint raw_ticks (ls : list slot) (m : @smap T) (n : option nat) : res (option nat) :=
  match ls with
  | [] => Ok n
  | None :: t => raw_ticks t m n
  | Some l :: t =>
      rbind (find_samples l m) (fun s =>
      match n with
      | None => raw_ticks t m (Some (length s))
      | Some k => if Nat.eqb k (length s) then raw_ticks t m n else Err InvalidArgument
      end)
  end.
Definition trim_of (b : bool) (n : Z) : Z := if b then n else 0.
(* MODELS sample_processing_utils.cc:36-93 GetCommonNumTrimmedTimeTicks; [empty]: the size of empty_channel *)
Definition trimmed_ticks (lf : @labeled T) (ls : list slot) (empty : nat) : res nat :=
  rbind (raw_ticks ls (lf_map lf) None) (fun o =>
  match o with
  | None => Err InvalidArgument
  | Some n =>
      if Nat.ltb empty n then Err InvalidArgument
      else let ts := trim_of (r_trim_begin E) (lf_trim_start lf) in let te := trim_of (r_trim_end E) (lf_trim_end lf) in
           if ts + te >=? 2^32 then Err InvalidArgument
           else if Z.of_nat n <? ts + te then Err InvalidArgument
           else Ok (n - Z.to_nat ts - Z.to_nat te)%nat
  end).
(* span.subspan(pos, n) throws beyond the end *)
Definition subspan (s : chan) (pos n : nat) : res chan := if Nat.ltb (length s) pos then Abort else Ok (firstn n (skipn pos s)).
(* MODELS sample_processing_utils.cc:97-137 ArrangeSamples, for a list of labels which is not empty: samples_to_render and
   num_valid_ticks *)
Definition arrange (lf : @labeled T) (ls : list slot) (empty : nat) : res (list chan * nat) :=
  rbind (trimmed_ticks lf ls empty) (fun n =>
  rbind (rmap (fun x => rbind (match x with None => Ok (repeat zero empty) | Some l => find_samples l (lf_map lf) end)
                              (fun s => subspan s (Z.to_nat (trim_of (r_trim_begin E) (lf_trim_start lf))) n)) ls) (fun r =>
  Ok (r, n))).

(* MODELS vector.resize and, per channel, insert at the end *)
Definition append_to (out add : list chan) : list chan :=
  map (fun p => fst p ++ snd p) (combine (firstn (length add) out ++ repeat [] (length add - length out)) add).

(* for (t = 0; t < num_ticks; t++) acc[t] += s[t] * gain *)
Definition axpy (gain : T) (s acc : chan) : chan := zip2 (fun a x => (a + x * gain)%A) acc s.
(* MODELS loudspeakers_renderer.cc:141-152: one output channel; gains[in][out] out of range is undefined *)
Fixpoint mix_in (ins : list chan) (g : list (list T)) (o : nat) (acc : chan) : res chan :=
  match ins, g with
  | s :: ins', row :: g' => match nth_error row o with None => UB | Some k => mix_in ins' g' o (axpy k s acc) end
  | _, _ => Ok acc
  end.
Definition first_ticks (ins : list chan) : nat := match ins with [] => O | s :: _ => length s end.
(* MODELS loudspeakers_renderer.cc:118-155 RenderSamplesUsingGains *)
Definition render_gains (ins : list chan) (g : list (list T)) : res (list chan) :=
  match g with
  | [] => Err InvalidArgument
  | row :: _ =>
      if Nat.ltb (length g) (length ins) then Err InvalidArgument
      else if negb (forallb (fun s => Nat.eqb (length s) (first_ticks ins)) ins) then Err InvalidArgument
      else rmap (fun o => mix_in ins g o (repeat zero (first_ticks ins))) (seq 0 (length row))
  end.
(* MODELS loudspeakers_renderer.cc:95-116 LayoutStringHasHeightChannels *)
Definition has_height (key : Z) : bool := existsb (Z.eqb key) [9; 10; 3; 2; 11].
(* MODELS loudspeakers_renderer.cc:36-93 ComputeGains *)
Definition compute_gains (inp out : Z) (p : @dparams T) : option (list (list T)) :=
  let z := zero in let i := one in
  let al := d_alpha p in let be := d_beta p in let ga := d_gamma p in let de := d_delta p in let w := d_w p in
  if (inp =? 9) && (out =? 11) then
    Some [[i; z; z; z; z; z]; [z; i; z; z; z; z]; [z; z; i; z; z; z]; [z; z; z; i; z; z];
          [(al * de)%A; z; z; z; (al * w * de)%A; z]; [z; (al * de)%A; z; z; z; (al * w * de)%A];
          [(be * de)%A; z; z; z; (be * w * de)%A; z]; [z; (be * de)%A; z; z; z; (be * w * de)%A];
          [z; z; z; z; i; z]; [z; z; z; z; z; i]; [z; z; z; z; ga; z]; [z; z; z; z; z; ga]]
  else if (inp =? 9) && (out =? 10) then
    Some [[i; z; z; z; z; z; z; z; z; z]; [z; i; z; z; z; z; z; z; z; z]; [z; z; i; z; z; z; z; z; z; z]; [z; z; z; i; z; z; z; z; z; z];
          [z; z; z; z; i; z; z; z; z; z]; [z; z; z; z; z; i; z; z; z; z]; [z; z; z; z; z; z; i; z; z; z]; [z; z; z; z; z; z; z; i; z; z];
          [z; z; z; z; z; z; z; z; i; z]; [z; z; z; z; z; z; z; z; z; i]; [z; z; z; z; z; z; z; z; ga; z]; [z; z; z; z; z; z; z; z; z; ga]]
  else None.
(* MODELS loudspeakers_renderer.cc:169-191 MaybeComputeDynamicGains *)
Definition dynamic_gains (p : option (@dparams T)) (inp out : Z) : option (list (list T)) :=
  match p with
  | None => None
  | Some p => if negb (d_in p) then None else if negb (has_height out) && has_height inp then None else compute_gains inp out p
  end.
(* MODELS renderer_utils.cc:216-271 ProjectSamplesToRender into channels of [spf] samples *)
Fixpoint project_in (ins : list chan) (m : list T) (nout o : nat) (acc : chan) : res chan :=
  match ins with
  | [] => Ok acc
  | s :: t => match nth_error m o with
              | None => UB
              | Some k => project_in t (skipn nout m) nout o (zip2 (fun a x => (a + k * x)%A) acc s)
              end
  end.
Definition project (ins : list chan) (m : list T) (spf : nat) : res (list chan) :=
  match ins, m with
  | [], _ => Err InvalidArgument
  | _, [] => Err InvalidArgument
  | _, _ =>
      if negb (forallb (fun s => Nat.eqb (length s) (first_ticks ins)) ins) then Err InvalidArgument
      else if negb (zlen m mod zlen ins =? 0) then Err InvalidArgument
      else if negb (Nat.eqb spf (first_ticks ins)) then Err InvalidArgument
      else let nout := Z.to_nat (zlen m / zlen ins) in rmap (fun o => project_in ins m nout o (repeat zero spf)) (seq 0 nout)
  end.

(* The renderers of audio elements: pass-through, by a matrix between loudspeaker layouts (with the keys, for dynamic gains), by the
   matrix of an ambisonics order, binaural *)
Inductive rkind := KPass | KMatrix (inp out : Z) (g : list (list T)) | KAmbi (g : list (list T)) | KBinaural (m : option (list T)) (b : B).
(* MODELS audio_element_renderer_base.h: [er_spf] is the size of kEmptyChannel, [er_out] is rendered_samples_ *)
Record erend := mkEr { er_kind : rkind; er_labels : list slot; er_spf : nat; er_out : list chan }.
Definition set_out (r : erend) (o : list chan) : erend := mkEr (er_kind r) (er_labels r) (er_spf r) o.
Definition set_kind (r : erend) (k : rkind) (o : list chan) : erend := mkEr k (er_labels r) (er_spf r) o.
(* MODELS RenderSamples of audio_element_renderer_passthrough.cc:195-204, _channel_to_channel.cc:199-224,
   _ambisonics_to_channel.cc:229-234, _binaural.cc:295-338 *)
Definition render_samples (r : erend) (p : option (@dparams T)) (ins : list chan) : res unit * erend :=
  let by_gains g := match render_gains ins g with
                    | Ok o => (Ok tt, set_out r o)
                    | Err c => (Err c, r) | Abort => (Abort, r) | UB => (UB, r) | Diverge => (Diverge, r)
                    end in
  match er_kind r with
  | KPass => (Ok tt, set_out r (append_to (er_out r) ins))
  | KMatrix inp out g => by_gains (match dynamic_gains p inp out with Some d => d | None => g end)
  | KAmbi g => by_gains g
  | KBinaural m b =>
      match match m with Some m => project ins m (er_spf r) | None => Ok ins end with
      | Ok x => match r_obr E b x with
                | (Ok o, b') => (Ok tt, set_kind r (KBinaural m b') (map (firstn (first_ticks ins)) o))
                | (Err c, b') => (Err c, set_kind r (KBinaural m b') (er_out r))
                | (Abort, _) => (Abort, r) | (UB, _) => (UB, r) | (Diverge, _) => (Diverge, r)
                end
      | Err c => (Err c, r) | Abort => (Abort, r) | UB => (UB, r) | Diverge => (Diverge, r)
      end
  end.
(* MODELS audio_element_renderer_base.cc:43-57 RenderLabeledFrame *)
Definition render_labeled (r : erend) (lf : @labeled T) : res nat * erend :=
  match match er_labels r with [] => Ok ([], O) | ls => arrange lf ls (er_spf r) end with
  | Ok (ins, n) =>
      match render_samples r (lf_params lf) ins with
      | (Ok _, r1) => (Ok n, r1)
      | (Err c, r1) => (Err c, r1) | (Abort, r1) => (Abort, r1) | (UB, r1) => (UB, r1) | (Diverge, r1) => (Diverge, r1)
      end
  | Err c => (Err c, r) | Abort => (Abort, r) | UB => (UB, r) | Diverge => (Diverge, r)
  end.
(* MODELS audio_element_renderer_base.cc:59-71 Flush: the renderer and the caller's rendered_samples *)
Definition flush (r : erend) (out : list chan) : erend * list chan := (set_out r (map (fun _ => []) (er_out r)), append_to out (er_out r)).
(* MODELS default_layout_renderer.cc:51-89 RenderLabeledFrameToLayout with FlushUntilNonEmptyOrTimeout.  The renderers are
   synchronous: when the first flush leaves a channel empty, so do the others, and the call times out (DEADLINE_EXCEEDED, which is
   represented by Unknown) *)
Definition render_to_layout (r : erend) (lf : @labeled T) (spf : Z) (out : list chan) : res unit * erend * list chan :=
  let out0 : list chan := map (fun _ => []) out in
  match render_labeled r lf with
  | (Ok n, r1) =>
      if Z.of_nat n >? spf then (Err InvalidArgument, r1, out0)
      else let '(r2, out1) := flush r1 out0 in
           if Nat.eqb n O then (Ok tt, r2, out1)
           else if existsb (fun ch => match ch with [] => true | _ => false end) out1 then (Err Unknown, r2, out1) else (Ok tt, r2, out1)
  | (Err c, r1) => (Err c, r1, out0) | (Abort, r1) => (Abort, r1, out0) | (UB, r1) => (UB, r1, out0) | (Diverge, r1) => (Diverge, r1, out0)
  end.

Definition default_gain (d : pdef) : Z := match pd_kind d with KMixGain g => g | _ => 0 end.
(* MODELS default_layout_renderer.cc:91-121 GetParameterBlockLinearMixGainsPerTick for [n] ticks.  SIMPLIFIED: a parameter block
   refers to its own definition; it is the one of the mix gain with this ID (PropsWhole.v, own_gain: definitions of one ID are the same) *)
Definition gains_per_tick (rate : Z) (blocks : list (Z * pblock)) (d : pdef) (n : nat) : res (list F) :=
  if negb (pb_rate (pd_base d) =? rate) then Err Unimplemented
  else let g0 := repeat (r_tolin E (r_step E (default_gain d))) n in
       match m_find (pb_id (pd_base d)) blocks with
       | None => Ok g0
       | Some b => match linear_mix_gains F (r_step E) (r_linear E) (r_bezier E) (r_tolin E) d b g0 with
                   | (Ok _, g) => Ok g
                   | (Err c, _) => Err c | (Abort, _) => Abort | (UB, _) => UB | (Diverge, _) => Diverge
                   end
       end.
(* rendered_samples_for_channel[tick] *= linear_mix_gain_per_tick[tick] for the ticks of the first channel *)
Definition scale_channel (g : list F) (s : chan) : res chan :=
  if Nat.ltb (length s) (length g) then UB
  else Ok (map (fun p => r_scale E (fst p) (snd p)) (combine s g) ++ skipn (length g) s).
(* MODELS default_layout_renderer.cc:123-157 GetAndApplyMixGain *)
Definition apply_gain (rate : Z) (blocks : list (Z * pblock)) (d : pdef) (channels : Z) (out : list chan) : res (list chan) :=
  veq (zlen out) channels >>>
  rbind (gains_per_tick rate blocks d (first_ticks out)) (fun g => rmap (scale_channel g) out).

(* MODELS default_layout_renderer.cc:159-205 MixAudioElements.  [channels]: rendered_samples.size(); [cap]: the capacity of its
   channels (at least the frame size they were created with, rendering_mix_presentation_finalizer.cc:238-241) *)
Definition add_element (acc el : list chan) : list chan := map (fun p => zip2 (fun a x => (a + x)%A) (fst p) (snd p)) (combine acc el).
Definition mix_elements (els : list (list chan)) (channels cap : Z) : res (list chan) :=
  let n := match els with [] => O | e :: _ => length e end in
  let ticks := match els with (s :: _) :: _ => length s | _ => O end in
  if negb (channels =? Z.of_nat n) then Abort
  else if cap <? Z.of_nat ticks then Abort
  else if negb (forallb (fun e => Nat.eqb (length e) n && forallb (fun s : chan => Nat.eqb (length s) ticks) e) els) then Err InvalidArgument
  else Ok (fold_left add_element els (repeat (repeat zero ticks) n)).

(* MODELS default_layout_renderer.h:107-112, layout_renderer_base.h: an audio element of the sub-mix with its gain, its renderer and
   its entry of rendered_audio_elements_ *)
Record elem := mkEl { el_id : Z; el_gain : pdef; el_rend : erend; el_out : list chan }.
Record lrend := mkLr { lr_els : list elem; lr_gain : pdef; lr_chans : Z; lr_rate : Z; lr_spf : Z }.
(* MODELS default_layout_renderer.cc:258-277: the loop over the audio elements *)
Fixpoint render_elements (frames : list (Z * @labeled T)) (blocks : list (Z * pblock)) (chans rate spf : Z) (l : list elem) : res unit * list elem :=
  match l with
  | [] => (Ok tt, [])
  | e :: t =>
      let '(r1, rend, out) := match m_find (el_id e) frames with
                              | Some lf => render_to_layout (el_rend e) lf spf (el_out e)
                              | None => (Ok tt, el_rend e, el_out e)
                              end in
      match rbind r1 (fun _ => apply_gain rate blocks (el_gain e) chans out) with
      | Ok out1 => let '(r2, t1) := render_elements frames blocks chans rate spf t in (r2, mkEl (el_id e) (el_gain e) rend out1 :: t1)
      | r => (match r with Ok _ => Ok tt | Err c => Err c | Abort => Abort | UB => UB | Diverge => Diverge end,
              mkEl (el_id e) (el_gain e) rend out :: t)
      end
  end.
(* MODELS default_layout_renderer.cc:250-296 Render: the rendered samples and the next state *)
Definition render (l : lrend) (frames : list (Z * @labeled T)) (blocks : list (Z * pblock)) : res (list chan) * lrend :=
  let '(r, els) := render_elements frames blocks (lr_chans l) (lr_rate l) (lr_spf l) (lr_els l) in
  let l1 := mkLr els (lr_gain l) (lr_chans l) (lr_rate l) (lr_spf l) in
  (rbind r (fun _ =>
   rbind (mix_elements (map el_out els) (lr_chans l) (lr_spf l)) (fun m => apply_gain (lr_rate l) blocks (lr_gain l) (lr_chans l) m)), l1).

(* ---- creation ---- *)
(* the constructors: rendered_samples_ has num_output_channels channels *)
Definition new_renderer (k : rkind) (ls : list slot) (spf : Z) (channels : Z) : erend := mkEr k ls (Z.to_nat spf) (repeat [] (Z.to_nat channels)).
(* MODELS audio_element_renderer_passthrough.cc:175-193 CreateFromScalableChannelLayoutConfig *)
Definition new_pass (ls : list layer) (l : lay) (spf : Z) : res erend :=
  rbind (find_layer ls l) (fun ly => rbind (channel_order ly) (fun o => Ok (new_renderer KPass o spf (zlen o)))).
(* MODELS audio_element_renderer_channel_to_channel.cc:150-197 CreateFromScalableChannelLayoutConfig *)
Definition new_matrix (ls : list layer) (l : lay) (spf : Z) : res erend :=
  match rev ls with
  | [] => Err InvalidArgument
  | ly :: _ =>
      rbind (channel_order ly) (fun o => rbind (input_key ly) (fun i => rbind (output_key l) (fun k =>
      rbind (r_table E (inl i) k) (fun g => rbind (num_channels (fst l) (snd l)) (fun n =>
      Ok (new_renderer (KMatrix i k g) o spf n))))))
  end.
(* MODELS audio_element_renderer_ambisonics_to_channel.cc:46-48 *)
Definition q15 (v : Z) : T := a_lit A v 32768.
(* MODELS audio_element_renderer_ambisonics_to_channel.cc:93-134 GetCombinedGains; [row]: the part of the demixing matrix of one
   input channel *)
Fixpoint combine_row (row : list Z) (g : list (list T)) (k : nat) (acc : T) : res T :=
  match row, g with
  | v :: row', gr :: g' => match nth_error gr k with None => UB | Some x => combine_row row' g' k ((acc + q15 v * x)%A) end
  | [], _ :: _ => Abort
  | _, [] => Ok acc
  end.
Definition combined_gains (out nin : Z) (m : list Z) (g : list (list T)) : res (list (list T)) :=
  veq (zlen g) out >>>
  let nout := first_ticks g in
  if negb (forallb (fun r => Nat.eqb (length r) nout) g) then Err InvalidArgument
  else rmap (fun i => rmap (fun k => combine_row (firstn (Z.to_nat out) (skipn (i * Z.to_nat out) m)) g k zero) (seq 0 nout)) (seq 0 (Z.to_nat nin)).
(* MODELS audio_element_renderer_ambisonics_to_channel.cc:138-227 CreateFromAmbisonicsConfig *)
Definition active {X} (ls : list slot) (g : list X) : list (label * X) :=
  flat_map (fun p => match fst p with Some l => [(l, snd p)] | None => [] end) (combine ls g).
Definition new_ambi (c : ambi) (subs : list Z) (m : labmap) (l : lay) (spf : Z) : res erend :=
  rbind (ambisonics_slots c subs m) (fun ls => rbind (output_key l) (fun k => rbind (ambisonics_order (ambisonics_channels c)) (fun o =>
  rbind (r_table E (inr o) k) (fun g => rbind (num_channels (fst l) (snd l)) (fun n =>
  match c with
  | AMono _ _ =>
      veq (zlen g) (zlen ls) >>>
      match active ls g with
      | [] => Abort
      | act => Ok (new_renderer (KAmbi (map snd act)) (map (fun x => Some (fst x)) act) spf n)
      end
  | AProj out ns coupled mat => rbind (combined_gains out (ns + coupled) mat g) (fun g1 => Ok (new_renderer (KAmbi g1) ls spf n))
  end))))).
(* MODELS audio_element_renderer_binaural.cc:170-262; [matrix]: GetDemixingMatrix in Q15 *)
Definition new_binaural (a : aelem) (ls : res (list slot)) (matrix : option (list T)) (spf rate : Z) : res erend :=
  match r_obr_new E a spf rate with
  | None => Err InvalidArgument
  | Some b => rbind ls (fun o => Ok (new_renderer (KBinaural matrix b) o spf 2))
  end.
Definition kStereo : lay := (2, LSs 0 0).
(* MODELS renderer_factory.cc:41-172 CreateRendererForLayout; [mode]: headphones_rendering_mode *)
Definition new_for_layout (a : aelem) (m : labmap) (mode : Z) (loudness : lay) (spf rate : Z) : res (option erend) :=
  let binaural := (mode =? 1) && (fst loudness =? 3) in
  let l := if negb binaural && (fst loudness =? 3) then kStereo else loudness in
  if ae_type a =? 1 then
    match ae_conf a with
    | ACAmbi c =>
        or_null (if binaural then new_binaural a (ambisonics_slots c (ae_subs a) m)
                                    (match c with AProj _ _ _ mat => Some (map q15 mat) | AMono _ _ => None end) spf rate
                 else new_ambi c (ae_subs a) m l spf)
    | _ => Ok None
    end
  else if ae_type a =? 0 then
    match ae_conf a with
    | ACScal _ ls =>
        rbind (or_null (new_pass ls l spf)) (fun o =>
        match o with
        | Some r => Ok (Some r)
        | None => if binaural then match rev ls with [] => UB | ly :: _ => or_null (new_binaural a (channel_order ly) None spf rate) end
                  else or_null (new_matrix ls l spf)
        end)
    | _ => Ok None
    end
  else Ok None.

(* MODELS default_layout_renderer.cc:209-248 DefaultLayoutRenderer::Create: the renderers of the elements *)
Fixpoint new_elements (l : list (subelem * aed)) (layout : lay) (spf rate : Z) : res (option (list elem)) :=
  match l with
  | [] => Ok (Some [])
  | (s, a) :: t =>
      rbind (new_for_layout (ad_obu a) (ad_labels a) (rc_mode (sa_conf s)) layout spf rate) (fun o =>
      match o with
      | None => Ok None
      | Some r => rbind (new_elements t layout spf rate) (fun x => Ok (option_map (cons (mkEl (sa_id s) (sa_gain s) r [])) x))
      end)
  end.
(* MODELS rendering_mix_presentation_finalizer.h LayoutRenderingMetadata: the renderer, valid_rendered_samples *)
Record lmeta := mkLm { lm_rend : option lrend; lm_valid : list chan }.
(* MODELS rendering_mix_presentation_finalizer.cc:188-246 GenerateRenderingMetadataForLayouts: one layout *)
Definition new_layout (els : list (subelem * aed)) (gain : pdef) (l : lay) (rate spf : Z) : res lmeta :=
  match num_channels (fst l) (snd l) with
  | Ok n => rbind (new_elements els l spf rate) (fun o => Ok (mkLm (option_map (fun x => mkLr x gain n rate spf) o) []))
  | Err _ => Ok (mkLm None [])
  | Abort => Abort | UB => UB | Diverge => Diverge
  end.
(* MODELS rendering_mix_presentation_finalizer.cc:72-88 CollectAudioElementsInSubMix *)
Fixpoint collect_elements (aes : aemap) (l : list subelem) : res (list (subelem * aed)) :=
  match l with
  | [] => Ok []
  | e :: t => match m_find (sa_id e) aes with None => Err InvalidArgument | Some a => rbind (collect_elements aes t) (fun r => Ok ((e, a) :: r)) end
  end.
(* MODELS rendering_mix_presentation_finalizer.cc:90-119 with cli_util.cc:202-231: the common frame size and sample rate *)
Definition common_rate_and_size (l : list (subelem * aed)) : res (Z * Z) :=
  match l with
  | [] => Err InvalidArgument
  | (_, a) :: t =>
      if negb (forallb (fun x => cc_frame (codec_of (snd x)) =? cc_frame (codec_of a)) t) then Err InvalidArgument
      else if negb (forallb (fun x => rate_of (snd x) =? rate_of a) t) then Err Unimplemented
      else Ok (rate_of a, cc_frame (codec_of a))
  end.
(* MODELS rendering_mix_presentation_finalizer.cc:255-305 GenerateRenderingMetadataForSubMixes: one sub-mix *)
Definition new_sub_mix (aes : aemap) (s : submix) : res (list lmeta) :=
  rbind (collect_elements aes (sm_elems s)) (fun els => rbind (common_rate_and_size els) (fun x =>
  rmap (fun l => new_layout els (sm_gain s) (loudness_layout l) (fst x) (snd x)) (sm_layouts s))).
(* MODELS rendering_mix_presentation_finalizer.cc:442-485 RenderingMixPresentationFinalizer::Create with 58-70; a mix presentation
   of which no layout can be rendered is left out *)
Definition finalizer := list (Z * list (list lmeta)).
Fixpoint new_finalizer (aes : aemap) (ms : list mixp) (f : finalizer) : res finalizer :=
  match ms with
  | [] => Ok f
  | m :: t =>
      rbind (rmap (new_sub_mix aes) (mp_subs m)) (fun x =>
      let can := existsb (existsb (fun l => match lm_rend l with Some _ => true | None => false end)) x in
      new_finalizer aes t (if can then match m_find (mp_id m) f with Some _ => f | None => f ++ [(mp_id m, x)] end else f))
  end.

(* MODELS rendering_mix_presentation_finalizer.cc:372-409 RenderWriteAndCalculateLoudnessForTemporalUnit: one layout, the layouts of
   a sub-mix, the sub-mixes *)
Definition render_layout (frames : list (Z * @labeled T)) (blocks : list (Z * pblock)) (m : lmeta) : res unit * lmeta :=
  match lm_rend m with
  | None => (Ok tt, m)
  | Some l => match render l frames blocks with
              | (Ok s, l1) => (Ok tt, mkLm (Some l1) s)
              | (r, l1) => (match r with Ok _ => Ok tt | Err c => Err c | Abort => Abort | UB => UB | Diverge => Diverge end, mkLm (Some l1) (lm_valid m))
              end
  end.
Fixpoint each {X} (f : X -> res unit * X) (l : list X) : res unit * list X :=
  match l with
  | [] => (Ok tt, [])
  | x :: t => match f x with
              | (Ok _, x1) => let '(r, t1) := each f t in (r, x1 :: t1)
              | (r, x1) => (r, x1 :: t)
              end
  end.
Definition on_snd {X Y} (f : Y -> res unit * Y) (p : X * Y) : res unit * (X * Y) := let '(r, y) := f (snd p) in (r, (fst p, y)).
(* MODELS rendering_mix_presentation_finalizer.cc:505-520: the parameter blocks by their IDs, the last one of an ID *)
Fixpoint blocks_of (start stop : Z) (bs : list oblock) (m : list (Z * pblock)) : res (list (Z * pblock)) :=
  match bs with
  | [] => Ok m
  | b :: t => veq start (ob_start b) >>> veq stop (ob_end b) >>> blocks_of start stop t (m_put (bl_id (ob_obu b)) (ob_obu b) m)
  end.
(* MODELS rendering_mix_presentation_finalizer.cc:487-529 PushTemporalUnit, before FinalizePushingTemporalUnits (which the decoder
   does not call) *)
Definition push_unit (f : finalizer) (frames : list (Z * @labeled T)) (start stop : Z) (bs : list oblock) : res unit * finalizer :=
  match blocks_of start stop bs [] with
  | Ok m => each (on_snd (each (each (render_layout frames m)))) f
  | Err c => (Err c, f) | Abort => (Abort, f) | UB => (UB, f) | Diverge => (Diverge, f)
  end.
(* MODELS rendering_mix_presentation_finalizer.cc:411-440, 531-553 GetPostProcessedSamplesAsSpan without a sample processor *)
Definition get_samples (f : finalizer) (mix : Z) (sub lay : nat) : res (list chan) :=
  match m_find mix f with
  | None => Err NotFound
  | Some subs => match nth_error subs sub with
                 | None => Err InvalidArgument
                 | Some ls => match nth_error ls lay with None => Err InvalidArgument | Some m => Ok (lm_valid m) end
                 end
  end.

(* ---- the decoder's pipeline ---- *)
(* MODELS obu_processor.h:305-312 RenderingModels.  [rm_demix]: the demixers and substream labels per audio element *)
Record models := mkRm { rm_subs : list Z; rm_decs : list (Z * C); rm_demix : list (Z * (list demixer * labmap)); rm_fin : finalizer; rm_mix : Z }.
(* MODELS audio_frame_decoder.cc:98-127 InitDecodersForSubstreams with SubstreamChannelCount::Create *)
Fixpoint init_decoders (m : labmap) (c : codec_config) (d : list (Z * C)) : res (list (Z * C)) :=
  match m with
  | [] => Ok d
  | (s, ls) :: t =>
      match m_find s d with
      | Some _ => Err InvalidArgument
      | None => if (zlen ls =? 1) || (zlen ls =? 2) then rbind (r_newdec E c (zlen ls)) (fun x => init_decoders t c (d ++ [(s, x)]))
                else Err InvalidArgument
      end
  end.
(* MODELS demixing_manager.cc:389-413 DemixingManager::Create: one element *)
Definition demix_config (a : aed) : res (list demixer * labmap) :=
  rbind (labels_to_reconstruct (ad_obu a)) (fun s => Ok (create_demixers s (ad_labels a), ad_labels a)).
(* MODELS obu_processor.cc:746-767: the loop over the audio elements *)
Fixpoint configure_elements (l : aemap) (subs : list Z) (decs : list (Z * C)) : res (list Z * list (Z * C)) :=
  match l with
  | [] => Ok (subs, decs)
  | (_, a) :: t => rbind (init_decoders (ad_labels a) (codec_of a) decs) (fun d => configure_elements t (subs ++ ae_subs (ad_obu a)) d)
  end.
(* MODELS obu_processor.cc:725-800 ConfigureSimplifiedAudioProcessingPipeline *)
Definition configure (aes : aemap) (m : mixp) : res models :=
  let used := filter (fun x => existsb (Z.eqb (fst x)) (element_ids (mp_subs m))) aes in
  rbind (configure_elements used [] []) (fun x =>
  rbind (rmap (fun y => rbind (demix_config (snd y)) (fun c => Ok (fst y, c))) used) (fun dm =>
  rbind (new_finalizer aes [m] []) (fun f => Ok (mkRm (fst x) (snd x) dm f (mp_id m))))).

(* What the demixing manager sees of an audio frame *)
Definition frame_of (o : oframe) (s : list chan) : Demix.frame :=
  mkFr (af_id (of_obu o)) (of_start o) (h_trim_start (of_header o)) (h_trim_end (of_header o)) (params_of A (of_dmix o)) s.
Fixpoint m_set {X} (k : Z) (v : X) (m : list (Z * X)) : list (Z * X) :=
  match m with [] => [] | (i, x) :: t => if i =? k then (i, v) :: t else (i, x) :: m_set k v t end.
(* MODELS audio_frame_decoder.cc:129-150 Decode.  SIMPLIFIED: the decoded samples are copied; in the code they are a view of the
   decoder's buffer, which only a second frame of the same substream in the unit would change *)
Definition decode (decs : list (Z * C)) (o : oframe) : res (list chan) * list (Z * C) :=
  match m_find (af_id (of_obu o)) decs with
  | None => (Err InvalidArgument, decs)
  | Some d => let '(r, d1) := r_decode E d (af_bytes (of_obu o)) in (r, m_set (af_id (of_obu o)) d1 decs)
  end.
(* MODELS obu_processor.cc:663-688: the loop over the audio frames *)
Fixpoint decode_frames (subs : list Z) (start : Z) (stop : option Z) (fs : list oframe) (decs : list (Z * C))
  : res (list (@Demix.frame T) * option Z) * list (Z * C) :=
  match fs with
  | [] => (Ok ([], stop), decs)
  | o :: t =>
      if negb (existsb (Z.eqb (af_id (of_obu o))) subs) then
        let '(r, d) := decode_frames subs start stop t decs in (rbind r (fun x => Ok (frame_of o [] :: fst x, snd x)), d)
      else
        let e := match stop with Some e => e | None => of_end o end in
        match veq start (of_start o) >>> veq e (of_end o) with
        | Ok _ =>
            match decode decs o with
            | (Ok s, d1) => let '(r, d) := decode_frames subs start (Some e) t d1 in (rbind r (fun x => Ok (frame_of o s :: fst x, snd x)), d)
            | (Err c, d1) => (Err c, d1) | (Abort, d1) => (Abort, d1) | (UB, d1) => (UB, d1) | (Diverge, d1) => (Diverge, d1)
            end
        | Err c => (Err c, decs) | Abort => (Abort, decs) | UB => (UB, decs) | Diverge => (Diverge, decs)
        end
  end.
(* MODELS demixing_manager.cc:437-459 DemixDecodedAudioSamples *)
Fixpoint demix_all (l : list (Z * (list demixer * labmap))) (fs : list (@Demix.frame T)) : res (list (Z * @labeled T)) :=
  match l with
  | [] => Ok []
  | (id, (ks, subs)) :: t =>
      rbind (demix A ks subs fs) (fun o => rbind (demix_all t fs) (fun r =>
      Ok (match o with Some lf => (id, lf) :: r | None => r end)))
  end.
(* MODELS obu_processor.cc:649-722 RenderTemporalUnitAndMeasureLoudness, for a unit with audio frames: the samples, the next state *)
Definition render_unit (m : models) (u : outunit) : res (list chan) * models :=
  let '(r, decs) := decode_frames (rm_subs m) (un_time u) None (un_frames u) (rm_decs m) in
  let m1 := mkRm (rm_subs m) decs (rm_demix m) (rm_fin m) (rm_mix m) in
  match rbind r (fun x => match snd x with None => Err InvalidArgument | Some e => rbind (demix_all (rm_demix m) (fst x)) (fun fr => Ok (fr, e)) end) with
  | Ok (fr, e) =>
      let '(r1, f) := push_unit (rm_fin m) fr (un_time u) e (un_blocks u) in
      (rbind r1 (fun _ => get_samples f (rm_mix m) 0 0), mkRm (rm_subs m) decs (rm_demix m) f (rm_mix m))
  | Err c => (Err c, m1) | Abort => (Abort, m1) | UB => (UB, m1) | Diverge => (Diverge, m1)
  end.
End Render.
