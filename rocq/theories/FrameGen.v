(* Model of the encoder's audio frame generator: cli/proto_conversion/proto_to_obu/audio_frame_generator.cc (cited as "afg"),
   with cli/downmixer_manager.cc DownMixSamplesToSubstreams and cli/codec/encoder_base.{h,cc}.
   Samples are over an arithmetic [A]; [lin g] is std::pow(10, g / 20) of an output gain, [quant] is
   NormalizedFloatingPointToInt32, [code sid] is the codec of a substream: it is synchronous (LPCM, Opus, AAC: the frame is
   available when EncodeAudioFrame returns; FLAC, which delivers frames later, is not modelled).
   The configuration ([cfg]) does not change.  Hash maps are association lists in iteration order.
   Only the state after successful calls is modelled.  Sizes are below 2^31. *)
From Verif Require Import Base WriteBuf CodecConfig Params AudioElement Timing ParamManager AeData Demix SubFrames.

(* MODELS audio_element_with_data.h: what is used of an audio element, its codec config and its down-mixers
   (downmixer_manager.h DownmixingConfig) *)
Record elem := mkElem { el_subs : labmap; el_n : Z; el_in : Z; el_out : Z; el_down : list downmixer; el_gains : list (label * Z) }.
(* MODELS audio_frame.proto AudioFrameObuMetadata, its labels converted *)
Record meta := mkMeta { me_id : Z; me_labels : list label; me_end : Z; me_end_pad : bool; me_start : Z; me_start_delay : bool }.
(* MODELS audio_frame_generator.h: audio_element_id_to_labels_, audio_elements_ *)
Record cfg := mkCfg { cf_labels : labmap; cf_elems : list (Z * elem) }.
(* MODELS audio_frame_generator.h TrimmingState *)
Record trims := mkTrims { tr_inc : bool; tr_end : Z; tr_start : Z }.
Inductive stage := Taking | Finalized | Flushing.

Section Gen.
Context {T P : Type}.
Variable A : arith T.
Variable lin : Z -> T.
Variable quant : T -> res Z.
Variable code : Z -> list (list Z) -> res P.
Notation smap := (@smap T).

(* MODELS substream_data (downmixer_manager.h): frames_in_obu, frames_to_encode, num_samples_to_trim_at_end, _at_start *)
Record sub := mkSub { s_obu : sframes T; s_enc : sframes Z; s_end : Z; s_start : Z }.
(* MODELS audio_frame_with_data.h AudioFrameWithData: the header of the OBU, its payload, the timestamps, encoded_samples and
   the down-mixing parameters *)
Record oframe := mkOf { o_id : Z; o_flag : bool; o_end : Z; o_start : Z; o_t0 : Z; o_t1 : Z; o_raw : list (list T); o_dm : option dmix; o_data : P }.
(* MODELS encoder_base.h: finalized_audio_frames_, finished_, required_samples_to_delay_at_start_, channel_count_ *)
Record coder := mkCoder { c_queue : list oframe; c_done : bool; c_delay : Z; c_nch : Z }.
(* MODELS audio_frame_generator.h: the members which change *)
Record gen := mkGen { g_stage : stage; g_in : list (Z * smap); g_subs : list (Z * sub); g_trims : list (Z * trims);
                      g_coders : list (Z * coder); g_pm : pm; g_clock : gtm }.

Definition nil {X} (l : list X) : bool := match l with [] => true | _ => false end.
(* MODELS encoder_base.h:133-136 Finished *)
Definition finished (c : coder) : bool := c_done c && nil (c_queue c).

(* MODELS afg:250-272 SamplesReadyForAudioElement *)
Fixpoint ready (n : option nat) (m : smap) (ls : list label) : bool :=
  match ls with
  | [] => true
  | l :: t =>
      match sm_find (Orig l) m with
      | None => false
      | Some s => match n with
                  | None => ready (Some (length s)) m t
                  | Some k => if Nat.eqb (length s) k then ready n m t else false
                  end
      end
  end.
(* MODELS downmixer_manager.cc:94-122: the channels of a substream, from channel index [c] *)
Fixpoint feed_channels (gains : list (label * Z)) (m : smap) (c : nat) (ls : list label) (sd : sub) : res sub :=
  match ls with
  | [] => Ok sd
  | l :: t =>
      rbind (channel_out A lin quant gains m l) (fun r =>
      rbind (push_all c (fst r) (s_obu sd)) (fun o =>
      rbind (push_all c (snd r) (s_enc sd)) (fun e =>
      feed_channels gains m (S c) t (mkSub o e (s_end sd) (s_start sd)))))
  end.
(* MODELS downmixer_manager.cc:83-124 *)
Fixpoint feed_subs (gains : list (label * Z)) (m : smap) (ls : labmap) (subs : list (Z * sub)) : res (list (Z * sub)) :=
  match ls with
  | [] => Ok subs
  | (sid, l) :: t =>
      match m_find sid subs with
      | None => Err InvalidArgument
      | Some sd => rbind (feed_channels gains m 0 l sd) (fun sd' => feed_subs gains m t (m_set sid sd' subs))
      end
  end.
(* MODELS downmixer_manager.cc:67-127 DownMixSamplesToSubstreams *)
Definition mix_in (el : elem) (p : dmix) (m : smap) (subs : list (Z * sub)) : res (list (Z * sub)) :=
  rbind (run_downmixers A (params_of A p) (el_down el) m) (fun m' => feed_subs (el_gains el) m' (el_subs el) subs).

(* MODELS afg:162-190 GetNumSamplesToPadAtEndAndValidate: the padding and the trimming state *)
Definition num_to_pad (required : Z) (tr : trims) : res (Z * trims) :=
  let left := if tr_inc tr then tr_end tr + required else tr_end tr in
  if left <? required then Err InvalidArgument
  else Ok (Z.min required (u32 left), mkTrims (tr_inc tr) left (tr_start tr)).
Definition ticks {X} (fr : list (list X)) : res Z := match fr with [] => UB | ch :: _ => Ok (zlen ch) end.
(* MODELS afg:334-376: the padding of one substream *)
Definition pad_sub (n : Z) (none_added : bool) (sd : sub) (tr : trims) : res (sub * trims) :=
  rbind (ticks (sf_front (s_obu sd))) (fun have =>
  rbind (if have <? n then
           rbind (num_to_pad (n - have) tr) (fun r =>
           rbind (sf_pad (a_lit A 0 1) (fst r) (s_obu sd)) (fun o =>
           rbind (sf_pad 0 (fst r) (s_enc sd)) (fun e => Ok (mkSub o e (fst r) (s_start sd), snd r))))
         else Ok (sd, tr)) (fun r =>
  let '(sd1, tr1) := r in
  rbind (ticks (sf_front (s_enc sd1))) (fun have2 =>
  if none_added && (have2 <? n)
  then rbind (sf_pad 0 (n - have2) (s_enc sd1)) (fun e => Ok (mkSub (s_obu sd1) e (s_end sd1) (s_start sd1), tr1))
  else Ok (sd1, tr1)))).
(* .at() of an absent key: Abort *)
Fixpoint pad_subs (n : Z) (none_added : bool) (ls : labmap) (subs : list (Z * sub)) (trs : list (Z * trims)) : res (list (Z * sub) * list (Z * trims)) :=
  match ls with
  | [] => Ok (subs, trs)
  | (sid, _) :: t =>
      match m_find sid subs, m_find sid trs with
      | Some sd, Some tr =>
          rbind (pad_sub n none_added sd tr) (fun r => pad_subs n none_added t (m_set sid (fst r) subs) (m_set sid (snd r) trs))
      | _, _ => Abort
      end
  end.
(* MODELS afg:308-379 GetNextFrameSubstreamData: the new state and the down-mixing parameters, if they were looked up *)
Definition next_frame (id : Z) (el : elem) (m : smap) (g : gen) (dm : option dmix) : res (gen * option dmix) :=
  let none_added := forallb (fun e => nil (snd e)) m in
  if none_added && forallb (fun e => sf_empty (s_obu (snd e))) (g_subs g) then Ok (g, dm)
  else
    let '(r, pm') := get_down_mixing (g_pm g) id in
    rbind r (fun p =>
    rbind (mix_in el p m (g_subs g)) (fun subs =>
    rbind (pad_subs (el_n el) none_added (el_subs el) subs (g_trims g)) (fun q =>
    Ok (mkGen (g_stage g) (g_in g) (fst q) (snd q) (g_coders g) pm' (g_clock g), Some p)))).

(* MODELS encoder_base.cc:33-52 ValidateInputSamples *)
Definition valid_input (nch n : Z) (fr : list (list Z)) : res unit :=
  veq (zlen fr) nch >>> match fr with [] => Err InvalidArgument | ch :: _ => if zlen ch =? n then Ok tt else Err InvalidArgument end.
(* MODELS lpcm_encoder.cc:62-82, opus_encoder.cc:164-201, aac_encoder.cc:204-297 EncodeAudioFrame; [c_done c && nil queue]:
   ValidateNotFinalized *)
Definition encode_frame (sid n : Z) (fr : list (list Z)) (mk : P -> oframe) (c : coder) : res coder :=
  if finished c then Err InvalidArgument
  else valid_input (c_nch c) n fr >>> rbind (code sid fr) (fun p => Ok (mkCoder (c_queue c ++ [mk p]) (c_done c) (c_delay c) (c_nch c))).

(* MODELS afg:452-529: one substream of the loop over the substreams; [ts]: encoded_timestamp, [more]: more_samples_to_encode.
   sf_front's EnsureNonEmpty is made explicit only before sf_pop (afg:481-482, 526-527): it adds no sample *)
Definition encode_one (n sid : Z) (dm : option dmix) (st : gen * option Z * bool) : res (gen * option Z * bool) :=
  let '(g, ts, more) := st in
  match m_find sid (g_subs g) with
  | None => if more then Err InvalidArgument else Ok (g, ts, more)
  | Some sd =>
      if sf_empty (s_obu sd) then Ok (g, ts, more)
      else
        let fe := sf_front (s_enc sd) in
        let fo := sf_front (s_obu sd) in
        rbind (ticks fe) (fun have =>
        if have <? n then match ts with Some _ => Abort | None => Ok (g, ts, true) end
        else
          let te := Z.min n (s_end sd) in
          let tb := Z.min n (s_start sd) in
          let '(r, t0, t1, clock) := next_audio (g_clock g) sid n in
          r >>>
          (match ts with Some t => if t =? t0 then Ok tt else Abort | None => Ok tt end) >>>
          match m_find sid (g_coders g) with
          | None => Abort
          | Some c =>
              rbind (encode_frame sid n fe (mkOf sid (negb (te =? 0) || negb (tb =? 0)) te tb t0 t1 fo dm) c) (fun c' =>
              Ok (mkGen (g_stage g) (g_in g)
                        (m_set sid (mkSub (sf_pop (ensure (s_obu sd))) (sf_pop (ensure (s_enc sd))) (s_end sd - te) (s_start sd - tb)) (g_subs g))
                        (g_trims g) (m_set sid c' (g_coders g)) (g_pm g) clock, Some t0, true))
          end)
  end.
Fixpoint encode_all (n : Z) (ls : labmap) (dm : option dmix) (st : gen * option Z * bool) : res (gen * option Z * bool) :=
  match ls with [] => Ok st | (sid, _) :: t => rbind (encode_one n sid dm st) (encode_all n t dm) end.
Definition emptied (m : smap) : smap := map (fun e => (fst e, [])) m.
(* MODELS afg:443-531: the do-while loop; [m]: label_to_samples.  The model allows three rounds: two are enough for an element fed as in C67 (round_ok of FrameGenFacts) *)
Fixpoint encode_loop (fuel : nat) (id : Z) (el : elem) (m : smap) (dm : option dmix) (g : gen) : res (gen * option Z) :=
  match fuel with
  | O => Diverge
  | S f =>
      rbind (next_frame id el m g dm) (fun r =>
      rbind (encode_all (el_n el) (el_subs el) (snd r) (fst r, None, false)) (fun st =>
      let '(g', ts, more) := st in
      match ts with
      | Some t => Ok (g', Some t)
      | None => if more then encode_loop f id el (emptied m) (snd r) g' else Ok (g', None)
      end))
  end.
Definition in_of (id : Z) (g : gen) : smap := match m_find id (g_in g) with Some m => m | None => [] end.
Definition set_in (id : Z) (m : smap) (g : gen) : gen :=
  mkGen (g_stage g) (m_put id m (g_in g)) (g_subs g) (g_trims g) (g_coders g) (g_pm g) (g_clock g).
(* MODELS afg:398-543 MaybeEncodeFramesForAudioElement; label_to_samples is the entry of id_to_labeled_samples_, which is empty
   afterwards.  The loop: at most [2] rounds *)
Definition maybe_encode (id : Z) (el : elem) (labels : list label) (g : gen) : res gen :=
  if negb (ready None (in_of id g) labels) then Ok g
  else if negb (el_in el =? el_out el) then Err InvalidArgument
  else
    rbind (encode_loop 3 id el (in_of id g) None g) (fun r =>
    let g' := set_in id (emptied (in_of id g)) (fst r) in
    match snd r with
    | None => Ok g'
    | Some t =>
        let '(q, pm') := update_demixing (g_pm g') id (s64 (t + el_n el)) in
        q >>> Ok (mkGen (g_stage g') (g_in g') (g_subs g') (g_trims g') (g_coders g') pm' (g_clock g'))
    end).

(* MODELS afg:790-836 AddSamples *)
Definition add_samples (cf : cfg) (id : Z) (l : label) (xs : list T) (g : gen) : res gen :=
  match g_stage g with
  | Taking =>
      if nil xs then Err InvalidArgument
      else match m_find id (cf_labels cf) with
           | None => Err InvalidArgument
           | Some labels =>
               let g' := set_in id (sm_set (Orig l) xs (in_of id g)) g in
               match m_find id (cf_elems cf) with
               | None => Err InvalidArgument
               | Some el => maybe_encode id el labels g'
               end
           end
  | _ => Ok g
  end.
(* MODELS afg:838-845 Finalize *)
Definition finalize (g : gen) : gen :=
  match g_stage g with
  | Taking => mkGen Finalized (g_in g) (g_subs g) (g_trims g) (g_coders g) (g_pm g) (g_clock g)
  | _ => g
  end.
(* MODELS afg:847-850 GeneratingFrames, afg:785-788 TakingSamples *)
Definition generating (g : gen) : bool := negb (nil (g_coders g)).

(* MODELS afg:859-869 *)
Fixpoint flush_elems (cf : cfg) (l : list (Z * elem)) (g : gen) : res gen :=
  match l with
  | [] => Ok g
  | (id, el) :: t =>
      match m_find id (cf_labels cf) with
      | None => Abort
      | Some labels => rbind (maybe_encode id el labels g) (flush_elems cf t)
      end
  end.
Fixpoint m_del {V} (k : Z) (m : list (Z * V)) : list (Z * V) :=
  match m with [] => [] | (i, v) :: t => if i =? k then t else (i, v) :: m_del k t end.
(* MODELS afg:877-890: the coders in turn *)
Fixpoint finish_coders (l : list (Z * coder)) (subs : list (Z * sub)) : list (Z * coder) * list (Z * sub) :=
  match l with
  | [] => ([], subs)
  | (sid, c) :: t =>
      match m_find sid subs with
      | Some sd =>
          if sf_empty (s_obu sd)
          then let '(cs, ss) := finish_coders t (m_del sid subs) in ((sid, mkCoder (c_queue c) true (c_delay c) (c_nch c)) :: cs, ss)
          else let '(cs, ss) := finish_coders t subs in ((sid, c) :: cs, ss)
      | None => let '(cs, ss) := finish_coders t subs in ((sid, c) :: cs, ss)
      end
  end.
(* MODELS afg:568-606 ApplyUserTrimForFrame: what is left, the trim of the frame, the flag *)
Definition user_trim (from_start : bool) (n left trimmed : Z) (flag : bool) : res (Z * Z * bool) :=
  let k := Z.min n (u32 left) in
  if k <? trimmed then Err InvalidArgument
  else
    let left' := left - k in
    if (0 <? left') && negb from_start then Err InvalidArgument
    else Ok (left', k, if k =? 0 then flag else true).
(* MODELS afg:612-640 ValidateAndApplyUserTrimming *)
Definition apply_trim (n : Z) (last : bool) (tr : trims) (f : oframe) : res (trims * oframe) :=
  rbind (user_trim true n (tr_start tr) (o_start f) (o_flag f)) (fun a =>
  let '(ls, ks, fl) := a in
  if last then
    rbind (user_trim false n (tr_end tr) (o_end f) fl) (fun b =>
    let '(le, ke, fl2) := b in
    Ok (mkTrims (tr_inc tr) le ls, mkOf (o_id f) fl2 ke ks (o_t0 f) (o_t1 f) (o_raw f) (o_dm f) (o_data f)))
  else Ok (mkTrims (tr_inc tr) (tr_end tr) ls, mkOf (o_id f) fl (o_end f) ks (o_t0 f) (o_t1 f) (o_raw f) (o_dm f) (o_data f))).
(* MODELS afg:617-622: the samples per frame of the audio element of a frame; a frame knows its element, here it is looked up
   by its substream *)
Fixpoint n_of (l : list (Z * elem)) (sid : Z) : res Z :=
  match l with
  | [] => Abort
  | (_, el) :: t => match m_find sid (el_subs el) with Some _ => Ok (el_n el) | None => n_of t sid end
  end.
(* MODELS afg:893-905: the coders in turn *)
Fixpoint pop_all (cf : cfg) (l : list (Z * coder)) (trs : list (Z * trims)) : res (list (Z * coder) * list (Z * trims) * list oframe) :=
  match l with
  | [] => Ok ([], trs, [])
  | (sid, c) :: t =>
      match c_queue c, m_find sid trs with
      | f :: q, Some tr =>
          let c' := mkCoder q (c_done c) (c_delay c) (c_nch c) in
          rbind (n_of (cf_elems cf) sid) (fun n =>
          rbind (apply_trim n (finished c') tr f) (fun a =>
          rbind (pop_all cf t (m_set sid (fst a) trs)) (fun r =>
          let '(cs, trs', fs) := r in Ok ((sid, c') :: cs, trs', snd a :: fs))))
      | _, _ => Abort
      end
  end.
(* MODELS afg:852-913 OutputFrames *)
Definition output_frames (cf : cfg) (g : gen) : res (gen * list oframe) :=
  rbind (match g_stage g with
         | Flushing => flush_elems cf (cf_elems cf) g
         | Finalized => Ok (mkGen Flushing (g_in g) (g_subs g) (g_trims g) (g_coders g) (g_pm g) (g_clock g))
         | Taking => Ok g
         end) (fun g1 =>
  let '(cs, subs) := match g_stage g1 with Flushing => finish_coders (g_coders g1) (g_subs g1) | _ => (g_coders g1, g_subs g1) end in
  rbind (if forallb (fun e => negb (nil (c_queue (snd e)))) cs then pop_all cf cs (g_trims g1) else Ok (cs, g_trims g1, [])) (fun r =>
  let '(cs2, trs, fs) := r in
  Ok (mkGen (g_stage g1) (g_in g1) subs trs (filter (fun e => negb (finished (snd e))) cs2) (g_pm g1) (g_clock g1), fs))).

(* MODELS afg:115-146 GetEncodingDataAndInitializeEncoders; [delay sid]: the number of samples of delay of the encoder, or why
   it could not be initialised *)
Fixpoint make_coders (delay : Z -> res Z) (ls : labmap) (cs : list (Z * coder)) : res (list (Z * coder)) :=
  match ls with
  | [] => Ok cs
  | (sid, l) :: t =>
      if (zlen l =? 1) || (zlen l =? 2)
      then rbind (delay sid) (fun d => make_coders delay t (m_put sid (mkCoder [] false d (zlen l)) cs))
      else Err InvalidArgument
  end.
(* MODELS afg:672-686 *)
Fixpoint coders_of (delay : Z -> res Z) (elems : list (Z * elem)) (ms : list meta) (cs : list (Z * coder)) : res (list (Z * coder)) :=
  match ms with
  | [] => Ok cs
  | me :: t =>
      match m_find (me_id me) elems with
      | None => Err InvalidArgument
      | Some el => rbind (make_coders delay (el_subs el) cs) (coders_of delay elems t)
      end
  end.
Definition max_delay (cs : list (Z * coder)) : Z := fold_left (fun a e => Z.max a (c_delay (snd e))) cs 0.
(* MODELS afg:192-246 InitializeSubstreamData *)
Fixpoint init_subs (d : Z) (me : meta) (n : Z) (cs : list (Z * coder)) (ls : labmap) (subs : list (Z * sub)) : res (list (Z * sub)) :=
  match ls with
  | [] => Ok subs
  | (sid, l) :: t =>
      if me_start_delay me && (me_start me <? d) then Err InvalidArgument
      else
        let subs1 := m_insert sid (mkSub (sf_new (length l) (Z.to_nat n)) (sf_new (length l) (Z.to_nat n)) 0 d) subs in
        match m_find sid subs1, m_find sid cs with
        | Some sd, Some c =>
            rbind (sf_pad (a_lit A 0 1) d (s_obu sd)) (fun o =>
            if d <? c_delay c then Abort
            else rbind (sf_pad 0 (d - c_delay c) (s_enc sd)) (fun e =>
                 init_subs d me n cs t (m_set sid (mkSub o e (s_end sd) (s_start sd)) subs1)))
        | _, _ => Err Internal
        end
  end.
(* ChannelLabelUtils::ConvertAndFillLabels (channel_label_utils.h:57-84), the labels being converted already *)
Fixpoint fill_labels (ls out : list label) : res (list label) :=
  match ls with
  | [] => Ok out
  | l :: t => if lab_in l out then Err InvalidArgument else fill_labels t (out ++ [l])
  end.
Definition put_trims (d : Z) (first me : meta) (ls : labmap) (trs : list (Z * trims)) : list (Z * trims) :=
  fold_left (fun t e => m_put (fst e) (mkTrims (negb (me_end_pad me)) (me_end first) (me_start first + (if me_start_delay first then 0 else d))) t) ls trs.
(* MODELS afg:545-565 ValidateSubstreamsShareTrimming *)
Definition share (first me : meta) : bool :=
  (me_end me =? me_end first) && (me_start me =? me_start first) &&
  Bool.eqb (me_end_pad me) (me_end_pad first) && Bool.eqb (me_start_delay me) (me_start_delay first).
(* MODELS afg:710-774; [typed id]: the element is channel-based *)
Fixpoint init_metas (typed : Z -> bool) (m : pm) (d : Z) (first : meta) (elems : list (Z * elem)) (cs : list (Z * coder)) (ms : list meta)
    (st : labmap * list (Z * sub) * list (Z * trims)) : res (labmap * list (Z * sub) * list (Z * trims)) :=
  match ms with
  | [] => Ok st
  | me :: t =>
      let '(labs, subs, trs) := st in
      rbind (fill_labels (me_labels me) (match m_find (me_id me) labs with Some l => l | None => [] end)) (fun ls =>
      match m_find (me_id me) elems with
      | None => Err InvalidArgument
      | Some el =>
          if el_n el <? me_end me then Err InvalidArgument
          else
            rbind (init_subs d me (el_n el) cs (el_subs el) subs) (fun subs' =>
            if typed (me_id me) && negb (demixing_available m (me_id me)) && negb (nil (el_down el)) then Err InvalidArgument
            else if negb (share first me) then Err InvalidArgument
            else init_metas typed m d first elems cs t (m_put (me_id me) ls labs, subs', put_trims d first me (el_subs el) trs))
      end)
  end.
(* MODELS afg:644-783 Create *)
Definition create (delay : Z -> res Z) (typed : Z -> bool) (elems : list (Z * elem)) (ms : list meta) (m : pm) (clock : gtm) : res (cfg * gen) :=
  match ms with
  | [] => Ok (mkCfg [] [], mkGen Taking [] [] [] [] m clock)
  | first :: _ =>
      rbind (coders_of delay elems ms []) (fun cs =>
      let d := max_delay cs in
      rbind (init_metas typed m d first elems cs ms ([], [], [])) (fun st =>
      let '(labs, subs, trs) := st in
      Ok (mkCfg labs elems, mkGen Taking [] subs trs cs m clock)))
  end.
End Gen.
Arguments sub : clear implicits.
Arguments oframe : clear implicits.
Arguments coder : clear implicits.
Arguments gen : clear implicits.
