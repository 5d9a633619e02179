(* Model of cli/obu_processor.cc: ProcessTemporalUnitObu and ObuProcessor::ProcessTemporalUnit, with
   ObuWithDataGenerator::GenerateAudioFrameWithData / GenerateParameterBlockWithData.  The descriptors are already parsed. *)
From Verif Require Import Base WriteBuf ReadBuf Leb ObuHeader SimpleObus CodecConfig Params Timing ParamManager.

(* MODELS audio_element_with_data.h: the parts used here: the audio element ID, the keys of substream_id_to_labels,
   codec_config->GetNumSamplesPerFrame(), channel_numbers_for_layers.size() *)
Record aeinfo := mkAI { ai_id : Z; ai_subs : list Z; ai_spf : Z; ai_layers : Z }.
(* MODELS obu_processor.h:342-345, 361: descriptors_.audio_elements (the order of the list is the iteration order of the map)
   and param_definition_variants_ *)
Record descs := mkD { d_aes : list aeinfo; d_defs : list (Z * pdef) }.
(* MODELS substream_id_to_audio_element_ (obu_processor.cc:399-413: a substream belongs to one audio element) *)
Definition element_of (D : descs) (sub : Z) : option aeinfo := find (fun a => existsb (Z.eqb sub) (ai_subs a)) (d_aes D).
(* MODELS global_timing_module_, parameters_manager_ *)
Record pst := mkPst { ps_g : gtm; ps_pm : pm }.
(* MODELS audio_frame_with_data.h:27-57 (encoded_samples is nullopt in the decoder) *)
Record oframe := mkOf { of_header : header; of_obu : aframe; of_start : Z; of_end : Z; of_dmix : dmix;
                        of_gains : list (option (Z * list Z)); of_element : Z }.
(* MODELS parameter_block_with_data.h:22-26 *)
Record oblock := mkOb { ob_header : header; ob_obu : pblock; ob_start : Z; ob_end : Z }.
(* The three optional output arguments of ProcessTemporalUnitObu, at most one of which is set. *)
Inductive item := INone | IFrame (f : oframe) | IBlock (b : oblock) | IDelim (h : header).

(* MODELS obu_processor.cc:67-90 UpdateParameterStatesIfNeeded; the loop over the audio elements *)
Fixpoint update_elements (l : list aeinfo) (t : Z) (m : pm) : res unit * pm :=
  match l with
  | [] => (Ok tt, m)
  | a :: l' =>
      let '(r1, m1) := update_demixing m (ai_id a) t in
      match r1 with
      | Ok _ => let '(r2, m2) := update_recon m1 (ai_id a) t in
                match r2 with Ok _ => update_elements l' t m2 | _ => (r2, m2) end
      | _ => (r1, m1)
      end
  end.
Definition update_states (D : descs) (s : pst) : res unit * pst :=
  match global_timestamp (ps_g s) with
  | Ok None => (Ok tt, s)
  | Ok (Some t) => let '(r, m) := update_elements (d_aes D) t (ps_pm s) in (r, mkPst (ps_g s) m)
  | Err c => (Err c, s) | Abort => (Abort, s) | UB => (UB, s) | Diverge => (Diverge, s)
  end.
Definition rcast {A B} (r : res A) (d : res B) : res B :=
  match r with Ok _ => d | Err c => Err c | Abort => Abort | UB => UB | Diverge => Diverge end.

(* MODELS obu_with_data_generator.cc:645-689 GenerateAudioFrameWithData *)
Definition generate_frame (a : aeinfo) (h : header) (f : aframe) (s : pst) : res oframe * pst :=
  if negb (existsb (Z.eqb (af_id f)) (ai_subs a)) then (Err InvalidArgument, s)
  else
    let '(r1, start, stop, g1) := next_audio (ps_g s) (af_id f) (ai_spf a) in
    match r1 with
    | Ok _ =>
        let '(r2, m1) := get_down_mixing (ps_pm s) (ai_id a) in
        let s1 := mkPst g1 m1 in
        (rbind r2 (fun dm => rbind (get_recon_gains m1 (ai_id a) (ai_layers a)) (fun rg =>
           Ok (mkOf h f start stop dm rg (ai_id a)))), s1)
    | _ => (rcast r1 (Err Internal), mkPst g1 (ps_pm s))
    end.
(* MODELS obu_processor.cc:105-126: after the OBU has been parsed *)
Definition store_frame (D : descs) (s : pst) (h : header) (f : aframe) : res unit * pst * item :=
  match element_of D (af_id f) with
  | None => (Err InvalidArgument, s, INone)
  | Some a =>
      let '(r, s1) := generate_frame a h f s in
      match r with
      | Ok o => let '(r2, s2) := update_states D s1 in (r2, s2, IFrame o)
      | _ => (rcast r (Ok tt), s1, INone)
      end
  end.
(* MODELS parameter_block.cc:148-151 GetDuration *)
Definition block_duration (d : pdef) (b : pblock) : Z := match bl_sched b with Some x => s_dur x | None => pb_dur (pd_base d) end.
(* MODELS obu_processor.cc:166-186 with obu_with_data_generator.cc:691-706 *)
Definition store_block (s : pst) (h : header) (d : pdef) (b : pblock) : res unit * pst * item :=
  match global_timestamp (ps_g s) with
  | Ok None => (Err InvalidArgument, s, INone)
  | Ok (Some t) =>
      let '(r, start, stop, g1) := next_param (ps_g s) (bl_id b) t (block_duration d b) in
      let s1 := mkPst g1 (ps_pm s) in
      match r with
      | Ok _ => (Ok tt, s1, IBlock (mkOb h b start stop))
      | _ => (rcast r (Ok tt), s1, INone)
      end
  | Err c => (Err c, s, INone) | Abort => (Abort, s, INone) | UB => (UB, s, INone) | Diverge => (Diverge, s, INone)
  end.

(* The payload as parsed, before it has any effect. *)
Inductive parsed := PFrame (f : aframe) | PBlock (d : pdef) (b : pblock) | PDelim.
(* MODELS obu_processor.cc:101-104 (AudioFrameObu::CreateFromBuffer), 129-164 (PeekParameterIdAndLookupParamDefinition and
   ParameterBlockObu::CreateFromBuffer), 322-333 (TemporalDelimiterObu::CreateFromBuffer): inl = the status is not OK *)
Definition parse_payload (D : descs) (h : header) (n : Z) : rprog (code + parsed) :=
  if is_audio_frame (h_type h) then
    x <- rcatch (read_payload n (read_aframe h n)) ;;
    RRet (match x with inl c => inl c | inr a => inr (PFrame (fst a)) end)
  else if h_type h =? kParameterBlock then
    i <- rcatch peek_parameter_id ;;
    match i with
    | inl _ => RRet (inl InvalidArgument)
    | inr id =>
        match m_find id (d_defs D) with
        | None => RRet (inl InvalidArgument)
        | Some d =>
            x <- rcatch (read_payload n (read_pblock d h n)) ;;
            RRet (match x with inl c => inl c | inr a => inr (PBlock d (fst a)) end)
        end
    end
  else
    x <- rcatch (read_payload n (read_td h n)) ;;
    RRet (match x with inl c => inl c | inr _ => inr PDelim end).
Definition store (D : descs) (s : pst) (h : header) (p : code + parsed) : res unit * pst * item :=
  match p with
  | inl c => (Err c, s, INone)
  | inr (PFrame f) => store_frame D s h f
  | inr (PBlock d b) => store_block s h d b
  | inr PDelim => (Ok tt, s, IDelim h)
  end.

(* MODELS obu_processor.cc:229-372 ProcessTemporalUnitObu: status, state, outputs, continue_processing.
   Err = the function returned an error before it changed any state. *)
Record pout := mkOut { po_status : res unit; po_state : pst; po_item : item; po_cont : bool }.
Definition proc_obu (D : descs) (s : pst) : rprog pout :=
  m <- rcatch peek_header ;;
  match m with
  | inl ResourceExhausted => RRet (mkOut (Ok tt) s INone false)
  | inl c => RFail c
  | inr tt_total =>
      let total := snd tt_total in
      a <- ravail ;;
      if a <? total then RRet (mkOut (Ok tt) s INone false)
      else
        p0 <- rtell ;;
        hp <- read_header ;;
        let h := fst hp in let n := snd hp in
        if temporal_unit_type (h_type h) then
          x <- parse_payload D h n ;;
          let '(st, s1, it) := store D s h x in
          match st with
          | Ok _ => RRet (mkOut (Ok tt) s1 it true)
          | Err _ =>
              fin <- rcatch (rseek p0 ;;; rignore total) ;;
              RRet (mkOut (match fin with inl c => Err c | inr _ => Ok tt end) s1 it true)
          | _ => RRet (mkOut st s1 it false)
          end
        else if (h_type h =? kSequenceHeader) && negb (h_red h) then
          rseek p0 ;;; RRet (mkOut (Ok tt) s INone false)
        else if (h_type h =? kSequenceHeader) || (h_type h =? kCodecConfig) || (h_type h =? kAudioElement) || (h_type h =? kMixPresentation) then
          rcheck (h_red h) InvalidArgument ;;; rignore n ;;; RRet (mkOut (Ok tt) s INone true)
        else rignore n ;;; RRet (mkOut (Ok tt) s INone true)
  end.

(* MODELS obu_processor.h:292-337 TemporalUnitData, with AddDataToCorrectTemporalUnit *)
Record tud := mkTud { tu_blocks : list oblock; tu_frames : list oframe; tu_delim : option header; tu_time : option Z }.
Definition tud_empty : tud := mkTud [] [] None None.
Definition tud_push (t : tud) (i : item) : tud :=
  match i with
  | IFrame f => mkTud (tu_blocks t) (tu_frames t ++ [f]) (tu_delim t) (tu_time t)
  | IBlock b => mkTud (tu_blocks t ++ [b]) (tu_frames t) (tu_delim t) (tu_time t)
  | _ => t
  end.
Definition tud_at (t : tud) (x : Z) : tud := mkTud (tu_blocks t) (tu_frames t) (tu_delim t) (Some x).
(* MODELS obu_processor.h:354-355 *)
Record units := mkU { u_cur : tud; u_next : tud }.
Definition add_data (u : units) (i : item) (t : Z) : units :=
  let cur := match tu_time (u_cur u) with None => tud_at (u_cur u) t | Some _ => u_cur u end in
  match tu_time cur with
  | Some t0 => if t0 =? t then mkU (tud_push cur i) (u_next u) else mkU cur (tud_at (tud_push (u_next u) i) t)
  | None => mkU cur (u_next u)
  end.
(* MODELS obu_processor.h:140-144 *)
Record outunit := mkOu { un_frames : list oframe; un_blocks : list oblock; un_time : Z }.
(* MODELS obu_processor.cc:601-620 *)
Definition collect (u : units) (i : item) : units * bool :=
  match i with
  | IFrame f => (add_data u i (of_start f), false)
  | IBlock b => (add_data u i (ob_start b), false)
  | IDelim h => (mkU (mkTud (tu_blocks (u_cur u)) (tu_frames (u_cur u)) (Some h) (tu_time (u_cur u))) (u_next u),
                 match tu_delim (u_cur u) with Some _ => true | None => false end)
  | INone => (u, false)
  end.
(* MODELS obu_processor.cc:622-646: whether the loop is left, with which temporal unit.  (output_timestamp is always assigned,
   because a temporal unit with frames or blocks has a timestamp: unit_timestamps in ProcFacts.v.) *)
Definition close (eos cont delim_end : bool) (u : units) : option (option outunit * units) :=
  if (negb cont && eos) || (match tu_time (u_next u) with Some _ => true | None => false end) || delim_end then
    match tu_frames (u_cur u), tu_blocks (u_cur u) with
    | [], [] => Some (None, u)
    | _, _ => Some (Some (mkOu (tu_frames (u_cur u)) (tu_blocks (u_cur u)) (match tu_time (u_cur u) with Some t => t | None => 0 end)),
                    mkU (u_next u) tud_empty)
    end
  else None.

(* MODELS obu_processor.cc:581-650 ProcessTemporalUnit, over any way [run] of running reader programs on a buffer;
   [k] bounds the number of OBUs processed: Diverge when it is used up. *)
Section Unit.
Context {B : Type} (run : forall A, rprog A -> B -> res A * B).
Fixpoint process_unit (k : nat) (D : descs) (eos : bool) (s : pst) (u : units) (b : B) : res (option outunit * bool) * pst * units * B :=
  match k with
  | O => (Diverge, s, u, b)
  | S k' =>
      match run _ (proc_obu D s) b with
      | (Ok o, b1) =>
          match po_status o with
          | Ok _ =>
              let '(u1, de) := collect u (po_item o) in
              match close eos (po_cont o) de u1 with
              | Some (out, u2) => (Ok (out, po_cont o), po_state o, u2, b1)
              | None => if po_cont o then process_unit k' D eos (po_state o) u1 b1
                        else (Ok (None, false), po_state o, u1, b1)
              end
          | r => (rcast r (Err Internal), po_state o, u, b1)
          end
      | (r, b1) => (rcast r (Err Internal), s, u, b1)
      end
  end.
End Unit.
