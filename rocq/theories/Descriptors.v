(* Model of cli/descriptor_obu_parser.cc (DescriptorObuParser::ProcessDescriptorObus), of CollectAndValidateParamDefinitions
   (cli/cli_util.cc:48-162) and of the creation of an ObuProcessor (cli/obu_processor.cc:215-227, 376-422, 444-579).
   The maps of descriptors are node_hash_maps, modelled as association lists in the order of insertion; where the code iterates
   over a map, the order is unspecified: C53 shows that it does not matter.
   Not modelled: logging (PrintObu); configuring the renderer, which is a parameter. *)
From Verif Require Import Base WriteBuf ReadBuf Leb ObuHeader SimpleObus CodecConfig Params AudioElement MixPresentation Timing
  ParamManager AeData Profile MixSelect Processor Session Reorder Pcm DecoderApi.

(* MODELS descriptor_obus.h DescriptorObus.  [do_seq]: the IA Sequence Header and whether it is a redundant copy; None stands for
   processed_ia_header = false (descriptor_obu_parser.cc:169-174). *)
Definition codecs := list (Z * (codec_config * (Z * Z * Z))).
Record dobus := mkDO { do_seq : option (bool * seqhdr); do_codecs : codecs; do_aes : aemap; do_mixes : list mixp }.
Definition do_empty : dobus := mkDO None [] [] [].

(* MODELS descriptor_obu_parser.cc:45-74 GetAndStoreCodecConfigObu *)
Definition get_codec_config (bits : Z) (o : dobus) (h : header) (n : Z) : rprog (res dobus) :=
  if n <? 8 then rignore n ;;; RRet (Ok o)
  else x <- read_payload n (read_codec_config h n) ;;
       RRet (rbind (finish_codec_config bits (fst x)) (fun c =>
             Ok (mkDO (do_seq o) (m_insert (cc_id (fst c)) c (do_codecs o)) (do_aes o) (do_mixes o)))).
(* MODELS descriptor_obu_parser.cc:76-106 GetAndStoreAudioElement *)
Definition get_audio_element (o : dobus) (h : header) (n : Z) : rprog (res dobus) :=
  x <- read_payload n (read_aelem h n) ;;
  RRet (rbind (generate_ae (do_codecs o) (fst x)) (fun a =>
        match m_find (ae_id (ad_obu a)) (do_aes o) with
        | Some _ => Err InvalidArgument
        | None => Ok (mkDO (do_seq o) (do_codecs o) (do_aes o ++ [(ae_id (ad_obu a), a)]) (do_mixes o))
        end)).
(* MODELS descriptor_obu_parser.cc:108-136 GetAndStoreMixPresentationObu *)
Definition known_elements (aes : aemap) (m : mixp) : bool :=
  forallb (fun s => forallb (fun e => match m_find (sa_id e) aes with Some _ => true | None => false end) (sm_elems s)) (mp_subs m).
Definition get_mix_presentation (o : dobus) (h : header) (n : Z) : rprog (res dobus) :=
  x <- read_payload n (read_mixp h n) ;;
  RRet (if known_elements (do_aes o) (fst x) then Ok (mkDO (do_seq o) (do_codecs o) (do_aes o) (do_mixes o ++ [fst x])) else Err InvalidArgument).

(* What the switch of descriptor_obu_parser.cc:231-287 makes of an OBU: the loop is left, an error is returned at once (by RFail),
   or parsed_obu_status and the descriptors. *)
Inductive verdict := VStop | VStatus (r : res dobus).
Definition catch_status (p : rprog (res dobus)) : rprog verdict :=
  x <- rcatch p ;; RRet (VStatus (match x with inl c => Err c | inr r => r end)).
(* MODELS descriptor_obu_parser.cc:231-287 *)
Definition get_obu (bits : Z) (o : dobus) (h : header) (n : Z) : rprog verdict :=
  let t := h_type h in
  if t =? kSequenceHeader then
    match do_seq o, h_red h with
    | Some (false, _), false => RRet VStop
    | _, red => x <- read_payload n read_seqhdr ;; RRet (VStatus (Ok (mkDO (Some (red, fst x)) (do_codecs o) (do_aes o) (do_mixes o))))
    end
  else if t =? kCodecConfig then catch_status (get_codec_config bits o h n)
  else if t =? kAudioElement then catch_status (get_audio_element o h n)
  else if t =? kMixPresentation then catch_status (get_mix_presentation o h n)
  else if t =? kMetadata then RRet (VStatus (Err Unimplemented))
  else if (25 <=? t) && (t <=? 30) then RRet (VStatus (Err Unimplemented))
  else RRet VStop.

(* MODELS descriptor_obu_parser.cc:138-152 InsufficientDataReset; the flag is output_insufficient_data *)
Definition insufficient {A} (start : Z) : rprog (res A * bool) :=
  x <- rcatch (rseek start) ;; RRet (Err (match x with inl c => c | inr _ => ResourceExhausted end), true).
(* MODELS descriptor_obu_parser.cc:180-312, the loop; [k] bounds the number of OBUs (Diverge when it is used up).  An error other
   than insufficient data is RFail. *)
Fixpoint descriptor_loop (k : nat) (bits : Z) (exact : bool) (start : Z) (o : dobus) : rprog (res dobus * bool) :=
  match k with
  | O => RRet (Diverge, false)
  | S k' =>
      m <- rcatch peek_header ;;
      match m with
      | inl ResourceExhausted => insufficient start
      | inl c => RFail c
      | inr (t, total) =>
          if temporal_unit_type t then
            if exact then rseek start ;;; RFail InvalidArgument
            else match do_seq o with None => RFail InvalidArgument | Some _ => RRet (Ok o, false) end
          else
            a <- ravail ;;
            if a <? total then insufficient start
            else
              p0 <- rtell ;;
              hp <- read_header ;;
              v <- get_obu bits o (fst hp) (snd hp) ;;
              let proceed (go : bool) (o1 : dobus) : rprog (res dobus * bool) :=
                match do_seq o1 with
                | None => RFail InvalidArgument
                | Some _ =>
                    b <- ravail ;;
                    if exact && negb (b >? 0) then RRet (Ok o1, false)
                    else if go then descriptor_loop k' bits exact start o1 else RRet (Ok o1, false)
                end in
              match v with
              | VStop => rseek p0 ;;; proceed false o
              | VStatus (Ok o1) => proceed true o1
              | VStatus (Err _) => rseek p0 ;;; rignore total ;;; proceed true o
              | VStatus r => RRet (r, false)
              end
      end
  end.
(* MODELS descriptor_obu_parser.cc:156-315 ProcessDescriptorObus *)
Definition process_descriptors (k : nat) (bits : Z) (exact : bool) : rprog (res dobus * bool) :=
  start <- rtell ;; descriptor_loop k bits exact start do_empty.

(* ---- parameter definitions ---- *)
(* A ParamDefinitionVariant.  A recon gain definition also holds the ID of its audio element and, as auxiliary data, the flags (in
   pdef) and channel numbers of each layer. *)
Definition variant := (pdef * option (Z * list chans))%type.
(* operator== is defaulted in all classes (param_definition_base.h:184 etc.), and false for different alternatives *)
Definition variant_eq_dec (a b : variant) : {a = b} + {a <> b}.
Proof. repeat decide equality. Defined.
(* MODELS cli_util.cc:48-76 InsertParamDefinitionAndCheckEquivalence *)
Definition insert_def (v : variant) (m : list (Z * variant)) : res (list (Z * variant)) :=
  let id := pb_id (pd_base (fst v)) in
  match m_find id m with
  | None => Ok (m ++ [(id, v)])
  | Some w => if variant_eq_dec v w then Ok m else Err InvalidArgument
  end.
Fixpoint insert_defs (l : list variant) (m : list (Z * variant)) : res (list (Z * variant)) :=
  match l with [] => Ok m | v :: t => rbind (insert_def v m) (insert_defs t) end.
(* MODELS cli_util.cc:78-99 FillReconGainAuxiliaryData: indexing beyond channel_numbers_for_layers is undefined *)
Definition recon_aux (a : aed) : res (list bool * list chans) :=
  match ae_conf (ad_obu a) with
  | ACScal _ l => if (length (ad_chans a) <? length l)%nat then UB else Ok (map ly_rg l, firstn (length l) (ad_chans a))
  | _ => Err InvalidArgument
  end.
(* MODELS cli_util.cc:110-142: the definitions of one audio element.  std::get of another alternative throws: Abort. *)
Fixpoint element_defs (a : aed) (l : list pdef) (m : list (Z * variant)) : res (list (Z * variant)) :=
  match l with
  | [] => Ok m
  | d :: t =>
      rbind (if pd_type (pd_kind d) =? 1 then
               match pd_kind d with KDemixing _ _ _ _ => insert_def (d, None) m | _ => Abort end
             else if pd_type (pd_kind d) =? 2 then
               match pd_kind d with
               | KRecon _ => rbind (recon_aux a) (fun x => insert_def (mkPD (pd_base d) (KRecon (fst x)), Some (ae_id (ad_obu a), snd x)) m)
               | _ => Abort
               end
             else Ok m) (element_defs a t)
  end.
Fixpoint elements_defs (aes : aemap) (m : list (Z * variant)) : res (list (Z * variant)) :=
  match aes with [] => Ok m | (_, a) :: t => rbind (element_defs a (ae_params (ad_obu a)) m) (elements_defs t) end.
(* MODELS cli_util.cc:144-160: the definitions of the mix presentations, in this order *)
Definition mix_defs (ms : list mixp) : list variant :=
  map (fun d => (d, None))
    (flat_map (fun m => flat_map (fun s => flat_map (fun e => map rd_def (rc_defs (sa_conf e)) ++ [sa_gain e]) (sm_elems s) ++ [sm_gain s])
                                 (mp_subs m)) ms).
(* MODELS cli_util.cc:103-162 CollectAndValidateParamDefinitions *)
Definition collect_defs (aes : aemap) (ms : list mixp) : res (list (Z * variant)) :=
  rbind (elements_defs aes []) (insert_defs (mix_defs ms)).

(* ---- the processor ---- *)
(* MODELS obu_processor.cc:215-227 GetSampleRateAndFrameSize *)
Definition rate_and_size (c : codecs) : option (Z * Z) :=
  match c with [(_, (cc, st))] => Some (fst (fst st), cc_frame cc) | _ => None end.
(* MODELS obu_processor.cc:394-407 substream_id_to_audio_element_: refused if a substream has two audio elements *)
Fixpoint map_substreams (l : list (Z * Z)) (m : list (Z * Z)) : res (list (Z * Z)) :=
  match l with
  | [] => Ok m
  | (sub, ae) :: t => match m_find sub m with Some _ => Err InvalidArgument | None => map_substreams t (m ++ [(sub, ae)]) end
  end.
Definition substreams_of (aes : aemap) : list (Z * Z) := flat_map (fun x => map (fun s => (fst s, fst x)) (ad_labels (snd x))) aes.
(* What Processor.v uses of an audio element *)
Definition info_of (a : aed) : aeinfo := mkAI (ae_id (ad_obu a)) (map fst (ad_labels a)) (cc_frame (codec_of a)) (zlen (ad_chans a)).
(* MODELS obu_processor.cc:376-422 InitializeInternal, after the descriptors have been parsed *)
Definition initialize (o : dobus) : res (descs * pst) :=
  rbind (collect_defs (do_aes o) (do_mixes o)) (fun defs =>
  rbind (map_substreams (substreams_of (do_aes o)) []) (fun _ =>
  rbind (gtm_create (map (fun x => (rate_of (snd x), ae_subs (ad_obu (snd x)))) (do_aes o))
                    (map (fun x => (fst x, pb_rate (pd_base (fst (snd x))))) defs)) (fun g =>
  rbind (pm_new (map (fun x => (fst x, ae_params (ad_obu (snd x)))) (do_aes o))) (fun p =>
  Ok (mkD (map (fun x => info_of (snd x)) (do_aes o)) (map (fun x => (fst x, fst (snd x))) defs), mkPst g p))))).

(* What a client may ask for: mix presentation ID and layout (api_layout in DecoderApi.v: Some sound system, None binaural) *)
Record request := mkReq { rq_mix : option Z; rq_layout : option (option Z) }.
(* MODELS mix_presentation_conversion.cc:92-146 ApiToInternalType; the sound systems of the enumeration are 0 to 13 *)
Definition internal_layout (l : option Z) : lay := match l with Some ss => (2, LSs ss 0) | None => (3, LRb 0) end.
(* MODELS obu_processor.cc:521-579 InitializeForRendering; [configure] is ConfigureSimplifiedAudioProcessingPipeline (727-800).
   Result: mix presentation ID, layout, renderer. *)
Definition prepare_rendering {R} (configure : aemap -> mixp -> res R) (ps : profiles) (q : request) (o : dobus) : res (Z * lay * R) :=
  match do_mixes o, do_aes o with
  | [], _ => Err InvalidArgument
  | _, [] => Err InvalidArgument
  | ms, aes =>
      match supported_mixes ps aes ms with
      | [] => Err NotFound
      | l =>
          rbind (find_mix_and_layout aes ms l (option_map internal_layout (rq_layout q)) (rq_mix q)) (fun x =>
          let '(s, ms1) := x in
          match nth_error ms1 (sel_mix s) with
          | None => UB
          | Some m => rbind (simplify m (Z.of_nat (sel_sub s)) (Z.of_nat (sel_index s))) (fun m1 =>
                      rbind (configure aes m1) (fun r => Ok (mp_id m, sel_layout s, r)))
          end)
      end
  end.
Definition answer {A} (o : option A) : res A := match o with Some x => Ok x | None => Err FailedPrecondition end.
(* MODELS obu_processor.cc:462-492 CreateForRendering with 494-523 (the getters): every error is logged and gives nullptr *)
Definition create_for_rendering {R} (configure : aemap -> mixp -> res R) (k : nat) (bits : Z) (ps : profiles) (exact : bool) (q : request)
  : rprog (res (option (newproc R) * bool)) :=
  x <- rcatch (process_descriptors k bits exact) ;;
  RRet (match x with
        | inl _ => Ok (None, false)
        | inr (Err _, ins) => Ok (None, ins)
        | inr (Ok o, ins) =>
            match rbind (initialize o) (fun y => rbind (prepare_rendering configure ps q o) (fun z => Ok (y, z))) with
            | Ok ((D, s), (mix, l, r)) =>
                Ok (Some (mkNP D s r (Ok mix) (Ok l) (answer (option_map fst (rate_and_size (do_codecs o))))
                                (answer (option_map snd (rate_and_size (do_codecs o))))), ins)
            | Err _ => Ok (None, ins)
            | Abort => Abort | UB => UB | Diverge => Diverge
            end
        | inr (Abort, _) => Abort | inr (UB, _) => UB | inr (Diverge, _) => Diverge
        end).
