(* Model of cli/probe.cc: the walk over the temporal units after the descriptors (ScanTemporalUnits) and ProbeFromBuffer. *)
From Coq Require Import List.
From Verif Require Import Base WriteBuf ReadBuf Leb ObuHeader SimpleObus CodecConfig Params Timing ParamManager Processor.

(* MODELS probe.h:490-502 the values of stopped_reason *)
Inductive stop := Eof | Truncated | Malformed | NextSequence | BudgetExceeded | Cancelled.
(* MODELS probe.h:456-462 TemporalUnitEntry *)
Record entry := mkEn { en_time : Z; en_samples : Z; en_offset : Z; en_trim_start : Z; en_trim_end : Z }.
(* MODELS probe.h:428-434 AudioFrameSummaryReport without its ID *)
Record summary := mkSu { su_codec : Z; su_frames : Z; su_samples : Z }.
(* MODELS probe.cc:877-917 BuildParameterBlockReport: the block itself (its fields are copied one by one), the raw type and the times *)
Record blockrep := mkBr { br_type : Z; br_start : Z; br_end : Z; br_def : pdef; br_block : pblock }.

(* The local variables of ScanTemporalUnits and the fields of its output.
   MODELS probe.cc:971-982 PendingTu and the two counters, 962-964 the two maps, probe.h:472-485 the counters and lists.
   SIMPLIFIED: the counters are uint32_t and the sums uint64_t in C++; they are unbounded here.  All counters together are at most the number of
   iterations, and times at most that many frames (C66_bounds), so with the default of 10,000,000 iterations nothing wraps. *)
Record scan := mkSc {
  sc_start : option Z; sc_num : Z; sc_trim_start : Z; sc_trim_end : Z; sc_seen : list Z;
  sc_time : Z; sc_done : Z;
  sc_subs : list (Z * summary); sc_ptime : list (Z * Z);
  sc_frames : Z; sc_blocks : Z; sc_delims : Z; sc_frame_errors : Z; sc_block_errors : Z;
  sc_entries : list entry; sc_details : list blockrep }.
Definition sc_empty : scan := mkSc None 0 0 0 [] 0 0 [] [] 0 0 0 0 0 [] [].
(* pending_tu = PendingTu{} *)
Definition no_pending (s : scan) : scan :=
  mkSc None 0 0 0 [] (sc_time s) (sc_done s) (sc_subs s) (sc_ptime s) (sc_frames s) (sc_blocks s) (sc_delims s) (sc_frame_errors s) (sc_block_errors s) (sc_entries s) (sc_details s).
(* MODELS probe.cc:983-987 note_tu_start *)
Definition note_start (off : Z) (s : scan) : scan :=
  match sc_start s with
  | Some _ => s
  | None => mkSc (Some off) (sc_num s) (sc_trim_start s) (sc_trim_end s) (sc_seen s) (sc_time s) (sc_done s) (sc_subs s) (sc_ptime s)
                 (sc_frames s) (sc_blocks s) (sc_delims s) (sc_frame_errors s) (sc_block_errors s) (sc_entries s) (sc_details s)
  end.
(* MODELS probe.cc:988-1010 finalize_tu *)
Definition finalize_tu (full : bool) (s : scan) : scan :=
  match sc_start s with
  | None => s
  | Some off =>
      match sc_seen s with
      | [] => no_pending s
      | _ =>
          let e := mkEn (sc_time s) (sc_num s) off (sc_trim_start s) (sc_trim_end s) in
          mkSc None 0 0 0 [] (sc_time s + sc_num s) (sc_done s + 1) (sc_subs s) (sc_ptime s) (sc_frames s) (sc_blocks s) (sc_delims s)
               (sc_frame_errors s) (sc_block_errors s) (if full then sc_entries s ++ [e] else sc_entries s) (sc_details s)
      end
  end.

(* What is needed of the descriptors. *)
Record ptables := mkPt { pt_subs : list (Z * (Z * Z));   (* substream -> frame size, codec config ID: probe.cc:930-944 *)
                         pt_defs : list (Z * pdef) }.    (* parameter definitions *)
(* One OBU, as the switch sees it. *)
Inductive event :=
| EFrame (id trim_start trim_end : Z)   (* an audio frame *)
| EFrameError                           (* an audio frame whose substream ID cannot be read *)
| EBlock (id : Z) (b : option (pdef * pblock))   (* a parameter block; its contents in a full scan *)
| EBlockError (noted : bool)            (* a parameter block that is not understood; whether its ID could be read *)
| EDelim
| EOther.                               (* anything that is skipped silently *)

(* MODELS probe.cc:1112-1141 the bookkeeping for an audio frame *)
Definition tally_frame (full : bool) (T : ptables) (off id ts te : Z) (s : scan) : scan :=
  let s1 := if existsb (Z.eqb id) (sc_seen s) then finalize_tu full s else s in
  let s2 := note_start off s1 in
  let '(ts', te') := match sc_seen s2 with [] => (ts, te) | _ => (sc_trim_start s2, sc_trim_end s2) end in
  let size := match m_find id (pt_subs T) with Some x => fst x | None => 0 end in
  let old := match m_find id (sc_subs s2) with Some x => x | None => mkSu 0 0 0 end in
  let codec := match m_find id (pt_subs T) with Some x => snd x | None => su_codec old end in
  mkSc (sc_start s2) (Z.max (sc_num s2) size) ts' te'
       (if existsb (Z.eqb id) (sc_seen s2) then sc_seen s2 else sc_seen s2 ++ [id]) (sc_time s2) (sc_done s2)
       (m_put id (mkSu codec (su_frames old + 1) (su_samples old + size)) (sc_subs s2)) (sc_ptime s2)
       (sc_frames s2 + 1) (sc_blocks s2) (sc_delims s2) (sc_frame_errors s2) (sc_block_errors s2) (sc_entries s2) (sc_details s2).
(* MODELS probe.cc:1188-1199 (and 1174-1176): the bookkeeping for a parameter block *)
Definition tally_block (id : Z) (b : option (pdef * pblock)) (s : scan) : scan :=
  match b with
  | None => mkSc (sc_start s) (sc_num s) (sc_trim_start s) (sc_trim_end s) (sc_seen s) (sc_time s) (sc_done s) (sc_subs s) (sc_ptime s)
                 (sc_frames s) (sc_blocks s + 1) (sc_delims s) (sc_frame_errors s) (sc_block_errors s) (sc_entries s) (sc_details s)
  | Some (d, x) =>
      let start := match m_find id (sc_ptime s) with Some t => t | None => 0 end in
      let stop := start + block_duration d x in
      mkSc (sc_start s) (sc_num s) (sc_trim_start s) (sc_trim_end s) (sc_seen s) (sc_time s) (sc_done s) (sc_subs s) (m_put id stop (sc_ptime s))
           (sc_frames s) (sc_blocks s + 1) (sc_delims s) (sc_frame_errors s) (sc_block_errors s) (sc_entries s)
           (sc_details s ++ [mkBr (pd_type (pd_kind d)) start stop d x])
  end.
Definition add_frame_error (s : scan) : scan :=
  mkSc (sc_start s) (sc_num s) (sc_trim_start s) (sc_trim_end s) (sc_seen s) (sc_time s) (sc_done s) (sc_subs s) (sc_ptime s)
       (sc_frames s) (sc_blocks s) (sc_delims s) (sc_frame_errors s + 1) (sc_block_errors s) (sc_entries s) (sc_details s).
Definition add_block_error (s : scan) : scan :=
  mkSc (sc_start s) (sc_num s) (sc_trim_start s) (sc_trim_end s) (sc_seen s) (sc_time s) (sc_done s) (sc_subs s) (sc_ptime s)
       (sc_frames s) (sc_blocks s) (sc_delims s) (sc_frame_errors s) (sc_block_errors s + 1) (sc_entries s) (sc_details s).
Definition add_delim (s : scan) : scan :=
  mkSc (sc_start s) (sc_num s) (sc_trim_start s) (sc_trim_end s) (sc_seen s) (sc_time s) (sc_done s) (sc_subs s) (sc_ptime s)
       (sc_frames s) (sc_blocks s) (sc_delims s + 1) (sc_frame_errors s) (sc_block_errors s) (sc_entries s) (sc_details s).
(* All effects on the report of the OBU at byte [off] after the start of the scan. *)
Definition tally (full : bool) (T : ptables) (off : Z) (e : event) (s : scan) : scan :=
  match e with
  | EFrame id ts te => tally_frame full T off id ts te s
  | EFrameError => add_frame_error s
  | EBlock id b => tally_block id b (note_start off s)
  | EBlockError noted => add_block_error (if noted then note_start off s else s)
  | EDelim => add_delim (note_start off (finalize_tu full s))
  | EOther => s
  end.

Definition is_ok {A} (x : code + A) : bool := match x with inl _ => false | inr _ => true end.
(* MODELS probe.cc:1087-1111: an audio frame; None = a parse failed, the OBU is to be skipped *)
Definition scan_frame (h : header) (n : Z) : rprog (option event) :=
  i <- (if h_type h =? kAudioFrame
        then x <- rcatch ruleb_sz ;;
             RRet (match x with inl _ => None | inr (v, k) => if n <? k then None else Some (v, n - k) end)
        else RRet (Some (h_type h - kAudioFrameId0, n))) ;;
  match i with
  | None => RRet None
  | Some (id, skip) =>
      x <- rcatch (rignore skip) ;;
      RRet (if is_ok x then Some (EFrame id (h_trim_start h) (h_trim_end h)) else None)
  end.
(* MODELS probe.cc:1146-1200: a parameter block.  (A definition is never a null pointer.)  inl = a parse failed, the OBU is to be skipped *)
Definition scan_block (full : bool) (T : ptables) (h : header) (n : Z) : rprog (event + event) :=
  i <- rcatch peek_parameter_id ;;
  match i with
  | inl _ => RRet (inl (EBlockError false))
  | inr id =>
      match m_find id (pt_defs T) with
      | None => RRet (inl (EBlockError true))
      | Some d =>
          if full then
            x <- rcatch (read_payload n (read_pblock d h n)) ;;
            RRet (match x with inl _ => inl (EBlockError true) | inr b => inr (EBlock id (Some (d, fst b))) end)
          else
            x <- rcatch (rignore n) ;;
            RRet (if is_ok x then inr (EBlock id None) else inl (EBlockError true))
      end
  end.
(* MODELS probe.cc:1030-1263 one iteration: what was seen, and whether the walk ends.  1258-1263: an iteration must consume bytes
   (this check is not reached from 1052-1061, the malformed header). *)
Definition scan_obu (full : bool) (T : ptables) : rprog (event * option stop) :=
  p0 <- rtell ;;
  a0 <- ravail ;;
  m <- rcatch peek_header ;;
  match m with
  | inl ResourceExhausted => RRet (EOther, Some (if a0 =? 0 then Eof else Truncated))
  | inl _ => RRet (EOther, Some Malformed)
  | inr tt_total =>
      let total := snd tt_total in
      a <- ravail ;;
      if a <? total then RRet (EOther, Some Truncated)
      else
        let skip (e : event) := x <- rcatch (rseek p0 ;;; rignore total) ;; RRet (e, if is_ok x then None else Some Malformed) in
        let checked (x : event * option stop) : rprog (event * option stop) :=
          match snd x with
          | Some _ => RRet x
          | None => q <- rtell ;; RRet (fst x, if q <=? p0 then Some Malformed else None)
          end in
        hp <- rcatch read_header ;;
        match hp with
        | inl _ => skip EOther
        | inr (h, n) =>
            if is_audio_frame (h_type h) then
              x <- scan_frame h n ;;
              y <- match x with Some e => RRet (e, None) | None => skip EFrameError end ;; checked y
            else if h_type h =? kParameterBlock then
              x <- scan_block full T h n ;;
              y <- match x with inr e => RRet (e, None) | inl e => skip e end ;; checked y
            else if h_type h =? kTemporalDelimiter then
              x <- rcatch (rignore n) ;; checked (EDelim, if is_ok x then None else Some Malformed)
            else if (h_type h =? kSequenceHeader) && negb (h_red h) then
              rcatch (rseek p0) ;;; RRet (EOther, Some NextSequence)
            else
              rcatch (rignore n) ;;; checked (EOther, None)
        end
  end.

(* MODELS probe.cc:1015-1029: the loop; [k] iterations are still allowed.  [go] gives the answers of should_continue in this run, by the
   number of the call and the progress it is told (a callback that is not set: always true). *)
Section Loop.
Context (full : bool) (T : ptables) (go : Z -> Z -> Z -> bool) (start : Z).
Fixpoint scan_loop (k : nat) (i : Z) (s : scan) : rprog (stop * scan) :=
  match k with
  | O => RRet (BudgetExceeded, s)
  | S k' =>
      p <- rtell ;;
      if negb (go i ((p - start) / 8) (sc_done s)) then RRet (Cancelled, s)
      else
        x <- scan_obu full T ;;
        let s1 := tally full T ((p - start) / 8) (fst x) s in
        match snd x with
        | Some r => RRet (r, s1)
        | None => scan_loop k' (i + 1) s1
        end
  end.
End Loop.

(* MODELS probe.h:472-503 TemporalUnitScanReport.  SIMPLIFIED: output_sample_rate and duration_seconds are not modelled. *)
Record report := mkRp {
  rp_units : Z; rp_frames : Z; rp_blocks : Z; rp_delims : Z; rp_frame_errors : Z; rp_block_errors : Z;
  rp_subs : list (Z * summary); rp_details : list blockrep; rp_entries : list entry; rp_total : option Z; rp_bytes : Z; rp_stop : stop }.
(* std::sort of the substream IDs *)
Fixpoint insert_sub (x : Z * summary) (l : list (Z * summary)) : list (Z * summary) :=
  match l with [] => [x] | y :: t => if fst x <=? fst y then x :: l else y :: insert_sub x t end.
Definition sort_subs (l : list (Z * summary)) : list (Z * summary) := fold_right insert_sub [] l.
Definition maximum (l : list Z) : Z := fold_right Z.max 0 l.
(* MODELS probe.cc:1266-1307: the end of the scan at [bytes] from its start *)
Definition conclude (full : bool) (r : stop) (s0 : scan) (bytes : Z) : report :=
  let s := finalize_tu full s0 in
  let samples := maximum (map (fun x => su_samples (snd x)) (sc_subs s)) in
  mkRp (Z.max (maximum (map (fun x => su_frames (snd x)) (sc_subs s))) (sc_delims s))
       (sc_frames s) (sc_blocks s) (sc_delims s) (sc_frame_errors s) (sc_block_errors s)
       (sort_subs (sc_subs s)) (sc_details s) (sc_entries s) (if samples >? 0 then Some samples else None) bytes r.
(* MODELS probe.cc:924-1308 ScanTemporalUnits *)
Definition scan_units (full : bool) (budget : nat) (T : ptables) (go : Z -> Z -> Z -> bool) : rprog report :=
  start <- rtell ;;
  x <- scan_loop full T go start budget 1 sc_empty ;;
  q <- rtell ;;
  RRet (conclude full (fst x) (snd x) ((q - start) / 8)).
