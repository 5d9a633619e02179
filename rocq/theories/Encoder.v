(* Model of the encoder: cli/iamf_encoder.cc (cited as "ie") Encode, OutputTemporalUnit, FinalizeEncode, GeneratingTemporalUnits,
   with the timing part of cli/proto_conversion/proto_to_obu/parameter_block_generator.cc (cited as "pbg").
   The frame generator, the global timing, the parameters manager and the check of a temporal unit are those of FrameGen,
   Timing, ParamManager and TempUnit.  Left out are steps which can only fail and whose results are not output: decoding and
   demixing of the frames, measuring loudness, the sequencers.  Only successful calls are modelled: what is left of the state
   after a failed call is not.  Hash maps are association lists in iteration order; the order in which cached samples are handed
   on is any permutation [order]. *)
From Verif Require Import Base WriteBuf CodecConfig Params AudioElement Timing ParamManager TempUnit AeData Demix SubFrames FrameGen.

(* MODELS the types of parameter definitions for which pbg makes blocks; [KOther]: the position types, whose metadata are kept
   in lists which are never read *)
Inductive kind := KMix | KDemix | KRecon | KOther.
Definition kind_eqb (a b : kind) : bool :=
  match a, b with KMix, KMix | KDemix, KDemix | KRecon, KRecon | KOther, KOther => true | _, _ => false end.
Definition upd {V} (k : kind) (v : V) (f : kind -> V) : kind -> V := fun k' => if kind_eqb k k' then v else f k'.

Section Enc.
Context {T P M : Type}.
Variable A : arith T.
Variable lin : Z -> T.
Variable quant : T -> res Z.
Variable code : Z -> list (list Z) -> res P.
Notation gen := (gen T P).
Notation oframe := (oframe T P).
(* MODELS parameter_block.proto ParameterBlockObuMetadata: parameter ID, start_timestamp, the duration (that of the block, or of
   its definition if that has the schedule: pbg:487-494), and the rest *)
Record bmeta := mkBm { bm_id : Z; bm_start : Z; bm_dur : Z; bm_data : M }.
(* MODELS iamf_tools_encoder_api_types.h IamfTemporalUnitData, parsed *)
Record edata := mkEd { ed_meta : list bmeta; ed_samples : list (Z * list (label * list T)) }.
(* the configuration: the type of each parameter definition (pbg.h param_definition_variants_), and the subblocks made from
   metadata (pbg:523-597 PopulateSubblocks; recon gains depend on the frames) *)
Variable kind_of : Z -> option kind.
Variable subs_of : kind -> list oframe -> bmeta -> res (list (option pdata)).
Variable order : list (Z * label * list T) -> list (Z * label * list T).

(* a sample vector of id_to_labeled_samples_: the element, the label, the samples *)
Definition centry := (Z * label * list T)%type.
Fixpoint c_put (id : Z) (l : label) (xs : list T) (c : list centry) : list centry :=
  match c with
  | [] => [(id, l, xs)]
  | (i, l', ys) :: t => if (i =? id) && (if label_eq_dec l' l then true else false) then (id, l, xs) :: t else (i, l', ys) :: c_put id l xs t
  end.
Definition some_samples (e : centry) : bool := negb (nil (snd e)).
Definition emptied_cache (c : list centry) : list centry := map (fun e => (fst e, [])) c.
(* MODELS iamf_encoder.h: the members which change.  [e_arb]: timestamp_to_arbitrary_obus_; [e_meta]: typed_proto_metadata_ of the
   parameter block generator; [e_wait]: temp_*_parameter_blocks_; [e_gen]: the frame generator, with the parameters manager and
   the global timing module, which they share *)
Record enc := mkEnc { e_cache : list centry; e_final : bool; e_arb : list (Z * list arb); e_meta : kind -> list bmeta;
                      e_wait : kind -> list pbd; e_gen : gen; e_closed : bool; e_done : bool }.
(* MODELS ie:101-117 ArrangeArbitraryObus: the timestamped ones, in a btree *)
Fixpoint a_put (t : Z) (o : arb) (m : list (Z * list arb)) : list (Z * list arb) :=
  match m with
  | [] => [(t, [o])]
  | (i, l) :: r => if i =? t then (i, l ++ [o]) :: r else if t <? i then (t, [o]) :: m else (i, l) :: a_put t o r
  end.
Definition arrange (l : list arb) : list (Z * list arb) * list arb :=
  fold_left (fun s o => match o_tick o with Some t => (a_put t o (fst s), snd s) | None => (fst s, snd s ++ [o]) end) l ([], []).
(* MODELS the state of a new encoder *)
Definition new_enc (arbs : list arb) (g : gen) : enc := mkEnc [] false (fst (arrange arbs)) (fun _ => []) (fun _ => []) g false false.
(* MODELS ie:451-458 GeneratingTemporalUnits, afg:785-788 TakingSamples *)
Definition taking (g : gen) : bool := match g_stage g with Taking => true | _ => false end.
Definition generating_units (e : enc) : bool := taking (e_gen e) || generating (e_gen e) || negb (nil (e_arb e)).

(* MODELS pbg:600-616 AddMetadata *)
Fixpoint add_metas (l : list bmeta) (m : kind -> list bmeta) : res (kind -> list bmeta) :=
  match l with
  | [] => Ok m
  | b :: t => match kind_of (bm_id b) with
              | None => Err InvalidArgument
              | Some k => add_metas t (upd k (m k ++ [b]) m)
              end
  end.
(* MODELS ie:502-530: the samples of one call.  Empty spans leave the cache as it is *)
Definition fill_cache (d : list (Z * list (label * list T))) (c : list centry) : list centry :=
  fold_left (fun c e => fold_left (fun c s => if nil (snd s) then c else c_put (fst e) (fst s) (snd s) c) (snd e) c) d c.
(* MODELS ie:472-533 Encode *)
Definition encode (d : edata) (e : enc) : res enc :=
  rbind (add_metas (ed_meta d) (e_meta e)) (fun m =>
  Ok (mkEnc (if e_final e then e_cache e else fill_cache (ed_samples d) (e_cache e)) (e_final e) (e_arb e) m (e_wait e) (e_gen e) (e_closed e) (e_done e))).

(* MODELS pbg:655-697 GenerateParameterBlocks: the new blocks and the clock *)
Fixpoint generate (k : kind) (fs : list oframe) (l : list bmeta) (c : gtm) : res (list pbd * gtm) :=
  match l with
  | [] => Ok ([], c)
  | b :: t =>
      let '(r, s, s', c') := next_param c (bm_id b) (bm_start b) (bm_dur b) in
      r >>> rbind (subs_of k fs b) (fun x => rbind (generate k fs t c') (fun q => Ok (mkPbd (bm_id b) s s' x :: fst q, snd q)))
  end.
Definition set_env (m : pm) (c : gtm) (g : gen) : gen := mkGen (g_stage g) (g_in g) (g_subs g) (g_trims g) (g_coders g) m c.
(* MODELS ie:553-563: the samples in the cache *)
Fixpoint add_cached (cf : cfg) (l : list centry) (g : gen) : res gen :=
  match l with
  | [] => Ok g
  | (id, lb, xs) :: t => rbind (add_samples A lin quant code cf id lb xs g) (add_cached cf t)
  end.
(* MODELS ie:646-658: the blocks up to the first which starts later *)
Fixpoint due (t : Z) (l : list pbd) : list pbd * list pbd :=
  match l with
  | [] => ([], [])
  | b :: r => if t <? p_start b then ([], l) else (b :: fst (due t r), snd (due t r))
  end.
(* MODELS ie:119-131 SpliceArbitraryObus *)
Definition splice (t : Z) (m : list (Z * list arb)) : list arb * list (Z * list arb) :=
  match m_find t m with Some l => (l, m_del t m) | None => ([], m) end.
Definition splice_first (m : list (Z * list arb)) : list arb * list (Z * list arb) :=
  match m with [] => ([], []) | (_, l) :: r => (l, r) end.
(* a temporal unit as it is given to the sequencers *)
Record tunit := mkUnit { u_blocks : kind -> list pbd; u_frames : list oframe; u_arb : list arb }.
Definition blocks_of (u : tunit) : list pbd := u_blocks u KMix ++ u_blocks u KDemix ++ u_blocks u KRecon.
(* how TemporalUnitView sees frames and blocks; a frame knows its element, here it is looked up by its substream *)
Fixpoint eid_of (l : list (Z * elem)) (sid : Z) : option aewd :=
  match l with
  | [] => None
  | (id, el) :: t => match m_find sid (el_subs el) with Some _ => Some (mkAewd id (Some (el_n el))) | None => eid_of t sid end
  end.
Definition frame_view (cf : cfg) (f : oframe) : afr := mkAfr (eid_of (cf_elems cf) (o_id f)) (o_id f) (o_t0 f) (o_t1 f) (o_start f) (o_end f) 0.
Definition block_view (b : pbd) : pbk := mkPbk (p_id b) (p_start b) (p_stop b) 0.
(* MODELS ie:157-182 PushTemporalUnitToObuSequencers *)
Definition push_unit (cf : cfg) (u : tunit) : res unit :=
  rbind (tu_create (map (fun b => Some (block_view b)) (blocks_of u)) (map (fun f => Some (frame_view cf f)) (u_frames u)) (map Some (u_arb u))) (fun _ => Ok tt).
(* MODELS ie:186-240 FinalizeDescriptors and FinalizeObuSequencers, unless there is more to come *)
Definition maybe_close (e : enc) : enc :=
  if generating_units e then e else mkEnc (e_cache e) (e_final e) (e_arb e) (e_meta e) (e_wait e) (e_gen e) true true.
Definition same_times (f0 : oframe) (fs : list oframe) : bool := forallb (fun f => (o_t0 f =? o_t0 f0) && (o_t1 f =? o_t1 f0)) fs.
(* MODELS ie:535-689 OutputTemporalUnit: the state and the unit which was pushed, if there is one *)
Definition output (cf : cfg) (e : enc) : res (enc * option tunit) :=
  rbind (generate KDemix [] (e_meta e KDemix) (g_clock (e_gen e))) (fun rd =>
  rbind (generate KMix [] (e_meta e KMix) (snd rd)) (fun rm =>
  let wait := upd KMix (e_wait e KMix ++ fst rm) (upd KDemix (e_wait e KDemix ++ fst rd) (e_wait e)) in
  let metas := upd KMix [] (upd KDemix [] (e_meta e)) in
  let g0 := set_env (fold_left add_demixing (wait KDemix) (g_pm (e_gen e))) (snd rm) (e_gen e) in
  rbind (add_cached cf (order (filter some_samples (e_cache e))) g0) (fun g1 =>
  let cache := emptied_cache (e_cache e) in
  let g2 := if e_final e then finalize g1 else g1 in
  rbind (output_frames A lin quant code cf g2) (fun r =>
  let g3 := fst r in
  match snd r with
  | [] =>
      if e_final e then
        let '(arbs, rest) := splice_first (e_arb e) in
        let e1 := mkEnc cache true rest metas wait g3 (e_closed e) (e_done e) in
        let u := mkUnit (fun _ => []) [] arbs in
        (if nil arbs then Ok tt else push_unit cf u) >>> Ok (maybe_close e1, if nil arbs then None else Some u)
      else Ok (mkEnc cache (e_final e) (e_arb e) metas wait g3 (e_closed e) (e_done e), None)
  | f0 :: _ =>
      if negb (same_times f0 (snd r)) then Abort
      else
        rbind (generate KRecon (snd r) (metas KRecon) (g_clock g3)) (fun rr =>
        let wait2 := upd KRecon (wait KRecon ++ fst rr) wait in
        let '(arbs, rest) := splice (o_t0 f0) (e_arb e) in
        let u := mkUnit (fun k => match k with KOther => [] | _ => fst (due (o_t0 f0) (wait2 k)) end) (snd r) arbs in
        let e1 := mkEnc cache (e_final e) rest (upd KRecon [] metas)
                        (fun k => match k with KOther => wait2 k | _ => snd (due (o_t0 f0) (wait2 k)) end)
                        (set_env (g_pm g3) (snd rr) g3) (e_closed e) (e_done e) in
        push_unit cf u >>> Ok (maybe_close e1, Some u))
  end)))).
(* MODELS ie:691-712 FinalizeEncode *)
Definition finalize_encode (e : enc) : enc :=
  if e_final e then e
  else maybe_close (mkEnc (e_cache e) true (e_arb e) (e_meta e) (e_wait e) (e_gen e) (e_closed e) (e_done e)).
(* MODELS ie:178-180, 571-609: the caller's vector after OutputTemporalUnit: it is only written when a unit was pushed *)
Definition buffer_after (old new : option tunit) : option tunit := match new with Some u => Some u | None => old end.

(* the calls of a user, the units which were pushed *)
Inductive ecall := Encode (d : edata) | FinalizeEncode | OutputTemporalUnit.
Definition estep (cf : cfg) (c : ecall) (s : enc * list tunit) : res (enc * list tunit) :=
  match c with
  | Encode d => rbind (encode d (fst s)) (fun e => Ok (e, snd s))
  | FinalizeEncode => Ok (finalize_encode (fst s), snd s)
  | OutputTemporalUnit => rbind (output cf (fst s)) (fun r => Ok (fst r, snd s ++ match snd r with Some u => [u] | None => [] end))
  end.
Fixpoint erun (cf : cfg) (cs : list ecall) (s : enc * list tunit) : res (enc * list tunit) :=
  match cs with [] => Ok s | c :: t => rbind (estep cf c s) (erun cf t) end.
End Enc.
