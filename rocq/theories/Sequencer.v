(* Model of the encoder's OBU sequencers: cli/obu_sequencer_base.cc, obu_sequencer_iamf.cc, obu_sequencer_streaming_iamf.cc.
   Not modelled: logging; the capacity and reallocation of the scratch buffer; destruction. *)
From Verif Require Import Base WriteBuf ReadBuf Leb ObuHeader SimpleObus CodecConfig Params AudioElement MixPresentation AeData Profile TempUnit.

(* An OBU object: header_, contents, footer_ (obu_base.h) *)
Record obu (A : Type) := mkOb { ob_h : header; ob_v : A; ob_foot : list Z }.
Arguments mkOb {A}. Arguments ob_h {A}. Arguments ob_v {A}. Arguments ob_foot {A}.
(* MODELS obu_header.h: the default header *)
Definition default_header : header := mkH 0 false false 0 0 None.

(* ---- arbitrary OBUs ---- *)
(* MODELS arbitrary_obu.h:40-50 *)
Inductive hook := BeforeDescriptors | AfterDescriptors | AfterSequenceHeader | AfterCodecConfigs | AfterAudioElements | AfterMixPresentations
  | BeforeBlocks | AfterBlocks | AfterFrames.
Definition hook_eq_dec (a b : hook) : {a = b} + {a <> b}. Proof. decide equality. Defined.
(* MODELS arbitrary_obu.h:62-74 (insertion_tick_ is only used by TemporalUnitView, see TempUnit.v) *)
Record arbitrary := mkAr { ar_type : Z; ar_obu : obu (list Z); ar_hook : hook; ar_invalid : bool }.
Definition write_arbitrary_obu (g : lebgen) (a : arbitrary) : wprog :=
  write_obu g (set_type (ob_h (ar_obu a)) (ar_type a)) (write_arbitrary (ob_v (ar_obu a)) (ar_invalid a)) (ob_foot (ar_obu a)).
(* MODELS arbitrary_obu.cc:29-38 and obu_sequencer_base.cc:147-157 WriteObusWithHook *)
Definition with_hook (g : lebgen) (k : hook) (l : list arbitrary) : wprog :=
  flat_map (fun a => if hook_eq_dec (ar_hook a) k then write_arbitrary_obu g a else []) l.

(* ---- descriptors ---- *)
(* The arguments of PushDescriptorObus; the maps are association lists without double keys *)
Definition cstats := (Z * Z * Z)%type.
Record descset := mkDescs { de_seq : obu seqhdr; de_meta : list (obu metadata); de_codecs : list (Z * obu (codec_config * cstats));
                         de_aes : list (Z * obu aed); de_mixes : list (obu mixp); de_arb : list arbitrary }.
(* MODELS obu_sequencer_base.cc:94-104 SortedKeys *)
Definition by_key {A} (m : list (Z * A)) : list (Z * A) := sort (fun a b => fst a <? fst b) m.
Definition plain_aes (m : list (Z * obu aed)) : aemap := map (fun x => (fst x, ob_v (snd x))) m.
(* MODELS obu_sequencer_base.cc:243-321 WriteDescriptorObus *)
Definition write_descriptors (g : lebgen) (d : descset) : wprog :=
  write_obu g (set_type (ob_h (de_seq d)) kSequenceHeader) (write_seqhdr (ob_v (de_seq d))) (ob_foot (de_seq d)) ++
  with_hook g AfterSequenceHeader (de_arb d) ++
  flat_map (fun m => write_metadata_obu g (ob_h m) (ob_v m) (ob_foot m)) (de_meta d) ++
  flat_map (fun x => write_codec_config_obu g (ob_h (snd x)) (fst (ob_v (snd x))) (ob_foot (snd x))) (by_key (de_codecs d)) ++
  with_hook g AfterCodecConfigs (de_arb d) ++
  flat_map (fun x => write_aelem_obu g (ob_h (snd x)) (ad_obu (ob_v (snd x))) (ob_foot (snd x))) (by_key (de_aes d)) ++
  with_hook g AfterAudioElements (de_arb d) ++
  flat_map (fun m => wres (fst (filter_mix (plain_aes (de_aes d)) (ob_v m) [sq_primary (ob_v (de_seq d)); sq_additional (ob_v (de_seq d))])) ++
                     write_mixp_obu g (ob_h m) (ob_v m) (ob_foot m)) (de_mixes d) ++
  with_hook g AfterMixPresentations (de_arb d).
(* MODELS obu_sequencer_base.cc:366-375, 479-487: with the arbitrary OBUs before and after *)
Definition serialize_descriptors (g : lebgen) (d : descset) : wprog :=
  with_hook g BeforeDescriptors (de_arb d) ++ write_descriptors g d ++ with_hook g AfterDescriptors (de_arb d).

(* MODELS obu_sequencer_base.h:243-250 DescriptorStatistics; num_channels is the constant 2 (obu_sequencer_base.cc:116, 165) *)
Record stats := mkSt { st_spf : Z; st_rate : Z; st_bits : Z; st_pts : option Z; st_obus : list Z }.
Definition distinct (l : list Z) : list Z := nodup Z.eq_dec l.
(* MODELS cli_util.cc:208-240 GetCommonSampleRateAndBitDepth with obu_sequencer_base.cc:122-145: rate, bit depth, requires_resampling *)
Definition common_rate_and_depth (rates depths : list Z) : Z * Z * bool :=
  match distinct rates with
  | [] => (48000, 16, false)
  | rs => (match rs with [r] => r | _ => 48000 end, match distinct depths with [b] => b | _ => 16 end, match rs with [_] => false | _ => true end)
  end.
(* MODELS cli_util.cc:242-261 GetCommonSamplesPerFrame: the first in the order of the map, and all others alike *)
Definition common_frame (l : list Z) : res Z :=
  match l with [] => Ok 1024 | n :: t => if forallb (Z.eqb n) t then Ok n else Err Unknown end.
(* MODELS obu_sequencer_base.cc:159-183 FillDescriptorStatistics *)
Definition statistics (d : descset) (obus : list Z) : res stats :=
  let cs := map (fun x => ob_v (snd x)) (de_codecs d) in
  let '(rate, depth, resample) := common_rate_and_depth (map (fun c => fst (fst (snd c))) cs) (map (fun c => snd (snd c)) cs) in
  if resample : bool then Err Unimplemented
  else rbind (common_frame (map (fun c => cc_frame (fst c)) cs)) (fun n => Ok (mkSt n rate depth None obus)).

(* ---- temporal units ---- *)
(* MODELS temporal_unit_view.h:93-102, with whole OBUs in place of TempUnit.v's tags; its lists are sorted (C28) *)
Record tunit := mkTU { tu_blocks : list (obu (pdef * pblock)); tu_frames : list (obu aframe); tu_arb : list arbitrary;
                       tu_start : Z; tu_trim : Z; tu_un : Z }.
(* MODELS obu_sequencer_base.cc:185-229 WriteTemporalUnit; the alignment check at the end is in [serialize] *)
Definition write_unit (g : lebgen) (delims : bool) (u : tunit) : wprog :=
  (if delims then write_td_obu g default_header [] else []) ++
  with_hook g BeforeBlocks (tu_arb u) ++
  flat_map (fun b => write_pblock_obu g (ob_h b) (fst (ob_v b)) (snd (ob_v b)) (ob_foot b)) (tu_blocks u) ++
  with_hook g AfterBlocks (tu_arb u) ++
  flat_map (fun f => write_aframe_obu g (ob_h f) (ob_v f) (ob_foot f)) (tu_frames u) ++
  with_hook g AfterFrames (tu_arb u).
Definition serialize (p : wprog) (aligned : bool) : res (list Z) :=
  match wrun p w_empty with
  | (Ok _, w) => if aligned && negb (w_off w mod 8 =? 0) then Err InvalidArgument else Ok (w_bytes w)
  | (Err c, _) => Err c | (Abort, _) => Abort | (UB, _) => UB | (Diverge, _) => Diverge
  end.
(* MODELS obu_header.cc:345-355 GetIsKeyFrame with obu_sequencer_base.cc:427-433 *)
Definition is_key_frame (u : tunit) : bool :=
  existsb (fun a => (ar_type a =? kTemporalDelimiter) && negb (h_flag (ob_h (ar_obu a)))) (tu_arb u).

(* ---- the sequencer ---- *)
(* MODELS obu_sequencer_base.h:225-236 *)
Inductive phase := Initialized | DescriptorsGiven | DescriptorsOut | Closed.
(* What the base class asks of the concrete class.  The concrete class answers PushSerializedDescriptorObus, PushSerializedTemporalUnit
   and PushFinalizedDescriptorObus with a status, which may depend on everything before; [SClose] and [SAbort] have none. *)
Inductive event := SDescs (s : stats) | SUnit (start samples : Z) (key : bool) (bytes : list Z) | SFinal (bytes : list Z) | SClose | SAbort.
Definition concrete := list event -> event -> option code.
Record sequencer := mkSq { q_phase : phase; q_stats : option stats; q_delayed : list event; q_log : list event }.
Definition sq_new : sequencer := mkSq Initialized None [] [].
Section Sequencer.
Variables (g : lebgen) (delims delay : bool) (answer : concrete).
(* The log holds what the concrete class was asked, in order *)
Definition ask (e : event) (q : sequencer) : res unit * sequencer :=
  (match answer (q_log q) e with None => Ok tt | Some c => Err c end, mkSq (q_phase q) (q_stats q) (q_delayed q) (q_log q ++ [e])).
Fixpoint ask_all (l : list event) (q : sequencer) : res unit * sequencer :=
  match l with
  | [] => (Ok tt, q)
  | e :: t => match ask e q with (Ok _, q1) => ask_all t q1 | x => x end
  end.
Definition to_phase (p : phase) (q : sequencer) : sequencer := mkSq p (q_stats q) (q_delayed q) (q_log q).
Definition set_stats (s : stats) (q : sequencer) : sequencer := mkSq (q_phase q) (Some s) (q_delayed q) (q_log q).
Definition with_pts (s : stats) (t : Z) : stats := mkSt (st_spf s) (st_rate s) (st_bits s) (Some t) (st_obus s).
(* MODELS obu_sequencer_base.cc:561-564 Abort *)
Definition do_abort (q : sequencer) : sequencer := mkSq Closed (q_stats q) (q_delayed q) (q_log q ++ [SAbort]).
(* MODELS obu_sequencer_base.cc:71-92 AbortOnDestruct *)
Definition guarded (x : res unit * sequencer) : res unit * sequencer :=
  match x with (Err c, q) => (Err c, do_abort q) | _ => x end.
(* MODELS obu_sequencer_base.cc:341-398 PushDescriptorObus *)
Definition push_descriptors (d : descset) (q : sequencer) : res unit * sequencer :=
  guarded (
  match q_phase q with
  | Initialized =>
      let q1 := to_phase DescriptorsGiven q in
      match rbind (serialize (serialize_descriptors g d) false) (statistics d) with
      | Ok s =>
          let q2 := set_stats s q1 in
          if delay then (Ok tt, q2)
          else match ask (SDescs s) q2 with
               | (Ok _, q3) => (Ok tt, to_phase DescriptorsOut q3)
               | x => x
               end
      | Err c => (Err c, q1) | Abort => (Abort, q1) | UB => (UB, q1) | Diverge => (Diverge, q1)
      end
  | _ => (Err FailedPrecondition, q)
  end).
(* MODELS obu_sequencer_base.cc:566-620 HandleInitialTemporalUnits *)
Definition initial_unit (u : tunit) (e : event) (s : stats) (q : sequencer) : res unit * sequencer :=
  let found := negb (tu_un u =? 0) in
  let q1 := if found then set_stats (with_pts s (s64 (tu_start u + tu_trim u))) q else q in
  if negb delay then ask e q1
  else if negb found then (Ok tt, mkSq (q_phase q1) (q_stats q1) (q_delayed q1 ++ [e]) (q_log q1))
  else match q_stats q1 with
       | None => (UB, q1)
       | Some s1 =>
           match ask (SDescs s1) q1 with
           | (Ok _, q2) =>
               match ask_all (q_delayed q2) (to_phase DescriptorsOut q2) with
               | (Ok _, q3) => ask e (mkSq (q_phase q3) (q_stats q3) [] (q_log q3))
               | x => x
               end
           | x => x
           end
       end.
(* MODELS obu_sequencer_base.cc:400-455 PushTemporalUnit; num_samples is an int *)
Definition push_unit (u : tunit) (q : sequencer) : res unit * sequencer :=
  guarded (
  match q_phase q with
  | DescriptorsGiven | DescriptorsOut =>
      match serialize (write_unit g delims u) true with
      | Ok b =>
          let e := SUnit (tu_start u) (s32 (tu_un u)) (is_key_frame u) b in
          match q_stats q with
          | None => (UB, q)
          | Some s => match st_pts s with
                      | None => initial_unit u e s q
                      | Some _ => if tu_trim u >? 0 then (Err InvalidArgument, q) else ask e q
                      end
          end
      | Err c => (Err c, q) | Abort => (Abort, q) | UB => (UB, q) | Diverge => (Diverge, q)
      end
  | _ => (Err FailedPrecondition, q)
  end).
(* MODELS obu_sequencer_base.cc:531-559 Close *)
Definition close (q : sequencer) : res unit * sequencer :=
  let finish (q : sequencer) : res unit * sequencer := (Ok tt, mkSq Closed (q_stats q) (q_delayed q) (q_log q ++ [SClose])) in
  match q_phase q with
  | Initialized | DescriptorsOut => finish q
  | DescriptorsGiven =>
      match q_stats q with
      | None => (UB, q)
      | Some s => let s1 := with_pts s 0 in
                  match ask (SDescs s1) (set_stats s1 q) with (Ok _, q1) => finish (to_phase DescriptorsOut q1) | x => x end
      end
  | Closed => (Err FailedPrecondition, q)
  end.
Definition bytes_eq_dec (a b : list Z) : {a = b} + {a <> b} := list_eq_dec Z.eq_dec a b.
(* MODELS obu_sequencer_base.cc:457-529 UpdateDescriptorObusAndClose *)
Definition update_and_close (d : descset) (q : sequencer) : res unit * sequencer :=
  guarded (
  match q_phase q with
  | DescriptorsGiven | DescriptorsOut =>
      match serialize (serialize_descriptors g d) false with
      | Ok b =>
          match q_stats q with
          | None => (UB, q)
          | Some s =>
              if bytes_eq_dec b (st_obus s) then close q
              else match statistics d b with
                   | Ok n =>
                       if negb ((st_spf s =? st_spf n) && (st_rate s =? st_rate n) && (st_bits s =? st_bits n)) then (Err FailedPrecondition, q)
                       else if negb (zlen (st_obus s) =? zlen b) then (Err Unimplemented, q)
                       else match ask (SFinal b) q with
                            | (Ok _, q1) => close (to_phase DescriptorsOut q1)
                            | x => x
                            end
                   | Err c => (Err c, q) | Abort => (Abort, q) | UB => (UB, q) | Diverge => (Diverge, q)
                   end
          end
      | Err c => (Err c, q) | Abort => (Abort, q) | UB => (UB, q) | Diverge => (Diverge, q)
      end
  | _ => (Err FailedPrecondition, q)
  end).
Inductive scall := PushDescriptors (d : descset) | PushUnit (u : tunit) | UpdateAndClose (d : descset) | Close | AbortCall.
Definition sq_step (c : scall) (q : sequencer) : res unit * sequencer :=
  match c with
  | PushDescriptors d => push_descriptors d q
  | PushUnit u => push_unit u q
  | UpdateAndClose d => update_and_close d q
  | Close => close q
  | AbortCall => (Ok tt, do_abort q)
  end.
Fixpoint sq_calls (cs : list scall) (q : sequencer) : list (res unit) * sequencer :=
  match cs with
  | [] => ([], q)
  | c :: t => let '(r, q1) := sq_step c q in let '(rs, q2) := sq_calls t q1 in (r :: rs, q2)
  end.
End Sequencer.

(* ---- concrete sequencers ---- *)
(* MODELS obu_sequencer_streaming_iamf.cc:42-91: serialized_descriptor_obus_, previous_serialized_temporal_unit_ (delay = false) *)
Definition streaming_event (s : list Z * list Z) (e : event) : list Z * list Z :=
  match e with
  | SDescs st => (st_obus st, snd s)
  | SUnit _ _ _ b => (fst s, b)
  | SFinal b => (b, snd s)
  | SClose => (fst s, [])
  | SAbort => ([], [])
  end.
Definition streaming (log : list event) : list Z * list Z := fold_left streaming_event log ([], []).
(* MODELS obu_sequencer_iamf.cc:60-118, one file: None when there is none; a file which is open can be written.  Opening truncates; the
   updated descriptors overwrite the beginning.  Successful file operations are assumed ([answer] may fail). *)
Record file := mkF { f_open : bool; f_bytes : option (list Z) }.
Definition overwrite (b old : list Z) : list Z := b ++ skipn (length b) old.
Definition file_event (f : file) (e : event) : file :=
  match e with
  | SDescs st => mkF true (Some (st_obus st))
  | SUnit _ _ _ b => if f_open f then mkF true (option_map (fun old => old ++ b) (f_bytes f)) else f
  | SFinal b => if f_open f then mkF true (option_map (overwrite b) (f_bytes f)) else f
  | SClose => mkF false (f_bytes f)
  | SAbort => if f_open f then mkF false None else f
  end.
Definition file_of (log : list event) : file := fold_left file_event log (mkF false None).
