(* Model of the down-mixers (cli/downmixer.cc, downmixer_factory.cc, downmixer_manager.cc) and of the demixers (cli/demixer.cc,
   demixing_manager.cc, labeled_frame.cc).  Everything is over an arithmetic [A] on samples: the C++ code is the instance with
   IEEE doubles, the theorems about reconstruction use exact arithmetic (DESIGN.md).
   Hash maps are association lists; where the code iterates over one, the list is in iteration order. *)
From Verif Require Import Base WriteBuf CodecConfig Params AudioElement Timing ParamManager AeData.

(* The operations the code uses.  [a_lit n d]: the literal n/d;  [a_small x]: std::abs(x) < 1e-5 *)
Record arith (T : Type) := mkArith {
  a_add : T -> T -> T; a_sub : T -> T -> T; a_mul : T -> T -> T; a_div : T -> T -> T; a_lit : Z -> Z -> T; a_small : T -> bool }.
Arguments a_add {T}. Arguments a_sub {T}. Arguments a_mul {T}. Arguments a_div {T}. Arguments a_lit {T}. Arguments a_small {T}.

(* The keys of a LabelSamplesMap: a label, or its demixed version (channel_label.h: kDemixed...) *)
Inductive lkey := Orig (l : label) | Dem (l : label).
Definition lkey_eq_dec (a b : lkey) : {a = b} + {a <> b}.
Proof. decide equality; apply label_eq_dec. Defined.
Definition lab_in (l : label) (s : list label) : bool := if in_dec label_eq_dec l s then true else false.

(* MODELS channel_label.cc:413-435 GetDemixedLabel: the labels which have a demixed version *)
Definition demixable : list label := [R2; L3; R3; L5; R5; Ls5; Rs5; Ltf2; Rtf2; Ltb4; Rtb4; L7; R7; Lrs7; Rrs7].

(* MODELS channel_label.cc:36-65 LookupEarChannelOrderFromNonExpandedLoudspeakerLayout *)
Definition ear_order (layout : Z) : res (list label) :=
  if layout =? 0 then Ok [Mono]
  else if layout =? 1 then Ok [L2; R2]
  else if layout =? 2 then Ok [L5; R5; Centre; LFE; Ls5; Rs5]
  else if layout =? 3 then Ok [L5; R5; Centre; LFE; Ls5; Rs5; Ltf2; Rtf2]
  else if layout =? 4 then Ok [L5; R5; Centre; LFE; Ls5; Rs5; Ltf4; Rtf4; Ltb4; Rtb4]
  else if layout =? 5 then Ok [L7; R7; Centre; LFE; Lss7; Rss7; Lrs7; Rrs7]
  else if layout =? 6 then Ok [L7; R7; Centre; LFE; Lss7; Rss7; Lrs7; Rrs7; Ltf2; Rtf2]
  else if layout =? 7 then Ok [L7; R7; Centre; LFE; Lss7; Rss7; Lrs7; Rrs7; Ltf4; Rtf4; Ltb4; Rtb4]
  else if layout =? 8 then Ok [L3; R3; Centre; LFE; Ltf3; Rtf3]
  else if layout =? 9 then Ok [L2; R2]
  else Err NotFound.
(* MODELS channel_label.cc:453-475 LookupLabelsToReconstructFromScalableLoudspeakerLayout *)
Definition reconstruct_labels (ly : layer) : res (list label) :=
  if ly_layout ly =? kExpanded then match ly_exp ly with None => Err InvalidArgument | Some _ => Ok [] end
  else ear_order (ly_layout ly).
(* MODELS demixing_manager.cc:326-355 LookupLabelsToReconstruct; std::get on another alternative throws: Abort *)
Definition labels_to_reconstruct (a : aelem) : res (list label) :=
  if ae_type a =? 0 then
    match ae_conf a with
    | ACScal _ l => match rev l with [] => Err InvalidArgument | ly :: _ => reconstruct_labels ly end
    | _ => Abort
    end
  else if (ae_type a =? 1) || (ae_type a =? 2) then Ok []
  else Err Unimplemented.

(* MODELS downmixer_factory.cc:115-127 and demixing_manager.cc:71-83: the input surround number *)
Definition in_surround (s : list label) : Z :=
  if lab_in L7 s then 7 else if lab_in L5 s then 5 else if lab_in L3 s then 3 else if lab_in L2 s then 2
  else if lab_in Mono s then 1 else 0.
(* MODELS downmixer_factory.cc:173-182 and demixing_manager.cc:128-137: the input height number ("TF2" is 1) *)
Definition in_height (s : list label) : Z :=
  if lab_in Ltf4 s then 4 else if lab_in Ltf2 s then 2 else if lab_in Ltf3 s then 1 else 0.
Definition INT_MAX := 2147483647.
(* MODELS downmixer_factory.cc:129-151 and demixing_manager.cc:85-108: the lowest output surround number; [low] so far *)
Fixpoint lowest_surround (low : Z) (m : labmap) : Z :=
  match m with
  | [] => low
  | (_, s) :: t =>
      if lab_in L7 s && (low >? 7) then lowest_surround 7 t
      else if lab_in L5 s && (low >? 5) then lowest_surround 5 t
      else if lab_in L3 s && (low >? 3) then lowest_surround 3 t
      else if lab_in L2 s && (low >? 2) then lowest_surround 2 t
      else if lab_in Mono s && (low >? 1) then 1
      else lowest_surround low t
  end.
(* MODELS downmixer_factory.cc:184-198 and demixing_manager.cc:139-154: the lowest output height number *)
Fixpoint lowest_height (low : Z) (m : labmap) : Z :=
  match m with
  | [] => low
  | (_, s) :: t =>
      if lab_in Ltf4 s && (low >? 4) then lowest_height 4 t
      else if lab_in Ltf2 s && (low >? 2) then lowest_height 2 t
      else if lab_in Ltf3 s && (low >? 1) then 1
      else lowest_height low t
  end.
(* for (n = from; n > low; n--) *)
Fixpoint count_down (from : nat) (low : Z) : list Z :=
  match from with O => [] | S k => if Z.of_nat from >? low then Z.of_nat from :: count_down k low else [] end.

Inductive downmixer := S7toS5 | S5toS3 | S3toS2 | S2toS1 | T4toT2 | T2toTF2.
(* MODELS downmixer_factory.cc:109-216 CreateScalableChannelDownmixers *)
Definition create_downmixers (s : list label) (m : labmap) : list downmixer :=
  flat_map (fun n => if n =? 7 then [S7toS5] else if n =? 5 then [S5toS3] else if n =? 3 then [S3toS2]
                     else if n =? 2 then [S2toS1] else []) (count_down (Z.to_nat (in_surround s)) (lowest_surround INT_MAX m))
  ++ flat_map (fun n => if n =? 4 then [T4toT2] else if n =? 2 then [T2toTF2] else [])
              (count_down (Z.to_nat (in_height s)) (lowest_height INT_MAX m)).
Inductive demixer := S5toS7 | S3toS5 | S2toS3 | S1toS2 | T2toT4 | TF2toT2.
(* MODELS demixing_manager.cc:56-176 FillRequiredDemixingMetadata (the demixers; the check for a second call is not reachable).
   push_front: the reverse order; the height demixers after the surround demixers *)
Definition create_demixers (s : list label) (m : labmap) : list demixer :=
  rev (flat_map (fun n => if n =? 7 then [S5toS7] else if n =? 5 then [S3toS5] else if n =? 3 then [S2toS3]
                          else if n =? 2 then [S1toS2] else []) (count_down (Z.to_nat (in_surround s)) (lowest_surround INT_MAX m)))
  ++ rev (flat_map (fun n => if n =? 4 then [T2toT4] else if n =? 2 then [TF2toT2] else [])
                   (count_down (Z.to_nat (in_height s)) (lowest_height INT_MAX m))).

Section WithArith.
Context {T : Type}.
Variable A : arith T.
Definition samples := list T.
(* MODELS labeled_frame.h:30 LabelSamplesMap *)
Definition smap := list (lkey * samples).
Fixpoint sm_find (k : lkey) (m : smap) : option samples :=
  match m with [] => None | (i, v) :: t => if lkey_eq_dec i k then Some v else sm_find k t end.
Fixpoint sm_set (k : lkey) (v : samples) (m : smap) : smap :=
  match m with [] => [(k, v)] | (i, x) :: t => if lkey_eq_dec i k then (k, v) :: t else (i, x) :: sm_set k v t end.

(* MODELS demixing_info_parameter_data.h:24-36 DownMixingParams *)
Record dparams := mkDp { d_alpha : T; d_beta : T; d_gamma : T; d_delta : T; d_w : T; d_in : bool }.
(* the values of the tables of demixing_info_parameter_data.cc:32-55 *)
Definition params_of (d : dmix) : dparams :=
  mkDp (a_lit A (dx_alpha d) 1000) (a_lit A (dx_beta d) 1000) (a_lit A (dx_gamma d) 1000) (a_lit A (dx_delta d) 1000)
       (a_lit A (dx_w d) 10000) (dx_in d).

(* MODELS labeled_frame.cc:25-45 FindSamplesOrDemixedSamples *)
Definition find_samples (l : label) (m : smap) : res samples :=
  match sm_find (Orig l) m with
  | Some s => Ok s
  | None => if lab_in l demixable then match sm_find (Dem l) m with Some s => Ok s | None => Err InvalidArgument end else Err NotFound
  end.
(* MODELS sample_processing_utils.h:62-70 GetCommonNumTicks *)
Definition common_ticks (l : list samples) : res nat :=
  match l with
  | [] => Ok O
  | x :: t => if forallb (fun s => Nat.eqb (length s) (length x)) t then Ok (length x) else Err InvalidArgument
  end.
(* MODELS sample_processing_utils.cc:139-157 CheckPresenceAndGetCommonNumTicks, which returns the samples of the labels too *)
Fixpoint get_all (l : list label) (m : smap) : res (list samples) :=
  match l with
  | [] => Ok []
  | a :: t => match sm_find (Orig a) m with None => Err InvalidArgument | Some s => rbind (get_all t m) (fun r => Ok (s :: r)) end
  end.
Definition take (l : list label) (m : smap) : res (list samples) :=
  rbind (get_all l m) (fun r => rbind (common_ticks r) (fun _ => Ok r)).
(* the lookups at the start of a demixer *)
Fixpoint find_all (l : list label) (m : smap) : res (list samples) :=
  match l with
  | [] => Ok []
  | a :: t => rbind (find_samples a m) (fun s => rbind (find_all t m) (fun r => Ok (s :: r)))
  end.
Definition seek (l : list label) (m : smap) : res (list samples) :=
  rbind (find_all l m) (fun r => rbind (common_ticks r) (fun _ => Ok r)).
(* for (i = 0; i < num_ticks; i++) z[i] = f(x[i], y[i]): the lists have num_ticks elements *)
Definition zip2 (f : T -> T -> T) (x y : samples) : samples := map (fun p => f (fst p) (snd p)) (combine x y).
Definition zip3 (f : T -> T -> T -> T) (x y z : samples) : samples :=
  map (fun p => f (fst p) (fst (snd p)) (snd (snd p))) (combine x (combine y z)).
Notation "x + y" := (a_add A x y). Notation "x - y" := (a_sub A x y). Notation "x * y" := (a_mul A x y).
Notation "x / y" := (a_div A x y).

(* MODELS downmixer.cc:29-198: S7ToS5DownMixer, S5ToS3DownMixer, S3ToS2DownMixer, S2ToS1DownMixer, T4ToT2DownMixer,
   T2ToTf2DownMixer *)
Definition run_downmixer (p : dparams) (k : downmixer) (m : smap) : res smap :=
  match k with
  | S7toS5 => rbind (take [L7; R7; Lss7; Lrs7; Rss7; Rrs7] m) (fun r =>
      match r with
      | [l7; r7; lss7; lrs7; rss7; rrs7] =>
          Ok (sm_set (Orig Rs5) (zip2 (fun a b => d_alpha p * a + d_beta p * b) rss7 rrs7)
             (sm_set (Orig Ls5) (zip2 (fun a b => d_alpha p * a + d_beta p * b) lss7 lrs7)
             (sm_set (Orig R5) r7 (sm_set (Orig L5) l7 m))))
      | _ => UB end)
  | S5toS3 => rbind (take [L5; R5; Ls5; Rs5] m) (fun r =>
      match r with
      | [l5; r5; ls5; rs5] =>
          Ok (sm_set (Orig R3) (zip2 (fun a b => a + d_delta p * b) r5 rs5)
             (sm_set (Orig L3) (zip2 (fun a b => a + d_delta p * b) l5 ls5) m))
      | _ => UB end)
  | S3toS2 => rbind (take [L3; R3; Centre] m) (fun r =>
      match r with
      | [l3; r3; c] =>
          Ok (sm_set (Orig R2) (zip2 (fun a b => a + a_lit A 707 1000 * b) r3 c)
             (sm_set (Orig L2) (zip2 (fun a b => a + a_lit A 707 1000 * b) l3 c) m))
      | _ => UB end)
  | S2toS1 => rbind (take [L2; R2] m) (fun r =>
      match r with
      | [l2; r2] => Ok (sm_set (Orig Mono) (zip2 (fun a b => a_lit A 5 10 * (a + b)) l2 r2) m)
      | _ => UB end)
  | T4toT2 => rbind (take [Ltf4; Rtf4; Ltb4; Rtb4] m) (fun r =>
      match r with
      | [ltf4; rtf4; ltb4; rtb4] =>
          Ok (sm_set (Orig Rtf2) (zip2 (fun a b => a + d_gamma p * b) rtf4 rtb4)
             (sm_set (Orig Ltf2) (zip2 (fun a b => a + d_gamma p * b) ltf4 ltb4) m))
      | _ => UB end)
  | T2toTF2 => rbind (take [Ltf2; Ls5; Rtf2; Rs5] m) (fun r =>
      match r with
      | [ltf2; ls5; rtf2; rs5] =>
          Ok (sm_set (Orig Rtf3) (zip2 (fun a b => a + d_w p * d_delta p * b) rtf2 rs5)
             (sm_set (Orig Ltf3) (zip2 (fun a b => a + d_w p * d_delta p * b) ltf2 ls5) m))
      | _ => UB end)
  end.
Fixpoint run_downmixers (p : dparams) (l : list downmixer) (m : smap) : res smap :=
  match l with [] => Ok m | k :: t => rbind (run_downmixer p k m) (run_downmixers p t) end.

(* MODELS demixer.cc:34-271: S5ToS7Demixer, S3ToS5Demixer, S2ToS3Demixer, S1ToS2Demixer, T2ToT4Demixer, Tf2ToT2Demixer *)
Definition run_demixer (p : dparams) (k : demixer) (m : smap) : res smap :=
  match k with
  | S5toS7 => if a_small A (d_beta p) then Err InvalidArgument else
      rbind (seek [L5; Ls5; Lss7; R5; Rs5; Rss7] m) (fun r =>
      match r with
      | [l5; ls5; lss7; r5; rs5; rss7] =>
          Ok (sm_set (Dem Rrs7) (zip2 (fun a b => (a - d_alpha p * b) / d_beta p) rs5 rss7)
             (sm_set (Dem Lrs7) (zip2 (fun a b => (a - d_alpha p * b) / d_beta p) ls5 lss7)
             (sm_set (Dem R7) r5 (sm_set (Dem L7) l5 m))))
      | _ => UB end)
  | S3toS5 => if a_small A (d_delta p) then Err InvalidArgument else
      rbind (seek [L3; L5; R3; R5] m) (fun r =>
      match r with
      | [l3; l5; r3; r5] =>
          Ok (sm_set (Dem Rs5) (zip2 (fun a b => (a - b) / d_delta p) r3 r5)
             (sm_set (Dem Ls5) (zip2 (fun a b => (a - b) / d_delta p) l3 l5) m))
      | _ => UB end)
  | S2toS3 =>
      rbind (seek [L2; R2; Centre] m) (fun r =>
      match r with
      | [l2; r2; c] =>
          Ok (sm_set (Dem R3) (zip2 (fun a b => a - a_lit A 707 1000 * b) r2 c)
             (sm_set (Dem L3) (zip2 (fun a b => a - a_lit A 707 1000 * b) l2 c) m))
      | _ => UB end)
  | S1toS2 =>
      rbind (seek [L2; Mono] m) (fun r =>
      match r with
      | [l2; mono] => Ok (sm_set (Dem R2) (zip2 (fun a b => a_lit A 2 1 * a - b) mono l2) m)
      | _ => UB end)
  | T2toT4 => if a_small A (d_gamma p) then Err InvalidArgument else
      rbind (seek [Ltf2; Ltf4; Rtf2; Rtf4] m) (fun r =>
      match r with
      | [ltf2; ltf4; rtf2; rtf4] =>
          Ok (sm_set (Dem Rtb4) (zip2 (fun a b => (a - b) / d_gamma p) rtf2 rtf4)
             (sm_set (Dem Ltb4) (zip2 (fun a b => (a - b) / d_gamma p) ltf2 ltf4) m))
      | _ => UB end)
  | TF2toT2 =>
      rbind (seek [Ltf3; L3; L5; Rtf3; R3; R5] m) (fun r =>
      match r with
      | [ltf3; l3; l5; rtf3; r3; r5] =>
          Ok (sm_set (Dem Rtf2) (zip3 (fun a b c => a - d_w p * (b - c)) rtf3 r3 r5)
             (sm_set (Dem Ltf2) (zip3 (fun a b c => a - d_w p * (b - c)) ltf3 l3 l5) m))
      | _ => UB end)
  end.
(* MODELS demixing_manager.cc:300-307 ApplyDemixers *)
Fixpoint run_demixers (p : dparams) (l : list demixer) (m : smap) : res smap :=
  match l with [] => Ok m | k :: t => rbind (run_demixer p k m) (run_demixers p t) end.

(* The samples of one substream: frames_in_obu and frames_to_encode of audio_frame_generator SubstreamData, by channel *)
Record subdata := mkSd { sd_raw : list samples; sd_enc : list (list Z) }.
Fixpoint rmap {X Y} (f : X -> res Y) (l : list X) : res (list Y) :=
  match l with [] => Ok [] | x :: t => rbind (f x) (fun y => rbind (rmap f t) (fun r => Ok (y :: r))) end.
(* MODELS downmixer_manager.cc:95-122: one channel of a substream; [lin g] is std::pow(10.0, g / 20.0) of the gain with the
   Q7.8 number g, [enc] is NormalizedFloatingPointToInt32 *)
Definition channel_out (lin : Z -> T) (enc : T -> res Z) (gains : list (label * Z)) (m : smap) (l : label) : res (samples * list Z) :=
  let g := match lab_find l gains with None => a_lit A 1 1 | Some g => lin g end in
  match sm_find (Orig l) m with
  | None => Err InvalidArgument
  | Some s => rbind (rmap (fun x => enc (x / g)) s) (fun e => Ok (s, e))
  end.
(* MODELS downmixer_manager.cc:67-127 DownMixSamplesToSubstreams of an element which is configured; [ids]: the keys of
   substream_id_to_substream_data, whose frames are empty before *)
Definition downmix (lin : Z -> T) (enc : T -> res Z) (ks : list downmixer) (subs : labmap) (gains : list (label * Z)) (ids : list Z)
    (p : dparams) (input : smap) : res (list (Z * subdata)) :=
  rbind (run_downmixers p ks input) (fun m =>
  rmap (fun e => if existsb (Z.eqb (fst e)) ids
                 then rbind (rmap (channel_out lin enc gains m) (snd e)) (fun r => Ok (fst e, mkSd (map fst r) (map snd r)))
                 else Err InvalidArgument) subs).

(* MODELS audio_frame_with_data.h AudioFrameWithData: what the demixing manager reads of it; [f_samples]: the encoded or the
   decoded samples (absent: none) *)
Record frame := mkFr { f_id : Z; f_start : Z; f_trim_start : Z; f_trim_end : Z; f_params : dparams; f_samples : list samples }.
(* MODELS labeled_frame.h:33-41 LabeledFrame (recon gain and layouts are not used by the demixers and renderers) *)
Record labeled := mkLf { lf_trim_end : Z; lf_trim_start : Z; lf_map : smap; lf_params : option dparams }.
Fixpoint store_channels (ls : list label) (cs : list samples) (m : smap) : smap :=
  match ls, cs with l :: ls', c :: cs' => store_channels ls' cs' (sm_set (Orig l) c m) | _, _ => m end.
(* MODELS demixing_manager.cc:231-298 StoreSamplesForAudioElementId; [exp]: expected_sample_count *)
Fixpoint store_frames (t0 : Z) (subs : labmap) (exp : option nat) (fs : list frame) (lf : labeled) : res labeled :=
  match fs with
  | [] => Ok lf
  | f :: t =>
      match m_find (f_id f) subs with
      | None => store_frames t0 subs exp t lf
      | Some ls =>
          veq t0 (f_start f) >>>
          match f_samples f with
          | [] => Err InvalidArgument
          | _ =>
              veq (zlen (f_samples f)) (zlen ls) >>>
              rbind (common_ticks (f_samples f)) (fun n =>
              (match exp with None => Ok tt | Some e => veq (Z.of_nat n) (Z.of_nat e) end) >>>
              store_frames t0 subs (match exp with None => Some n | Some e => Some e end) t
                (mkLf (f_trim_end f) (f_trim_start f) (store_channels ls (f_samples f) (lf_map lf)) (Some (f_params f))))
          end
      end
  end.
Definition store (subs : labmap) (fs : list frame) : res labeled :=
  match fs with [] => Ok (mkLf 0 0 [] None) | f :: _ => store_frames (f_start f) subs None fs (mkLf 0 0 [] None) end.
(* MODELS demixing_manager.cc:415-459: one element; None: no labeled frame is stored *)
Definition demix (ks : list demixer) (subs : labmap) (fs : list frame) : res (option labeled) :=
  rbind (store subs fs) (fun lf =>
  match lf_map lf, lf_params lf with
  | [], _ => Ok None
  | _, None => UB
  | _, Some p => rbind (run_demixers p ks (lf_map lf)) (fun m => Ok (Some (mkLf (lf_trim_end lf) (lf_trim_start lf) m (Some p))))
  end).
End WithArith.
