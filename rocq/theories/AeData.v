(* Model of ObuWithDataGenerator::GenerateAudioElementWithData (cli/obu_with_data_generator.cc): the channel labels of each
   substream, the output gains and the channel numbers of an audio element.
   Hash maps are association lists in insertion order. *)
From Verif Require Import Base WriteBuf CodecConfig Params AudioElement Timing ParamManager.

(* MODELS channel_label.h:37-140 ChannelLabel::Label: those which this file uses; LA n is kA<n> *)
Inductive label :=
| Mono | L2 | R2 | Centre | LFE | L3 | R3 | Ltf3 | Rtf3 | L5 | R5 | Ls5 | Rs5 | Ltf2 | Rtf2 | Ltf4 | Rtf4 | Ltb4 | Rtb4
| L7 | R7 | Lss7 | Rss7 | Lrs7 | Rrs7
| FLc | FC | FRc | FL | FR | SiL | SiR | BL | BR | TpFL | TpFR | TpSiL | TpSiR | TpBL | TpBR
| BC | LFE2 | TpFC | TpC | TpBC | BtFC | BtFL | BtFR | BtBL | BtBR | LA (n : Z).
Definition label_eq_dec (a b : label) : {a = b} + {a <> b}.
Proof. decide equality. apply Z.eq_dec. Defined.
(* MODELS recon_gain_param_definition.h:27-38 ChannelNumbers *)
Record chans := mkCh { c_surround : Z; c_lfe : Z; c_height : Z; c_bottom : Z }.

(* MODELS obu_with_data_generator.cc:60-102 LoudspeakerLayoutToChannels *)
Definition layout_channels (l : Z) : res chans :=
  if l =? 0 then Ok (mkCh 1 0 0 0) else if l =? 1 then Ok (mkCh 2 0 0 0) else if l =? 2 then Ok (mkCh 5 1 0 0)
  else if l =? 3 then Ok (mkCh 5 1 2 0) else if l =? 4 then Ok (mkCh 5 1 4 0) else if l =? 5 then Ok (mkCh 7 1 0 0)
  else if l =? 6 then Ok (mkCh 7 1 2 0) else if l =? 7 then Ok (mkCh 7 1 4 0) else if l =? 8 then Ok (mkCh 3 1 2 0)
  else if l =? 9 then Ok (mkCh 2 0 0 0) else Err InvalidArgument.

(* The labels of a layer: (coupled substreams, non-coupled substreams) *)
Definition labels2 := (list label * list label)%type.
(* MODELS obu_with_data_generator.cc:105-183 CollectBaseChannelGroupLabels *)
Definition base_labels (c : chans) : res labels2 :=
  rbind (if c_surround c =? 1 then Ok ([], [Mono]) else if c_surround c =? 2 then Ok ([L2; R2], [])
         else if c_surround c =? 3 then Ok ([L3; R3], [Centre]) else if c_surround c =? 5 then Ok ([L5; R5; Ls5; Rs5], [Centre])
         else if c_surround c =? 7 then Ok ([L7; R7; Lss7; Rss7; Lrs7; Rrs7], [Centre]) else Err InvalidArgument) (fun s =>
  rbind (if c_height c =? 0 then Ok [] else if c_height c =? 2 then Ok (if c_surround c =? 3 then [Ltf3; Rtf3] else [Ltf2; Rtf2])
         else if c_height c =? 4 then Ok [Ltf4; Rtf4; Ltb4; Rtb4] else Err InvalidArgument) (fun h =>
  rbind (if c_lfe c =? 0 then Ok [] else if c_lfe c =? 1 then Ok [LFE] else Err InvalidArgument) (fun l =>
  Ok (fst s ++ h, snd s ++ l)))).
(* MODELS obu_with_data_generator.cc:185-310 CollectChannelLayersAndLabelsForExpandedLoudspeakerLayout (layer index checked by
   the caller below) *)
Definition expanded_labels (e : Z) : res (chans * labels2) :=
  if e =? 0 then Ok (mkCh 0 1 0 0, ([], [LFE]))
  else if e =? 1 then Ok (mkCh 2 0 0 0, ([Ls5; Rs5], []))
  else if e =? 2 then Ok (mkCh 2 0 0 0, ([Lss7; Rss7], []))
  else if e =? 3 then Ok (mkCh 2 0 0 0, ([Lrs7; Rrs7], []))
  else if e =? 4 then Ok (mkCh 0 0 2 0, ([Ltf4; Rtf4], []))
  else if e =? 5 then Ok (mkCh 0 0 2 0, ([Ltb4; Rtb4], []))
  else if e =? 6 then Ok (mkCh 0 0 4 0, ([Ltf4; Rtf4; Ltb4; Rtb4], []))
  else if e =? 7 then Ok (mkCh 3 0 0 0, ([L7; R7], [Centre]))
  else if e =? 8 then Ok (mkCh 9 1 6 0, ([FLc; FRc; FL; FR; SiL; SiR; BL; BR; TpFL; TpFR; TpSiL; TpSiR; TpBL; TpBR], [FC; LFE]))
  else if e =? 9 then Ok (mkCh 2 0 0 0, ([FL; FR], []))
  else if e =? 10 then Ok (mkCh 2 0 0 0, ([SiL; SiR], []))
  else if e =? 11 then Ok (mkCh 0 0 2 0, ([TpSiL; TpSiR], []))
  else if e =? 12 then Ok (mkCh 0 0 6 0, ([TpFL; TpFR; TpSiL; TpSiR; TpBL; TpBR], []))
  else if e =? 13 then Ok (mkCh 10 2 9 3, ([FLc; FRc; FL; FR; SiL; SiR; BL; BR; TpFL; TpFR; TpSiL; TpSiR; TpBL; TpBR; BtFL; BtFR],
                                           [FC; BC; TpFC; TpC; TpBC; BtFC; LFE; LFE2]))
  else if e =? 14 then Ok (mkCh 0 2 0 0, ([], [LFE; LFE2]))
  else if e =? 15 then Ok (mkCh 0 0 0 3, ([BtFL; BtFR], [BtFC]))
  else if e =? 16 then Ok (mkCh 7 1 5 4, ([L7; R7; Lss7; Rss7; Lrs7; Rrs7; Ltf4; Rtf4; Ltb4; Rtb4; BtFL; BtFR; BtBL; BtBR],
                                          [Centre; TpC; LFE]))
  else if e =? 17 then Ok (mkCh 0 0 0 4, ([BtFL; BtFR; BtBL; BtBR], []))
  else if e =? 18 then Ok (mkCh 0 0 1 0, ([], [TpC]))
  else if e =? 19 then Ok (mkCh 0 0 5 0, ([Ltf4; Rtf4; Ltb4; Rtb4], [TpC]))
  else if (e =? 20) || (e =? 255) then Ok (mkCh 0 0 0 0, ([], []))
  else Err InvalidArgument.
(* MODELS obu_with_data_generator.cc:318-347: the loop over surround = [s], s+1, ..., s+k-1.
   Result: coupled, non-coupled, push_l2_in_the_end *)
Fixpoint surround_labels (k : nat) (s : Z) : res (list label * list label * bool) :=
  match k with
  | O => Ok ([], [], false)
  | S k' =>
      rbind (if s =? 2 then Ok ([], [], true) else if s =? 3 then Ok ([], [Centre], false)
             else if s =? 5 then Ok ([L5; R5], [], false) else if s =? 7 then Ok ([Lss7; Rss7], [], false)
             else if s >? 7 then Err InvalidArgument else Ok ([], [], false)) (fun x =>
      rbind (surround_labels k' (s + 1)) (fun y =>
      Ok (fst (fst x) ++ fst (fst y), snd (fst x) ++ snd (fst y), snd x || snd y)))
  end.
(* MODELS obu_with_data_generator.cc:312-393 CollectDemixedChannelGroupLabels *)
Definition demixed_labels (acc c : chans) : res labels2 :=
  rbind (surround_labels (Z.to_nat (c_surround c - c_surround acc)) (c_surround acc + 1)) (fun s =>
  rbind (if c_height c >? c_height acc then
           if c_height acc =? 0 then
             if c_height c =? 4 then Ok [Ltf4; Rtf4; Ltb4; Rtb4]
             else if c_height c =? 2 then Ok (if c_surround c =? 3 then [Ltf3; Rtf3] else [Ltf2; Rtf2])
             else Err InvalidArgument
           else if c_height acc =? 2 then Ok [Ltf4; Rtf4] else Err InvalidArgument
         else Ok []) (fun h =>
  rbind (if c_lfe c >? c_lfe acc then if c_lfe c =? 1 then Ok [LFE] else Err InvalidArgument else Ok []) (fun l =>
  Ok (fst (fst s) ++ h, snd (fst s) ++ l ++ (if snd s then [L2] else []))))).
(* MODELS obu_with_data_generator.cc:565-600 CollectChannelLayersAndLabelsForLoudspeakerLayout, and 726-739: the layer at index
   [i] (i = 0: [first]) *)
Definition layer_labels (first : bool) (acc : chans) (ly : layer) : res (chans * labels2) :=
  if ly_layout ly =? kExpanded then
    if negb first then Err InvalidArgument
    else match ly_exp ly with None => Err InvalidArgument | Some e => expanded_labels e end
  else
    rbind (layout_channels (ly_layout ly)) (fun c =>
    if (c_surround c <? c_surround acc) || (c_lfe c <? c_lfe acc) || (c_height c <? c_height acc) then Err InvalidArgument
    else rbind (if first then base_labels c else demixed_labels acc c) (fun l => Ok (c, l))).

(* operator[]().push_back: append labels to the entry of a substream *)
Definition labmap := list (Z * list label).
Definition m_app (k : Z) (l : list label) (m : labmap) : labmap :=
  match m_find k m with Some x => m_set k (x ++ l) m | None => m ++ [(k, l)] end.
(* MODELS obu_with_data_generator.cc:412-426: two labels for each coupled substream *)
Fixpoint add_coupled (l : list label) (ids : list Z) (m : labmap) : res (list Z * labmap) :=
  match l with
  | [] => Ok (ids, m)
  | a :: b :: t => match ids with [] => Ok (ids, m) | i :: ids' => add_coupled t ids' (m_app i [a; b] m) end
  | [_] => Abort
  end.
(* MODELS obu_with_data_generator.cc:428-435: one label for each other substream; past the end of the vector is undefined *)
Fixpoint add_single (l : list label) (ids : list Z) (m : labmap) : res (list Z * labmap) :=
  match l with
  | [] => Ok (ids, m)
  | a :: t => match ids with [] => UB | i :: ids' => add_single t ids' (m_app i [a] m) end
  end.
(* MODELS obu_with_data_generator.cc:395-436 AddSubstreamLabels; [ids]: the substream IDs from substream_index on *)
Definition add_labels (l : labels2) (ids : list Z) (m : labmap) : res (list Z * labmap) :=
  if negb (zlen (fst l) mod 2 =? 0) then Abort
  else if zlen (fst l) / 2 + zlen (snd l) >? zlen ids then Err OutOfRange
  else rbind (add_coupled (fst l) ids m) (fun x => add_single (snd l) (fst x) (snd x)).
(* MODELS obu_with_data_generator.cc:438-473 ValidateSubstreamCounts *)
Definition validate_counts (l : labels2) (ly : layer) : res unit :=
  veq (ly_coupled ly) (u32 (zlen (fst l)) / 2) >>> veq (ly_subs ly) (u32 (u32 (zlen (snd l)) + u32 (zlen (fst l)) / 2)).
(* MODELS obu_with_data_generator.cc:475-498 OutputGainApplies *)
Definition gain_applies (flag : Z) (l : label) : bool :=
  match l with
  | Mono | L2 | L3 => Z.testbit flag 5 | R2 | R3 => Z.testbit flag 4 | Ls5 => Z.testbit flag 3 | Rs5 => Z.testbit flag 2
  | Ltf2 | Ltf3 => Z.testbit flag 1 | Rtf2 | Rtf3 => Z.testbit flag 0 | _ => false
  end.
(* label_to_output_gain[label] = ..., as the Q7.8 number (the conversion to float is C45) *)
Fixpoint lab_find (k : label) (m : list (label * Z)) : option Z :=
  match m with [] => None | (i, v) :: t => if label_eq_dec i k then Some v else lab_find k t end.
Definition lab_put (k : label) (v : Z) (m : list (label * Z)) : list (label * Z) :=
  match lab_find k m with
  | Some _ => map (fun p => if label_eq_dec (fst p) k then (k, v) else p) m
  | None => m ++ [(k, v)]
  end.
(* MODELS obu_with_data_generator.cc:750-768: the gains of the substreams added in this layer ([new]: their IDs) *)
Definition layer_gains (ly : layer) (new : list Z) (m : labmap) (g : list (label * Z)) : list (label * Z) :=
  if ly_og ly then
    fold_left (fun g l => if gain_applies (ly_ogf ly) l then lab_put l (ly_gain ly) g else g)
              (flat_map (fun i => match m_find i m with Some l => l | None => [] end) new) g
  else g.
(* MODELS obu_with_data_generator.cc:719-769: the loop over the layers *)
Fixpoint layers_data (first : bool) (acc : chans) (ids : list Z) (l : list layer) (m : labmap) (g : list (label * Z)) (cs : list chans)
  : res (labmap * list (label * Z) * list chans) :=
  match l with
  | [] => Ok (m, g, cs)
  | ly :: t =>
      rbind (layer_labels first acc ly) (fun x =>
      rbind (add_labels (snd x) ids m) (fun y =>
      validate_counts (snd x) ly >>>
      let new := firstn (length ids - length (fst y)) ids in
      layers_data false (fst x) (fst y) t (snd y) (layer_gains ly new (snd y) g) (cs ++ [fst x])))
  end.
(* MODELS obu_with_data_generator.cc:705-776 FinalizeScalableChannelLayoutConfig (GetNumLayers is size() as uint8_t: at most 6) *)
Definition finalize_scalable (ids : list Z) (l : list layer) : res (labmap * list (label * Z) * list chans) :=
  vunique ids >>>
  rbind (layers_data true (mkCh 0 0 0 0) ids (firstn (Z.to_nat (num_layers l)) l) [] [] []) (fun x =>
  veq (zlen ids) (zlen (fst (fst x))) >>> Ok x).
(* MODELS channel_label.cc:201-216 AmbisonicsChannelNumberToLabel *)
Definition ambi_label (n : Z) : res label := if (0 <=? n) && (n <=? 24) then Ok (LA n) else Err NotFound.
(* MODELS obu_with_data_generator.cc:500-529 FinalizeAmbisonicsMonoConfig: from channel number [acn] on *)
Fixpoint mono_labels (ids mapping : list Z) (acn : Z) (m : labmap) : res labmap :=
  match mapping with
  | [] => Ok m
  | i :: t =>
      if i =? 255 then mono_labels ids t (acn + 1) m
      else match nth_error ids (Z.to_nat i) with
           | None => UB
           | Some s => rbind (ambi_label acn) (fun l => mono_labels ids t (acn + 1) (m_app s [l] m))
           end
  end.
(* MODELS obu_with_data_generator.cc:531-563 FinalizeAmbisonicsProjectionConfig: the substreams from index [i] on *)
Fixpoint proj_labels (coupled : Z) (ids : list Z) (i : Z) (m : labmap) : res labmap :=
  match ids with
  | [] => Ok m
  | s :: t =>
      if i <? coupled
      then rbind (ambi_label (2 * i)) (fun a => rbind (ambi_label (2 * i + 1)) (fun b => proj_labels coupled t (i + 1) (m_app s [a; b] m)))
      else rbind (ambi_label (coupled + i)) (fun a => proj_labels coupled t (i + 1) (m_app s [a] m))
  end.
(* MODELS obu_with_data_generator.cc:780-808 FinalizeAmbisonicsConfig *)
Definition finalize_ambi (ids : list Z) (a : ambi) : res labmap :=
  match a with
  | AMono _ mapping => mono_labels ids mapping 0 []
  | AProj _ s c _ => veq (u32 (zlen ids)) s >>> proj_labels c ids 0 []
  end.

(* MODELS audio_element_with_data.h:31-39 AudioElementWithData; the codec config is held by its value *)
Record aed := mkAed { ad_obu : aelem; ad_codec : codec_config * (Z * Z * Z); ad_labels : labmap; ad_gains : list (label * Z); ad_chans : list chans }.
(* MODELS obu_with_data_generator.cc:604-642 GenerateAudioElementWithData.  Object-based and extension elements get no labels.
   std::get on the wrong alternative (line 790) throws: Abort. *)
Definition generate_ae (codecs : list (Z * (codec_config * (Z * Z * Z)))) (a : aelem) : res aed :=
  rbind (if ae_type a =? 0 then
           match ae_conf a with ACScal _ l => finalize_scalable (ae_subs a) l | _ => Err InvalidArgument end
         else if ae_type a =? 1 then
           match ae_conf a with ACAmbi c => rbind (finalize_ambi (ae_subs a) c) (fun m => Ok (m, [], [])) | _ => Abort end
         else Ok ([], [], [])) (fun x =>
  match m_find (ae_codec a) codecs with
  | None => Err InvalidArgument
  | Some c => Ok (mkAed a c (fst (fst x)) (snd (fst x)) (snd x))
  end).
