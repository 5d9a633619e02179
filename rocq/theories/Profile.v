(* Model of cli/profile_filter.cc (ProfileFilter) and of GetSupportedMixPresentations (cli/obu_processor.cc:190-213).
   A profile is its number (0 simple, 1 base, 2 base-enhanced, 3 base-advanced, 4 advanced 1, 5 advanced 2, 255 reserved); a
   flat_hash_set<ProfileVersion> is a list.  Every filter gives its status and the set afterwards. *)
From Verif Require Import Base WriteBuf CodecConfig Params AudioElement MixPresentation Timing ParamManager AeData.

Definition profiles := list Z.
(* profile_versions.erase(p) *)
Definition erase (p : Z) (s : profiles) : profiles := filter (fun q => negb (q =? p)) s.
Definition erase_all (l : list Z) (s : profiles) : profiles := fold_left (fun s p => erase p s) l s.
(* "if (profile_versions.empty()) return InvalidArgumentError" *)
Definition unless_empty (s : profiles) : res unit * profiles := (match s with [] => Err InvalidArgument | _ => Ok tt end, s).
(* MODELS profile_filter.cc:44-49 ClearAndReturnError *)
Definition cleared : res unit * profiles := (Err InvalidArgument, []).
(* RETURN_IF_NOT_OK (and MAYBE_RETURN_IF_NOT_OK, which is the same in this configuration) *)
Definition and_then (x : res unit * profiles) (f : profiles -> res unit * profiles) : res unit * profiles :=
  match fst x with Ok _ => f (snd x) | _ => x end.

(* MODELS profile_filter.cc:51-80 FilterAudioElementType *)
Definition filter_type (ty : Z) (s : profiles) : res unit * profiles :=
  unless_empty (if (ty =? 0) || (ty =? 1) then s else if ty =? 2 then erase_all [0; 1; 2] s else erase_all [0; 1; 2; 3; 4; 5] s).
(* MODELS profile_filter.cc:85-142 FilterExpandedLoudspeakerLayout *)
Definition filter_expanded (e : option Z) (s : profiles) : res unit * profiles :=
  match e with
  | None => cleared
  | Some x => unless_empty (if (0 <=? x) && (x <=? 12) then s else if (13 <=? x) && (x <=? 19) then erase 2 s else erase_all [2; 3; 4; 5] s)
  end.
(* MODELS profile_filter.cc:144-214 FilterChannelBasedConfig: only the first layer is looked at *)
Definition filter_channel_based (c : aconf) (s : profiles) : res unit * profiles :=
  match c with
  | ACScal _ (ly :: _) =>
      and_then (if ly_layout ly =? 15 then filter_expanded (ly_exp ly) (erase_all [0; 1] s)
                else if (10 <=? ly_layout ly) && (ly_layout ly <=? 14) then (Ok tt, erase_all [0; 1; 2; 3; 4; 5] s) else (Ok tt, s))
               unless_empty
  | _ => cleared
  end.
(* MODELS profile_filter.cc:216-253 FilterAmbisonicsConfig: the two modes of an ambisonics config are supported *)
Definition filter_ambisonics (c : aconf) (s : profiles) : res unit * profiles :=
  match c with ACAmbi _ => unless_empty s | _ => cleared end.
(* MODELS profile_filter.cc:559-589 FilterProfilesForAudioElement *)
Definition filter_element (a : aelem) (s : profiles) : res unit * profiles :=
  and_then (filter_type (ae_type a) s) (fun s =>
  if ae_type a =? 0 then filter_channel_based (ae_conf a) s
  else if ae_type a =? 1 then filter_ambisonics (ae_conf a) s
  else (Ok tt, s)).

(* MODELS profile_filter.cc:255-283 FilterProfileForNumSubmixes; the argument is an int *)
Definition filter_num_submixes (n : Z) (s : profiles) : res unit * profiles :=
  let s := if n >? 1 then erase_all [0; 1; 2] s else s in
  if n >? 2 then cleared else unless_empty s.
(* MODELS profile_filter.cc:285-325 FilterProfileForHeadphonesRenderingMode; the loop over all audio elements of all sub-mixes *)
Fixpoint filter_headphones (modes : list Z) (s : profiles) : res unit * profiles :=
  match modes with
  | [] => (Ok tt, s)
  | m :: t => and_then (unless_empty (if m =? 2 then erase_all [0; 1; 2] s else if m =? 3 then erase_all [0; 1; 2; 3; 4; 5] s else s))
                       (filter_headphones t)
  end.
Definition modes_of (m : mixp) : list Z := flat_map (fun x => map (fun e => rc_mode (sa_conf e)) (sm_elems x)) (mp_subs m).

(* Audio elements by ID; the order of the list is the iteration order.  codec_config is held by its value, never null
   (obu_with_data_generator.cc:604-642 sets it). *)
Definition aemap := list (Z * aed).
Definition codec_of (a : aed) : codec_config := fst (ad_codec a).
Definition rate_of (a : aed) : Z := fst (fst (snd (ad_codec a))).
(* MODELS profile_filter.cc:345-349 CodecConfigInfo by codec config ID *)
Definition infos := list (Z * (Z * Z)).
(* MODELS profile_filter.cc:354-374: the audio elements of one sub-mix; None = an ID is not found *)
Fixpoint gather (aes : aemap) (l : list subelem) (m : infos) (lpcm : bool) : option (infos * bool) :=
  match l with
  | [] => Some (m, lpcm)
  | e :: t =>
      match m_find (sa_id e) aes with
      | None => None
      | Some a => gather aes t (m_insert (cc_id (codec_of a)) (cc_frame (codec_of a), rate_of a) m) (lpcm || (cc_codec (codec_of a) =? kIdLpcm))
      end
  end.
(* MODELS profile_filter.cc:352-388: the loop over the sub-mixes; None = ClearAndReturnError *)
Fixpoint gather_all (aes : aemap) (first : bool) (l : list submix) (m : infos) (lpcm : bool) : option (infos * bool) :=
  match l with
  | [] => Some (m, lpcm)
  | x :: t =>
      match gather aes (sm_elems x) m lpcm with
      | None => None
      | Some (m1, l1) => if first && (zlen m1 >? 1) then None else gather_all aes false t m1 l1
      end
  end.
(* MODELS profile_filter.cc:340-448 FilterProfilesForCodecConfigRules *)
Definition filter_codecs (aes : aemap) (m : mixp) (s : profiles) : res unit * profiles :=
  match gather_all aes true (mp_subs m) [] false with
  | None => cleared
  | Some (i, lpcm) =>
      let s := fold_left (fun s x => if zlen i >? snd x then erase (fst x) s else s) [(0, 1); (1, 1); (2, 1); (3, 2); (4, 2); (5, 2)] s in
      if (zlen i >? 1) && negb lpcm then cleared
      else match i with
           | [] => cleared
           | (_, c) :: _ => if forallb (fun x => (fst (snd x) =? fst c) && (snd c =? snd (snd x))) i then (Ok tt, s) else cleared
           end
  end.

(* MODELS profile_filter.cc:450-457 GetNumberOfChannels: int arithmetic *)
Definition channels_of (a : aed) : Z := fold_left (fun n x => s32 (n + zlen (snd x))) (ad_labels a) 0.
(* MODELS profile_filter.cc:471-488: the audio elements of one sub-mix: status, set, number of channels *)
Fixpoint filter_elements (aes : aemap) (l : list subelem) (s : profiles) (channels : Z) : res unit * profiles * Z :=
  match l with
  | [] => (Ok tt, s, channels)
  | e :: t =>
      match m_find (sa_id e) aes with
      | None => (cleared, channels)
      | Some a =>
          let r := filter_element (ad_obu a) s in
          match fst r with
          | Ok _ => filter_elements aes t (snd r) (s32 (channels + channels_of a))
          | _ => (r, channels)
          end
      end
  end.
(* MODELS profile_filter.cc:459-491 FilterAudioElementsAndGetNumberOfAudioElementsAndChannels: also the number of elements *)
Fixpoint filter_submixes (aes : aemap) (l : list submix) (s : profiles) (elements channels : Z) : res unit * profiles * Z * Z :=
  match l with
  | [] => (Ok tt, s, elements, channels)
  | x :: t =>
      let n := s32 (elements + zlen (sm_elems x)) in
      let '(r, s1, c) := filter_elements aes (sm_elems x) s channels in
      match r with Ok _ => filter_submixes aes t s1 n c | _ => (r, s1, n, c) end
  end.
(* MODELS profile_filter.cc:493-524, 526-555: erase the profiles whose limit is exceeded *)
Definition filter_limit (limits : list (Z * Z)) (n : Z) (s : profiles) : res unit * profiles :=
  unless_empty (fold_left (fun s x => if n >? snd x then erase (fst x) s else s) limits s).
Definition max_elements : list (Z * Z) := [(0, 1); (1, 2); (2, 28); (3, 18); (4, 18); (5, 28)].
Definition max_channels : list (Z * Z) := [(0, 16); (1, 18); (2, 28); (3, 18); (4, 18); (5, 28)].
(* MODELS profile_filter.cc:591-626 FilterProfilesForMixPresentation *)
Definition filter_mix (aes : aemap) (m : mixp) (s : profiles) : res unit * profiles :=
  and_then (filter_num_submixes (s32 (u32 (zlen (mp_subs m)))) s) (fun s =>
  and_then (filter_headphones (modes_of m) s) (fun s =>
  and_then (filter_codecs aes m s) (fun s =>
  let '(r, s1, elements, channels) := filter_submixes aes (mp_subs m) s 0 0 in
  and_then (r, s1) (fun s =>
  and_then (filter_limit max_elements elements s) (fun s => filter_limit max_channels channels s))))).

(* MODELS obu_processor.cc:190-213 GetSupportedMixPresentations: a pointer to a mix presentation is its index in the list *)
Definition supported_mixes (requested : profiles) (aes : aemap) (ms : list mixp) : list nat :=
  map fst (filter (fun x => match fst (filter_mix aes (snd x) requested) with Ok _ => true | _ => false end) (combine (seq 0 (length ms)) ms)).
