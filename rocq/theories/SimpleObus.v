(* Models of obu/ia_sequence_header.cc, obu/audio_frame.cc, obu/temporal_delimiter.h, obu/metadata_obu.cc,
   obu/arbitrary_obu.cc (payloads; the framing is in ObuHeader.v). *)
From Verif Require Import Base WriteBuf ReadBuf Leb ObuHeader.

(* ---- IA Sequence Header ---- *)
(* MODELS ia_sequence_header.cc:35 kIaCode = 0x69616d66 *)
Definition kIaCode := 1767992678.
(* MODELS ia_sequence_header.cc:37-50, 54-57 ValidateProfileVersion(primary): the enumerators are 0..5 and 255 *)
Definition profile_ok (p : Z) : bool := (0 <=? p) && (p <=? 5).
Record seqhdr := mkSeq { sq_primary : Z; sq_additional : Z }.
(* MODELS ia_sequence_header.cc:75-85 *)
Definition write_seqhdr (s : seqhdr) : wprog :=
  wcheck (profile_ok (sq_primary s)) InvalidArgument ++ wlit kIaCode 32 ++ wlit (sq_primary s) 8 ++ wlit (sq_additional s) 8.
(* MODELS ia_sequence_header.cc:87-102 *)
Definition read_seqhdr : rprog seqhdr :=
  c <- rlit 32 32 ;;
  rcheck (c =? kIaCode) InvalidArgument ;;;
  p <- rlit 8 8 ;;
  a <- rlit 8 8 ;;
  rcheck (profile_ok p) InvalidArgument ;;;
  RRet (mkSeq p a).

(* ---- Audio Frame ---- *)
Record aframe := mkAF { af_id : Z; af_bytes : list Z }.
(* MODELS audio_frame.cc:33-42 GetObuType, and 46-51: the constructor sets the type from the ID *)
Definition audio_frame_type (id : Z) : Z := if id >? kAudioFrameId17 - kAudioFrameId0 then kAudioFrame else kAudioFrameId0 + id.
Definition set_type (h : header) (t : Z) : header := mkH t (h_red h) (h_flag h) (h_trim_end h) (h_trim_start h) (h_ext h).
(* MODELS audio_frame.cc:60-69 *)
Definition write_aframe (g : lebgen) (h : header) (f : aframe) : wprog :=
  (if h_type h =? kAudioFrame then wuleb g (af_id f) else []) ++ wspan (af_bytes f).
(* MODELS audio_frame.cc:71-88 *)
Definition read_aframe (h : header) (payload_size : Z) : rprog aframe :=
  x <- (if h_type h =? kAudioFrame then ruleb_sz else RRet (u32 (h_type h - kAudioFrameId0), 0)) ;;
  rcheck (negb ((payload_size <? 0) || (payload_size <? snd x))) InvalidArgument ;;;
  b <- rspan (Z.to_nat (payload_size - snd x)) ;;
  RRet (mkAF (fst x) b).
(* A whole Audio Frame OBU written through its constructor. *)
Definition write_aframe_obu (g : lebgen) (h : header) (f : aframe) (footer : list Z) : wprog :=
  let h' := set_type h (audio_frame_type (af_id f)) in write_obu g h' (write_aframe g h' f) footer.

(* ---- Temporal Delimiter ---- *)
(* MODELS temporal_delimiter.h:49-50, 68-81: no payload *)
Definition write_td_obu (g : lebgen) (h : header) (footer : list Z) : wprog :=
  write_obu g (set_type h kTemporalDelimiter) [] footer.
Definition read_td (h : header) (payload_size : Z) : rprog unit := RRet tt.

(* ---- Metadata ---- *)
(* MODELS metadata_obu.h:36-56 *)
Inductive metadata :=
| MT35 (country : Z) (ext : option Z) (payload : list Z)
| MTags (tags : list (list Z * list Z))
| MOther (type : Z).   (* any other metadata_type: nothing of it is parsed, the bytes go to the footer *)
Definition metadata_type (m : metadata) : Z := match m with MT35 _ _ _ => 1 | MTags _ => 2 | MOther t => t end.
(* MODELS metadata_obu.cc:78-94 *)
Definition write_t35 (country : Z) (ext : option Z) (payload : list Z) : wprog :=
  wlit country 8 ++
  (if country =? 255 then match ext with None => [WFail InvalidArgument] | Some e => wlit e 8 end else []) ++
  wspan payload.
(* MODELS metadata_obu.cc:96-104 (tags.size() is converted to uint32_t) *)
Definition write_tags (tags : list (list Z * list Z)) : wprog :=
  wlit (u32 (zlen tags)) 8 ++ flat_map (fun t => wstring (fst t) ++ wstring (snd t)) tags.
(* MODELS metadata_obu.cc:130-140 *)
Definition write_metadata (g : lebgen) (m : metadata) : wprog :=
  wuleb g (metadata_type m) ++
  match m with MT35 c e p => write_t35 c e p | MTags t => write_tags t | MOther _ => [] end.
(* MODELS metadata_obu.cc:38-63 with 23-36 *)
Definition read_t35 (payload_size type_size : Z) : rprog metadata :=
  c <- rlit 8 8 ;;
  e <- (if c =? 255 then x <- rlit 8 8 ;; RRet (Some x) else RRet None) ;;
  let overhead := type_size + (if c =? 255 then 2 else 1) in
  rcheck (negb (payload_size <? overhead)) InvalidArgument ;;;
  b <- rspan (Z.to_nat (payload_size - overhead)) ;;
  RRet (MT35 c e b).
(* MODELS metadata_obu.cc:65-76 *)
Fixpoint read_tags_loop (k : nat) : rprog (list (list Z * list Z)) :=
  match k with
  | O => RRet []
  | S k' => n <- rstring ;; v <- rstring ;; l <- read_tags_loop k' ;; RRet ((n, v) :: l)
  end.
(* MODELS metadata_obu.cc:142-164 *)
Definition read_metadata (h : header) (payload_size : Z) : rprog metadata :=
  t <- ruleb_sz ;;
  if fst t =? 1 then rcheck (negb (payload_size <? snd t)) InvalidArgument ;;; read_t35 payload_size (snd t)
  else if fst t =? 2 then n <- rlit 8 8 ;; l <- read_tags_loop (Z.to_nat n) ;; RRet (MTags l)
  else RRet (MOther (fst t)).
Definition write_metadata_obu (g : lebgen) (h : header) (m : metadata) (footer : list Z) : wprog :=
  write_obu g (set_type h kMetadata) (write_metadata g m) footer.

(* ---- Arbitrary OBU ---- *)
(* MODELS arbitrary_obu.cc:40-49 *)
Definition write_arbitrary (payload : list Z) (invalidates : bool) : wprog :=
  wspan payload ++ wcheck (negb invalidates) InvalidArgument.
