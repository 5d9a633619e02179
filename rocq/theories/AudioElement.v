(* Model of obu/audio_element.cc and obu/ambisonics_config.cc.
   std::get<T>(config_) on the wrong alternative throws; it is modelled as Err Internal. *)
From Verif Require Import Base WriteBuf ReadBuf Leb ObuHeader SeqFacts SimpleObus CodecConfig Params.

(* MODELS common/utils/validation_utils.h:139-152 ValidateUnique *)
Fixpoint unique (l : list Z) : bool :=
  match l with [] => true | x :: t => negb (existsb (Z.eqb x) t) && unique t end.
Definition vunique (l : list Z) : res unit := vcond (unique l).

(* ---- scalable channel layouts ---- *)
(* MODELS audio_element.h:73-159 ChannelAudioLayerConfig *)
Record layer := mkLy { ly_layout : Z; ly_og : bool; ly_rg : bool; ly_resa : Z; ly_subs : Z; ly_coupled : Z;
                       ly_ogf : Z; ly_resb : Z; ly_gain : Z; ly_exp : option Z }.
Definition kBinaural := 9. Definition kExpanded := 15.
(* MODELS audio_element.cc:281-302 *)
Definition write_layer (l : layer) : wprog :=
  wlit (ly_layout l) 4 ++ wbool (ly_og l) ++ wbool (ly_rg l) ++ wlit (ly_resa l) 2 ++ wlit (ly_subs l) 8 ++ wlit (ly_coupled l) 8 ++
  (if ly_og l then wlit (ly_ogf l) 6 ++ wlit (ly_resb l) 2 ++ wsigned16 (ly_gain l) else []) ++
  (if ly_layout l =? kExpanded then match ly_exp l with Some e => wlit e 8 | None => [WFail InvalidArgument] end else []).
(* MODELS audio_element.cc:304-331, into a default-constructed object (as the caller does) *)
Definition read_layer : rprog layer :=
  lay <- rlit 4 8 ;; og <- rbool ;; rg <- rbool ;; ra <- rlit 2 8 ;; s <- rlit 8 8 ;; c <- rlit 8 8 ;;
  g <- (if og then f <- rlit 6 8 ;; b <- rlit 2 8 ;; x <- rsigned16 ;; RRet (f, b, x) else RRet (0, 0, 0)) ;;
  e <- (if lay =? kExpanded then x <- rlit 8 8 ;; RRet (Some x) else RRet None) ;;
  RRet (mkLy lay og rg ra s c (fst (fst g)) (snd (fst g)) (snd g) e).
(* MODELS audio_element.h GetNumLayers: size() converted to uint8_t *)
Definition num_layers (l : list layer) : Z := u8 (zlen l).
(* MODELS audio_element.cc:333-366 Validate; the sum is in uint32_t *)
Definition layers_validate (num_substreams : Z) (l : list layer) : res unit :=
  vcond (negb ((num_layers l =? 0) || (num_layers l >? 6))) >>>
  vcond (fold_left (fun a x => u32 (a + ly_subs x)) l 0 =? num_substreams) >>>
  vcond (negb (existsb (fun x => ly_layout x =? kBinaural) l && negb (num_layers l =? 1))).
(* MODELS audio_element.cc:144-159 *)
Definition write_scalable (num_substreams reserved : Z) (l : list layer) : wprog :=
  wres (layers_validate num_substreams l) ++ wlit (num_layers l) 3 ++ wlit reserved 5 ++ flat_map write_layer l.
(* MODELS audio_element.cc:162-180 *)
Definition read_scalable (num_substreams : Z) : rprog (Z * list layer) :=
  n <- rlit 3 8 ;; r <- rlit 5 8 ;; l <- rlist (Z.to_nat n) read_layer ;;
  rres (layers_validate num_substreams l) ;;; RRet (r, l).

(* ---- ambisonics ---- *)
Inductive ambi := AMono (substreams : Z) (mapping : list Z) | AProj (out substreams coupled : Z) (matrix : list Z).
(* MODELS ambisonics_config.cc:235-242 *)
Definition ambi_counts : list Z := map (fun i => (Z.of_nat i + 1) * (Z.of_nat i + 1)) (seq 0 15).
(* MODELS ambisonics_config.cc:232-257 GetNextValidOutputChannelCount: the first entry that is not less *)
Definition next_valid_count (c : Z) : res Z :=
  match find (fun x => negb (x <? c)) ambi_counts with Some x => Ok x | None => Err InvalidArgument end.
(* MODELS ambisonics_config.cc:63-74; the argument is a uint8_t *)
Definition validate_out_count (c : Z) : res unit := rbind (next_valid_count (u8 c)) (fun n => veq n (u8 c)).
Fixpoint distinct (l : list Z) : list Z :=
  match l with [] => [] | x :: t => if existsb (Z.eqb x) t then distinct t else x :: distinct t end.
(* MODELS ambisonics_config.cc:108-144 AmbisonicsMonoConfig::Create (255 = kInactiveAmbisonicsChannelNumber) *)
Definition mono_create (substreams : Z) (mapping : list Z) : res ambi :=
  validate_out_count (zlen mapping) >>> vrange substreams 1 (zlen mapping) >>>
  vcond (forallb (fun i => (i =? 255) || (i <? substreams)) mapping) >>>
  veq (zlen (distinct (filter (fun i => negb (i =? 255)) mapping))) substreams >>> Ok (AMono substreams mapping).
(* MODELS ambisonics_config.cc:166-179 (and 199-209) *)
Definition proj_check (out substreams coupled : Z) : res unit :=
  validate_out_count out >>> vcond (negb (coupled >? substreams)) >>> vrange (substreams + coupled) 1 out.
(* MODELS ambisonics_config.cc:162-188 AmbisonicsProjectionConfig::Create *)
Definition proj_create (out substreams coupled : Z) (matrix : list Z) : res ambi :=
  proj_check out substreams coupled >>> veq (zlen matrix) ((substreams + coupled) * out) >>>
  Ok (AProj out substreams coupled matrix).
(* MODELS ambisonics_config.cc:320-324 GetNumSubstreams *)
Definition ambi_substreams (a : ambi) : Z := match a with AMono s _ => s | AProj _ s _ _ => s end.
(* MODELS ambisonics_config.cc:259-274 with 77-104 (GetOutputChannelCount of a mono config is size() cast to uint8_t) *)
Definition write_ambi (g : lebgen) (a : ambi) : wprog :=
  match a with
  | AMono s m => wuleb g 0 ++ wlit (u8 (zlen m)) 8 ++ wlit s 8 ++ wspan m
  | AProj o s c m => wuleb g 1 ++ wlit o 8 ++ wlit s 8 ++ wlit c 8 ++ flat_map wsigned16 m
  end.
(* MODELS ambisonics_config.cc:276-300 with 146-155, 190-222.  An unknown mode leaves the object as the caller set it
   (audio_element.cc:571-572: mono, one substream). *)
Definition read_ambi : rprog ambi :=
  mode <- ruleb ;;
  if mode =? 0 then o <- rlit 8 8 ;; s <- rlit 8 8 ;; m <- rspan (Z.to_nat o) ;; rres (mono_create s m)
  else if mode =? 1 then
    o <- rlit 8 8 ;; s <- rlit 8 8 ;; c <- rlit 8 8 ;; rres (proj_check o s c) ;;;
    m <- rlist (Z.to_nat ((s + c) * o)) rsigned16 ;; rres (proj_create o s c m)
  else RRet (AMono 1 [0]).

(* ---- Audio Element OBU ---- *)
Inductive aconf :=
| ACScal (reserved : Z) (layers : list layer) | ACAmbi (a : ambi) | ACObj (num : Z) (ext : list Z) | ACExt (bytes : list Z).
Record aelem := mkAE { ae_id : Z; ae_type : Z; ae_reserved : Z; ae_codec : Z; ae_subs : list Z; ae_params : list pdef; ae_conf : aconf }.
(* MODELS audio_element.cc:383-438: the factories' validation *)
Definition obj_create (n : Z) (ext : list Z) : res aconf := vcond (negb ((n >? 2) || (n =? 0))) >>> Ok (ACObj n ext).
Definition ae_create_scalable (id reserved codec : Z) (subs : list Z) (r : Z) (l : list layer) : res aelem :=
  vunique subs >>> layers_validate (u32 (zlen subs)) l >>> Ok (mkAE id 0 reserved codec subs [] (ACScal r l)).
Definition ae_create_ambi (id reserved codec : Z) (subs : list Z) (a : ambi) : res aelem :=
  vunique subs >>> veq (u8 (zlen subs)) (ambi_substreams a) >>> Ok (mkAE id 1 reserved codec subs [] (ACAmbi a)).
Definition ae_create_obj (id reserved codec sub : Z) (n : Z) (ext : list Z) : res aelem :=
  rbind (obj_create n ext) (fun c => Ok (mkAE id 2 reserved codec [sub] [] c)).
Definition ae_create_ext (id ty reserved codec : Z) (subs : list Z) (bytes : list Z) : res aelem :=
  vunique subs >>> Ok (mkAE id ty reserved codec subs [] (ACExt bytes)).
(* MODELS audio_element.cc:183-196 *)
Definition write_obj (n : Z) (ext : list Z) : wprog := wlit (u32 (zlen ext + 1)) 8 ++ wlit n 8 ++ wspan ext.
(* MODELS audio_element.cc:212-228 *)
Definition read_obj : rprog aconf :=
  s <- rlit 8 8 ;; rcheck (negb (s =? 0)) InvalidArgument ;;; n <- rlit 8 8 ;; x <- rspan (Z.to_nat (s - 1)) ;; rres (obj_create n x).
(* MODELS audio_element.cc:119-141 *)
Definition write_ae_param (g : lebgen) (d : pdef) : wprog :=
  wuleb g (pd_type (pd_kind d)) ++ wcheck (negb (pd_type (pd_kind d) =? 0)) InvalidArgument ++ write_pdef g d.
Definition pbase0 : pbase := mkPB 0 0 0 None.
(* MODELS audio_element.cc:243-279.  The ID of the audio element stored in the recon gain definition is not part of pdef. *)
Definition read_ae_param : rprog pdef :=
  t <- ruleb ;;
  if t =? 0 then RFail InvalidArgument
  else if t =? 2 then read_pdef (mkPD pbase0 (KRecon []))
  else if t =? 1 then read_pdef (mkPD pbase0 (KDemixing 0 0 0 0))
  else read_pdef (mkPD pbase0 (KExtended t [])).
Definition kMaxNumParameters := 256.
Definition param_types (l : list pdef) : list Z := map (fun d => pd_type (pd_kind d)) l.
(* MODELS audio_element.cc:499-523 *)
Definition write_aconf (g : lebgen) (a : aelem) : wprog :=
  let n := u32 (zlen (ae_subs a)) in
  if ae_type a =? 0 then match ae_conf a with ACScal r l => write_scalable n r l | _ => [WFail Internal] end
  else if ae_type a =? 1 then
    match ae_conf a with ACAmbi c => wres (veq n (ambi_substreams c)) ++ write_ambi g c | _ => [WFail Internal] end
  else if ae_type a =? 2 then match ae_conf a with ACObj k x => write_obj k x | _ => [WFail Internal] end
  else match ae_conf a with ACExt b => wuleb g (u32 (zlen b)) ++ wspan b | _ => [WFail Internal] end.
(* MODELS audio_element.cc:475-524 ValidateAndWritePayload (with 84-117) *)
Definition write_aelem (g : lebgen) (a : aelem) : wprog :=
  wres (vunique (param_types (ae_params a))) ++
  wuleb g (ae_id a) ++ wlit (ae_type a) 3 ++ wlit (ae_reserved a) 5 ++ wuleb g (ae_codec a) ++
  wuleb g (u32 (zlen (ae_subs a))) ++ flat_map (wuleb g) (ae_subs a) ++
  wcheck (negb (u32 (zlen (ae_params a)) >? kMaxNumParameters)) Unimplemented ++
  wuleb g (u32 (zlen (ae_params a))) ++ flat_map (write_ae_param g) (ae_params a) ++ write_aconf g a.
(* MODELS audio_element.cc:563-600.  In the default case (588-599) the bytes are read into a local variable and config_ keeps
   its default-constructed value, an empty ScalableChannelLayoutConfig. *)
Definition read_aconf (ty n : Z) : rprog aconf :=
  if ty =? 0 then x <- read_scalable n ;; RRet (ACScal (fst x) (snd x))
  else if ty =? 1 then a <- read_ambi ;; rres (veq n (ambi_substreams a)) ;;; RRet (ACAmbi a)
  else if ty =? 2 then read_obj
  else s <- ruleb ;; rlist (Z.to_nat s) (rlit 8 8) ;;; RRet (ACScal 0 []).
(* MODELS audio_element.cc:526-601 ReadAndValidatePayloadDerived *)
Definition read_aelem (h : header) (payload_size : Z) : rprog aelem :=
  id <- ruleb ;; ty <- rlit 3 8 ;; r <- rlit 5 8 ;; codec <- ruleb ;;
  n <- ruleb ;; subs <- rlist (Z.to_nat n) ruleb ;; rres (vunique subs) ;;;
  np <- ruleb ;; rcheck (negb (np >? kMaxNumParameters)) Unimplemented ;;;
  ps <- rlist (Z.to_nat np) read_ae_param ;; rres (vunique (param_types ps)) ;;;
  c <- read_aconf ty (u32 (zlen subs)) ;; RRet (mkAE id ty r codec subs ps c).
Definition write_aelem_obu (g : lebgen) (h : header) (a : aelem) (footer : list Z) : wprog :=
  write_obu g (set_type h kAudioElement) (write_aelem g a) footer.
