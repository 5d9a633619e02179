(* Models of obu/mix_presentation.cc, obu/rendering_config.cc and obu/element_gain_offset_config.cc.
   Strings are byte lists.  QFormatOrFloatingPoint values are modelled by their Q7.8 integer.  std::get<T> on the wrong
   alternative throws; ABSL_CHECK aborts; both are modelled as Err Internal.  MAYBE_RETURN_IF_NOT_OK is modelled as
   RETURN_IF_NOT_OK (macros.h without IGNORE_ERRORS_USE_ONLY_FOR_IAMF_TEST_SUITE). *)
From Verif Require Import Base WriteBuf ReadBuf Leb ObuHeader SeqFacts SimpleObus CodecConfig Params AudioElement.

Definition str := list Z.
Fixpoint str_eqb (a b : str) : bool :=
  match a, b with [], [] => true | x :: a', y :: b' => (x =? y) && str_eqb a' b' | _, _ => false end.
(* MODELS common/utils/validation_utils.h:139-152 ValidateUnique, on strings *)
Fixpoint unique_str (l : list str) : bool :=
  match l with [] => true | x :: t => negb (existsb (str_eqb x) t) && unique_str t end.

(* ---- ElementGainOffsetConfig ---- *)
Inductive egoc := EValue (v : Z) | ERange (d mn mx : Z) | EExt (type : Z) (bytes : list Z).
(* MODELS element_gain_offset_config.cc:94-111 CreateRangeType *)
Definition ego_range (d mn mx : Z) : res egoc := vrange d mn mx >>> Ok (ERange d mn mx).
(* MODELS element_gain_offset_config.cc:113-131 CreateExtensionType *)
Definition ego_ext (t : Z) (b : list Z) : res egoc := vcond (negb ((t =? 0) || (t =? 1))) >>> Ok (EExt t b).
(* MODELS element_gain_offset_config.cc:45-67, 170-174 *)
Definition write_ego (g : lebgen) (e : egoc) : wprog :=
  match e with
  | EValue v => wlit 0 8 ++ wsigned16 v
  | ERange d mn mx => wlit 1 8 ++ wsigned16 d ++ wsigned16 mn ++ wsigned16 mx
  | EExt t b => wlit t 8 ++ wuleb g (u32 (zlen b)) ++ wspan b
  end.
(* MODELS element_gain_offset_config.cc:133-168 CreateFromBuffer *)
Definition read_ego : rprog egoc :=
  t <- rlit 8 8 ;;
  if t =? 0 then v <- rsigned16 ;; RRet (EValue v)
  else if t =? 1 then d <- rsigned16 ;; mn <- rsigned16 ;; mx <- rsigned16 ;; rres (ego_range d mn mx)
  else n <- ruleb ;; rcheck (negb (n >? 2^21)) InvalidArgument ;;; b <- rspan (Z.to_nat n) ;; rres (ego_ext t b).

(* ---- RenderingConfig ---- *)
(* MODELS rendering_config.h:40-96 RenderingConfigParamDefinition *)
Record rdef := mkRD { rd_type : Z; rd_def : pdef; rd_bytes : list Z }.
(* The position definition a type stands for, default-constructed. *)
Definition position_kind (t : Z) : option pkind :=
  if t =? 3 then Some (KPolar 0 0 0) else if t =? 4 then Some (KCart8 0 0 0) else if t =? 5 then Some (KCart16 0 0 0)
  else if t =? 6 then Some (KDualPolar 0 0 0 0 0 0) else if t =? 7 then Some (KDualCart8 0 0 0 0 0 0)
  else if t =? 8 then Some (KDualCart16 0 0 0 0 0 0) else None.
(* MODELS rendering_config.cc:167-181 Create: the type is the one of the definition *)
Definition rdef_create (d : pdef) (b : list Z) : rdef := mkRD (pd_type (pd_kind d)) d b.
(* MODELS rendering_config.cc:42-90 *)
Definition write_rdef (g : lebgen) (r : rdef) : wprog :=
  wuleb g (rd_type r) ++
  match position_kind (rd_type r) with
  | Some _ => if pd_type (pd_kind (rd_def r)) =? rd_type r then write_pdef g (rd_def r) else [WFail Internal]
  | None => wuleb g (u32 (zlen (rd_bytes r))) ++ wspan (rd_bytes r)
  end.
(* MODELS rendering_config.cc:183-242 *)
Definition read_rdef : rprog rdef :=
  t <- ruleb ;;
  match position_kind t with
  | Some k => d <- read_pdef (mkPD pbase0 k) ;; RRet (rdef_create d [])
  | None => n <- ruleb ;; rignore n ;;; RFail Unimplemented
  end.
(* MODELS rendering_config.h:98-158 RenderingConfig *)
Record rconf := mkRC { rc_mode : Z; rc_profile : Z; rc_reserved : Z; rc_defs : list rdef; rc_ego : option egoc; rc_ext : list Z }.
(* MODELS rendering_config.cc:111-121: what goes to the temporary buffer *)
Definition write_rext (g : lebgen) (r : rconf) : wprog :=
  wuleb g (u32 (zlen (rc_defs r))) ++ flat_map (write_rdef g) (rc_defs r) ++
  (match rc_ego r with Some e => write_ego g e | None => [] end) ++ wspan (rc_ext r).
Definition is_empty {A} (l : list A) : bool := match l with [] => true | _ => false end.
Definition has {A} (o : option A) : bool := match o with Some _ => true | None => false end.
(* MODELS rendering_config.cc:105-130, 317-342 ValidateAndWrite *)
Definition write_rconf (g : lebgen) (r : rconf) : wprog :=
  wlit (rc_mode r) 2 ++ wbool (has (rc_ego r)) ++ wlit (rc_profile r) 2 ++ wlit (rc_reserved r) 3 ++
  (if is_empty (rc_defs r) && negb (has (rc_ego r)) && is_empty (rc_ext r) then wuleb g 0
   else match temp_write (write_rext g r) with
        | Ok t => if negb (w_off t mod 8 =? 0) then [WFail Internal]
                  else wuleb g (u32 (zlen (w_bytes t))) ++ wspan (w_bytes t)
        | Err c => [WFail c]
        | _ => [WFail Internal]
        end).
(* MODELS rendering_config.cc:132-164 *)
Definition read_rext (flag : bool) : rprog (list rdef * option egoc) :=
  n <- ruleb ;; l <- rlist (Z.to_nat n) read_rdef ;;
  e <- (if flag then x <- read_ego ;; RRet (Some x) else RRet None) ;; RRet (l, e).
(* MODELS rendering_config.cc:244-315 CreateFromBuffer *)
Definition read_rconf : rprog rconf :=
  mode <- rlit 2 8 ;; flag <- rbool ;; prof <- rlit 2 8 ;; res <- rlit 3 8 ;; size <- ruleb ;;
  rcheck (negb (size >? 2^21)) InvalidArgument ;;;
  if size =? 0 then RRet (mkRC mode prof res [] None [])
  else
    p <- rtell ;; st <- rcatch (read_rext flag) ;;
    match st with
    | inr x =>
        q <- rtell ;;
        rcheck (negb (size - (q - p) / 8 <? 0)) InvalidArgument ;;;
        b <- rspan (Z.to_nat (size - (q - p) / 8)) ;; RRet (mkRC mode prof res (fst x) (snd x) b)
    | inl _ => rseek p ;;; b <- rspan (Z.to_nat size) ;; RRet (mkRC mode prof res [] None b)
    end.

(* ---- layouts ---- *)
Inductive speclay := LSs (sound_system reserved : Z) | LRb (reserved : Z).
Record layout := mkLO { lo_type : Z; lo_spec : speclay; lo_info : Z; lo_int : Z; lo_peak : Z; lo_true : Z;
                        lo_anch : list (Z * Z); lo_ext : list Z }.
Definition true_peak_bit (info : Z) : bool := negb (Z.land info 1 =? 0).
Definition anchored_bit (info : Z) : bool := negb (Z.land info 2 =? 0).
Definition extension_bits (info : Z) : bool := negb (Z.land info 252 =? 0).
(* MODELS mix_presentation.cc:111-176 ValidateAndWriteLayout with 457-462, 475-479 and 60-71; StaticCastIfInRange refuses more than
   255 anchors *)
Definition write_layout (g : lebgen) (l : layout) : wprog :=
  wlit (lo_type l) 2 ++
  (if lo_type l =? 2 then match lo_spec l with LSs s r => wlit s 4 ++ wlit r 2 | LRb _ => [WFail Internal] end
   else match lo_spec l with LRb r => wlit r 6 | LSs _ _ => [WFail Internal] end) ++
  wlit (lo_info l) 8 ++ wsigned16 (lo_int l) ++ wsigned16 (lo_peak l) ++
  (if true_peak_bit (lo_info l) then wsigned16 (lo_true l) else []) ++
  (if anchored_bit (lo_info l)
   then wres (vunique (map fst (lo_anch l))) ++ wcheck (zlen (lo_anch l) <=? 255) InvalidArgument ++ wlit (u8 (zlen (lo_anch l))) 8 ++
        flat_map (fun a => wlit (fst a) 8 ++ wsigned16 (snd a)) (lo_anch l)
   else []) ++
  (if extension_bits (lo_info l) then wuleb g (u32 (zlen (lo_ext l))) ++ wspan (lo_ext l) else []).
(* MODELS mix_presentation.cc:220-286 with 464-473, 481-483, into default-constructed objects (as the caller does) *)
Definition read_layout : rprog layout :=
  t <- rlit 2 8 ;;
  s <- (if t =? 2 then s <- rlit 4 8 ;; r <- rlit 2 8 ;; RRet (LSs s r) else r <- rlit 6 8 ;; RRet (LRb r)) ;;
  i <- rlit 8 8 ;; lk <- rsigned16 ;; pk <- rsigned16 ;;
  tp <- (if true_peak_bit i then rsigned16 else RRet 0) ;;
  an <- (if anchored_bit i
         then n <- rlit 8 8 ;; l <- rlist (Z.to_nat n) (a <- rlit 8 8 ;; v <- rsigned16 ;; RRet (a, v)) ;;
              rres (vunique (map fst l)) ;;; RRet l
         else RRet []) ;;
  ex <- (if extension_bits i
         then n <- ruleb ;; rcheck (n <=? 2^21) InvalidArgument ;;; rspan (Z.to_nat n)
         else RRet []) ;;
  RRet (mkLO t s i lk pk tp an ex).
(* MODELS mix_presentation.cc:93-108 HasStereoLayout *)
Definition is_stereo (l : layout) : bool :=
  (lo_type l =? 2) && match lo_spec l with LSs s _ => s =? 0 | LRb _ => false end.
Definition has_stereo (l : list layout) : bool := existsb is_stereo l.
(* MODELS mix_presentation.cc:324-346: the layout added when there is no stereo layout *)
Definition default_stereo (l : list layout) : layout :=
  match rev l with
  | [] => mkLO 2 (LSs 0 0) 0 0 0 0 [] []
  | x :: _ => mkLO 2 (LSs 0 0) (lo_info x) (lo_int x) (lo_peak x) (lo_true x) (lo_anch x) (lo_ext x)
  end.

(* ---- sub-mixes ---- *)
Record subelem := mkSA { sa_id : Z; sa_ann : list str; sa_conf : rconf; sa_gain : pdef }.
Record submix := mkSM { sm_elems : list subelem; sm_gain : pdef; sm_layouts : list layout }.
(* MODELS mix_presentation.cc:73-91 (ValidateContainerSizeEqual converts size() to uint32_t) *)
Definition write_subelem (g : lebgen) (count : Z) (e : subelem) : wprog :=
  wuleb g (sa_id e) ++ wres (veq (u32 (zlen (sa_ann e))) count) ++ flat_map wstring (sa_ann e) ++
  write_rconf g (sa_conf e) ++ write_pdef g (sa_gain e).
Definition gain0 : pdef := mkPD pbase0 (KMixGain 0).
(* MODELS mix_presentation.cc:288-307 *)
Definition read_subelem (count : Z) : rprog subelem :=
  id <- ruleb ;; ann <- rlist (Z.to_nat count) rstring ;; c <- read_rconf ;; g <- read_pdef gain0 ;; RRet (mkSA id ann c g).
(* MODELS mix_presentation.cc:178-212 *)
Definition write_submix (g : lebgen) (count : Z) (s : submix) : wprog :=
  wcheck (negb (u32 (zlen (sm_elems s)) =? 0)) InvalidArgument ++ wuleb g (u32 (zlen (sm_elems s))) ++
  flat_map (write_subelem g count) (sm_elems s) ++ write_pdef g (sm_gain s) ++
  wuleb g (u32 (zlen (sm_layouts s))) ++ flat_map (write_layout g) (sm_layouts s) ++
  wcheck (has_stereo (sm_layouts s)) InvalidArgument.
(* MODELS mix_presentation.cc:309-349 *)
Definition read_submix (count : Z) : rprog submix :=
  n <- ruleb ;; rcheck (negb (n =? 0)) InvalidArgument ;;;
  es <- rlist (Z.to_nat n) (read_subelem count) ;; g <- read_pdef gain0 ;;
  m <- ruleb ;; ls <- rlist (Z.to_nat m) read_layout ;;
  RRet (mkSM es g (if has_stereo ls then ls else ls ++ [default_stereo ls])).

(* ---- tags and optional fields ---- *)
Definition content_language : str := [99;111;110;116;101;110;116;95;108;97;110;103;117;97;103;101].
Definition tags := list (str * str).
(* MODELS mix_presentation.cc:387-407 with 351-364 *)
Definition write_tags (t : tags) : wprog :=
  wcheck (zlen t <=? 255) InvalidArgument ++ wlit (u8 (zlen t)) 8 ++
  flat_map (fun x => wcheck (negb (str_eqb (fst x) content_language) || (zlen (snd x) =? 3)) InvalidArgument ++
                     wstring (fst x) ++ wstring (snd x)) t ++
  wcheck (zlen (filter (fun x => str_eqb (fst x) content_language) t) <=? 1) InvalidArgument.
(* MODELS mix_presentation.cc:366-385 *)
Definition read_tags : rprog tags :=
  n <- rlit 8 8 ;; rlist (Z.to_nat n) (a <- rstring ;; b <- rstring ;; RRet (a, b)).
Record optf := mkOF { of_size : Z; of_loud : Z; of_bin : Z; of_rest : list Z }.
(* MODELS mix_presentation.cc:440-455; size_t(optional_fields_size) - 2 wraps below 2 *)
Definition write_optf (g : lebgen) (o : optf) : wprog :=
  wuleb g (of_size o) ++ wlit (of_loud o) 8 ++ wlit (of_bin o) 8 ++ wres (veq (zlen (of_rest o)) (u64 (of_size o - 2))) ++ wspan (of_rest o).
(* MODELS mix_presentation.cc:409-438 *)
Definition read_optf : rprog optf :=
  n <- ruleb ;; rcheck ((2 <=? n) && (n <=? 2^21)) InvalidArgument ;;;
  a <- rlit 8 8 ;; b <- rlit 8 8 ;; r <- rlist (Z.to_nat (n - 2)) (rlit 8 8) ;; RRet (mkOF n a b r).

(* ---- Mix Presentation OBU ---- *)
Record mixp := mkMP { mp_id : Z; mp_count : Z; mp_lang : list str; mp_ann : list str; mp_subs : list submix;
                      mp_tags : option tags; mp_opt : option optf }.
(* MODELS mix_presentation.cc:45-58: the audio element IDs of all sub-mixes *)
Definition element_ids (l : list submix) : list Z := flat_map (fun s => map sa_id (sm_elems s)) l.
Definition write_mixp_main (g : lebgen) (m : mixp) : wprog :=
  wuleb g (mp_id m) ++ wuleb g (mp_count m) ++
  wcheck (unique_str (mp_lang m)) InvalidArgument ++ wres (veq (u32 (zlen (mp_lang m))) (mp_count m)) ++ flat_map wstring (mp_lang m) ++
  wres (veq (u32 (zlen (mp_ann m))) (mp_count m)) ++ flat_map wstring (mp_ann m) ++
  wuleb g (u32 (zlen (mp_subs m))) ++ wcheck (negb (u32 (zlen (mp_subs m)) =? 0)) InvalidArgument ++
  wres (vunique (element_ids (mp_subs m))) ++ flat_map (write_submix g (mp_count m)) (mp_subs m).
Definition write_mixp_tail (g : lebgen) (h : header) (m : mixp) : wprog :=
  (match mp_tags m with Some t => write_tags t | None => [] end) ++
  (if optional_fields_flag h
   then wcheck (has (mp_tags m)) InvalidArgument ++ match mp_opt m with Some o => write_optf g o | None => [WFail InvalidArgument] end
   else []).
(* MODELS mix_presentation.cc:532-584 ValidateAndWritePayload *)
Definition write_mixp (g : lebgen) (h : header) (m : mixp) : wprog := write_mixp_main g m ++ write_mixp_tail g h m.
Definition read_mixp_main : rprog mixp :=
  id <- ruleb ;; count <- ruleb ;; rcheck (negb (count >? 256)) InvalidArgument ;;;
  la <- rlist (Z.to_nat count) rstring ;; rcheck (unique_str la) InvalidArgument ;;;
  an <- rlist (Z.to_nat count) rstring ;;
  n <- ruleb ;; rcheck (negb (n >? 28)) InvalidArgument ;;;
  ss <- rlist (Z.to_nat n) (read_submix count) ;;
  rcheck (negb (n =? 0)) InvalidArgument ;;; rres (vunique (element_ids ss)) ;;;
  RRet (mkMP id count la an ss None None).
(* MODELS mix_presentation.cc:594-684 ReadAndValidatePayloadDerived *)
Definition read_mixp (h : header) (payload_size : Z) : rprog mixp :=
  p0 <- rtell ;; m <- read_mixp_main ;; p1 <- rtell ;;
  rcheck (negb (p1 <? p0)) InvalidArgument ;;;
  if (p1 - p0) / 8 =? payload_size then rcheck (negb (optional_fields_flag h)) InvalidArgument ;;; RRet m
  else
    t <- read_tags ;;
    o <- (if optional_fields_flag h then x <- read_optf ;; RRet (Some x) else RRet None) ;;
    RRet (mkMP (mp_id m) (mp_count m) (mp_lang m) (mp_ann m) (mp_subs m) (Some t) o).
Definition write_mixp_obu (g : lebgen) (h : header) (m : mixp) (footer : list Z) : wprog :=
  let h' := set_type h kMixPresentation in write_obu g h' (write_mixp g h' m) footer.

(* MODELS mix_presentation.cc:485-530 GetNumChannelsFromLayout *)
Definition ss_channels : list Z := [2; 6; 8; 10; 11; 12; 14; 24; 8; 12; 10; 6; 1; 16; 17].
Definition num_channels (type : Z) (s : speclay) : res Z :=
  if type =? 3 then Ok 2
  else if type =? 2 then
    match s with
    | LSs ss _ => match nth_error ss_channels (Z.to_nat ss) with Some n => Ok n | None => Err NotFound end
    | LRb _ => Abort
    end
  else Err InvalidArgument.
