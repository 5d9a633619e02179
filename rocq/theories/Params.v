(* Models of obu/param_definitions/*.cc, obu/*_parameter_data.cc and obu/parameter_block.cc (serialisation part). *)
From Verif Require Import Base WriteBuf ReadBuf Leb ObuHeader SeqFacts SimpleObus CodecConfig.

(* ---- SubblockSchedule ---- *)
Record sched := mkS { s_dur : Z; s_const : Z; s_num : Z; s_list : list Z }.
(* MODELS subblock_schedule.h kMaxNumSubblocks *)
Definition kMaxSub := 192000.
(* MODELS subblock_schedule.cc:174-202 CreateWithConstantSubblockDuration *)
Definition create_const (dur c : Z) : res sched :=
  if dur =? 0 then Err InvalidArgument
  else if c =? 0 then Err InvalidArgument
  else if c >? dur then Err InvalidArgument
  else let n := u32 (dur / c + (if negb (dur mod c =? 0) then 1 else 0)) in
       vrange n 1 kMaxSub >>> Ok (mkS dur c n []).
(* MODELS subblock_schedule.cc:210-223: the accumulation loop, over the durations still to visit *)
Fixpoint sum_durations (l : list Z) (acc : Z) : res Z :=
  match l with
  | [] => Ok acc
  | d :: t => if d =? 0 then Err InvalidArgument else rbind (add_u32_check acc d) (sum_durations t)
  end.
(* MODELS subblock_schedule.cc:204-227 CreateWithVariableSubblockDuration (size() is converted to uint32_t) *)
Definition create_var (l : list Z) : res sched :=
  let n := u32 (zlen l) in
  vrange n 1 kMaxSub >>>
  rbind (sum_durations (firstn (Z.to_nat n) l) 0) (fun total => Ok (mkS total 0 n l)).
(* MODELS subblock_schedule.cc:229-253 GetSubblockDuration *)
Definition subblock_duration (s : sched) (i : Z) : res Z :=
  if (i <? 0) || (i >=? s_num s) then Err InvalidArgument
  else if s_const s =? 0 then match nth_error (s_list s) (Z.to_nat i) with Some d => Ok d | None => Abort end
  else if i =? s_num s - 1 then Ok (u32 (s_dur s - u32 (u32 (s_num s - 1) * s_const s)))
  else Ok (s_const s).
(* MODELS subblock_schedule.cc:48-97 ParseScheduleHelper; [on] is the on_subblock callback, whose results are collected
   (CreateFromBuffer: a callback that reads nothing; CreateFromBufferWithParameterData: reads one parameter data) *)
Definition parse_schedule {A} (on : rprog A) : rprog (sched * list A) :=
  dur <- ruleb ;; c <- ruleb ;;
  if negb (c =? 0) then
    s <- rres (create_const dur c) ;;
    l <- rlist (Z.to_nat (s_num s)) on ;; RRet (s, l)
  else
    n <- ruleb ;;
    rcheck (negb (dur =? 0)) InvalidArgument ;;;
    rcheck ((1 <=? n) && (n <=? kMaxSub)) InvalidArgument ;;;
    rcheck (n <=? dur) InvalidArgument ;;;
    l <- rlist (Z.to_nat n) (d <- ruleb ;; x <- on ;; RRet (d, x)) ;;
    s <- rres (create_var (map fst l)) ;;
    rcheck (s_dur s =? dur) InvalidArgument ;;; RRet (s, map snd l).
(* MODELS subblock_schedule.cc:117-121 *)
Definition read_schedule : rprog sched := x <- parse_schedule (RRet tt) ;; RRet (fst x).
(* MODELS subblock_schedule.cc:146-172 Write *)
Definition write_sched {A} (g : lebgen) (wd : A -> wprog) (s : sched) (data : option (list A)) : wprog :=
  (match data with Some l => wcheck (u32 (zlen l) =? s_num s) InvalidArgument | None => [] end) ++
  wuleb g (s_dur s) ++ wuleb g (s_const s) ++
  (if negb (s_const s =? 0)
   then match data with Some l => flat_map wd (firstn (Z.to_nat (s_num s)) l) | None => [] end
   else wuleb g (s_num s) ++
        match data with
        | Some l => flat_map (fun p => wuleb g (fst p) ++ wd (snd p)) (firstn (Z.to_nat (s_num s)) (combine (s_list s) l))
        | None => flat_map (wuleb g) (firstn (Z.to_nat (s_num s)) (s_list s))
        end).

(* ---- parameter data ---- *)
Inductive pdata :=
| DStep (s : Z) | DLinear (s e : Z) | DBezier (s e c t : Z)          (* MixGainParameterData *)
| DDemix (mode reserved : Z)                                          (* DemixingInfoParameterData *)
| DRecon (flags : list bool) (elems : list (option (Z * list Z)))     (* ReconGainInfoParameterData *)
| DExt (bytes : list Z)                                               (* ExtensionParameterData *)
| DPos.                                                               (* the six position kinds: not implemented *)
(* MODELS demixing_info_parameter_data.cc:96-108, 118-130: the supported modes *)
Definition dmixp_ok (m : Z) : bool := (m =? 0) || (m =? 1) || (m =? 2) || (m =? 4) || (m =? 5) || (m =? 6).
(* MODELS demixing_info_parameter_data.cc:91-109 *)
Definition write_demix (m r : Z) : wprog := wlit m 3 ++ wlit r 5 ++ wcheck (dmixp_ok m) Unimplemented.
(* MODELS demixing_info_parameter_data.cc:111-131 *)
Definition read_demix : rprog (Z * Z) :=
  m <- rlit 3 8 ;; r <- rlit 5 8 ;; rcheck (dmixp_ok m) Unimplemented ;;; RRet (m, r).
(* MODELS recon_gain_info_parameter_data.cc:80-88: the gains from index [j] on *)
Fixpoint write_gains (flag j : Z) (l : list Z) : wprog :=
  match l with [] => [] | x :: t => (if Z.testbit flag j then wlit x 8 else []) ++ write_gains flag (j + 1) t end.
(* MODELS recon_gain_info_parameter_data.cc:48-58 *)
Fixpoint read_gains (flag j : Z) (n : nat) : rprog (list Z) :=
  match n with
  | O => RRet []
  | S k => x <- (if Z.testbit flag j then rlit 8 8 else RRet 0) ;; t <- read_gains flag (j + 1) k ;; RRet (x :: t)
  end.
(* MODELS recon_gain_info_parameter_data.cc:72-89: loop over the layers *)
Fixpoint write_layers (g : lebgen) (flags : list bool) (elems : list (option (Z * list Z))) : wprog :=
  match flags, elems with
  | f :: fs, e :: es =>
      (if f then match e with Some (flag, l) => wuleb g flag ++ write_gains flag 0 l | None => [WFail InvalidArgument] end else [])
      ++ write_layers g fs es
  | _, _ => []
  end.
(* MODELS recon_gain_info_parameter_data.cc:30-60: loop over the layers *)
Fixpoint read_layers (flags : list bool) : rprog (list (option (Z * list Z))) :=
  match flags with
  | [] => RRet []
  | f :: fs =>
      e <- (if f then flag <- ruleb ;; l <- read_gains flag 0 12 ;; RRet (Some (flag, l)) else RRet None) ;;
      es <- read_layers fs ;; RRet (e :: es)
  end.
(* MODELS mix_gain_parameter_data.cc:32-35, 49-53, 72-78, 117-125; demixing above; recon_gain_info_parameter_data.cc:68-92;
   extension_parameter_data.cc:39-42; {polar,cart8,cart16,dual_*}_parameter_data.cc Write *)
Definition write_pdata (g : lebgen) (x : pdata) : wprog :=
  match x with
  | DStep s => wuleb g 0 ++ wsigned16 s
  | DLinear s e => wuleb g 1 ++ wsigned16 s ++ wsigned16 e
  | DBezier s e c t => wuleb g 2 ++ wsigned16 s ++ wsigned16 e ++ wsigned16 c ++ wlit t 8
  | DDemix m r => write_demix m r
  | DRecon flags elems => wcheck (zlen elems =? zlen flags) InvalidArgument ++ write_layers g flags elems
  | DExt b => wuleb g (u32 (zlen b)) ++ wspan b
  | DPos => [WFail Unimplemented]
  end.

(* ---- parameter definitions ---- *)
Record pbase := mkPB { pb_id : Z; pb_rate : Z; pb_reserved : Z; pb_sched : option sched }.
Inductive pkind :=
| KMixGain (default_gain : Z) | KDemixing (mode reserved w reserved2 : Z) | KRecon (flags : list bool)
| KPolar (a e d : Z) | KCart8 (x y z : Z) | KCart16 (x y z : Z)
| KDualPolar (a1 e1 d1 a2 e2 d2 : Z) | KDualCart8 (x1 y1 z1 x2 y2 z2 : Z) | KDualCart16 (x1 y1 z1 x2 y2 z2 : Z)
| KExtended (type : Z) (bytes : list Z).
Record pdef := mkPD { pd_base : pbase; pd_kind : pkind }.
(* MODELS param_definition_base.h:45-58 *)
Definition pd_type (k : pkind) : Z :=
  match k with
  | KMixGain _ => 0 | KDemixing _ _ _ _ => 1 | KRecon _ => 2 | KPolar _ _ _ => 3 | KCart8 _ _ _ => 4 | KCart16 _ _ _ => 5
  | KDualPolar _ _ _ _ _ _ => 6 | KDualCart8 _ _ _ _ _ _ => 7 | KDualCart16 _ _ _ _ _ _ => 8 | KExtended t _ => t
  end.
(* MODELS param_definition_base.cc:82-92 *)
Definition pb_dur (b : pbase) : Z := match pb_sched b with Some s => s_dur s | None => 0 end.
Definition pb_const (b : pbase) : Z := match pb_sched b with Some s => s_const s | None => 0 end.
Definition pb_num (b : pbase) : Z := match pb_sched b with Some s => s_num s | None => 0 end.
Definition mode0 (b : pbase) : bool := match pb_sched b with Some _ => true | None => false end.
(* MODELS param_definition_base.cc:151-159 Validate, with 32-61 ValidateSpecificParamDefinition *)
Definition pb_validate (type : Z) (b : pbase) : res unit :=
  vcond (negb (pb_rate b =? 0)) >>>
  (if (type =? 1) || (type =? 2)
   then vcond (mode0 b) >>> vcond (negb (pb_dur b =? 0)) >>> veq (pb_const b) (pb_dur b)
   else Ok tt).
Definition pd_validate (d : pdef) : res unit := pb_validate (pd_type (pd_kind d)) (pd_base d).
(* MODELS param_definition_base.cc:98-115 *)
Definition write_pbase (g : lebgen) (type : Z) (b : pbase) : wprog :=
  wres (pb_validate type b) ++ wuleb g (pb_id b) ++ wuleb g (pb_rate b) ++
  wlit (if mode0 b then 0 else 1) 1 ++ wlit (pb_reserved b) 7 ++
  match pb_sched b with Some s => write_sched (A:=unit) g (fun _ => []) s None | None => [] end.
(* MODELS param_definition_base.cc:117-138 *)
Definition read_pbase (type : Z) : rprog pbase :=
  id <- ruleb ;; rate <- ruleb ;; mode <- rlit 1 8 ;; r <- rlit 7 8 ;;
  if negb (mode =? 0) then RRet (mkPB id rate r None)
  else s <- read_schedule ;;
       rres (pb_validate type (mkPB id rate r (Some s))) ;;; RRet (mkPB id rate r (Some s)).
(* MODELS polar_param_definition.cc:30-32 Clip3 *)
Definition clip3 (v lo hi : Z) : Z := if v <? lo then lo else if hi <? v then hi else v.
(* MODELS polar_param_definition.cc:41-43, 53-57 (and dual_polar_param_definition.cc) *)
Definition write_polar (a e d : Z) : wprog := wsigned9 (clip3 a (-180) 180) ++ wsigned8 (clip3 e (-90) 90) ++ wlit d 7.
Definition read_polar : rprog (Z * Z * Z) :=
  a <- rsigned9 ;; e <- rsigned8 ;; d <- rlit 7 8 ;; RRet (clip3 a (-180) 180, clip3 e (-90) 90, d).
Definition write_xyz8 (x y z : Z) : wprog := wsigned8 x ++ wsigned8 y ++ wsigned8 z.
Definition read_xyz8 : rprog (Z * Z * Z) := x <- rsigned8 ;; y <- rsigned8 ;; z <- rsigned8 ;; RRet (x, y, z).
Definition write_xyz16 (x y z : Z) : wprog := wsigned16 x ++ wsigned16 y ++ wsigned16 z.
Definition read_xyz16 : rprog (Z * Z * Z) := x <- rsigned16 ;; y <- rsigned16 ;; z <- rsigned16 ;; RRet (x, y, z).
(* MODELS the sub-class specific part of each ValidateAndWrite: mix_gain_param_definition.cc:35, demixing_param_definition.cc:34
   (with demixing_info_parameter_data.cc:138-145), recon_gain (none), polar, cart8, cart16, dual_* *)
Definition write_kind (k : pkind) : wprog :=
  match k with
  | KMixGain v => wsigned16 v
  | KDemixing m r w r2 => write_demix m r ++ wlit w 4 ++ wlit r2 4
  | KRecon _ => []
  | KPolar a e d => write_polar a e d
  | KCart8 x y z => write_xyz8 x y z
  | KCart16 x y z => write_xyz16 x y z
  | KDualPolar a1 e1 d1 a2 e2 d2 => write_polar a1 e1 d1 ++ write_polar a2 e2 d2
  | KDualCart8 x1 y1 z1 x2 y2 z2 => write_xyz8 x1 y1 z1 ++ write_xyz8 x2 y2 z2
  | KDualCart16 x1 y1 z1 x2 y2 z2 => write_xyz16 x1 y1 z1 ++ write_xyz16 x2 y2 z2
  | KExtended _ _ => []
  end.
(* MODELS the sub-class specific part of each ReadAndValidate; [k] is the object read into (its class, its auxiliary data) *)
Definition read_kind (k : pkind) : rprog pkind :=
  match k with
  | KMixGain _ => v <- rsigned16 ;; RRet (KMixGain v)
  | KDemixing _ _ _ _ => p <- read_demix ;; w <- rlit 4 8 ;; r2 <- rlit 4 8 ;; RRet (KDemixing (fst p) (snd p) w r2)
  | KRecon f => RRet (KRecon f)
  | KPolar _ _ _ => p <- read_polar ;; let '(a, e, d) := p in RRet (KPolar a e d)
  | KCart8 _ _ _ => p <- read_xyz8 ;; let '(a, e, d) := p in RRet (KCart8 a e d)
  | KCart16 _ _ _ => p <- read_xyz16 ;; let '(a, e, d) := p in RRet (KCart16 a e d)
  | KDualPolar _ _ _ _ _ _ => p <- read_polar ;; q <- read_polar ;;
      let '(a, e, d) := p in let '(a2, e2, d2) := q in RRet (KDualPolar a e d a2 e2 d2)
  | KDualCart8 _ _ _ _ _ _ => p <- read_xyz8 ;; q <- read_xyz8 ;;
      let '(a, e, d) := p in let '(a2, e2, d2) := q in RRet (KDualCart8 a e d a2 e2 d2)
  | KDualCart16 _ _ _ _ _ _ => p <- read_xyz16 ;; q <- read_xyz16 ;;
      let '(a, e, d) := p in let '(a2, e2, d2) := q in RRet (KDualCart16 a e d a2 e2 d2)
  | KExtended t b => RRet (KExtended t b)
  end.
(* MODELS {mix_gain,demixing,recon_gain,polar,cart8,cart16,dual_*}_param_definition.cc ValidateAndWrite and
   extended_param_definition.cc:30-39 *)
Definition write_pdef (g : lebgen) (d : pdef) : wprog :=
  match pd_kind d with
  | KExtended _ b => wuleb g (u32 (zlen b)) ++ wspan b
  | k => write_pbase g (pd_type k) (pd_base d) ++ write_kind k
  end.
(* MODELS ... ReadAndValidate and extended_param_definition.cc:41-53; [d0] is the object read into *)
Definition read_pdef (d0 : pdef) : rprog pdef :=
  match pd_kind d0 with
  | KExtended t _ =>
      n <- ruleb ;; rcheck (negb (n >? 2^21)) InvalidArgument ;;; b <- rspan (Z.to_nat n) ;;
      RRet (mkPD (pd_base d0) (KExtended t b))
  | k => b <- read_pbase (pd_type k) ;; k' <- read_kind k ;; RRet (mkPD b k')
  end.

(* MODELS CreateParameterData() of each class followed by ReadAndValidate(): mix_gain_parameter_data.cc:37-40, 55-59, 80-115;
   recon_gain_param_definition.cc:47-61 with recon_gain_info_parameter_data.cc:28-66; extension_parameter_data.cc:26-37;
   {polar,...}_parameter_data.cc ReadAndValidate *)
Definition read_pdata (k : pkind) : rprog pdata :=
  match k with
  | KMixGain _ =>
      t <- ruleb ;;
      if t =? 0 then s <- rsigned16 ;; RRet (DStep s)
      else if t =? 1 then s <- rsigned16 ;; e <- rsigned16 ;; RRet (DLinear s e)
      else if t =? 2 then s <- rsigned16 ;; e <- rsigned16 ;; c <- rsigned16 ;; t <- rlit 8 8 ;; RRet (DBezier s e c t)
      else RFail Unimplemented
  | KDemixing _ _ _ _ => p <- read_demix ;; RRet (DDemix (fst p) (snd p))
  | KRecon flags => l <- read_layers flags ;; RRet (DRecon flags l)
  | KExtended _ _ =>
      n <- ruleb ;; rcheck (negb (n >? 2^21)) InvalidArgument ;;; b <- rspan (Z.to_nat n) ;; RRet (DExt b)
  | _ => RFail Unimplemented
  end.

(* ---- Parameter Block OBU ---- *)
(* MODELS parameter_block.h: parameter_id_, schedule_, subblocks_ (entries may be null) *)
Record pblock := mkBlk { bl_id : Z; bl_sched : option sched; bl_subs : list (option pdata) }.
(* a null entry: mode 0 reports InvalidArgument (ValidateNotNull); mode 1 aborts (ABSL_CHECK_NE), modelled as Err Internal *)
Definition write_sub0 (g : lebgen) (x : option pdata) : wprog :=
  match x with Some d => write_pdata g d | None => [WFail InvalidArgument] end.
Definition no_null (l : list (option pdata)) : bool := forallb (fun x => match x with Some _ => true | None => false end) l.
(* MODELS parameter_block.cc:236-253 ValidateAndWritePayload (null check of subblock_schedule.cc:151-155) *)
Definition write_pblock (g : lebgen) (d : pdef) (b : pblock) : wprog :=
  wuleb g (bl_id b) ++ wres (pd_validate d) ++
  match bl_sched b with
  | Some s => wcheck (no_null (bl_subs b) || negb (u32 (zlen (bl_subs b)) =? s_num s)) Internal ++
              write_sched g (write_sub0 g) s (Some (bl_subs b))
  | None => flat_map (write_sub0 g) (bl_subs b)
  end.
(* MODELS parameter_block.cc:255-297 ReadAndValidatePayloadDerived *)
Definition read_pblock (d : pdef) (h : header) (payload_size : Z) : rprog pblock :=
  rres (pd_validate d) ;;;
  id <- ruleb ;;
  rcheck (id =? pb_id (pd_base d)) InvalidArgument ;;;
  if mode0 (pd_base d)
  then l <- rlist (Z.to_nat (pb_num (pd_base d))) (read_pdata (pd_kind d)) ;; RRet (mkBlk id None (map Some l))
  else x <- parse_schedule (read_pdata (pd_kind d)) ;; RRet (mkBlk id (Some (fst x)) (map Some (snd x))).
Definition write_pblock_obu (g : lebgen) (h : header) (d : pdef) (b : pblock) (footer : list Z) : wprog :=
  write_obu g (set_type h kParameterBlock) (write_pblock g d b) footer.
(* MODELS parameter_block.cc:42-52 PeekParameterId *)
Definition peek_parameter_id : rprog Z :=
  p <- rtell ;; m <- rcatch ruleb ;; rseek p ;;; match m with inl c => RFail c | inr x => RRet x end.
