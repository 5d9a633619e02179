(* Model of cli/temporal_unit_view.cc (TemporalUnitView::CreateFromPointers).  Pointers are options; every OBU carries an
   opaque tag that stands for the rest of its contents (payload bytes etc.), which this code copies but never looks at. *)
From Verif Require Import Base WriteBuf CodecConfig.

(* MODELS audio_element_with_data.h: the audio element ID and the (possibly null) codec config, represented by its
   num_samples_per_frame *)
Record aewd := mkAewd { ae_id : Z; ae_spf : option Z }.
(* MODELS audio_frame_with_data.h:27-57 with the substream ID and trims of its obu *)
Record afr := mkAfr { f_ae : option aewd; f_sub : Z; f_start : Z; f_end : Z; f_trim_start : Z; f_trim_end : Z; f_tag : Z }.
(* MODELS parameter_block_with_data.h:22-26 *)
Record pbk := mkPbk { k_id : Z; k_start : Z; k_end : Z; k_tag : Z }.
(* MODELS arbitrary_obu.h:111-131 *)
Record arb := mkArb { o_tick : option Z; o_invalid : bool; o_tag : Z }.
(* MODELS temporal_unit_view.cc:40-48 *)
Record tustats := mkStats { ts_spf : Z; ts_te : Z; ts_ts : Z; ts_un : Z; ts_start : Z; ts_end : Z; ts_need : bool }.
(* MODELS temporal_unit_view.h:93-102 *)
Record tuview := mkTu { tv_blocks : list pbk; tv_frames : list afr; tv_arb : list arb; tv_start : Z; tv_end : Z; tv_trim : Z; tv_un : Z }.

(* MODELS validation_utils.h:100-127 ValidateNotNull, ValidateHasValue *)
Definition vsome {A} (o : option A) : res A := match o with Some x => Ok x | None => Err InvalidArgument end.
(* MODELS temporal_unit_view.cc:49-84: uint32_t arithmetic *)
Definition stats_of_frame (f : option afr) : res tustats :=
  rbind (vsome f) (fun f => rbind (vsome (f_ae f)) (fun e => rbind (vsome (ae_spf e)) (fun spf =>
  let trim := u32 (f_trim_start f + f_trim_end f) in
  vcond (trim <=? spf) >>>
  Ok (mkStats spf (f_trim_end f) (f_trim_start f) (u32 (spf - trim)) (f_start f) (f_end f) false)))).
(* MODELS temporal_unit_view.cc:86-104 *)
Definition stats_of_arb (o : option arb) : res tustats :=
  rbind (vsome o) (fun o => rbind (vsome (o_tick o)) (fun t => Ok (mkStats 0 0 0 0 t t true))).
Definition zmem (x : Z) (l : list Z) : bool := existsb (Z.eqb x) l.
(* MODELS temporal_unit_view.cc:106-128; [seen]: the hash set *)
Fixpoint check_blocks (l : list (option pbk)) (seen : list Z) (s : tustats) : res (list pbk) :=
  match l with
  | [] => Ok []
  | x :: t =>
      rbind (vsome x) (fun b =>
      if zmem (k_id b) seen then Err InvalidArgument
      else veq (k_start b) (ts_start s) >>> veq (k_end b) (ts_end s) >>>
           rbind (check_blocks t (k_id b :: seen) s) (fun r => Ok (b :: r)))
  end.
(* MODELS temporal_unit_view.cc:130-165 *)
Fixpoint check_frames (l : list (option afr)) (seen : list Z) (s : tustats) : res (list afr) :=
  match l with
  | [] => Ok []
  | x :: t =>
      rbind (vsome x) (fun f =>
      if zmem (f_sub f) seen then Err InvalidArgument
      else rbind (vsome (f_ae f)) (fun e => rbind (vsome (ae_spf e)) (fun _ =>
           veq (f_trim_end f) (ts_te s) >>> veq (f_trim_start f) (ts_ts s) >>>
           veq (f_start f) (ts_start s) >>> veq (f_end f) (ts_end s) >>>
           rbind (check_frames t (f_sub f :: seen) s) (fun r => Ok (f :: r)))))
  end.
(* MODELS temporal_unit_view.cc:167-190 *)
Fixpoint check_arbs (l : list (option arb)) (s : tustats) (has : bool) : res (list arb) :=
  match l with
  | [] => vcond (negb (ts_need s && negb has)) >>> Ok []
  | x :: t =>
      rbind (vsome x) (fun o => rbind (vsome (o_tick o)) (fun k =>
      veq k (ts_start s) >>> rbind (check_arbs t s (has || o_invalid o)) (fun r => Ok (o :: r))))
  end.
(* MODELS temporal_unit_view.cc:192-219: the two comparators *)
Definition less_block (a b : pbk) : bool := k_id a <? k_id b.
Definition f_eid (f : afr) : Z := match f_ae f with Some e => ae_id e | None => 0 end.
Definition less_frame (a b : afr) : bool := if negb (f_eid a =? f_eid b) then f_eid a <? f_eid b else f_sub a <? f_sub b.
(* MODELS absl::c_sort: a sorting algorithm (insertion sort; PropsTU.v proves that every sorting algorithm gives this result) *)
Fixpoint insert {A} (less : A -> A -> bool) (x : A) (l : list A) : list A :=
  match l with [] => [x] | y :: t => if less x y then x :: l else y :: insert less x t end.
Definition sort {A} (less : A -> A -> bool) (l : list A) : list A := fold_right (insert less) [] l.
(* MODELS temporal_unit_view.cc:221-264 CreateFromPointers *)
Definition tu_create (blocks : list (option pbk)) (frames : list (option afr)) (arbs : list (option arb)) : res tuview :=
  rbind (match frames, arbs with
         | f :: _, _ => stats_of_frame f
         | [], o :: _ => stats_of_arb o
         | [], [] => Err InvalidArgument
         end) (fun s =>
  rbind (check_frames frames [] s) (fun fs =>
  rbind (check_blocks blocks [] s) (fun bs =>
  rbind (check_arbs arbs s false) (fun os =>
  Ok (mkTu (sort less_block bs) (sort less_frame fs) os (ts_start s) (ts_end s) (ts_ts s) (ts_un s)))))).
