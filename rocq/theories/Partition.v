(* Model of cli/parameter_block_partitioner.cc (all of it), cli/proto_conversion/proto_utils.cc CreateSubblockScheduleFromMetadata
   and cli/encoder_main_lib.cc PartitionParameterMetadata: parameter block metadata is cut into blocks of the length of a frame
   before it is given to the encoder. *)
From Verif Require Import Base WriteBuf CodecConfig ObuHeader Params MixGain Pcm DoubleEnv.
Open Scope Z_scope.

(* Metadata is a protobuf message.  [X]: the contents of a demixing or recon gain message, which are only copied; [H]: the OBU header
   message. *)
Inductive sdata (X : Type) :=
| SStep (s : Z) | SLinear (s e : Z) | SBezier (s e c t : Z) | SNoAnim   (* mix_gain_parameter_data and its oneof *)
| SDemix (x : X) | SRecon (x : X)
| SOther.                                                               (* parameter_data_extension, or nothing is set *)
Arguments SStep {X}. Arguments SLinear {X}. Arguments SBezier {X}. Arguments SNoAnim {X}. Arguments SDemix {X}. Arguments SRecon {X}. Arguments SOther {X}.
(* MODELS parameter_block.proto:26-49 ParameterSubblock, ParameterBlockObuMetadata *)
Record msub (X : Type) := mkMs { ms_dur : Z; ms_data : sdata X }.
Arguments mkMs {X}. Arguments ms_dur {X}. Arguments ms_data {X}.
Record mblock (X H : Type) := mkMb { mb_id : Z; mb_dur : Z; mb_const : Z; mb_subs : list (msub X); mb_start : Z; mb_header : H }.
Arguments mkMb {X H}. Arguments mb_id {X H}. Arguments mb_dur {X H}. Arguments mb_const {X H}. Arguments mb_subs {X H}. Arguments mb_start {X H}. Arguments mb_header {X H}.

(* int64_t addition: overflow is undefined *)
Definition add64 (x y : Z) : res Z := if (- 2^63 <=? x + y) && (x + y <? 2^63) then Ok (x + y) else UB.

Section Partition.
Context {X H : Type}.
Notation block := (mblock X H).
(* MODELS proto_utils.cc:188-221 CreateSubblockScheduleFromMetadata *)
Definition meta_sched (b : block) : res sched :=
  if negb (mb_const b =? 0)
  then rbind (create_const (mb_dur b) (mb_const b)) (fun s => if s_num s =? zlen (mb_subs b) then Ok s else Err InvalidArgument)
  else rbind (create_var (map ms_dur (mb_subs b))) (fun s => if s_dur s =? mb_dur b then Ok s else Err InvalidArgument).

(* MODELS parameter_block_partitioner.cc:40-75 InterpolateMixGainParameterData, for step and linear *)
Definition gain_at (d : pdata) (start stop t : Z) : res Z :=
  rbind (interpolate single q7_8_to_float float_linear float_bezier d start stop t) float_to_q7_8.
(* MODELS parameter_block_partitioner.cc:93-166 PartitionMixGain and 236-262 (the choice by the type of the data): the data of the part
   from [a] to [b] of a sub-block from [start] to [stop]; [first]: no sub-block was put into the partition before it.  The two
   interpolations of a linear animation are both made and the first status which is not OK is returned *)
Definition part_data (d : sdata X) (start stop a b : Z) (first : bool) : res (sdata X) :=
  match d with
  | SStep s => rbind (gain_at (DStep (s16 s)) start stop a) (fun v => Ok (SStep v))
  | SLinear s e =>
      rbind (gain_at (DLinear (s16 s) (s16 e)) start stop a) (fun v =>
      rbind (gain_at (DLinear (s16 s) (s16 e)) start stop b) (fun w => Ok (SLinear v w)))
  | SBezier _ _ _ _ => if (start =? a) && (stop =? b) then Ok d else Err InvalidArgument
  | SNoAnim => Err InvalidArgument
  | SDemix _ | SRecon _ => if first then Ok d else Err InvalidArgument
  | SOther => Err InvalidArgument
  end.
(* MODELS parameter_block_partitioner.cc:203-269: the loop over the sub-blocks, of which the first left has index [i] and starts at
   [now]; the partition is from [a] to [b].  The sub-blocks put into the partition *)
Fixpoint cut (s : sched) (a b : Z) (l : list (msub X)) (i now : Z) (first : bool) : res (list (msub X)) :=
  match l with
  | [] => Ok []
  | x :: t =>
      rbind (subblock_duration s i) (fun d =>
      rbind (add64 now d) (fun stop =>
      if (stop <=? a) || (b <=? now) then cut s a b t (i + 1) stop first
      else
        let a' := Z.max a now in let b' := Z.min b stop in
        rbind (part_data (ms_data x) now stop a' b' first) (fun y =>
        let out := mkMs (u32 (b' - a')) y in
        if stop >=? b then Ok [out] else rbind (cut s a b t (i + 1) stop false) (fun r => Ok (out :: r)))))
  end.
(* MODELS parameter_block_partitioner.cc:299-322 FindConstantSubblockDuration; [c]: the first duration *)
Fixpoint same_durations (c : Z) (l : list Z) : bool :=
  match l with
  | [] => true
  | [x] => (x <=? c) || (x =? c)
  | x :: t => (x =? c) && same_durations c t
  end.
Definition constant_duration (l : list Z) : Z := match l with [] => 0 | c :: _ => if same_durations c l then c else 0 end.
(* MODELS parameter_block_partitioner.cc:347-384 PartitionParameterBlock with 183-294 GetPartitionedSubblocks (CompareTimestamps of the
   duration and of the durations put into it) *)
Definition partition_block (full : block) (a b : Z) : res block :=
  if a >=? b then Err InvalidArgument
  else
    rbind (meta_sched full) (fun s =>
    rbind (cut s a b (mb_subs full) 0 (mb_start full) true) (fun l =>
    if b - a =? fold_left (fun n x => n + ms_dur x) l 0
    then Ok (mkMb (mb_id full) (u32 (b - a)) (constant_duration (map ms_dur l)) l a (mb_header full))
    else Err InvalidArgument)).
(* MODELS parameter_block_partitioner.cc:386-405 PartitionFrameAligned: the loop from [t] on *)
Fixpoint aligned (fuel : nat) (pd : Z) (full : block) (stop t : Z) : res (list block) :=
  if t <? stop then
    match fuel with
    | O => Diverge
    | S f => rbind (add64 t pd) (fun u =>
             rbind (partition_block full t u) (fun p => rbind (aligned f pd full stop u) (fun r => Ok (p :: r))))
    end
  else Ok [].
(* each round but one which fails moves [t] on by at least 1 *)
Definition partition_aligned (pd : Z) (full : block) : res (list block) :=
  rbind (add64 (mb_start full) (mb_dur full)) (fun stop => aligned (S (Z.to_nat (mb_dur full))) pd full stop (mb_start full)).
(* MODELS parameter_block_partitioner.cc:324-345 FindPartitionDuration: [profile] is the enumerator's profile (simple, base, base-enhanced:
   0, 1, 2) *)
Definition partition_duration (profile samples_per_frame : Z) : res Z :=
  if (profile =? 0) || (profile =? 1) || (profile =? 2) then Ok samples_per_frame else Err InvalidArgument.
(* MODELS encoder_main_lib.cc:57-84 PartitionParameterMetadata; the first primary profile and the first frame size of the user
   metadata, if there are any *)
Fixpoint partition_each (pd : Z) (l : list block) : res (list block) :=
  match l with [] => Ok [] | b :: t => rbind (partition_aligned pd b) (fun r => rbind (partition_each pd t) (fun s => Ok (r ++ s))) end.
Definition partition_metadata (profiles frame_sizes : list Z) (l : list block) : res (list block) :=
  match profiles, frame_sizes with
  | p :: _, n :: _ => rbind (partition_duration p n) (fun pd => partition_each pd l)
  | _, _ => Err InvalidArgument
  end.
End Partition.
