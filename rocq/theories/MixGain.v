(* Model of ParameterBlockObu::GetLinearMixGains (obu/parameter_block.cc:175-221) and the control structure of
   InterpolateMixGainValue (common/utils/obu_util.h:55-120).  The floating point formulas are parameters [step], [linear],
   [bezier], [to_linear] (std::pow(10, x/20)) over an arbitrary type of gains; MixGainReal.v instantiates them with reals. *)
From Verif Require Import Base WriteBuf CodecConfig ObuHeader Params.

Section Gains.
Variable F : Type.
Variable step : Z -> F.                      (* Q7.8 value *)
Variable linear : Z -> Z -> Z -> Z -> F.     (* n, n_2, p_0, p_2 *)
Variable bezier : Z -> Z -> Z -> Z -> Z -> Z -> F. (* n, n_2, p_0, p_1, p_2, relative time *)
Variable to_linear : F -> F.

(* MODELS obu_util.h:70-118; the times are narrowed from int64_t to int (82-84).  A subblock that is not mix gain data is
   reinterpreted by a static_cast (parameter_block.cc:207): UB.
   SIMPLIFIED: in a Bezier curve the control time n_1 is at most the length of the curve and 2 * n_1 is computed as an int (obu_util.h:
   100-108), so that curves of more than 2^30 ticks are UB for late control times; the model says so for every control time. *)
Definition interpolate (d : pdata) (start stop target : Z) : res F :=
  if (target <? start) || (target >? stop) || (start >? stop) then Err InvalidArgument
  else let n := s32 (target - start) in let n2 := s32 (stop - start) in
       match d with
       | DStep s => Ok (step s)
       | DLinear s e => Ok (linear n n2 s e)
       | DBezier s e c t => if stop - start >? 2^30 then UB else Ok (bezier n n2 s c e t)
       | _ => UB
       end.

(* MODELS parameter_block.cc:145-173: the schedule of the block, or else of its definition (dereferenced without a check) *)
Definition block_duration (d : pdef) (b : pblock) (i : Z) : res Z :=
  match bl_sched b with
  | Some s => subblock_duration s i
  | None => match pb_sched (pd_base d) with Some s => subblock_duration s i | None => UB end
  end.
Definition block_num (d : pdef) (b : pblock) : Z := match bl_sched b with Some s => s_num s | None => pb_num (pd_base d) end.

(* MODELS parameter_block.cc:192-204: the while loop; fuel bounds the number of subblocks.  None = ran past the last one. *)
Fixpoint advance (fuel : nat) (dur : Z -> res Z) (num offset i start stop : Z) : res (option (Z * Z * Z)) :=
  if offset >=? stop then
    if i + 1 >=? num then Ok None
    else match fuel with
         | O => Diverge
         | S f => rbind (dur (i + 1)) (fun d => advance f dur num offset (i + 1) stop (stop + d))
         end
  else Ok (Some (i, start, stop)).
(* MODELS parameter_block.cc:191-219: the for loop over the remaining gains [old], whose first has index [offset] *)
Fixpoint fill (fuel : nat) (dur : Z -> res Z) (num : Z) (subs : list (option pdata)) (old : list F) (offset i start stop : Z)
  : res unit * list F :=
  match old with
  | [] => (Ok tt, [])
  | x :: t =>
      match advance fuel dur num offset i start stop with
      | Ok None => (Ok tt, old)
      | Ok (Some (i', start', stop')) =>
          match nth_error subs (Z.to_nat i') with
          | None => (UB, old)
          | Some None => (Err InvalidArgument, old)
          | Some (Some d) =>
              match interpolate d start' stop' offset with
              | Ok g => let '(r, t') := fill fuel dur num subs t (offset + 1) i' start' stop' in (r, to_linear g :: t')
              | Err c => (Err c, old) | Abort => (Abort, old) | UB => (UB, old) | Diverge => (Diverge, old)
              end
          end
      | Err c => (Err c, old) | Abort => (Abort, old) | UB => (UB, old) | Diverge => (Diverge, old)
      end
  end.
(* MODELS parameter_block.cc:175-221 GetLinearMixGains: status and the gains vector afterwards *)
Definition linear_mix_gains (d : pdef) (b : pblock) (old : list F) : res unit * list F :=
  if negb (pd_type (pd_kind d) =? 0) then (Err InvalidArgument, old)
  else match block_duration d b 0 with
       | Ok d0 => fill (Z.to_nat (block_num d b)) (block_duration d b) (block_num d b) (bl_subs b) old 0 0 0 d0
       | Err c => (Err c, old) | Abort => (Abort, old) | UB => (UB, old) | Diverge => (Diverge, old)
       end.
End Gains.
