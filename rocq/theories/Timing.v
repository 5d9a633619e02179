(* Model of cli/global_timing_module.cc: GlobalTimingModule.
   absl::flat_hash_map<id, TimingData> is an association list without duplicate keys; the unspecified iteration order of the
   hash map is the order of the list, and Create takes its arguments in an arbitrary (list) order.
   InternalTimestamp is int64_t; sums beyond 2^63 - 1 (3 million years at 96 kHz) are signed
   overflow in C++, and are modelled as s64 wrap-around; the theorems say when they do not happen. *)
From Verif Require Import Base WriteBuf CodecConfig.

(* MODELS global_timing_module.h:87-93 TimingData *)
Record td := mkTd { td_rate : Z; td_stamp : Z }.
Definition tmap := list (Z * td).
Fixpoint m_find {V} (k : Z) (m : list (Z * V)) : option V :=
  match m with [] => None | (i, v) :: t => if i =? k then Some v else m_find k t end.
Fixpoint m_set {V} (k : Z) (v : V) (m : list (Z * V)) : list (Z * V) :=
  match m with [] => [] | (i, x) :: t => if i =? k then (i, v) :: t else (i, x) :: m_set k v t end.
Record gtm := mkG { g_audio : tmap; g_param : tmap }.

(* MODELS global_timing_module.cc:48-66: one insertion (substreams of all audio elements in turn, with their sample rate) and
   global_timing_module.cc:69-85 (parameter IDs with their rate): a zero rate or a duplicate ID is refused. *)
Fixpoint insert_all (l : list (Z * Z)) (m : tmap) : res tmap :=
  match l with
  | [] => Ok m
  | (id, rate) :: t =>
      if rate =? 0 then Err InvalidArgument
      else match m_find id m with Some _ => Err InvalidArgument | None => insert_all t (m ++ [(id, mkTd rate 0)]) end
  end.
(* MODELS global_timing_module.cc:39-109 Create; [aes]: (sample rate, substream IDs) of each audio element. nullptr = Err *)
Definition gtm_create (aes : list (Z * list Z)) (params : list (Z * Z)) : res gtm :=
  rbind (insert_all (flat_map (fun a => map (fun i => (i, fst a)) (snd a)) aes) []) (fun a =>
  rbind (insert_all params []) (fun p => Ok (mkG a p))).
(* MODELS global_timing_module.cc:153-174 GetTimestampsForId: status, start, end, updated map *)
Definition get_timestamps (m : tmap) (id duration : Z) : res unit * Z * Z * tmap :=
  match m_find id m with
  | None => (Err InvalidArgument, 0, duration, m)
  | Some d => (Ok tt, td_stamp d, s64 (td_stamp d + duration), m_set id (mkTd (td_rate d) (s64 (td_stamp d + duration))) m)
  end.
(* MODELS cli_util.cc:164-173 CompareTimestamps *)
Definition compare_timestamps (expected actual : Z) : res unit := veq expected actual.
(* MODELS global_timing_module.cc:111-117 *)
Definition next_audio (g : gtm) (id duration : Z) : res unit * Z * Z * gtm :=
  let '(r, s, e, m) := get_timestamps (g_audio g) id duration in (r, s, e, mkG m (g_param g)).
(* MODELS global_timing_module.cc:119-130 *)
Definition next_param (g : gtm) (id input duration : Z) : res unit * Z * Z * gtm :=
  let '(r, s, e, m) := get_timestamps (g_param g) id duration in
  (r >>> compare_timestamps input s, s, e, mkG (g_audio g) m).
(* MODELS global_timing_module.cc:132-151 *)
Definition global_timestamp (g : gtm) : res (option Z) :=
  match g_audio g with
  | [] => Err InvalidArgument
  | (_, d) :: _ => if forallb (fun p => td_stamp (snd p) =? td_stamp d) (g_audio g) then Ok (Some (td_stamp d)) else Ok None
  end.
