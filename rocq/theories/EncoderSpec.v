(* The words of property C68: what a user asks of the encoder, and what its temporal units are *)
From Verif Require Import Base WriteBuf CodecConfig Params AudioElement Timing ParamManager TempUnit AeData Demix SubFrames FrameGen FrameGenSpec Encoder.
From Coq Require Import Permutation.

Section Spec.
Context {T P M : Type}.
Notation oframe := (oframe T P).
Notation bmeta := (@bmeta M).
Notation edata := (@edata T M).
Notation ecall := (@ecall T M).
Notation tunit := (@tunit T P).
(* the metadata of parameter blocks of one kind, in the order in which they were given *)
Definition given (kind_of : Z -> option kind) (k : kind) (cs : list ecall) : list bmeta :=
  flat_map (fun c => match c with Encode d => filter (fun b => match kind_of (bm_id b) with Some k' => kind_eqb k k' | None => false end) (ed_meta d) | _ => [] end) cs.
(* the block made from metadata: its ID, its times, its contents, which may depend on the frames fs *)
Definition made_from (subs_of : kind -> list oframe -> bmeta -> res (list (option pdata))) (k : kind) (fs : list oframe) (m : bmeta) (b : pbd) : Prop :=
  p_id b = bm_id m /\ p_start b = bm_start m /\ p_stop b = s64 (bm_start m + bm_dur m) /\ subs_of k fs m = Ok (p_subs b).
(* the arbitrary OBUs with a timestamp *)
Definition timed (o : arb) : bool := match o_tick o with Some _ => true | None => false end.
(* a temporal unit: frames and blocks of one time, no two of a substream or a parameter; or arbitrary OBUs alone *)
Definition proper_unit (u : tunit) : Prop :=
  (exists t0 t1 ts te,
    u_frames u <> [] /\ Forall (fun f => o_t0 f = t0 /\ o_t1 f = t1 /\ o_start f = ts /\ o_end f = te) (u_frames u) /\ NoDup (map o_id (u_frames u)) /\
    Forall (fun b => p_start b = t0 /\ p_stop b = t1) (blocks_of u) /\ NoDup (map p_id (blocks_of u)) /\
    Forall (fun o => o_tick o = Some t0) (u_arb u)) \/
  (exists t, u_frames u = [] /\ blocks_of u = [] /\ u_arb u <> [] /\ Forall (fun o => o_tick o = Some t) (u_arb u) /\ Exists (fun o => o_invalid o = true) (u_arb u)).
(* the calls of the frame generator which the calls of the user come to, but for the parameters; [c]: the samples which were given
   since the last temporal unit was asked for, [final]: whether the end was announced *)
Fixpoint asked (order : list (Z * label * list T) -> list (Z * label * list T)) (cs : list ecall) (c : list (Z * label * list T)) (final : bool) : list (call T) :=
  match cs with
  | [] => []
  | Encode d :: t => asked order t (if final then c else fill_cache (ed_samples d) c) final
  | FinalizeEncode :: t => asked order t c true
  | OutputTemporalUnit :: t =>
      map (fun e => Add (fst (fst e)) (snd (fst e)) (snd e)) (order (filter some_samples c)) ++ (if final then [Fin] else []) ++ [Out] ++ asked order t (emptied_cache c) final
  end.
Definition plain (c : call T) : bool := match c with Params _ _ => false | _ => true end.
(* the samples which a call of Encode gives to an element; an empty span is as none *)
Definition fed (id : Z) (d : edata) : list (label * list T) :=
  flat_map (fun e => if fst e =? id then filter (fun s => negb (nil (snd s))) (snd e) else []) (ed_samples d).
(* IamfTemporalUnitData holds maps: no element and no label twice *)
Definition maps_ok (d : edata) : Prop := NoDup (map fst (ed_samples d)) /\ Forall (fun e => NoDup (map fst (snd e))) (ed_samples d).
(* the loop of the documentation: Encode and OutputTemporalUnit in turn, FinalizeEncode after the last Encode with samples, then
   anything *)
Definition documented (ds : list edata) (dl : edata) (post : list ecall) : list ecall :=
  flat_map (fun d => [Encode d; OutputTemporalUnit]) ds ++ Encode dl :: FinalizeEncode :: OutputTemporalUnit :: post.
(* how often OutputTemporalUnit is called *)
Fixpoint outputs (cs : list ecall) : nat := match cs with [] => 0%nat | OutputTemporalUnit :: t => S (outputs t) | _ :: t => outputs t end.
(* the rounds of samples of an element *)
Definition rounds_of (id : Z) (ds : list edata) : list (list (label * list T)) := filter (fun r => negb (nil r)) (map (fed id) ds).
End Spec.
