(* Property C67, the down-mixing parameters: with which parameters the frames were down-mixed.  The specification (from_block, mixed_as,
   part_of, well_made) is at the head of FrameGenParams.v. *)
From Verif Require Import PropsTU PropsLabels PropsUnit.
From Verif Require PropsDemix.
From Verif Require Import Base WriteBuf CodecConfig Params AudioElement Timing ParamManager AeData Demix SubFrames FrameGen FrameGenFacts FrameGenSpec FrameGenReturns FrameGenParams PropsFrameGen.
From Coq Require Import Lia.

(* The frames are made in an order [H]; each frame which was output, or is still held back, was made in one of these makings, with its
   parameters and its end; each making is about such frames.  If the manager last given holds a demixing block for the element, then
   the frames of a making have the parameters of that block, and the block ends where the frames end; or the block ends where frames
   which were made before end, and these have the default parameters.  If there is no block, the parameters are the default ones; if the
   element has no demixing parameters, fixed ones *)
Theorem C67_parameters : forall {T P} (A : arith T) lin quant (code : Z -> list (list Z) -> res P) delay typed elems ms m clock cf g calls g' fs,
  create A delay typed elems ms m clock = Ok (cf, g) -> session A lin quant code cf calls (g, []) = Ok (g', fs) ->
  exists H, well_made (given_pms m calls) H /\
    (forall f, In f (queued g' ++ fs) -> exists r, In r H /\ part_of elems r f) /\ (forall r, In r H -> exists f, In f (queued g' ++ fs) /\ part_of elems r f).
Proof.
  intros T P A lin quant code delay typed elems ms m clock cf g calls g' fs HC HS.
  destruct (create_accounted A delay typed elems ms m clock cf g (given_pms m calls) HC (or_introl eq_refl)) as (HA & HE).
  apply (session_params A lin quant code cf (given_pms m calls)) in HS; [|intros m' times Hin; right; apply in_flat_map; exists (Params m' times); split; [exact Hin | now left] | exact HA].
  cbn [fst snd] in HS. destruct HS as (H & m0 & _ & _ & H3 & H4 & H5). exists H. split; [exact H3|].
  assert (PE : forall r f, part_of (cf_elems cf) r f -> part_of elems r (f : oframe T P)) by (intros r f (P1 & P2 & el & P3 & P4); split; [exact P1|]; split; [exact P2|]; exists el; split; [destruct HE as [HE | HE]; rewrite HE in P3; [exact P3 | destruct P3] | exact P4]).
  split.
  - intros f Hf. destruct (H4 f Hf) as (r & R1 & R2). exists r. split; [exact R1 | now apply PE].
  - intros r Hr. destruct (H5 r Hr) as (f & R1 & R2). exists f. split; [exact R1 | now apply PE].
Qed.

(* an element with demixing parameters: a block for the first frame and one for the second, none for the third *)
Definition mp_block (start mode : Z) : pbd := mkPbd 998 start (start + 4) [Some (DDemix mode 0)].
Definition mp_pm (b : option pbd) (next prev : Z) (r : rule) : pm := mkPm [(998, b)] [] [(20, mkDs 998 2 3 prev prev next r)] [].
Definition mp_calls : list (call Z) :=
  [Params (mp_pm (Some (mp_block 0 1)) 0 0 FirstFrame) []; Add 20 Mono [1; 2; 3; 4]; Out; Params (mp_pm (Some (mp_block 4 6)) 4 0 Normal) []; Add 20 Mono [5; 6; 7; 8]; Out; Add 20 Mono [9; 10; 11; 12]; Out].
Lemma mp_ex : exists cf g g' fs, create (P := list (list Z)) zarith (fun _ => Ok 0) (fun _ => true) [(20, mkElem [(1, [Mono])] 4 16 16 [] [])] [mkMeta 20 [Mono] 0 false 0 false] (mp_pm None 0 0 FirstFrame) (mkG [(1, mkTd 48000 0)] []) = Ok (cf, g) /\
  session zarith (fun z => z) Ok ex_code cf mp_calls (g, []) = Ok (g', fs) /\
  map (fun f => (o_t1 f, o_dm f)) fs = [(4, Some (mkDmix 707 707 707 707 (-1) 0 0 true)); (8, Some (mkDmix 1000 866 866 866 1 1 179 true)); (12, Some (mkDmix 1000 866 866 866 (-1) 3 658 true))].
Proof. do 4 eexists. split; [vm_compute; reflexivity|]. split; [vm_compute; reflexivity|]. vm_compute. reflexivity. Qed.
