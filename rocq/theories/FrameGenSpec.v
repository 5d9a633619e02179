(* How the audio frame generator is used: the words of property C67 *)
From Verif Require Import Base WriteBuf CodecConfig Params AudioElement Timing ParamManager AeData Demix SubFrames FrameGen.
From Coq Require Import Permutation.

Section Spec.
Context {T P : Type}.
Variable A : arith T.
Variable lin : Z -> T.
Variable quant : T -> res Z.
Variable code : Z -> list (list Z) -> res P.
Notation gen := (gen T P).
Notation oframe := (oframe T P).
(* the calls of a user: AddSamples, Finalize, OutputFrames; and what the rest of the encoder does between them: new parameter
   blocks are given to the parameters manager, the times of parameters advance *)
Inductive call := Add (id : Z) (l : label) (xs : list T) | Fin | Out | Params (m : pm) (times : tmap).
Definition with_params (m : pm) (times : tmap) (g : gen) : gen :=
  mkGen (g_stage g) (g_in g) (g_subs g) (g_trims g) (g_coders g) m (mkG (g_audio (g_clock g)) times).
Definition call_step (cf : cfg) (c : call) (s : gen * list oframe) : res (gen * list oframe) :=
  match c with
  | Add id l xs => rbind (add_samples A lin quant code cf id l xs (fst s)) (fun g => Ok (g, snd s))
  | Fin => Ok (finalize (fst s), snd s)
  | Out => rbind (output_frames A lin quant code cf (fst s)) (fun r => Ok (fst r, snd s ++ snd r))
  | Params m times => Ok (with_params m times (fst s), snd s)
  end.
(* the state after the calls and all the frames which were output *)
Fixpoint session (cf : cfg) (cs : list call) (s : gen * list oframe) : res (gen * list oframe) :=
  match cs with [] => Ok s | c :: t => rbind (call_step cf c s) (session cf t) end.
(* how often OutputFrames is called *)
Fixpoint outs (cs : list call) : nat := match cs with [] => O | Out :: t => S (outs t) | _ :: t => outs t end.
(* the samples which were added for an element *)
Definition adds_of (id : Z) (cs : list call) : list (label * list T) :=
  flat_map (fun c => match c with Add i l xs => if i =? id then [(l, xs)] else [] | _ => [] end) cs.
(* all the labels once, each with k samples *)
Definition full_round (labels : list label) (k : nat) (r : list (label * list T)) : Prop :=
  Permutation (map fst r) labels /\ Forall (fun e => length (snd e) = k) r /\ (0 < k)%nat.
(* the samples of a round, and of nothing else *)
Definition samples_of (r : list (label * list T)) (m : smap) : Prop :=
  (forall l xs, In (l, xs) r -> sm_find (Orig l) m = Some xs) /\ (forall k xs, In (k, xs) m -> exists l, k = Orig l /\ In l (map fst r)).
(* the channels of a substream: raw and as they are given to its coder, after down-mixing the samples of a round *)
Definition down_mixed (el : elem) (p : dmix) (m : smap) (labs : list label) (rs : list (list T * list Z)) : Prop :=
  exists m', run_downmixers A (params_of A p) (el_down el) m = Ok m' /\ rmap (channel_out A lin quant (el_gains el) m') labs = Ok rs.
(* channel c of the blocks, one after the other *)
Definition channel {X} (c : nat) (bs : list (list (list X))) : list X := concat (map (fun b => nth c b []) bs).
(* the largest delay of the coders of the elements which have metadata; 0 if there is none *)
Definition greatest_delay (delay : Z -> res Z) (elems : list (Z * elem)) (ms : list meta) (D : Z) : Prop :=
  0 <= D /\
  (forall me el j x, In me ms -> m_find (me_id me) elems = Some el -> In j (map fst (el_subs el)) -> delay j = Ok x -> x <= D) /\
  (D = 0 \/ exists me el j, In me ms /\ m_find (me_id me) elems = Some el /\ In j (map fst (el_subs el)) /\ delay j = Ok D).
(* the audio element el, described by the metadata me, whose coders have the delay d; D is the greatest delay of all *)
Record set_up (delay : Z -> res Z) (elems : list (Z * elem)) (ms : list meta) (clock : gtm) (me : meta) (el : elem) (n d D : Z) : Prop := {
  su_ids : NoDup (map me_id ms);
  su_keys : NoDup (map fst elems);
  su_in : In me ms;
  su_el : m_find (me_id me) elems = Some el;
  su_n : el_n el = n;
  su_pos : 0 < n;
  su_small : 3 * n < 2 ^ 32;
  su_subs : NoDup (map fst (el_subs el));
  su_some : el_subs el <> [];
  su_labs : forall l, In l (el_subs el) -> snd l <> [];
  su_names : me_labels me <> [];
  su_apart : forall id' el', id' <> me_id me -> m_find id' elems = Some el' -> forall j, In j (map fst (el_subs el)) -> ~ In j (map fst (el_subs el'));
  su_delay : forall j, In j (map fst (el_subs el)) -> delay j = Ok d;
  su_d : 0 <= d;
  su_max : greatest_delay delay elems ms D;
  su_end : 0 <= me_end me;
  su_start : 0 <= me_start me;
  su_start_small : me_start me + D < 2 ^ 32;
  su_clock : forall j, In j (map fst (el_subs el)) -> exists td, m_find j (g_audio clock) = Some td /\ 0 <= td_stamp td < 2 ^ 63
}.
Definition frames_of (sid : Z) (fs : list oframe) : list oframe := filter (fun f => o_id f =? sid) fs.
(* the samples of an element come in rounds: all its labels, each with as many samples; only the last round may be shorter than
   a frame *)
Definition well_fed (n : Z) (labels : list label) (rounds : list (list (label * list T))) : Prop :=
  exists rs r k, rounds = rs ++ [r] /\ Forall (fun r => exists k, full_round labels k r /\ n <= Z.of_nat k) rs /\ full_round labels k r.
(* samples are added for this element and for others, frames are taken; after the last samples of this element no frames are
   taken until Finalize is called; whatever is called then *)
Definition usual_calls (n id : Z) (labels : list label) (rounds : list (list (label * list T))) (calls : list (call)) : Prop :=
  exists p1 l xs p2 post, calls = p1 ++ Add id l xs :: p2 ++ Fin :: post /\
    Forall (fun c => c <> Fin) p1 /\ Forall (fun c => (exists i l' ys, c = Add i l' ys /\ i <> id) \/ (exists m times, c = Params m times)) p2 /\
    adds_of id p1 ++ [(l, xs)] = concat rounds /\ well_fed n labels rounds.
(* every channel of a block has n samples *)
Definition cut_at (n : Z) {X} (k : nat) (b : list (list X)) : Prop := length b = k /\ Forall (fun c => length c = Z.to_nat n) b.
(* what the frames F of a substream are, all in all; D: the greatest delay, d: that of the coder of the substream, c0: the
   time at the start, mixed: the samples of the rounds and the parameters with which they were down-mixed *)
Definition account (el : elem) (me : meta) (n D d c0 : Z) (mixed : list (dmix * smap)) (sid : Z) (labs : list label) (F : list oframe) : Prop :=
  exists rss ins later pad,
    Forall2 (fun b rs => down_mixed el (fst b) (snd b) labs rs) mixed rss /\
    0 <= pad < n /\ (me_end_pad me = true -> pad <= me_end me) /\
    (* the samples of the frames *)
    Forall (fun f => cut_at n (length labs) (o_raw f)) F /\
    (forall c, (c < length labs)%nat -> channel c (map o_raw F) = repeat (a_lit A 0 1) (Z.to_nat D) ++ channel c (map (map fst) rss) ++ repeat (a_lit A 0 1) (Z.to_nat pad)) /\
    (* what the coder was given *)
    Forall2 (fun f i => code sid i = Ok (o_data f)) F ins /\ Forall (cut_at n (length labs)) ins /\
    (forall c, (c < length labs)%nat -> channel c ins = repeat 0 (Z.to_nat (D - d)) ++ channel c (map (map snd) rss) ++ repeat 0 (Z.to_nat (pad + d))) /\
    (* the trimming *)
    map o_start F = map (fun i => Z.min n (Z.max 0 (me_start me + (if me_start_delay me then 0 else D) - Z.of_nat i * n))) (seq 0 (length F)) /\
    (exists fs f, F = fs ++ [f] /\ Forall (fun f => o_end f = 0) fs /\ o_end f = me_end me + (if me_end_pad me then 0 else pad) /\ o_end f <= n) /\
    Forall (fun f => o_flag f = negb (o_end f =? 0) || negb (o_start f =? 0)) F /\
    (* the time *)
    map o_t0 F = map (fun i => s64 (c0 + Z.of_nat i * n)) (seq 0 (length F)) /\
    map o_t1 F = map (fun i => s64 (c0 + Z.of_nat (S i) * n)) (seq 0 (length F)) /\
    (* the parameters *)
    map o_dm F = map Some (map fst mixed ++ later).
(* channel c of a frame after trimming *)
Definition kept (c : nat) (f : oframe) : list T :=
  skipn (Z.to_nat (o_start f)) (firstn (length (nth c (o_raw f) []) - Z.to_nat (o_end f)) (nth c (o_raw f) [])).
End Spec.
Arguments call : clear implicits.
