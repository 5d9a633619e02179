(* Property C69: every call of the frame generator and of the encoder returns.  The loops which can run without bound are those of
   audio_frame_generator.cc:443-531 (rounds until a frame is made), substream_frames.h (PadZeros) and the look for the next free
   frame; in the model an endless loop is the result Diverge. *)
From Verif Require Import PropsTU PropsLabels PropsUnit.
From Verif Require PropsDemix.
From Verif Require Import Base WriteBuf CodecConfig Params AudioElement Timing ParamManager TempUnit AeData Demix SubFrames FrameGen FrameGenFacts FrameGenSpec FrameGenReturns Encoder.
From Verif Require Import EncoderFacts PropsFrameGen.
From Coq Require Import Lia.

(* the arguments: frames have samples, and elements which share a substream have frames of one size *)
Definition framed (elems : list (Z * elem)) : Prop :=
  (forall id el, In (id, el) elems -> 0 < el_n el) /\
  (forall id el id' el' j, In (id, el) elems -> In (id', el') elems -> In j (map fst (el_subs el)) -> In j (map fst (el_subs el')) -> el_n el = el_n el').

(* Create returns, and whatever is called then, with whatever arguments and in whatever order, each call returns: a result or an error.
   [quant], [code], [delay]: the conversions and the encoders, which return *)
Theorem C69_frames : forall {T P} (A : arith T) lin quant (code : Z -> list (list Z) -> res P) delay typed elems ms m clock,
  (forall x, quant x <> Diverge) -> (forall sid fr, code sid fr <> Diverge) -> (forall sid, delay sid <> Diverge) -> framed elems ->
  @create T P A delay typed elems ms m clock <> Diverge /\
  forall cf g calls, create A delay typed elems ms m clock = Ok (cf, g) -> session A lin quant code cf calls (g, []) <> Diverge.
Proof.
  intros T P A lin quant code delay typed elems ms m clock HQ HC HD (HF1 & HF2). destruct (size_facts elems HF1 HF2) as (S1 & S2).
  destruct (@create_facts T P A (size_of elems) S1 delay HD typed elems ms m clock S2) as (C1 & C2). split; [exact C1|]. intros cf g calls H. destruct (C2 _ _ H) as (G1 & G2).
  apply (session_back A lin quant code HQ HC (size_of elems) S1); [|exact G1]. intros id el Hin j Hj. destruct G2 as [G2 | G2]; rewrite G2 in Hin; [now apply (S2 id) | destruct Hin].
Qed.

(* ----- the encoder ----- *)
Lemma metas_back : forall {M} kind_of (l : list (@bmeta M)) m, back (add_metas kind_of l m).
Proof. intros M kind_of. induction l as [|b l IH]; intros m; cbn [add_metas]; [discriminate|]. destruct (kind_of (bm_id b)); [apply IH | discriminate]. Qed.
Lemma param_back : forall c id i d, back (fst (fst (fst (next_param c id i d)))).
Proof. intros. unfold next_param, get_timestamps. destruct (m_find id _); cbn [fst]; [|discriminate]. unfold rthen. cbn [rbind]. apply veq_back. Qed.
Lemma generate_back : forall {T P M} (subs_of : kind -> list (oframe T P) -> @bmeta M -> res (list (option pdata))), (forall k fs b, subs_of k fs b <> Diverge) ->
  forall k fs l c, back (generate subs_of k fs l c).
Proof.
  intros T P M subs_of HS k fs. induction l as [|b l IH]; intros c; cbn [generate]; [discriminate|]. pose proof (param_back c (bm_id b) (bm_start b) (bm_dur b)) as PB.
  destruct (next_param _ _ _ _) as (((r, s), s'), c'). cbn [fst] in PB. apply back_then; [exact PB|]. apply back_bind; [apply HS|]. intros x _. apply back_bind; [apply IH | discriminate].
Qed.
Lemma vsome_back : forall {X} (o : option X), back (vsome o).
Proof. intros X []; discriminate. Qed.
Lemma vcond_back : forall b, back (vcond b).
Proof. intros []; discriminate. Qed.
Lemma view_back : forall bs fs os, back (tu_create bs fs os).
Proof.
  intros bs fs os. unfold tu_create. apply back_bind.
  { destruct fs as [|f fs]; [destruct os as [|o os]; [discriminate|]|].
    - unfold stats_of_arb. apply back_bind; [apply vsome_back|]. intros. apply back_bind; [apply vsome_back | discriminate].
    - unfold stats_of_frame. apply back_bind; [apply vsome_back|]. intros. apply back_bind; [apply vsome_back|]. intros. apply back_bind; [apply vsome_back|]. intros. cbv zeta. apply back_then; [apply vcond_back | discriminate]. }
  intros s _. apply back_bind.
  { generalize (@List.nil Z). induction fs as [|x t IH]; intros seen; cbn [check_frames]; [discriminate|]. apply back_bind; [apply vsome_back|]. intros f _. destruct (zmem _ _); [discriminate|].
    apply back_bind; [apply vsome_back|]. intros. apply back_bind; [apply vsome_back|]. intros. repeat (apply back_then; [apply veq_back|]). apply back_bind; [apply IH | discriminate]. }
  intros l1 _. apply back_bind.
  { generalize (@List.nil Z). induction bs as [|x t IH]; intros seen; cbn [check_blocks]; [discriminate|]. apply back_bind; [apply vsome_back|]. intros f _. destruct (zmem _ _); [discriminate|].
    repeat (apply back_then; [apply veq_back|]). apply back_bind; [apply IH | discriminate]. }
  intros l2 _. apply back_bind; [|discriminate]. generalize false. induction os as [|x t IH]; intros h; cbn [check_arbs]; [apply back_then; [apply vcond_back | discriminate]|].
  apply back_bind; [apply vsome_back|]. intros o _. apply back_bind; [apply vsome_back|]. intros k _. apply back_then; [apply veq_back|]. apply back_bind; [apply IH | discriminate].
Qed.
Lemma push_unit_back : forall {T P} cf (u : @tunit T P), back (push_unit cf u).
Proof. intros. unfold push_unit. apply back_bind; [apply view_back | discriminate]. Qed.

Section Enc.
Context {T P M : Type}.
Variable A : arith T.
Variable lin : Z -> T.
Variable quant : T -> res Z.
Variable code : Z -> list (list Z) -> res P.
Variable kind_of : Z -> option kind.
Variable subs_of : kind -> list (oframe T P) -> @bmeta M -> res (list (option pdata)).
Variable order : list (Z * label * list T) -> list (Z * label * list T).
Hypothesis quant_back : forall x, back (quant x).
Hypothesis code_back : forall sid fr, back (code sid fr).
Hypothesis subs_back : forall k fs b, back (subs_of k fs b).
Variable nn : Z -> nat.
Hypothesis nn_pos : forall j, (0 < nn j)%nat.
Variable cf : cfg.
Hypothesis sizes : forall id el, In (id, el) (cf_elems cf) -> of_size nn el.
Notation good := (fun g : gen T P => sane nn (g_subs g)).
Lemma cached_facts : forall l g, good g -> back (add_cached A lin quant code cf l g) /\ forall g', add_cached A lin quant code cf l g = Ok g' -> good g'.
Proof.
  induction l as [|((id, lb), xs) l IH]; intros g HG; cbn [add_cached]; [split; [discriminate|]; intros g' H; injection H as <-; exact HG|].
  destruct (add_facts A lin quant code quant_back code_back nn nn_pos cf sizes id lb xs g HG) as (F1 & F2). destruct (add_samples _ _ _ _ _ _ _ _ _) as [g1| | | |]; cbn [rbind]; try (split; [discriminate | intros; discriminate]); [|contradiction].
  apply IH. now apply F2.
Qed.
Lemma encoder_output_facts : forall e, good (e_gen e) -> back (output A lin quant code subs_of order cf (e : @enc T P M)) /\
  forall e' u, output A lin quant code subs_of order cf (e : @enc T P M) = Ok (e', u) -> good (e_gen e').
Proof.
  intros e HG. unfold output. 
  pose proof (generate_back subs_of subs_back KDemix [] (e_meta e KDemix) (g_clock (e_gen e))) as B1. destruct (generate subs_of KDemix [] _ _) as [(bd, cd)| | | |]; cbn [rbind]; try (split; [discriminate | intros; discriminate]); [|contradiction]. cbn [fst snd].
  pose proof (generate_back subs_of subs_back KMix [] (e_meta e KMix) cd) as B2. destruct (generate subs_of KMix [] _ _) as [(bm, cm)| | | |]; cbn [rbind]; try (split; [discriminate | intros; discriminate]); [|contradiction]. cbn [fst snd]. cbv zeta.
  set (g0 := set_env _ _ _). assert (G0 : good g0) by exact HG. clearbody g0.
  destruct (cached_facts (order (filter some_samples (e_cache e))) g0 G0) as (F1 & F2). destruct (add_cached _ _ _ _ _ _ _) as [g1| | | |]; cbn [rbind]; try (split; [discriminate | intros; discriminate]); [|contradiction].
  specialize (F2 _ eq_refl). set (g2 := if e_final e then finalize g1 else g1). assert (G2 : good g2) by (unfold g2, finalize; destruct (e_final e); [destruct (g_stage g1)|]; exact F2). clearbody g2.
  destruct (output_facts A lin quant code quant_back code_back nn nn_pos cf sizes g2 G2) as (O1 & O2). destruct (output_frames _ _ _ _ _ _) as [(g3, fs)| | | |]; cbn [rbind]; try (split; [discriminate | intros; discriminate]); [|contradiction].
  specialize (O2 _ _ eq_refl). cbn [fst snd].
  assert (MC : forall x : @enc T P M, good (e_gen x) -> good (e_gen (maybe_close x))) by (intros x Hx; unfold maybe_close; destruct (generating_units x); exact Hx).
  destruct fs as [|f0 fs].
  - destruct (e_final e).
    + destruct (splice_first (e_arb e)) as (arbs, rest). split; [apply back_then; [destruct (FrameGen.nil arbs); [discriminate | apply push_unit_back] | discriminate]|]. intros e' u H. rs H E. injection H as <- _. apply MC. exact O2.
    + split; [discriminate|]. intros e' u H. injection H as <- _. exact O2.
  - destruct (same_times f0 (f0 :: fs)); cbn [negb]; [|split; [discriminate | intros; discriminate]].
    match goal with |- context [generate subs_of KRecon ?a ?b ?c] => pose proof (generate_back subs_of subs_back KRecon a b c) as B3; destruct (generate subs_of KRecon a b c) as [(br, cr)| | | |] end; cbn [rbind]; try (split; [discriminate | intros; discriminate]); [|contradiction].
    destruct (splice (o_t0 f0) (e_arb e)) as (arbs, rest). split; [apply back_then; [apply push_unit_back | discriminate]|]. intros e' u H. rs H E. injection H as <- _. apply MC. exact O2.
Qed.
Lemma erun_back : forall cs e us, good (e_gen e) -> back (erun A lin quant code kind_of subs_of order cf cs ((e : @enc T P M), us)).
Proof.
  induction cs as [|c cs IH]; intros e us HG; cbn [erun]; [discriminate|]. destruct c as [d | |]; cbn [estep fst snd].
  - unfold encode. pose proof (metas_back kind_of (ed_meta d) (e_meta e)) as B. destruct (add_metas _ _ _) as [m| | | |]; cbn [rbind]; try discriminate; [|contradiction]. apply IH. exact HG.
  - cbn [rbind]. apply IH. unfold finalize_encode, maybe_close. destruct (e_final e); [exact HG|]. destruct (generating_units _); exact HG.
  - destruct (encoder_output_facts e HG) as (F1 & F2). destruct (output _ _ _ _ _ _ _ _) as [(e1, u)| | | |]; cbn [rbind fst snd]; try discriminate; [|contradiction]. apply IH. now apply (F2 e1 u).
Qed.
End Enc.

(* the same for the encoder: Encode, FinalizeEncode and OutputTemporalUnit *)
Theorem C69_encoder : forall {T P M} (A : arith T) lin quant (code : Z -> list (list Z) -> res P) kind_of (subs_of : kind -> list (oframe T P) -> @bmeta M -> res (list (option pdata))) order
    delay typed elems ms m clock cf g arbs calls,
  (forall x, quant x <> Diverge) -> (forall sid fr, code sid fr <> Diverge) -> (forall sid, delay sid <> Diverge) -> (forall k fs b, subs_of k fs b <> Diverge) -> framed elems ->
  create A delay typed elems ms m clock = Ok (cf, g) ->
  erun A lin quant code kind_of subs_of order cf calls (new_enc arbs g, []) <> Diverge.
Proof.
  intros T P M A lin quant code kind_of subs_of order delay typed elems ms m clock cf g arbs calls HQ HC HD HS (HF1 & HF2) H. destruct (size_facts elems HF1 HF2) as (S1 & S2).
  destruct (@create_facts T P A (size_of elems) S1 delay HD typed elems ms m clock S2) as (_ & C2). destruct (C2 _ _ H) as (G1 & G2).
  apply (erun_back A lin quant code kind_of subs_of order HQ HC HS (size_of elems) S1); [|exact G1]. intros id el Hin j Hj. destruct G2 as [G2 | G2]; rewrite G2 in Hin; [now apply (S2 id) | destruct Hin].
Qed.

(* ----- the hypotheses are met ----- *)
Lemma ex_framed : framed ex_elems.
Proof.
  split.
  - intros id el [Q | [Q | []]]; injection Q as <- <-; reflexivity.
  - intros id el id' el' j [Q | [Q | []]] [R | [R | []]] _ _; injection Q as <- <-; injection R as <- <-; reflexivity.
Qed.

(* ----- C69 does not say that no call crashes ----- *)
(* an encoder which, like WritePcmFrameToBuffer (cli_util.cc:175-200), reads from each channel as many samples as the first has *)
Definition reads_all (sid : Z) (fr : list (list Z)) : res (list (list Z)) :=
  if forallb (fun ch => (length (hd [] fr) <=? length ch)%nat) fr then Ok fr else UB.
Definition stereo_session (code : Z -> list (list Z) -> res (list (list Z))) (declared : list label) (calls : list (call Z)) : res (list (list (list Z)) * bool) :=
  rbind (create (P := list (list Z)) zarith (fun _ => Ok 2) (fun _ => false) [(10, mkElem [(0, [L2; R2])] 4 16 16 [] [])] [mkMeta 10 declared 2 false 0 false]
     (mkPm [] [] [] []) (mkG [(0, mkTd 48000 0)] [])) (fun cg =>
  rbind (session zarith (fun z => z) Ok code (fst cg) calls (snd cg, [])) (fun r => Ok (map (fun f => o_raw f) (snd r), generating (fst r)))).
(* two channels of a pair with 4 samples and 1: the samples are not taken until the lengths are equal; but only the labels which the
   metadata name are looked at.  If they name one channel of the pair only, the pair is encoded as soon as that channel is full, and
   the encoder reads behind the end of the other *)
Lemma C69_undeclared_read_refuted :
  stereo_session reads_all [L2; R2] [Add 10 L2 [1; 2; 3; 4]; Add 10 R2 [11]; Out] = Ok ([], true) /\ stereo_session reads_all [L2] [Add 10 R2 [11]; Add 10 L2 [1; 2; 3; 4]] = UB.
Proof. split; vm_compute; reflexivity. Qed.
(* even if the encoder only takes what is there: the place where the other channel goes on is in a frame which is gone *)
Lemma C69_undeclared_place_refuted : stereo_session (fun _ fr => Ok fr) [L2] [Add 10 R2 [11]; Add 10 L2 [1; 2; 3; 4]; Out; Add 10 R2 [12]; Add 10 L2 [5]] = UB.
Proof. vm_compute. reflexivity. Qed.
