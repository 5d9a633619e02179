(* C57: temporal units written by the sequencer are what the temporal unit parser reads. *)
From Coq Require Import Permutation.
From Verif Require Import TempUnit PropsTU Base WriteBuf ReadBuf Leb BufSpec LebSpec BitFacts WriteBufFacts ReadBufFacts LebFacts
  ParseFacts EndToEnd ObuHeader ObuHeaderFacts FrameFacts SeqFacts BndFacts PureFacts SimpleObus CodecConfig Params AudioElement MixPresentation
  Timing PropsTiming ParamManager PropsPM AeData Profile MixSelect Processor PropsObu PropsCodec PropsAE PropsMix PropsParams ProcFacts StreamSpec StreamFacts
  Session SessionFacts PropsProc PropsSession Reorder Pcm DecoderApi Descriptors DescFacts PropsDesc PropsInit PropsLabels PropsDescModes Sequencer PropsSeq SeqRound PropsSeqDesc UnitRound.
From Verif Require PropsDecoderStream.
Local Open Scope Z_scope.

(* ================= SPEC ================= *)
Notation tu_blocks := Sequencer.tu_blocks.
Notation tu_frames := Sequencer.tu_frames.
Notation ob_h := Sequencer.ob_h.
(* Arbitrary OBUs that have a place in a temporal unit: metadata, reserved types, redundant descriptors; temporal delimiters, too, but
   not between the parameter blocks and the audio frames. *)
Definition ignored (a : arbitrary) : Prop :=
  24 <= ar_type a <= 30 \/
  (h_red (ob_h (ar_obu a)) = true /\ (ar_type a = kSequenceHeader \/ ar_type a = kCodecConfig \/ ar_type a = kAudioElement \/ ar_type a = kMixPresentation)).
Definition accompanies (a : arbitrary) : Prop :=
  match ar_hook a with
  | BeforeBlocks | AfterFrames => obu_wf (Forall byteP) (ar_obu a) /\ (ignored a \/ ar_type a = kTemporalDelimiter)
  | AfterBlocks => obu_wf (Forall byteP) (ar_obu a) /\ ignored a
  | _ => True
  end.
(* For how long the blocks of parameter [i] last. *)
Definition block_time (i : Z) (b : obu (pdef * pblock)) : Z :=
  if bl_id (snd (ob_v b)) =? i then block_duration (fst (ob_v b)) (snd (ob_v b)) else 0.
Definition lasting (i : Z) (us : list tunit) : Z := sum (map (block_time i) (flat_map tu_blocks us)).
(* A temporal unit, after some others, as an encoder makes it: units of [n] ticks follow one another; one frame for each substream; at
   most one block for each parameter, of the definition the descriptors give, which begins where the one before it ended. *)
Definition frame_id (f : obu aframe) : Z := af_id (ob_v f).
Definition block_id (b : obu (pdef * pblock)) : Z := bl_id (snd (ob_v b)).
Definition unit_ok (D : descs) (n : Z) (earlier : list tunit) (u : tunit) : Prop :=
  tu_start u = zlen earlier * n /\
  Permutation (map frame_id (tu_frames u)) (flat_map ai_subs (d_aes D)) /\ Forall (obu_wf aframe_wf) (tu_frames u) /\
  NoDup (map block_id (tu_blocks u)) /\
  Forall (obu_wf (fun x => m_find (bl_id (snd x)) (d_defs D) = Some (fst x) /\ pdef_wf (fst x) /\ fits (fst x) (snd x) /\
                           0 <= block_duration (fst x) (snd x) < 2^32 /\ lasting (bl_id (snd x)) earlier = tu_start u)) (tu_blocks u) /\
  Forall accompanies (tu_arb u).
Definition playable (D : descs) (n : Z) (us : list tunit) : Prop := forall earlier u later, us = earlier ++ u :: later -> unit_ok D n earlier u.
(* What a decoder is to make of it.  (A frame takes the footer of its OBU as samples: C18.) *)
Definition frame_read (D : descs) (t : Z) (f : obu aframe) (x : oframe) : Prop :=
  exists a, In a (d_aes D) /\ In (frame_id f) (ai_subs a) /\ of_element x = ai_id a /\
    of_header x = norm_header (set_type (ob_h f) (audio_frame_type (frame_id f))) /\ of_obu x = mkAF (frame_id f) (af_bytes (ob_v f) ++ ob_foot f) /\
    of_start x = t /\ of_end x = t + ai_spf a.
Definition block_read (t : Z) (b : obu (pdef * pblock)) (x : oblock) : Prop :=
  ob_header x = norm_header (set_type (ob_h b) kParameterBlock) /\ ob_obu x = stored_block (snd (ob_v b)) /\
  ob_start x = t /\ ob_end x = t + block_duration (fst (ob_v b)) (snd (ob_v b)).
Definition read_as (D : descs) (u : tunit) (o : outunit) : Prop :=
  un_time o = tu_start u /\ Forall2 (frame_read D (tu_start u)) (tu_frames u) (un_frames o) /\ Forall2 (block_read (tu_start u)) (tu_blocks u) (un_blocks o).
(* Descriptors whose audio can be decoded: some substream; frames of [n] samples; channel-based or scene-based audio elements; the
   default demixing modes and weights exist (C27). *)
Definition decodable (o : dobus) (n : Z) : Prop :=
  (exists i a x, In (i, a) (do_aes o) /\ In x (ae_subs (ad_obu a))) /\
  forall i a, In (i, a) (do_aes o) -> cc_frame (codec_of a) = n /\ (ae_type (ad_obu a) = 0 \/ ae_type (ad_obu a) = 1) /\
    forall d p mode w, In d (ae_params (ad_obu a)) -> is_demixing p mode w d -> exists y, spec_params mode w = Ok y.
(* No temporal delimiters among the arbitrary OBUs. *)
Definition undelimited (u : tunit) : Prop := Forall (fun a => ar_type a <> kTemporalDelimiter) (tu_arb u).
(* A processor that has not processed anything yet. *)
Record ready (D : descs) (s : pst) : Prop := mkReady {
  rd_subs : NoDup (flat_map ai_subs (d_aes D)) /\ flat_map ai_subs (d_aes D) <> [];
  rd_audio : Permutation (map fst (g_audio (ps_g s))) (flat_map ai_subs (d_aes D)) /\ forall i x, m_find i (g_audio (ps_g s)) = Some x -> td_stamp x = 0;
  rd_param : NoDup (map fst (g_param (ps_g s))) /\ (forall i d, m_find i (d_defs D) = Some d -> In i (map fst (g_param (ps_g s)))) /\
             forall i x, m_find i (g_param (ps_g s)) = Some x -> td_stamp x = 0;
  rd_quiet : PropsSession.quiet (ps_pm s);
  rd_dmix : forall a, In a (d_aes D) -> exists x, default_dmix (ps_pm s) (ai_id a) = Ok x }.

(* ================= proofs ================= *)
(* ---- grouping ---- *)
Definition idle_item (i : item) : Prop := match i with INone | IDelim _ => True | _ => False end.
Lemma group_idle its : Forall idle_item its -> forall seen cur rest, exists seen' cur' out,
  group seen cur (its ++ rest) = out ++ group seen' cur' rest /\ out ++ opt_list cur' = opt_list cur.
Proof.
  induction 1 as [|i its Hi _ IH]; intros seen cur rest; [exists seen, cur, []; split; reflexivity|].
  destruct i as [|f|b|h]; try contradiction; cbn [app group]; [apply IH|].
  destruct seen; [|apply IH]. destruct cur as [c|]; [|apply IH].
  destruct (IH false None rest) as (s' & c' & o & E1 & E2). exists s', c', (c :: o). rewrite E1. split; [reflexivity|]. cbn [app]. rewrite E2. reflexivity.
Qed.
Definition data_item (t : Z) (i : item) : Prop := match i with INone => True | IFrame f => of_start f = t | IBlock b => ob_start b = t | IDelim _ => False end.
Lemma group_data t its : Forall (data_item t) its -> forall seen u rest, un_time u = t ->
  group seen (Some u) (its ++ rest) = group seen (Some (mkOu (un_frames u ++ flat_map item_frames its) (un_blocks u ++ flat_map item_blocks its) t)) rest.
Proof.
  induction 1 as [|i its Hi _ IH]; intros seen u rest Hu; cbn [app flat_map].
  { rewrite !app_nil_r. destruct u as [x y z]; cbn [un_time un_frames un_blocks] in *. subst. reflexivity. }
  destruct i as [|f|b|h]; cbn [data_item] in Hi; try contradiction; cbn [group].
  - rewrite (IH seen u rest Hu). reflexivity.
  - rewrite Hi, Hu, Z.eqb_refl, (IH seen _ rest) by (unfold add_item; exact Hu). unfold add_item. cbn [un_frames un_blocks item_frames item_blocks]. rewrite <- !app_assoc. reflexivity.
  - rewrite Hi, Hu, Z.eqb_refl, (IH seen _ rest) by (unfold add_item; exact Hu). unfold add_item. cbn [un_frames un_blocks item_frames item_blocks]. rewrite <- !app_assoc. reflexivity.
Qed.
Lemma group_first t its : Forall (data_item t) its -> flat_map item_frames its <> [] -> forall seen cur rest, (forall c, cur = Some c -> un_time c <> t) ->
  exists seen', group seen cur (its ++ rest) = opt_list cur ++ group seen' (Some (mkOu (flat_map item_frames its) (flat_map item_blocks its) t)) rest.
Proof.
  induction 1 as [|i its Hi Hr IH]; intros N seen cur rest Hc; [cbn [flat_map] in N; congruence|].
  destruct i as [|f|b|h]; cbn [data_item] in Hi; try contradiction; cbn [app group flat_map item_frames item_blocks]; [apply IH; assumption| |].
  all: rewrite Hi; destruct cur as [c|]; cbn [opt_list app].
  all: try (specialize (Hc c eq_refl); replace (un_time c =? t) with false by lia).
  all: rewrite (group_data t its Hr) by reflexivity; cbn [un_frames un_blocks app]; eexists; reflexivity.
Qed.
Lemma group_unit t pre mid post : Forall idle_item pre -> Forall (data_item t) mid -> Forall idle_item post -> flat_map item_frames mid <> [] ->
  forall seen cur rest, (forall c, cur = Some c -> un_time c <> t) ->
  exists seen' cur' out, group seen cur ((pre ++ mid ++ post) ++ rest) = out ++ group seen' cur' rest /\
    out ++ opt_list cur' = opt_list cur ++ [mkOu (flat_map item_frames mid) (flat_map item_blocks mid) t].
Proof.
  intros H1 H2 H3 N seen cur rest Hc. rewrite <- !app_assoc.
  destruct (group_idle pre H1 seen cur (mid ++ post ++ rest)) as (s1 & c1 & o1 & E1 & F1).
  assert (forall c, c1 = Some c -> un_time c <> t) as Hc1.
  { intros c ->. cbn [opt_list] in F1. destruct cur as [c0|]; [|destruct o1; discriminate F1]. destruct o1 as [|? [|]]; cbn [opt_list app] in F1; try discriminate F1. injection F1 as <-. auto. }
  destruct (group_first t mid H2 N s1 c1 (post ++ rest) Hc1) as (s2 & E2).
  destruct (group_idle post H3 s2 (Some (mkOu (flat_map item_frames mid) (flat_map item_blocks mid) t)) rest) as (s3 & c3 & o3 & E3 & F3).
  exists s3, c3, (o1 ++ opt_list c1 ++ o3). rewrite E1, E2, E3. split; [rewrite <- !app_assoc; reflexivity|]. rewrite <- !app_assoc, F3. cbn [opt_list]. rewrite app_assoc, F1. reflexivity.
Qed.

(* ---- one unit ---- *)
Section Units.
Variables (fuel cap : nat) (D : descs) (n : Z) (g : lebgen) (ak pk : list Z) (m : pm).
Hypotheses (Hfuel : (8 <= fuel)%nat) (Hcap : (1 <= cap)%nat) (Hg : lebgen_wf g).
Hypotheses (Hn : 0 < n) (Hspf : forall a, In a (d_aes D) -> ai_spf a = n) (Hak : Permutation ak (flat_map ai_subs (d_aes D))) (Hne : ak <> []).
Hypotheses (Hpk : forall i d, m_find i (d_defs D) = Some d -> In i pk) (Hq : PropsSession.quiet m) (Hd : forall a, In a (d_aes D) -> exists x, default_dmix m (ai_id a) = Ok x).
Definition steps (s : pst) (bs : list bool) (s1 : pst) (its : list item) : Prop := exists os, decoded fuel cap D s os its s1 /\ bytes_bits (concat os) = bs.
Lemma decoded_app s os its s1 os' its' s2 : decoded fuel cap D s os its s1 -> decoded fuel cap D s1 os' its' s2 -> decoded fuel cap D s (os ++ os') (its ++ its') s2.
Proof. induction 1 as [s|s o os it its s1 s3 Ho E _ IH]; intro H; cbn [app]; [exact H|]. econstructor; eauto. Qed.
Lemma steps_nil s : steps s [] s [].
Proof. exists []. split; [constructor|reflexivity]. Qed.
Lemma steps_app s b1 s1 i1 b2 s2 i2 : steps s b1 s1 i1 -> steps s1 b2 s2 i2 -> steps s (b1 ++ b2) s2 (i1 ++ i2).
Proof. intros (o1 & D1 & <-) (o2 & D2 & <-). exists (o1 ++ o2). split; [eapply decoded_app; eassumption|]. rewrite concat_app. apply bytes_bits_app. Qed.
Lemma steps_one s bs s1 it : yields fuel cap D s bs s1 it -> steps s bs s1 [it].
Proof. intros (o & E1 & E2 & E3). exists [o]. split; [econstructor; [exact E2|exact E3|constructor]|]. cbn [concat]. rewrite app_nil_r. exact E1. Qed.

Definition at_ (af pf : Z -> Z) (s : pst) : Prop := tracks ak (g_audio (ps_g s)) af /\ tracks pk (g_param (ps_g s)) pf /\ ps_pm s = m.
Lemma global_at af pf s T : at_ af pf s -> (forall i, In i ak -> af i = T) -> global_timestamp (ps_g s) = Ok (Some T).
Proof.
  intros ((K & N & Ht) & _) H. unfold global_timestamp. rewrite <- K in N, H. assert (forall p, In p (g_audio (ps_g s)) -> td_stamp (snd p) = T) as A.
  { intros [i x] Hin. cbn [snd]. rewrite (Ht i x (PropsTiming.find_in _ _ _ N Hin)). apply H. apply in_map_iff. exists (i, x). auto. }
  destruct (g_audio (ps_g s)) as [|[i x] l]; [cbn [map] in K; congruence|]. rewrite (A (i, x) (or_introl eq_refl)) || idtac.
  pose proof (A (i, x) (or_introl eq_refl)) as Ax. cbn [snd] in Ax. rewrite Ax. replace (forallb _ _) with true; [reflexivity|]. symmetry. apply forallb_forall. intros p Hp. rewrite (A p Hp). apply Z.eqb_refl.
Qed.
Lemma update_calm af pf s : at_ af pf s -> update_states D s = (Ok tt, s).
Proof.
  intros ((K & _) & _ & E). unfold update_states. destruct (global_ok_or_err (ps_g s)) as [[[t|] ->] | X].
  - rewrite quiet_elements by (rewrite E; exact Hq). destruct s; reflexivity.
  - reflexivity.
  - exfalso. unfold global_timestamp in X. destruct (g_audio (ps_g s)) as [|[i x] l]; [cbn [map] in K; congruence|]. destruct (forallb _ _); discriminate X.
Qed.
Lemma element_found i : In i ak -> exists a, element_of D i = Some a /\ In a (d_aes D) /\ In i (ai_subs a).
Proof.
  intro H. apply (Permutation_in _ Hak) in H. apply in_flat_map in H as (a & H1 & H2). unfold element_of.
  destruct (find (fun a => existsb (Z.eqb i) (ai_subs a)) (d_aes D)) as [a'|] eqn:F.
  - apply find_some in F as [F1 F2]. exists a'. split; [reflexivity|]. split; [exact F1|]. apply existsb_exists in F2 as (j & J1 & J2). replace i with j by lia. exact J1.
  - exfalso. pose proof (find_none _ _ F a H1) as X. cbv beta in X. assert (existsb (Z.eqb i) (ai_subs a) = true) as Y by (apply existsb_exists; exists i; split; [exact H2|apply Z.eqb_refl]). congruence.
Qed.
Lemma store_frame_at af pf s h f : at_ af pf s -> In (af_id f) ak -> 0 <= af (af_id f) -> af (af_id f) + n < 2^63 ->
  exists s1 x a, store_frame D s h f = (Ok tt, s1, IFrame x) /\ at_ (fun k => af k + if af_id f =? k then n else 0) pf s1 /\
    In a (d_aes D) /\ In (af_id f) (ai_subs a) /\ of_element x = ai_id a /\ of_header x = h /\ of_obu x = f /\ of_start x = af (af_id f) /\ of_end x = af (af_id f) + ai_spf a.
Proof.
  intros (A1 & A2 & A3) Hi H0 Hb. destruct (element_found _ Hi) as (a & Ea & Ia & Sa). unfold store_frame. rewrite Ea. unfold generate_frame.
  replace (existsb (Z.eqb (af_id f)) (ai_subs a)) with true by (symmetry; apply existsb_exists; exists (af_id f); split; [exact Sa|apply Z.eqb_refl]). cbn [negb].
  unfold next_audio. destruct (get_timestamps (g_audio (ps_g s)) (af_id f) (ai_spf a)) as [[[r st] en] m'] eqn:G. rewrite (Hspf a Ia) in G.
  destruct (get_tracks _ _ _ _ _ _ _ _ _ A1 G H0 ltac:(lia) Hb) as (X1 & _ & X3). destruct (X1 Hi) as (-> & -> & ->).
  rewrite A3, (quiet_get _ _ Hq). destruct (Hd a Ia) as (dm & ->). cbn [rbind]. rewrite (quiet_recon _ _ _ Hq). cbn [rbind].
  assert (at_ (fun k => af k + if af_id f =? k then n else 0) pf (mkPst (mkG m' (g_param (ps_g s))) m)) as A' by (split; [exact X3|]; split; [exact A2|reflexivity]).
  rewrite (update_calm _ _ _ A'). eexists _, _, a. split; [reflexivity|]. split; [exact A'|]. split; [exact Ia|]. split; [exact Sa|]. cbn [of_element of_header of_obu of_start of_end]. rewrite (Hspf a Ia). auto.
Qed.
Lemma store_block_at af pf s h d b T : at_ af pf s -> (forall i, In i ak -> af i = T) -> In (bl_id b) pk -> pf (bl_id b) = T -> 0 <= T ->
  0 <= block_duration d b < 2^32 -> T < 2^62 ->
  exists s1 x, store_block s h d b = (Ok tt, s1, IBlock x) /\ at_ af (fun k => pf k + if bl_id b =? k then block_duration d b else 0) s1 /\
    ob_header x = h /\ ob_obu x = b /\ ob_start x = T /\ ob_end x = T + block_duration d b.
Proof.
  intros A Ha Hi Hp H0 Hb Ht. unfold store_block. rewrite (global_at _ _ _ _ A Ha). destruct A as (A1 & A2 & A3).
  unfold next_param. destruct (get_timestamps (g_param (ps_g s)) (bl_id b) (block_duration d b)) as [[[r st] en] m'] eqn:G.
  change (2^32) with 4294967296 in Hb. change (2^62) with 4611686018427387904 in Ht.
  destruct (get_tracks _ _ _ _ _ _ _ _ _ A2 G ltac:(lia) ltac:(lia) ltac:(change (2^63) with 9223372036854775808; lia)) as (X1 & _ & X3). destruct (X1 Hi) as (-> & -> & ->).
  rewrite Hp. cbn [rthen]. unfold compare_timestamps, veq. rewrite Z.eqb_refl. unfold rthen. cbn [rbind].
  eexists _, _. split; [reflexivity|]. split; [split; [exact A1|split; [exact X3|exact A3]]|]. cbn [ob_header ob_obu ob_start ob_end]. auto.
Qed.

Lemma frames_steps fs : forall af pf s bs T, at_ af pf s -> Forall (obu_wf aframe_wf) fs -> NoDup (map frame_id fs) -> (forall f, In f fs -> In (frame_id f) ak /\ af (frame_id f) = T) -> 0 <= T -> T + n < 2^63 ->
  wbits (flat_map (fun f => write_aframe_obu g (ob_h f) (ob_v f) (ob_foot f)) fs) = Ok bs ->
  exists s1 xs, steps s bs s1 (map IFrame xs) /\ Forall2 (frame_read D T) fs xs /\ at_ (fun k => if in_dec Z.eq_dec k (map frame_id fs) then af k + n else af k) pf s1.
Proof.
  induction fs as [|f fs IH]; intros af pf s bs T A W N Hf H0 Hb E.
  { cbn [flat_map wbits] in E. injection E as <-. exists s, []. split; [apply steps_nil|]. split; [constructor|]. destruct A as (A1 & A2 & A3). split; [eapply tracks_ext; [|exact A1]; reflexivity|auto]. }
  cbn [flat_map] in E. apply wbits_app_ok in E as (b & r & E1 & E2 & ->). inversion W as [|? ? (W1 & W2 & W3) W']; subst. cbn [map] in N. inversion N as [|? ? N1 N2]; subst.
  destruct (Hf f (or_introl eq_refl)) as [Hk Ht].
  destruct (store_frame_at af pf s (norm_header (set_type (ob_h f) (audio_frame_type (af_id (ob_v f))))) (mkAF (af_id (ob_v f)) (af_bytes (ob_v f) ++ ob_foot f)) A) as (s1 & x & a & S1 & A' & Ia & Sa & X1 & X2 & X3 & X4 & X5); cbn [af_id]; fold (frame_id f) in *; try assumption; try lia.
  cbn [af_id] in *. fold (frame_id f) in *.
  pose proof (yields_frame fuel cap D Hfuel Hcap g (ob_h f) (ob_v f) (ob_foot f) b s s1 (IFrame x) Hg W1 W2 W3 E1 S1) as Y.
  destruct (IH _ pf s1 r T A' W' N2) as (s2 & xs & P & F & A2); try assumption.
  { intros f' Hin. destruct (Hf f' (or_intror Hin)) as [Q1 Q2]. split; [exact Q1|]. replace (frame_id f =? frame_id f') with false; [lia|]. symmetry. apply Z.eqb_neq. intro X. apply N1. rewrite X. apply in_map. exact Hin. }
  exists s2, (x :: xs). split; [change (map IFrame (x :: xs)) with ([IFrame x] ++ map IFrame xs); eapply steps_app; [apply steps_one; exact Y|exact P]|]. split.
  - constructor; [|exact F]. exists a. rewrite X4, X5, Ht. auto 8.
  - destruct A2 as (B1 & B2 & B3). split; [|auto]. eapply tracks_ext; [|exact B1]. intro k. cbn [map].
    destruct (in_dec Z.eq_dec k (frame_id f :: map frame_id fs)) as [I|I], (in_dec Z.eq_dec k (map frame_id fs)) as [J|J]; cbn [In] in I.
    + replace (frame_id f =? k) with false; [lia|]. symmetry. apply Z.eqb_neq. intro X. rewrite <- X in J. contradiction.
    + destruct I as [I|I]; [replace (frame_id f =? k) with true by lia; lia|contradiction].
    + tauto.
    + replace (frame_id f =? k) with false; [lia|]. symmetry. apply Z.eqb_neq. tauto.
Qed.
Lemma blocks_steps bl : forall af pf s bs T, at_ af pf s -> (forall i, In i ak -> af i = T) -> 0 <= T < 2^62 ->
  Forall (obu_wf (fun x => m_find (bl_id (snd x)) (d_defs D) = Some (fst x) /\ pdef_wf (fst x) /\ fits (fst x) (snd x) /\ 0 <= block_duration (fst x) (snd x) < 2^32 /\ pf (bl_id (snd x)) = T)) bl ->
  NoDup (map block_id bl) -> wbits (flat_map (fun b => write_pblock_obu g (ob_h b) (fst (ob_v b)) (snd (ob_v b)) (ob_foot b)) bl) = Ok bs ->
  exists s1 xs, steps s bs s1 (map IBlock xs) /\ Forall2 (block_read T) bl xs /\ at_ af (fun k => pf k + sum (map (block_time k) bl)) s1.
Proof.
  induction bl as [|x bl IH]; intros af pf s bs T A Ha Ht W N E.
  { cbn [flat_map wbits] in E. injection E as <-. exists s, []. split; [apply steps_nil|]. split; [constructor|]. destruct A as (A1 & A2 & A3). split; [exact A1|]. split; [|exact A3]. eapply tracks_ext; [|exact A2]. intro k. cbn. lia. }
  cbn [flat_map] in E. apply wbits_app_ok in E as (b & r & E1 & E2 & ->). inversion W as [|? ? (W1 & (V1 & V2 & V3 & V4 & V5) & W3) W']; subst. cbn [map] in N. inversion N as [|? ? N1 N2]; subst.
  change (block_duration (fst (ob_v x)) (snd (ob_v x))) with (block_duration (fst (ob_v x)) (stored_block (snd (ob_v x)))) in V4.
  destruct (store_block_at af pf s (norm_header (set_type (ob_h x) kParameterBlock)) (fst (ob_v x)) (stored_block (snd (ob_v x))) (pf (bl_id (snd (ob_v x)))) A Ha (Hpk _ _ V1) eq_refl ltac:(lia) V4 ltac:(lia)) as (s1 & y & S1 & A' & Y1 & Y2 & Y3 & Y4).
  pose proof (yields_block fuel cap D Hfuel Hcap g (ob_h x) (fst (ob_v x)) (snd (ob_v x)) (ob_foot x) b s s1 (IBlock y) Hg W1 V2 V3 W3 V1 E1 S1) as Y.
  destruct (IH _ _ s1 r _ A' Ha Ht) as (s2 & ys & P & F & A2); try assumption.
  { rewrite Forall_forall in W' |- *. intros z Hz. destruct (W' z Hz) as (Z1 & (U1 & U2 & U3 & U4 & U5) & Z3). split; [exact Z1|]. split; [|exact Z3]. split; [exact U1|]. split; [exact U2|]. split; [exact U3|]. split; [exact U4|].
    change (bl_id (stored_block (snd (ob_v x)))) with (block_id x). change (bl_id (snd (ob_v z))) with (block_id z) in *. replace (block_id x =? block_id z) with false; [lia|]. symmetry. apply Z.eqb_neq. intro X. apply N1. rewrite X. apply in_map. exact Hz. }
  exists s2, (y :: ys). split; [change (map IBlock (y :: ys)) with ([IBlock y] ++ map IBlock ys); eapply steps_app; [apply steps_one; exact Y|exact P]|]. split.
  - constructor; [|exact F]. unfold block_read. rewrite Y3, Y4. auto.
  - destruct A2 as (B1 & B2 & B3). split; [exact B1|]. split; [|exact B3]. eapply tracks_ext; [|exact B2]. intro k. cbn [map]. unfold sum at 2. cbn [fold_right]. fold (sum (map (block_time k) bl)).
    unfold block_time at 2. change (bl_id (stored_block (snd (ob_v x)))) with (bl_id (snd (ob_v x))). change (block_duration (fst (ob_v x)) (stored_block (snd (ob_v x)))) with (block_duration (fst (ob_v x)) (snd (ob_v x))). lia.
Qed.
Lemma arb_steps l : forall s bs, Forall (fun a => obu_wf (Forall byteP) (ar_obu a) /\ (ignored a \/ ar_type a = kTemporalDelimiter)) l -> wbits (flat_map (write_arbitrary_obu g) l) = Ok bs ->
  exists its, steps s bs s its /\ Forall idle_item its /\ (Forall ignored l -> Forall (eq INone) its).
Proof.
  induction l as [|a l IH]; intros s bs W E.
  { cbn [flat_map wbits] in E. injection E as <-. exists []. split; [apply steps_nil|]. split; constructor. }
  cbn [flat_map] in E. apply wbits_app_ok in E as (b & r & E1 & E2 & ->). inversion W as [|? ? ((W1 & W2 & W3) & V) W']; subst.
  destruct (IH s r W' E2) as (its & P & F & G). unfold write_arbitrary_obu in E1.
  assert (Forall winstr_wf (write_arbitrary (ob_v (ar_obu a)) (ar_invalid a))) as Wp by (unfold write_arbitrary; wf_split; [apply wspan_wf; exact W2|apply wcheck_wf]).
  assert (0 <= ar_type a < 32) as R by (unfold ignored, kSequenceHeader, kCodecConfig, kAudioElement, kMixPresentation, kTemporalDelimiter in V; lia).
  assert (header_wf (set_type (ob_h (ar_obu a)) (ar_type a))) as Hh by (apply set_type_wf'; assumption).
  assert (ignored a -> yields fuel cap D s b s INone) as Ig.
  { intro V'. eapply yields_skipped; try eassumption. cbn [set_type h_type h_red]. destruct V' as [V'|[V' T]]; [left; exact V'|right; split; [exact V'|]].
    destruct T as [T|[T|[T|T]]]; rewrite T; reflexivity. }
  destruct V as [V|V].
  - exists (INone :: its). split; [change (INone :: its) with ([INone] ++ its); eapply steps_app; [apply steps_one, Ig, V|exact P]|]. split; [constructor; [exact I|exact F]|]. intro X. inversion X; subst. constructor; auto.
  - exists (IDelim (norm_header (set_type (ob_h (ar_obu a)) (ar_type a))) :: its). split.
    + change (IDelim (norm_header (set_type (ob_h (ar_obu a)) (ar_type a))) :: its) with ([IDelim (norm_header (set_type (ob_h (ar_obu a)) (ar_type a)))] ++ its). eapply steps_app; [apply steps_one|exact P]. eapply yields_td; try eassumption.
    + split; [constructor; [exact I|exact F]|]. intro X. inversion X as [|? ? X1 X2]; subst. exfalso. unfold ignored, kSequenceHeader, kCodecConfig, kAudioElement, kMixPresentation, kTemporalDelimiter in *. lia.
Qed.
Lemma tracks_on keys mm f h : (forall k, In k keys -> f k = h k) -> tracks keys mm f -> tracks keys mm h.
Proof. intros E (A & B & C). split; [exact A|]. split; [exact B|]. intros k d H. rewrite <- E; [apply C; exact H|]. rewrite <- A. apply PropsTiming.find_keys. eauto. Qed.
Lemma hook_members k l : k = BeforeBlocks \/ k = AfterBlocks \/ k = AfterFrames -> Forall accompanies l ->
  Forall (fun a => obu_wf (Forall byteP) (ar_obu a) /\ (ignored a \/ ar_type a = kTemporalDelimiter)) (filter (fun a => if hook_eq_dec (ar_hook a) k then true else false) l) /\
  (k = AfterBlocks -> Forall ignored (filter (fun a => if hook_eq_dec (ar_hook a) k then true else false) l)).
Proof.
  intros K H. rewrite !Forall_forall in *. split; [|intros ->; rewrite ?Forall_forall]; intros a Ha; apply filter_In in Ha as [Ha Hk]; destruct (hook_eq_dec (ar_hook a) _) as [e|]; try discriminate Hk; specialize (H a Ha); unfold accompanies in H; rewrite e in H.
  - destruct K as [-> |[-> | ->]]; tauto.
  - tauto.
Qed.
Lemma flat_frames xs ys zs : flat_map item_frames (map IBlock xs ++ zs ++ map IFrame ys) = flat_map item_frames zs ++ ys.
Proof.
  rewrite !flat_map_app. replace (flat_map item_frames (map IBlock xs)) with (@nil oframe) by (induction xs; [reflexivity|assumption]). cbn [app]. f_equal.
  induction ys as [|y ys IH]; [reflexivity|]. cbn [map flat_map item_frames app]. rewrite IH. reflexivity.
Qed.
Lemma flat_blocks xs ys zs : flat_map item_blocks (map IBlock xs ++ zs ++ map IFrame ys) = xs ++ flat_map item_blocks zs.
Proof.
  rewrite !flat_map_app. replace (flat_map item_blocks (map IFrame ys)) with (@nil oblock) by (induction ys; [reflexivity|assumption]). rewrite app_nil_r. f_equal.
  induction xs as [|y xs IH]; [reflexivity|]. cbn [map flat_map item_blocks app]. rewrite IH. reflexivity.
Qed.
Lemma none_items its : Forall (eq INone) its -> flat_map item_frames its = [] /\ flat_map item_blocks its = [] /\ forall t, Forall (data_item t) its.
Proof. induction 1 as [|i its <- _ (IH1 & IH2 & IH3)]; cbn [flat_map item_frames item_blocks app]; [auto|]. split; [exact IH1|]. split; [exact IH2|]. intro t. constructor; [exact I|apply IH3]. Qed.
Notation dense := PropsDecoderStream.dense.
Lemma dense_none its : Forall (eq INone) its -> forall after rest, dense after rest -> dense after (its ++ rest).
Proof. induction 1 as [|i its <- _ IH]; intros aft rest H; [exact H|]. cbn [app PropsDecoderStream.dense]. apply IH, H. Qed.
Lemma dense_blocks xs rest : (forall a, dense a rest) -> forall after, dense after (map IBlock xs ++ rest).
Proof. intro H. induction xs as [|x xs IH]; intro aft; [apply H|]. cbn [map app PropsDecoderStream.dense]. apply IH. Qed.
Lemma dense_frames ys rest : ys <> [] -> dense false rest -> forall after, dense after (map IFrame ys ++ rest).
Proof.
  intros N H aft. destruct ys as [|y ys]; [congruence|]. cbn [map app PropsDecoderStream.dense]. clear N. induction ys as [|z ys IH]; [exact H|]. cbn [map app PropsDecoderStream.dense]. exact IH.
Qed.
Lemma hook_ignored k l : Forall (fun a => ar_type a <> kTemporalDelimiter) l ->
  Forall (fun a => obu_wf (Forall byteP) (ar_obu a) /\ (ignored a \/ ar_type a = kTemporalDelimiter)) (filter (fun a => if hook_eq_dec (ar_hook a) k then true else false) l) ->
  Forall ignored (filter (fun a => if hook_eq_dec (ar_hook a) k then true else false) l).
Proof. rewrite !Forall_forall. intros H K a Ha. destruct (K a Ha) as [_ [V|V]]; [exact V|]. apply filter_In in Ha as [Ha _]. destruct (H a Ha V). Qed.
Lemma unit_steps delims earlier u pf s bs T : at_ (fun _ => T) pf s -> (forall i, In i pk -> pf i = lasting i earlier) -> T = tu_start u -> 0 <= T -> T + n < 2^62 -> NoDup ak -> unit_ok D n earlier u ->
  wbits (write_unit g delims u) = Ok bs ->
  exists s1 its o, steps s bs s1 its /\ at_ (fun _ => T + n) (fun k => pf k + sum (map (block_time k) (tu_blocks u))) s1 /\ read_as D u o /\
    (undelimited u -> forall after rest, (delims = true -> after = false) -> dense false rest -> dense after (its ++ rest)) /\
    forall seen cur rest, (forall c, cur = Some c -> un_time c <> T) -> exists seen' cur' out, group seen cur (its ++ rest) = out ++ group seen' cur' rest /\ out ++ opt_list cur' = opt_list cur ++ [o].
Proof.
  intros A Hpf ET H0 Hb Nak (U1 & U2 & U3 & U4 & U5 & U6) E. change (2^62) with 4611686018427387904 in Hb. unfold write_unit in E.
  apply wbits_app_ok in E as (b1 & r1 & E1 & E & ->). apply wbits_app_ok in E as (b2 & r2 & E2 & E & ->). apply wbits_app_ok in E as (b3 & r3 & E3 & E & ->).
  apply wbits_app_ok in E as (b4 & r4 & E4 & E & ->). apply wbits_app_ok in E as (b5 & b6 & E5 & E6 & ->).
  rewrite with_hook_filter in E2, E4, E6.
  destruct (hook_members BeforeBlocks (tu_arb u) ltac:(auto) U6) as [K2 _]. destruct (hook_members AfterBlocks (tu_arb u) ltac:(auto) U6) as [K4 K4']. destruct (hook_members AfterFrames (tu_arb u) ltac:(auto) U6) as [K6 _].
  assert (exists i1, steps s b1 s i1 /\ Forall idle_item i1 /\ (i1 = [] \/ delims = true /\ exists x, i1 = [IDelim x])) as (i1 & P1 & F1 & D1).
  { destruct delims; [|cbn [wbits] in E1; injection E1 as <-; exists []; split; [apply steps_nil|split; [constructor|auto]]].
    eexists. split; [apply steps_one; unfold write_td_obu in E1; refine (yields_td fuel cap D Hfuel Hcap g _ _ _ b1 s Hg _ _ _ _ E1)|split; [constructor; [exact I|constructor]|right; eauto]].
    - apply set_type_wf'; [|unfold kTemporalDelimiter; lia]. unfold header_wf, default_header, u32P. cbn [h_type h_trim_end h_trim_start h_ext]. change (2^32) with 4294967296. lia.
    - constructor.
    - constructor.
    - reflexivity. }
  destruct (arb_steps _ s b2 K2 E2) as (i2 & P2 & F2 & N2).
  destruct (blocks_steps (tu_blocks u) (fun _ => T) pf s b3 T A ltac:(auto) ltac:(change (2^62) with 4611686018427387904; lia)) as (s3 & xs & P3 & F3 & A3); try assumption.
  { rewrite Forall_forall in U5 |- *. intros x Hx. destruct (U5 x Hx) as (V1 & (W1 & W2 & W3 & W4 & W5) & V3). split; [exact V1|]. split; [|exact V3]. split; [exact W1|]. split; [exact W2|]. split; [exact W3|]. split; [exact W4|].
    rewrite Hpf by (eapply Hpk; exact W1). congruence. }
  destruct (arb_steps _ s3 b4 K4 E4) as (i4 & P4 & F4 & N4). specialize (N4 (K4' eq_refl)). destruct (none_items _ N4) as (Z1 & Z2 & Z3).
  assert (forall i, In i (map frame_id (tu_frames u)) <-> In i ak) as Same.
  { intro i. split; intro H; [apply (Permutation_in _ (Permutation_sym Hak)), (Permutation_in _ U2), H|apply (Permutation_in _ (Permutation_sym U2)), (Permutation_in _ Hak), H]. }
  destruct (frames_steps (tu_frames u) _ _ s3 b5 T A3 U3) as (s5 & ys & P5 & F5 & A5); try assumption.
  { eapply Permutation_NoDup; [|exact Nak]. eapply perm_trans; [exact Hak|]. apply Permutation_sym. exact U2. }
  { intros f Hf. split; [|reflexivity]. apply Same. apply in_map. exact Hf. }
  { change (2^63) with 9223372036854775808. lia. }
  destruct (arb_steps _ s5 b6 K6 E6) as (i6 & P6 & F6 & N6).
  exists s5, ((i1 ++ i2) ++ (map IBlock xs ++ i4 ++ map IFrame ys) ++ i6), (mkOu ys xs T).
  assert (ys <> []) as Ny by (intro X; subst ys; inversion F5 as [Ef|]; rewrite <- Ef in Same; destruct ak as [|i l]; [congruence|]; apply (Same i); left; reflexivity).
  split; [|split; [|split; [|split]]].
  - rewrite <- !app_assoc. eapply steps_app; [exact P1|]. eapply steps_app; [exact P2|]. eapply steps_app; [exact P3|]. eapply steps_app; [exact P4|]. eapply steps_app; [exact P5|exact P6].
  - destruct A5 as (B1 & B2 & B3). split; [|auto]. eapply tracks_on; [|exact B1]. intros k Hk. cbv beta. destruct (in_dec _ _ _) as [_|N]; [reflexivity|]. exfalso. apply N, Same, Hk.
  - rewrite ET in F3, F5. split; [exact ET|]. split; assumption.
  - intros Un aft rest Ha Hr. specialize (N2 (hook_ignored _ _ Un K2)). specialize (N6 (hook_ignored _ _ Un K6)). rewrite <- !app_assoc.
    assert (forall a, dense a (i2 ++ map IBlock xs ++ i4 ++ map IFrame ys ++ i6 ++ rest)) as H.
    { intro a0. apply dense_none; [exact N2|]. apply dense_blocks. intro a'. apply dense_none; [exact N4|]. apply dense_frames; [exact Ny|]. apply dense_none; [exact N6|exact Hr]. }
    destruct D1 as [-> |[Hdl [x ->]]]; [apply H|]. cbn [app PropsDecoderStream.dense]. split; [apply Ha, Hdl|apply H].
  - intros seen cur rest Hc. pose proof (flat_frames xs ys i4) as G1. pose proof (flat_blocks xs ys i4) as G2. rewrite Z1 in G1. rewrite Z2, app_nil_r in G2. cbn [app] in G1.
    replace (mkOu ys xs T) with (mkOu (flat_map item_frames (map IBlock xs ++ i4 ++ map IFrame ys)) (flat_map item_blocks (map IBlock xs ++ i4 ++ map IFrame ys)) T) by (rewrite G1, G2; reflexivity). apply group_unit; try assumption.
    + apply Forall_app. auto.
    + apply Forall_app. split; [|apply Forall_app; split; [apply Z3|]].
      * clear -F3. induction F3 as [|? ? ? ? (_ & _ & H & _) _ IH]; cbn [map]; constructor; [exact H|exact IH].
      * clear -F5. induction F5 as [|? ? ? ? (a & _ & _ & _ & _ & _ & H & _) _ IH]; cbn [map]; constructor; [exact H|exact IH].
    + rewrite G1. exact Ny.
Qed.
(* ---- all units ---- *)
Lemma units_steps delims us : forall earlier pf s bs, at_ (fun _ => zlen earlier * n) pf s -> (forall i, In i pk -> pf i = lasting i earlier) -> (zlen earlier + zlen us) * n < 2^62 -> NoDup ak ->
  (forall a u b, us = a ++ u :: b -> unit_ok D n (earlier ++ a) u) -> wbits (flat_map (write_unit g delims) us) = Ok bs ->
  exists s1 its os, steps s bs s1 its /\ Forall2 (read_as D) us os /\ (Forall undelimited us -> dense false its) /\ forall seen cur, (forall c, cur = Some c -> un_time c < zlen earlier * n) -> group seen cur its = opt_list cur ++ os.
Proof.
  induction us as [|u us IH]; intros earlier pf s bs A Hpf Hb Nak U E.
  { cbn [flat_map wbits] in E. injection E as <-. exists s, [], []. split; [apply steps_nil|]. split; [constructor|]. split; [intros _; exact I|]. intros seen cur _. cbn [group]. rewrite app_nil_r. reflexivity. }
  cbn [flat_map] in E. apply wbits_app_ok in E as (b & r & E1 & E2 & ->).
  assert (unit_ok D n earlier u) as Uu by (rewrite <- (app_nil_r earlier); apply (U [] u us eq_refl)). pose proof (proj1 Uu) as ET.
  assert (zlen (u :: us) = 1 + zlen us) as Lu by (unfold zlen; cbn [length]; lia). rewrite Lu in Hb. pose proof (zlen_nonneg earlier). pose proof (zlen_nonneg us).
  change (2^62) with 4611686018427387904 in Hb.
  destruct (unit_steps delims earlier u pf s b (zlen earlier * n) A Hpf ltac:(auto) ltac:(nia) ltac:(change (2^62) with 4611686018427387904; nia) Nak Uu E1) as (s1 & i1 & o & P & A1 & R & Dn & G).
  assert (zlen (earlier ++ [u]) = zlen earlier + 1) as Le by (unfold zlen; rewrite app_length; cbn [length]; lia).
  destruct (IH (earlier ++ [u]) (fun k => pf k + sum (map (block_time k) (tu_blocks u))) s1 r) as (s2 & i2 & os & P2 & R2 & Dn2 & G2); try assumption.
  { rewrite Le. replace ((zlen earlier + 1) * n) with (zlen earlier * n + n) by lia. exact A1. }
  { intros i Hi. rewrite (Hpf i Hi). unfold lasting. rewrite flat_map_app, map_app, sum_app. cbn [flat_map]. rewrite app_nil_r. reflexivity. }
  { rewrite Le. change (2^62) with 4611686018427387904. nia. }
  { intros a v c ->. rewrite <- app_assoc. cbn [app]. apply (U (u :: a) v c). reflexivity. }
  exists s2, (i1 ++ i2), (o :: os). split; [eapply steps_app; eassumption|]. split; [constructor; assumption|].
  split; [intro U0; inversion U0; subst; apply Dn; auto|].
  intros seen cur Hc. destruct (G seen cur i2) as (seen' & cur' & out & E3 & E4); [intros c -> ; specialize (Hc c eq_refl); lia|]. rewrite E3.
  assert (forall c, cur' = Some c -> c = o) as Hc'. { intros c ->. cbn [opt_list] in E4. apply app_inj_tail in E4 as [_ E4]. exact E4. }
  rewrite G2. { rewrite app_assoc, E4, <- app_assoc. reflexivity. }
  intros c Hx. rewrite (Hc' c Hx). destruct R as [-> _]. rewrite Le. nia.
Qed.
End Units.

(* The bytes of the units. *)
Lemma aligned_bits p b : Forall winstr_wf p -> serialize p true = Ok b -> wbits p = Ok (bytes_bits b) /\ Forall byteP b.
Proof.
  intros W E. assert (serialize p false = Ok b /\ forall bs, wbits p = Ok bs -> (length bs mod 8 = 0)%nat) as [E' M].
  { unfold serialize in *. destruct (wrun p w_empty) as [[[]| | | |] w] eqn:Er; try discriminate E. cbn [andb] in *. destruct (negb (w_off w mod 8 =? 0)) eqn:Nz; [discriminate E|]. split; [exact E|].
    intros bs Eb. destruct (wrun_holds p w W Er) as (bs' & E1 & [Hw Ho]). rewrite Eb in E1. injection E1 as <-. rewrite Ho in Nz. unfold zlen in Nz. apply Nat2Z.inj. rewrite Nat2Z.inj_mod. change (Z.of_nat 8) with 8. change (Z.of_nat 0) with 0. lia. }
  destruct (serialize_bits p b W E') as (bs & E1 & F & G). rewrite (G (M bs E1)). auto.
Qed.
Lemma write_unit_wf g delims D n earlier u : lebgen_wf g -> unit_ok D n earlier u -> Forall winstr_wf (write_unit g delims u).
Proof.
  intros Hg (_ & _ & U3 & _ & U5 & U6). rewrite !Forall_forall in U3, U5, U6.
  assert (forall k, k = BeforeBlocks \/ k = AfterBlocks \/ k = AfterFrames -> Forall winstr_wf (with_hook g k (tu_arb u))) as HK.
  { intros k K. unfold with_hook. apply Forall_flat_map_wf. intros a Ha. destruct (hook_eq_dec _ _) as [e|]; [|constructor]. specialize (U6 a Ha). unfold accompanies in U6. rewrite e in U6.
    assert (obu_wf (Forall byteP) (ar_obu a) /\ (ignored a \/ ar_type a = kTemporalDelimiter)) as ((A1 & A2 & A3) & V) by (destruct K as [-> |[-> | ->]]; tauto).
    unfold write_arbitrary_obu. apply write_obu_wf; [exact Hg|apply set_type_wf'; [exact A1|unfold ignored, kSequenceHeader, kCodecConfig, kAudioElement, kMixPresentation, kTemporalDelimiter in V; lia]|
      unfold write_arbitrary; wf_split; [apply wspan_wf; exact A2|apply wcheck_wf]|exact A3]. }
  unfold write_unit. wf_split; try (apply HK; auto).
  - destruct delims; [|constructor]. unfold write_td_obu. apply write_obu_wf; [exact Hg| |constructor|constructor].
    apply set_type_wf'; [|unfold kTemporalDelimiter; lia]. unfold header_wf, default_header, u32P. cbn [h_type h_trim_end h_trim_start h_ext]. change (2^32) with 4294967296. lia.
  - apply Forall_flat_map_wf. intros b Hb. destruct (U5 b Hb) as (A1 & (_ & A2 & A3 & _) & A4). unfold write_pblock_obu. apply write_obu_wf; [exact Hg|apply set_type_wf'; [exact A1|unfold kParameterBlock; lia]|apply write_pblock_wf; assumption|exact A4].
  - apply Forall_flat_map_wf. intros f Hf. destruct (U3 f Hf) as (A1 & (A2 & A3) & A4). unfold write_aframe_obu. apply write_obu_wf; [exact Hg|apply set_type_wf'; [exact A1|apply audio_type_range; destruct A2; lia]| |exact A4].
    unfold write_aframe. wf_split; [|apply wspan_wf; exact A3]. destruct (_ =? kAudioFrame); [|constructor]. apply wuleb_wf; assumption.
Qed.
(* The bytes pushed for each unit. *)
Definition written_units (g : lebgen) (delims : bool) (us : list tunit) (bs : list (list Z)) : Prop :=
  Forall2 (fun u b => serialize (write_unit g delims u) true = Ok b) us bs.
Lemma units_bits g delims us bs : written_units g delims us bs -> (forall u, In u us -> Forall winstr_wf (write_unit g delims u)) ->
  wbits (flat_map (write_unit g delims) us) = Ok (bytes_bits (concat bs)) /\ Forall byteP (concat bs).
Proof.
  induction 1 as [|u b us bs E _ IH]; intro W; [split; [reflexivity|constructor]|]. cbn [flat_map concat].
  destruct (aligned_bits _ _ (W u (or_introl eq_refl)) E) as [E1 F1]. destruct (IH (fun v Hv => W v (or_intror Hv))) as [E2 F2].
  split; [|apply Forall_app; auto]. rewrite wbits_app, E1. cbn [rbind]. rewrite E2. cbn [rbind]. rewrite bytes_bits_app. reflexivity.
Qed.
Lemma units_decoded fuel cap D s n g delims us bs : (8 <= fuel)%nat -> (1 <= cap)%nat -> lebgen_wf g -> ready D s -> 0 < n -> (forall a, In a (d_aes D) -> ai_spf a = n) -> zlen us * n < 2^62 ->
  playable D n us -> written_units g delims us bs ->
  exists os its s1, decoded fuel cap D s os its s1 /\ concat os = concat bs /\ Forall byteP (concat bs) /\ Forall2 (read_as D) us (group false None its) /\ (Forall undelimited us -> PropsDecoderStream.dense false its).
Proof.
  intros Hf Hc Hg [[R1 R1'] [R2 R2'] (R3 & R3' & R3'') R4 R5] Hn Hspf Hz P W.
  destruct (units_bits g delims us bs W) as [E F]. { intros u Hu. apply in_split in Hu as (l1 & l2 & Hu). eapply write_unit_wf; [exact Hg|exact (P l1 u l2 Hu)]. }
  assert (NoDup (map fst (g_audio (ps_g s)))) as Nk by (eapply Permutation_NoDup; [apply Permutation_sym, R2|exact R1]).
  destruct (units_steps fuel cap D n g (map fst (g_audio (ps_g s))) (map fst (g_param (ps_g s))) (ps_pm s) Hf Hc Hg Hn Hspf R2) with (delims := delims) (us := us) (earlier := @nil tunit) (pf := fun _ : Z => 0) (s := s) (bs := bytes_bits (concat bs)) as (s1 & its & os & (ob & Dc & Eb) & R & Dn & G).
  - intro X. rewrite X in R2. apply Permutation_nil in R2. contradiction.
  - exact R3'.
  - exact R4.
  - exact R5.
  - split; [|split; [|reflexivity]]; (split; [reflexivity|]; split; [assumption|]; intros k d H). + rewrite (R2' k d H). reflexivity. + apply (R3'' k d H).
  - reflexivity.
  - exact Hz.
  - exact Nk.
  - exact P.
  - exact E.
  - exists ob, its, s1. split; [exact Dc|]. split.
    + apply bytes_bits_inj; [|exact F|exact Eb]. clear -Dc. induction Dc as [s|s o os it its s1 s2 Ho E _ IH]; [constructor|]. cbn [concat]. apply Forall_app. split; [apply obu_bytes; exact Ho|exact IH].
    + split; [exact F|]. split; [rewrite G by discriminate; exact R|exact Dn].
Qed.

(* Every substream of a channel-based or scene-based audio element has channels. *)
Lemma all_labelled codecs q a : aelem_valid q -> generate_ae codecs q = Ok a -> ae_type q = 0 \/ ae_type q = 1 -> incl (ae_subs q) (map fst (ad_labels a)).
Proof.
  intros V E T. destruct (generate_keyed _ _ _ E) as [K1 K2].
  assert (NoDup (ae_subs q)) as N by apply V.
  assert (forall c, ae_type q = 1 -> ae_conf q = ACAmbi c -> incl (ae_subs q) (map fst (ad_labels a))) as HA.
  { intros [sc mp|oc sc cc mp] T1 C x Hx.
    - destruct (C46_mono_labels codecs q sc mp V T1 C) as [_ H]. destruct (H a E) as (_ & _ & _ & _ & _ & H' & _). apply H'. exact Hx.
    - destruct (C46_projection_labels codecs q oc sc cc mp V T1 C) as [_ H]. destruct (H a E) as (_ & _ & _ & _ & -> & _). rewrite map_fst_combine; [exact Hx|]. unfold projected. rewrite map_length, seq_length. reflexivity. }
  unfold generate_ae in E. destruct T as [T|T].
  - replace (ae_type q =? 0) with true in E by lia. destruct (ae_conf q) as [r l|c|x y|x]; try discriminate E. unfold finalize_scalable in E.
    destruct (vunique _); try discriminate E. cbn [rthen rbind] in E. destruct (layers_data _ _ _ _ _ _ _) as [z| | | |]; try discriminate E. cbn [rbind] in E.
    unfold veq in E. destruct (zlen (ae_subs q) =? zlen (fst (fst z))) eqn:El; cbn [rthen rbind] in E; [|discriminate E]. destruct (m_find _ codecs); [|discriminate E]. injection E as <-. cbn [ad_labels] in *.
    apply NoDup_length_incl; [exact K1| |exact K2]. rewrite map_length. unfold zlen in El. lia.
  - replace (ae_type q =? 0) with false in E by lia. replace (ae_type q =? 1) with true in E by lia. destruct (ae_conf q) as [r l|c|x y|x] eqn:C; try discriminate E. apply (HA c T eq_refl).
Qed.

(* ================= C57 ================= *)
Theorem C57_ready : forall o D s n, consistent o -> initialize o = Ok (D, s) -> decodable o n -> ready D s /\ forall a, In a (d_aes D) -> ai_spf a = n.
Proof.
  intros o D s n C E [Ne Hd]. destruct (C53_initial_state o C D s E) as (I1 & I2 & I3 & I4).
  assert (forall a, In a (d_aes D) -> exists i x, In (i, x) (do_aes o) /\ a = mkAI i (map fst (ad_labels x)) (cc_frame (codec_of x)) (zlen (ad_chans x))) as Ia.
  { intros a Ha. rewrite I2 in Ha. apply in_map_iff in Ha as ([i x] & <- & Ha). exists i, x. auto. }
  assert (flat_map ai_subs (d_aes D) = flat_map (fun x => map fst (ad_labels (snd x))) (do_aes o)) as Es by (rewrite I2; clear; induction (do_aes o) as [|x l IH]; [reflexivity|]; cbn [map flat_map ai_subs]; rewrite IH; reflexivity).
  assert (NoDup (flat_map (fun x => ae_subs (ad_obu (snd x))) (do_aes o))) as Ns.
  { rewrite <- audio_substreams. assert (exists g, gtm_create (audio_of o) (map (fun x => (fst x, pb_rate (pd_base (snd x)))) (d_defs D)) = Ok g) as G by eauto. apply C26_created_exactly in G as [G _]. exact G. }
  pose proof (labels_nodup o C Ns) as Nl.
  assert (map fst (substreams_of (do_aes o)) = flat_map (fun x => map fst (ad_labels (snd x))) (do_aes o)) as El.
  { unfold substreams_of. clear. induction (do_aes o) as [|x l IH]; [reflexivity|]. cbn [flat_map]. rewrite map_app, IH, map_map. reflexivity. }
  rewrite El in Nl.
  assert (forall i a, In (i, a) (do_aes o) -> keyed (ae_subs (ad_obu a)) (ad_labels a)) as K.
  { destruct C as [_ [_ C2] _]. intros i a Hx. destruct (C2 i a Hx) as (_ & _ & _ & _ & _ & G). exact (generate_keyed _ _ _ G). }
  assert (forall i a, In (i, a) (do_aes o) -> incl (ae_subs (ad_obu a)) (map fst (ad_labels a))) as La.
  { destruct C as [_ [_ C2] _]. intros i a Hx. destruct (C2 i a Hx) as (_ & V & _ & _ & _ & G). apply (all_labelled _ _ _ V G). exact (proj1 (proj2 (Hd i a Hx))). }
  unfold gtm_create in I3. destruct (insert_all (flat_map _ _) []) as [ga| | | |] eqn:A; try discriminate I3. cbn [rbind] in I3. destruct (insert_all (map _ (d_defs D)) []) as [gp| | | |] eqn:P; try discriminate I3. cbn [rbind] in I3. injection I3 as I3.
  apply insert_all_ok in A as (A1 & A2 & _ & A4); [|constructor|intros ? ? F; discriminate F]. apply insert_all_ok in P as (P1 & P2 & _ & P4); [|constructor|intros ? ? F; discriminate F].
  cbn [map app] in A1, P1. rewrite substreams_map in A1. fold (audio_of o) in A1. rewrite audio_substreams in A1.
  split.
  - constructor; rewrite <- ?I3; cbn [g_audio g_param ps_g].
    + rewrite Es. split; [exact Nl|]. destruct Ne as (i & a & x & H1 & H2). intro X. assert (In x (flat_map (fun x => map fst (ad_labels (snd x))) (do_aes o))) as Y; [|rewrite X in Y; destruct Y].
      apply in_flat_map. exists (i, a). split; [exact H1|]. apply (La i a H1). exact H2.
    + split; [|exact A4]. rewrite A1, Es. apply NoDup_Permutation; [exact Ns|exact Nl|]. intro x. rewrite !in_flat_map. split; intros ([i a] & H1 & H2); exists (i, a); (split; [exact H1|]); cbn [snd] in *.
      * apply (La i a H1). exact H2.
      * apply (K i a H1). exact H2.
    + split; [exact P2|]. split; [|exact P4]. intros i d F. rewrite P1, map_map. cbn [fst]. apply in_map_iff. exists (i, d). split; [reflexivity|]. apply m_find_in. exact F.
    + apply (new_quiet (map (fun x => (fst x, ae_params (ad_obu (snd x)))) (do_aes o))); [|exact I4]. rewrite map_map. cbn [fst]. destruct C as [_ [N _] _]. exact N.
    + intros a Ha. destruct (Ia a Ha) as (i & x & H1 & ->). cbn [ai_id]. unfold default_dmix.
      assert (NoDup (map fst (map (fun x => (fst x, ae_params (ad_obu (snd x)))) (do_aes o)))) as N by (rewrite map_map; destruct C as [_ [N _] _]; exact N).
      destruct (new_fresh _ _ N I4) as (F1 & _). destruct (m_find i (pm_ds (ps_pm s))) as [ds|] eqn:Fd; [|eauto].
      destruct (F1 i ds Fd) as (defs & d & pid & mode & w & J1 & J2 & J3 & ->). cbn [ds_mode ds_w]. apply in_map_iff in J1 as ([j y] & J & J1). injection J as J <-. cbn [fst snd] in *. subst j.
      destruct (Hd i y J1) as (_ & _ & Hm). destruct (Hm d pid mode w J2 J3) as (z & Z1). rewrite mode_to_params_spec. eauto.
  - intros a Ha. destruct (Ia a Ha) as (i & x & H1 & ->). cbn [ai_spf]. apply (Hd i x H1).
Qed.
(* Whatever units an encoder writes, and however their bytes are cut into chunks: they are read back, each one, in order, whole. *)
Theorem C57_units_read_back : forall fuel cap k o D s n g delims us bs chunks units_out ending_out s_out pending,
  (8 <= fuel)%nat -> (1 <= cap)%nat -> 2^22 < Z.of_nat k -> lebgen_wf g ->
  consistent o -> initialize o = Ok (D, s) -> decodable o n -> 0 < n -> zlen us * n < 2^62 -> playable D n us -> written_units g delims us bs ->
  Forall (Forall byteP) chunks -> concat chunks = concat bs ->
  whole_session fuel k D chunks s = (units_out, ending_out, s_out, pending) -> ending_out <> Refused ->
  ending_out = Finished /\ Forall2 (read_as D) us units_out.
Proof.
  intros fuel cap k o D s n g delims us bs chunks uo eo so pe Hf Hc Hk Hg C E Hd Hn Hz P W Hb Ec Ew Hr. destruct (C57_ready o D s n C E Hd) as [R Hspf].
  destruct (units_decoded fuel cap D s n g delims us bs Hf Hc Hg R Hn Hspf Hz P W) as (os & its & s1 & Dc & Eb & F & G & _).
  destruct (C29_stream_of_obus fuel cap k D s os its s1 chunks uo eo so pe Hf Hc Hk Dc Hb ltac:(congruence) Ew Hr) as (-> & _ & ->). auto.
Qed.
(* No chunk of less than 2 MiB is refused. *)
Theorem C57_small_chunks : forall fuel cap k o D s n g delims us bs chunks,
  (8 <= fuel)%nat -> (1 <= cap)%nat -> 2^22 < Z.of_nat k -> lebgen_wf g ->
  consistent o -> initialize o = Ok (D, s) -> decodable o n -> 0 < n -> zlen us * n < 2^62 -> playable D n us -> written_units g delims us bs ->
  Forall (Forall byteP) chunks -> concat chunks = concat bs -> Forall (fun x => zlen x <= 2^21 - 8) chunks ->
  exists units_out s_out pending, whole_session fuel k D chunks s = (units_out, Finished, s_out, pending) /\ Forall2 (read_as D) us units_out.
Proof.
  intros fuel cap k o D s n g delims us bs chunks Hf Hc Hk Hg C E Hd Hn Hz P W Hb Ec Hs. destruct (C57_ready o D s n C E Hd) as [R Hspf].
  destruct (units_decoded fuel cap D s n g delims us bs Hf Hc Hg R Hn Hspf Hz P W) as (os & its & s1 & Dc & Eb & F & G & _).
  destruct (C29_small_chunks_are_accepted fuel cap k D s os its s1 chunks Hf Hc Hk Dc Hb ltac:(congruence) Hs) as (pe & X). eauto 8.
Qed.

(* ================= example ================= *)
Definition ux_block (d : Z) (gain : Z) : obu (pdef * pblock) := mkOb default_header (sx_gain 64, mkBlk 64 (Some (Params.mkS d d 1 [])) [Some (DStep gain)]) [].
Definition ux_frame (id x : Z) : obu aframe := mkOb default_header (mkAF id [x; 2; 3; 4]) [].
Definition ux : list tunit :=
  [mkTU [ux_block 16 1000] [ux_frame 1 50; ux_frame 0 51] [mkAr 4 (mkOb default_header [] []) BeforeBlocks false; mkAr 26 (mkOb default_header [7] []) AfterBlocks false] 0 8 8;
   mkTU [] [ux_frame 0 52; ux_frame 1 53] [] 8 8 8;
   mkTU [ux_block 8 (-1000)] [ux_frame 0 54; ux_frame 1 55] [mkAr 24 (mkOb default_header [1; 2] []) AfterFrames false] 16 8 8].
Definition ux_start : descs * pst := match initialize (found (dx false)) with Ok x => x | _ => (mkD [] [], mkPst (mkG [] []) (ParamManager.mkPm [] [] [] [])) end.
Definition ux_bytes (delims : bool) : list (list Z) := map (fun u => match serialize (write_unit LebMin delims u) true with Ok b => b | _ => [] end) ux.
Lemma ux_written delims : written_units LebMin delims ux (ux_bytes delims).
Proof. destruct delims; unfold written_units, ux_bytes, ux; cbn [map]; repeat (apply Forall2_cons; [vm_compute; reflexivity|]); constructor. Qed.
Lemma ux_playable : playable (fst ux_start) 8 ux.
Proof.
  assert (forall v, 0 <= v < 256 -> u8P v) as U8 by (intros; pw). assert (forall v, 0 <= v < 4294967296 -> u32P v) as U32 by (intros; pw).
  assert (forall v, -32768 <= v < 32768 -> s16P v) as S16 by (intros; pw).
  assert (header_wf default_header) as HW by (unfold header_wf; cbn; wfs; try apply U32; lia).
  assert (pdef_wf (sx_gain 64)) as GW.
  { unfold pdef_wf, sx_gain, pbase_wf, pkind_wf. cbn. wfs; try (apply U32; lia); try (apply S16; lia). }
  assert (forall d, d = 16 \/ d = 8 -> made (Params.mkS d d 1 [])) as MK.
  { intros d H. left. exists d, d. split; [apply U32; lia|]. split; [apply U32; lia|]. destruct H as [-> | ->]; reflexivity. }
  assert (forall d v, d = 16 \/ d = 8 -> -32768 <= v < 32768 -> fits (sx_gain 64) (mkBlk 64 (Some (Params.mkS d d 1 [])) [Some (DStep v)])) as FT.
  { intros d v H Hv. split; [reflexivity|]. split.
    - exists (Params.mkS d d 1 []). split; [auto|]. split; [|reflexivity]. right. split; reflexivity.
    - constructor; [|constructor]. exists (DStep v). split; [reflexivity|]. apply S16. lia. }
  intros earlier u later E. unfold ux in E.
  assert (forall i x, 0 <= i <= 1 -> 0 <= x < 256 -> obu_wf aframe_wf (ux_frame i x)) as FW.
  { intros i x Hi Hx. unfold obu_wf, aframe_wf, ux_frame. cbn [Sequencer.ob_h Sequencer.ob_v Sequencer.ob_foot af_id af_bytes]. split; [exact HW|]. split; [|constructor].
    split; [apply U32; lia|]. repeat constructor; unfold byteP; lia. }
  assert (forall d v early t, d = 16 \/ d = 8 -> -32768 <= v < 32768 -> lasting 64 early = t -> obu_wf (fun x : pdef * pblock => m_find (bl_id (snd x)) (d_defs (fst ux_start)) = Some (fst x) /\ pdef_wf (fst x) /\ fits (fst x) (snd x) /\
                           0 <= block_duration (fst x) (snd x) < 2^32 /\ lasting (bl_id (snd x)) early = t) (ux_block d v)) as BW.
  { intros d v early t Hd Hv Hl. unfold obu_wf, ux_block. cbn [Sequencer.ob_h Sequencer.ob_v Sequencer.ob_foot fst snd bl_id]. split; [exact HW|]. split; [|apply Forall_nil].
    split; [vm_compute; reflexivity|]. split; [exact GW|]. split; [apply FT; assumption|]. split; [|exact Hl]. unfold block_duration. cbn [bl_sched s_dur]. change (2^32) with 4294967296. lia. }
  destruct earlier as [|e1 [|e2 [|e3 earlier]]]; cbn [app] in E; [injection E as <- _|injection E as <- <- _|injection E as <- <- <- _|injection E as _ _ _ E; destruct earlier; discriminate E].
  all: unfold unit_ok; cbn [tu_start Sequencer.tu_frames Sequencer.tu_blocks tu_arb].
  all: split; [vm_compute; reflexivity|].
  all: split; [vm_compute; first [apply Permutation_refl|apply perm_swap]|].
  all: split; [repeat first [apply Forall_nil|apply Forall_cons; [apply FW; lia|]]|].
  all: split; [cbn [map]; repeat first [apply NoDup_nil|apply NoDup_cons; [intros []|]]|].
  all: split; [repeat first [apply Forall_nil|apply Forall_cons; [apply BW; [lia|lia|vm_compute; reflexivity]|]]|].
  all: repeat first [apply Forall_nil|apply Forall_cons].
  all: unfold accompanies, ignored, obu_wf; cbn [ar_hook ar_type ar_obu Sequencer.ob_h Sequencer.ob_v Sequencer.ob_foot]; unfold kTemporalDelimiter; (split; [split; [exact HW|]; split; repeat first [apply Forall_nil|apply Forall_cons; [unfold byteP; lia|]]|]); lia.
Qed.
Example C57_ex : lebgen_wf LebMin /\ consistent (found (dx false)) /\ initialize (found (dx false)) = Ok ux_start /\ decodable (found (dx false)) 8 /\
  playable (fst ux_start) 8 ux /\ written_units LebMin true ux (ux_bytes true) /\ map (@length Z) (ux_bytes true) = [27; 14; 26]%nat /\
  (let '(uo, e, _, _) := whole_session 8 100 (fst ux_start) [firstn 7 (concat (ux_bytes true)); skipn 7 (concat (ux_bytes true))] (snd ux_start) in
   e = Finished /\ map un_time uo = [0; 8; 16] /\ map (fun o => map (fun f => (of_element f, of_obu f)) (un_frames o)) uo =
     [[(5, mkAF 1 [50; 2; 3; 4]); (3, mkAF 0 [51; 2; 3; 4])]; [(3, mkAF 0 [52; 2; 3; 4]); (5, mkAF 1 [53; 2; 3; 4])]; [(3, mkAF 0 [54; 2; 3; 4]); (5, mkAF 1 [55; 2; 3; 4])]] /\
   map (fun o => map (fun x => (ob_obu x, ob_start x, ob_end x)) (un_blocks o)) uo = [[(mkBlk 64 (Some (Params.mkS 16 16 1 [])) [Some (DStep 1000)], 0, 16)]; []; [(mkBlk 64 (Some (Params.mkS 8 8 1 [])) [Some (DStep (-1000))], 16, 24)]]).
Proof.
  split; [exact I|]. split; [|split; [vm_compute; reflexivity|split; [|split; [apply ux_playable|split; [apply ux_written|split; [vm_compute; reflexivity|vm_compute; repeat split; reflexivity]]]]]].
  - assert (exists b, parse_at 8 4 200 16 true b = Ok (Ok (found (dx false)), false, 816) /\ forallb (fun x => (0 <=? x) && (x <? 256)) b = true /\ zlen b = 102) as (b & E1 & E2 & E3).
    { eexists (match serialize (serialize_descriptors LebMin (dx false)) false with Ok b => b | _ => [] end). split; [vm_compute; reflexivity|]. split; vm_compute; reflexivity. }
    eapply (parsed_consistent 8 4 200 16 true b); [lia|lia| |rewrite E3; lia|rewrite E3; lia|exact E1].
    apply Forall_forall. intros x Hx. rewrite forallb_forall in E2. specialize (E2 x Hx). unfold byteP. lia.
  - split.
    + exists 3, (dx_ae 3 0), 0. vm_compute. auto.
    + intros i a [H|[H|[]]]; injection H as <- <-; (split; [reflexivity|]); (split; [left; reflexivity|]); intros d p mode w [].
Qed.
(* Without [decodable], not so: a default weight index above 10 (four bits hold up to 15) is written, read and accepted, and then
   every audio frame of the element is dropped, and nothing fails. *)
Definition wx_ae (w : Z) : aed := mkAed (mkAE 3 0 0 1 [0] [mkPD (mkPB 70 48000 0 (Some (Params.mkS 8 8 1 []))) (KDemixing 0 0 w 0)] (ACScal 0 [mkLy 1 false false 0 1 1 0 0 0 None]))
  sx_codec [(0, [L2; R2])] [] [mkCh 2 0 0 0].
Definition wx_d (w : Z) : descset :=
  mkDescs (mkOb default_header (mkSeq 0 0) []) [] [(1, mkOb default_header sx_codec [])] [(3, mkOb default_header (wx_ae w) [])] [mkOb default_header (sx_mix 0) []] [].
Theorem C57_reserved_weight_refuted : forall w, 0 <= w <= 15 -> exists b D s c0 c1 units_out s_out pending,
  serialize (serialize_descriptors LebMin (wx_d w)) false = Ok b /\ parse_at 8 4 200 16 true b = Ok (Ok (found (wx_d w)), false, 8 * zlen b) /\
  initialize (found (wx_d w)) = Ok (D, s) /\ written_units LebMin true [sx_u 0 8 0 1; sx_u 8 8 0 1] [c0; c1] /\
  whole_session 8 100 D [c0; c1] s = (units_out, Finished, s_out, pending) /\ zlen units_out = if w <=? 10 then 2 else 0.
Proof.
  intros w H. assert (w = 0 \/ w = 1 \/ w = 2 \/ w = 3 \/ w = 4 \/ w = 5 \/ w = 6 \/ w = 7 \/ w = 8 \/ w = 9 \/ w = 10 \/ w = 11 \/ w = 12 \/ w = 13 \/ w = 14 \/ w = 15) as Hw by lia.
  repeat match type of Hw with _ \/ _ => destruct Hw as [-> |Hw] end; try subst w.
  all: do 8 eexists; (split; [vm_compute; reflexivity|]); (split; [vm_compute; reflexivity|]); (split; [vm_compute; reflexivity|]); (split; [repeat (apply Forall2_cons; [vm_compute; reflexivity|]); constructor|]); split; vm_compute; reflexivity.
Qed.
