(* C64: LPCM played on its own layout comes out as it was coded. *)
From Coq Require Import Reals Psatz.
From Verif Require Import Base WriteBuf ObuHeader SimpleObus CodecConfig Params AudioElement PropsParams PropsAE MixPresentation Timing ParamManager AeData PropsLabels
  Profile MixSelect PropsPM MixGain PropsGain Processor Pcm FloatFacts PropsPcm Demix DemixFacts Render RenderFacts PropsRender PropsHistory PropsUnit RenderSafe RenderUnitSafe DoubleEnv.
From Flocq Require Import Core BinarySingleNaN.
Open Scope Z_scope.

(* ================= SPEC ================= *)
(* loudspeaker_layout of a layer, the sound system with the same loudspeakers, and the order in which its channels are played: mono, stereo,
   5.1, 5.1.2, 5.1.4, 7.1, 7.1.2, 7.1.4, 3.1.2; binaural on two channels *)
Definition same_loudspeakers : list (Z * Z * list label) :=
  [(0, 12, [Mono]); (1, 0, [L2; R2]); (2, 1, [L5; R5; Centre; LFE; Ls5; Rs5]); (3, 2, [L5; R5; Centre; LFE; Ls5; Rs5; Ltf2; Rtf2]);
   (4, 3, [L5; R5; Centre; LFE; Ls5; Rs5; Ltf4; Rtf4; Ltb4; Rtb4]); (5, 8, [L7; R7; Centre; LFE; Lss7; Rss7; Lrs7; Rrs7]);
   (6, 10, [L7; R7; Centre; LFE; Lss7; Rss7; Lrs7; Rrs7; Ltf2; Rtf2]); (7, 9, [L7; R7; Centre; LFE; Lss7; Rss7; Lrs7; Rrs7; Ltf4; Rtf4; Ltb4; Rtb4]);
   (8, 11, [L3; R3; Centre; LFE; Ltf3; Rtf3]); (9, 0, [L2; R2])].

Section Lossless.
Context {B C : Type} (X : outside B C) (tb te : bool).
Notation E := (cpp X tb te).
Notation dec := (lpcm_dec + C)%type.

(* A mix presentation of one LPCM audio element with one layer, played on the loudspeakers of the layer with gains of 0 dB *)
Record plain (aes : aemap) (mp : mixp) (a : aed) (e : subelem) (sm : submix) (lc : lpcm) (order : list label) : Prop := mkPlain {
  pl_subs : mp_subs mp = [sm]; pl_elems : sm_elems sm = [e];
  pl_layout : exists ly ll ss r k, sm_layouts sm = [ly] /\ loudness_layout ly = (2, LSs ss r) /\ ae_conf (ad_obu a) = ACScal k [ll] /\ In (ly_layout ll, ss, order) same_loudspeakers;
  pl_type : ae_type (ad_obu a) = 0; pl_valid : aelem_valid (ad_obu a); pl_made : exists codecs, generate_ae codecs (ad_obu a) = Ok a;
  pl_ids : NoDup (map fst aes); pl_find : m_find (sa_id e) aes = Some a;
  pl_codec : cc_codec (codec_of a) = kIdLpcm; pl_lpcm : cc_dec (codec_of a) = DLpcm lc; pl_frame : 0 <= cc_frame (codec_of a);
  pl_gain : default_gain (sa_gain e) = 0; pl_mixgain : default_gain (sm_gain sm) = 0 }.
Definition unity : Prop := x_pow X (q7_8_to_float 0) = sgl 1 0.

(* ================= what is configured ================= *)
Lemma plain_labels aes mp a e sm lc order : plain aes mp a e sm lc order ->
  exists t, (exists k ll, ae_conf (ad_obu a) = ACScal k [ll] /\ named (ly_layout ll) = Some t /\ ear_order (ly_layout ll) = Ok order) /\
  length (ae_subs (ad_obu a)) = length (substreams (first_pairs t) (first_singles t)) /\
  ad_labels a = combine (ae_subs (ad_obu a)) (substreams (first_pairs t) (first_singles t)) /\ NoDup (ae_subs (ad_obu a)).
Proof.
  intros [_ _ (ly & ll & ss & r & k & P1 & P2 & P3 & P4) Pt Pv (codecs & Pm) _ _ _ _ _ _ _].
  assert (ly_layout ll <> 15) as N15 by (intro Q; rewrite Q in P4; cbn [In same_loudspeakers] in P4; repeat (destruct P4 as [P4|P4]; [discriminate P4|]); destruct P4).
  destruct (C46_channel_labels codecs (ad_obu a) k [ll] a Pv Pt P3 ltac:(intros y [<-|[]]; exact N15) Pm) as (_ & _ & gs & Lb & Ln & Al & _).
  inversion Lb as [|prev y l t gs' Hn Hg Hc Hs Hl]; subst. inversion Hl; subst. cbn [new_pairs new_singles concat] in *. rewrite app_nil_r in *. exists t.
  split; [exists k, ll; split; [exact P3|]; split; [exact Hn|]|split; [symmetry; exact Ln|split; [exact Al|apply Pv]]].
  cbn [In same_loudspeakers] in P4. repeat (destruct P4 as [P4|P4]; [injection P4 as P5 _ <-; rewrite <- P5; reflexivity|]). destruct P4.
Qed.
Lemma plain_no_demixers aes mp a e sm lc order : plain aes mp a e sm lc order -> demix_config a = Ok ([], ad_labels a).
Proof.
  intro P. destruct (plain_labels _ _ _ _ _ _ _ P) as (t & (k & ll & P3 & Hn & Ho) & Ln & Al & _). unfold demix_config, labels_to_reconstruct. rewrite (pl_type _ _ _ _ _ _ _ P). change (0 =? 0) with true. cbv iota. rewrite P3. cbn [rev app].
  unfold reconstruct_labels. assert (ly_layout ll =? kExpanded = false) as ->. { destruct (Z.eqb_spec (ly_layout ll) kExpanded) as [Q|]; [|reflexivity]. rewrite Q in Ho. discriminate Ho. }
  rewrite Ho. cbn [rbind]. rewrite Al. f_equal. f_equal.
  destruct P as [_ _ (ly & ll' & ss & r & k' & Q1 & Q2 & Q3 & Q4) _ _ _ _ _ _ _ _ _ _]. rewrite P3 in Q3. injection Q3 as <- <-. clear - Hn Q4 Ln. revert Hn Ln. generalize (ae_subs (ad_obu a)) as ids.
  cbn [In same_loudspeakers] in Q4. intros ids Hn Ln. repeat (destruct Q4 as [Q4|Q4]; [injection Q4 as Q5 _ <-; rewrite <- Q5 in Hn; vm_compute in Hn; injection Hn as <-; match type of Ln with _ = ?r => let r' := eval vm_compute in r in change r with r' in Ln end;
    repeat (destruct ids as [|? ids]; [discriminate Ln|]; cbn [length] in Ln; apply Nat.succ_inj in Ln); destruct ids; [reflexivity|discriminate Ln]|]). destruct Q4.
Qed.

Definition decoder_of (a : aed) (lc : lpcm) (ls : list label) : dec := inl (mkLd (zlen ls) (cc_frame (codec_of a)) (lp_flags lc =? 1) (lp_size lc / 8)).
Definition plays_pass (a : aed) (e : subelem) (sm : submix) (order : list label) (md : @models double B dec) : Prop :=
  exists l el, plays md l /\ lr_els l = [el] /\ lr_gain l = sm_gain sm /\ lr_chans l = zlen order /\
    el_id el = sa_id e /\ el_gain el = sa_gain e /\ er_kind (el_rend el) = KPass /\ er_labels (el_rend el) = map Some order.
(* What there is after any number of units *)
Definition tuned (a : aed) (e : subelem) (sm : submix) (lc : lpcm) (order : list label) (md : @models double B dec) : Prop :=
  settled md /\ rm_demix md = [(sa_id e, ([], ad_labels a))] /\ rm_subs md = ae_subs (ad_obu a) /\
  (forall s ls, In (s, ls) (ad_labels a) -> m_find s (rm_decs md) = Some (decoder_of a lc ls)) /\
  each_renderer (fun l => forall x, In x (lr_els l) -> el_id x = sa_id e) (rm_fin md) /\ plays_pass a e sm order md.
Definition depth_ok (lc : lpcm) : Prop := lp_size lc = 16 \/ lp_size lc = 24 \/ lp_size lc = 32.

Lemma only_one (aes : aemap) k a : NoDup (map fst aes) -> m_find k aes = Some a -> filter (fun x => existsb (Z.eqb (fst x)) [k]) aes = [(k, a)].
Proof.
  induction aes as [|[i x] aes IH]; intros Nd Hf; [discriminate Hf|]. cbn [map fst] in Nd. inversion Nd as [|? ? Hn Nd']; subst. cbn [m_find] in Hf. cbn [filter existsb fst]. destruct (Z.eqb_spec i k) as [->|Ni]; cbn [orb].
  - injection Hf as ->. f_equal. clear - Hn. induction aes as [|[j y] aes IH]; [reflexivity|]. cbn [map fst In] in Hn. cbn [filter existsb fst]. destruct (Z.eqb_spec j k); [tauto|]. cbn [orb]. apply IH. tauto.
  - exact (IH Nd' Hf).
Qed.
Lemma new_lpcm a lc n d : cc_codec (codec_of a) = kIdLpcm -> cc_dec (codec_of a) = DLpcm lc -> r_newdec E (codec_of a) n = Ok d ->
  d = inl (mkLd n (cc_frame (codec_of a)) (lp_flags lc =? 1) (lp_size lc / 8)) /\ depth_ok lc.
Proof.
  intros H1 H2 H. cbn [r_newdec cpp] in H. unfold new_decoder in H. rewrite H1, Z.eqb_refl, H2 in H. unfold lpcm_create, rthen, map_res in H.
  destruct (lpcm_validate 0 lc) as [[]| | | |]; cbn [rbind] in H; try discriminate H. unfold vcond in H. destruct (lpcm_size_ok (lp_size lc)) eqn:Hs; cbn [rbind] in H; [|discriminate H]. destruct (lp_size lc mod 8 =? 0); cbn [rbind] in H; [|discriminate H].
  injection H as <-. split; [reflexivity|]. unfold lpcm_size_ok in Hs. unfold depth_ok. lia.
Qed.
Lemma made_decoders a lc : cc_codec (codec_of a) = kIdLpcm -> cc_dec (codec_of a) = DLpcm lc -> forall m d0 d, init_decoders E m (codec_of a) d0 = Ok d ->
  (forall s x, m_find s d0 = Some x -> m_find s d = Some x) /\ (forall s ls, In (s, ls) m -> m_find s d = Some (decoder_of a lc ls)) /\ (m <> [] -> depth_ok lc).
Proof.
  intros H1 H2. induction m as [|[s ls] m IH]; intros d0 d H; cbn [init_decoders] in H; [injection H as <-; split; [auto|]; split; [intros s ls []|congruence]|].
  destruct (m_find s d0) as [x|] eqn:Es; [discriminate H|]. destruct (_ || _); [|discriminate H]. destruct (r_newdec E (codec_of a) (zlen ls)) as [x| | | |] eqn:En; cbn [rbind] in H; try discriminate H.
  destruct (new_lpcm _ _ _ _ H1 H2 En) as [-> Hd]. destruct (IH _ _ H) as (I1 & I2 & I3). split; [|split; [|intros _; exact Hd]].
  - intros k y Hk. apply I1. rewrite m_find_app, Hk. reflexivity.
  - intros k y [Hk|Hk]; [|exact (I2 k y Hk)]. injection Hk as <- <-. apply I1. rewrite m_find_app, Es. cbn [m_find]. rewrite Z.eqb_refl. reflexivity.
Qed.
Lemma configured aes mp a e sm lc order md : plain aes mp a e sm lc order -> configure E aes mp = Ok md -> tuned a e sm lc order md /\ depth_ok lc.
Proof.
  intros P H. destruct (plain_labels _ _ _ _ _ _ _ P) as (t & (k & ll & P3 & Hn & Ho) & Ln & Al & Nd). pose proof (plain_no_demixers _ _ _ _ _ _ _ P) as Dc.
  destruct P as [Q1 Q2 (ly & ll' & ss & r & k' & L1 & L2 & L3 & L4) Q3 _ _ Q4 Q5 Q6 Q7 Qf _ _]. rewrite P3 in L3. injection L3 as <- <-.
  unfold configure in H. rewrite Q1 in H. cbn [element_ids flat_map] in H. rewrite Q2 in H. cbn [map app] in H. rewrite (only_one _ _ _ Q4 Q5) in H.
  cbn [configure_elements rmap app fst snd] in H. destruct (init_decoders E (ad_labels a) (codec_of a) []) as [d| | | |] eqn:Ei; cbn [rbind] in H; try discriminate H. rewrite Dc in H. cbn [rbind fst snd] in H.
  destruct (made_decoders a lc Q6 Q7 _ _ _ Ei) as (_ & D2 & D3).
  assert (ad_labels a <> []) as Ne. { rewrite Al. clear - Ln L4 Hn. cbn [In same_loudspeakers] in L4. revert Ln. generalize (ae_subs (ad_obu a)) as ids. intros ids Ln.
    repeat (destruct L4 as [Q4|L4]; [injection Q4 as Q5 _ _; rewrite <- Q5 in Hn; vm_compute in Hn; injection Hn as <-; destruct ids; [discriminate Ln|discriminate]|]). destruct L4. }
  split; [|exact (D3 Ne)]. 
  assert (new_pass [ll] (2, LSs ss r) (cc_frame (codec_of a)) = Ok (new_renderer KPass (map Some order) (cc_frame (codec_of a)) (zlen order)) (A := @erend double B) /\ num_channels 2 (LSs ss r) = Ok (zlen order) /\ order <> []) as (Np & Nc & On).
  { unfold new_pass, find_layer, can_pass, channel_order. change (fst (2, LSs ss r)) with 2. change (2 =? 2) with true. cbv iota. cbn [sound_system snd rbind]. clear - L4. unfold kExpanded in *.
    destruct ll as [lay l1 l2 l3 l4 l5 l6 l7 l8 l9]. cbn [AudioElement.ly_layout] in L4. unfold same_loudspeakers in L4. cbn [In] in L4. repeat (destruct L4 as [Q4|L4]; [injection Q4 as <- <- <-; split; [reflexivity|split; [reflexivity|discriminate]]|]). destruct L4. }
  unfold new_finalizer in H. rewrite Q1 in H. cbn [rmap] in H. unfold new_sub_mix in H. rewrite Q2, L1 in H. cbn [collect_elements] in H. rewrite Q5 in H. cbn [rbind common_rate_and_size forallb negb rmap fst snd] in H. rewrite L2 in H.
  unfold new_layout in H. cbn [fst snd] in H. rewrite Nc in H. cbn [new_elements] in H. unfold new_for_layout in H. change (fst (2, LSs ss r)) with 2 in H. change (2 =? 3) with false in H. rewrite andb_false_r in H. cbn [negb andb] in H. rewrite Q3 in H. change (0 =? 1) with false in H. change (0 =? 0) with true in H. cbv iota in H. rewrite P3 in H.
  change (fst (2, LSs ss r)) with 2 in H. cbn [negb andb] in H. rewrite Np in H. cbn [or_null rbind option_map existsb lm_rend orb m_find app] in H. injection H as <-.
  set (l := mkLr _ _ _ _ _). assert (ready l) as Rl. { constructor; [|constructor]. split; [exact Logic.I|]. split; [|split; [|]]; cbn [el_rend new_renderer er_out er_spf er_labels]. 
    - clear. unfold clean. induction (Z.to_nat (zlen order)); constructor; auto.
    - rewrite Z2Nat.id by exact Qf. reflexivity.
    - destruct order; [congruence|discriminate]. }
  assert (forall id subs ls lm x, In (id, subs) [(mp_id mp, [[mkLm (Some l) []]])] -> In ls subs -> In lm ls -> lm_rend lm = Some x -> x = l) as One.
  { intros id subs ls lm x [Z1|[]] Z2 Z3 Z4. injection Z1 as <- <-. destruct Z2 as [<-|[]]. destruct Z3 as [<-|[]]. injection Z4 as <-. reflexivity. }
  split; [|split; [reflexivity|split; [reflexivity|split; [exact D2|split]]]].
  - intros id subs ls lm x Z1 Z2 Z3 Z4. rewrite (One _ _ _ _ _ Z1 Z2 Z3 Z4). exact Rl.
  - intros id subs ls lm x Z1 Z2 Z3 Z4. rewrite (One _ _ _ _ _ Z1 Z2 Z3 Z4). intros y [<-|[]]. reflexivity.
  - exists l. eexists. split; [|split; [reflexivity|repeat split]]. exists [[mkLm (Some l) []]], [mkLm (Some l) []], (mkLm (Some l) []). cbn [rm_fin rm_mix m_find]. rewrite Z.eqb_refl. repeat split.
Qed.

(* ================= any number of units ================= *)
Lemma inl_decs subs start : forall fs stop (decs : list (Z * dec)), (forall s, In s subs -> exists l, m_find s decs = Some (inl l)) -> snd (decode_frames E subs start stop fs decs) = decs.
Proof.
  intros fs stop decs H. revert stop. induction fs as [|o fs IH]; intro stop; cbn [decode_frames]; [reflexivity|]. destruct (existsb (Z.eqb (af_id (of_obu o))) subs) eqn:Ex; cbn [negb].
  - cbv zeta. destruct (veq _ _ >>> veq _ _); try reflexivity. apply in_subs in Ex. destruct (H _ Ex) as (l & Hl). unfold decode. rewrite Hl. cbn [r_decode cpp decode_with].
    assert (Render.m_set (af_id (of_obu o)) (inl l) decs = decs) as ->. { clear - Hl. induction decs as [|[i x] decs IH]; [reflexivity|]. cbn [m_find Render.m_set] in *. destruct (i =? af_id (of_obu o)); [injection Hl as <-; reflexivity|]. rewrite IH by exact Hl. reflexivity. }
    destruct (lpcm_decode _ _ _ _ _); try reflexivity. match goal with |- context[decode_frames E subs start ?s0 fs decs] => specialize (IH s0); destruct (decode_frames E subs start s0 fs decs) end. exact IH.
  - specialize (IH stop). destruct (decode_frames E subs start stop fs decs). exact IH.
Qed.
Lemma render_decs m u : snd (decode_frames E (rm_subs m) (un_time u) None (un_frames u) (rm_decs m)) = rm_decs m -> rm_decs (snd (Render.render_unit E m u)) = rm_decs m.
Proof.
  unfold Render.render_unit. destruct (decode_frames E _ _ _ _ _) as [r decs]. cbn [snd]. intros ->. cbv zeta. match goal with |- context[match ?q with Ok _ => _ | _ => _ end] => destruct q as [[fr e]|c| | |] end; try reflexivity. destruct (push_unit E _ _ _ _ _). reflexivity.
Qed.
Lemma same_each (P : @lrend double B -> Prop) f f' : (forall l l', same_renderer l l' -> P l -> P l') -> same_finalizer f f' -> each_renderer P f -> each_renderer P f'.
Proof.
  intros Hp S H id subs ls lm l H1 H2 H3 H4. apply In_nth_error in H1 as (i & H1). destruct (forall2_nth _ _ _ _ _ S H1) as ([id0 subs0] & N1 & Q1 & Q2). cbn [fst snd] in *. subst id0.
  apply In_nth_error in H2 as (j & H2). destruct (forall2_nth _ _ _ _ _ Q2 H2) as (ls0 & N2 & Q3). apply In_nth_error in H3 as (k & H3). destruct (forall2_nth _ _ _ _ _ Q3 H3) as (lm0 & N3 & Q4).
  unfold same_layout in Q4. rewrite H4 in Q4. destruct (lm_rend lm0) as [l0|] eqn:E0; [|contradiction]. apply (Hp _ _ Q4). exact (H _ _ _ _ _ (nth_error_In _ _ N1) (nth_error_In _ _ N2) (nth_error_In _ _ N3) E0).
Qed.
Lemma same_plays (m m' : @models double B dec) l : alike m m' -> plays m l -> exists l', plays m' l' /\ same_renderer l l'.
Proof.
  intros (_ & _ & A3 & A4) (subs & ls & lm & P1 & P2 & P3 & P4). unfold plays. rewrite A3. revert P1. generalize (rm_mix m) as i. intros i P1.
  assert (exists subs', m_find i (rm_fin m') = Some subs' /\ Forall2 (Forall2 same_layout) subs subs') as (subs' & F1 & F2).
  { induction A4 as [|[j x] [j' x'] f f' [H1 H2] _ IH]; [discriminate P1|]. cbn [fst snd] in *. subst j'. cbn [m_find] in *. destruct (j =? i); [injection P1 as <-; eauto|exact (IH P1)]. }
  destruct (forall2_nth_l _ _ _ _ _ F2 P2) as (ls' & G1 & G2). destruct (forall2_nth_l _ _ _ _ _ G2 P3) as (lm' & G3 & G4). unfold same_layout in G4. rewrite P4 in G4. destruct (lm_rend lm') as [l'|] eqn:El; [|contradiction].
  exists l'. split; [exists subs', ls', lm'; auto|exact G4].
Qed.
Lemma labels_all aes mp a e sm lc order : plain aes mp a e sm lc order -> forall s, In s (ae_subs (ad_obu a)) <-> exists ls, In (s, ls) (ad_labels a).
Proof.
  intro P. destruct (plain_labels _ _ _ _ _ _ _ P) as (t & _ & Ln & -> & _). revert Ln. generalize (substreams (first_pairs t) (first_singles t)) as gs. generalize (ae_subs (ad_obu a)) as ids. clear.
  induction ids as [|i ids IH]; intros [|g gs] Ln s; try discriminate Ln; [split; [intros []|intros (? & [])]|]. cbn [length] in Ln. apply Nat.succ_inj in Ln. specialize (IH gs Ln s). cbn [In combine]. split.
  - intros [-> |H]; [exists g; left; reflexivity|]. apply IH in H as (ls & H). eauto.
  - intros (ls & [H|H]); [injection H as -> _; left; reflexivity|]. right. apply IH. eauto.
Qed.
Lemma tuned_unit aes mp a e sm lc order md u : plain aes mp a e sm lc order -> tuned a e sm lc order md -> trims_of_unit u -> tuned a e sm lc order (snd (Render.render_unit E md u)).
Proof.
  intros P (T1 & T2 & T3 & T4 & T5 & (l & el & L1 & L2 & L3 & L4 & L5 & L6 & L7 & L8)) Hu. destruct (C61_settled E md u T1 Hu) as (S1 & S2 & _). pose proof S2 as (A1 & A2 & A3 & A4).
  assert (rm_decs (snd (Render.render_unit E md u)) = rm_decs md) as Dd.
  { apply render_decs. apply inl_decs. intros s Hs. rewrite T3 in Hs. apply (labels_all _ _ _ _ _ _ _ P) in Hs as (ls & Hs). rewrite (T4 _ _ Hs). eexists. reflexivity. }
  split; [exact S1|]. split; [congruence|]. split; [congruence|]. split; [rewrite Dd; exact T4|]. split.
  - revert T5. apply same_each; [|exact A4]. intros l0 l0' (K & _) H x Hx. apply In_nth_error in Hx as (i & Hx). destruct (forall2_nth _ _ _ _ _ K Hx) as (y & N1 & (N2 & _)). rewrite N2. apply H. exact (nth_error_In _ _ N1).
  - destruct (same_plays _ _ _ S2 L1) as (l' & P1 & (K1 & K2 & K3 & _)). rewrite L2 in K1. inversion K1 as [|? el' ? els' (M1 & M2 & M3 & M4 & M5) K1' Q1 Q2]; subst. inversion K1'; subst. exists l', el'. split; [exact P1|]. split; [symmetry; assumption|]. repeat split; congruence.
Qed.
Lemma tuned_units aes mp a e sm lc order us : plain aes mp a e sm lc order -> forall md, tuned a e sm lc order md -> Forall trims_of_unit us -> tuned a e sm lc order (after_units E md us).
Proof.
  intros P md T Hu. unfold after_units. revert md T. induction Hu as [|u us Hu _ IH]; intros md T; cbn [fold_left]; [exact T|]. apply IH. exact (tuned_unit _ _ _ _ _ _ _ _ _ P T Hu).
Qed.

(* ================= decoding and storing ================= *)
Lemma decoded_lpcm (a : aed) (lc : lpcm) decs : (forall s ls, In (s, ls) (ad_labels a) -> m_find s decs = Some (decoder_of a lc ls)) ->
  (forall s, In s (ae_subs (ad_obu a)) <-> exists ls, In (s, ls) (ad_labels a)) -> forall os fs decs0 decs1, decs0 = decs -> decoded E (ae_subs (ad_obu a)) decs0 os fs decs1 ->
  Forall2 (fun o f => (exists ls s, In (af_id (of_obu o), ls) (ad_labels a) /\ lpcm_decode (zlen ls) (cc_frame (codec_of a)) (lp_size lc / 8) (lp_flags lc =? 1) (af_bytes (of_obu o)) = Ok s /\ f = frame_of E o s) \/
                      (~ In (af_id (of_obu o)) (ae_subs (ad_obu a)) /\ f = frame_of E o [])) os fs.
Proof.
  intros Hd Hs os fs decs0 decs1 Q H. revert Q. induction H as [decs0|decs0 o t fs decs1 Hn H IH|decs0 o t fs decs1 d s d1 Hin Hf Hr H IH]; intros ->; constructor; auto.
  - apply Hs in Hin as (ls & Hin). rewrite (Hd _ _ Hin) in Hf. injection Hf as <-. cbn [r_decode cpp decode_with decoder_of] in Hr. left. exists ls, s. split; [exact Hin|]. split; [injection Hr as Hr _; exact Hr|reflexivity].
  - apply IH. apply Hs in Hin as (ls & Hin). pose proof (Hd _ _ Hin) as Hf'. rewrite Hf' in Hf. injection Hf as <-. cbn [r_decode cpp decode_with decoder_of] in Hr. injection Hr as _ <-. clear - Hf'.
    unfold decoder_of in Hf'. revert Hf'. generalize (inl (mkLd (zlen ls) (cc_frame (codec_of a)) (lp_flags lc =? 1) (lp_size lc / 8)) : dec) as d. intros d Hf. induction decs as [|[i x] decs IH]; [reflexivity|]. cbn [m_find Render.m_set] in *. destruct (i =? af_id (of_obu o)); [injection Hf as <-; reflexivity|]. rewrite IH by exact Hf. reflexivity.
Qed.
Notation chan := (@samples double).
Lemma sm_find_set k k0 (v : chan) m : sm_find k (sm_set k0 v m) = if lkey_eq_dec k0 k then Some v else sm_find k m.
Proof.
  induction m as [|[i x] m IH]; cbn [sm_set sm_find]; [reflexivity|]. destruct (lkey_eq_dec i k0) as [->|N0]; cbn [sm_find]; [destruct (lkey_eq_dec k0 k); reflexivity|]. destruct (lkey_eq_dec i k) as [->|N1]; [|exact IH]. destruct (lkey_eq_dec k0 k); [congruence|reflexivity].
Qed.
Lemma store_channels_from : forall ls (cs : list chan) m k s, sm_find k (store_channels ls cs m) = Some s ->
  sm_find k m = Some s \/ exists i l, nth_error ls i = Some l /\ nth_error cs i = Some s /\ k = Orig l.
Proof.
  induction ls as [|l ls IH]; intros [|c cs] m k s H; cbn [store_channels] in H; auto. destruct (IH _ _ _ _ H) as [H1|(i & l0 & H1 & H2 & H3)]; [|right; exists (S i), l0; auto].
  rewrite sm_find_set in H1. destruct (lkey_eq_dec (Orig l) k) as [<-|]; [injection H1 as <-; right; exists O, l; auto|auto].
Qed.
Lemma store_frames_from t0 subs : forall fs exp (lf lf1 : @labeled double), store_frames t0 subs exp fs lf = Ok lf1 ->
  (forall k s, sm_find k (lf_map lf1) = Some s -> sm_find k (lf_map lf) = Some s \/
     exists f ls i l, In f fs /\ m_find (f_id f) subs = Some ls /\ nth_error ls i = Some l /\ nth_error (f_samples f) i = Some s /\ k = Orig l) /\
  (lf_map lf1 = lf_map lf /\ lf_trim_start lf1 = lf_trim_start lf /\ lf_trim_end lf1 = lf_trim_end lf \/
   exists f ls, In f fs /\ m_find (f_id f) subs = Some ls /\ lf_trim_start lf1 = f_trim_start f /\ lf_trim_end lf1 = f_trim_end f).
Proof.
  induction fs as [|f fs IH]; intros exp lf lf1 H; cbn [store_frames] in H; [injection H as <-; split; [auto|left; auto]|].
  destruct (m_find (f_id f) subs) as [ls|] eqn:Ef.
  - unfold rthen in H. destruct (veq t0 (f_start f)); cbn [rbind] in H; try discriminate H. destruct (f_samples f) as [|s0 ss] eqn:Efs; [discriminate H|].
    destruct (veq _ (zlen ls)); cbn [rbind] in H; try discriminate H. destruct (common_ticks _) as [n|c| | |]; cbn [rbind] in H; try discriminate H.
    destruct (match exp with None => Ok tt | Some e => veq (Z.of_nat n) (Z.of_nat e) end); cbn [rbind] in H; try discriminate H.
    destruct (IH _ _ _ H) as [I1 I2]. cbn [lf_map lf_trim_start lf_trim_end] in I1, I2. split.
    + intros k s Hk. destruct (I1 k s Hk) as [J|(f' & ls' & i & l & J1 & J2)]; [|right; exists f', ls', i, l; split; [right; exact J1|exact J2]].
      apply store_channels_from in J as [J|(i & l & J1 & J2 & J3)]; [left; exact J|]. right. exists f, ls, i, l. rewrite Efs. split; [left; reflexivity|auto].
    + right. destruct I2 as [(_ & J2 & J3)|(f' & ls' & J1 & J2)]; [exists f, ls; split; [left; reflexivity|auto]|exists f', ls'; split; [right; exact J1|exact J2]].
  - destruct (IH _ _ _ H) as [I1 I2]. split.
    + intros k s Hk. destruct (I1 k s Hk) as [J|(f' & ls' & i & l & J1 & J2)]; [left; exact J|right; exists f', ls', i, l; split; [right; exact J1|exact J2]].
    + destruct I2 as [J|(f' & ls' & J1 & J2)]; [left; exact J|right; exists f', ls'; split; [right; exact J1|exact J2]].
Qed.
(* What an LPCM audio element without demixers is given to play *)
Lemma demix_plain subs fs lf : demix (r_A E) [] subs fs = Ok (Some lf) ->
  (forall l s, find_samples l (lf_map lf) = Ok s -> exists f ls i, In f fs /\ m_find (f_id f) subs = Some ls /\ nth_error ls i = Some l /\ nth_error (f_samples f) i = Some s) /\
  exists f ls, In f fs /\ m_find (f_id f) subs = Some ls /\ lf_trim_start lf = f_trim_start f /\ lf_trim_end lf = f_trim_end f.
Proof.
  unfold demix. intro H. destruct (store subs fs) as [lf0|c| | |] eqn:Es; cbn [rbind] in H; try discriminate H. destruct (lf_map lf0) as [|kv rest] eqn:Em; [discriminate H|]. destruct (lf_params lf0) as [p|]; [|discriminate H].
  cbn [run_demixers rbind] in H. injection H as <-. cbn [lf_map lf_trim_start lf_trim_end]. rewrite <- Em. assert (lf_map lf0 <> []) as Ne by congruence. clear Em kv rest.
  unfold store in Es. destruct fs as [|f0 fs]; [injection Es as <-; exfalso; apply Ne; reflexivity|]. destruct (store_frames_from _ _ _ _ _ _ Es) as [S1 S2]. cbn [lf_map lf_trim_start lf_trim_end] in S1, S2. split.
  - intros l s H. assert (exists k, sm_find k (lf_map lf0) = Some s /\ (k = Orig l \/ k = Dem l)) as (k & H1 & H2).
    { unfold find_samples in H. destruct (sm_find (Orig l) (lf_map lf0)) as [x|] eqn:E1; [injection H as <-; eauto|]. destruct (lab_in l demixable); [|discriminate H]. destruct (sm_find (Dem l) (lf_map lf0)) as [x|] eqn:E2; [|discriminate H]. injection H as <-. eauto. }
    destruct (S1 k s H1) as [J|(f & ls & i & l0 & J1 & J2 & J3 & J4 & J5)]; [discriminate J|]. destruct H2 as [-> | ->]; [|discriminate J5]. injection J5 as <-. exists f, ls, i. auto.
  - destruct S2 as [(J & _)|J]; [congruence|exact J].
Qed.
Lemma res_list_all {A} (l : list (res A)) : forall r, res_list l = Ok r -> Forall2 (fun x y => x = Ok y) l r.
Proof. induction l as [|x l IH]; intros r H; cbn [res_list] in H; [injection H as <-; constructor|]. destruct x as [v| | | |]; cbn [rbind] in H; try discriminate H. destruct (res_list l) as [t| | | |]; cbn [rbind] in H; try discriminate H. injection H as <-. constructor; auto. Qed.
Lemma nth_seq n i x : nth_error (map Z.of_nat (seq 0 n)) i = Some x -> x = Z.of_nat i /\ (i < n)%nat.
Proof.
  intro H. assert (i < n)%nat as L. { assert (nth_error (map Z.of_nat (seq 0 n)) i <> None) as Q by congruence. apply nth_error_Some in Q. rewrite map_length, seq_length in Q. exact Q. }
  split; [|exact L]. rewrite (nth_error_nth' _ 0) in H by (rewrite map_length, seq_length; exact L). injection H as <-. change 0 with (Z.of_nat 0). rewrite map_nth, seq_nth by exact L. reflexivity.
Qed.
Lemma lpcm_decoded channels spf bps little data s k ch : 1 <= bps -> lpcm_decode channels spf bps little data = Ok s -> nth_error s k = Some ch ->
  0 < channels /\ zlen data = channels * Z.of_nat (length ch) * bps /\
  forall i v, nth_error ch i = Some v -> lpcm_sample little bps data ((Z.of_nat i * channels + Z.of_nat k) * bps) = Ok v.
Proof.
  intros Hb H Hk. unfold lpcm_decode in H. destruct (_ || _) eqn:M; [discriminate H|]. cbv zeta in H. destruct (_ >? _); [discriminate H|]. apply res_list_all in H.
  destruct (forall2_nth _ _ _ _ _ H Hk) as (x & N1 & N2). assert (exists c, nth_error (map Z.of_nat (seq 0 (Z.to_nat channels))) k = Some c /\ x = res_list (map (fun t : Z => lpcm_sample little bps data ((t * channels + c) * bps)) (map Z.of_nat (seq 0 (Z.to_nat (zlen data / bps / channels)))))) as (c & N3 & ->).
  { rewrite nth_error_map in N1. destruct (nth_error (map Z.of_nat (seq 0 (Z.to_nat channels))) k) as [c|]; [|discriminate N1]. injection N1 as <-. eauto. }
  apply nth_seq in N3 as [-> Lk]. apply res_list_all in N2. pose proof (forall2_length _ _ _ N2) as Ln. rewrite !map_length, seq_length in Ln.
  pose proof (Zle_0_nat (length data)) as Hl. fold (zlen data) in Hl. assert (zlen data mod bps = 0) as M1 by lia. assert ((zlen data / bps) mod channels = 0) as M2 by lia. assert (0 < channels) as C0 by lia.
  assert (zlen data = bps * (zlen data / bps)) as E1 by (rewrite (Z.div_mod (zlen data) bps) at 1 by lia; lia). assert (0 <= zlen data / bps) as Q1 by (apply Z.div_pos; lia). set (q1 := zlen data / bps) in *. assert (q1 = channels * (q1 / channels)) as E2 by (rewrite (Z.div_mod q1 channels) at 1 by lia; lia). assert (0 <= q1 / channels) as Q2 by (apply Z.div_pos; lia). set (q2 := q1 / channels) in *.
  split; [exact C0|]. split; [rewrite <- Ln, Z2Nat.id by exact Q2; rewrite E1, E2; ring|].
  intros i v Hi. destruct (forall2_nth _ _ _ _ _ N2 Hi) as (y & N4 & N5). rewrite nth_error_map in N4. destruct (nth_error (map Z.of_nat (seq 0 (Z.to_nat q2))) i) as [z|] eqn:Ez; [|discriminate N4]. injection N4 as <-. apply nth_seq in Ez as [-> _]. exact N5.
Qed.

(* ================= gains of 0 dB change nothing ================= *)
Lemma one_val : B2R (to_double (sgl 1 0)) = 1%R /\ Bsign (to_double (sgl 1 0)) = false /\ is_finite (to_double (sgl 1 0)) = true.
Proof.
  assert (B2SF (to_double (sgl 1 0)) = SpecFloat.S754_finite false 4503599627370496 (-52)) as Q by (vm_compute; reflexivity).
  split; [|vm_compute; auto]. rewrite <- SF2R_B2SF, Q. unfold SF2R, F2R. cbn [cond_Zopp Fnum Fexp]. change (bpow radix2 (-52)) with (/ IZR 4503599627370496)%R. field.
Qed.
Lemma mul_one (x : double) : is_finite x = true -> dmul x (to_double (sgl 1 0)) = x.
Proof.
  intro F. destruct one_val as (O1 & O2 & O3). pose proof (Bmult_correct 53 1024 eq_refl eq_refl mode_NE x (to_double (sgl 1 0))) as H. rewrite O1, O2, O3, Rmult_1_r, F in H.
  rewrite round_generic in H by (try apply valid_rnd_N; apply generic_format_B2R). rewrite Rlt_bool_true in H by apply abs_B2R_lt_emax. destruct H as (H1 & H2 & H3). cbn [andb] in H2.
  apply B2R_Bsign_inj; [exact H2|exact F|exact H1|]. unfold dmul. specialize (H3 ltac:(destruct (Bmult mode_NE x _); try discriminate H2; reflexivity)). etransitivity; [exact H3|]. destruct (Bsign x); reflexivity.
Qed.
Lemma zero_add z : int32 z -> dadd (zero E) (int32_to_double z) = int32_to_double z.
Proof.
  intro Hz. assert (zero E = B754_zero false) as ->. { apply B2SF_inj. vm_compute. reflexivity. }
  destruct (int32_to_double_val z Hz) as [F V]. destruct (int32_to_double z) as [s|s| |s m e0 pf] eqn:Q; try discriminate F; [|reflexivity].
  cbn [B2R] in V. assert (z = 0) as ->. { apply eq_IZR. change (IZR 0) with 0%R. assert (0 < IZR (2^31))%R by (apply IZR_lt; lia). assert (IZR z = (IZR z / IZR (2^31)) * IZR (2^31))%R as W by (field; lra). rewrite W, <- V. ring. }
  assert (B2SF (int32_to_double 0) = SpecFloat.S754_zero false) as W by (vm_compute; reflexivity). rewrite Q in W. injection W as ->. reflexivity.
Qed.
(* The bytes of sample [i] of channel [k] in the data of a frame with [channels] channels, [n] bytes per sample *)
Definition bytes_at (n channels k i : nat) (data : list Z) : list Z := firstn n (skipn ((i * channels + k) * n) data).

(* ================= SPEC ================= *)
(* The unit has a frame of the element; all of its frames are trimmed alike and made of bytes; it has no parameter blocks for the two gains *)
Record plain_unit (a : aed) (e : subelem) (sm : submix) (u : outunit) (ts tn : Z) : Prop := mkPlainUnit {
  pu_some : exists o, In o (un_frames u) /\ In (af_id (of_obu o)) (ae_subs (ad_obu a));
  pu_trims : forall o, In o (un_frames u) -> In (af_id (of_obu o)) (ae_subs (ad_obu a)) -> h_trim_start (of_header o) = ts /\ h_trim_end (of_header o) = tn;
  pu_bytes : forall o, In o (un_frames u) -> Forall byteP (af_bytes (of_obu o));
  pu_blocks : forall b, In b (un_blocks u) -> bl_id (ob_obu b) <> pb_id (pd_base (sa_gain e)) /\ bl_id (ob_obu b) <> pb_id (pd_base (sm_gain sm)) }.
(* Where the samples of channel c come from: a frame of the unit whose k-th channel is the one played as channel c *)
Definition comes_from (a : aed) (order : list label) (u : outunit) (c : nat) (data : list Z) (channels k : nat) : Prop :=
  exists o ls lab, In o (un_frames u) /\ af_bytes (of_obu o) = data /\ In (af_id (of_obu o), ls) (ad_labels a) /\ length ls = channels /\ nth_error ls k = Some lab /\ nth_error order c = Some lab.
Definition skipped (b : bool) (n : Z) : nat := if b then Z.to_nat n else O.

Lemma last_none i bs : (forall b, In b bs -> bl_id (ob_obu b) <> i) -> last_block i bs = None.
Proof.
  intro H. unfold last_block. destruct (find _ (rev bs)) as [b|] eqn:Ef; [|reflexivity]. apply find_some in Ef as [F1 F2]. apply in_rev in F1. apply Z.eqb_eq in F2. exfalso. exact (H b F1 F2).
Qed.
Theorem C64_samples : forall aes mp a e sm lc order md us u ts tn out m1, plain aes mp a e sm lc order -> unity ->
  configure E aes mp = Ok md -> Forall trims_of_unit us -> trims_of_unit u -> plain_unit a e sm u ts tn ->
  Render.render_unit E (after_units E md us) u = (Ok out, m1) ->
  zlen out = zlen order /\ exists n, uniform out n /\
  forall c ch, nth_error out c = Some ch -> n <> O -> exists data channels k, comes_from a order u c data channels k /\
    zlen data = Z.of_nat channels * (Z.of_nat (skipped tb ts) + Z.of_nat n + Z.of_nat (skipped te tn)) * (lp_size lc / 8) /\
    forall t, (t < n)%nat -> exists v,
      bytes_to_int32 (negb (lp_flags lc =? 1)) (bytes_at (Z.to_nat (lp_size lc / 8)) channels k (skipped tb ts + t) data) = Ok v /\ int32 v /\
      zlen (bytes_at (Z.to_nat (lp_size lc / 8)) channels k (skipped tb ts + t) data) = lp_size lc / 8 /\
      nth_error ch t = Some (int32_to_double v).
Proof.
  intros aes mp a e sm lc order md us u ts tn out m1 P Un Hc Hus Hu Pu Hr. destruct (configured _ _ _ _ _ _ _ _ P Hc) as [T0 Dk]. pose proof (tuned_units _ _ _ _ _ _ _ _ P _ T0 Hus) as T. clear T0 Hc. set (m := after_units E md us) in *. clearbody m.
  destruct T as (T1 & T2 & T3 & T4 & T5 & (l & el & L1 & L2 & L3 & L4 & L5 & L6 & L7 & L8)). pose proof (labels_all _ _ _ _ _ _ _ P) as La. destruct (plain_labels _ _ _ _ _ _ _ P) as (t & _ & Ln & Al & Nd). destruct Pu as [(o0 & U1 & U2) Ut Ub Uk].
  assert (forall s ls, In (s, ls) (ad_labels a) -> m_find s (ad_labels a) = Some ls) as Fl.
  { intros s ls Hin. revert Ln Nd Hin. rewrite Al. generalize (substreams (first_pairs t) (first_singles t)) as gs. generalize (ae_subs (ad_obu a)) as ids. clear. induction ids as [|i ids IH]; intros [|g gs] Ln Nd Hin; try destruct Hin.
    - injection H as <- <-. cbn [combine m_find]. rewrite Z.eqb_refl. reflexivity.
    - cbn [combine m_find]. inversion Nd; subst. destruct (Z.eqb_spec i s) as [->|]; [exfalso; apply in_combine_l in H; contradiction|]. cbn [length] in Ln. apply IH; [lia|assumption|exact H]. }
  assert (forall s ls, m_find s (ad_labels a) = Some ls -> In (s, ls) (ad_labels a)) as Fi by (intros; apply m_find_In; assumption).
  assert (complete m u) as Cm.
  { split.
    - intros id c Hin. rewrite T2 in Hin. destruct Hin as [Hin|[]]. injection Hin as _ <-. apply La in U2 as (ls & U2). exists o0, ls. split; [exact U1|]. split; [exact (Fl _ _ U2)|]. rewrite Al in U2. apply in_combine_r in U2. clear - U2. unfold substreams in U2. intros ->.
      apply in_app_or in U2 as [U2|U2]; apply in_map_iff in U2 as (x & Q & _); try (destruct x); discriminate Q.
    - rewrite T2. cbn [map fst]. intros id subs ls lm l0 H1 H2 H3 H4 x Hx. left. symmetry. exact (T5 _ _ _ _ _ H1 H2 H3 H4 x Hx). }
  destruct (C60_unit E m u l out m1 T1 Hu Cm) as (fs & frames & blocks & stop & n & D1 & D2 & D3 & _ & _ & D4 & D5 & D6 & D7); [rewrite T2; constructor; [intros []|constructor]|exact L1| |exact Hr|].
  { intros d b Hd Hb Hi. destruct (Uk b Hb) as [K1 K2]. rewrite L2, L3 in Hd. destruct Hd as [<-|[<-|[]]]; [|rewrite L6 in Hi]; congruence. }
  split; [congruence|]. exists n. split; [exact D5|]. intros c ch Ho Hn.
  assert (lr_chans l <> 0) as Cn. { rewrite <- D4. unfold zlen. destruct out; [destruct c; discriminate Ho|discriminate]. }
  rewrite T3 in D1. pose proof (decoded_lpcm a lc (rm_decs m) T4 La _ _ _ _ eq_refl D1) as Df.
  specialize (D2 (sa_id e) ([], ad_labels a)). rewrite T2 in D2. specialize (D2 (or_introl eq_refl)). cbn [fst snd] in D2.
  specialize (D6 Cn Hn). rewrite L2 in D6. inversion D6 as [|? ? (lf & F1 & F2) _]; subst. rewrite L5 in F1. rewrite F1 in D2. destruct (demix_plain _ _ _ D2) as (G1 & (f0 & ls0 & G2 & G3 & G4 & G5)).
  assert (forall f ls, In f fs -> m_find (f_id f) (ad_labels a) = Some ls -> exists o s, In o (un_frames u) /\ In (af_id (of_obu o), ls) (ad_labels a) /\
     lpcm_decode (zlen ls) (cc_frame (codec_of a)) (lp_size lc / 8) (lp_flags lc =? 1) (af_bytes (of_obu o)) = Ok s /\ f = frame_of E o s) as Fr.
  { intros f ls Hf Hm. apply In_nth_error in Hf as (i & Hf). destruct (forall2_nth _ _ _ _ _ Df Hf) as (o & N1 & [(ls' & s & K1 & K2 & K3)|(K1 & K2)]).
    - subst f. cbn [frame_of f_id] in Hm. rewrite (Fl _ _ K1) in Hm. injection Hm as <-. exists o, s. split; [exact (nth_error_In _ _ N1)|auto].
    - exfalso. apply K1. apply La. subst f. exists ls. exact (Fi _ _ Hm). }
  assert (start_trim E lf = skipped tb ts /\ end_trim E lf = skipped te tn) as [St Et].
  { destruct (Fr _ _ G2 G3) as (o & s & K1 & K2 & K3 & K4). destruct (Ut o K1 ltac:(apply La; eauto)) as [W1 W2]. subst f0. cbn [frame_of f_trim_start f_trim_end] in G4, G5. unfold start_trim, end_trim. rewrite G4, G5, W1, W2. cbn [r_trim_begin r_trim_end cpp]. unfold trim_of, skipped. destruct tb, te; auto. }
  assert (exists lab, nth_error order c = Some lab) as (lab & Hl). { assert (nth_error order c <> None) as Q; [|destruct (nth_error order c); eauto; congruence]. apply nth_error_Some. assert (c < length out)%nat as Q by (apply nth_error_Some; congruence). unfold zlen in D4, L4. lia. }
  destruct (F2 lab) as (sam & S1 & S2). { rewrite L8. apply in_map. exact (nth_error_In _ _ Hl). }
  destruct (G1 _ _ S1) as (f & ls & k & K1 & K2 & K3 & K4). destruct (Fr _ _ K1 K2) as (o & s & O1 & O2 & O3 & ->). cbn [frame_of f_samples] in K4.
  assert (2 <= lp_size lc / 8 <= 4) as Bs by (destruct Dk as [-> |[-> | ->]]; split; discriminate).
  destruct (lpcm_decoded _ _ (lp_size lc / 8) _ _ _ _ _ ltac:(lia) O3 K4) as (C0 & Zd & Sm). set (bps := lp_size lc / 8) in *. exists (af_bytes (of_obu o)), (length ls), k. split; [exists o, ls, lab; repeat split; assumption|].
  unfold zlen in Zd at 2. rewrite S2, St, Et in *. split; [rewrite Zd, !Nat2Z.inj_add; ring|]. intros t0 Ht.
  destruct (D7 c ch t0 Ho Ht) as (g & vs & R1 & R2 & R3). rewrite L2 in R2. inversion R2 as [|? v ? vs' (lf' & g' & x & X1 & X2 & X3 & X4) R2']; subst. inversion R2'; subst. rewrite L5, F1 in X1. injection X1 as <-.
  assert (forall d g0, d = sm_gain sm \/ d = sa_gain e -> default_gain d = 0 -> gain_at E blocks d t0 g0 -> g0 = sgl 1 0) as Gn.
  { intros d g0 Hd Hz Hg. assert (m_find (pb_id (pd_base d)) blocks = None) as Bn. { rewrite D3. apply last_none. intros b Hb. destruct (Uk b Hb). destruct Hd; congruence. }
    inversion Hg as [Q|b ? ? ? ? Q|b ? ? Q]; try congruence. unfold default_of. rewrite Hz. exact Un. }
  rewrite L6 in X2. rewrite (Gn _ _ (or_intror eq_refl) (pl_gain _ _ _ _ _ _ _ P) X2) in R3. rewrite L3 in R1. rewrite (Gn _ _ (or_introl eq_refl) (pl_mixgain _ _ _ _ _ _ _ P) R1) in R3. cbn [fold_left r_scale cpp r_A double_arith a_add] in R3.
  unfold routed, matrix_of in X3. rewrite L7, L8 in X3. destruct X3 as (sl & X5 & X6). rewrite nth_error_map, Hl in X5. injection X5 as <-. destruct X6 as (s1 & Y1 & Y2). rewrite S1 in Y1. injection Y1 as <-. rewrite St in Y2.
  specialize (Sm _ _ Y2). unfold lpcm_sample in Sm. destruct (_ || _) eqn:Bd; [discriminate Sm|]. unfold bytes_at.
  replace ((Z.to_nat ((Z.of_nat (skipped tb ts + t0) * zlen ls + Z.of_nat k) * bps))) with (((skipped tb ts + t0) * length ls + k) * Z.to_nat bps)%nat in Sm by (unfold zlen; nia).
  set (b := firstn _ _) in *. assert (zlen b = bps) as Lb. { unfold b, zlen. rewrite firstn_length, skipn_length. unfold zlen in Bd. nia. }
  assert (Forall byteP b) as Bb. { specialize (Ub o O1). unfold b. clear - Ub. rewrite Forall_forall in *. intros x Hx. apply Ub. revert Hx. generalize (((skipped tb ts + t0) * length ls + k) * Z.to_nat bps)%nat as q. generalize (Z.to_nat bps) as r. intros r q Hx.
    rewrite <- (firstn_skipn q (af_bytes (of_obu o))). apply in_or_app. right. rewrite <- (firstn_skipn r (skipn q _)). apply in_or_app. left. exact Hx. }
  destruct (C36_bytes_round_trip (negb (lp_flags lc =? 1)) b Bb ltac:(lia)) as (v & V1 & V2 & V3 & V4). exists v. split; [exact V1|]. split; [exact V2|]. split; [exact Lb|].
  unfold bytes_to_int32 in V1. rewrite R3. f_equal. unfold map_res in Sm. destruct (lp_flags lc =? 1); cbn [negb] in V1; rewrite V1 in Sm; cbn [rbind] in Sm; injection Sm as <-;
    (destruct (int32_to_double_val v V2) as [Fv _]; unfold finite in Fv; rewrite (mul_one _ Fv); rewrite (zero_add _ V2); apply mul_one; exact Fv).
Qed.

(* ================= the bytes which come out ================= *)
Lemma value_back v : int32 v -> pcm_value (int32_to_double v) = v.
Proof. intro H. destruct (int32_to_double_val v H) as [F _]. pose proof (int32_round_trip v H) as R. rewrite double_to_int32_val in R by exact F. injection R as R. exact R. Qed.
Lemma written_block n (frame : list (list double)) T c t ch x d : 1 <= n -> 0 <= T -> pcm_value d = 0 -> same_ticks frame T -> nth_error frame c = Some ch -> Z.of_nat t < T -> nth_error ch t = Some x ->
  bytes_at (Z.to_nat n) (length frame) c t (frame_bytes n false pcm_value d frame T) = sample_bytes n false (pcm_value x).
Proof.
  intros Hn HT Hd Hs Hc Ht Hx. destruct (frame_block n false (map (map pcm_value) frame) T c t (map pcm_value ch) Hn HT) as (K & _ & _).
  - unfold same_ticks in *. apply Forall_map. eapply Forall_impl; [|exact Hs]. intros z Hz. unfold zlen in *. rewrite map_length. exact Hz.
  - rewrite nth_error_map, Hc. reflexivity.
  - exact Ht.
  - cbv zeta in K. unfold bytes_at. assert (nth t (map pcm_value ch) 0 = pcm_value x) as Nx by (apply nth_error_nth; rewrite nth_error_map, Hx; reflexivity). rewrite Nx in K. rewrite <- K.
    replace (Z.to_nat ((Z.of_nat t * zlen (map (map pcm_value) frame) + Z.of_nat c) * n)) with ((t * length frame + c) * Z.to_nat n)%nat by (unfold zlen; rewrite map_length; nia).
    f_equal. f_equal. unfold frame_bytes. apply flat_map_ext. intro i. clear - Hd. induction frame as [|y frame IH]; [reflexivity|]. cbn [map flat_map]. rewrite IH. f_equal. f_equal. symmetry. rewrite <- Hd. apply map_nth.
Qed.
Lemma bytes_back be b v : Forall byteP b -> 1 <= zlen b <= 4 -> bytes_to_int32 be b = Ok v -> sample_bytes (zlen b) false v = if be then rev b else b.
Proof.
  intros Hb Hn H. assert (forall l w, Forall byteP l -> 1 <= zlen l <= 4 -> le_to_int32 l = Ok w -> sample_bytes (zlen l) false w = l) as Q.
  { intros l w Hl Hz Hw. rewrite (le_value l Hl Hz) in Hw. injection Hw as <-. apply le_bytes_back; assumption. }
  unfold bytes_to_int32 in H. destruct be; [|exact (Q b v Hb Hn H)]. unfold be_to_int32 in H. assert (zlen (rev b) = zlen b) as Lr by (unfold zlen; rewrite rev_length; reflexivity). rewrite <- Lr. apply Q; [apply Forall_rev; exact Hb|lia|exact H].
Qed.
Lemma bytes_at_bytes n channels k i data : Forall byteP data -> Forall byteP (bytes_at n channels k i data).
Proof.
  intro H. unfold bytes_at. set (q := ((i * channels + k) * n)%nat). rewrite Forall_forall in *. intros x Hx. apply H. rewrite <- (firstn_skipn q data). apply in_or_app. right. rewrite <- (firstn_skipn n (skipn q data)). apply in_or_app. left. exact Hx.
Qed.
(* C64. An LPCM element played on its own loudspeakers with 0 dB, written with its own sample size: every sample is written with the bytes
   it had in the frame, least significant byte first. *)
Theorem C64_bytes : forall aes mp a e sm lc order md us u ts tn out m1 s span bw, plain aes mp a e sm lc order -> unity ->
  configure E aes mp = Ok md -> Forall trims_of_unit us -> trims_of_unit u -> plain_unit a e sm u ts tn ->
  Render.render_unit E (after_units E md us) u = (Ok out, m1) ->
  s <> OtherType -> lp_size lc = 8 * bytes_per_sample s -> zlen order * ticks_of out * bytes_per_sample s <= zlen span < 2^64 ->
  exists n bytes, write_frame_to_span out s span bw = (Ok tt, bytes ++ skipn (length bytes) span, zlen bytes) /\
    zlen bytes = zlen order * Z.of_nat n * bytes_per_sample s /\
    forall c, (c < length order)%nat -> n <> O -> exists data channels k, comes_from a order u c data channels k /\
      zlen data = Z.of_nat channels * (Z.of_nat (skipped tb ts) + Z.of_nat n + Z.of_nat (skipped te tn)) * bytes_per_sample s /\
      forall t, (t < n)%nat ->
        let coded := bytes_at (Z.to_nat (bytes_per_sample s)) channels k (skipped tb ts + t) data in
        bytes_at (Z.to_nat (bytes_per_sample s)) (length order) c t bytes = if lp_flags lc =? 1 then coded else rev coded.
Proof.
  intros aes mp a e sm lc order md us u ts tn out m1 s span bw P Un Hc Hus Hu Pu Hr Hs Hz [Hsp H64]. destruct (C64_samples _ _ _ _ _ _ _ _ _ _ _ _ _ _ P Un Hc Hus Hu Pu Hr) as (Zo & n & Uo & Hv).
  destruct (configured _ _ _ _ _ _ _ _ P Hc) as [_ Dk]. assert (lp_size lc / 8 = bytes_per_sample s) as Hb by (rewrite Hz, Z.mul_comm; apply Z.div_mul; discriminate). rewrite Hb in Hv. set (bps := bytes_per_sample s) in *. assert (2 <= bps <= 4) as Hbps by (destruct Dk as [Q|[Q|Q]]; lia).
  assert (order <> []) as On. { destruct P as [_ _ (ly & ll & ss & r & k & _ & _ & _ & L4) _ _ _ _ _ _ _ _ _ _]. clear - L4. cbn [In same_loudspeakers] in L4. repeat (destruct L4 as [Q4|L4]; [injection Q4 as _ _ <-; discriminate|]). destruct L4. }
  assert (length out = length order) as Lo by (unfold zlen in Zo; lia). assert (out <> []) as Ne by (intros ->; destruct order; [congruence|discriminate Lo]).
  assert (same_ticks out (Z.of_nat n)) as St. { unfold same_ticks. eapply Forall_impl; [|exact Uo]. intros ch Hch. unfold zlen. cbv beta in Hch. rewrite Hch. reflexivity. }
  assert (ticks_of out = Z.of_nat n) as Tk. { destruct out as [|ch out']; [congruence|]. inversion St; subst. assumption. }
  assert (@zlen (list double) out = zlen order) as Zo1 by exact Zo. rewrite Tk in Hsp. pose proof (value_back 0 ltac:(unfold int32; lia)) as V0.
  destruct (C33_frame_is_written out s span bw (Z.of_nat n) (int32_to_double 0) Ne Hs St) as [W L]; [|fold bps; rewrite Zo1; exact Hsp|exact H64|].
  { apply Forall_forall. intros ch Hch. apply Forall_forall. intros x Hx. apply In_nth_error in Hch as (c & Hch). apply In_nth_error in Hx as (t & Hx).
    assert (length ch = n) as Ln by (unfold uniform in Uo; rewrite Forall_forall in Uo; apply Uo; exact (nth_error_In _ _ Hch)). assert (t < n)%nat as Lt by (rewrite <- Ln; apply nth_error_Some; congruence).
    destruct (Hv c ch Hch ltac:(lia)) as (data & channels & k & _ & _ & H3). destruct (H3 t Lt) as (v & _ & V2 & _ & V4). rewrite Hx in V4. injection V4 as ->. exact (proj1 (int32_to_double_val v V2)). }
  cbv zeta in W, L. fold bps in W, L. set (bytes := frame_bytes _ _ _ _ _ _) in *. exists n, bytes. split; [rewrite W; f_equal; symmetry; exact L|]. split; [rewrite L, Zo1; reflexivity|].
  intros c Hcl Hn. destruct (nth_error out c) as [ch|] eqn:Ec; [|apply nth_error_None in Ec; lia]. destruct (Hv c ch Ec Hn) as (data & channels & k & H1 & H2 & H3). exists data, channels, k. split; [exact H1|]. split; [exact H2|].
  intros t Ht coded. destruct (H3 t Ht) as (v & V1 & V2 & V3 & V4). fold coded in V1, V3. rewrite <- Lo. unfold bytes. etransitivity; [exact (written_block bps out (Z.of_nat n) c t ch _ _ ltac:(lia) ltac:(lia) V0 St Ec ltac:(lia) V4)|]. rewrite (value_back v V2), <- V3.
  destruct H1 as (o & ls & lab & O1 & O2 & _). assert (Forall byteP coded) as Cb by (apply bytes_at_bytes; rewrite <- O2; exact (pu_bytes _ _ _ _ _ _ Pu o O1)). assert (1 <= zlen coded <= 4) as Cz by lia. rewrite (bytes_back _ _ _ Cb Cz V1). destruct (lp_flags lc =? 1); reflexivity.
Qed.
End Lossless.

(* 5.1 in four substreams, 16 bits, big endian; a unit whose frames are refused was before; one sample is trimmed. *)
Definition far : outside unit unit :=
  mkOutside (fun _ => sgl 1 0) (fun _ _ => Err NotFound) (fun _ _ _ => None) (fun b _ => (Err InvalidArgument, b)) (fun _ _ => Err InvalidArgument) (fun d _ => (Err InvalidArgument, d)).
Definition cc_51 : codec_config := mkCC 7 kIdLpcm 2 0 (DLpcm (mkLpcm 0 16 48000)).
Definition ae_51 : aelem := mkAE 3 0 0 7 [20; 21; 22; 23] [] (ACScal 0 [mkLy 2 false false 0 4 2 0 0 0 None]).
Definition aed_51 : aed := mkAed ae_51 (cc_51, (48000, 48000, 16)) [(20, [L5; R5]); (21, [Ls5; Rs5]); (22, [Centre]); (23, [LFE])] [] [mkCh 5 1 0 0].
Definition gain_51 (id : Z) : pdef := mkPD (mkPB id 48000 1 None) (KMixGain 0).
Definition sub_51 : subelem := mkSA 3 [] (mkRC 0 0 0 [] None []) (gain_51 100).
Definition mix_51 : submix := mkSM [sub_51] (gain_51 101) [mkLO 2 (LSs 1 0) 0 0 0 0 [] []].
Definition mp_51 : mixp := mkMP 1 0 [] [] [mix_51] None None.
Definition fr_51 (sub trim : Z) (bytes : list Z) : oframe := mkOf (mkH 5 false true 0 trim None) (mkAF sub bytes) 0 2 (mkDmix 707 707 707 707 0 0 0 false) [] 3.
Definition u_51 : outunit := mkOu [fr_51 20 1 [1; 2; 3; 4; 5; 6; 7; 8]; fr_51 21 1 [11; 12; 13; 14; 15; 16; 17; 18]; fr_51 22 1 [21; 22; 23; 24]; fr_51 23 1 [31; 32; 255; 254]] [] 0.
Definition u_bad : outunit := mkOu [fr_51 20 0 [1; 2; 3]] [] 0.

Example C64_ex :
  plain [(3, aed_51)] mp_51 aed_51 sub_51 mix_51 (mkLpcm 0 16 48000) [L5; R5; Centre; LFE; Ls5; Rs5] /\ unity far /\ Forall trims_of_unit [u_bad] /\ trims_of_unit u_51 /\ plain_unit aed_51 sub_51 mix_51 u_51 1 0 /\
  exists md out, configure (cpp far true true) [(3, aed_51)] mp_51 = Ok md /\ fst (Render.render_unit (cpp far true true) md u_bad) = Err InvalidArgument /\
    fst (Render.render_unit (cpp far true true) (after_units (cpp far true true) md [u_bad]) u_51) = Ok out /\
    write_frame_to_span out Int16LE (repeat 0 14) 0 = (Ok tt, [6; 5; 8; 7; 24; 23; 254; 255; 16; 15; 18; 17; 0; 0], 12).
Proof.
  split.
  { split; try reflexivity; try discriminate.
    - do 5 eexists. split; [reflexivity|]. split; [reflexivity|]. split; [reflexivity|]. cbn [In same_loudspeakers]. do 2 right. left. reflexivity.
    - unfold aelem_valid. cbn [ad_obu aed_51 ae_51 ae_subs ae_params ae_conf AudioElement.ae_type]. split; [repeat constructor; cbn [In]; lia|]. split; [constructor|]. split; [vm_compute; discriminate|]. split; [intros d []|].
      split; [|split; intro; discriminate]. intros _. eexists. eexists. split; [reflexivity|]. split; [vm_compute; split; discriminate|]. split; [reflexivity|].
      intros (x & Q & Y). cbn [In] in Q. repeat (destruct Q as [Q|Q]; [subst x; discriminate|]). contradiction.
    - exists [(7, (cc_51, (48000, 48000, 16)))]. vm_compute. reflexivity.
    - constructor; [intros []|constructor]. }
  split; [reflexivity|]. split; [repeat constructor; cbn in *; destruct H as [<-|[]]; cbn; lia|]. split; [intros o Ho; cbn in Ho; repeat (destruct Ho as [<-|Ho]; [cbn; lia|]); destruct Ho|]. split.
  { split.
    - exists (fr_51 20 1 [1; 2; 3; 4; 5; 6; 7; 8]). cbn. auto.
    - intros o Ho _. cbn in Ho. repeat (destruct Ho as [<-|Ho]; [cbn; auto|]). destruct Ho.
    - intros o Ho. cbn in Ho. repeat (destruct Ho as [<-|Ho]; [cbn; repeat constructor; unfold byteP; lia|]). destruct Ho.
    - intros b []. }
  exists (match configure (cpp far true true) [(3, aed_51)] mp_51 with Ok md => md | _ => mkRm [] [] [] [] 0 end).
  exists (match fst (Render.render_unit (cpp far true true) (after_units (cpp far true true) (match configure (cpp far true true) [(3, aed_51)] mp_51 with Ok md => md | _ => mkRm [] [] [] [] 0 end) [u_bad]) u_51) with Ok o => o | _ => [] end).
  split.
  { assert (match configure (cpp far true true) [(3, aed_51)] mp_51 with Ok _ => true | _ => false end = true) as Q by (vm_compute; reflexivity). destruct (configure _ _ _); try discriminate Q. reflexivity. }
  split; [vm_compute; reflexivity|]. split; [|vm_compute; reflexivity].
  match goal with |- ?x = _ => assert (match x with Ok _ => true | _ => false end = true) as Q by (vm_compute; reflexivity); destruct x; try discriminate Q end. reflexivity.
Qed.
