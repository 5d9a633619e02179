(* C65: a regular temporal unit of LPCM is rendered, not refused. *)
From Verif Require Import Base WriteBuf ObuHeader SimpleObus CodecConfig Params AudioElement PropsParams PropsAE MixPresentation Timing ParamManager AeData PropsLabels
  Profile MixSelect PropsPM MixGain PropsGain Processor Pcm FloatFacts PropsPcm Demix DemixFacts Render RenderFacts PropsRender PropsHistory PropsUnit PropsPlays RenderSafe RenderUnitSafe DoubleEnv PropsLossless.
Open Scope Z_scope.

Section Plain.
Context {B C : Type} (X : outside B C) (tb te : bool).
Notation E := (cpp X tb te).
Notation dec := (lpcm_dec + C)%type.
Notation chan := (@samples double).

(* ================= SPEC ================= *)
(* The frames of the element: one at least for each of its substreams, all with the times of the unit, trimmed alike, and with the bytes of
   the same number of ticks, which is not more than the frame size; the parameter blocks have the times of the unit too. *)
Record regular (a : aed) (lc : lpcm) (u : outunit) (stop ts tn ticks : Z) : Prop := mkRegular {
  rg_all : forall s, In s (ae_subs (ad_obu a)) -> exists o, In o (un_frames u) /\ af_id (of_obu o) = s;
  rg_start : forall o, In o (un_frames u) -> of_start o = un_time u;
  rg_stop : forall o, In o (un_frames u) -> In (af_id (of_obu o)) (ae_subs (ad_obu a)) -> of_end o = stop;
  rg_size : forall o ls, In o (un_frames u) -> In (af_id (of_obu o), ls) (ad_labels a) -> zlen (af_bytes (of_obu o)) = zlen ls * ticks * (lp_size lc / 8);
  rg_ticks : 0 <= ticks <= cc_frame (codec_of a);
  rg_trims : Z.of_nat (skipped tb ts) + Z.of_nat (skipped te tn) <= ticks;
  rg_blocks : forall b, In b (un_blocks u) -> ob_start b = un_time u /\ ob_end b = stop }.

(* ================= proofs ================= *)
Lemma res_list_total {A} (l : list (res A)) : (forall x, In x l -> exists y, x = Ok y) -> exists r, res_list l = Ok r.
Proof.
  induction l as [|x l IH]; intro H; [exists []; reflexivity|]. destruct (H x (or_introl eq_refl)) as (y & ->). destruct IH as (r & Hr); [intros z Hz; apply H; right; exact Hz|]. cbn [res_list rbind]. rewrite Hr. cbn [rbind]. eauto.
Qed.
Lemma lpcm_total channels spf bps little data ticks : 1 <= channels -> 1 <= bps <= 4 -> 0 <= ticks <= spf -> Forall byteP data -> zlen data = channels * ticks * bps ->
  exists s, lpcm_decode channels spf bps little data = Ok s /\ zlen s = channels /\ uniform s (Z.to_nat ticks).
Proof.
  intros Hc Hb Ht Hd Hl. unfold lpcm_decode. rewrite Hl. rewrite Z_mod_mult, Z.div_mul by lia. replace (channels * ticks) with (ticks * channels) by ring. rewrite Z_mod_mult, Z.div_mul by lia. change (0 =? 0) with true. cbn [negb orb]. cbv zeta iota. replace (ticks >? spf) with false by lia.
  match goal with |- context[res_list ?l] => assert (exists r, res_list l = Ok r) as (r & Hr) end.
  { apply res_list_total. intros x Hx. apply in_map_iff in Hx as (c & <- & Hx). apply in_map_iff in Hx as (c' & <- & Hx). apply in_seq in Hx. apply res_list_total. intros y Hy. apply in_map_iff in Hy as (t & <- & Hy). apply in_map_iff in Hy as (t' & <- & Hy). apply in_seq in Hy.
    assert (0 <= (Z.of_nat t' * channels + Z.of_nat c') * bps /\ (Z.of_nat t' * channels + Z.of_nat c') * bps + bps <= zlen data) as [O1 O2]. { rewrite Hl. split; [nia|]. assert (Z.of_nat t' * channels + Z.of_nat c' + 1 <= channels * ticks) by nia. nia. }
    unfold lpcm_sample. replace (_ || _) with false by lia. cbv zeta. set (b := firstn _ _).
    assert (zlen b = bps) as Lb. { unfold b, zlen. rewrite firstn_length, skipn_length. unfold zlen in O2. lia. } assert (Forall byteP b) as Fb. { apply Forall_forall. intros z Hz. apply in_firstn in Hz. rewrite Forall_forall in Hd. apply Hd. match type of Hz with In _ (skipn ?q _) => rewrite <- (firstn_skipn q data) end. apply in_or_app. right. exact Hz. }
    destruct (C36_bytes_round_trip (negb little) b Fb ltac:(lia)) as (v & V & _). unfold bytes_to_int32 in V. unfold map_res. destruct little; cbn [negb] in V; rewrite V; cbn [rbind]; eauto. }
  exists r. split; [exact Hr|]. apply res_list_all in Hr. split; [pose proof (forall2_length _ _ _ Hr) as L; rewrite !map_length, seq_length in L; unfold zlen; lia|].
  unfold uniform. apply Forall_forall. intros ch Hch. apply In_nth_error in Hch as (i & Hch). destruct (forall2_nth _ _ _ _ _ Hr Hch) as (x & N1 & N2). rewrite nth_error_map in N1. destruct (nth_error (map Z.of_nat (seq 0 (Z.to_nat channels))) i) as [c|]; [|discriminate N1]. injection N1 as <-.
  apply res_list_all in N2. pose proof (forall2_length _ _ _ N2) as L. rewrite !map_length, seq_length in L. congruence.
Qed.

(* what a decoded frame must be *)
Definition fits (a : aed) (ticks : Z) (o : oframe) (f : @Demix.frame double) : Prop :=
  (exists ls s, In (af_id (of_obu o), ls) (ad_labels a) /\ f = frame_of E o s /\ zlen s = zlen ls /\ uniform s (Z.to_nat ticks)) \/ (~ In (af_id (of_obu o)) (ae_subs (ad_obu a)) /\ f = frame_of E o []).
Lemma decode_total (a : aed) (lc : lpcm) decs start stop ticks : 1 <= lp_size lc / 8 <= 4 -> 0 <= ticks <= cc_frame (codec_of a) ->
  (forall s ls, In (s, ls) (ad_labels a) -> 1 <= zlen ls /\ m_find s decs = Some (decoder_of a lc ls)) -> (forall s, In s (ae_subs (ad_obu a)) <-> exists ls, In (s, ls) (ad_labels a)) ->
  forall os st0, (st0 = None \/ st0 = Some stop) ->
  Forall (fun o => Forall byteP (af_bytes (of_obu o)) /\ of_start o = start /\ (In (af_id (of_obu o)) (ae_subs (ad_obu a)) -> of_end o = stop) /\
                   forall ls, In (af_id (of_obu o), ls) (ad_labels a) -> zlen (af_bytes (of_obu o)) = zlen ls * ticks * (lp_size lc / 8)) os ->
  exists fs st1, decode_frames E (ae_subs (ad_obu a)) start st0 os decs = (Ok (fs, st1), decs) /\ Forall2 (fits a ticks) os fs /\
    ((exists o, In o os /\ In (af_id (of_obu o)) (ae_subs (ad_obu a))) \/ st0 = Some stop -> st1 = Some stop).
Proof.
  intros Hb Ht Hd Hs. induction os as [|o os IH]; intros st0 H0 H.
  - exists [], st0. split; [reflexivity|]. split; [constructor|]. intros [(o & [] & _)|H1]; exact H1.
  - inversion H as [|? ? (H1 & H2 & H3 & H4) H']; subst. cbn [decode_frames]. destruct (existsb (Z.eqb (af_id (of_obu o))) (ae_subs (ad_obu a))) eqn:Ex; cbn [negb].
    + apply in_subs in Ex. pose proof (H3 Ex) as He. apply Hs in Ex as (ls & Hin). destruct (Hd _ _ Hin) as [L1 Fd]. cbv zeta.
      assert (match st0 with Some e => e | None => of_end o end = stop) as -> by (destruct H0 as [-> | ->]; congruence). unfold veq, vcond, rthen. rewrite He, !Z.eqb_refl. cbn [rbind].
      unfold decode. rewrite Fd. cbn [r_decode cpp decode_with decoder_of ld_channels ld_spf ld_bytes ld_little].
      destruct (lpcm_total (zlen ls) (cc_frame (codec_of a)) (lp_size lc / 8) (lp_flags lc =? 1) (af_bytes (of_obu o)) ticks L1 Hb Ht H1 (H4 ls Hin)) as (s & D1 & D2 & D3). unfold decoder_of. cbn [ld_channels ld_spf ld_bytes ld_little]. rewrite D1.
      assert (Render.m_set (af_id (of_obu o)) (inl (mkLd (zlen ls) (cc_frame (codec_of a)) (lp_flags lc =? 1) (lp_size lc / 8))) decs = decs) as ->.
      { clear - Fd. unfold decoder_of in Fd. revert Fd. generalize (inl (mkLd (zlen ls) (cc_frame (codec_of a)) (lp_flags lc =? 1) (lp_size lc / 8)) : dec) as d. intros d Fd. induction decs as [|[i x] decs IH]; [reflexivity|]. cbn [m_find Render.m_set] in *. destruct (i =? af_id (of_obu o)); [injection Fd as <-; reflexivity|]. rewrite IH by exact Fd. reflexivity. }
      destruct (IH (Some stop) (or_intror eq_refl) H') as (fs & st1 & I1 & I2 & I3). rewrite I1. cbn [rbind fst snd]. exists (frame_of E o s :: fs), st1. split; [reflexivity|]. split; [constructor; [left; exists ls, s; auto|exact I2]|intros _; apply I3; right; reflexivity].
    + assert (~ In (af_id (of_obu o)) (ae_subs (ad_obu a))) as Nx by (rewrite <- in_subs, Ex; discriminate). destruct (IH st0 H0 H') as (fs & st1 & I1 & I2 & I3). rewrite I1. cbn [rbind fst snd]. exists (frame_of E o [] :: fs), st1. split; [reflexivity|]. split; [constructor; [right; auto|exact I2]|].
      intros [(o' & [<-|J1] & J2)|J]; [contradiction|apply I3; left; eauto|apply I3; right; exact J].
Qed.

Lemma store_channels_length n : forall ls (cs : list chan) m, uniform cs n -> (forall k s, sm_find k m = Some s -> length s = n) -> forall k s, sm_find k (store_channels ls cs m) = Some s -> length s = n.
Proof.
  intros ls cs m U H k s Hk. destruct (store_channels_from _ _ _ _ _ Hk) as [J|(i & l & J1 & J2 & J3)]; [exact (H _ _ J)|]. unfold uniform in U. rewrite Forall_forall in U. exact (U s (nth_error_In _ _ J2)).
Qed.
Lemma store_channels_keeps : forall ls (cs : list chan) m k, sm_find k m <> None -> sm_find k (store_channels ls cs m) <> None.
Proof.
  induction ls as [|l ls IH]; intros [|c cs] m k H; cbn [store_channels]; auto. apply IH. rewrite sm_find_set. destruct (lkey_eq_dec (Orig l) k); [discriminate|exact H].
Qed.
Lemma store_channels_has : forall ls (cs : list chan) m l, length cs = length ls -> In l ls -> sm_find (Orig l) (store_channels ls cs m) <> None.
Proof.
  induction ls as [|l0 ls IH]; intros [|c cs] m l L Hl; try discriminate L; [destruct Hl|]. cbn [store_channels]. cbn [length] in L. destruct Hl as [-> |Hl]; [|apply IH; [lia|exact Hl]]. apply store_channels_keeps. rewrite sm_find_set. destruct (lkey_eq_dec (Orig l) (Orig l)); [discriminate|congruence].
Qed.
Lemma store_total t0 (subs : labmap) n ts tn : forall fs exp (lf : @labeled double), (exp = None \/ exp = Some n) ->
  (forall k s, sm_find k (lf_map lf) = Some s -> length s = n) ->
  Forall (fun f => f_start f = t0 /\ forall ls, m_find (f_id f) subs = Some ls -> ls <> [] /\ zlen (f_samples f) = zlen ls /\ uniform (f_samples f) n /\ f_trim_start f = ts /\ f_trim_end f = tn) fs ->
  exists lf1, store_frames t0 subs exp fs lf = Ok lf1 /\ (forall k s, sm_find k (lf_map lf1) = Some s -> length s = n) /\ (forall k, sm_find k (lf_map lf) <> None -> sm_find k (lf_map lf1) <> None) /\
    (forall f ls l, In f fs -> m_find (f_id f) subs = Some ls -> In l ls -> sm_find (Orig l) (lf_map lf1) <> None) /\
    ((exists f ls, In f fs /\ m_find (f_id f) subs = Some ls) \/ (lf_trim_start lf = ts /\ lf_trim_end lf = tn /\ lf_params lf <> None) -> lf_trim_start lf1 = ts /\ lf_trim_end lf1 = tn /\ lf_params lf1 <> None).
Proof.
  induction fs as [|f fs IH]; intros exp lf He Hm H; cbn [store_frames].
  - exists lf. split; [reflexivity|]. split; [exact Hm|]. split; [auto|]. split; [intros f ls l []|]. intros [(f & ls & [] & _)|J]; exact J.
  - inversion H as [|? ? [H1 H2] H']; subst. destruct (m_find (f_id f) subs) as [ls|] eqn:Ef.
    + destruct (H2 ls eq_refl) as (N0 & N1 & N2 & N3 & N4). unfold rthen. unfold veq at 1, vcond at 1. rewrite Z.eqb_refl. cbn [rbind]. destruct (f_samples f) as [|s0 ss] eqn:Es; [exfalso; unfold zlen in N1; cbn [length] in N1; destruct ls; [congruence|cbn [length] in N1; lia]|]. rewrite <- Es in *.
      assert (veq (zlen (f_samples f)) (zlen ls) = Ok tt) as -> by (unfold veq, vcond; rewrite N1, Z.eqb_refl; reflexivity). cbn [rbind].
      assert (common_ticks (f_samples f) = Ok n) as ->.
      { rewrite Es in *. unfold common_ticks. inversion N2 as [|? ? U1 U2]; subst. match goal with |- context[forallb ?g ss] => assert (forallb g ss = true) as -> end; [|reflexivity]. apply forallb_forall. intros s Hs. apply Nat.eqb_eq. rewrite Forall_forall in U2. exact (U2 s Hs). }
      cbn [rbind]. assert ((match exp with None => Ok tt | Some e => veq (Z.of_nat n) (Z.of_nat e) end) = Ok tt) as ->. { destruct He as [-> | ->]; [reflexivity|]. unfold veq, vcond. rewrite Z.eqb_refl. reflexivity. } cbn [rbind].
      destruct (IH (match exp with None => Some n | Some e => Some e end) (mkLf (f_trim_end f) (f_trim_start f) (store_channels ls (f_samples f) (lf_map lf)) (Some (f_params f)))) as (lf1 & I1 & I2 & I3 & I4 & I5).
      * destruct He as [-> | ->]; auto.
      * cbn [lf_map]. apply store_channels_length; assumption.
      * exact H'.
      * cbn [lf_map lf_trim_start lf_trim_end lf_params] in *. exists lf1. split; [exact I1|]. split; [exact I2|]. split; [intros k Hk; apply I3; apply store_channels_keeps; exact Hk|]. split.
        -- intros f' ls' l [<-|J1] J2 J3; [|exact (I4 _ _ _ J1 J2 J3)]. rewrite Ef in J2. injection J2 as <-. apply I3. apply store_channels_has; [unfold zlen in N1; apply Nat2Z.inj; exact N1|exact J3].
        -- intros _. apply I5. right. split; [exact N3|]. split; [exact N4|discriminate].
    + destruct (IH exp lf He Hm H') as (lf1 & I1 & I2 & I3 & I4 & I5). exists lf1. split; [exact I1|]. split; [exact I2|]. split; [exact I3|]. split.
      * intros f' ls' l [<-|J1] J2 J3; [congruence|exact (I4 _ _ _ J1 J2 J3)].
      * intros [(f' & ls' & [<-|J1] & J2)|J]; [congruence|apply I5; left; eauto|apply I5; right; exact J].
Qed.

(* ================= the renderers ================= *)
Definition passes (a : aed) (e : subelem) (sm : submix) (order : list label) (l : @lrend double B) : Prop :=
  lr_rate l = rate_of a /\ lr_spf l = cc_frame (codec_of a) /\ lr_gain l = sm_gain sm /\ lr_chans l = zlen order /\
  exists el, lr_els l = [el] /\ el_id el = sa_id e /\ el_gain el = sa_gain e /\ er_kind (el_rend el) = KPass /\ er_labels (el_rend el) = map Some order /\ er_spf (el_rend el) = Z.to_nat (cc_frame (codec_of a)).
Lemma configured_passes aes mp a e sm lc order md : plain aes mp a e sm lc order -> configure E aes mp = Ok md -> each_renderer (passes a e sm order) (rm_fin md).
Proof.
  intros P H. destruct (plain_labels _ _ _ _ _ _ _ P) as (t & (k & ll & P3 & Hn & Ho) & Ln & Al & Nd). pose proof (plain_no_demixers _ _ _ _ _ _ _ P) as Dc.
  destruct P as [Q1 Q2 (ly & ll' & ss & r & k' & L1 & L2 & L3 & L4) Q3 _ _ Q4 Q5 Q6 Q7 Qf _ _]. rewrite P3 in L3. injection L3 as <- <-.
  unfold configure in H. rewrite Q1 in H. cbn [element_ids flat_map] in H. rewrite Q2 in H. cbn [map app] in H. rewrite (only_one _ _ _ Q4 Q5) in H.
  cbn [configure_elements rmap app fst snd] in H. destruct (init_decoders E (ad_labels a) (codec_of a) []) as [d| | | |] eqn:Ei; cbn [rbind] in H; try discriminate H. rewrite Dc in H. cbn [rbind fst snd] in H.
  assert (new_pass [ll] (2, LSs ss r) (cc_frame (codec_of a)) = Ok (new_renderer KPass (map Some order) (cc_frame (codec_of a)) (zlen order)) (A := @erend double B) /\ num_channels 2 (LSs ss r) = Ok (zlen order) /\ order <> []) as (Np & Nc & On).
  { unfold new_pass, find_layer, can_pass, channel_order. change (fst (2, LSs ss r)) with 2. change (2 =? 2) with true. cbv iota. cbn [sound_system snd rbind]. clear - L4. unfold kExpanded in *.
    destruct ll as [lay l1 l2 l3 l4 l5 l6 l7 l8 l9]. cbn [AudioElement.ly_layout] in L4. unfold same_loudspeakers in L4. cbn [In] in L4. repeat (destruct L4 as [Q4|L4]; [injection Q4 as <- <- <-; split; [reflexivity|split; [reflexivity|discriminate]]|]). destruct L4. }
  unfold new_finalizer in H. rewrite Q1 in H. cbn [rmap] in H. unfold new_sub_mix in H. rewrite Q2, L1 in H. cbn [collect_elements] in H. rewrite Q5 in H. cbn [rbind common_rate_and_size forallb negb rmap fst snd] in H. rewrite L2 in H.
  unfold new_layout in H. cbn [fst snd] in H. rewrite Nc in H. cbn [new_elements] in H. unfold new_for_layout in H. change (fst (2, LSs ss r)) with 2 in H. change (2 =? 3) with false in H. rewrite andb_false_r in H. cbn [negb andb] in H. rewrite Q3 in H. change (0 =? 1) with false in H. change (0 =? 0) with true in H. cbv iota in H. rewrite P3 in H.
  change (fst (2, LSs ss r)) with 2 in H. cbn [negb andb] in H. rewrite Np in H. cbn [or_null rbind option_map existsb lm_rend orb m_find app] in H. injection H as <-.
  intros id subs ls lm x Z1 Z2 Z3 Z4. cbn [rm_fin] in Z1. destruct Z1 as [Z1|[]]. injection Z1 as <- <-. destruct Z2 as [<-|[]]. destruct Z3 as [<-|[]]. injection Z4 as <-.
  unfold passes. cbn [lr_rate lr_spf lr_gain lr_chans lr_els]. repeat split. eexists. split; [reflexivity|]. repeat split.
Qed.
Lemma passes_units a e sm order us : Forall trims_of_unit us -> forall md, settled md -> each_renderer (passes a e sm order) (rm_fin md) -> each_renderer (passes a e sm order) (rm_fin (after_units E md us)).
Proof.
  unfold after_units. intro Hu. induction Hu as [|u us Hu _ IH]; intros md Hs Hp; cbn [fold_left]; [exact Hp|]. destruct (C61_settled E md u Hs Hu) as (S1 & (_ & _ & _ & A4) & _). apply IH; [exact S1|]. revert Hp. apply same_each; [|exact A4].
  intros l l' (K1 & K2 & K3 & K4 & K5) (H1 & H2 & H3 & H4 & (el & L1 & L2 & L3 & L4 & L5 & L6)). split; [congruence|]. split; [congruence|]. split; [congruence|]. split; [congruence|]. rewrite L1 in K1. inversion K1 as [|? el' ? els' (M1 & M2 & M3) K1' Q1 Q2]; subst. inversion K1'; subst. exists el'.
  split; [reflexivity|]. destruct M3 as (M3 & M4 & M5). repeat split; congruence.
Qed.
Lemma order_stored aes mp a e sm lc order : plain aes mp a e sm lc order -> forall l, In l order -> exists s ls, In (s, ls) (ad_labels a) /\ In l ls.
Proof.
  intros P l Hl. destruct (plain_labels _ _ _ _ _ _ _ P) as (t & (k & ll & P3 & Hn & Ho) & Ln & Al & _). destruct P as [_ _ (ly & ll' & ss & r & k' & Q1 & Q2 & Q3 & Q4) _ _ _ _ _ _ _ _ _ _]. rewrite P3 in Q3. injection Q3 as <- <-.
  assert (exists ls, In ls (substreams (first_pairs t) (first_singles t)) /\ In l ls) as (ls & H1 & H2).
  { clear - Hn Q4 Hl. cbn [In same_loudspeakers] in Q4.
    repeat (destruct Q4 as [Q4|Q4]; [injection Q4 as Q5 _ <-; rewrite <- Q5 in Hn; vm_compute in Hn; injection Hn as <-; match goal with |- exists ls, In ls ?x /\ _ => let x' := eval vm_compute in x in change x with x' end; cbn [In] in Hl;
      repeat (destruct Hl as [<-|Hl]; [first [eexists; split; [left; reflexivity|cbn [In]; tauto] | eexists; split; [right; left; reflexivity|cbn [In]; tauto] | eexists; split; [do 2 right; left; reflexivity|cbn [In]; tauto] | eexists; split; [do 3 right; left; reflexivity|cbn [In]; tauto]
        | eexists; split; [do 4 right; left; reflexivity|cbn [In]; tauto] | eexists; split; [do 5 right; left; reflexivity|cbn [In]; tauto] | eexists; split; [do 6 right; left; reflexivity|cbn [In]; tauto]]|]); destruct Hl|]). destruct Q4. }
  rewrite Al. apply In_nth_error in H1 as (i & H1). assert (exists s, nth_error (ae_subs (ad_obu a)) i = Some s) as (s & Hs). { destruct (nth_error (ae_subs (ad_obu a)) i) as [s|] eqn:Es; [eauto|]. apply nth_error_None in Es. assert (nth_error (substreams (first_pairs t) (first_singles t)) i <> None) as Q by congruence. apply nth_error_Some in Q. lia. }
  exists s, ls. split; [|exact H2]. clear - H1 Hs. revert H1 Hs. generalize (substreams (first_pairs t) (first_singles t)) as gs. generalize (ae_subs (ad_obu a)) as ids. induction i as [|i IH]; intros [|x ids] [|g gs] H1 Hs; try discriminate; cbn [nth_error combine] in *; [injection H1 as <-; injection Hs as <-; left; reflexivity|]. right. exact (IH _ _ H1 Hs).
Qed.

Lemma each_total {A} (f : A -> res unit * A) : forall l, (forall x, In x l -> exists x1, f x = (Ok tt, x1)) -> exists l1, each f l = (Ok tt, l1).
Proof.
  induction l as [|x l IH]; intro H; [exists []; reflexivity|]. destruct (H x (or_introl eq_refl)) as (x1 & Hx). destruct IH as (l1 & Hl); [intros y Hy; apply H; right; exact Hy|]. exists (x1 :: l1). cbn [each]. rewrite Hx, Hl. reflexivity.
Qed.
Lemma blocks_total start stop : forall bs m0, (forall b, In b bs -> ob_start b = start /\ ob_end b = stop) -> exists m, blocks_of start stop bs m0 = Ok m.
Proof.
  induction bs as [|b bs IH]; intros m0 H; cbn [blocks_of]; [eauto|]. destruct (H b (or_introl eq_refl)) as [-> ->]. unfold veq, vcond, rthen. rewrite !Z.eqb_refl. cbn [rbind]. apply IH. intros x Hx. apply H. right. exact Hx.
Qed.

(* C65. A regular unit of LPCM whose gains have the sample rate of the element is rendered with all of its ticks but the trimmed ones,
   whatever was rendered before. *)
Theorem C65_lpcm : forall aes mp a e sm lc order md us u ts tn stop ticks, plain aes mp a e sm lc order ->
  configure E aes mp = Ok md -> Forall trims_of_unit us -> trims_of_unit u -> plain_unit a e sm u ts tn -> regular a lc u stop ts tn ticks ->
  Z.of_nat (skipped tb ts) + Z.of_nat (skipped te tn) < 2^32 ->
  Forall (fun d => pd_type (pd_kind d) = 0 /\ pb_rate (pd_base d) = rate_of a) [sa_gain e; sm_gain sm] ->
  exists out m1, Render.render_unit E (after_units E md us) u = (Ok out, m1) /\ zlen out = zlen order /\
    uniform out (Z.to_nat ticks - skipped tb ts - skipped te tn).
Proof.
  intros aes mp a e sm lc order md us u ts tn stop ticks P Hc Hus Hu Pu Rg H32 Hg. destruct (configured X tb te _ _ _ _ _ _ _ _ P Hc) as [T0 Dk].
  pose proof (passes_units a e sm order us Hus md (proj1 T0) (configured_passes _ _ _ _ _ _ _ _ P Hc)) as Ps. pose proof (tuned_units X tb te _ _ _ _ _ _ _ _ P _ T0 Hus) as T. clear T0 Hc. set (m := after_units E md us) in *. clearbody m.
  destruct T as (T1 & T2 & T3 & T4 & _ & (l & el & L1 & _)). pose proof (labels_all _ _ _ _ _ _ _ P) as La. destruct (plain_labels _ _ _ _ _ _ _ P) as (t & _ & Ln & Al & Nd).
  assert (forall s ls, In (s, ls) (ad_labels a) -> ls <> []) as Nl.
  { intros s ls U2. rewrite Al in U2. apply in_combine_r in U2. clear - U2. unfold substreams in U2. intros ->. apply in_app_or in U2 as [U2|U2]; apply in_map_iff in U2 as (x & Q & _); try (destruct x); discriminate Q. }
  assert (forall s ls, In (s, ls) (ad_labels a) -> m_find s (ad_labels a) = Some ls) as Fl.
  { intros s ls Hin. revert Ln Nd Hin. rewrite Al. generalize (substreams (first_pairs t) (first_singles t)) as gs. generalize (ae_subs (ad_obu a)) as ids. clear. induction ids as [|i ids IH]; intros [|g gs] Ln Nd Hin; try destruct Hin.
    - injection H as <- <-. cbn [combine m_find]. rewrite Z.eqb_refl. reflexivity.
    - cbn [combine m_find]. inversion Nd; subst. destruct (Z.eqb_spec i s) as [->|]; [exfalso; apply in_combine_l in H; contradiction|]. cbn [length] in Ln. apply IH; [lia|assumption|exact H]. }
  destruct Rg as [R1 R2 R3 R4 R5 R6 R7]. destruct Pu as [(o0 & U1 & U2) Ut Ub Uk]. set (n := (Z.to_nat ticks - skipped tb ts - skipped te tn)%nat).
  assert (Z.to_nat ticks = skipped tb ts + n + skipped te tn)%nat as En by (unfold n; lia).
  (* decoding *)
  destruct (decode_total a lc (rm_decs m) (un_time u) stop ticks) with (os := un_frames u) (st0 := @None Z) as (fs & st1 & D1 & D2 & D3).
  { destruct Dk as [Q|[Q|Q]]; rewrite Q; vm_compute; split; discriminate. }
  { exact R5. }
  { intros s ls Hin. split; [|exact (T4 _ _ Hin)]. pose proof (Nl _ _ Hin). unfold zlen. destruct ls; [congruence|cbn [length]; lia]. }
  { exact La. }
  { left. reflexivity. }
  { apply Forall_forall. intros o Ho. split; [exact (Ub o Ho)|]. split; [exact (R2 o Ho)|]. split; [exact (R3 o Ho)|]. intros ls. exact (R4 o ls Ho). }
  specialize (D3 (or_introl (ex_intro _ o0 (conj U1 U2)))). subst st1.
  (* storing *)
  assert (Forall (fun f => f_start f = un_time u /\ forall ls, m_find (f_id f) (ad_labels a) = Some ls -> ls <> [] /\ zlen (f_samples f) = zlen ls /\ uniform (f_samples f) (Z.to_nat ticks) /\ f_trim_start f = ts /\ f_trim_end f = tn) fs) as Hf.
  { apply Forall_forall. intros f Hin. apply In_nth_error in Hin as (i & Hin). destruct (forall2_nth _ _ _ _ _ D2 Hin) as (o & O1 & O2). apply nth_error_In in O1. destruct O2 as [(ls & s & O2 & -> & O3 & O4)|[O2 ->]]; cbn [frame_of f_start f_id f_samples f_trim_start f_trim_end].
    - split; [exact (R2 o O1)|]. intros ls' Q. rewrite (Fl _ _ O2) in Q. injection Q as <-. split; [exact (Nl _ _ O2)|]. split; [exact O3|]. split; [exact O4|]. apply Ut; [exact O1|]. apply La. eauto.
    - split; [exact (R2 o O1)|]. intros ls' Q. exfalso. apply O2. apply La. exists ls'. apply m_find_In. exact Q. }
  assert (forall o, In o (un_frames u) -> In (af_id (of_obu o)) (ae_subs (ad_obu a)) -> exists f ls, In f fs /\ m_find (f_id f) (ad_labels a) = Some ls /\ f_id f = af_id (of_obu o)) as Ff.
  { intros o Ho Hi. apply In_nth_error in Ho as (i & Ho). destruct (forall2_nth_l _ _ _ _ _ D2 Ho) as (f & F1 & F2). apply nth_error_In in F1. apply La in Hi as (ls & Hi). exists f, ls. split; [exact F1|]. destruct F2 as [(ls' & s & _ & -> & _)|[F2 ->]]; cbn [frame_of f_id]; split; auto. }
  destruct (store_total (un_time u) (ad_labels a) (Z.to_nat ticks) ts tn fs None (mkLf 0 0 [] None)) as (lf1 & S1 & S2 & _ & S4 & S5); [auto|intros k s Q; discriminate Q|exact Hf|].
  destruct (Ff o0 U1 U2) as (f0 & ls0 & F1 & F2 & F3). destruct (S5 (or_introl (ex_intro _ f0 (ex_intro _ ls0 (conj F1 F2))))) as (S6 & S7 & S8). destruct (lf_params lf1) as [p|] eqn:Ep; [|congruence]. clear S5 S8.
  assert (demix_all E (rm_demix m) fs = Ok [(sa_id e, mkLf (lf_trim_end lf1) (lf_trim_start lf1) (lf_map lf1) (Some p))]) as Hd.
  { rewrite T2. cbn [demix_all]. unfold demix, store. destruct fs as [|f fs]; [destruct F1|]. rewrite (proj1 (Forall_inv Hf)), S1. cbn [rbind]. destruct (lf_map lf1) as [|kv rest] eqn:Em; [|rewrite Ep; reflexivity].
    exfalso. pose proof (Nl _ _ (m_find_In _ _ _ F2)) as N0. destruct ls0 as [|lab ls0]; [congruence|]. apply (S4 f0 (lab :: ls0) lab F1 F2 (or_introl eq_refl)). reflexivity. }
  set (lf := mkLf (lf_trim_end lf1) (lf_trim_start lf1) (lf_map lf1) (Some p)) in *.
  destruct (blocks_total (un_time u) stop (un_blocks u) [] R7) as (bm & Hb). pose proof (blocks_of_last _ _ _ _ _ Hb) as [_ Bl].
  assert (forall l0, ready l0 -> passes a e sm order l0 -> exists out l1, render E l0 [(sa_id e, lf)] bm = (Ok out, l1) /\ zlen out = zlen order /\ uniform out n) as Hr.
  { intros l0 Rl (K1 & K2 & K3 & K4 & (el0 & K5 & K6 & K7 & K8 & K9 & K10)). destruct (C65_layout E l0 [(sa_id e, lf)] bm n) as (out & l1 & O1 & O2 & O3); [exact Rl|rewrite K5; discriminate|rewrite K2; lia| | |exists out, l1; split; [exact O1|split; [congruence|exact O3]]].
    - rewrite K5. constructor; [|constructor]. exists lf. cbn [m_find]. rewrite K6, Z.eqb_refl. split; [reflexivity|].
      assert (0 <= ts /\ 0 <= tn) as [B1 B2]. { destruct (Ut o0 U1 U2) as [<- <-]. exact (Hu o0 U1). }
      assert (start_trim E lf = skipped tb ts /\ end_trim E lf = skipped te tn) as [-> ->].
      { unfold start_trim, end_trim, lf, skipped, trim_of. cbn [lf_trim_start lf_trim_end cpp r_trim_begin r_trim_end]. rewrite S6, S7. split; [destruct tb|destruct te]; reflexivity. }
      split; [unfold trims_ok, lf; cbn [lf_trim_start lf_trim_end]; rewrite S6, S7; auto|]. split; [exact H32|]. rewrite K9. 
      assert (order <> []) as On. { destruct P as [_ _ (ly & ll & ss & r & k & _ & _ & _ & L4) _ _ _ _ _ _ _ _ _ _]. clear - L4. cbn [In same_loudspeakers] in L4. repeat (destruct L4 as [Q4|L4]; [injection Q4 as _ _ <-; discriminate|]). destruct L4. }
      split; [destruct order as [|lab order']; [congruence|]; exists lab; left; reflexivity|]. split; [rewrite K10; lia|]. split.
      + intros lab Hl. apply in_map_iff in Hl as (lab' & Q & Hl). injection Q as ->. destruct (order_stored _ _ _ _ _ _ _ P lab Hl) as (s & ls & G1 & G2). assert (In s (ae_subs (ad_obu a))) as G3 by (apply La; eauto). destruct (R1 s G3) as (o & G4 & <-). destruct (Ff o G4 G3) as (f & ls' & G5 & G6 & G7).
        rewrite G7, (Fl _ _ G1) in G6. injection G6 as <-. assert (m_find (f_id f) (ad_labels a) = Some ls) as G8 by (rewrite G7; exact (Fl _ _ G1)). pose proof (S4 f ls lab G5 G8 G2) as G9. unfold find_samples, lf. cbn [lf_map]. destruct (sm_find (Orig lab) (lf_map lf1)) as [ch|] eqn:Ec; [|congruence]. exists ch. split; [reflexivity|]. rewrite (S2 _ _ Ec). exact En.
      + unfold matrix_of. rewrite K8. unfold zlen in *. rewrite map_length. congruence.
    - rewrite K1, K3, K5. cbn [map]. rewrite K7. apply Forall_cons_iff in Hg as [Hg1 Hg]. apply Forall_cons_iff in Hg as [Hg2 _]. cbv beta in Hg1, Hg2.
      assert (forall d, pd_type (pd_kind d) = 0 /\ pb_rate (pd_base d) = rate_of a -> (forall b, In b (un_blocks u) -> bl_id (ob_obu b) <> pb_id (pd_base d)) -> gain_ok (rate_of a) bm d) as G.
      { intros d [G1 G2] G3. split; [exact G1|]. split; [exact G2|]. intros b Hbb. rewrite Bl, (last_none _ _ G3) in Hbb. discriminate Hbb. }
      constructor; [apply G; [exact Hg2|intros b Hbb; apply (Uk b Hbb)]|]. constructor; [apply G; [exact Hg1|intros b Hbb; apply (Uk b Hbb)]|constructor]. }
  assert (exists f1, push_unit E (rm_fin m) [(sa_id e, lf)] (un_time u) stop (un_blocks u) = (Ok tt, f1)) as (f1 & Hp).
  { unfold push_unit. rewrite Hb. apply each_total. intros [id subs] H1. unfold on_snd. cbn [fst snd]. match goal with |- context[each ?g subs] => assert (exists s1, each g subs = (Ok tt, s1)) as (s1 & ->) end; [|eauto].
    apply each_total. intros ls H2. apply each_total. intros lm H3. unfold render_layout. destruct (lm_rend lm) as [l0|] eqn:E0; [|eauto]. destruct (Hr l0 (T1 _ _ _ _ _ H1 H2 H3 E0) (Ps _ _ _ _ _ H1 H2 H3 E0)) as (out & l1 & -> & _). eauto. }
  destruct L1 as (subs & ls & lm & Q1 & Q2 & Q3 & Q4). pose proof Hp as Hp'. unfold push_unit in Hp'. rewrite Hb in Hp'. destruct (each_find _ _ _ Hp' _ _ Q1) as (x1 & X1 & X2). destruct (each_nth _ _ _ X1 _ _ Q2) as (x2 & X3 & X4). destruct (each_nth _ _ _ X3 _ _ Q3) as (x3 & X5 & X6).
  assert (ready l /\ passes a e sm order l) as [Rl Pl]. { pose proof (m_find_In _ _ _ Q1) as I1. split; [exact (T1 _ _ _ _ _ I1 (nth_error_In _ _ Q2) (nth_error_In _ _ Q3) Q4)|exact (Ps _ _ _ _ _ I1 (nth_error_In _ _ Q2) (nth_error_In _ _ Q3) Q4)]. }
  destruct (Hr l Rl Pl) as (out & l1 & O1 & O2 & O3). unfold render_layout in X5. rewrite Q4, O1 in X5. injection X5 as X5. subst x3.
  exists out. eexists. split; [|split; [exact O2|exact O3]]. unfold Render.render_unit. rewrite T3, D1. cbn [rbind fst snd]. rewrite Hd. cbn [rbind]. rewrite Hp. cbn [rbind]. unfold get_samples. rewrite X2, X4, X6. reflexivity.
Qed.
End Plain.

(* The unit of C64_ex after a refused one *)
Example C65_ex : plain [(3, aed_51)] mp_51 aed_51 sub_51 mix_51 (mkLpcm 0 16 48000) [L5; R5; Centre; LFE; Ls5; Rs5] /\ Forall trims_of_unit [u_bad] /\ trims_of_unit u_51 /\ plain_unit aed_51 sub_51 mix_51 u_51 1 0 /\
  regular true true aed_51 (mkLpcm 0 16 48000) u_51 2 1 0 2 /\ Forall (fun d => pd_type (pd_kind d) = 0 /\ pb_rate (pd_base d) = rate_of aed_51) [sa_gain sub_51; sm_gain mix_51] /\
  exists md, configure (cpp far true true) [(3, aed_51)] mp_51 = Ok md.
Proof.
  destruct C64_ex as (H1 & _ & H3 & H4 & H5 & md & _ & H6 & _). split; [exact H1|]. split; [exact H3|]. split; [exact H4|]. split; [exact H5|]. split; [|split; [repeat constructor|exists md; exact H6]].
  constructor.
  - intros s Hs. cbn in Hs. destruct Hs as [<-|[<-|[<-|[<-|[]]]]]; eexists; (split; [|shelve]); cbn; [left|right; left|right; right; left|right; right; right; left]; reflexivity. Unshelve. all: reflexivity.
  - intros o Ho. cbn in Ho. repeat (destruct Ho as [<-|Ho]; [reflexivity|]). destruct Ho.
  - intros o Ho _. cbn in Ho. repeat (destruct Ho as [<-|Ho]; [reflexivity|]). destruct Ho.
  - intros o ls Ho Hl. cbn in Ho. repeat (destruct Ho as [<-|Ho]; [cbn in Hl; repeat (destruct Hl as [Hl|Hl]; [injection Hl as; subst; try discriminate; reflexivity|]); destruct Hl|]). destruct Ho.
  - vm_compute. split; discriminate.
  - vm_compute. discriminate.
  - intros b [].
Qed.
