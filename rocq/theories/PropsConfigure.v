(* C60: what the decoder sets up for the mix presentation it has selected. *)
From Verif Require Import Base WriteBuf ObuHeader SimpleObus CodecConfig Params AudioElement MixPresentation Timing ParamManager AeData
  Profile MixSelect PropsParams PropsPM MixGain PropsGain Processor Demix DemixFacts Render RenderFacts PropsRender PropsHistory PropsUnit.

Section Configure.
Context {T F B C : Type} (E : renv T F B C).

(* ================= SPEC ================= *)
(* The mix presentation plays the audio element: some sub-mix names it. *)
Definition wants (mp : mixp) (id : Z) : Prop := exists sm e, In sm (mp_subs mp) /\ In e (sm_elems sm) /\ sa_id e = id.
(* The renderer [el] of a layout belongs to the element [e] of the sub-mix. *)
Definition renders (aes : aemap) (ly : lay) (rate spf : Z) (e : subelem) (el : @elem T B) : Prop :=
  exists a, m_find (sa_id e) aes = Some a /\ rate_of a = rate /\ cc_frame (codec_of a) = spf /\
    el_id el = sa_id e /\ el_gain el = sa_gain e /\ el_out el = [] /\
    new_for_layout E (ad_obu a) (ad_labels a) (rc_mode (sa_conf e)) ly spf rate = Ok (Some (el_rend el)).

(* ================= proofs ================= *)
Lemma wanted mp id : In id (element_ids (mp_subs mp)) <-> wants mp id.
Proof.
  unfold element_ids, wants. rewrite in_flat_map. split.
  - intros (sm & H1 & H2). apply in_map_iff in H2 as (e & H2 & H3). eauto.
  - intros (sm & e & H1 & H2 & H3). exists sm. split; [exact H1|]. apply in_map_iff. eauto.
Qed.
Lemma find_snoc {V} s k (x : V) d : m_find s (d ++ [(k, x)]) = match m_find s d with Some y => Some y | None => if k =? s then Some x else None end.
Proof. induction d as [|[i y] d IH]; [reflexivity|]. cbn [app m_find]. destruct (i =? s); [reflexivity|exact IH]. Qed.
Lemma init_decoders_find c : forall m d d1, init_decoders E m c d = Ok d1 ->
  forall s x, m_find s d1 = Some x <-> m_find s d = Some x \/ (m_find s d = None /\ exists ls, m_find s m = Some ls /\ r_newdec E c (zlen ls) = Ok x).
Proof.
  induction m as [|[k ls] m IH]; intros d d1 H; cbn [init_decoders] in H.
  - injection H as <-. intros s x. cbn [m_find]. split; [auto|]. intros [H|(_ & ls & H & _)]; [exact H|discriminate].
  - destruct (m_find k d) eqn:Ek; [discriminate|]. destruct (_ || _); [|discriminate]. destruct (r_newdec E c (zlen ls)) as [y| | | |] eqn:En; cbn [rbind] in H; try discriminate H.
    intros s x. rewrite (IH _ _ H s x), find_snoc. cbn [m_find]. destruct (k =? s) eqn:Eq.
    + apply Z.eqb_eq in Eq. subst k. rewrite Ek. split.
      * intros [Q|(Q & _)]; [|discriminate]. injection Q as <-. right. split; [reflexivity|]. exists ls. auto.
      * intros [Q|(_ & l & Q & R)]; [discriminate|]. injection Q as <-. left. congruence.
    + destruct (m_find s d) as [y0|]; split; intros [Q|Q]; try (left; exact Q); try (right; exact Q).
Qed.
Lemma init_decoders_new c : forall m d d1, init_decoders E m c d = Ok d1 -> (forall s, In s (map fst m) -> m_find s d = None) /\ NoDup (map fst m).
Proof.
  induction m as [|[k ls] m IH]; intros d d1 H; cbn [init_decoders] in H; [split; [intros s []|constructor]|].
  destruct (m_find k d) eqn:Ek; [discriminate|]. destruct (_ || _); [|discriminate]. destruct (r_newdec E c (zlen ls)) as [y| | | |]; cbn [rbind] in H; try discriminate H.
  destruct (IH _ _ H) as [I1 I2]. cbn [map fst]. split.
  - intros s [<-|Hs]; [exact Ek|]. specialize (I1 s Hs). rewrite find_snoc in I1. destruct (m_find s d); [discriminate|reflexivity].
  - constructor; [|exact I2]. intro Hk. specialize (I1 k Hk). rewrite find_snoc, Ek, Z.eqb_refl in I1. discriminate.
Qed.
Lemma configure_elements_spec : forall l subs decs x, configure_elements E l subs decs = Ok x ->
  (forall s, In s (fst x) <-> In s subs \/ exists id a, In (id, a) l /\ In s (ae_subs (ad_obu a))) /\
  (forall s d, m_find s (snd x) = Some d <-> m_find s decs = Some d \/ (m_find s decs = None /\ exists id a ls, In (id, a) l /\ m_find s (ad_labels a) = Some ls /\ r_newdec E (codec_of a) (zlen ls) = Ok d)).
Proof.
  induction l as [|[i a] l IH]; intros subs decs x H; cbn [configure_elements] in H.
  - injection H as <-. cbn [fst snd]. split.
    + intro s. split; [auto|]. intros [H|(id & a & [] & _)]. exact H.
    + intros s d. split; [auto|]. intros [H|(_ & id & a & ls & [] & _)]. exact H.
  - destruct (init_decoders E (ad_labels a) (codec_of a) decs) as [d1| | | |] eqn:Ei; cbn [rbind] in H; try discriminate H. destruct (IH _ _ _ H) as [I1 I2]. split.
    + intro s. rewrite I1, in_app_iff. split.
      * intros [[Q|Q]|(id & b & Q1 & Q2)]; [auto|right; exists i, a; split; [left; reflexivity|exact Q]|right; exists id, b; split; [right; exact Q1|exact Q2]].
      * intros [Q|(id & b & [Q1|Q1] & Q2)]; [auto|injection Q1 as <- <-; auto|right; eauto].
    + intros s d. rewrite I2, (init_decoders_find _ _ _ _ Ei s d). split.
      * intros [[Q|(Q & ls & Q1 & Q2)]|(Q & id & b & ls & Q1 & Q2 & Q3)].
        -- left; exact Q.
        -- right. split; [exact Q|]. exists i, a, ls. split; [left; reflexivity|auto].
        -- right. split; [|exists id, b, ls; split; [right; exact Q1|auto]]. destruct (m_find s decs) as [y|] eqn:Ey; [|reflexivity].
           assert (m_find s d1 = Some y) as K by (apply (init_decoders_find _ _ _ _ Ei s y); left; exact Ey). congruence.
      * intros [Q|(Q & id & b & ls & [Q1|Q1] & Q2 & Q3)].
        -- left; left; exact Q.
        -- injection Q1 as <- <-. left. right. split; [exact Q|]. exists ls. auto.
        -- destruct (m_find s d1) as [y|] eqn:Ey; [|right; split; [reflexivity|]; exists id, b, ls; auto].
           (* the substream of two elements: refused *)
           exfalso. clear I1 I2 IH. assert (exists ls', In (s, ls') (ad_labels b)) as [ls' Hl] by (exists ls; eapply m_find_In; exact Q2).
           clear Ei. revert d1 H Ey. generalize (subs ++ ae_subs (ad_obu a)). clear subs. induction l as [|[j c] l IHl]; intros subs d1 H Ey; [destruct Q1|]. cbn [configure_elements] in H.
           destruct (init_decoders E (ad_labels c) (codec_of c) d1) as [d2| | | |] eqn:E2; cbn [rbind] in H; try discriminate H. destruct Q1 as [Q1|Q1].
           ++ injection Q1 as -> ->. destruct (init_decoders_new _ _ _ _ E2) as [N _]. specialize (N s (in_map fst _ _ Hl)). congruence.
           ++ eapply (IHl Q1); [exact H|]. apply (init_decoders_find _ _ _ _ E2 s y). left. exact Ey.
Qed.

(* ================= C60 ================= *)
(* The decoder decodes exactly the substreams of the audio elements that the mix plays, each with a decoder of its codec config for its
   number of channels, and demixes exactly these elements. *)
Theorem C60_configured : forall aes mp md, configure E aes mp = Ok md ->
  rm_mix md = mp_id mp /\
  (forall s, In s (rm_subs md) <-> exists id a, In (id, a) aes /\ wants mp id /\ In s (ae_subs (ad_obu a))) /\
  (forall s d, m_find s (rm_decs md) = Some d <-> exists id a ls, In (id, a) aes /\ wants mp id /\ m_find s (ad_labels a) = Some ls /\ r_newdec E (codec_of a) (zlen ls) = Ok d) /\
  (forall id c, In (id, c) (rm_demix md) -> exists a, In (id, a) aes /\ wants mp id /\ demix_config a = Ok c) /\
  (forall id a, In (id, a) aes -> wants mp id -> exists c, In (id, c) (rm_demix md) /\ demix_config a = Ok c).
Proof.
  intros aes mp md H. unfold configure in H. set (used := filter _ aes) in H.
  assert (forall id a, In (id, a) used <-> In (id, a) aes /\ wants mp id) as U.
  { intros id a. unfold used. rewrite filter_In. cbn [fst]. rewrite <- wanted. rewrite existsb_exists. split; intros [H1 H2]; (split; [exact H1|]).
    - destruct H2 as (x & H2 & H3). apply Z.eqb_eq in H3. subst x. exact H2.
    - exists id. split; [exact H2|apply Z.eqb_refl]. }
  clearbody used. destruct (configure_elements E used [] []) as [x| | | |] eqn:Ec; cbn [rbind] in H; try discriminate H.
  destruct (rmap _ used) as [dm| | | |] eqn:Ed; cbn [rbind] in H; try discriminate H. destruct (new_finalizer E aes [mp] []) as [f| | | |]; cbn [rbind] in H; try discriminate H. injection H as <-. cbn [rm_mix rm_subs rm_decs rm_demix].
  destruct (configure_elements_spec _ _ _ _ Ec) as [S1 S2]. split; [reflexivity|]. split.
  { intro s. rewrite S1. split.
    - intros [[]|(id & a & Q1 & Q2)]. apply U in Q1 as [Q1 Q3]. eauto.
    - intros (id & a & Q1 & Q2 & Q3). right. exists id, a. split; [apply U; auto|exact Q3]. }
  split.
  { intros s d. rewrite S2. cbn [m_find]. split.
    - intros [Q|(_ & id & a & ls & Q1 & Q2 & Q3)]; [discriminate|]. apply U in Q1 as [Q1 Q4]. exists id, a, ls. auto.
    - intros (id & a & ls & Q1 & Q2 & Q3 & Q4). right. split; [reflexivity|]. exists id, a, ls. split; [apply U; auto|auto]. }
  apply rmap_ok in Ed. split.
  - intros id c Hc. clear -U Ed Hc. assert (forall id a, In (id, a) used -> In (id, a) aes /\ wants mp id) as U' by (intros; apply U; assumption). clear U. induction Ed as [|[i a] y used dm H _ IH]; [destruct Hc|]. cbn [fst snd] in H.
    destruct (demix_config a) as [k| | | |] eqn:Ek; cbn [rbind] in H; try discriminate H. injection H as <-. destruct Hc as [Hc|Hc].
    + injection Hc as <- <-. destruct (U' i a (or_introl eq_refl)) as [V1 V2]. exists a. auto.
    + apply IH; [exact Hc|intros j b Hb; apply U'; right; exact Hb].
  - intros id a Ha Hw. assert (In (id, a) used) as Hu by (apply U; auto). clear -Ed Hu. induction Ed as [|[i b] y used dm H _ IH]; [destruct Hu|]. cbn [fst snd] in H.
    destruct (demix_config b) as [k| | | |] eqn:Ek; cbn [rbind] in H; try discriminate H. injection H as <-. destruct Hu as [Hu|Hu].
    + injection Hu as -> ->. exists k. split; [left; reflexivity|exact Ek].
    + destruct (IH Hu) as (c & C1 & C2). exists c. split; [right; exact C1|exact C2].
Qed.

Lemma collected aes : forall l els, collect_elements aes l = Ok els -> map fst els = l /\ Forall (fun x => m_find (sa_id (fst x)) aes = Some (snd x)) els.
Proof.
  induction l as [|e l IH]; intros els H; cbn [collect_elements] in H; [injection H as <-; split; [reflexivity|constructor]|].
  destruct (m_find (sa_id e) aes) as [a|] eqn:Ea; [|discriminate]. destruct (collect_elements aes l) as [r| | | |] eqn:Er; cbn [rbind] in H; try discriminate H. injection H as <-.
  destruct (IH r eq_refl) as [I1 I2]. cbn [map fst]. split; [congruence|]. constructor; [exact Ea|exact I2].
Qed.
Lemma same_rate els r : common_rate_and_size els = Ok r -> Forall (fun x => rate_of (snd x) = fst r /\ cc_frame (codec_of (snd x)) = snd r) els.
Proof.
  unfold common_rate_and_size. destruct els as [|[s a] t]; [discriminate|]. destruct (forallb _ t) eqn:E1; cbn [negb]; [|discriminate]. destruct (forallb (fun x => rate_of _ =? _) t) eqn:E2; cbn [negb]; [|discriminate].
  intro H. injection H as <-. cbn [fst snd]. constructor; [auto|]. rewrite forallb_forall in E1, E2. apply Forall_forall. intros x Hx. specialize (E1 x Hx). specialize (E2 x Hx). cbv beta in E1, E2. split; apply Z.eqb_eq; assumption.
Qed.
Lemma new_elements_spec ly spf rate : forall els o, new_elements E els ly spf rate = Ok (Some o) ->
  Forall2 (fun x el => el_id el = sa_id (fst x) /\ el_gain el = sa_gain (fst x) /\ el_out el = [] /\
    new_for_layout E (ad_obu (snd x)) (ad_labels (snd x)) (rc_mode (sa_conf (fst x))) ly spf rate = Ok (Some (el_rend el))) els o.
Proof.
  induction els as [|[s a] els IH]; intros o H; cbn [new_elements] in H; [injection H as <-; constructor|].
  destruct (new_for_layout E (ad_obu a) (ad_labels a) (rc_mode (sa_conf s)) ly spf rate) as [[r|]| | | |] eqn:En; cbn [rbind] in H; try discriminate H.
  destruct (new_elements E els ly spf rate) as [[x|]| | | |] eqn:Ex; cbn [rbind option_map] in H; try discriminate H. injection H as <-. constructor; [cbn [el_id el_gain el_out el_rend fst snd]; auto|]. apply IH. reflexivity.
Qed.
(* What is played is the first layout of the first sub-mix: one renderer for each element of the sub-mix, in order, with the gain of the
   element, made for the audio element with that ID; all at one sample rate and frame size; the output gain is that of the sub-mix. *)
Theorem C60_configured_layout : forall aes mp md l, configure E aes mp = Ok md -> plays md l ->
  exists sm rest y more, mp_subs mp = sm :: rest /\ sm_layouts sm = y :: more /\
    num_channels (fst (loudness_layout y)) (snd (loudness_layout y)) = Ok (lr_chans l) /\ lr_gain l = sm_gain sm /\
    sm_elems sm <> [] /\ Forall2 (renders aes (loudness_layout y) (lr_rate l) (lr_spf l)) (sm_elems sm) (lr_els l).
Proof.
  intros aes mp md l H (subs & ls & lm & P1 & P2 & P3 & P4). unfold configure in H. set (used := filter _ aes) in H. clearbody used.
  destruct (configure_elements E used [] []) as [x| | | |]; cbn [rbind] in H; try discriminate H. destruct (rmap _ used) as [dm| | | |]; cbn [rbind] in H; try discriminate H.
  cbn [new_finalizer] in H. destruct (rmap (new_sub_mix E aes) (mp_subs mp)) as [ms| | | |] eqn:Em; cbn [rbind] in H; try discriminate H. injection H as <-. cbn [rm_mix rm_fin] in P1. clear x dm.
  assert (subs = ms) as ->. { destruct (existsb _ ms); cbn [m_find app] in P1; [rewrite Z.eqb_refl in P1; congruence|discriminate]. } clear P1.
  apply rmap_ok in Em. destruct ms as [|ls0 ms]; [discriminate P2|]. injection P2 as ->. inversion Em as [|sm ? rest ? Hs _ Q1 Q2]; subst. clear Em. unfold new_sub_mix in Hs.
  destruct (collect_elements aes (sm_elems sm)) as [els| | | |] eqn:Ec; cbn [rbind] in Hs; try discriminate Hs. destruct (common_rate_and_size els) as [[rate spf]| | | |] eqn:Er; cbn [rbind fst snd] in Hs; try discriminate Hs.
  apply rmap_ok in Hs. destruct ls as [|lm0 ls]; [discriminate P3|]. injection P3 as ->. inversion Hs as [|y ? more ? Hn _ Q3 Q4]; subst. clear Hs. exists sm, rest, y, more. split; [reflexivity|]. split; [symmetry; exact Q3|].
  unfold new_layout in Hn. destruct (num_channels _ _) as [n| | | |]; try discriminate Hn; [|injection Hn as <-; discriminate P4].
  destruct (new_elements E els (loudness_layout y) spf rate) as [o| | | |] eqn:Eo; cbn [rbind] in Hn; try discriminate Hn. injection Hn as <-. cbn [lm_rend] in P4. destruct o as [o|]; [|discriminate P4]. cbn [option_map] in P4. injection P4 as <-. cbn [lr_chans lr_gain lr_rate lr_spf lr_els].
  split; [reflexivity|]. split; [reflexivity|]. destruct (collected _ _ _ Ec) as [C1 C2]. pose proof (same_rate _ _ Er) as C3. pose proof (new_elements_spec _ _ _ _ _ Eo) as C4. cbn [fst snd] in C3. rewrite <- C1. split.
  - destruct els; [discriminate Er|discriminate].
  - clear -C2 C3 C4. induction C4 as [|x el els o (D1 & D2 & D3 & D4) _ IH]; [constructor|]. inversion C2 as [|? ? A1 A2]; subst. inversion C3 as [|? ? [B1 B2] B3]; subst. cbn [map]. constructor; [|apply IH; assumption].
    exists (snd x). repeat split; assumption.
Qed.
End Configure.

(* 5.1 twice and a third element that the mix does not play, in integer arithmetic; decoders are named by their number of channels *)
Definition cfg_env : renv Z Z unit Z :=
  mkRenv Zarith_ (fun x => x) (fun n _ s _ => s + n) (fun _ _ _ _ _ _ => 0) (fun x => x) Z.mul (fun _ _ => Err NotFound) (fun _ _ _ => None) (fun b _ => (Err Unknown, b))
         (fun _ n => Ok n) (fun c x => (Ok [x], c)) true true.
Definition cfg_aed (id first : Z) : aed :=
  mkAed (mkAE id 0 0 7 [first; first + 1; first + 2; first + 3] [] (ACScal 0 [mkLy 2 false false 0 4 2 0 0 0 None]))
        (mkCC 7 kIdLpcm 2 0 (DLpcm (mkLpcm 0 16 48000)), (48000, 48000, 16))
        [(first, [L5; R5]); (first + 1, [Ls5; Rs5]); (first + 2, [Centre]); (first + 3, [LFE])] [] [mkCh 5 1 0 0].
Definition cfg_aes : aemap := [(3, cfg_aed 3 20); (4, cfg_aed 4 30); (5, cfg_aed 5 40)].
Definition cfg_sub (id : Z) : subelem := mkSA id [] (mkRC 0 0 0 [] None []) (gain_ex (100 + id) 7 None).
Definition cfg_mp : mixp := mkMP 1 0 [] [] [mkSM [cfg_sub 4; cfg_sub 3] (gain_ex 101 3 None) [mkLO 2 (LSs 1 0) 0 0 0 0 [] []]] None None.
Example C60_configured_ex : exists md l, configure cfg_env cfg_aes cfg_mp = Ok md /\ plays md l /\
  rm_subs md = [20; 21; 22; 23; 30; 31; 32; 33] /\ map snd (rm_decs md) = [2; 2; 1; 1; 2; 2; 1; 1] /\ map fst (rm_demix md) = [3; 4] /\
  map el_id (lr_els l) = [4; 3] /\ lr_chans l = 6 /\ ~ wants cfg_mp 5.
Proof.
  eexists _, _. split; [vm_compute; reflexivity|]. split; [eexists _, _, _; vm_compute; repeat split; reflexivity|]. repeat split.
  intros (sm & e & H1 & H2 & H3). cbn [cfg_mp mp_subs In] in H1. destruct H1 as [<-|[]]. cbn [sm_elems In] in H2. destruct H2 as [<-|[<-|[]]]; discriminate H3.
Qed.
