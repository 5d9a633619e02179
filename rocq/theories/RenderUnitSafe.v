(* Rendering never crashes: a temporal unit. *)
From Verif Require Import Base WriteBuf ObuHeader SimpleObus CodecConfig Params AudioElement MixPresentation Timing ParamManager PropsPM AeData
  Profile MixSelect PropsParams MixGain PropsGain Processor Demix DemixFacts PropsDemix Render RenderFacts PropsRender PropsHistory RenderSafe.

(* ================= SPEC ================= *)
(* The parameter blocks of the unit are as the parser makes them: those with the ID of one of these mix gains have a subblock of mix
   gain data for each subblock, if they last as long as a frame of the unit. *)
Definition gains_in_unit (P : pdef -> Prop) (u : outunit) : Prop :=
  forall b d o, In b (un_blocks u) -> P d -> pb_id (pd_base d) = bl_id (ob_obu b) -> pd_type (pd_kind d) = 0 ->
    In o (un_frames u) -> of_start o = ob_start b -> of_end o = ob_end b -> gain_block d (ob_obu b).

Section Safe.
Context {T F B C : Type} (E : renv T F B C).
Notation chan := (@samples T).
Variable Fine : C -> Prop.
Hypothesis Et : tame E Fine.
(* The renderers of a finalizer: with audio elements, of rectangular matrices and without leftovers; their gains are among P. *)
Definition steady (P : pdef -> Prop) (f : @finalizer T B) : Prop := each_renderer (fun l => firm_layout l /\ Forall P (gains_of l)) f.

Lemma blocks_in start stop : forall bs m0 m, blocks_of start stop bs m0 = Ok m -> forall i b, m_find i m = Some b ->
  m_find i m0 = Some b \/ exists o, In o bs /\ ob_obu o = b /\ bl_id b = i /\ ob_start o = start /\ ob_end o = stop.
Proof.
  induction bs as [|o bs IH]; intros m0 m H i b Hb; cbn [blocks_of] in H; [injection H as <-; left; exact Hb|]. unfold rthen in H.
  destruct (veq start (ob_start o)) eqn:V1; cbn [rbind] in H; try discriminate H. destruct (veq stop (ob_end o)) eqn:V2; cbn [rbind] in H; try discriminate H.
  destruct (IH _ _ H i b Hb) as [Q|(o' & K1 & K2)]; [|right; exists o'; split; [right; exact K1|exact K2]].
  unfold veq, vcond in V1, V2. destruct (Z.eqb_spec start (ob_start o)); [|discriminate V1]. destruct (Z.eqb_spec stop (ob_end o)); [|discriminate V2].
  rewrite find_put in Q. destruct (Z.eqb_spec (bl_id (ob_obu o)) i) as [Ei|Ei]; [|left; exact Q]. injection Q as <-. right. exists o. split; [left; reflexivity|]. auto.
Qed.
Lemma blocks_ends start stop : forall bs m0, ends (blocks_of start stop bs m0).
Proof. induction bs as [|o bs IH]; intro m0; cbn [blocks_of]; [apply ends_ok|]. unfold rthen. apply ends_bind; [apply ends_veq|]. intros _ _. apply ends_bind; [apply ends_veq|]. intros _ _. apply IH. Qed.
Lemma each_safe {X} (f : X -> res unit * X) (I : X -> Prop) : (forall x, I x -> ends (fst (f x)) /\ I (snd (f x))) ->
  forall l, Forall I l -> ends (fst (each f l)) /\ Forall I (snd (each f l)).
Proof.
  intro H. induction 1 as [|x l Hx Hl IH]; cbn [each]; [split; [apply ends_ok|constructor]|]. destruct (H x Hx) as [K1 K2]. destruct (f x) as [r x1]. cbn [fst snd] in *.
  destruct r as [[]|c| | |]; try (destruct K1 as [[? K1]|[? K1]]; discriminate K1).
  - destruct (each f l) as [r t]. cbn [fst snd] in *. split; [apply IH|constructor; [exact K2|apply IH]].
  - split; [apply ends_err|constructor; assumption].
Qed.
Definition calm_layout (P : pdef -> Prop) (lm : @lmeta T B) : Prop := forall l, lm_rend lm = Some l -> firm_layout l /\ Forall P (gains_of l).
Lemma steady_forall P f : steady P f <-> Forall (fun p => Forall (Forall (calm_layout P)) (snd p)) f.
Proof.
  split.
  - intro H. apply Forall_forall. intros [id subs] H1. apply Forall_forall. intros ls H2. apply Forall_forall. intros lm H3 l Hl. exact (H id subs ls lm l H1 H2 H3 Hl).
  - intros H id subs ls lm l H1 H2 H3 Hl. rewrite Forall_forall in H. specialize (H _ H1). cbn [snd] in H. rewrite Forall_forall in H. specialize (H _ H2). rewrite Forall_forall in H. exact (H _ H3 l Hl).
Qed.
Lemma render_layout_safe (P : pdef -> Prop) frames blocks lm : trims frames -> (forall d, P d -> gain_blocks blocks d) -> calm_layout P lm ->
  ends (fst (render_layout E frames blocks lm)) /\ calm_layout P (snd (render_layout E frames blocks lm)).
Proof.
  intros Ht Hg Hc. unfold render_layout. destruct (lm_rend lm) as [l|] eqn:El; [|cbn [fst snd]; split; [apply ends_ok|exact Hc]]. destruct (Hc l El) as [F1 F2].
  destruct (render E l frames blocks) as [x l1] eqn:Er. destruct (render_safe E Fine Et l frames blocks x l1 F1 Ht ltac:(eapply Forall_impl; [|exact F2]; exact Hg) Er) as (R1 & R2 & R3).
  assert (forall v, calm_layout P (mkLm (Some l1) v)) as Q. { intros v l0 H. injection H as <-. split; [exact R2|]. rewrite R3. exact F2. }
  destruct x as [s|c| | |]; try (destruct R1 as [[? R1]|[? R1]]; discriminate R1); cbn [fst snd]; (split; [first [apply ends_ok|apply ends_err]|apply Q]).
Qed.
Lemma push_safe (P : pdef -> Prop) f frames start stop bs : trims frames -> steady P f ->
  (forall b d, In b bs -> P d -> pb_id (pd_base d) = bl_id (ob_obu b) -> pd_type (pd_kind d) = 0 -> ob_start b = start -> ob_end b = stop -> gain_block d (ob_obu b)) ->
  ends (fst (push_unit E f frames start stop bs)) /\ steady P (snd (push_unit E f frames start stop bs)).
Proof.
  intros Ht Hs Hb. unfold push_unit. pose proof (blocks_ends start stop bs []) as Ke. destruct (blocks_of start stop bs []) as [m|c| | |] eqn:Eb; try (destruct Ke as [[? Ke]|[? Ke]]; discriminate Ke).
  2:{ cbn [fst snd]. split; [apply ends_err|exact Hs]. }
  assert (forall d, P d -> gain_blocks m d) as Hg.
  { intros d Hd b Hf Ty. destruct (blocks_in _ _ _ _ _ Eb _ _ Hf) as [Q|(o & O1 & O2 & O3 & O4 & O5)]; [discriminate Q|]. subst b. exact (Hb o d O1 Hd (eq_sym O3) Ty O4 O5). }
  apply steady_forall in Hs. rewrite steady_forall. apply each_safe; [|exact Hs]. intros [id subs] Hi. unfold on_snd. cbn [fst snd] in *.
  destruct (each_safe (each (render_layout E frames m)) (Forall (calm_layout P)) (fun ls Hl => each_safe _ _ (fun lm Hlm => render_layout_safe P frames m lm Ht Hg Hlm) ls Hl) subs Hi) as [Q1 Q2].
  destruct (each (each (render_layout E frames m)) subs). cbn [fst snd] in *. auto.
Qed.
Definition good_decs (decs : list (Z * C)) : Prop := Forall (fun x => Fine (snd x)) decs.
Lemma good_find i decs d : good_decs decs -> m_find i decs = Some d -> Fine d.
Proof. induction 1 as [|[j x] decs Hx _ IH]; cbn [m_find]; [discriminate|]. destruct (j =? i); [intro H; injection H as <-; exact Hx|exact IH]. Qed.
Lemma good_set i decs d : good_decs decs -> Fine d -> good_decs (Render.m_set i d decs).
Proof. induction 1 as [|[j x] decs Hx Hd IH]; intro Kd; cbn [Render.m_set]; [constructor|]. destruct (j =? i); constructor; try assumption. apply IH; exact Kd. Qed.
Lemma decode_ends decs o : good_decs decs -> ends (fst (decode E decs o)) /\ good_decs (snd (decode E decs o)).
Proof.
  intro G. unfold decode. destruct (m_find _ decs) as [d|] eqn:Ef; [|split; [apply ends_err|exact G]]. destruct (tame_decode E Fine Et d (af_bytes (of_obu o)) (good_find _ _ _ G Ef)) as [Q1 Q2].
  destruct (r_decode E d (af_bytes (of_obu o))). cbn [fst snd] in *. split; [exact Q1|apply good_set; assumption].
Qed.
Lemma decode_frames_ends subs start : forall fs stop decs, good_decs decs -> ends (fst (decode_frames E subs start stop fs decs)) /\ good_decs (snd (decode_frames E subs start stop fs decs)).
Proof.
  induction fs as [|o fs IH]; intros stop decs G; cbn [decode_frames]; [split; [apply ends_ok|exact G]|]. destruct (negb _).
  - destruct (IH stop decs G) as [I1 I2]. destruct (decode_frames E subs start stop fs decs) as [r d]. cbn [fst snd] in *. split; [|exact I2]. apply ends_bind; [exact I1|]. intros. apply ends_ok.
  - cbv zeta. set (e := match stop with Some e => e | None => of_end o end). assert (ends (veq start (of_start o) >>> veq e (of_end o))) as Kv by (unfold rthen; apply ends_bind; [apply ends_veq|intros _ _; apply ends_veq]).
    destruct (veq start (of_start o) >>> veq e (of_end o)) as [[]|c| | |]; try (destruct Kv as [[? Kv]|[? Kv]]; discriminate Kv); [|split; [apply ends_err|exact G]].
    destruct (decode_ends decs o G) as [Kd Gd]. destruct (decode E decs o) as [q d1]. cbn [fst snd] in Kd, Gd. destruct q as [s|c| | |]; try (destruct Kd as [[? Kd]|[? Kd]]; discriminate Kd); [|split; [apply ends_err|exact Gd]].
    destruct (IH (Some e) d1 Gd) as [I1 I2]. destruct (decode_frames E subs start (Some e) fs d1) as [r d]. cbn [fst snd] in *. split; [|exact I2]. apply ends_bind; [exact I1|]. intros. apply ends_ok.
Qed.
(* The end of the unit is the end of one of its frames. *)
Lemma decode_frames_stop subs start : forall fs stop decs x d, decode_frames E subs start stop fs decs = (Ok x, d) ->
  match stop with Some e => snd x = Some e | None => forall e, snd x = Some e -> exists o, In o fs /\ of_start o = start /\ of_end o = e end.
Proof.
  induction fs as [|o fs IH]; intros stop decs x d H; cbn [decode_frames] in H; [injection H as <- _; cbn [snd]; destruct stop; [reflexivity|discriminate]|]. destruct (negb _) eqn:Es.
  - destruct (decode_frames E subs start stop fs decs) as [r d0] eqn:Er. injection H as H _. destruct r as [y|c| | |]; try discriminate H. cbn [rbind] in H. injection H as <-. cbn [snd]. specialize (IH _ _ _ _ Er).
    destruct stop as [e|]; [exact IH|]. intros e He. destruct (IH e He) as (o' & O1 & O2). exists o'. split; [right; exact O1|exact O2].
  - cbv zeta in H. set (e := match stop with Some e => e | None => of_end o end) in *. unfold rthen in H. destruct (veq start (of_start o)) eqn:V1; cbn [rbind] in H; try discriminate H.
    destruct (veq e (of_end o)) eqn:V2; try discriminate H. destruct (decode E decs o) as [q d1]. destruct q as [s|c| | |]; try discriminate H.
    destruct (decode_frames E subs start (Some e) fs d1) as [r d0] eqn:Er. injection H as H _. destruct r as [y|c| | |]; try discriminate H. cbn [rbind] in H. injection H as <-. cbn [snd]. specialize (IH _ _ _ _ Er). cbv iota in IH.
    destruct stop as [e0|]; [exact IH|]. intros e1 He. exists o. split; [left; reflexivity|]. unfold veq, vcond in V1, V2. destruct (Z.eqb_spec start (of_start o)); [|discriminate V1].
    split; [congruence|]. unfold e in IH. congruence.
Qed.
Lemma demix_all_ends fs : forall l, ends (demix_all E l fs).
Proof.
  induction l as [|[id [ks subs]] l IH]; cbn [demix_all]; [apply ends_ok|]. apply ends_bind; [apply C59_total|]. intros o _. apply ends_bind; [exact IH|]. intros. apply ends_ok.
Qed.
Lemma get_samples_ends (f : @finalizer T B) mix sub lay : ends (get_samples f mix sub lay).
Proof. unfold get_samples. destruct (m_find mix f) as [s|]; [|apply ends_err]. destruct (nth_error s sub) as [ls|]; [|apply ends_err]. destruct (nth_error ls lay); [apply ends_ok|apply ends_err]. Qed.
Lemma render_unit_safe (P : pdef -> Prop) (m : @models T B C) u : steady P (rm_fin m) -> good_decs (rm_decs m) -> trims_of_unit u -> gains_in_unit P u ->
  ends (fst (render_unit E m u)) /\ steady P (rm_fin (snd (render_unit E m u))) /\ good_decs (rm_decs (snd (render_unit E m u))).
Proof.
  intros Hs Gd Ht Hg. unfold render_unit. destruct (decode_frames_ends (rm_subs m) (un_time u) (un_frames u) None (rm_decs m) Gd) as [Kd Gd1].
  destruct (decode_frames E (rm_subs m) (un_time u) None (un_frames u) (rm_decs m)) as [r decs] eqn:Ed. cbn [fst snd] in Kd, Gd1.
  destruct r as [[fs stop]|c| | |]; try (destruct Kd as [[? Kd]|[? Kd]]; discriminate Kd); cbn [rbind snd fst rm_fin rm_decs rm_subs]; [|split; [apply ends_err|auto]].
  destruct stop as [e|]; [|cbn [fst snd rm_fin rm_decs rm_subs]; split; [apply ends_err|auto]]. pose proof (demix_all_ends fs (rm_demix m)) as Kx.
  destruct (demix_all E (rm_demix m) fs) as [fr|c| | |] eqn:Ex; try (destruct Kx as [[? Kx]|[? Kx]]; discriminate Kx); cbn [rbind snd fst rm_fin rm_decs rm_subs]; [|split; [apply ends_err|auto]].
  destruct (decode_frames_props _ _ _ _ _ _ _ _ Ed) as [_ D2]. cbn [fst] in D2.
  assert (Forall (fun x : @Demix.frame T => 0 <= f_trim_start x /\ 0 <= f_trim_end x) fs) as Hf. { eapply Forall_impl; [|exact D2]. intros x (o & O1 & O2 & O3). rewrite O2, O3. exact (Ht o O1). }
  destruct (demix_all_props E fs Hf _ _ Ex) as [T1 _]. pose proof (decode_frames_stop _ _ _ _ _ _ _ Ed) as St. cbn [snd] in St. destruct (St e eq_refl) as (o & O1 & O3 & O4).
  destruct (push_safe P (rm_fin m) fr (un_time u) e (un_blocks u) T1 Hs) as [P1 P2]; [intros b d B1 B2 B3 B4 B5 B6; apply (Hg b d o); congruence|].
  destruct (push_unit E (rm_fin m) fr (un_time u) e (un_blocks u)) as [r1 f]. cbn [fst snd rm_fin rm_decs rm_subs] in *. split; [|auto]. apply ends_bind; [exact P1|]. intros _ _. apply get_samples_ends.
Qed.
End Safe.
