(* With which down-mixing parameters the frames of the generator are made (C67_parameters, PropsFrameGen). *)
From Verif Require Import PropsTU PropsLabels PropsUnit.
From Verif Require PropsDemix.
From Verif Require Import Base WriteBuf CodecConfig Params AudioElement Timing ParamManager AeData Demix SubFrames FrameGen FrameGenFacts FrameGenSpec FrameGenReturns.
From Coq Require Import Lia.

(* ----- the specification ----- *)
(* parameters which a block holds: those of the mode of its first subblock; the weight follows from the blocks before (C27) *)
Definition from_block (b : pbd) (p : dmix) : Prop := exists mode w rest prev rule, p_subs b = Some (DDemix mode w) :: rest /\ mode_to_params mode prev rule = Ok p.
(* the parameters [p] of a frame of element [id] which ends at [t], the manager of parameters having been given as [m], and frames which
   end at [before] having been made earlier *)
Definition mixed_as (m : pm) (id t : Z) (p : dmix) (before : list Z) : Prop :=
  match m_find id (pm_ds m) with
  | None => p = mkDmix 707 707 707 707 0 0 0 false
  | Some s =>
      match m_find (ds_pid s) (pm_db m) with
      | Some (Some b) => p_stop b = t /\ from_block b p \/ In (p_stop b) before /\ mode_to_params (ds_mode s) (ds_w s) Default = Ok p
      | _ => mode_to_params (ds_mode s) (ds_w s) Default = Ok p
      end
  end.
(* the managers which were given *)
Definition given_pms {T} (m : pm) (calls : list (call T)) : list pm := m :: flat_map (fun c => match c with Params m' _ => [m'] | _ => [] end) calls.
(* one making of frames: element, end of the frame, parameters *)
Definition making := (Z * Z * dmix)%type.
Definition ends_of (H : list making) : list Z := map (fun r => snd (fst r)) H.
Definition part_of {T P} (elems : list (Z * elem)) (r : making) (f : oframe T P) : Prop :=
  o_t1 f = snd (fst r) /\ o_dm f = Some (snd r) /\ exists el, In (fst (fst r), el) elems /\ In (o_id f) (map fst (el_subs el)).
Definition well_made (pms : list pm) (H : list making) : Prop :=
  forall H1 id t p H2, H = H1 ++ (id, t, p) :: H2 -> exists m, In m pms /\ mixed_as m id t p (ends_of H1).

(* ----- the manager ----- *)
Definition same_ds (m m' : pm) : Prop :=
  forall i, match m_find i (pm_ds m), m_find i (pm_ds m') with
            | None, None => True | Some s, Some s' => ds_pid s' = ds_pid s /\ ds_mode s' = ds_mode s /\ ds_w s' = ds_w s | _, _ => False end.
Lemma same_refl : forall m, same_ds m m.
Proof. intros m i. destruct (m_find i (pm_ds m)); auto. Qed.
Lemma same_trans : forall a b c, same_ds a b -> same_ds b c -> same_ds a c.
Proof.
  intros a b c H1 H2 i. specialize (H1 i). specialize (H2 i). destruct (m_find i (pm_ds a)), (m_find i (pm_ds b)), (m_find i (pm_ds c)); try contradiction; auto.
  destruct H1 as (A1 & A2 & A3), H2 as (B1 & B2 & B3). repeat split; congruence.
Qed.
Definition taken (m : pm) (id : Z) (p : dmix) : Prop :=
  match m_find id (pm_ds m) with
  | None => p = mkDmix 707 707 707 707 0 0 0 false
  | Some s => match m_find (ds_pid s) (pm_db m) with
              | Some (Some b) => from_block b p
              | _ => mode_to_params (ds_mode s) (ds_w s) Default = Ok p
              end
  end.
Lemma taken_same : forall m m' id p, same_ds m m' -> pm_db m' = pm_db m -> taken m' id p -> taken m id p.
Proof.
  intros m m' id p H E. specialize (H id). unfold taken. rewrite E. destruct (m_find id (pm_ds m)), (m_find id (pm_ds m')); try contradiction; auto. destruct H as (-> & -> & ->). auto.
Qed.
Lemma set_same : forall m id s s' db, m_find id (pm_ds m) = Some s -> ds_pid s' = ds_pid s -> ds_mode s' = ds_mode s -> ds_w s' = ds_w s -> forall rb rs, same_ds m (mkPm db rb (Timing.m_set id s' (pm_ds m)) rs).
Proof.
  intros m id s s' db F E1 E2 E3 rb rs i. cbn [pm_ds]. rewrite find_set. destruct (Z.eqb_spec id i) as [<- | D]; [rewrite F; auto|]. destruct (m_find i (pm_ds m)); auto.
Qed.
Lemma get_facts : forall m id r m', get_down_mixing m id = (r, m') -> same_ds m m' /\ pm_db m' = pm_db m /\ forall p, r = Ok p -> taken m id p.
Proof.
  intros m id r m' H. unfold get_down_mixing in H. unfold taken. destruct (m_find id (pm_ds m)) as [s|] eqn:F.
  2: { injection H as <- <-. split; [apply same_refl|]. split; [reflexivity|]. intros p E. now injection E as <-. }
  destruct (m_find (ds_pid s) (pm_db m)) as [[b|]|] eqn:Fb.
  - destruct (compare_timestamps (ds_next s) (p_start b)); try (injection H as <- <-; split; [apply same_refl|]; split; [reflexivity | intros; discriminate]).
    destruct (p_subs b) as [|[x|] rest] eqn:Es; try (injection H as <- <-; split; [apply same_refl|]; split; [reflexivity | intros; discriminate]).
    destruct x; try (injection H as <- <-; split; [apply same_refl|]; split; [reflexivity | intros; discriminate]).
    destruct (mode_to_params mode (ds_prev s) (ds_rule s)) as [x| | | |] eqn:Em; injection H as <- <-; try (split; [apply same_refl|]; split; [reflexivity | intros; discriminate]).
    split; [now apply (set_same _ _ s)|]. split; [reflexivity|]. intros p E. injection E as <-. unfold from_block. do 5 eexists. split; [exact Es | exact Em].
  - injection H as <- <-. split; [apply same_refl|]. split; [reflexivity|]. auto.
  - injection H as <- <-. split; [apply same_refl|]. split; [reflexivity|]. discriminate.
Qed.
Definition block_at (m : pm) (id : Z) : option pbd :=
  match m_find id (pm_ds m) with Some s => match m_find (ds_pid s) (pm_db m) with Some (Some b) => Some b | _ => None end | None => None end.
Lemma update_facts : forall m id t m', update_demixing m id t = (Ok tt, m') -> same_ds m m' /\
  (forall b, block_at m id = Some b -> p_stop b = t) /\
  forall pid, m_find pid (pm_db m') = m_find pid (pm_db m) \/ m_find pid (pm_db m') = Some None /\ exists b, m_find pid (pm_db m) = Some (Some b) /\ p_stop b = t.
Proof.
  intros m id t m' H. unfold update_demixing in H. unfold block_at. destruct (m_find id (pm_ds m)) as [s|] eqn:F.
  2: { injection H as <-. split; [apply same_refl|]. split; [discriminate | auto]. }
  unfold update_parameter in H. destruct (m_find (ds_pid s) (pm_db m)) as [[b|]|] eqn:Fb.
  - unfold compare_timestamps, veq, vcond in H. destruct (Z.eqb_spec t (p_stop b)) as [-> | D]; [|discriminate]. injection H as <-. split; [now apply (set_same _ _ s)|].
    split; [intros b' Q; injection Q as <-; reflexivity|]. intro pid. cbn [pm_db]. rewrite find_set. destruct (Z.eqb_spec (ds_pid s) pid) as [<- | D]; [|now left]. rewrite Fb. right. split; [reflexivity|]. eauto.
  - injection H as <-. split; [apply same_refl|]. split; [discriminate | auto].
  - discriminate.
Qed.
(* how the manager of the generator stands to the last one given *)
Definition tracks (m0 m : pm) (before : list Z) : Prop :=
  same_ds m0 m /\ forall pid, m_find pid (pm_db m) = m_find pid (pm_db m0) \/ m_find pid (pm_db m) = Some None /\ exists b, m_find pid (pm_db m0) = Some (Some b) /\ In (p_stop b) before.
Lemma taken_mixed : forall m0 m before id t p, tracks m0 m before -> taken m id p -> (forall b, block_at m id = Some b -> p_stop b = t) -> mixed_as m0 id t p before.
Proof.
  intros m0 m before id t p (H1 & H2) HT HB. specialize (H1 id). unfold taken, block_at, mixed_as in *. destruct (m_find id (pm_ds m0)) as [s|], (m_find id (pm_ds m)) as [s'|]; try contradiction; [|exact HT].
  destruct H1 as (E1 & E2 & E3). rewrite E1, E2, E3 in *. destruct (H2 (ds_pid s)) as [E | (E & b & Eb & Hin)].
  - rewrite E in *. destruct (m_find (ds_pid s) (pm_db m0)) as [[b|]|]; auto.
  - rewrite E in HT. rewrite Eb. now right.
Qed.
Lemma tracks_same : forall m0 m m' before, tracks m0 m before -> same_ds m m' -> pm_db m' = pm_db m -> tracks m0 m' before.
Proof. intros m0 m m' before (H1 & H2) H E. split; [eapply same_trans; eassumption|]. rewrite E. exact H2. Qed.
Lemma tracks_more : forall m0 m b b', tracks m0 m b -> tracks m0 m (b ++ b').
Proof. intros m0 m b b' (H1 & H2). split; [exact H1|]. intro pid. destruct (H2 pid) as [E | (E & x & X1 & X2)]; [now left | right]. split; [exact E|]. exists x. split; [exact X1|]. apply in_app_iff. now left. Qed.
Lemma tracks_update : forall m0 m m' before id t, tracks m0 m before -> update_demixing m id t = (Ok tt, m') -> tracks m0 m' (before ++ [t]).
Proof.
  intros m0 m m' before id t (H1 & H2) U. destruct (update_facts _ _ _ _ U) as (U1 & _ & U3). split; [eapply same_trans; eassumption|]. intro pid. destruct (H2 pid) as [E | (E & x & X1 & X2)].
  - destruct (U3 pid) as [E3 | (E3 & b & B1 & B2)]; [left; congruence|]. right. split; [exact E3|]. exists b. split; [congruence|]. apply in_app_iff. right. left. symmetry. exact B2.
  - right. split; [|exists x; split; [exact X1 | apply in_app_iff; now left]]. destruct (U3 pid) as [E3 | (E3 & _)]; congruence.
Qed.

Lemma well_snoc : forall pms H id t p m, well_made pms H -> In m pms -> mixed_as m id t p (ends_of H) -> well_made pms (H ++ [(id, t, p)]).
Proof.
  intros pms H id t p m HW Hin HM H1 id' t' p' H2 E. destruct (exists_last (l := (id', t', p') :: H2)) as (l & x & El); [discriminate|]. rewrite El, app_assoc in E. apply app_inj_tail in E. destruct E as (E & <-).
  destruct l as [|y l]; cbn [app] in El; injection El as E1 E2.
  - subst. rewrite app_nil_r in *. eauto.
  - subst y. exact (HW H1 id' t' p' l E).
Qed.
Lemma set_keep : forall {V} k (v : V) m j x, In (j, x) m -> In (j, x) (Timing.m_set k v m) \/ m_find k m = Some x /\ In (k, v) (Timing.m_set k v m).
Proof.
  intros V k v. induction m as [|(i, w) m IH]; intros j x []; cbn [Timing.m_set m_find].
  - injection H as -> ->. destruct (Z.eqb_spec j k) as [-> | D]; [right; split; [reflexivity | now left] | left; now left].
  - destruct (Z.eqb_spec i k) as [-> | D]; [left; now right|]. destruct (IH _ _ H) as [Q | (Q1 & Q2)]; [left; now right | right; split; [exact Q1 | now right]].
Qed.

Section Gen.
Context {T P : Type}.
Variable A : arith T.
Variable lin : Z -> T.
Variable quant : T -> res Z.
Variable code : Z -> list (list Z) -> res P.
Notation gen := (gen T P).
Notation oframe := (oframe T P).
Notation coder := (coder T P).
Definition queues (cs : list (Z * coder)) : list oframe := flat_map (fun e => c_queue (snd e)) cs.
Definition queued (g : gen) : list oframe := queues (g_coders g).
Definition fresh_frame (n t : Z) (dm : option dmix) (ls : list Z) (f : oframe) : Prop := o_t1 f = s64 (t + n) /\ o_dm f = dm /\ In (o_id f) ls.
(* nothing was made, or frames of time [t] *)
Definition makes (n : Z) (dm : option dmix) (ls : list Z) (g : gen) (ts : option Z) (g' : gen) (ts' : option Z) : Prop :=
  g' = g /\ ts' = ts \/
  g_pm g' = g_pm g /\ (forall f, In f (queued g) -> In f (queued g')) /\
  exists t, ts' = Some t /\ (ts = None \/ ts = Some t) /\ (exists f, In f (queued g') /\ fresh_frame n t dm ls f) /\ forall f, In f (queued g') -> In f (queued g) \/ fresh_frame n t dm ls f.
Lemma one_makes : forall n sid dm g ts more g' ts' more', encode_one code n sid dm ((g : gen), ts, more) = Ok (g', ts', more') -> makes n dm [sid] g ts g' ts'.
Proof.
  intros n sid dm g ts more g' ts' more' H. unfold encode_one in H. destruct (m_find sid (g_subs g)) as [sd|].
  2: { destruct more; [discriminate|]. injection H as <- <- _. now left. }
  destruct (sf_empty (s_obu sd)); [injection H as <- <- _; now left|]. rb H have Eh. destruct (have <? n); [destruct ts; [discriminate|]; injection H as <- <- _; now left|].
  cbv zeta in H. destruct (next_audio (g_clock g) sid n) as (((r, t0), t1), clock) eqn:En. rs H E1. rs H E2. destruct (m_find sid (g_coders g)) as [c|] eqn:Fc; [|discriminate]. rb H c' Ec. injection H as <- <- _.
  unfold encode_frame in Ec. destruct (finished c); [discriminate|]. rs Ec E3. rb Ec x Ex. injection Ec as <-. set (f := mkOf _ _ _ _ _ _ _ _ _). set (c' := mkCoder _ _ _ _).
  assert (T1 : t1 = s64 (t0 + n)). { unfold next_audio, get_timestamps in En. destruct (m_find sid (g_audio (g_clock g))); [injection En as <- <- _; reflexivity | discriminate En]. }
  right. cbn [g_pm]. split; [reflexivity|].
  assert (Hold : forall f0, In f0 (c_queue c) -> In f0 (c_queue c')) by (intros f0 Hf; cbn [c_queue c']; apply in_app_iff; now left).
  assert (Hnew : forall f0, In f0 (c_queue c') -> In f0 (c_queue c) \/ f0 = f) by (intros f0 Hf; cbn [c_queue c'] in Hf; apply in_app_iff in Hf; destruct Hf as [Hf | [<- | []]]; auto).
  assert (Hset : In (sid, c') (Timing.m_set sid c' (g_coders g))). { destruct (set_keep sid c' (g_coders g) sid c (m_find_In _ _ _ Fc)) as [Q | (_ & Q)]; [|exact Q]. apply (m_find_In sid). rewrite find_set, Z.eqb_refl, Fc. reflexivity. }
  unfold queued. cbn [g_coders]. split.
  - intros f0 Hf. unfold queues in *. apply in_flat_map in Hf. destruct Hf as ((j, y) & H1 & H2). cbn [snd] in H2. destruct (set_keep sid c' _ _ _ H1) as [Q | (Q1 & Q2)]; [apply in_flat_map; exists (j, y); auto|].
    apply in_flat_map. exists (sid, c'). split; [exact Q2|]. apply Hold. congruence.
  - exists t0. split; [reflexivity|]. split; [destruct ts as [t|]; [right; destruct (Z.eqb_spec t t0); [congruence | discriminate] | now left]|].
    assert (FF : fresh_frame n t0 dm [sid] f) by (repeat split; [exact T1 | now left]). split.
    + exists f. split; [|exact FF]. apply in_flat_map. exists (sid, c'). split; [exact Hset|]. cbn [snd c' c_queue]. apply in_app_iff. right. now left.
    + intros f0 Hf. apply in_flat_map in Hf. destruct Hf as ((j, y) & H1 & H2). cbn [snd] in H2. apply in_set in H1. destruct H1 as [(-> & ->) | H1].
      * destruct (Hnew _ H2) as [Q | ->]; [left | now right]. apply in_flat_map. exists (sid, c). split; [now apply m_find_In | exact Q].
      * left. apply in_flat_map. exists (j, y). auto.
Qed.
Lemma fresh_more : forall n t dm ls ls' f, (forall x, In x ls -> In x ls') -> fresh_frame n t dm ls f -> fresh_frame n t dm ls' f.
Proof. intros n t dm ls ls' f HI (H1 & H2 & H3). repeat split; auto. Qed.
Lemma makes_more : forall n dm ls ls' g ts g' ts', (forall x, In x ls -> In x ls') -> makes n dm ls g ts g' ts' -> makes n dm ls' g ts g' ts'.
Proof.
  intros n dm ls ls' g ts g' ts' HI [H | (H1 & H2 & t & H3 & H4 & (f & H5 & H6) & H7)]; [now left | right]. split; [exact H1|]. split; [exact H2|]. exists t. split; [exact H3|]. split; [exact H4|].
  split; [exists f; split; [exact H5 | eapply fresh_more; eassumption]|]. intros f0 Hf. destruct (H7 _ Hf); [now left | right; eapply fresh_more; eassumption].
Qed.
Lemma makes_trans : forall n dm ls a t1 b t2 c t3, makes n dm ls a t1 b t2 -> makes n dm ls b t2 c t3 -> makes n dm ls a t1 c t3.
Proof.
  intros n dm ls a t1 b t2 c t3 [(-> & ->) | (H1 & H2 & t & -> & H4 & (f & H5 & H6) & H7)] K; [exact K|]. destruct K as [(-> & ->) | (K1 & K2 & t' & K3 & K4 & K5 & K7)].
  - right. split; [exact H1|]. split; [exact H2|]. exists t. eauto 10.
  - right. split; [congruence|]. split; [auto|]. assert (t' = t) as -> by (destruct K4; congruence). exists t. split; [exact K3|]. split; [exact H4|]. split; [exact K5|].
    intros f0 Hf. destruct (K7 _ Hf) as [Q | Q]; [apply H7; exact Q | now right].
Qed.
Lemma all_makes : forall n dm ls g ts more g' ts' more', encode_all code n ls dm ((g : gen), ts, more) = Ok (g', ts', more') -> makes n dm (map fst ls) g ts g' ts'.
Proof.
  intros n dm. induction ls as [|(sid, l) ls IH]; intros g ts more g' ts' more' H; cbn [encode_all] in H; [injection H as <- <- _; now left|].
  rb H s E. destruct s as ((g1, ts1), more1). eapply makes_trans; [eapply makes_more; [|exact (one_makes _ _ _ _ _ _ _ _ _ E)]; intros x [<- | []]; now left|].
  eapply makes_more; [|exact (IH _ _ _ _ _ _ H)]. intros x Hx. now right.
Qed.
Lemma all_empty : forall n dm ls g g' ts' more', forallb (fun e => sf_empty (s_obu (snd e))) (g_subs g) = true -> encode_all code n ls dm ((g : gen), None, false) = Ok (g', ts', more') -> ts' = None.
Proof.
  intros n dm ls g g' ts' more' HE. induction ls as [|(sid, l) ls IH]; intros H; cbn [encode_all] in H; [now injection H|].
  assert (E : encode_one code n sid dm (g, None, false) = Ok (g, None, false)).
  { unfold encode_one. destruct (m_find sid (g_subs g)) as [sd|] eqn:F; [|reflexivity]. rewrite forallb_forall in HE. specialize (HE _ (m_find_In _ _ _ F)). cbn [snd] in HE. now rewrite HE. }
  rewrite E in H. cbn [rbind] in H. auto.
Qed.
Definition calm (g g' : gen) : Prop := same_ds (g_pm g) (g_pm g') /\ pm_db (g_pm g') = pm_db (g_pm g).
Lemma calm_trans : forall a b c, calm a b -> calm b c -> calm a c.
Proof. intros a b c (H1 & H2) (H3 & H4). split; [eapply same_trans; eassumption | congruence]. Qed.
Lemma calm_pm : forall a b, g_pm b = g_pm a -> calm a b.
Proof. intros a b E. unfold calm. rewrite E. split; [apply same_refl | reflexivity]. Qed.
Lemma next_params : forall id el m g dm g' dm', next_frame A lin quant id el m (g : gen) dm = Ok (g', dm') -> g_coders g' = g_coders g /\ calm g g' /\
  (g' = g /\ forallb (fun e => sf_empty (s_obu (snd e))) (g_subs g) = true \/ exists p, dm' = Some p /\ taken (g_pm g) id p).
Proof.
  intros id el m g dm g' dm' H. unfold next_frame in H. cbv zeta in H. match type of H with (if ?b then _ else _) = _ => destruct b eqn:C end.
  - injection H as <- _. split; [reflexivity|]. split; [now apply calm_pm|]. left. split; [reflexivity|]. now apply andb_true_iff in C.
  - destruct (get_down_mixing (g_pm g) id) as (r, pm') eqn:Eg. destruct (get_facts _ _ _ _ Eg) as (G1 & G2 & G3). rb H p Ep. rb H subs Em. rb H q Eq1. injection H as <- <-. split; [reflexivity|]. split; [split; assumption|]. right. eauto.
Qed.
Lemma loop_params : forall id el fuel m dm g g' o, encode_loop A lin quant code fuel id el m dm (g : gen) = Ok (g', o) -> calm g g' /\
  match o with
  | None => queued g' = queued g
  | Some t => exists p, taken (g_pm g) id p /\ (forall f, In f (queued g) -> In f (queued g')) /\ (exists f, In f (queued g') /\ fresh_frame (el_n el) t (Some p) (map fst (el_subs el)) f) /\
              forall f, In f (queued g') -> In f (queued g) \/ fresh_frame (el_n el) t (Some p) (map fst (el_subs el)) f
  end.
Proof.
  intros id el. induction fuel as [|fuel IH]; intros m dm g g' o H; cbn [encode_loop] in H; [discriminate|]. rb H r E. destruct r as (g1, dm1). destruct (next_params _ _ _ _ _ _ _ E) as (N1 & N2 & N3). cbn [fst snd] in H.
  rb H s Es. destruct s as ((g2, ts), more). pose proof (all_makes _ _ _ _ _ _ _ _ _ Es) as M.
  assert (Q1 : queued g1 = queued g) by (unfold queued; now rewrite N1).
  destruct ts as [t|].
  - injection H as <- <-. destruct M as [(_ & M) | (M1 & M2 & t' & M3 & _ & M5 & M6)]; [discriminate|]. injection M3 as <-. split; [eapply calm_trans; [exact N2 | now apply calm_pm]|].
    destruct N3 as [(-> & N3) | (p & -> & N3)]; [apply (all_empty _ _ _ _ _ _ _ N3) in Es; discriminate|]. exists p. rewrite Q1 in *. auto.
  - destruct M as [(-> & _) | (_ & _ & t' & M3 & _)]; [|discriminate]. destruct more; [|injection H as <- <-; auto].
    destruct (IH _ _ _ _ _ H) as (I1 & I2). split; [eapply calm_trans; eassumption|]. destruct o as [t|]; [|congruence]. destruct I2 as (p & I2 & I3 & I4 & I5). exists p. rewrite Q1 in *. split; [|auto].
    destruct N2 as (X1 & X2). eapply taken_same; eassumption.
Qed.
(* the state, and the frames which were output: every frame belongs to a making, every making is about frames *)
Variable cf : cfg.
Variable pms : list pm.
Definition accounted (g : gen) (fs : list oframe) : Prop :=
  exists H m0, In m0 pms /\ tracks m0 (g_pm g) (ends_of H) /\ well_made pms H /\
    (forall f, In f (queued g ++ fs) -> exists r, In r H /\ part_of (cf_elems cf) r f) /\ (forall r, In r H -> exists f, In f (queued g ++ fs) /\ part_of (cf_elems cf) r f).
Lemma accounted_calm : forall g g' fs, accounted g fs -> calm g g' -> queued g' = queued g -> accounted g' fs.
Proof. intros g g' fs (H & m0 & H1 & H2 & H3 & H4) (C1 & C2) Q. exists H, m0. split; [exact H1|]. split; [eapply tracks_same; eassumption|]. split; [exact H3|]. rewrite Q. exact H4. Qed.
Lemma maybe_params : forall id el labels g g' fs, In (id, el) (cf_elems cf) -> accounted g fs -> maybe_encode A lin quant code id el labels (g : gen) = Ok g' -> accounted g' fs.
Proof.
  intros id el labels g g' fs Hel (H & m0 & H1 & H2 & H3 & H4 & H5) R. unfold maybe_encode in R. destruct (ready None _ labels); cbn [negb] in R; [|injection R as <-; exists H, m0; auto].
  destruct (_ =? _); cbn [negb] in R; [|discriminate]. rb R q E. destruct q as (g1, o). destruct (loop_params _ _ _ _ _ _ _ _ E) as (L1 & L2). cbn [fst snd] in R. cbv zeta in R.
  set (g2 := set_in id (emptied (in_of id g)) g1) in *. assert (Q2 : queued g2 = queued g1 /\ g_pm g2 = g_pm g1) by (split; reflexivity). destruct Q2 as (Q2 & P2).
  destruct o as [t|]; [|injection R as <-; apply (accounted_calm g); [exists H, m0; auto | exact L1 | congruence]].
  destruct (update_demixing (g_pm g2) id (s64 (t + el_n el))) as (q, pm') eqn:U. rs R Eq1. injection R as <-. destruct L2 as (p & L2 & L3 & (f & L4 & L5) & L6).
  assert (TR : tracks m0 (g_pm g2) (ends_of H)) by (rewrite P2; destruct L1; eapply tracks_same; eassumption).
  destruct (update_facts _ _ _ _ U) as (_ & U2 & _).
  assert (PF : forall f0, fresh_frame (el_n el) t (Some p) (map fst (el_subs el)) f0 -> part_of (cf_elems cf) (id, s64 (t + el_n el), p) f0) by (intros f0 (F1 & F2 & F3); split; [exact F1|]; split; [exact F2|]; exists el; auto).
  exists (H ++ [(id, s64 (t + el_n el), p)]), m0. split; [exact H1|]. split; [|split; [|split]].
  - unfold ends_of. rewrite map_app. cbn [map fst snd g_pm]. apply (tracks_update _ _ _ _ _ _ TR U).
  - apply (well_snoc _ _ _ _ _ m0); [exact H3 | exact H1|]. apply (taken_mixed m0 (g_pm g)); [exact H2 | exact L2|]. intros b Hb. apply U2. rewrite P2. destruct L1 as (C1 & C2). unfold block_at in *. rewrite C2.
    specialize (C1 id). destruct (m_find id (pm_ds (g_pm g))), (m_find id (pm_ds (g_pm g1))); try contradiction; [|discriminate]. destruct C1 as (-> & _). exact Hb.
  - intros f0 Hf. apply in_app_iff in Hf. destruct Hf as [Hf | Hf].
    + change (In f0 (queued g1)) in Hf. destruct (L6 _ Hf) as [Q | Q]; [|exists (id, s64 (t + el_n el), p); split; [apply in_app_iff; right; now left | now apply PF]].
      destruct (H4 f0) as (r & R1 & R2); [apply in_app_iff; now left|]. exists r. split; [apply in_app_iff; now left | exact R2].
    + destruct (H4 f0) as (r & R1 & R2); [apply in_app_iff; now right|]. exists r. split; [apply in_app_iff; now left | exact R2].
  - intros r Hr. apply in_app_iff in Hr. destruct Hr as [Hr | [<- | []]].
    + destruct (H5 _ Hr) as (f0 & R1 & R2). exists f0. split; [|exact R2]. apply in_app_iff in R1. apply in_app_iff. destruct R1 as [R1 | R1]; [left; now apply L3 | now right].
    + exists f. split; [apply in_app_iff; now left | now apply PF].
Qed.
(* OutputFrames *)
Definition same_made (f f' : oframe) : Prop := o_id f' = o_id f /\ o_t1 f' = o_t1 f /\ o_dm f' = o_dm f.
Lemma part_same : forall elems r f f', same_made f f' -> part_of elems r f -> part_of elems r f'.
Proof. intros elems r f f' (S1 & S2 & S3) (H1 & H2 & H3). unfold part_of. rewrite S1, S2, S3. auto. Qed.
Lemma trim_same : forall n last tr f tr' f', @apply_trim T P n last tr f = Ok (tr', f') -> same_made f f'.
Proof.
  intros n last tr f tr' f' H. unfold apply_trim in H. rb H a Ea. destruct a as ((ls, ks), fl). destruct last; [rb H b Eb; destruct b as ((le, ke), fl2)|]; injection H as _ <-; repeat split.
Qed.
Lemma pop_made : forall l trs cs trs' fs, pop_all cf (l : list (Z * coder)) trs = Ok (cs, trs', fs) ->
  (forall f, In f (queues l) -> exists f', In f' (queues cs ++ fs) /\ same_made f f') /\ (forall f', In f' (queues cs ++ fs) -> exists f, In f (queues l) /\ same_made f f').
Proof.
  induction l as [|(sid, c) l IH]; intros trs cs trs' fs H; cbn [pop_all] in H; [injection H as <- _ <-; split; intros ? []|].
  destruct (c_queue c) as [|f0 q] eqn:Ec; [discriminate|]. destruct (m_find sid trs) as [tr|]; [|discriminate]. cbv zeta in H. rb H n En. rb H a Ea. rb H r Er. destruct r as ((cs1, trs1), fs1). injection H as <- _ <-. destruct a as (tr2, f2). cbn [snd fst] in *.
  pose proof (trim_same _ _ _ _ _ _ Ea) as ST. destruct (IH _ _ _ _ Er) as (I1 & I2). unfold queues in *. cbn [flat_map snd c_queue]. rewrite Ec. split.
  - intros f [<- | Hf]; [exists f2; split; [rewrite <- app_assoc; apply in_app_iff; right; apply in_app_iff; right; now left | exact ST]|].
    apply in_app_iff in Hf. destruct Hf as [Hf | Hf]; [exists f; split; [rewrite <- app_assoc; apply in_app_iff; now left | repeat split]|].
    destruct (I1 _ Hf) as (f' & J1 & J2). exists f'. split; [|exact J2]. rewrite <- app_assoc. apply in_app_iff. right. apply in_app_iff in J1. apply in_app_iff. destruct J1; [now left | right; now right].
  - intros f' Hf. rewrite <- app_assoc in Hf. apply in_app_iff in Hf. destruct Hf as [Hf | Hf]; [exists f'; split; [right; apply in_app_iff; now left | repeat split]|].
    apply in_app_iff in Hf. destruct Hf as [Hf | [<- | Hf]]; [|exists f0; split; [now left | exact ST]|];
      (destruct (I2 f') as (f & J1 & J2); [apply in_app_iff; auto|]; exists f; split; [right; apply in_app_iff; now right | exact J2]).
Qed.
Lemma finish_queues : forall l (subs : list (Z * sub T)), queues (fst (finish_coders (l : list (Z * coder)) subs)) = queues l.
Proof.
  induction l as [|(sid, c) l IH]; intros subs; cbn [finish_coders]; [reflexivity|]. unfold queues in *. destruct (m_find sid subs) as [sd|]; [destruct (sf_empty (s_obu sd))|].
  - pose proof (IH (m_del sid subs)) as Q. destruct (finish_coders l (m_del sid subs)). cbn [fst flat_map snd c_queue] in *. congruence.
  - pose proof (IH subs) as Q. destruct (finish_coders l subs). cbn [fst flat_map snd] in *. congruence.
  - pose proof (IH subs) as Q. destruct (finish_coders l subs). cbn [fst flat_map snd] in *. congruence.
Qed.
Lemma left_queues : forall l, queues (filter (fun e => negb (finished (snd e))) (l : list (Z * coder))) = queues l.
Proof.
  induction l as [|(sid, c) l IH]; [reflexivity|]. unfold queues in *. cbn [filter snd]. destruct (finished c) eqn:E; cbn [negb flat_map snd]; [|now rewrite IH].
  unfold finished in E. apply andb_true_iff in E. destruct E as (_ & E). destruct (c_queue c); [exact IH | discriminate].
Qed.
Lemma flush_params : forall ls g g' fs, (forall id el, In (id, el) ls -> In (id, el) (cf_elems cf)) -> accounted g fs -> flush_elems A lin quant code cf ls (g : gen) = Ok g' -> accounted g' fs.
Proof.
  induction ls as [|(id, el) ls IH]; intros g g' fs HI HA H; cbn [flush_elems] in H; [injection H as <-; exact HA|]. destruct (m_find id (cf_labels cf)) as [labels|]; [|discriminate]. rb H g1 E.
  apply (IH g1); [intros; apply HI; now right | | exact H]. eapply maybe_params; [apply HI; now left | exact HA | exact E].
Qed.
Lemma output_params : forall g g' fs new, accounted g fs -> output_frames A lin quant code cf (g : gen) = Ok (g', new) -> accounted g' (fs ++ new).
Proof.
  intros g g' fs new HA H. unfold output_frames in H. rb H g1 E1.
  assert (A1 : accounted g1 fs).
  { destruct (g_stage g); [injection E1 as <-; exact HA | injection E1 as <-; exact HA | eapply flush_params; [|exact HA | exact E1]; auto]. }
  clear E1 HA. destruct (match g_stage g1 with Flushing => _ | _ => _ end) as (cs, subs) eqn:Ef. rb H r Er. destruct r as ((cs2, trs), fs2). injection H as <- <-.
  assert (Qf : queues cs = queued g1).
  { unfold queued. destruct (g_stage g1); [injection Ef as <- _; reflexivity | injection Ef as <- _; reflexivity|]. rewrite <- (finish_queues (g_coders g1) (g_subs g1)), Ef. reflexivity. }
  assert (K : (forall f, In f (queues cs) -> exists f', In f' (queues cs2 ++ fs2) /\ same_made f f') /\ (forall f', In f' (queues cs2 ++ fs2) -> exists f, In f (queues cs) /\ same_made f f')).
  { destruct (forallb _ cs); [exact (pop_made _ _ _ _ _ Er)|]. injection Er as <- _ <-. rewrite app_nil_r. split; intros f Hf; exists f; repeat split; auto. }
  destruct K as (K1 & K2). rewrite Qf in *. destruct A1 as (H & m0 & H1 & H2 & H3 & H4 & H5). exists H, m0. split; [exact H1|]. split; [exact H2|]. split; [exact H3|]. unfold queued. cbn [g_coders]. rewrite left_queues. split.
  - intros f Hf. assert (Hf' : In f (queues cs2 ++ fs2) \/ In f fs) by (rewrite !in_app_iff in *; tauto). destruct Hf' as [Hf' | Hf'].
    + destruct (K2 _ Hf') as (f0 & J1 & J2). destruct (H4 f0) as (r & R1 & R2); [apply in_app_iff; now left|]. exists r. split; [exact R1 | eapply part_same; eassumption].
    + apply H4. apply in_app_iff. now right.
  - intros r Hr. destruct (H5 _ Hr) as (f & J1 & J2). apply in_app_iff in J1. destruct J1 as [J1 | J1].
    + destruct (K1 _ J1) as (f' & J3 & J4). exists f'. split; [rewrite !in_app_iff in *; tauto | eapply part_same; eassumption].
    + exists f. split; [rewrite !in_app_iff; tauto | exact J2].
Qed.
Lemma session_params : forall cs g fs s', (forall m times, In (Params m times) cs -> In m pms) -> accounted g fs -> session A lin quant code cf cs ((g : gen), fs) = Ok s' -> accounted (fst s') (snd s').
Proof.
  induction cs as [|c cs IH]; intros g fs s' HP HA H; cbn [session] in H; [injection H as <-; exact HA|]. rb H s E. destruct s as (g1, fs1). apply (IH g1 fs1); [intros m times Hin; apply (HP m times); now right | | exact H]. clear IH H.
  destruct c as [id l xs | | | m times]; cbn [call_step fst snd] in E.
  - rb E g2 E2. injection E as <- <-. unfold add_samples in E2. destruct (g_stage g); try (injection E2 as <-; exact HA). destruct (FrameGen.nil xs); [discriminate|]. destruct (m_find id (cf_labels cf)) as [labels|]; [|discriminate].
    destruct (m_find id (cf_elems cf)) as [el|] eqn:F; [|discriminate]. eapply maybe_params; [exact (m_find_In _ _ _ F) | | exact E2]. exact HA.
  - injection E as <- <-. unfold finalize. destruct (g_stage g); exact HA.
  - rb E r Er. destruct r as (g2, new). injection E as <- <-. eapply output_params; eassumption.
  - injection E as <- <-. destruct HA as (H & m0 & _ & _ & H3 & H4 & H5). exists H, m. split; [apply (HP m times); now left|]. split; [|auto]. split; [apply same_refl | now left].
Qed.
End Gen.
Lemma coders_empty : forall {T P} delay elems ms cs cs', (forall e, In e cs -> c_queue (snd e) = []) -> @coders_of T P delay elems ms cs = Ok cs' -> forall e, In e cs' -> c_queue (snd e) = [].
Proof.
  intros T P delay elems. induction ms as [|me ms IH]; intros cs cs' HC H; cbn [coders_of] in H; [injection H as <-; exact HC|]. destruct (m_find (me_id me) elems) as [el|]; [|discriminate]. rb H c1 E. apply (IH c1); [|exact H]. clear IH H.
  revert cs HC E. induction (el_subs el) as [|(sid, l) ls IH]; intros cs HC E; cbn [make_coders] in E; [injection E as <-; exact HC|]. destruct (_ || _); [|discriminate]. rb E d Ed. eapply IH; [|exact E].
  intros e He. unfold m_put in He. destruct (m_find sid cs).
  - destruct e as (j, x). apply in_set in He. destruct He as [(-> & _) | He]; [reflexivity | now apply (HC _ He)].
  - apply in_app_iff in He. destruct He as [He | [<- | []]]; [now apply HC | reflexivity].
Qed.
Lemma create_accounted : forall {T P} (A : arith T) delay typed elems ms m clock cf g pms, @create T P A delay typed elems ms m clock = Ok (cf, g) -> In m pms -> accounted cf pms g [] /\ (cf_elems cf = elems \/ cf_elems cf = []).
Proof.
  intros T P A delay typed elems ms m clock cf g pms H Hin. unfold create in H. destruct ms as [|first ms0].
  - injection H as <- <-. split; [|now right]. exists [], m. split; [exact Hin|]. split; [split; [apply same_refl | now left]|]. split; [intros [] ? ? ? ? Q; discriminate Q|]. split; [intros ? [] | intros ? []].
  - cbv zeta in H. rb H cs Ec. rb H s Es. destruct s as ((labs, subs), trs). injection H as <- <-. split; [|now left]. exists [], m. split; [exact Hin|]. split; [split; [apply same_refl | now left]|]. split; [intros [] ? ? ? ? Q; discriminate Q|].
    pose proof (coders_empty _ _ _ _ _ (fun e (Q : In e []) => match Q with end) Ec) as CE. split; [|intros ? []]. intros f Hf. exfalso. unfold queued, queues in Hf. cbn [g_coders] in Hf. rewrite app_nil_r in Hf.
    apply in_flat_map in Hf. destruct Hf as (e & He & Hf). rewrite (CE _ He) in Hf. destruct Hf.
Qed.
