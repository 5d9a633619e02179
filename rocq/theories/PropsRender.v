(* C60: what rendering computes.  C61: it depends on the temporal unit only. *)
From Coq Require Import Reals Psatz.
From Verif Require Import Base WriteBuf ObuHeader SimpleObus CodecConfig Params AudioElement MixPresentation Timing ParamManager AeData
  Profile MixSelect PropsParams MixGain PropsGain Processor Demix DemixFacts Render RenderFacts.

Section Spec.
Context {T F B C : Type} (E : renv T F B C).
Notation A := (r_A E).
(* ================= SPEC ================= *)
(* The sample of a channel at tick t of the rendered frame: that of the label, [start_trim] ticks later; an omitted channel is silent. *)
Definition picked (lf : @labeled T) (x : slot) (t : nat) (v : T) : Prop :=
  match x with
  | None => v = zero E
  | Some l => exists s, find_samples l (lf_map lf) = Ok s /\ nth_error s (start_trim E lf + t) = Some v
  end.
(* The value of output channel c at tick t of an audio element, before its gain: the sample of the c-th channel (pass-through) or the
   sum of the samples of the channels, each times the coefficient of column c in its row of the matrix. *)
Definition routed (r : @erend T B) (lf : @labeled T) (c t : nat) (v : T) : Prop :=
  match matrix_of E r (lf_params lf) with
  | None => exists x, nth_error (er_labels r) c = Some x /\ picked lf x t v
  | Some g => exists xs ks, Forall2 (fun x v => picked lf x t v) (er_labels r) xs /\
                Forall2 (fun row k => nth_error row c = Some k) (firstn (length (er_labels r)) g) ks /\ v = weighted E xs ks
  end.
(* ... and with its mix gain. *)
Definition element_value (frames : list (Z * @labeled T)) (blocks : list (Z * pblock)) (c t : nat) (e : @elem T B) (v : T) : Prop :=
  exists lf g x, m_find (el_id e) frames = Some lf /\ gain_at E blocks (el_gain e) t g /\ routed (el_rend e) lf c t x /\ v = r_scale E x g.
(* The audio element lasts n ticks after trimming, neither more nor less. *)
Definition lasts (frames : list (Z * @labeled T)) (n : nat) (e : @elem T B) : Prop :=
  exists lf, m_find (el_id e) frames = Some lf /\
  forall l, In (Some l) (er_labels (el_rend e)) -> exists s, find_samples l (lf_map lf) = Ok s /\ length s = (start_trim E lf + n + end_trim E lf)%nat.
(* The state between two temporal units: no samples are left in a renderer. *)
Definition idle (spf : Z) (e : @elem T B) : Prop :=
  by_loudspeakers (el_rend e) /\ clean (er_out (el_rend e)) /\ Z.of_nat (er_spf (el_rend e)) = spf /\ er_labels (el_rend e) <> [].
Definition ready (l : @lrend T B) : Prop := Forall (idle (lr_spf l)) (lr_els l).

Definition kept (e e' : @elem T B) : Prop := el_id e' = el_id e /\ el_gain e' = el_gain e /\ static (el_rend e) (el_rend e').
Lemma kept_refl e : kept e e. Proof. split; [reflexivity|]. split; [reflexivity|]. apply static_refl. Qed.
Lemma kept_trans a b c : kept a b -> kept b c -> kept a c.
Proof. intros (A1 & A2 & A3) (B1 & B2 & B3). split; [congruence|]. split; [congruence|]. exact (static_trans _ _ _ A3 B3). Qed.
Definition element_out (frames : list (Z * @labeled T)) (blocks : list (Z * pblock)) (chans rate : Z) (e : @elem T B) (out : list (@samples T)) : Prop :=
  exists lf ins n raw, m_find (el_id e) frames = Some lf /\ arranged E (el_rend e) lf = Ok (ins, n) /\
    match matrix_of E (el_rend e) (lf_params lf) with Some g => render_gains E ins g = Ok raw | None => raw = ins end /\
    apply_gain E rate blocks (el_gain e) chans raw = Ok out.
Definition trims (frames : list (Z * @labeled T)) : Prop := forall i lf, m_find i frames = Some lf -> trims_ok lf.
Lemma render_elements_spec frames blocks chans rate spf : trims frames -> forall els x els',
  Forall (idle spf) els -> render_elements E frames blocks chans rate spf els = (x, els') ->
  Forall2 (fun e e' => kept e e' /\ idle spf e') els els' /\
  (x = Ok tt -> (forall e, In e els -> m_find (el_id e) frames <> None) -> Forall2 (fun e e' => element_out frames blocks chans rate e (el_out e')) els els').
Proof.
  intro Ht. induction els as [|e els IH]; intros x els' Hi H; cbn [render_elements] in H.
  - injection H as <- <-. split; constructor.
  - inversion Hi as [|? ? (I1 & I2 & I3 & I4) Hi']; subst x0 l.
    assert (forall l, Forall (idle spf) l -> Forall2 (fun e1 e' : @elem T B => kept e1 e' /\ idle spf e') l l) as Same.
    { induction 1; constructor; auto. split; [apply kept_refl|assumption]. }
    set (q := match m_find (el_id e) frames with Some lf => _ | None => _ end) in H. destruct q as [[r1 rend] out] eqn:Eq. subst q.
    assert (static (el_rend e) rend /\ clean (er_out rend) /\ (r1 = Ok tt -> forall lf, m_find (el_id e) frames = Some lf -> exists ins n,
      arranged E (el_rend e) lf = Ok (ins, n) /\ match matrix_of E (el_rend e) (lf_params lf) with Some g => render_gains E ins g = Ok out | None => out = ins end)) as (S1 & S2 & S3).
    { destruct (m_find (el_id e) frames) as [lf|] eqn:Em.
      - destruct (render_to_layout_spec E _ _ _ _ _ _ _ I1 I2 (Ht _ _ Em) (Z.eq_le_incl _ _ I3) Eq) as (Q1 & Q2 & Q3). split; [exact Q1|]. split; [exact Q2|]. intros Hr lf' [= <-]. exact (Q3 Hr).
      - injection Eq as <- <- <-. split; [apply static_refl|]. split; [exact I2|]. discriminate. }
    assert (forall o, kept e (mkEl (el_id e) (el_gain e) rend o) /\ idle spf (mkEl (el_id e) (el_gain e) rend o)) as K.
    { intro o. split; [split; [reflexivity|]; split; [reflexivity|exact S1]|]. destruct S1 as (T1 & T2 & T3). unfold idle, by_loudspeakers in *. cbn [el_rend]. rewrite T1, T2, T3. auto. }
    destruct (rbind r1 (fun _ => apply_gain E rate blocks (el_gain e) chans out)) as [out1|er| | |] eqn:Ea;
      try (injection H as <- <-; split; [constructor; [apply K|apply Same; exact Hi']|discriminate]).
    destruct (render_elements E frames blocks chans rate spf els) as [r2 t1] eqn:Et. injection H as <- <-.
    destruct (IH _ _ Hi' eq_refl) as (J1 & J2). split; [constructor; [apply K|exact J1]|]. intros -> Hf. constructor; [|apply J2; [reflexivity|intros e0 He0; apply Hf; right; exact He0]].
    destruct r1 as [[]|er| | |]; try discriminate Ea. cbn [rbind] in Ea. specialize (Hf e (or_introl eq_refl)). destruct (m_find (el_id e) frames) as [lf|] eqn:Em; [|congruence].
    destruct (S3 eq_refl lf eq_refl) as (ins & n & Q1 & Q2). exists lf, ins, n, out. cbn [el_out]. auto.
Qed.

Lemma element_out_values frames blocks chans rate e out n c t ch v : trims frames -> er_labels (el_rend e) <> [] -> blocks_fit blocks (el_gain e) ->
  element_out frames blocks chans rate e out -> uniform out n -> nth_error out c = Some ch -> nth_error ch t = Some v ->
  element_value frames blocks c t e v /\ lasts frames n e.
Proof.
  intros Ht Hl Fit (lf & ins & k & raw & Em & Ea & Er & Eg) U Hc Hv. pose proof Ea as Ea0. unfold arranged in Ea. destruct (er_labels (el_rend e)) as [|x0 ls0] eqn:El; [congruence|].
  rewrite <- El in *. destruct (arrange_spec E _ _ _ _ _ (Ht _ _ Em) Ea) as [_ Ar].
  assert (uniform ins k) as Ui. { apply Forall_forall. intros s Hs. apply In_nth_error in Hs as [i Hs]. destruct (forall2_nth _ _ _ _ _ Ar Hs) as (x & _ & full & _ & _ & L & _). exact L. }
  assert (ins <> []) as Hn. { pose proof (forall2_length _ _ _ Ar) as L. intros ->. rewrite El in L. discriminate L. }
  assert (uniform raw k) as Ur. { destruct (matrix_of E (el_rend e) (lf_params lf)) as [g|]; [|subst raw; exact Ui]. destruct (render_gains_spec E _ _ _ _ Ui Hn Er) as (_ & _ & R3).
    apply Forall_forall. intros s Hs. apply In_nth_error in Hs as [i Hs]. exact (proj1 (R3 _ _ Hs)). }
  destruct (apply_gain_spec E _ _ _ _ _ _ _ Ur Eg) as (Ez & El2 & Uo & Val).
  assert (n = k) as ->. { unfold uniform in U, Uo. rewrite Forall_forall in U, Uo. pose proof (nth_error_In _ _ Hc) as Hin. rewrite <- (U _ Hin). apply Uo. exact Hin. }
  assert (t < k)%nat as Ltk. { unfold uniform in U. rewrite Forall_forall in U. rewrite <- (U _ (nth_error_In _ _ Hc)). apply nth_error_Some. congruence. }
  assert (forall x s i, nth_error (er_labels (el_rend e)) i = Some x -> nth_error ins i = Some s -> forall y, nth_error s t = Some y -> picked lf x t y) as Pick.
  { intros x s i Hx Hs y Hy. destruct (forall2_nth _ _ _ _ _ Ar Hs) as (x' & Hx' & full & Sf & -> & L & Lf). rewrite Hx in Hx'. injection Hx' as <-.
    rewrite nth_error_firstn in Hy. destruct (t <? k)%nat; [|discriminate Hy]. rewrite nth_error_skipn in Hy. destruct x as [l|]; cbn [picked source] in *; [eauto|].
    subst full. apply nth_error_In, repeat_spec in Hy. exact Hy. }
  split.
  - assert (exists rc, nth_error raw c = Some rc) as [rc Hrc]. { destruct (nth_error raw c) eqn:Q; [eauto|]. apply nth_error_None in Q. assert (c < length out)%nat by (apply nth_error_Some; congruence). lia. }
    assert (exists y, nth_error rc t = Some y) as [y Hy]. { destruct (nth_error rc t) eqn:Q; [eauto|]. apply nth_error_None in Q. unfold uniform in Ur. rewrite Forall_forall in Ur. pose proof (Ur _ (nth_error_In _ _ Hrc)). lia. }
    destruct (Val Fit c t rc Hrc y Hy) as (ch' & g & Hc' & Gg & Hv'). rewrite Hc in Hc'. injection Hc' as <-. rewrite Hv in Hv'. injection Hv' as ->.
    exists lf, g, y. split; [exact Em|]. split; [exact Gg|]. split; [|reflexivity]. unfold routed. destruct (matrix_of E (el_rend e) (lf_params lf)) as [g0|].
    + destruct (render_gains_spec E _ _ _ _ Ui Hn Er) as (R1 & _ & R3). destruct (R3 _ _ Hrc) as (_ & ks & K1 & K2).
      assert (exists xs, Forall2 (fun s x => nth_error s t = Some x) ins xs) as [xs Hxs].
      { clear - Ui Ltk. induction Ui as [|s l Hs _ [xs IH]]; [exists []; constructor|]. destruct (nth_error s t) as [x|] eqn:Q; [exists (x :: xs); constructor; auto|]. apply nth_error_None in Q. lia. }
      exists xs, ks. rewrite (K2 t xs Ltk Hxs) in Hy. injection Hy as <-. rewrite (forall2_length _ _ _ Ar). split; [|auto].
      pose proof (forall2_length _ _ _ Ar) as L1. clear - Pick Hxs L1. revert L1 Pick. generalize (er_labels (el_rend e)) as ls. induction Hxs as [|s x ins xs Hs Hxs IH]; intros [|a ls] L1 Pick; try discriminate L1; constructor.
      * apply (Pick a s 0%nat); auto.
      * apply IH; [cbn [length] in L1; lia|]. intros x' s' i H1 H2 y Hy. exact (Pick x' s' (S i) H1 H2 y Hy).
    + subst raw. destruct (forall2_nth _ _ _ _ _ Ar Hrc) as (x & Hx & _). exists x. split; [exact Hx|]. exact (Pick x rc c Hx Hrc y Hy).
  - exists lf. split; [exact Em|]. intros l Hin. apply In_nth_error in Hin as [i Hi]. destruct (forall2_nth_l _ _ _ _ _ Ar Hi) as (s & _ & full & Sf & _ & _ & Lf). exists full. auto.
Qed.

(* C60. Rendering a temporal unit to a layout, if it answers: a channel of n samples for each channel of the layout; the sample of
   channel c at tick t is the sum over the audio elements, in order, of their values, times the output gain. *)
Theorem C60_rendered : forall l frames blocks out l1,
  ready l -> trims frames -> (forall e, In e (lr_els l) -> m_find (el_id e) frames <> None) ->
  blocks_fit blocks (lr_gain l) -> (forall e, In e (lr_els l) -> blocks_fit blocks (el_gain e)) ->
  render E l frames blocks = (Ok out, l1) ->
  zlen out = lr_chans l /\ exists n, uniform out n /\ (lr_chans l <> 0 -> n <> O -> Forall (lasts frames n) (lr_els l)) /\
  forall c ch t, nth_error out c = Some ch -> (t < n)%nat ->
    exists g vs, gain_at E blocks (lr_gain l) t g /\ Forall2 (element_value frames blocks c t) (lr_els l) vs /\
                 nth_error ch t = Some (r_scale E (fold_left (a_add A) vs (zero E)) g).
Proof.
  intros l frames blocks out l1 Hr Ht Hf Fo Fe H. unfold render in H. destruct (render_elements E frames blocks (lr_chans l) (lr_rate l) (lr_spf l) (lr_els l)) as [r els] eqn:Ee.
  destruct (render_elements_spec _ _ _ _ _ Ht _ _ _ Hr Ee) as [_ Ou]. injection H as H _. destruct r as [[]|er| | |]; cbn [rbind] in H; try discriminate H. specialize (Ou eq_refl Hf).
  destruct (mix_elements E (map (@el_out T B) els) (lr_chans l) (lr_spf l)) as [m|er| | |] eqn:Em; cbn [rbind] in H; try discriminate H.
  destruct (mix_elements_spec E _ _ _ _ Em) as (n & Zm & Um & Ue & _ & Val). destruct (apply_gain_spec E _ _ _ _ _ _ _ Um H) as (_ & Lo & Uo & Vg).
  split; [unfold zlen in *; lia|]. exists n. split; [exact Uo|].
  assert (forall c t, (c < length m)%nat -> (t < n)%nat -> exists vs, Forall2 (fun (e : list (@samples T)) v => exists ch, nth_error e c = Some ch /\ nth_error ch t = Some v) (map (@el_out T B) els) vs /\
            Forall2 (fun e v => element_value frames blocks c t e v /\ lasts frames n e) (lr_els l) vs) as Vs.
  { intros c t Hc Hk. assert (Forall (fun e => er_labels (el_rend e) <> []) (lr_els l)) as Hl by (eapply Forall_impl; [|exact Hr]; intros e (_ & _ & _ & Q); exact Q).
    assert (zlen m = lr_chans l) as Lm by exact Zm. clear Val Vg H Em Ee. revert Ue Hl Fe. clear Hr Hf. induction Ou as [|e e' l0 l0' He Ou IH]; intros Ue Hl Fe; [exists []; split; constructor|].
    cbn [map] in Ue. inversion Ue as [|? ? [Ue1 Ue2] Ue']; subst. inversion Hl as [|? ? Hl1 Hl']; subst. destruct (IH Ue' Hl' ltac:(intros e0 He0; apply Fe; right; exact He0)) as (vs & I1 & I2).
    assert (exists ch, nth_error (el_out e') c = Some ch) as [ch Hch]. { destruct (nth_error (el_out e') c) eqn:Q; [eauto|]. apply nth_error_None in Q. unfold zlen in *. lia. }
    assert (exists v, nth_error ch t = Some v) as [v Hv]. { destruct (nth_error ch t) eqn:Q; [eauto|]. apply nth_error_None in Q. unfold uniform in Ue2. rewrite Forall_forall in Ue2. pose proof (Ue2 _ (nth_error_In _ _ Hch)). lia. }
    destruct (element_out_values frames blocks (lr_chans l) (lr_rate l) e (el_out e') n c t ch v Ht Hl1 (Fe e (or_introl eq_refl)) He Ue2 Hch Hv) as [V1 V2].
    exists (v :: vs). split; constructor; eauto. }
  split.
  - intros Hc Hn. destruct (Vs 0%nat 0%nat) as (vs & _ & V2); [unfold zlen in *; lia|lia|]. clear - V2. induction V2 as [|e v l0 vs [_ V] _ IH]; constructor; auto.
  - intros c ch t Hc Hk. assert (c < length m)%nat as Lc by (rewrite <- Lo; apply nth_error_Some; congruence).
    destruct (Vs c t Lc Hk) as (vs & V1 & V2). destruct (Val c t vs Lc Hk V1) as (s & Hs & Hst). destruct (Vg Fo c t s Hs _ Hst) as (ch' & g & Hc' & Gg & Hv). rewrite Hc in Hc'. injection Hc' as <-.
    exists g, vs. split; [exact Gg|]. split; [|exact Hv]. clear - V2. induction V2 as [|e v l0 vs [V _] _ IH]; constructor; auto.
Qed.
(* Whatever the answer, the renderer is ready for the next unit, with the same audio elements, gains and channels. *)
Theorem C60_ready : forall l frames blocks x l1, ready l -> trims frames -> render E l frames blocks = (x, l1) ->
  ready l1 /\ Forall2 kept (lr_els l) (lr_els l1) /\ lr_gain l1 = lr_gain l /\ lr_chans l1 = lr_chans l /\ lr_rate l1 = lr_rate l /\ lr_spf l1 = lr_spf l.
Proof.
  intros l frames blocks x l1 Hr Ht H. unfold render in H. destruct (render_elements E frames blocks (lr_chans l) (lr_rate l) (lr_spf l) (lr_els l)) as [r els] eqn:Ee.
  destruct (render_elements_spec _ _ _ _ _ Ht _ _ _ Hr Ee) as [K _]. injection H as _ <-. unfold ready. cbn [lr_els lr_spf lr_gain lr_chans lr_rate]. split; [|split; [|auto]].
  - clear - K. induction K as [|e e' l0 l1 [_ Q] _ IH]; constructor; auto.
  - clear - K. induction K as [|e e' l0 l1 [Q _] _ IH]; constructor; auto.
Qed.
End Spec.

(* ---- exactly, over the real numbers ---- *)
Section Exact.
Context {B C : Type} (E : renv R R B C).
Definition Rsum (l : list R) : R := fold_right Rplus 0%R l.
Definition dot (a b : list R) : R := Rsum (map (fun p => (fst p * snd p)%R) (combine a b)).
(* the mix gain, times the sample of the channel or the sum of the samples with the coefficients of the matrix *)
Definition element_exact (frames : list (Z * @labeled R)) (blocks : list (Z * pblock)) (c t : nat) (e : @elem R B) (v : R) : Prop :=
  exists lf g, m_find (el_id e) frames = Some lf /\ gain_at E blocks (el_gain e) t g /\
  match matrix_of E (el_rend e) (lf_params lf) with
  | None => exists x y, nth_error (er_labels (el_rend e)) c = Some x /\ picked E lf x t y /\ v = (g * y)%R
  | Some m => exists xs ks, Forall2 (fun x v => picked E lf x t v) (er_labels (el_rend e)) xs /\
                Forall2 (fun row k => nth_error row c = Some k) (firstn (length (er_labels (el_rend e))) m) ks /\ v = (g * dot xs ks)%R
  end.
Hypothesis HA : r_A E = exactR.
Hypothesis HS : r_scale E = Rmult.
Lemma fold_sum : forall vs a, fold_left (a_add (r_A E)) vs a = (a + Rsum vs)%R.
Proof. rewrite HA. induction vs as [|v vs IH]; intro a; cbn [fold_left Rsum fold_right]; [lra|]. rewrite IH. unfold Rsum. cbn [exactR a_add]. lra. Qed.
Lemma zero_exact : zero E = 0%R.
Proof. unfold zero. rewrite HA. cbn [exactR a_lit]. lra. Qed.
Lemma weighted_exact xs ks : weighted E xs ks = dot xs ks.
Proof.
  unfold weighted, dot. rewrite zero_exact. generalize (combine xs ks) as l. assert (forall l a, fold_left (fun a p => a_add (r_A E) a (a_mul (r_A E) (fst p) (snd p))) l a = (a + Rsum (map (fun p => (fst p * snd p)%R) l))%R) as K.
  { rewrite HA. induction l as [|p l IH]; intro a; cbn [fold_left map Rsum fold_right]; [lra|]. rewrite IH. unfold Rsum. cbn [exactR a_add a_mul]. lra. }
  intro l. rewrite K. lra.
Qed.
Theorem C60_exact : forall l frames blocks out l1,
  ready l -> trims frames -> (forall e, In e (lr_els l) -> m_find (el_id e) frames <> None) ->
  blocks_fit blocks (lr_gain l) -> (forall e, In e (lr_els l) -> blocks_fit blocks (el_gain e)) ->
  render E l frames blocks = (Ok out, l1) ->
  forall c ch t v, nth_error out c = Some ch -> nth_error ch t = Some v ->
    exists g vs, gain_at E blocks (lr_gain l) t g /\ Forall2 (element_exact frames blocks c t) (lr_els l) vs /\ v = (g * Rsum vs)%R.
Proof.
  intros l frames blocks out l1 Hr Ht Hf Fo Fe H c ch t v Hc Hv. destruct (C60_rendered E l frames blocks out l1 Hr Ht Hf Fo Fe H) as (_ & n & U & _ & Val).
  assert (t < n)%nat as Lt. { unfold uniform in U. rewrite Forall_forall in U. rewrite <- (U _ (nth_error_In _ _ Hc)). apply nth_error_Some. congruence. }
  destruct (Val c ch t Hc Lt) as (g & vs & Gg & Fv & Ev). rewrite Ev in Hv. injection Hv as <-. exists g, vs. split; [exact Gg|]. split; [|rewrite fold_sum, zero_exact, HS; lra].
  clear - Fv HA HS. induction Fv as [|e v l0 vs (lf & k & x & Q1 & Q2 & Q3 & Q4) _ IH]; constructor; [|exact IH].
  exists lf, k. split; [exact Q1|]. split; [exact Q2|]. unfold routed in Q3. rewrite HS in Q4. destruct (matrix_of E (el_rend e) (lf_params lf)) as [m|].
  - destruct Q3 as (xs & ks & P1 & P2 & P3). exists xs, ks. split; [exact P1|]. split; [exact P2|]. rewrite Q4, P3, weighted_exact. lra.
  - destruct Q3 as (y & P1 & P2). exists y, x. split; [exact P1|]. split; [exact P2|]. rewrite Q4. lra.
Qed.
End Exact.

(* ---- examples, with integers for samples and gains ---- *)
Definition Zarith_ : arith Z := mkArith Z Z.add Z.sub Z.mul Z.div Z.div (fun _ => false).
Definition Eex : renv Z Z unit unit :=
  mkRenv Zarith_ (fun x => x) (fun n _ s _ => s + n) (fun _ _ _ _ _ _ => 0) (fun x => x) Z.mul (fun _ _ => Err NotFound) (fun _ _ _ => None) (fun b _ => (Err Unknown, b))
         (fun _ _ => Err Unknown) (fun c _ => (Err Unknown, c)) true true.
Definition gain_ex (id g : Z) (s : option sched) : pdef := mkPD (mkPB id 48000 1 s) (KMixGain g).
Definition s_ex : sched := mkS 4 0 2 [1; 3].
Definition l_ex : @lrend Z unit :=
  mkLr [mkEl 7 (gain_ex 1 10 (Some s_ex)) (mkEr KPass [Some L2; Some R2] 4 [[]; []]) [];
        mkEl 8 (gain_ex 2 3 None) (mkEr (KMatrix 12 0 [[5; 6]]) [Some Mono] 4 [[]; []]) []] (gain_ex 3 1 None) 2 48000 4.
Definition frames_ex : list (Z * @labeled Z) :=
  [(7, mkLf 0 1 [(Orig L2, [1; 2; 3; 4]); (Orig R2, [5; 6; 7; 8])] None); (8, mkLf 0 1 [(Orig Mono, [100; 200; 300; 400])] None)].
Definition block_ex : pblock := mkBlk 1 None [Some (DStep 2); Some (DLinear 20 0)].
(* The hypotheses of C60 hold, and the left channel is 2*2 + 200*5*3, 3*20 + ..., *)
Example C60_ex : ready l_ex /\ trims frames_ex /\ (forall e, In e (lr_els l_ex) -> m_find (el_id e) frames_ex <> None) /\
  blocks_fit [(1, block_ex)] (lr_gain l_ex) /\ (forall e, In e (lr_els l_ex) -> blocks_fit [(1, block_ex)] (el_gain e)) /\
  fst (render Eex l_ex frames_ex [(1, block_ex)]) = Ok [[2 * 2 + 200 * 5 * 3; 3 * 20 + 300 * 5 * 3; 4 * 21 + 400 * 5 * 3]; [6 * 2 + 200 * 6 * 3; 7 * 20 + 300 * 6 * 3; 8 * 21 + 400 * 6 * 3]].
Proof.
  split. { repeat (apply Forall_cons; [split; [exact I|]; split; [repeat constructor|]; split; [reflexivity|discriminate]|]). apply Forall_nil. }
  split. { intros i lf. cbn [m_find frames_ex]. destruct (7 =? i); [intro H; injection H as <-; split; cbn; lia|]. destruct (8 =? i); [intro H; injection H as <-; split; cbn; lia|discriminate]. }
  split. { intros e [<-|[<-|[]]]; vm_compute; discriminate. }
  split. { intros b H. discriminate H. }
  split; [|vm_compute; reflexivity]. intros e [<-|[<-|[]]] b H; [|discriminate H]. injection H as <-. exists s_ex, [1; 3]. split; [reflexivity|]. split.
  { split; [reflexivity|]. split; [vm_compute; split; discriminate|]. split; [repeat constructor; lia|]. split; [reflexivity|]. intro i. unfold subblock_duration, s_ex. cbn [s_num s_const s_list zlen length]. unfold zlen. cbn [length].
    destruct (Z_lt_le_dec i 0); [replace (i <? 0) with true by lia; replace (0 <=? i) with false by lia; reflexivity|]. destruct (Z_lt_le_dec i 2); [|replace (i >=? 2) with true by lia; replace (i <? Z.of_nat 2) with false by lia; rewrite orb_true_r, andb_false_r; reflexivity].
    assert (i = 0 \/ i = 1) as [-> | ->] by lia; reflexivity. }
  split; [reflexivity|]. split; [reflexivity|]. split; [repeat constructor|]. intros [|[|[|i]]] a e c t Hn; discriminate Hn.
Qed.

(* F48. The mix gains are those of the first ticks of the parameter block, although the samples are those after the trimmed ones:
   with one sample trimmed at the start the gain of the first sample kept is that of the first tick of the block (2), not of the
   second (20), and the gain of tick 1 (20) goes to the sample of tick 2. *)
Theorem C60_gains_follow_trimming_refuted :
  ~ (forall l frames blocks out l1, ready l -> trims frames -> (forall e, In e (lr_els l) -> m_find (el_id e) frames <> None) ->
     blocks_fit blocks (lr_gain l) -> (forall e, In e (lr_els l) -> blocks_fit blocks (el_gain e)) -> render Eex l frames blocks = (Ok out, l1) ->
     forall ch t v, nth_error out 0 = Some ch -> nth_error ch t = Some v ->
     exists g vs, gain_at Eex blocks (lr_gain l) t g /\
       Forall2 (fun e v => exists lf g x, m_find (el_id e) frames = Some lf /\ gain_at Eex blocks (el_gain e) (start_trim Eex lf + t) g /\ routed Eex (el_rend e) lf 0 t x /\ v = x * g) (lr_els l) vs /\
       v = fold_left Z.add vs 0 * g).
Proof.
  intro H. destruct C60_ex as (R & T & P & F1 & F2 & Eq). destruct (render Eex l_ex frames_ex [(1, block_ex)]) as [x l1] eqn:Er. cbn [fst] in Eq. subst x.
  destruct (H _ _ _ _ _ R T P F1 F2 Er _ 0%nat _ eq_refl eq_refl) as (g & vs & Hg & Hv & Es). clear H Er.
  inversion Hg as [Q|? ? ? ? ? Q|? ? ? Q]; subst; try discriminate Q. cbn [lr_els l_ex] in Hv.
  inversion Hv as [|? v1 ? vs1 (lf1 & g1 & x1 & M1 & G1 & X1 & ->) Hv1]; subst. inversion Hv1 as [|? v2 ? vs2 (lf2 & g2 & x2 & M2 & G2 & X2 & ->) Hv2]; subst. inversion Hv2; subst. clear Hv Hv1 Hv2.
  injection M1 as <-. injection M2 as <-.
  inversion G2 as [Q2|? ? ? ? ? Q2|? ? ? Q2]; subst; try discriminate Q2.
  destruct X2 as (xs & ks & K1 & K2 & ->). cbn [er_labels el_rend] in K1, K2. inversion K1 as [|? a ? ? A0 K1']; subst; destruct A0 as (s & A1 & A2); subst. inversion K1'; subst. cbn in K2. inversion K2 as [|? k ? ? A3 K2']; subst. inversion K2'; subst.
  cbn in A1, A2, A3. injection A1 as <-. cbn in A2. injection A2 as <-. injection A3 as <-.
  destruct X1 as (y & Y1 & Y2). cbn in Y1. injection Y1 as <-. cbn [picked] in Y2. destruct Y2 as (s & Y2 & Y3). cbn in Y2. injection Y2 as <-. cbn in Y3. injection Y3 as <-.
  assert (g1 = 20) as ->.
  { inversion G1 as [Q1|b s l i g Q1 S1 P1 C1 T1|b s l Q1 S1 P1 T1]; subst; try discriminate Q1; injection Q1 as <-; cbn in S1; injection S1 as <-.
    - destruct P1 as (N1 & N2 & N3 & N4 & N5). unfold zlen in N1. cbn in N1. destruct l as [|a [|b [|? ?]]]; cbn [length] in N1; try lia.
      pose proof (N5 0) as D0. pose proof (N5 1) as D1. cbn in D0, D1. injection D0 as <-. injection D1 as <-.
      destruct C1 as [L1 [S1 S2]]. cbn [length] in L1. assert (i = 0 \/ i = 1)%nat as [-> | ->] by lia; [vm_compute in S2; discriminate S2|]. vm_compute in T1. injection T1 as <-. reflexivity.
    - destruct P1 as (_ & _ & _ & N4 & _). rewrite N4 in T1. vm_compute in T1. congruence. }
  vm_compute in Es. discriminate Es.
Qed.
(* F49. An audio element of which the unit has no frame plays its samples of the previous unit again, with the gains applied once
   more: rendering frames_ex and then a unit without element 8. *)
Theorem C60_missing_element_refuted : let l1 := snd (render Eex l_ex frames_ex []) in
  fst (render Eex l1 [(7, mkLf 0 1 [(Orig L2, [0; 0; 0; 0]); (Orig R2, [0; 0; 0; 0])] None)] []) = Ok [[200 * 5 * 3 * 3; 300 * 5 * 3 * 3; 400 * 5 * 3 * 3]; [200 * 6 * 3 * 3; 300 * 6 * 3 * 3; 400 * 6 * 3 * 3]].
Proof. vm_compute. reflexivity. Qed.
(* F50. A binaural renderer with a projection refuses a frame with trimmed samples, and accepts it without trimming. *)
Definition Eobr : renv Z Z unit unit :=
  mkRenv Zarith_ (fun x => x) (fun n _ s _ => s + n) (fun _ _ _ _ _ _ => 0) (fun x => x) Z.mul (fun _ _ => Err NotFound) (fun _ _ _ => Some tt) (fun b _ => (Ok [repeat 0 4; repeat 0 4], b))
         (fun _ _ => Err Unknown) (fun c _ => (Err Unknown, c)) true true.
Theorem C60_binaural_projection_trim_refuted : let r := mkEr (KBinaural (Some [1]) tt) [Some (LA 0)] 4 [[]; []] in
  forall n, (n <= 4)%nat -> fst (render_labeled Eobr r (mkLf 0 (Z.of_nat n) [(Orig (LA 0), [1; 2; 3; 4])] None)) = (if Nat.eqb n 0 then Ok 4%nat else Err InvalidArgument).
Proof. intros r n Hn. assert (n = 0 \/ n = 1 \/ n = 2 \/ n = 3 \/ n = 4)%nat as [-> |[-> |[-> |[-> | ->]]]] by lia; vm_compute; reflexivity. Qed.
