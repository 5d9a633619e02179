(* Rendering never crashes: the steps. *)
From Verif Require Import Base WriteBuf ObuHeader SimpleObus CodecConfig Params AudioElement MixPresentation Timing ParamManager AeData
  Profile MixSelect PropsParams MixGain PropsGain Processor Demix DemixFacts PropsDemix Render RenderFacts PropsRender PropsHistory.

(* ================= SPEC ================= *)
(* A parameter block with a subblock of mix gain data for each subblock of its schedule, as the parser makes them; of at most 2^30 ticks *)
Definition gain_block (d : pdef) (b : pblock) : Prop :=
  exists s l, schedule_of d b = Some s /\ partitioned_as s l /\ length (bl_subs b) = length l /\ Forall is_gain_data (bl_subs b) /\ total l <= 2^30.
Definition gain_blocks (blocks : list (Z * pblock)) (d : pdef) : Prop :=
  forall b, m_find (pb_id (pd_base d)) blocks = Some b -> pd_type (pd_kind d) = 0 -> gain_block d b.
Definition rect {X} (g : list (list X)) : Prop := exists w, Forall (fun row => length row = w) g.

Section Safe.
Context {T F B C : Type} (E : renv T F B C).
Notation chan := (@samples T).
(* What is asked of the parts outside the model: the precomputed matrices are rectangular; the codecs and the binaural library
   answer, and the latter with channels of at least the number of samples it was given.  [K]: the decoders which are created. *)
Record tame (K : C -> Prop) : Prop := mkTame {
  tame_table : forall i k, ends (r_table E i k) /\ forall g, r_table E i k = Ok g -> rect g;
  tame_obr : forall b ins, ends (fst (r_obr E b ins)) /\ forall o, fst (r_obr E b ins) = Ok o -> Forall (fun s : chan => (first_ticks ins <= length s)%nat) o;
  tame_newdec : forall c n, ends (r_newdec E c n) /\ forall d, r_newdec E c n = Ok d -> K d;
  tame_decode : forall c x, K c -> ends (fst (r_decode E c x)) /\ K (snd (r_decode E c x)) }.
Variable Fine : C -> Prop.
Hypothesis Et : tame Fine.

(* ---- mix gains ---- *)
Lemma fill_ends step linear bezier tolin dur l subs : (forall i, (i < length l)%nat -> dur (Z.of_nat i) = Ok (nth i l 0)) -> Forall (fun d => 0 < d) l ->
  length subs = length l -> Forall is_gain_data subs -> short_curves subs l ->
  forall old t0 i, (i < length l)%nat -> start_of l i <= t0 ->
  ends (fst (fill F step linear bezier tolin (length l) dur (zlen l) subs old t0 (Z.of_nat i) (start_of l i) (start_of l (S i)))).
Proof.
  intros D P L G Sh. induction old as [|x old IH]; intros t0 i Hi Ht; cbn [fill]; [apply ends_ok|].
  destruct (advance_spec dur l D P (length l) t0 i Hi ltac:(lia) Ht) as [(j & Cj & ->)|[_ ->]]; [|apply ends_ok].
  pose proof Cj as [Lj Rj]. rewrite Nat2Z.id. destruct (nth_error subs j) as [o|] eqn:Ej; [|apply nth_error_None in Ej; lia].
  rewrite Forall_forall in G. specialize (G _ (nth_error_In _ _ Ej)). destruct o as [dt|]; [|destruct G].
  assert (exists g, interpolate F step linear bezier dt (start_of l j) (start_of l (S j)) t0 = Ok g) as [g ->].
  { unfold interpolate. replace ((t0 <? start_of l j) || (t0 >? start_of l (S j)) || (start_of l j >? start_of l (S j))) with false by lia. cbv zeta. destruct dt; try destruct G; eauto. rewrite start_S. specialize (Sh j _ _ _ _ Ej). replace (start_of l j + nth j l 0 - start_of l j >? 2^30) with false by lia. eauto. }
  specialize (IH (t0 + 1) j Lj ltac:(lia)). destruct (fill _ _ _ _ _ _ _ _ _ old _ _ _ _). exact IH.
Qed.
Lemma linear_ends step linear bezier tolin d b old : (pd_type (pd_kind d) = 0 -> gain_block d b) -> ends (fst (linear_mix_gains F step linear bezier tolin d b old)).
Proof.
  intro H. unfold linear_mix_gains. destruct (Z.eqb_spec (pd_type (pd_kind d)) 0) as [Ty|Ty]; cbn [negb]; [|apply ends_err]. destruct (H Ty) as (s & l & Sc & Pt & Ls & Gs & Sm). clear H.
  destruct Pt as (Ln & Lr & Pos & Tot & Dur). assert (short_curves (bl_subs b) l) as Sh.
  { intros i a e c t Hi. assert (i < length l)%nat as Hl by (rewrite <- Ls; apply nth_error_Some; congruence). clear - Pos Sm Hl. assert (forall m, Forall (fun d => 0 < d) m -> 0 <= total m /\ forall k, nth k m 0 <= total m) as Q.
    { induction 1 as [|x m Hx Hm IH]; unfold total in *; cbn [fold_right]; [split; [lia|]; intros [|k]; cbn; lia|]. destruct IH as [I1 I2]. split; [lia|]. intros [|k]; cbn [nth]; [lia|]. specialize (I2 k). lia. }
    pose proof (proj2 (Q l Pos) i). lia. }
  assert (forall i, MixGain.block_duration d b i = subblock_duration s i) as BD. { intro i. unfold MixGain.block_duration, schedule_of in *. destruct (bl_sched b); [congruence|]. rewrite Sc. reflexivity. }
  assert (block_num d b = zlen l) as BN. { rewrite Ln. unfold block_num, schedule_of in *. destruct (bl_sched b); [congruence|]. unfold pb_num. rewrite Sc. reflexivity. }
  rewrite (BD 0), Dur. replace ((0 <=? 0) && (0 <? zlen l)) with true by lia. change (Z.to_nat 0) with 0%nat. rewrite BN. unfold zlen at 1. rewrite Nat2Z.id.
  pose proof (fill_ends step linear bezier tolin (MixGain.block_duration d b) l (bl_subs b)) as K.
  replace (nth 0 l 0) with (start_of l 1) by (rewrite start_S; unfold start_of; cbn [firstn]; unfold total; cbn [fold_right]; lia).
  change 0 with (Z.of_nat 0) at 2. replace (0) with (start_of l 0) at 3 by (unfold start_of; cbn [firstn]; unfold total; reflexivity). unfold zlen in *.
  apply K; auto; [|lia|unfold start_of; cbn [firstn]; unfold total; cbn [fold_right]; lia].
  intros i Hi. rewrite BD, Dur. unfold zlen. replace ((0 <=? Z.of_nat i) && (Z.of_nat i <? Z.of_nat (length l))) with true by lia. rewrite Nat2Z.id. reflexivity.
Qed.
Lemma gains_ends rate blocks d n : gain_blocks blocks d -> ends (gains_per_tick E rate blocks d n).
Proof.
  intro H. unfold gains_per_tick. destruct (negb _); [apply ends_err|]. cbv zeta. destruct (m_find (pb_id (pd_base d)) blocks) as [b|] eqn:Eb; [|apply ends_ok].
  pose proof (linear_ends (r_step E) (r_linear E) (r_bezier E) (r_tolin E) d b (repeat (r_tolin E (r_step E (default_gain d))) n) (H b Eb)) as K. destruct (linear_mix_gains _ _ _ _ _ _ _ _) as [r g]. cbn [fst] in K.
  destruct K as [[[] ->]|[e ->]]; [apply ends_ok|apply ends_err].
Qed.
Lemma rmap_ends {X Y} (f : X -> res Y) l : (forall x, In x l -> ends (f x)) -> ends (rmap f l).
Proof. induction l as [|x l IH]; intro H; cbn [rmap]; [apply ends_ok|]. apply ends_bind; [apply H; left; reflexivity|]. intros y _. apply ends_bind; [apply IH; intros z Hz; apply H; right; exact Hz|]. intros. apply ends_ok. Qed.
Lemma apply_gain_ends rate blocks d chans out n : gain_blocks blocks d -> uniform out n -> ends (apply_gain E rate blocks d chans out).
Proof.
  intros H U. unfold apply_gain, rthen. apply ends_bind; [apply ends_veq|]. intros _ _. apply ends_bind; [apply gains_ends; exact H|]. intros g Hg. apply gains_length in Hg.
  apply rmap_ends. intros s Hs. unfold scale_channel. unfold uniform in U. rewrite Forall_forall in U. assert (length g = length s) as Lg. { rewrite Hg, (U s Hs). destruct out as [|s0 out]; [destruct Hs|]. apply U. left. reflexivity. }
  rewrite Lg, Nat.ltb_irrefl. apply ends_ok.
Qed.

(* ---- arranging ---- *)
Lemma raw_ticks_ends ls (m : @smap T) : forall n, ends (raw_ticks ls m n).
Proof.
  induction ls as [|[l|] ls IH]; intro n; cbn [raw_ticks]; [apply ends_ok| |apply IH]. apply ends_bind; [apply find_ends|]. intros s _. destruct n as [k|]; [|apply IH]. destruct (Nat.eqb _ _); [apply IH|apply ends_err].
Qed.
Lemma arrange_ends lf ls empty : trims_ok lf -> ends (arrange E lf ls empty).
Proof.
  intro Ht. unfold arrange. apply ends_bind.
  - unfold trimmed_ticks. apply ends_bind; [apply raw_ticks_ends|]. intros [n|] _; [|apply ends_err]. destruct (Nat.ltb _ _); [apply ends_err|]. cbv zeta. destruct (_ >=? _); [apply ends_err|]. destruct (_ <? _); [apply ends_err|apply ends_ok].
  - intros n Hn. destruct (trimmed_spec E _ _ _ _ Ht Hn) as (raw & Hr & Hl & Hs). apply ends_bind; [|intros; apply ends_ok]. apply rmap_ends. intros [l|] Hx.
    + destruct (Hs l Hx) as (s & -> & Ls). cbn [rbind]. unfold subspan. fold (start_trim E lf). replace (Nat.ltb (length s) (start_trim E lf)) with false by (symmetry; apply Nat.ltb_ge; lia). apply ends_ok.
    + cbn [rbind]. unfold subspan. fold (start_trim E lf). rewrite repeat_length. replace (Nat.ltb empty (start_trim E lf)) with false by (symmetry; apply Nat.ltb_ge; lia). apply ends_ok.
Qed.
Lemma arranged_ends r lf : trims_ok lf -> ends (arranged E r lf).
Proof. intro Ht. unfold arranged. destruct (er_labels r); [apply ends_ok|apply arrange_ends; exact Ht]. Qed.
Lemma arranged_uniform r lf ins n : trims_ok lf -> arranged E r lf = Ok (ins, n) -> uniform ins n /\ (n <= er_spf r)%nat.
Proof.
  intros Ht H. split; [|exact (arranged_le E _ _ _ _ Ht H)]. unfold arranged in H. destruct (er_labels r) as [|x ls]; [injection H as <- <-; constructor|].
  destruct (arrange_spec E _ _ _ _ _ Ht H) as [_ Ar]. apply Forall_forall. intros s Hs. apply In_nth_error in Hs as [i Hs]. destruct (forall2_nth _ _ _ _ _ Ar Hs) as (x0 & _ & full & _ & _ & L & _). exact L.
Qed.

(* ---- mixing by a matrix ---- *)
Lemma mix_in_ends o : forall ins g acc, Forall (fun row : list T => (o < length row)%nat) g -> ends (mix_in E ins g o acc).
Proof.
  induction ins as [|s ins IH]; intros g acc H; cbn [mix_in]; [apply ends_ok|]. destruct g as [|row g]; [apply ends_ok|]. inversion H as [|? ? H1 H2]; subst.
  destruct (nth_error row o) eqn:Q; [apply IH; exact H2|]. apply nth_error_None in Q. lia.
Qed.
Lemma render_gains_ends ins g : rect g -> ends (render_gains E ins g).
Proof.
  intros [w Hw]. unfold render_gains. destruct g as [|row g]; [apply ends_err|]. destruct (Nat.ltb _ _); [apply ends_err|]. destruct (negb _); [apply ends_err|]. apply rmap_ends. intros o Ho. apply in_seq in Ho.
  apply mix_in_ends. eapply Forall_impl; [|exact Hw]. intros row' Hr. inversion Hw; subst. lia.
Qed.
Lemma mix_in_length o n : forall ins g acc r, uniform ins n -> length acc = n -> mix_in E ins g o acc = Ok r -> length r = n.
Proof.
  induction ins as [|s ins IH]; intros g acc r U L H; cbn [mix_in] in H; [injection H as <-; exact L|]. destruct g as [|row g]; [injection H as <-; exact L|]. inversion U; subst.
  destruct (nth_error row o); [|discriminate H]. eapply IH; [eassumption| |exact H]. unfold axpy. apply zip2_length_eq; auto.
Qed.
Lemma render_gains_uniform ins g out n : uniform ins n -> (ins = [] -> n = 0)%nat -> render_gains E ins g = Ok out -> uniform out n.
Proof.
  intros U Hn H. unfold render_gains in H. destruct g as [|row g]; [discriminate H|]. destruct (Nat.ltb _ _); [discriminate H|]. destruct (negb _); [discriminate H|]. apply rmap_ok in H.
  apply Forall_forall. intros s Hs. apply In_nth_error in Hs as [i Hs]. destruct (forall2_nth _ _ _ _ _ H Hs) as (o & _ & Ho). eapply mix_in_length; [exact U| |exact Ho]. rewrite repeat_length.
  destruct ins as [|s0 ins]; [cbn [first_ticks]; symmetry; apply Hn; reflexivity|]. inversion U; subst. reflexivity.
Qed.
Lemma compute_rect inp out p g : compute_gains E inp out p = Some g -> rect g.
Proof.
  unfold compute_gains. cbv zeta. destruct ((inp =? 9) && (out =? 11)); [intro H; injection H as <-; exists 6%nat; repeat constructor|]. destruct ((inp =? 9) && (out =? 10)); [intro H; injection H as <-; exists 10%nat; repeat constructor|discriminate].
Qed.
Definition rect_kind (k : @rkind T B) : Prop := match k with KMatrix _ _ g => rect g | KAmbi g => rect g | _ => True end.
Lemma matrix_rect r p g : rect_kind (er_kind r) -> matrix_of E r p = Some g -> rect g.
Proof.
  unfold matrix_of, rect_kind. destruct (er_kind r) as [|i o g0|g0|m b]; intros R H; try discriminate H; [|injection H as <-; exact R].
  injection H as <-. unfold dynamic_gains. destruct p as [p|]; [|exact R]. destruct (negb (d_in p)); [exact R|]. destruct (_ && _); [exact R|]. destruct (compute_gains E i o p) eqn:Q; [exact (compute_rect _ _ _ _ Q)|exact R].
Qed.
(* ---- projecting ---- *)
Lemma project_in_ends nout o : (o < nout)%nat -> forall ins m acc, (length ins * nout <= length m)%nat -> ends (project_in E ins m nout o acc).
Proof.
  intro Ho. induction ins as [|s ins IH]; intros m acc L; cbn [project_in]; [apply ends_ok|]. cbn [length] in L. destruct (nth_error m o) eqn:Q; [|apply nth_error_None in Q; nia]. apply IH. rewrite skipn_length. nia.
Qed.
Lemma project_in_length nout o n : forall ins m acc r, uniform ins n -> length acc = n -> project_in E ins m nout o acc = Ok r -> length r = n.
Proof.
  induction ins as [|s ins IH]; intros m acc r U L H; cbn [project_in] in H; [injection H as <-; exact L|]. inversion U; subst. destruct (nth_error m o); [|discriminate H]. eapply IH; [eassumption| |exact H]. apply zip2_length_eq; auto.
Qed.
Lemma project_ends ins m spf n : uniform ins n -> ends (project E ins m spf) /\ forall x, project E ins m spf = Ok x -> uniform x n /\ x <> [].
Proof.
  intro U. unfold project. destruct ins as [|s ins]; [split; [apply ends_err|discriminate]|]. destruct m as [|a m]; [split; [apply ends_err|discriminate]|].
  destruct (negb _); [split; [apply ends_err|discriminate]|]. destruct (zlen (a :: m) mod zlen (s :: ins) =? 0) eqn:Em; cbn [negb]; [|split; [apply ends_err|discriminate]]. destruct (Nat.eqb spf _) eqn:Es; cbn [negb]; [|split; [apply ends_err|discriminate]].
  apply Nat.eqb_eq in Es. apply Z.eqb_eq in Em. cbv zeta. set (nout := Z.to_nat (zlen (a :: m) / zlen (s :: ins))).
  assert (0 < zlen (s :: ins)) as P1 by (unfold zlen; cbn [length]; lia). assert (0 < zlen (a :: m)) as P2 by (unfold zlen; cbn [length]; lia).
  pose proof (Z.div_mod (zlen (a :: m)) (zlen (s :: ins)) ltac:(lia)) as Dm. rewrite Em, Z.add_0_r in Dm.
  assert (0 < zlen (a :: m) / zlen (s :: ins)) as P3 by nia. assert (length (s :: ins) * nout = length (a :: m))%nat as Ln by (unfold nout, zlen in *; nia).
  split.
  - apply rmap_ends. intros o Ho. apply in_seq in Ho. apply project_in_ends; [lia|lia].
  - intros x H. pose proof (rmap_length _ _ _ H) as Lx. rewrite seq_length in Lx. apply rmap_ok in H. split; [|intros ->; cbn [length] in Lx; unfold nout in Lx; lia].
    apply Forall_forall. intros c Hc. apply In_nth_error in Hc as [i Hc]. destruct (forall2_nth _ _ _ _ _ H Hc) as (o & _ & Ho). eapply project_in_length; [exact U| |exact Ho]. rewrite repeat_length, Es. inversion U; subst. reflexivity.
Qed.

(* ---- one audio element ---- *)
Definition calm_rend (r r' : @erend T B) : Prop := er_labels r' = er_labels r /\ er_spf r' = er_spf r /\ rect_kind (er_kind r').
Lemma render_samples_safe r p ins n x r' : rect_kind (er_kind r) -> clean (er_out r) -> uniform ins n -> (ins = [] -> n = 0)%nat -> render_samples E r p ins = (x, r') ->
  ends x /\ calm_rend r r' /\ (x = Ok tt -> uniform (er_out r') n) /\ (x <> Ok tt -> er_out r' = er_out r).
Proof.
  intros Rk Cl U Hn H.
  assert (by_loudspeakers r \/ exists m b, er_kind r = KBinaural m b) as [L|(m & b & Ek)] by (unfold by_loudspeakers; destruct (er_kind r); eauto).
  - rewrite (render_samples_eq E r p ins L Cl) in H. unfold raw in H. assert (calm_rend r r) as C0 by (split; [reflexivity|]; split; [reflexivity|exact Rk]).
    destruct (matrix_of E r p) as [g|] eqn:Em.
    + pose proof (render_gains_ends ins g (matrix_rect _ _ _ Rk Em)) as K. destruct (render_gains E ins g) as [o|c| | |] eqn:Er; try (destruct K as [[? K]|[? K]]; discriminate K); injection H as <- <-.
      * split; [apply ends_ok|]. split; [exact C0|]. split; [intros _; exact (render_gains_uniform _ _ _ _ U Hn Er)|congruence].
      * split; [apply ends_err|]. split; [exact C0|]. split; [discriminate|reflexivity].
    + injection H as <- <-. split; [apply ends_ok|]. split; [exact C0|]. split; [intros _; exact U|congruence].
  - unfold render_samples in H. rewrite Ek in H. assert (calm_rend r r) as C0 by (split; [reflexivity|]; split; [reflexivity|exact Rk]).
    assert (ends (match m with Some m => project E ins m (er_spf r) | None => Ok ins end) /\ forall y, match m with Some m => project E ins m (er_spf r) | None => Ok ins end = Ok y -> first_ticks y = first_ticks ins) as [K1 K2].
    { destruct m as [m|].
      - destruct (project_ends ins m (er_spf r) n U) as [P1 P2]. split; [exact P1|]. intros y Hy. destruct (P2 y Hy) as [P3 P4]. destruct y as [|c y]; [congruence|]. inversion P3 as [|? ? H1 ?]; subst. cbn [first_ticks].
        destruct ins as [|s ins]; [unfold project in Hy; discriminate Hy|]. inversion U; subst. cbn [first_ticks]. congruence.
      - split; [apply ends_ok|]. intros y Hy. injection Hy as <-. reflexivity. }
    destruct (match m with Some m => project E ins m (er_spf r) | None => Ok ins end) as [y|c| | |] eqn:Ey; try (destruct K1 as [[? K1]|[? K1]]; discriminate K1).
    2:{ injection H as <- <-. split; [apply ends_err|]. split; [exact C0|]. split; [discriminate|reflexivity]. }
    specialize (K2 y eq_refl). destruct (tame_obr _ Et b y) as [O1 O2]. destruct (r_obr E b y) as [z b']. cbn [fst] in *.
    destruct z as [o|c| | |]; try (destruct O1 as [[? O1]|[? O1]]; discriminate O1); injection H as <- <-.
    + split; [apply ends_ok|]. split; [split; [reflexivity|]; split; [reflexivity|exact I]|]. split; [|congruence]. intros _. cbn [set_kind er_out]. specialize (O2 o eq_refl). rewrite K2 in O2.
      assert (first_ticks ins = n) as Fn. { destruct ins as [|s ins]; [cbn [first_ticks]; symmetry; apply Hn; reflexivity|]. inversion U; subst. reflexivity. } rewrite Fn in *.
      unfold uniform. apply Forall_map. eapply Forall_impl; [|exact O2]. intros s Hs. rewrite firstn_length. apply Nat.min_l. exact Hs.
    + split; [apply ends_err|]. split; [split; [reflexivity|]; split; [reflexivity|exact I]|]. split; [discriminate|reflexivity].
Qed.
Lemma render_to_layout_safe r lf spf out x r' out' : rect_kind (er_kind r) -> clean (er_out r) -> trims_ok lf -> Z.of_nat (er_spf r) = spf ->
  render_to_layout E r lf spf out = (x, r', out') ->
  ends x /\ calm_rend r r' /\ clean (er_out r') /\ exists n, uniform out' n /\ Z.of_nat n <= spf.
Proof.
  intros Rk Cl Ht Hs H. unfold render_to_layout in H. cbv zeta in H. unfold render_labeled in H.
  assert (calm_rend r r) as C0 by (split; [reflexivity|]; split; [reflexivity|exact Rk]).
  assert (exists n, @uniform T (map (fun _ : chan => []) out) n /\ Z.of_nat n <= spf) as U0. { exists 0%nat. split; [|lia]. unfold uniform. apply Forall_map. apply Forall_forall. reflexivity. }
  match type of H with context[match ?q with Ok _ => _ | Err _ => _ | Abort => _ | UB => _ | Diverge => _ end] =>
    match q with match er_labels r with _ => _ end => change q with (arranged E r lf) in H end end.
  pose proof (arranged_ends r lf Ht) as Ka. destruct (arranged E r lf) as [[ins n]|c| | |] eqn:Ea; try (destruct Ka as [[? Ka]|[? Ka]]; discriminate Ka).
  2:{ injection H as <- <- <-. split; [apply ends_err|]. split; [exact C0|]. split; [exact Cl|exact U0]. }
  destruct (arranged_uniform _ _ _ _ Ht Ea) as [U Ln].
  assert (ins = [] -> n = 0)%nat as Hn. { intros ->. unfold arranged in Ea. destruct (er_labels r) as [|x0 ls]; [injection Ea as <-; reflexivity|]. destruct (arrange_spec E _ _ _ _ _ Ht Ea) as [_ Q]. inversion Q. }
  destruct (render_samples E r (lf_params lf) ins) as [y r1] eqn:Es. destruct (render_samples_safe _ _ _ _ _ _ Rk Cl U Hn Es) as (S1 & S2 & S3 & S4).
  destruct y as [[]|c| | |]; try (destruct S1 as [[? S1]|[? S1]]; discriminate S1).
  2:{ injection H as <- <- <-. split; [apply ends_err|]. split; [exact S2|]. split; [rewrite S4 by discriminate; exact Cl|exact U0]. }
  replace (Z.of_nat n >? spf) with false in H by lia. unfold flush in H. rewrite (append_clean _ _ (clean_map out)) in H. specialize (S3 eq_refl).
  assert (calm_rend r (set_out r1 (map (fun _ => []) (er_out r1)))) as C1 by exact S2.
  assert (clean (er_out (set_out r1 (map (fun _ => []) (er_out r1))))) as Cl1 by (cbn [set_out er_out]; apply clean_map).
  assert (exists n0, uniform (er_out r1) n0 /\ Z.of_nat n0 <= spf) as U1 by (exists n; split; [exact S3|lia]).
  destruct (Nat.eqb n 0); [|match type of H with context[existsb ?f ?l] => destruct (existsb f l) end]; injection H as <- <- <-; (split; [first [apply ends_ok|apply ends_err]|]); auto.
Qed.

(* ---- a layout ---- *)
Definition firm (spf : Z) (e : @elem T B) : Prop :=
  rect_kind (er_kind (el_rend e)) /\ clean (er_out (el_rend e)) /\ Z.of_nat (er_spf (el_rend e)) = spf /\ exists n, uniform (el_out e) n /\ Z.of_nat n <= spf.
Definition firm_layout (l : @lrend T B) : Prop := lr_els l <> [] /\ Forall (firm (lr_spf l)) (lr_els l).
Definition gains_of (l : @lrend T B) : list pdef := lr_gain l :: map (@el_gain T B) (lr_els l).
Lemma render_elements_safe frames blocks chans rate spf : trims frames -> forall els x els', Forall (firm spf) els -> Forall (fun e : @elem T B => gain_blocks blocks (el_gain e)) els ->
  render_elements E frames blocks chans rate spf els = (x, els') ->
  ends x /\ Forall (firm spf) els' /\ map (@el_gain T B) els' = map (@el_gain T B) els /\ (x = Ok tt -> Forall (fun e : @elem T B => zlen (el_out e) = chans) els').
Proof.
  intro Ht. induction els as [|e els IH]; intros x els' Hf Hg H; cbn [render_elements] in H.
  - injection H as <- <-. split; [apply ends_ok|]. split; [constructor|]. split; [reflexivity|constructor].
  - inversion Hf as [|? ? (F1 & F2 & F3 & F4) Hf']; subst. inversion Hg as [|? ? G1 Hg']; subst.
    set (q := match m_find (el_id e) frames with Some lf => _ | None => _ end) in H. destruct q as [[r1 rend] out] eqn:Eq. subst q.
    assert (ends r1 /\ calm_rend (el_rend e) rend /\ clean (er_out rend) /\ exists n, uniform out n /\ Z.of_nat n <= Z.of_nat (er_spf (el_rend e))) as (S1 & S2 & S3 & (n & S4 & S5)).
    { destruct (m_find (el_id e) frames) as [lf|] eqn:Em; [exact (render_to_layout_safe _ _ _ _ _ _ _ F1 F2 (Ht _ _ Em) eq_refl Eq)|].
      injection Eq as <- <- <-. split; [apply ends_ok|]. split; [split; [reflexivity|]; split; [reflexivity|exact F1]|]. split; [exact F2|exact F4]. }
    pose proof S2 as (T1 & T2 & T3).
    assert (forall o m, uniform o m -> Z.of_nat m <= Z.of_nat (er_spf (el_rend e)) -> firm (Z.of_nat (er_spf (el_rend e))) (mkEl (el_id e) (el_gain e) rend o)) as K.
    { intros o m Uo Lo. split; [exact T3|]. split; [exact S3|]. split; [cbn [el_rend]; rewrite T2; reflexivity|]. exists m. split; [exact Uo|exact Lo]. }
    pose proof (ends_bind r1 (fun _ => apply_gain E rate blocks (el_gain e) chans out) S1 (fun _ _ => apply_gain_ends _ _ _ _ _ _ G1 S4)) as Ke.
    destruct (rbind r1 (fun _ => apply_gain E rate blocks (el_gain e) chans out)) as [out1|c| | |] eqn:Ea; try (destruct Ke as [[? Ke]|[? Ke]]; discriminate Ke).
    2:{ injection H as <- <-. split; [apply ends_err|]. split; [constructor; [exact (K _ _ S4 S5)|exact Hf']|]. split; [reflexivity|discriminate]. }
    destruct (render_elements E frames blocks chans rate _ els) as [r2 t1] eqn:Er. injection H as <- <-. destruct (IH _ _ Hf' Hg' eq_refl) as (J1 & J2 & J3 & J4).
    destruct r1 as [[]|c| | |]; cbn [rbind] in Ea; try discriminate Ea. destruct (apply_gain_spec E _ _ _ _ _ _ _ S4 Ea) as (A1 & A2 & A3 & _).
    split; [exact J1|]. split; [constructor; [exact (K _ _ A3 S5)|exact J2]|]. split; [cbn [map el_gain]; rewrite J3; reflexivity|]. intro Hr. constructor; [cbn [el_out]; unfold zlen in *; lia|exact (J4 Hr)].
Qed.
Lemma render_safe l frames blocks x l1 : firm_layout l -> trims frames -> Forall (gain_blocks blocks) (gains_of l) -> render E l frames blocks = (x, l1) ->
  ends x /\ firm_layout l1 /\ gains_of l1 = gains_of l.
Proof.
  intros [Hne Hf] Ht Hg H. unfold gains_of in Hg. inversion Hg as [|? ? G0 G1]; subst. rewrite Forall_map in G1. unfold render in H.
  destruct (render_elements E frames blocks (lr_chans l) (lr_rate l) (lr_spf l) (lr_els l)) as [r els] eqn:Ee. destruct (render_elements_safe _ _ _ _ _ Ht _ _ _ Hf G1 Ee) as (R1 & R2 & R3 & R4).
  injection H as <- <-. assert (els <> []) as Ne. { intros ->. destruct (lr_els l); [congruence|discriminate R3]. }
  split; [|split; [split; [exact Ne|exact R2]|unfold gains_of; cbn [lr_gain lr_els]; rewrite R3; reflexivity]].
  apply ends_bind; [exact R1|]. intros [] Hr. subst r. specialize (R4 eq_refl).
  assert (ends (mix_elements E (map (@el_out T B) els) (lr_chans l) (lr_spf l))) as Km.
  { unfold mix_elements. cbv zeta. destruct els as [|e els]; [congruence|]. cbn [map]. inversion R2 as [|? ? (_ & _ & _ & (n & U & Ln)) _]; subst. inversion R4 as [|? ? L4 _]; subst. unfold zlen in L4.
    replace (lr_chans l =? Z.of_nat (length (el_out e))) with true by (symmetry; apply Z.eqb_eq; lia). cbn [negb].
    replace (lr_spf l <? _) with false; [match goal with |- ends (if ?b then _ else _) => destruct b end; [apply ends_err|apply ends_ok]|].
    symmetry. apply Z.ltb_ge. destruct (el_out e) as [|s o] eqn:Eo; [lia|]. inversion U; subst. exact Ln. }
  apply ends_bind; [exact Km|]. intros m Hm. destruct (mix_elements_spec E _ _ _ _ Hm) as (n & _ & Um & _). exact (apply_gain_ends _ _ _ _ _ _ G0 Um).
Qed.
End Safe.
