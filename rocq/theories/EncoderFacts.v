(* Facts about the encoder, for PropsEncoder. *)
From Verif Require Import PropsTU PropsLabels PropsUnit.
From Verif Require PropsDemix.
From Verif Require Import Base WriteBuf CodecConfig Params AudioElement Timing ParamManager TempUnit AeData Demix SubFrames FrameGen FrameGenFacts FrameGenSpec FrameGenRun Encoder EncoderSpec.
From Coq Require Import Lia Permutation.

Ltac rb H x E := match type of H with rbind ?r _ = Ok _ => destruct r as [x| | | |] eqn:E; cbn [rbind] in H; try discriminate H end.
Ltac rs H E := unfold rthen in H at 1; match type of H with rbind ?r _ = Ok _ => destruct r as [[]| | | |] eqn:E; cbn [rbind] in H; try discriminate H end.

Section Facts.
Context {T P M : Type}.
Variable A : arith T.
Variable lin : Z -> T.
Variable quant : T -> res Z.
Variable code : Z -> list (list Z) -> res P.
Notation gen := (gen T P).
Notation oframe := (oframe T P).
Notation bmeta := (@bmeta M).
Notation edata := (@edata T M).
Notation ecall := (@ecall T M).
Notation tunit := (@tunit T P).
Notation enc := (@enc T P M).
Variable kind_of : Z -> option kind.
Variable subs_of : kind -> list oframe -> bmeta -> res (list (option pdata)).
Variable order : list (Z * label * list T) -> list (Z * label * list T).
Variable cf : cfg.
Notation output := (output A lin quant code subs_of order cf).
Notation estep := (estep A lin quant code kind_of subs_of order cf).
Notation erun := (erun A lin quant code kind_of subs_of order cf).
Notation session := (session A lin quant code cf).

(* ----- the parts of OutputTemporalUnit ----- *)
Lemma generate_facts : forall k fs l c bs c', generate subs_of k fs l c = Ok (bs, c') ->
  g_audio c' = g_audio c /\ Forall2 (made_from subs_of k fs) l bs.
Proof.
  intros k fs. induction l as [|b l IH]; intros c bs c' H; cbn [generate] in H; [injection H as <- <-; split; constructor|].
  destruct (next_param c (bm_id b) (bm_start b) (bm_dur b)) as [[[r s] s'] c1] eqn:N. rs H E. rb H x Ex. rb H q Eq1. destruct q as (bs1, c2). cbn [fst snd] in H. injection H as <- <-.
  destruct (IH _ _ _ Eq1) as (I1 & I2). unfold next_param, get_timestamps in N. destruct (m_find (bm_id b) (g_param c)) as [d|] eqn:F.
  - injection N as N1 N2 N3 N4. subst s s' c1. try rewrite E in N1. unfold rthen in N1. cbn [rbind] in N1. unfold compare_timestamps, veq in N1. destruct (Z.eqb_spec (bm_start b) (td_stamp d)) as [Q | Q]; [|discriminate].
    split; [exact I1|]. constructor; [|exact I2]. rewrite <- Q. unfold made_from. cbn [p_id p_start p_stop p_subs]. auto.
  - injection N as N1 N2 N3 N4. try rewrite E in N1. unfold rthen in N1. cbn [rbind] in N1. discriminate.
Qed.
Lemma set_env_with : forall m c (g : gen), g_audio c = g_audio (g_clock g) -> set_env m c g = with_params m (g_param c) g.
Proof. intros m [a p] g H. unfold set_env, with_params. cbn [g_audio g_param] in *. now rewrite <- H. Qed.
Definition adds (l : list (Z * label * list T)) : list (call T) := map (fun e => Add (fst (fst e)) (snd (fst e)) (snd e)) l.
Lemma add_cached_session : forall l g g' fs, add_cached A lin quant code cf l g = Ok g' -> session (adds l) (g, fs) = Ok (g', fs).
Proof.
  induction l as [|((id, lb), xs) l IH]; intros g g' fs H; cbn [add_cached] in H; [now injection H as <-|]. rb H g1 E.
  unfold adds. cbn [map fst snd]. cbn [FrameGenSpec.session call_step fst snd]. rewrite E. cbn [rbind]. now apply IH.
Qed.
Lemma due_app : forall t l, fst (due t l) ++ snd (due t l) = l.
Proof. intros t. induction l as [|b l IH]; cbn [due]; [reflexivity|]. destruct (_ <? _); cbn [fst snd app]; [reflexivity | now rewrite IH]. Qed.

(* ----- what an OutputTemporalUnit does ----- *)
Record out_spec (e e' : enc) (ou : option tunit) (calls : list (call T)) : Prop := {
  os_final : e_final e' = e_final e;
  os_cache : e_cache e' = emptied_cache (e_cache e);
  os_plain : filter plain calls = adds (order (filter some_samples (e_cache e))) ++ (if e_final e then [Fin] else []) ++ [Out];
  os_calls : forall fs, session calls (e_gen e, fs) = Ok (e_gen e', fs ++ match ou with Some u => u_frames u | None => [] end);
  os_proper : match ou with Some u => proper_unit u | None => True end;
  os_blocks : forall k, k <> KOther -> exists done bs, e_meta e k = done ++ e_meta e' k /\
     Forall2 (fun m b => exists fs, (fs = [] \/ k = KRecon /\ exists u, ou = Some u /\ fs = u_frames u) /\ made_from subs_of k fs m b) done bs /\
     match ou with Some u => u_blocks u k | None => [] end ++ e_wait e' k = e_wait e k ++ bs;
  os_other : e_meta e' KOther = e_meta e KOther;
  os_arb : Permutation (match ou with Some u => u_arb u | None => [] end ++ concat (map snd (e_arb e'))) (concat (map snd (e_arb e)));
  os_taking : e_final e = false -> g_stage (e_gen e) = Taking -> g_stage (e_gen e') = Taking /\ e_closed e' = e_closed e /\ e_done e' = e_done e;
  os_closed : e_final e = true -> (e_closed e', e_done e') = if generating_units e' then (e_closed e, e_done e) else (true, true)
}.
(* proper units *)
Lemma frame_views : forall fs, map f_sub (map (frame_view cf) fs) = map o_id (fs : list oframe).
Proof. intros. now rewrite map_map. Qed.
Lemma push_frames : forall u x f0, u_frames u <> [] -> hd_error (u_frames u) = Some f0 -> push_unit cf u = Ok x -> same_times f0 (u_frames u) = true -> proper_unit (u : tunit).
Proof.
  intros u x f0 HN HH H _. left. unfold push_unit in H. rb H v E. clear H. unfold tu_create in E. destruct (u_frames u) as [|f fs] eqn:U; [easy|]. injection HH as ->. cbn [map] in E.
  rb E s Es. rb E gs Eg. rb E bs Eb. rb E os Eo. clear E.
  assert (V : forall l : list oframe, map (fun f => Some (frame_view cf f)) l = map Some (map (frame_view cf) l)) by (intro; now rewrite map_map).
  change (Some (frame_view cf f0) :: map (fun f => Some (frame_view cf f)) fs) with (map (fun f => Some (frame_view cf f)) (f0 :: fs)) in Eg. rewrite V in Eg.
  apply (proj1 (check_frames_iff _ _ _)) in Eg. destruct Eg as (G1 & G2 & G3 & _). apply map_some_inj in G1. subst gs.
  assert (V2 : map (fun b => Some (block_view b)) (blocks_of u) = map Some (map block_view (blocks_of u))) by now rewrite map_map.
  rewrite V2 in Eb. apply (proj1 (check_blocks_iff _ _ _)) in Eb. destruct Eb as (B1 & B2 & B3 & _). apply map_some_inj in B1. subst bs.
  apply (proj1 (check_arbs_iff _ _ _)) in Eo. destruct Eo as (O1 & O2 & _). apply map_some_inj in O1. subst os.
  exists (ts_start s), (ts_end s), (ts_ts s), (ts_te s). split; [easy|].
  split.
  { rewrite Forall_map in G2. eapply Forall_impl; [|exact G2]. intros f (_ & Q1 & Q2 & Q3 & Q4). cbn [frame_view f_trim_end f_trim_start f_start f_end] in *. auto. }
  split; [rewrite frame_views in G3; exact G3|].
  split.
  { rewrite Forall_map in B2. eapply Forall_impl; [|exact B2]. intros b Q. unfold block_ok in Q. cbn [block_view k_start k_end] in Q. tauto. }
  split; [|exact O2]. rewrite map_map in B3. exact B3.
Qed.
Lemma push_arbs : forall os x, os <> [] -> push_unit cf (mkUnit (fun _ => []) [] os : tunit) = Ok x -> proper_unit (mkUnit (fun _ => []) [] os : tunit).
Proof.
  intros os x HN H. right. unfold push_unit in H. rb H v E. clear H. unfold tu_create in E. cbn [u_frames u_arb blocks_of u_blocks map app] in E. destruct os as [|o os]; [easy|]. cbn [map] in E.
  rb E s Es. rb E gs Eg. rb E bs Eb. rb E xs Eo. clear E.
  change (Some o :: map Some os) with (map Some (o :: os)) in Eo. apply (proj1 (check_arbs_iff _ _ _)) in Eo. destruct Eo as (O1 & O2 & O3). apply map_some_inj in O1. subst xs.
  cbn [stats_of_arb vsome rbind] in Es. destruct (o_tick o) as [t|] eqn:Q; cbn [vsome rbind] in Es; [|discriminate]. injection Es as <-. cbn [ts_start ts_need] in *.
  exists t. cbn [u_frames u_arb blocks_of u_blocks app]. repeat (split; [first [reflexivity | easy | exact O2]|]). destruct (O3 eq_refl) as [|]; [discriminate | assumption].
Qed.
(* arbitrary OBUs *)
Lemma m_del_split : forall {V} (m : list (Z * V)) t v, m_find t m = Some v -> Permutation (v :: map snd (m_del t m)) (map snd m).
Proof.
  intros V. induction m as [|(i, w) m IH]; intros t v H; cbn [m_find m_del] in *; [discriminate|]. destruct (i =? t); [injection H as ->; reflexivity|].
  cbn [map snd]. rewrite perm_swap. constructor. now apply IH.
Qed.
Lemma concat_perm : forall {X} (a b : list (list X)), Permutation a b -> Permutation (concat a) (concat b).
Proof. intros X a b H. induction H; cbn [concat]; [reflexivity | now apply Permutation_app_head | rewrite !app_assoc; apply Permutation_app_tail; apply Permutation_app_comm | etransitivity; eauto]. Qed.
Lemma splice_perm : forall t m l r, splice t m = (l, r) -> Permutation (l ++ concat (map snd r)) (concat (map snd m)).
Proof.
  intros t m l r H. unfold splice in H. destruct (m_find t m) as [v|] eqn:F; injection H as <- <-; [|reflexivity]. change (v ++ concat (map snd (m_del t m))) with (concat (v :: map snd (m_del t m))).
  apply concat_perm. now apply m_del_split.
Qed.
Lemma splice_first_perm : forall m l r, splice_first m = (l, r) -> Permutation (l ++ concat (map snd r)) (concat (map snd m)).
Proof. intros [|(i, v) m] l r H; cbn [splice_first] in H; injection H as <- <-; reflexivity. Qed.
Lemma a_put_perm : forall t o m, Permutation (concat (map snd (a_put t o m))) (concat (map snd m) ++ [o]).
Proof.
  intros t o. induction m as [|(i, l) m IH]; cbn [a_put map snd concat]; [reflexivity|]. destruct (i =? t); [cbn [map snd concat]; rewrite <- app_assoc, <- app_assoc; apply Permutation_app_head, Permutation_app_comm|].
  destruct (t <? i); cbn [map snd concat]; [apply (Permutation_cons_append (l ++ concat (map snd m)) o)|]. rewrite <- app_assoc. now apply Permutation_app_head.
Qed.
Lemma arrange_perm : forall l s, Permutation (concat (map snd (fst (fold_left (fun s o => match o_tick o with Some t => (a_put t o (fst s), snd s) | None => (fst s, snd s ++ [o]) end) l s))))
  (concat (map snd (fst s : list (Z * list arb))) ++ filter timed l).
Proof.
  induction l as [|o l IH]; intros s; cbn [fold_left filter]; [now rewrite app_nil_r|]. etransitivity; [apply IH|]. unfold timed at 2. destruct (o_tick o); cbn [fst]; [|reflexivity].
  rewrite a_put_perm, <- app_assoc. reflexivity.
Qed.
(* stages *)
Lemma maybe_stage : forall id el labels g g', maybe_encode A lin quant code id el labels g = Ok g' -> g_stage g' = g_stage (g : gen) /\ map fst (g_coders g') = map fst (g_coders g).
Proof.
  intros id el labels g g' H. apply (maybe_beside _ _ _ _ 0) in H. destruct H as (_ & _ & H2 & _ & H3 & _). auto.
Qed.
Lemma add_stage : forall id l xs g g', add_samples A lin quant code cf id l xs g = Ok g' -> g_stage g' = g_stage (g : gen) /\ map fst (g_coders g') = map fst (g_coders g).
Proof.
  intros id l xs g g' H. unfold add_samples in H. destruct (g_stage g) eqn:E; try (injection H as <-; auto; fail); try discriminate.
  destruct (FrameGen.nil xs); [discriminate|]. destruct (m_find id (cf_labels cf)) as [labels|]; [|discriminate]. destruct (m_find id (cf_elems cf)) as [el|]; [|discriminate].
  apply maybe_stage in H. destruct H as (H1 & H2). cbn [set_in g_stage g_coders] in *. rewrite H1, H2. auto.
Qed.
Lemma cached_stage : forall l g g', add_cached A lin quant code cf l g = Ok g' -> g_stage g' = g_stage (g : gen) /\ map fst (g_coders g') = map fst (g_coders g).
Proof.
  induction l as [|((id, lb), xs) l IH]; intros g g' H; cbn [add_cached] in H; [injection H as <-; auto|]. rb H g1 E. apply IH in H. apply add_stage in E. destruct H as (H1 & H2), E as (E1 & E2). split; congruence.
Qed.
Lemma flush_stage : forall l g g', flush_elems A lin quant code cf l g = Ok g' -> g_stage g' = g_stage (g : gen) /\ map fst (g_coders g') = map fst (g_coders g).
Proof.
  induction l as [|(id, el) l IH]; intros g g' H; cbn [flush_elems] in H; [injection H as <-; auto|]. destruct (m_find id (cf_labels cf)); [|discriminate]. rb H g1 E. apply IH in H. apply maybe_stage in E. destruct H as (H1 & H2), E as (E1 & E2). split; congruence.
Qed.
Lemma out_taking : forall g g' fs, g_stage g = Taking -> output_frames A lin quant code cf (g : gen) = Ok (g', fs) -> g_stage g' = Taking.
Proof. intros g g' fs E H. unfold output_frames in H. rewrite E in H. cbn [rbind] in H. rewrite E in H. rb H r Er. destruct r as ((cs, trs), fs2). injection H as <- _. cbn [g_stage]. first [exact E | reflexivity]. Qed.
Lemma finalize_stage : forall g : gen, g_stage (finalize g) <> Taking.
Proof. intros g. unfold finalize. destruct (g_stage g) eqn:E; cbn [g_stage]; congruence. Qed.
Lemma out_not_taking : forall g g' fs, g_stage g <> Taking -> output_frames A lin quant code cf (g : gen) = Ok (g', fs) -> g_stage g' <> Taking.
Proof.
  intros g g' fs E H. unfold output_frames in H. rb H g1 E1. assert (Q : g_stage g1 <> Taking).
  { destruct (g_stage g) eqn:Es; [easy | injection E1 as <-; cbn [g_stage]; discriminate | apply flush_stage in E1; destruct E1; congruence]. }
  destruct (match g_stage g1 with Flushing => _ | _ => _ end) as (cs, subs). rb H r Er. destruct r as ((cs2, trs), fs2). injection H as <- _. exact Q.
Qed.
Lemma out_quiet : forall g g' fs, g_coders g = [] -> output_frames A lin quant code cf (g : gen) = Ok (g', fs) -> g_coders g' = [] /\ fs = [].
Proof.
  intros g g' fs E H. unfold output_frames in H. rb H g1 E1. assert (Q : g_coders g1 = []).
  { destruct (g_stage g); [injection E1 as <-; exact E | injection E1 as <-; exact E | apply flush_stage in E1; destruct E1 as (_ & E1); rewrite E in E1; now destruct (g_coders g1)]. }
  assert (Q2 : exists subs, match g_stage g1 with Flushing => finish_coders (g_coders g1) (g_subs g1) | _ => (g_coders g1, g_subs g1) end = ([], subs)) by (rewrite Q; destruct (g_stage g1); eexists; reflexivity).
  destruct Q2 as (subs & Q2). rewrite Q2 in H. cbn [forallb pop_all rbind] in H. injection H as <- <-. cbn [g_coders filter]. auto.
Qed.
(* OutputTemporalUnit *)
Lemma output_step : forall e e' ou, output e = Ok (e', ou) -> exists calls, out_spec e e' ou calls.
Proof.
  intros e e' ou H. unfold Encoder.output in H.
  rb H rd Ed. destruct rd as (bd, c1). rb H rm Em. destruct rm as (bm, c2). cbn [fst snd] in H. cbv zeta in H.
  cbn [snd] in Em.
  destruct (generate_facts _ _ _ _ _ _ Ed) as (D1 & D2). destruct (generate_facts _ _ _ _ _ _ Em) as (M1 & M2).
  set (wait := upd KMix _ _) in *. set (metas := upd KMix [] _) in *. set (pm0 := fold_left add_demixing _ _) in *.
  rewrite set_env_with in H by congruence. set (g0 := with_params pm0 (g_param c2) (e_gen e)) in *.
  rb H g1 Ea. rb H r Er. destruct r as (g3, fs). cbn [fst snd] in H.
  set (l := order (filter some_samples (e_cache e))) in *. set (g2 := if e_final e then finalize g1 else g1) in *.
  set (cs := Params pm0 (g_param c2) :: adds l ++ (if e_final e then [Fin] else []) ++ [Out]).
  assert (C1 : forall X, session cs (e_gen e, X) = Ok (g3, X ++ fs)).
  { intro X. unfold cs. cbn [FrameGenSpec.session call_step fst snd rbind]. fold g0. rewrite session_app, (add_cached_session _ _ _ X Ea). cbn [rbind]. destruct (e_final e); cbn [app FrameGenSpec.session call_step fst snd rbind]; fold g2; unfold g2 in *; rewrite Er; cbn [rbind fst snd]; reflexivity. }
  assert (C2 : filter plain cs = adds l ++ (if e_final e then [Fin] else []) ++ [Out]).
  { unfold cs. cbn [filter plain]. rewrite filter_app. f_equal; [clear; induction l as [|x l IH]; [reflexivity | cbn [adds map filter plain]; f_equal; exact IH] | destruct (e_final e); reflexivity]. }
  assert (W : forall k, k <> KOther -> exists done bs, e_meta e k = done ++ metas k /\ Forall2 (fun m b => made_from subs_of k [] m b) done bs /\ wait k = e_wait e k ++ bs).
  { intros k Hk. unfold wait, metas, upd. destruct k; cbn [kind_eqb].
    - exists (e_meta e KMix), bm. rewrite app_nil_r. auto.
    - exists (e_meta e KDemix), bd. rewrite app_nil_r. auto.
    - exists [], []. rewrite app_nil_r. repeat split. constructor.
    - easy. }
  assert (W2 : metas KRecon = e_meta e KRecon /\ wait KRecon = e_wait e KRecon) by (split; reflexivity).
  assert (St : e_final e = false -> g_stage (e_gen e) = Taking -> g_stage g3 = Taking).
  { intros F S0. apply cached_stage in Ea. destruct Ea as (Ea & _). change (g_stage g0) with (g_stage (e_gen e)) in Ea. unfold g2 in Er. rewrite F in Er. eapply out_taking; [|exact Er]. congruence. }
  assert (MC : forall e1 : enc, e_final (maybe_close e1) = e_final e1 /\ e_cache (maybe_close e1) = e_cache e1 /\ e_arb (maybe_close e1) = e_arb e1 /\ e_meta (maybe_close e1) = e_meta e1 /\
     e_wait (maybe_close e1) = e_wait e1 /\ e_gen (maybe_close e1) = e_gen e1 /\ generating_units (maybe_close e1) = generating_units e1 /\
     (e_closed (maybe_close e1), e_done (maybe_close e1)) = if generating_units e1 then (e_closed e1, e_done e1) else (true, true)).
  { intro e1. unfold maybe_close. destruct (generating_units e1) eqn:G; repeat split; auto. }
  assert (TK : forall e1 : enc, g_stage (e_gen e1) = Taking -> generating_units e1 = true) by (intros e1 Q; unfold generating_units, taking; now rewrite Q).
  destruct fs as [|f0 fs0] eqn:Fs.
  - exists cs. destruct (e_final e) eqn:Fin'.
    + destruct (splice_first (e_arb e)) as (arbs, rest) eqn:Sp. pose proof (splice_first_perm _ _ _ Sp) as Ap. rs H Ep. injection H as <- <-.
      set (e1 := mkEnc _ true rest metas wait g3 _ _) in *. destruct (MC e1) as (m1 & m2 & m3 & m4 & m5 & m6 & m7 & m8). constructor.
      * now rewrite m1.
      * now rewrite m2.
      * rewrite C2. unfold l. now rewrite Fin'.
      * intro X. rewrite C1, m6. destruct (FrameGen.nil arbs); reflexivity.
      * destruct arbs as [|o os]; [exact I|]. cbn [FrameGen.nil] in *. now apply push_arbs with tt.
      * intros k Hk. destruct (W k Hk) as (done & bs & W1' & W2' & W3'). exists done, bs. rewrite m4, m5. split; [exact W1'|]. split; [eapply f2_impl; [|exact W2']; intros a b _ Q; exists []; auto|].
        destruct (FrameGen.nil arbs); exact W3'.
      * now rewrite m4.
      * rewrite m3. destruct arbs as [|o os]; exact Ap.
      * congruence.
      * intros _. rewrite m7, m8. reflexivity.
    + injection H as <- <-. constructor; cbn [e_final e_cache e_gen e_meta e_wait e_arb e_closed e_done]; auto.
      * rewrite C2. unfold l. now rewrite Fin'.
      * intros k Hk. destruct (W k Hk) as (done & bs & W1' & W2' & W3'). exists done, bs. split; [exact W1'|]. split; [eapply f2_impl; [|exact W2']; intros a b _ Q; exists []; auto | exact W3'].
      * congruence.
  - destruct (same_times f0 (f0 :: fs0)) eqn:Sm; cbn [negb] in H; [|discriminate]. rb H rr Err'. destruct rr as (br, c3). cbn [fst snd] in H. destruct (generate_facts _ _ _ _ _ _ Err') as (R1 & R2).
    destruct (splice (o_t0 f0) (e_arb e)) as (arbs, rest) eqn:Sp. pose proof (splice_perm _ _ _ _ Sp) as Ap. rewrite set_env_with in H by exact R1.
    rs H Ep. injection H as <- <-. set (wait2 := upd KRecon _ wait) in *. set (u := mkUnit _ (f0 :: fs0) arbs) in *. set (e1 := mkEnc _ (e_final e) rest _ _ _ _ _) in *.
    destruct (MC e1) as (m1 & m2 & m3 & m4 & m5 & m6 & m7 & m8). exists (cs ++ [Params (g_pm g3) (g_param c3)]). constructor.
    + now rewrite m1.
    + now rewrite m2.
    + rewrite filter_app. cbn [filter plain]. rewrite app_nil_r. exact C2.
    + intro X. rewrite session_app, C1. cbn [rbind FrameGenSpec.session call_step fst snd]. rewrite m6. reflexivity.
    + eapply push_frames; [| |exact Ep|exact Sm]; [discriminate | reflexivity].
    + intros k Hk. rewrite m4, m5. cbn [e1 e_meta e_wait u u_blocks]. destruct (kind_eqb KRecon k) eqn:Ek.
      * destruct k; cbn [kind_eqb] in Ek; try discriminate Ek. destruct W2 as (W21 & W22). exists (e_meta e KRecon), br. split; [unfold upd; cbn [kind_eqb]; now rewrite app_nil_r|].
        split; [rewrite <- W21; eapply f2_impl; [|exact R2]; intros a b _ Q; exists (f0 :: fs0); split; [right; split; [reflexivity|]; exists u; auto | exact Q]|].
        rewrite due_app. unfold wait2, upd. cbn [kind_eqb]. now rewrite <- W22.
      * destruct (W k Hk) as (done & bs & W1' & W2' & W3'). exists done, bs. split; [unfold upd; rewrite Ek; exact W1'|].
        split; [eapply f2_impl; [|exact W2']; intros a b _ Q; exists []; auto|].
        assert (Q : wait2 k = wait k) by (unfold wait2, upd; now rewrite Ek). rewrite <- W3', <- Q. destruct k; try apply due_app; easy.
    + now rewrite m4.
    + rewrite m3. exact Ap.
    + intros F S0. rewrite m6. assert (S3 : g_stage (e_gen e1) = Taking) by (apply St; auto). split; [exact S3|]. rewrite (TK _ S3) in m8. now injection m8 as -> ->.
    + intros _. rewrite m7. exact m8.
Qed.
End Facts.
