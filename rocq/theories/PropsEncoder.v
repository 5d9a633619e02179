(* C68: the encoder.  What was given to Encode and at construction comes out of OutputTemporalUnit, in units which fit together:
   [EncoderSpec] and [FrameGenSpec] hold the words. *)
From Verif Require Import PropsTU PropsLabels PropsUnit.
From Verif Require PropsDemix.
From Verif Require Import Base WriteBuf CodecConfig Params AudioElement Timing ParamManager TempUnit AeData Demix SubFrames FrameGen FrameGenFacts FrameGenSpec FrameGenRun FrameGenInit FrameGenEnds PropsFrameGen Encoder EncoderSpec EncoderFacts.
From Coq Require Import Lia Permutation.

(* the frame generator was called as the user asked, and its frames are those of the units *)
Lemma units_from : forall {T P M} A lin quant (code : Z -> list (list Z) -> res P) kind_of (subs_of : kind -> list (oframe T P) -> @bmeta M -> res (list (option pdata))) order cf calls e us e' us',
  erun A lin quant code kind_of subs_of order cf calls (e, us) = Ok (e', us') ->
  (exists gcalls, session A lin quant code cf gcalls (e_gen e, flat_map u_frames us) = Ok (e_gen e', flat_map u_frames us') /\
     filter plain gcalls = asked order calls (e_cache e) (e_final e)) /\
  (Forall proper_unit us -> Forall proper_unit us').
Proof.
  intros T P M A lin quant code kind_of subs_of order cf. induction calls as [|c calls IH]; intros e us e' us' H; cbn [erun] in H.
  - injection H as <- <-. split; [exists []; split; reflexivity | auto].
  - rb H s E. destruct s as (e1, us1). destruct (IH _ _ _ _ H) as ((g1 & G1 & G2) & G3). destruct c as [d | |]; cbn [estep fst snd] in E.
    + rb E e2 E2. injection E as <- <-. unfold encode in E2. rb E2 m Em. injection E2 as <-. cbn [e_gen e_cache e_final] in *. split; [|exact G3]. exists g1. split; [exact G1|]. cbn [asked]. exact G2.
    + injection E as <- <-. unfold finalize_encode in *. split; [|exact G3]. exists g1. cbn [asked]. destruct (e_final e) eqn:F; [rewrite F in G2; auto|]. unfold maybe_close in *. destruct (generating_units _); auto.
    + rb E r Er. destruct r as (e2, ou). cbn [fst snd] in E. injection E as <- <-. destruct (output_step _ _ _ _ _ _ _ _ _ _ Er) as (cs & [o1 o2 o3 o4 o5 o6 o7 o8 o9 o10]). split.
      * exists (cs ++ g1). rewrite session_app, o4. cbn [rbind]. rewrite filter_app, o3, G2, o2, o1.
        cbn [asked]. unfold adds. rewrite <- !app_assoc. split; [|reflexivity]. rewrite flat_map_app in G1. destruct ou as [u|]; cbn [flat_map] in G1; rewrite ?app_nil_r in *; exact G1.
      * intro F. apply G3. apply Forall_app. split; [exact F|]. destruct ou; auto.
Qed.
(* OutputTemporalUnit hands the calls over and makes temporal units: *)
Theorem C68_units : forall {T P M} (A : arith T) lin quant (code : Z -> list (list Z) -> res P) kind_of (subs_of : kind -> list (oframe T P) -> @bmeta M -> res (list (option pdata))) order cf arbs g calls e us,
  erun A lin quant code kind_of subs_of order cf calls (new_enc arbs g, []) = Ok (e, us) ->
  Forall proper_unit us /\
  exists gcalls, filter plain gcalls = asked order calls [] false /\ session A lin quant code cf gcalls (g, []) = Ok (e_gen e, flat_map u_frames us).
Proof.
  intros T P M A lin quant code kind_of subs_of order cf arbs g calls e us H. destruct (units_from _ _ _ _ _ _ _ _ _ _ _ _ _ H) as ((gc & G1 & G2) & G3).
  split; [apply G3; constructor|]. exists gc. split; assumption.
Qed.

(* every parameter block which was asked for is made once, and comes out once, in the order in which they were asked for, or is
   still kept back; with the times which were asked for *)
Lemma blocks_from : forall {T P M} A lin quant (code : Z -> list (list Z) -> res P) kind_of (subs_of : kind -> list (oframe T P) -> @bmeta M -> res (list (option pdata))) order cf k calls e us e' us',
  k <> KOther -> erun A lin quant code kind_of subs_of order cf calls (e, us) = Ok (e', us') ->
  exists done bs new, us' = us ++ new /\ e_meta e k ++ given kind_of k calls = done ++ e_meta e' k /\
    Forall2 (fun m b => exists fs, (fs = [] \/ k = KRecon /\ exists u, In u new /\ fs = u_frames u) /\ made_from subs_of k fs m b) done bs /\
    flat_map (fun u => u_blocks u k) us' ++ e_wait e' k = flat_map (fun u => u_blocks u k) us ++ e_wait e k ++ bs.
Proof.
  intros T P M A lin quant code kind_of subs_of order cf k calls e us e' us' Hk. revert e us. induction calls as [|c calls IH]; intros e us H; cbn [erun] in H.
  - injection H as <- <-. exists [], [], []. rewrite !app_nil_r. repeat split. constructor.
  - rb H s E. destruct s as (e1, us1). destruct (IH _ _ H) as (done & bs & new & B0 & B1 & B2 & B3). destruct c as [d | |]; cbn [estep fst snd] in E.
    + rb E e2 E2. injection E as <- <-. unfold encode in E2. rb E2 m Em. injection E2 as <-. cbn [e_meta e_wait] in *.
      exists done, bs, new. split; [exact B0|]. split; [|split; assumption]. unfold given. cbn [flat_map]. fold (given kind_of k calls). rewrite <- B1, app_assoc. f_equal.
      clear -Em. revert Em. generalize (e_meta e) as m0. induction (ed_meta d) as [|b l IHl]; intros m0 Em; cbn [add_metas] in Em; [injection Em as <-; cbn [filter]; apply app_nil_r|].
      cbn [filter]. destruct (kind_of (bm_id b)) as [k'|]; [|discriminate]. rewrite <- (IHl _ Em). unfold upd at 1. destruct (kind_eqb k' k) eqn:Q.
      * assert (kind_eqb k k' = true) as -> by (destruct k, k'; auto). assert (k' = k) as -> by (destruct k, k'; easy). now rewrite <- app_assoc.
      * assert (kind_eqb k k' = false) as -> by (destruct k, k'; auto). reflexivity.
    + injection E as <- <-. exists done, bs, new. unfold finalize_encode, maybe_close in *. cbn [given flat_map app]. fold (given kind_of k calls).
      destruct (e_final e); [repeat split; assumption|]. destruct (generating_units _); repeat split; assumption.
    + rb E r Er. destruct r as (e2, ou). cbn [fst snd] in E. injection E as <- <-. destruct (output_step _ _ _ _ _ _ _ _ _ _ Er) as (cs & [o1 o2 o3 o4 o5 o6 o7 o8 o9 o10]).
      destruct (o6 k Hk) as (d1 & b1 & X1 & X2 & X3). exists (d1 ++ done), (b1 ++ bs), (match ou with Some u => [u] | None => [] end ++ new).
      split; [rewrite B0, app_assoc; reflexivity|]. split; [cbn [given flat_map app]; fold (given kind_of k calls); rewrite X1, <- !app_assoc; now f_equal|].
      split.
      * apply Forall2_app; [eapply f2_impl; [|exact X2] | eapply f2_impl; [|exact B2]].
        -- intros m b _ (fs & [-> | (K1 & u & -> & ->)] & K2); [exists []; auto|]. exists (u_frames u). split; [|exact K2]. right. split; [exact K1|]. exists u. split; [now left | reflexivity].
        -- intros m b _ (fs & [-> | (K1 & u & K2 & ->)] & K3); [exists []; auto|]. exists (u_frames u). split; [|exact K3]. right. split; [exact K1|]. exists u. split; [apply in_or_app; now right | reflexivity].
      * rewrite B3, flat_map_app. assert (Y : flat_map (fun u => u_blocks u k) (match ou with Some u => [u] | None => [] end) = match ou with Some u => u_blocks u k | None => [] end) by (destruct ou; cbn [flat_map]; [apply app_nil_r | reflexivity]).
        rewrite Y, <- !app_assoc. f_equal. rewrite !app_assoc. f_equal. exact X3.
Qed.
Theorem C68_blocks : forall {T P M} (A : arith T) lin quant (code : Z -> list (list Z) -> res P) kind_of (subs_of : kind -> list (oframe T P) -> @bmeta M -> res (list (option pdata))) order cf arbs g calls e us k,
  erun A lin quant code kind_of subs_of order cf calls (new_enc arbs g, []) = Ok (e, us) -> k <> KOther ->
  exists asked_for made, given kind_of k calls = asked_for ++ e_meta e k /\ flat_map (fun u => u_blocks u k) us ++ e_wait e k = made /\
    Forall2 (fun m b => exists fs, (fs = [] \/ k = KRecon /\ exists u, In u us /\ fs = u_frames u) /\ made_from subs_of k fs m b) asked_for made.
Proof.
  intros T P M A lin quant code kind_of subs_of order cf arbs g calls e us k H Hk. destruct (blocks_from _ _ _ _ _ _ _ _ k _ _ _ _ _ Hk H) as (done & bs & new & B0 & B1 & B2 & B3).
  cbn [new_enc e_meta e_wait app flat_map] in *. exists done, bs. subst us. auto.
Qed.
(* every arbitrary OBU with a timestamp comes out once, or is still kept back *)
Theorem C68_arbitrary : forall {T P M} (A : arith T) lin quant (code : Z -> list (list Z) -> res P) kind_of (subs_of : kind -> list (oframe T P) -> @bmeta M -> res (list (option pdata))) order cf arbs g calls e us,
  erun A lin quant code kind_of subs_of order cf calls (new_enc arbs g, []) = Ok (e, us) ->
  Permutation (flat_map u_arb us ++ concat (map snd (e_arb e))) (filter timed arbs).
Proof.
  intros T P M A lin quant code kind_of subs_of order cf arbs g calls e us H.
  assert (Q : forall calls e us e' us', erun A lin quant code kind_of subs_of order cf calls (e, us) = Ok (e', us') ->
    Permutation (flat_map u_arb us' ++ concat (map snd (e_arb e'))) (flat_map u_arb us ++ concat (map snd (e_arb e)))).
  { clear. induction calls as [|c calls IH]; intros e us e' us' H; cbn [erun] in H; [injection H as <- <-; reflexivity|].
    rb H s E. destruct s as (e1, us1). etransitivity; [exact (IH _ _ _ _ H)|]. clear IH H. destruct c as [d | |]; cbn [estep fst snd] in E.
    - rb E e2 E2. injection E as <- <-. unfold encode in E2. rb E2 m Em. injection E2 as <-. reflexivity.
    - injection E as <- <-. unfold finalize_encode, maybe_close. destruct (e_final e); [reflexivity|]. destruct (generating_units _); reflexivity.
    - rb E r Er. destruct r as (e2, ou). cbn [fst snd] in E. injection E as <- <-. destruct (output_step _ _ _ _ _ _ _ _ _ _ Er) as (cs & [o1 o2 o3 o4 o5 o6 o7 o8 o9 o10]).
      rewrite flat_map_app, <- app_assoc. apply Permutation_app_head. destruct ou as [u|]; cbn [flat_map]; rewrite ?app_nil_r; exact o8. }
  etransitivity; [exact (Q _ _ _ _ _ H)|]. cbn [new_enc e_arb flat_map app]. unfold arrange. etransitivity; [apply arrange_perm|]. reflexivity.
Qed.
(* the end *)
Definition ends {T M} (calls : list (@ecall T M)) : bool := existsb (fun c => match c with FinalizeEncode => true | _ => false end) calls.
Lemma output_over : forall {T P M} A lin quant (code : Z -> list (list Z) -> res P) (subs_of : kind -> list (oframe T P) -> @bmeta M -> res (list (option pdata))) order cf e e' ou,
  generating_units e = false -> output A lin quant code subs_of order cf e = Ok (e', ou) -> generating_units e' = false /\ ou = None.
Proof.
  intros T P M A lin quant code subs_of order cf e e' ou HG H. unfold generating_units in HG. apply orb_false_iff in HG. destruct HG as (HG & G3). apply orb_false_iff in HG. destruct HG as (G1 & G2).
  unfold generating in G2. assert (G2' : g_coders (e_gen e) = []) by (destruct (g_coders (e_gen e)); [reflexivity | discriminate]). assert (G3' : e_arb e = []) by (destruct (e_arb e); [reflexivity | discriminate]).
  assert (G1' : g_stage (e_gen e) <> Taking) by (unfold taking in G1; destruct (g_stage (e_gen e)); [discriminate | discriminate | discriminate]).
  unfold output in H. rb H rd Ed. rb H rm Em. cbv zeta in H. rb H g1 Ea. rb H r Er. destruct r as (g3, fs). cbn [fst snd] in H.
  apply cached_stage in Ea. destruct Ea as (Ea1 & Ea2). cbn [set_env g_stage g_coders] in Ea1, Ea2. rewrite G2' in Ea2. cbn [map] in Ea2. assert (Q : g_coders g1 = []) by (now destruct (g_coders g1)).
  assert (Q2 : g_coders (if e_final e then finalize g1 else g1) = []) by (destruct (e_final e); [unfold finalize; destruct (g_stage g1); exact Q | exact Q]).
  assert (Q3 : g_stage (if e_final e then finalize g1 else g1) <> Taking) by (destruct (e_final e); [apply finalize_stage | congruence]).
  destruct (out_quiet _ _ _ _ _ _ _ _ Q2 Er) as (Q4 & ->). pose proof (out_not_taking _ _ _ _ _ _ _ _ Q3 Er) as Q5.
  assert (Q6 : taking g3 = false) by (unfold taking; destruct (g_stage g3); [easy | reflexivity | reflexivity]). rewrite G3' in H. cbn [splice_first FrameGen.nil] in H.
  assert (Q7 : forall e1 : @enc T P M, e_gen e1 = g3 -> e_arb e1 = [] -> generating_units e1 = false) by (intros e1 Y1 Y2; unfold generating_units, generating; rewrite Y1, Y2, Q6, Q4; reflexivity).
  destruct (e_final e); [|injection H as <- <-; split; [apply Q7; reflexivity | reflexivity]]. unfold rthen in H. cbn [rbind] in H. injection H as <- <-. split; [|reflexivity].
  match goal with |- generating_units (maybe_close ?e1) = _ => assert (X : generating_units e1 = false) by (apply Q7; reflexivity); unfold maybe_close; rewrite X end.
  apply Q7; reflexivity.
Qed.
Definition tracked {T P M} (f : bool) (e : @enc T P M) : Prop :=
  e_final e = f /\ e_closed e = e_done e /\ (f = false -> g_stage (e_gen e) = Taking /\ e_done e = false) /\ (f = true -> e_done e = negb (generating_units e)).
Lemma tracked_step : forall {T P M} A lin quant (code : Z -> list (list Z) -> res P) kind_of (subs_of : kind -> list (oframe T P) -> @bmeta M -> res (list (option pdata))) order cf c f e us e' us',
  tracked f e -> estep A lin quant code kind_of subs_of order cf c (e, us) = Ok (e', us') ->
  tracked (f || ends [c]) e' /\ (f = true -> generating_units e = false -> us' = us /\ generating_units e' = false).
Proof.
  intros T P M A lin quant code kind_of subs_of order cf c f e us e' us' (T1 & T2 & T3 & T4) E. destruct c as [d | |]; cbn [estep fst snd] in E; unfold ends; cbn [existsb orb]; rewrite ?orb_false_r, ?orb_true_r.
  - rb E e2 E2. injection E as <- <-. unfold encode in E2. rb E2 m Em. injection E2 as <-. split; [|intros; split; [reflexivity | assumption]]. repeat split; cbn [e_final e_closed e_done e_gen]; auto; apply T3; assumption.
  - injection E as <- <-. unfold finalize_encode. rewrite T1. destruct f.
    + split; [split; [exact T1|]; split; [exact T2|]; split; [discriminate | exact T4] | intros _ G; split; [reflexivity | exact G]].
    + destruct (T3 eq_refl) as (S1 & S2). assert (G : forall b, generating_units (mkEnc (e_cache e) b (e_arb e) (e_meta e) (e_wait e) (e_gen e) (e_closed e) (e_done e)) = true) by (intro b; unfold generating_units, taking; cbn [e_gen]; now rewrite S1).
      unfold maybe_close. rewrite G. split; [|discriminate]. split; [reflexivity|]. split; [exact T2|]. split; [discriminate|]. intros _. rewrite G. exact S2.
  - rb E r Er. destruct r as (e2, ou). cbn [fst snd] in E. injection E as <- <-. destruct (output_step _ _ _ _ _ _ _ _ _ _ Er) as (cs & [o1 o2 o3 o4 o5 o6 o7 o8 o9 o10]).
    assert (OV : generating_units e = false -> generating_units e2 = false /\ ou = None) by (intro; eapply output_over; eassumption).
    split; [|intros _ G; destruct (OV G) as (O1 & ->); split; [apply app_nil_r | exact O1]].
    destruct f.
    + specialize (o10 T1). specialize (T4 eq_refl). unfold tracked. rewrite o1, T1. destruct (generating_units e2) eqn:G2.
      * injection o10 as -> ->. split; [reflexivity|]. split; [exact T2|]. split; [discriminate|]. intros _. destruct (generating_units e) eqn:G; [exact T4|]. destruct (OV eq_refl). congruence.
      * injection o10 as -> ->. repeat split; discriminate || reflexivity.
    + destruct (T3 eq_refl) as (S1 & S2). destruct (o9 T1 S1) as (X1 & X2 & X3). unfold tracked. rewrite o1, X2, X3. split; [exact T1|]. split; [exact T2|]. split; [intros _; split; assumption | discriminate].
Qed.
Lemma tracked_run : forall {T P M} A lin quant (code : Z -> list (list Z) -> res P) kind_of (subs_of : kind -> list (oframe T P) -> @bmeta M -> res (list (option pdata))) order cf calls f e us e' us',
  tracked f e -> erun A lin quant code kind_of subs_of order cf calls (e, us) = Ok (e', us') ->
  tracked (f || ends calls) e' /\ (f = true -> generating_units e = false -> us' = us /\ generating_units e' = false).
Proof.
  intros T P M A lin quant code kind_of subs_of order cf. induction calls as [|c calls IH]; intros f e us e' us' HT H; cbn [erun] in H.
  - injection H as <- <-. unfold ends. cbn [existsb]. rewrite orb_false_r. auto.
  - rb H s E. destruct s as (e1, us1). destruct (tracked_step _ _ _ _ _ _ _ _ _ _ _ _ _ _ HT E) as (S1 & S2). destruct (IH _ _ _ _ _ S1 H) as (R1 & R2).
    split; [unfold ends in *; cbn [existsb] in *; now rewrite orb_false_r, <- orb_assoc in R1|]. intros F G. destruct (S2 F G) as (-> & G1). apply R2; [now rewrite F | exact G1].
Qed.
Theorem C68_end : forall {T P M} (A : arith T) lin quant (code : Z -> list (list Z) -> res P) kind_of (subs_of : kind -> list (oframe T P) -> @bmeta M -> res (list (option pdata))) order cf arbs g calls e us,
  g_stage g = Taking -> erun A lin quant code kind_of subs_of order cf calls (new_enc arbs g, []) = Ok (e, us) ->
  let over := ends calls && negb (generating_units e) in
  e_closed e = over /\ e_done e = over /\
  (over = true -> forall more e' us', erun A lin quant code kind_of subs_of order cf more (e, us) = Ok (e', us') -> us' = us /\ e_closed e' = true /\ e_done e' = true /\ generating_units e' = false).
Proof.
  intros T P M A lin quant code kind_of subs_of order cf arbs g calls e us HS H.
  assert (T0 : tracked false (new_enc arbs g : @enc T P M)) by (repeat split; auto; discriminate).
  destruct (tracked_run _ _ _ _ _ _ _ _ _ _ _ _ _ _ T0 H) as (R & _). cbn [orb] in R. cbv zeta. pose proof R as (R1 & R2 & R3 & R4). rewrite R2.
  assert (D : e_done e = ends calls && negb (generating_units e)) by (destruct (ends calls); [now apply R4 | now apply R3]).
  split; [exact D|]. split; [exact D|]. intros O more e' us' H'. apply andb_true_iff in O. destruct O as (O1 & O2). rewrite O1 in R. assert (O3 : generating_units e = false) by (now destruct (generating_units e)).
  destruct (tracked_run _ _ _ _ _ _ _ _ _ _ _ _ _ _ R H') as ((S1 & S2 & S3 & S4) & S5). destruct (S5 eq_refl O3) as (-> & G). cbn [orb] in S4. specialize (S4 eq_refl). rewrite G in S4. cbn [negb] in S4.
  repeat split; congruence.
Qed.

(* ----- the documented loop ----- *)
Section Loop.
Context {T : Type}.
Notation centry := (@centry T).
Notation adds := (@adds T).
Variable order : list centry -> list centry.
Hypothesis order_ok : forall l, Permutation (order l) l.
(* what the cache holds for an element *)
Definition own (id : Z) (c : list centry) : list (label * list T) :=
  flat_map (fun e => if (fst (fst e) =? id) && some_samples e then [(snd (fst e), snd e)] else []) c.
Lemma nil_iff : forall {X} (l : list X), FrameGen.nil l = true <-> l = [].
Proof. intros X [|x l]; cbn [FrameGen.nil]; split; easy. Qed.
Lemma own_put : forall id i l xs c, xs <> [] -> (i = id -> ~ In l (map fst (own id c))) ->
  Permutation (own id (c_put i l xs c)) ((if i =? id then [(l, xs)] else []) ++ own id c).
Proof.
  intros id i l xs c Hx. assert (N : FrameGen.nil xs = false) by (now destruct xs). induction c as [|((j, l'), ys) c IH]; intro HI; cbn [c_put own flat_map].
  - unfold some_samples. cbn [fst snd]. rewrite N. cbn [negb]. rewrite andb_true_r. reflexivity.
  - destruct (Z.eqb_spec j i) as [-> | D].
    + destruct (label_eq_dec l' l) as [-> | D].
      * cbn [andb flat_map]. unfold some_samples at 1 3. cbn [fst snd]. rewrite N. cbn [negb]. rewrite andb_true_r. destruct (Z.eqb_spec i id) as [-> | D]; cbn [andb app]; [|reflexivity].
        destruct ys as [|y ys]; [cbn [FrameGen.nil negb app]; reflexivity|]. exfalso. apply (HI eq_refl). unfold own. cbn [flat_map fst snd some_samples FrameGen.nil negb]. rewrite Z.eqb_refl. cbn [andb app map fst]. now left.
      * cbn [andb flat_map]. unfold own in *. cbn [flat_map] in HI. fold (own id c) in *. rewrite map_app in HI.
        etransitivity; [apply Permutation_app_head, IH; intros Q Q2; apply (HI Q), in_or_app; now right|]. rewrite !app_assoc. apply Permutation_app_tail, Permutation_app_comm.
    + cbn [andb flat_map]. unfold own in *. cbn [flat_map] in HI. fold (own id c) in *. rewrite map_app in HI.
      etransitivity; [apply Permutation_app_head, IH; intros Q Q2; apply (HI Q), in_or_app; now right|]. rewrite !app_assoc. apply Permutation_app_tail, Permutation_app_comm.
Qed.
Lemma own_fill_one : forall id i ss c, NoDup (map fst ss) -> (i = id -> forall l, In l (map fst ss) -> ~ In l (map fst (own id c))) ->
  Permutation (own id (fold_left (fun c s => if FrameGen.nil (snd s) then c else c_put i (fst s) (snd s) c) ss c))
    (own id c ++ if i =? id then filter (fun s => negb (FrameGen.nil (snd s))) ss else []).
Proof.
  intros id i. induction ss as [|(l, xs) ss IH]; intros c N HI; cbn [fold_left filter fst snd]; [destruct (i =? id); now rewrite app_nil_r|].
  cbn [map fst] in N. inversion N as [|? ? N1 N2]; subst. destruct xs as [|x xs]; cbn [FrameGen.nil negb].
  - apply IH; [exact N2|]. intros Q l' Hl. apply HI; [exact Q | now right].
  - pose proof (own_put id i l (x :: xs) c ltac:(discriminate) ltac:(intro Q; apply HI; [exact Q | now left])) as PU.
    etransitivity; [apply IH; [exact N2|]|].
    + intros Q l' Hl Hin. apply (Permutation_in _ (Permutation_map fst PU)) in Hin. rewrite map_app in Hin. apply in_app_or in Hin. destruct Hin as [Hin | Hin]; [|apply (HI Q l' (or_intror Hl) Hin)].
      subst i. rewrite Z.eqb_refl in Hin. cbn in Hin. destruct Hin as [<- | []]. contradiction.
    + rewrite PU. destruct (i =? id); cbn [app]; [|reflexivity]. rewrite Permutation_middle. reflexivity.
Qed.
Lemma own_fill : forall id (l : list (Z * list (label * list T))) c, NoDup (map fst l) -> Forall (fun e => NoDup (map fst (snd e))) l -> (In id (map fst l) -> own id c = []) ->
  Permutation (own id (fill_cache l c)) (own id c ++ flat_map (fun e => if fst e =? id then filter (fun s => negb (FrameGen.nil (snd s))) (snd e) else []) l).
Proof.
  intros id. unfold fill_cache. induction l as [|(i, ss) l IH]; intros c N F HI; cbn [fold_left flat_map fst snd]; [now rewrite app_nil_r|].
  cbn [map fst] in N. inversion N as [|? ? N1 N2]; subst. inversion F as [|? ? F1 F2]; subst. cbn [snd] in F1.
  assert (PU := own_fill_one id i ss c F1 ltac:(intros -> l' _; rewrite HI by (now left); intros [])).
  etransitivity; [apply IH; [exact N2 | exact F2 |]|].
  - intro Hin. apply Permutation_nil. symmetry. etransitivity; [exact PU|]. rewrite HI by now right. destruct (Z.eqb_spec i id); [subst; contradiction | reflexivity].
  - rewrite PU, <- app_assoc. reflexivity.
Qed.
Lemma own_emptied : forall id c, own id (emptied_cache c) = [].
Proof. intros id. induction c as [|e c IH]; [reflexivity|]. unfold own, emptied_cache in *. cbn [map flat_map fst snd]. unfold some_samples at 1. cbn [snd FrameGen.nil negb]. rewrite andb_false_r. exact IH. Qed.
Lemma own_perm : forall id a b, Permutation a b -> Permutation (own id a) (own id b).
Proof.
  intros id a b H. unfold own. induction H; cbn [flat_map]; [reflexivity | now apply Permutation_app_head | rewrite !app_assoc; apply Permutation_app_tail, Permutation_app_comm | etransitivity; eassumption].
Qed.
Lemma own_some : forall id c, own id (filter some_samples c) = own id c.
Proof. intros id. induction c as [|e c IH]; [reflexivity|]. cbn [filter]. unfold own in *. cbn [flat_map]. destruct (some_samples e) eqn:Q; cbn [flat_map]; rewrite IH, ?Q; [reflexivity|]. now rewrite andb_false_r. Qed.
Lemma some_all : forall c, Forall (fun e => some_samples e = true) (filter some_samples (c : list centry)).
Proof. intro c. apply Forall_forall. intros e He. apply filter_In in He. tauto. Qed.
Lemma adds_own : forall id c, Forall (fun e => some_samples e = true) c -> adds_of id (adds c) = own id c.
Proof.
  intros id c H. induction H as [|((i, l), xs) c H1 H IH]; [reflexivity|]. unfold adds_of, own, EncoderFacts.adds in *. cbn [map flat_map fst snd]. rewrite IH, H1, andb_true_r. reflexivity.
Qed.
Lemma adds_app : forall id (a b : list (call T)), adds_of id (a ++ b) = adds_of id a ++ adds_of id b.
Proof. intros. apply flat_map_app. Qed.
(* the samples handed on after an Encode *)
Definition handed {M} (d : @edata T M) (c : list centry) : list centry := order (filter some_samples (fill_cache (ed_samples d) c)).
Lemma handed_own : forall {M} id (d : @edata T M) c, maps_ok d -> own id c = [] -> Permutation (own id (handed d c)) (fed id d).
Proof. intros M id d c (N & F) H. unfold handed. rewrite (own_perm id _ _ (order_ok _)), own_some, (own_fill id _ c N F (fun _ => H)), H. reflexivity. Qed.
Lemma handed_some : forall {M} (d : @edata T M) c, Forall (fun e => some_samples e = true) (handed d c).
Proof. intros. eapply Permutation_Forall; [symmetry; apply order_ok | apply some_all]. Qed.
Lemma last_own : forall id c, Forall (fun e => some_samples e = true) c -> own id c <> [] ->
  exists c1 l xs c2, c = c1 ++ (id, l, xs) :: c2 /\ Forall (fun e => fst (fst e) <> id) c2.
Proof.
  intros id c H. induction H as [|((i, l), xs) c H1 H IH]; intro HN; [easy|]. destruct (own id c) as [|o os] eqn:Q.
  - unfold own in HN. cbn [flat_map fst snd] in HN. fold (own id c) in HN. rewrite Q, H1, andb_true_r in HN. destruct (Z.eqb_spec i id) as [-> | D]; [|easy].
    exists [], l, xs, c. split; [reflexivity|]. clear -Q H. induction H as [|((i, l2), ys) c H1 H IH]; constructor.
    + unfold own in Q. cbn [flat_map fst snd] in Q. rewrite H1, andb_true_r in Q. cbn [fst]. destruct (Z.eqb_spec i id); [discriminate | assumption].
    + apply IH. unfold own in Q. cbn [flat_map] in Q. now apply app_eq_nil in Q.
  - destruct IH as (c1 & l2 & ys & c2 & -> & I2); [discriminate|]. exists ((i, l, xs) :: c1), l2, ys, c2. auto.
Qed.
Lemma loop_calls : forall {M} id (ds : list (@edata T M)) dl post c, Forall maps_ok (ds ++ [dl]) -> fed id dl <> [] -> own id c = [] ->
  exists p1 l xs p2 post' rounds, asked order (documented ds dl post) c false = p1 ++ Add id l xs :: p2 ++ Fin :: post' /\
    Forall (fun c => c <> Fin) p1 /\ Forall (fun c => exists i l' ys, c = Add i l' ys /\ i <> id) p2 /\
    adds_of id p1 ++ [(l, xs)] = concat rounds /\ Forall2 (@Permutation (label * list T)) (rounds_of id (ds ++ [dl])) rounds.
Proof.
  intros M id ds dl post. assert (NF : forall c : list centry, Forall (fun c => c <> Fin) (adds c)) by (intro c; apply Forall_forall; intros x Hx; apply in_map_iff in Hx; destruct Hx as (e & <- & _); discriminate).
  induction ds as [|d ds IH]; intros c HM HF HO; unfold documented; cbn [flat_map app asked].
  - inversion HM as [|? ? M1 _]; subst. pose proof (handed_own id dl c M1 HO) as PO. pose proof (handed_some dl c) as HS.
    assert (HN : own id (handed dl c) <> []) by (intro Q; rewrite Q in PO; apply Permutation_nil in PO; contradiction).
    destruct (last_own id _ HS HN) as (c1 & l & xs & c2 & E & F2).
    change (map (fun e : Z * label * list T => Add (fst (fst e)) (snd (fst e)) (snd e)) (order (filter some_samples (fill_cache (ed_samples dl) c)))) with (adds (handed dl c)).
    exists (adds c1), l, xs, (adds c2), (Out :: asked order post (emptied_cache (fill_cache (ed_samples dl) c)) true), [own id (handed dl c)].
    split; [rewrite E; unfold EncoderFacts.adds; rewrite map_app; cbn [map fst snd]; rewrite <- app_assoc; reflexivity|]. split; [apply NF|].
    split; [apply Forall_forall; intros x Hx; apply in_map_iff in Hx; destruct Hx as (((i, l'), ys) & <- & Hx); exists i, l', ys; split; [reflexivity | rewrite Forall_forall in F2; exact (F2 _ Hx)]|].
    split.
    + cbn [concat]. rewrite app_nil_r, <- adds_own by exact HS. rewrite E. unfold EncoderFacts.adds. rewrite map_app, adds_app. f_equal. cbn [map fst snd adds_of flat_map]. rewrite Z.eqb_refl. cbn [app]. f_equal.
      rewrite E in HS. apply Forall_app in HS. destruct HS as (_ & HS). inversion HS as [|? ? _ HS2]; subst. change (@nil (label * list T)) with ([] : list (label * list T)). symmetry.
      fold (adds_of id (map (fun e : centry => Add (fst (fst e)) (snd (fst e)) (snd e)) c2)). clear -F2. induction F2 as [|((i, l), xs) c2 H F2 IH]; [reflexivity|]. cbn [map adds_of flat_map fst snd] in *. destruct (Z.eqb_spec i id); [contradiction|]. exact IH.
    + unfold rounds_of. cbn [app map filter]. destruct (fed id dl) eqn:Q; [now destruct HF|]. cbn [FrameGen.nil negb]. constructor; [exact (Permutation_sym PO) | constructor].
  - inversion HM as [|? ? M1 M2]; subst. pose proof (handed_own id d c M1 HO) as PO. pose proof (handed_some d c) as HS.
    destruct (IH (emptied_cache (fill_cache (ed_samples d) c)) M2 HF (own_emptied _ _)) as (p1 & l & xs & p2 & post' & rounds & E & I1 & I2 & I3 & I4).
    unfold documented in E. rewrite E.
    change (map (fun e : Z * label * list T => Add (fst (fst e)) (snd (fst e)) (snd e)) (order (filter some_samples (fill_cache (ed_samples d) c)))) with (adds (handed d c)).
    exists (adds (handed d c) ++ Out :: p1), l, xs, p2, post', (if FrameGen.nil (fed id d) then rounds else own id (handed d c) :: rounds).
    split; [rewrite <- app_assoc; reflexivity|]. split; [apply Forall_app; split; [apply NF | constructor; [discriminate | exact I1]]|]. split; [exact I2|].
    rewrite adds_app, adds_own by exact HS. unfold rounds_of. cbn [app map filter]. fold (rounds_of id (ds ++ [dl])). destruct (fed id d) as [|r rs] eqn:Q; cbn [FrameGen.nil negb].
    + apply Permutation_sym, Permutation_nil in PO. rewrite PO. split; [exact I3 | exact I4].
    + split; [cbn [concat]; rewrite <- I3, <- app_assoc; reflexivity|]. constructor; [exact (Permutation_sym PO) | exact I4].
Qed.
Lemma filter_cut : forall {X} (f : X -> bool) g a b, filter f g = a ++ b -> exists g1 g2, g = g1 ++ g2 /\ filter f g1 = a /\ filter f g2 = b.
Proof.
  intros X f. induction g as [|x g IH]; intros a b H; cbn [filter] in H.
  - symmetry in H. apply app_eq_nil in H. destruct H as (-> & ->). exists [], []. auto.
  - destruct (f x) eqn:Q.
    + destruct a as [|y a]; cbn [app] in H; [exists [], (x :: g); cbn [filter app]; rewrite Q; auto|]. injection H as -> H. destruct (IH _ _ H) as (g1 & g2 & -> & G1 & G2). exists (y :: g1), g2. cbn [filter app]. rewrite Q, G1. auto.
    + destruct (IH _ _ H) as (g1 & g2 & -> & G1 & G2). exists (x :: g1), g2. cbn [filter app]. rewrite Q. auto.
Qed.
Lemma filter_first : forall {X} (f : X -> bool) g x b, filter f g = x :: b -> exists q g2, g = q ++ x :: g2 /\ filter f q = [] /\ filter f g2 = b.
Proof.
  intros X f. induction g as [|y g IH]; intros x b H; cbn [filter] in H; [discriminate|]. destruct (f y) eqn:Q.
  - injection H as -> <-. exists [], g. auto.
  - destruct (IH _ _ H) as (q & g2 & -> & G1 & G2). exists (y :: q), g2. cbn [filter app]. rewrite Q. auto.
Qed.
Lemma plain_forall : forall (Q : call T -> Prop) g, (forall m t, Q (Params m t)) -> Forall Q (filter plain g) -> Forall Q g.
Proof. intros Q g HP. induction g as [|[] g IH]; cbn [filter plain]; intro H; constructor; auto; inversion H; auto. Qed.
Lemma plain_adds : forall id g, adds_of id (filter plain g) = adds_of id (g : list (call T)).
Proof. intros id. induction g as [|[] g IH]; cbn [filter plain adds_of flat_map] in *; [reflexivity | now f_equal | exact IH | exact IH | exact IH]. Qed.
Lemma plain_usual : forall n id labels rounds g p1 l xs p2 post, filter plain g = p1 ++ Add id l xs :: p2 ++ Fin :: post ->
  Forall (fun c => c <> Fin) p1 -> Forall (fun c => exists i l' ys, c = Add i l' ys /\ i <> id) p2 -> adds_of id p1 ++ [(l, xs)] = concat rounds -> well_fed n labels rounds ->
  usual_calls n id labels rounds (g : list (call T)).
Proof.
  intros n id labels rounds g p1 l xs p2 post H H1 H2 H3 H4. destruct (filter_cut _ _ _ _ H) as (g1 & g2 & -> & <- & G2). destruct (filter_first _ _ _ _ G2) as (q & g3 & -> & Q & G3).
  destruct (filter_cut _ _ _ _ G3) as (g4 & g5 & -> & <- & G5). destruct (filter_first _ _ _ _ G5) as (q2 & g6 & -> & Q2 & G6).
  exists (g1 ++ q), l, xs, (g4 ++ q2), g6. split; [rewrite <- !app_assoc; reflexivity|].
  split; [apply plain_forall; [discriminate|]; rewrite filter_app, Q, app_nil_r; exact H1|].
  split; [apply plain_forall; [intros m t; right; eauto|]; rewrite filter_app, Q2, app_nil_r; eapply Forall_impl; [|exact H2]; intros a X; left; exact X|].
  split; [|exact H4]. rewrite <- (plain_adds id (g1 ++ q)), filter_app, Q, app_nil_r. exact H3.
Qed.
Lemma full_round_perm : forall labels k (r r' : list (label * list T)), Permutation r r' -> full_round labels k r -> full_round labels k r'.
Proof. intros labels k r r' H (H1 & H2 & H3). split; [rewrite <- H1; apply Permutation_map; now symmetry|]. split; [eapply Permutation_Forall; eassumption | exact H3]. Qed.
Lemma well_fed_perm : forall n labels rounds rounds', Forall2 (@Permutation (label * list T)) rounds rounds' -> well_fed n labels rounds -> well_fed n labels rounds'.
Proof.
  intros n labels rounds rounds' H (rs & r & k & -> & H1 & H2). apply Forall2_app_inv_l in H. destruct H as (rs' & l2 & F1 & F2 & ->). inversion F2 as [|? r' ? ? P1 P2]; subst. inversion P2; subst.
  exists rs', r', k. split; [reflexivity|]. split; [|eapply full_round_perm; eassumption]. clear -F1 H1. induction F1 as [|a b rs rs' P1 F1 IH]; [constructor|]. inversion H1 as [|? ? (k & Q1 & Q2) Q3]; subst. constructor; [exists k; split; [eapply full_round_perm; eassumption | exact Q2] | auto].
Qed.
Lemma samples_perm : forall (r r' : list (label * list T)) m, Permutation r r' -> samples_of r m -> samples_of r' m.
Proof.
  intros r r' m H (H1 & H2). split; [intros l xs Hin; apply H1; eapply Permutation_in; [symmetry; exact H | exact Hin]|].
  intros k xs Hin. destruct (H2 _ _ Hin) as (l & -> & Hl). exists l. split; [reflexivity|]. eapply Permutation_in; [apply Permutation_map; exact H | exact Hl].
Qed.
Lemma samples_all : forall rounds rounds' (mixed : list (dmix * smap)), Forall2 (@Permutation (label * list T)) rounds rounds' -> Forall2 (fun r b => samples_of r (snd b)) rounds' mixed -> Forall2 (fun r b => samples_of r (snd b)) rounds mixed.
Proof. intros rounds rounds' mixed H. revert mixed. induction H as [|r r' rs rs' P1 H IH]; intros mixed HM; inversion HM; subst; constructor; [eapply samples_perm; [symmetry; exact P1 | assumption] | auto]. Qed.
End Loop.
(* the samples of an element, in the temporal units: C67_frames and C67_trimmed for the encoder *)
Theorem C68_samples : forall {T P M} (A : arith T) lin quant (code : Z -> list (list Z) -> res P) kind_of (subs_of : kind -> list (oframe T P) -> @bmeta M -> res (list (option pdata))) order
    delay typed elems ms m clock cf g me el n d D arbs ds dl post e us,
  (forall l, Permutation (order l) l) ->
  create A delay typed elems ms m clock = Ok (cf, g) -> set_up delay elems ms clock me el n d D ->
  Forall maps_ok (ds ++ [dl]) -> fed (me_id me) dl <> [] -> well_fed n (me_labels me) (rounds_of (me_id me) (ds ++ [dl])) ->
  erun A lin quant code kind_of subs_of order cf (documented ds dl post) (new_enc arbs g, []) = Ok (e, us) -> generating_units e = false ->
  (exists mixed, Forall2 (fun r b => samples_of r (snd b)) (rounds_of (me_id me) (ds ++ [dl])) mixed /\
    forall sid labs, In (sid, labs) (el_subs el) ->
      exists t, m_find sid (g_audio clock) = Some t /\ account A lin quant code el me n D d (td_stamp t) mixed sid labs (frames_of sid (flat_map u_frames us))) /\
  (exists mixed, Forall2 (fun r b => samples_of r (snd b)) (rounds_of (me_id me) (ds ++ [dl])) mixed /\
    let s := me_start me - (if me_start_delay me then D else 0) in
    0 <= s /\
    forall sid labs, In (sid, labs) (el_subs el) ->
      exists rss pad, Forall2 (fun b rs => down_mixed A lin quant el (fst b) (snd b) labs rs) mixed rss /\ 0 <= pad < n /\
        let e := me_end me - (if me_end_pad me then pad else 0) in
        0 <= e /\
        forall c, (c < length labs)%nat ->
          let added := channel c (map (map fst) rss) in
          (D + Z.of_nat (length added) + pad) mod n = 0 /\
          concat (map (kept c) (frames_of sid (flat_map u_frames us))) = skipn (Z.to_nat s) (firstn (length added - Z.to_nat e) added)).
Proof.
  intros T P M A lin quant code kind_of subs_of order delay typed elems ms m clock cf g me el n d D arbs ds dl post e us HO HC HS HM HF HW H HG.
  destruct (C68_units _ _ _ _ _ _ _ _ _ _ _ _ _ H) as (_ & gc & G1 & G2).
  destruct (loop_calls order HO (me_id me) ds dl post [] HM HF eq_refl) as (p1 & l & xs & p2 & post' & rounds & E & I1 & I2 & I3 & I4). apply (fun X => eq_trans X E) in G1.
  assert (U : usual_calls n (me_id me) (me_labels me) rounds gc) by (eapply plain_usual; try eassumption; eapply well_fed_perm; eassumption).
  assert (GE : generating (e_gen e) = false) by (unfold generating_units in HG; apply orb_false_iff in HG; destruct HG as (HG & _); now apply orb_false_iff in HG).
  split.
  - destruct (C67_frames A lin quant code delay typed elems ms m clock cf g me el n d D rounds gc _ _ HC HS U G2 GE) as (mixed & X1 & X2). exists mixed. split; [eapply samples_all; eassumption | exact X2].
  - destruct (C67_trimmed A lin quant code delay typed elems ms m clock cf g me el n d D rounds gc _ _ HC HS U G2 GE) as (mixed & X1 & X2). exists mixed. split; [eapply samples_all; eassumption | exact X2].
Qed.

(* ----- the loop of the documentation ends ----- *)
Lemma output_parts : forall {T P M} A lin quant (code : Z -> list (list Z) -> res P) (subs_of : kind -> list (oframe T P) -> @bmeta M -> res (list (option pdata))) order cf e e' ou,
  output A lin quant code subs_of order cf e = Ok (e', ou) ->
  (length (e_arb e') <= length (e_arb e))%nat /\
  (g_stage (e_gen e) <> Taking \/ e_final e = true -> g_stage (e_gen e') <> Taking) /\
  (g_coders (e_gen e) = [] -> g_coders (e_gen e') = [] /\ (e_final e = true -> length (e_arb e') <= pred (length (e_arb e)))%nat).
Proof.
  intros T P M A lin quant code subs_of order cf e e' ou H. unfold output in H. rb H rd Ed. rb H rm Em. cbv zeta in H. rb H g1 Ea. rb H r Er. destruct r as (g3, fs). cbn [fst snd] in H.
  apply cached_stage in Ea. destruct Ea as (Ea1 & Ea2). cbn [set_env g_stage g_coders] in Ea1, Ea2.
  assert (Q3 : g_stage (e_gen e) <> Taking \/ e_final e = true -> g_stage g3 <> Taking).
  { intro Q. eapply out_not_taking; [|exact Er]. destruct (e_final e); [apply finalize_stage|]. destruct Q as [Q | Q]; [congruence | discriminate]. }
  assert (Q4 : g_coders (e_gen e) = [] -> g_coders g3 = [] /\ fs = []).
  { intro Q. rewrite Q in Ea2. cbn [map] in Ea2. assert (Q1 : g_coders g1 = []) by (now destruct (g_coders g1)).
    assert (Q2 : g_coders (if e_final e then finalize g1 else g1) = []) by (destruct (e_final e); [unfold finalize; destruct (g_stage g1); exact Q1 | exact Q1]).
    exact (out_quiet _ _ _ _ _ _ _ _ Q2 Er). }
  assert (MC : forall e1 : @enc T P M, e_arb (maybe_close e1) = e_arb e1 /\ e_gen (maybe_close e1) = e_gen e1) by (intro e1; unfold maybe_close; destruct (generating_units e1); auto).
  destruct fs as [|f0 fs0].
  - destruct (e_final e) eqn:F.
    + destruct (splice_first (e_arb e)) as (arbs, rest) eqn:Sp. rs H Ep. injection H as <- _. match goal with |- context [maybe_close ?x] => destruct (MC x) as (-> & ->) end. cbn [e_arb e_gen].
      assert (L : length rest = pred (length (e_arb e))) by (destruct (e_arb e) as [|(i, l) m]; cbn [splice_first] in Sp; injection Sp as <- <-; reflexivity).
      rewrite L. split; [lia|]. split; [exact Q3|]. intro Q. split; [now apply Q4 | lia].
    + injection H as <- _. cbn [e_arb e_gen]. split; [lia|]. split; [exact Q3|]. intro Q. split; [now apply Q4 | discriminate].
  - destruct (negb (same_times f0 (f0 :: fs0))); [discriminate|]. rb H rr Err'. destruct (splice (o_t0 f0) (e_arb e)) as (arbs, rest) eqn:Sp. rs H Ep. injection H as <- _. match goal with |- context [maybe_close ?x] => destruct (MC x) as (-> & ->) end. cbn [e_arb e_gen set_env g_stage g_coders].
    split; [|split; [exact Q3|]; intro Q; destruct (Q4 Q); discriminate].
    clear -Sp. unfold splice in Sp. destruct (m_find (o_t0 f0) (e_arb e)); injection Sp as <- <-; [|lia]. induction (e_arb e) as [|(i, v) m IH]; cbn [m_del length]; [lia|]. destruct (i =? o_t0 f0); cbn [length]; lia.
Qed.
(* after the frames are over, every OutputTemporalUnit takes one time of the arbitrary OBUs *)
Lemma drained : forall {T P M} A lin quant (code : Z -> list (list Z) -> res P) kind_of (subs_of : kind -> list (oframe T P) -> @bmeta M -> res (list (option pdata))) order cf calls e us e' us',
  e_final e = true -> erun A lin quant code kind_of subs_of order cf calls (e, us) = Ok (e', us') ->
  e_final e' = true /\ (length (e_arb e') <= length (e_arb e))%nat /\
  (g_stage (e_gen e) <> Taking \/ (0 < outputs calls)%nat -> g_stage (e_gen e') <> Taking) /\
  (g_coders (e_gen e) = [] -> g_coders (e_gen e') = [] /\ (length (e_arb e') <= length (e_arb e) - outputs calls)%nat).
Proof.
  intros T P M A lin quant code kind_of subs_of order cf. induction calls as [|c calls IH]; intros e us e' us' F H; cbn [erun] in H.
  - injection H as <- _. cbn [outputs]. split; [exact F|]. split; [lia|]. split; [intros [Q | Q]; [exact Q | lia]|]. intro Q. split; [exact Q | lia].
  - rb H s E. destruct s as (e1, us1). destruct c as [d | |]; cbn [estep fst snd] in E; cbn [outputs].
    + rb E e2 E2. injection E as <- <-. unfold encode in E2. rb E2 m Em. injection E2 as <-. apply IH in H; [exact H | exact F].
    + injection E as <- <-. unfold finalize_encode in H. rewrite F in H. exact (IH _ _ _ _ F H).
    + rb E r Er. destruct r as (e2, ou). cbn [fst snd] in E. injection E as <- <-. destruct (output_step _ _ _ _ _ _ _ _ _ _ Er) as (cs & [o1 o2 o3 o4 o5 o6 o7 o8 o9 o10]).
      destruct (output_parts _ _ _ _ _ _ _ _ _ _ Er) as (P1 & P2 & P3). assert (F2 : e_final e2 = true) by congruence.
      destruct (IH _ _ _ _ F2 H) as (I1 & I2 & I3 & I4). split; [exact I1|]. split; [lia|]. split; [intros _; apply I3; left; apply P2; now right|].
      intro Q. destruct (P3 Q) as (P4 & P5). specialize (P5 F). destruct (I4 P4) as (I5 & I6). split; [exact I5 | lia].
Qed.
Lemma asked_outs : forall {T M} order (calls : list (@ecall T M)) c f, outs (asked order calls c f) = outputs calls.
Proof.
  intros T M order. assert (Q : forall l (t : list (call T)), outs (map (fun e : Z * label * list T => Add (fst (fst e)) (snd (fst e)) (snd e)) l ++ t) = outs t) by (induction l as [|x l IH]; intro t; [reflexivity | exact (IH t)]).
  induction calls as [|[d | |] calls IH]; intros c f; cbn [asked outputs]; [reflexivity | apply IH | apply IH|]. rewrite Q. destruct f; cbn [app outs]; now rewrite IH.
Qed.
Lemma plain_outs : forall {T} (g : list (call T)), outs (filter plain g) = outs g.
Proof. intros T. induction g as [|[] g IH]; cbn [filter plain outs]; auto. Qed.
Lemma cut_outputs : forall {T M} K (calls : list (@ecall T M)), (K <= outputs calls)%nat -> exists a b, calls = a ++ b /\ outputs a = K /\ outputs b = (outputs calls - K)%nat.
Proof.
  intros T M. induction K as [|K IH]; intros calls H; [exists [], calls; cbn [outputs]; split; [reflexivity|]; split; [reflexivity | lia]|].
  induction calls as [|[d | |] calls IHc]; cbn [outputs] in *; [lia | | |].
  - destruct (IHc H) as (a & b & -> & H1 & H2). exists (Encode d :: a), b. auto.
  - destruct (IHc H) as (a & b & -> & H1 & H2). exists (FinalizeEncode :: a), b. auto.
  - destruct (IH calls ltac:(lia)) as (a & b & -> & H1 & H2). exists (OutputTemporalUnit :: a), b. cbn [app outputs]. split; [reflexivity|]. split; [lia | exact H2].
Qed.
Lemma erun_app : forall {T P M} A lin quant (code : Z -> list (list Z) -> res P) kind_of (subs_of : kind -> list (oframe T P) -> @bmeta M -> res (list (option pdata))) order cf a b s,
  erun A lin quant code kind_of subs_of order cf (a ++ b) s = rbind (erun A lin quant code kind_of subs_of order cf a s) (erun A lin quant code kind_of subs_of order cf b).
Proof. intros T P M A lin quant code kind_of subs_of order cf. induction a as [|c a IH]; intros b s; cbn [app erun rbind]; [reflexivity|]. destruct (estep _ _ _ _ _ _ _ _ c s); cbn [rbind]; auto. Qed.
Theorem C68_ends : forall {T P M} (A : arith T) lin quant (code : Z -> list (list Z) -> res P) kind_of (subs_of : kind -> list (oframe T P) -> @bmeta M -> res (list (option pdata))) order
    delay typed elems ms m clock cf g D arbs ds dl post e us,
  (forall l, Permutation (order l) l) ->
  create A delay typed elems ms m clock = Ok (cf, g) ->
  (forall me, In me ms -> (exists el n d, set_up delay elems ms clock me el n d D /\ well_fed n (me_labels me) (rounds_of (me_id me) (ds ++ [dl]))) /\ fed (me_id me) dl <> []) ->
  Forall maps_ok (ds ++ [dl]) ->
  erun A lin quant code kind_of subs_of order cf (documented ds dl post) (new_enc arbs g, []) = Ok (e, us) ->
  exists K, forall later e' us', (K <= outputs later)%nat -> erun A lin quant code kind_of subs_of order cf later (e, us) = Ok (e', us') -> generating_units e' = false.
Proof.
  intros T P M A lin quant code kind_of subs_of order delay typed elems ms m clock cf g D arbs ds dl post e us HO HC HE HM H.
  destruct (units_from _ _ _ _ _ _ _ _ _ _ _ _ _ H) as ((gc & G2 & G1) & _). cbn [new_enc e_gen e_cache e_final flat_map] in G1, G2.
  destruct (C67_ends A lin quant code delay typed elems ms m clock cf g D gc (e_gen e, flat_map u_frames us) HC) as (K & HK).
  { intros me Hin. destruct (HE me Hin) as ((el & n & d & HS & HW) & HF). 
    destruct (loop_calls order HO (me_id me) ds dl post [] HM HF eq_refl) as (p1 & l & xs & p2 & post' & rounds & E & I1 & I2 & I3 & I4).
    exists el, n, d, rounds. split; [exact HS|]. eapply plain_usual; [exact (eq_trans G1 E) | exact I1 | exact I2 | exact I3|]. eapply well_fed_perm; eassumption. }
  { exact G2. }
  assert (F : e_final e = true).
  { assert (T0 : g_stage g = Taking) by (unfold create in HC; destruct ms; [now injection HC as <- <-|]; rb HC cs Ec; cbv zeta in HC; rb HC st' Es; destruct st' as ((?, ?), ?); now injection HC as <- <-).
    assert (T1 : tracked false (new_enc arbs g : @enc T P M)) by (repeat split; auto; discriminate). destruct (tracked_run _ _ _ _ _ _ _ _ _ _ _ _ _ _ T1 H) as ((R & _) & _). rewrite R. cbn [orb].
    unfold documented. clear. induction ds as [|d ds IH]; [reflexivity | exact IH]. }
  exists (S K + length (e_arb e))%nat. intros later e' us' HL R. destruct (cut_outputs (S K) later ltac:(lia)) as (a & b & -> & L1 & L2). rewrite erun_app in R. rb R s1 E1. destruct s1 as (e1, us1).
  destruct (drained _ _ _ _ _ _ _ _ _ _ _ _ _ F E1) as (D1 & D2 & D3 & _). destruct (units_from _ _ _ _ _ _ _ _ _ _ _ _ _ E1) as ((gl & G3 & G4) & _).
  assert (GE : generating (e_gen e1) = false).
  { apply (HK gl (e_gen e1, flat_map u_frames us1)); [|exact G3]. rewrite <- plain_outs, G4, asked_outs. lia. }
  assert (GC : g_coders (e_gen e1) = []) by (unfold generating in GE; destruct (g_coders (e_gen e1)); [reflexivity | discriminate]).
  destruct (drained _ _ _ _ _ _ _ _ _ _ _ _ _ D1 R) as (_ & _ & D6 & D7). destruct (D7 GC) as (D8 & D9).
  assert (NT : g_stage (e_gen e') <> Taking) by (apply D6; left; apply D3; right; lia).
  assert (NA : e_arb e' = []) by (destruct (e_arb e'); [reflexivity | cbn [length] in D9; lia]).
  unfold generating_units, generating, taking. rewrite D8, NA. destruct (g_stage (e_gen e')); [easy | reflexivity | reflexivity].
Qed.

(* ----- runs: the two elements of ex_elems, a mix gain parameter 7, a recon gain parameter 8, a position parameter 9 ----- *)
Definition en_clock : gtm := mkG (g_audio ex_clock) [(7, mkTd 48000 0); (8, mkTd 48000 0); (9, mkTd 48000 0)].
Definition en_kind (id : Z) : option kind := if id =? 7 then Some KMix else if id =? 8 then Some KRecon else if id =? 9 then Some KOther else None.
(* as many subblocks as the time of the frames which recon gains are computed from *)
Definition en_subs (k : kind) (fs : list (oframe Z (list (list Z)))) (b : @bmeta unit) : res (list (option pdata)) := Ok (repeat None (match fs with f :: _ => Z.to_nat (o_t0 f) | [] => 0 end)).
Definition en_data (ms : list (Z * Z)) (ss : list (Z * list (label * list Z))) : @edata Z unit := mkEd (map (fun m => mkBm (fst m) (snd m) 4 tt) ms) ss.
Definition en_ds (ms : list (Z * Z)) : list (@edata Z unit) := [en_data ms [(10, [(L2, [1; 2; 3; 4]); (R2, [11; 12; 13; 14])]); (20, [(Mono, [21; 22; 23; 24])])]].
Definition en_dl (ms : list (Z * Z)) : @edata Z unit := en_data ms [(20, [(Mono, [25; 26; 27])]); (10, [(R2, [15; 16; 17]); (L2, [5; 6; 7]); (LFE, [])])].
Definition en_start (arbs : list arb) : res (cfg * @enc Z (list (list Z)) unit) :=
  rbind (create (P := list (list Z)) zarith ex_delay (fun _ => false) ex_elems ex_metas (mkPm [] [] [] []) en_clock) (fun cg => Ok (fst cg, new_enc arbs (snd cg))).
Definition en_run (arbs : list arb) (calls : list (@ecall Z unit)) : res (@enc Z (list (list Z)) unit * list (@tunit Z (list (list Z)))) :=
  rbind (en_start arbs) (fun ce => erun zarith (fun z => z) Ok ex_code en_kind en_subs (fun l => l) (fst ce) calls (snd ce, [])).
Definition en_show (u : @tunit Z (list (list Z))) := (map (fun b => (p_id b, p_start b, length (p_subs b))) (blocks_of u), map (fun f => (o_id f, o_t0 f)) (u_frames u), map o_tag (u_arb u)).
Definition en_view (r : res (@enc Z (list (list Z)) unit * list (@tunit Z (list (list Z))))) :=
  rbind r (fun r => Ok (map en_show (snd r), generating_units (fst r), e_done (fst r), map p_start (e_wait (fst r) KMix))).
Definition en_calls : list ecall := documented (en_ds [(7, 0); (7, 4); (9, 0); (8, 0)]) (en_dl [(8, 4); (7, 8)]) [OutputTemporalUnit; OutputTemporalUnit; Encode (en_data [] []); OutputTemporalUnit].
(* units at 0, 4 and 8; the arbitrary OBU at 100 comes alone, being meant to be out of place; the metadata of 9 are dropped *)
Lemma en_units : en_view (en_run [mkArb (Some 4) false 1; mkArb None false 2; mkArb (Some 100) true 3] en_calls) = Ok (
  [([(7, 0, 0%nat); (8, 0, 0%nat)], [(1, 0); (0, 0)], []); ([(7, 4, 0%nat); (8, 4, 4%nat)], [(1, 4); (0, 4)], [1]); ([(7, 8, 0%nat)], [(1, 8); (0, 8)], []); ([], [], [3])], false, true, []).
Proof. vm_compute. reflexivity. Qed.
Lemma en_set_up : set_up ex_delay ex_elems ex_metas en_clock ex_me (mkElem [(0, [L2; R2])] 4 16 16 [] []) 4 2 2.
Proof. destruct ex_set_up. constructor; assumption. Qed.
Lemma en_fed : Forall maps_ok (en_ds [(7, 0); (7, 4); (9, 0); (8, 0)] ++ [en_dl [(8, 4); (7, 8)]]) /\ fed 10 (en_dl [(8, 4); (7, 8)]) <> [] /\
  well_fed 4 (me_labels ex_me) (rounds_of (me_id ex_me) (en_ds [(7, 0); (7, 4); (9, 0); (8, 0)] ++ [en_dl [(8, 4); (7, 8)]])).
Proof.
  split; [|split; [discriminate|]].
  - repeat constructor; cbn; intuition (discriminate || lia).
  - exists [[(L2, [1; 2; 3; 4]); (R2, [11; 12; 13; 14])]], [(R2, [15; 16; 17]); (L2, [5; 6; 7])], 3%nat.
    split; [reflexivity|]. split; [repeat constructor; exists 4%nat; split; [|lia] |]; (split; [first [apply perm_swap | reflexivity]|]; split; [repeat constructor | lia]).
Qed.
(* every element is set up and fed as C68_ends asks *)
Lemma en_all : forall me, In me ex_metas ->
  (exists el n d, set_up ex_delay ex_elems ex_metas en_clock me el n d 2 /\ well_fed n (me_labels me) (rounds_of (me_id me) (en_ds [(7, 0); (7, 4); (9, 0); (8, 0)] ++ [en_dl [(8, 4); (7, 8)]]))) /\
  fed (me_id me) (en_dl [(8, 4); (7, 8)]) <> [].
Proof.
  intros me [<- | [<- | []]]; (split; [|discriminate]).
  - exists (mkElem [(1, [Mono])] 4 16 16 [] []), 4, 0. split; [destruct ex_set_up_mono; constructor; assumption|].
    exists [[(Mono, [21; 22; 23; 24])]], [(Mono, [25; 26; 27])], 3%nat. split; [reflexivity|]. split; [repeat constructor; exists 4%nat; split; [|lia] |]; (split; [reflexivity|]; split; [repeat constructor | lia]).
  - exists (mkElem [(0, [L2; R2])] 4 16 16 [] []), 4, 2. split; [exact en_set_up | apply en_fed].
Qed.
(* an arbitrary OBU whose time is that of no frame, but which is not meant to be out of place: refused, but only at the end *)
Lemma C68_stray_refused :
  en_view (en_run [mkArb (Some 100) false 3] (firstn 6 en_calls)) = Ok ([([(7, 0, 0%nat); (8, 0, 0%nat)], [(1, 0); (0, 0)], []); ([(7, 4, 0%nat); (8, 4, 4%nat)], [(1, 4); (0, 4)], []); ([(7, 8, 0%nat)], [(1, 8); (0, 8)], [])], true, false, []) /\
  en_view (en_run [mkArb (Some 100) false 3] en_calls) = Err InvalidArgument.
Proof. split; vm_compute; reflexivity. Qed.
(* recon gains which are asked for early are computed from the frames of the unit which is made then, not from those they apply to:
   the block at 4 has as many subblocks as the time of the first frames, 0 *)
Lemma C68_early_recon_gain_refuted :
  en_view (en_run [] (documented (en_ds [(8, 0); (8, 4)]) (en_dl []) [OutputTemporalUnit; OutputTemporalUnit; OutputTemporalUnit])) =
    Ok ([([(8, 0, 0%nat)], [(1, 0); (0, 0)], []); ([(8, 4, 0%nat)], [(1, 4); (0, 4)], []); ([], [(1, 8); (0, 8)], [])], false, true, []).
Proof. vm_compute. reflexivity. Qed.
(* parameter blocks after the last frame are dropped without an error: the sequence is closed, 12 and 16 were kept back *)
Lemma C68_blocks_after_the_end_refuted :
  en_view (en_run [] (documented (en_ds [(7, 0); (7, 4); (7, 8)]) (en_dl [(7, 12); (7, 16)]) [OutputTemporalUnit; OutputTemporalUnit; OutputTemporalUnit])) =
    Ok ([([(7, 0, 0%nat)], [(1, 0); (0, 0)], []); ([(7, 4, 0%nat)], [(1, 4); (0, 4)], []); ([(7, 8, 0%nat)], [(1, 8); (0, 8)], [])], false, true, [12; 16]).
Proof. vm_compute. reflexivity. Qed.
(* the metadata of positions are never made into blocks *)
Lemma C68_positions_refuted : forall {T P M} (A : arith T) lin quant (code : Z -> list (list Z) -> res P) kind_of (subs_of : kind -> list (oframe T P) -> @bmeta M -> res (list (option pdata))) order cf arbs g calls e us,
  erun A lin quant code kind_of subs_of order cf calls (new_enc arbs g, []) = Ok (e, us) -> e_meta e KOther = given kind_of KOther calls.
Proof.
  intros T P M A lin quant code kind_of subs_of order cf arbs g calls e us.
  assert (Q : forall calls e us e' us', erun A lin quant code kind_of subs_of order cf calls (e, us) = Ok (e', us') -> e_meta e' KOther = e_meta e KOther ++ given kind_of KOther calls).
  { clear. induction calls as [|c calls IH]; intros e us e' us' H; cbn [erun] in H; [injection H as <- <-; symmetry; apply app_nil_r|].
    rb H s E. destruct s as (e1, us1). rewrite (IH _ _ _ _ H). clear IH H. destruct c as [d | |]; cbn [estep fst snd] in E; cbn [given flat_map]; fold (given kind_of KOther calls).
    - rb E e2 E2. injection E as <- <-. unfold encode in E2. rb E2 m Em. injection E2 as <-. cbn [e_meta]. rewrite app_assoc. f_equal.
      clear -Em. revert Em. generalize (e_meta e) as m0. induction (ed_meta d) as [|b l IHl]; intros m0 Em; cbn [add_metas] in Em; [injection Em as <-; cbn [filter]; now rewrite app_nil_r|].
      cbn [filter]. destruct (kind_of (bm_id b)) as [k'|]; [|discriminate]. rewrite (IHl _ Em). unfold upd at 1. destruct k'; cbn [kind_eqb]; try reflexivity. now rewrite <- app_assoc.
    - injection E as <- <-. unfold finalize_encode, maybe_close. destruct (e_final e); [reflexivity|]. destruct (generating_units _); reflexivity.
    - rb E r Er. destruct r as (e2, ou). cbn [fst snd] in E. injection E as <- <-. destruct (output_step _ _ _ _ _ _ _ _ _ _ Er) as (cs & [o1 o2 o3 o4 o5 o6 o7 o8 o9 o10]). cbn [app]. now rewrite o7. }
  intro H. apply Q in H. exact H.
Qed.
(* the vector of the caller is only written when there is a temporal unit: without one it still holds the last *)
Lemma C68_stale_unit_refuted : exists u, en_view (en_run [] (firstn 2 en_calls)) = Ok ([u], true, false, [4]) /\
  en_view (en_run [] (firstn 2 en_calls ++ [OutputTemporalUnit])) = Ok ([u], true, false, [4]) /\ forall x : @tunit Z (list (list Z)), buffer_after (Some x) None = Some x.
Proof. eexists. split; [vm_compute; reflexivity|]. split; [vm_compute; reflexivity | reflexivity]. Qed.
