(* The audio frame generator: its state after Create *)
From Verif Require Import PropsLabels PropsUnit.
From Verif Require Import Base WriteBuf CodecConfig Params AudioElement Timing ParamManager AeData Demix SubFrames SubFramesFacts FrameGen FrameGenFacts FrameGenHist FrameGenOut FrameGenSpec FrameGenRun.
From Verif Require PropsDemix.
From Coq Require Import Lia Permutation.

Section Init.
Context {T P : Type}.
Variable A : arith T.
Variable lin : Z -> T.
Variable quant : T -> res Z.
Variable code : Z -> list (list Z) -> res P.
Notation smap := (@smap T).
Notation zt := (a_lit A 0 1).
Notation gen := (gen T P).
Notation coder := (coder T P).
Variable delay : Z -> res Z.

Lemma put_keys : forall {V} (m : list (Z * V)) k v, NoDup (map fst m) -> NoDup (map fst (m_put k v m)).
Proof.
  intros V m k v H. unfold m_put. destruct (m_find k m) eqn:F; [rewrite m_set_keys; exact H|]. rewrite map_app. cbn [map fst].
  apply Permutation_NoDup with (l := k :: map fst m); [apply Permutation_cons_append|]. constructor; [now apply m_find_none | exact H].
Qed.
Lemma insert_keys : forall {V} (m : list (Z * V)) k v, NoDup (map fst m) -> NoDup (map fst (m_insert k v m)).
Proof. intros V m k v H. pose proof (put_keys m k v H) as Q. unfold m_insert, m_put in *. destruct (m_find k m); [exact H | exact Q]. Qed.
Lemma insert_find : forall {V} (m : list (Z * V)) k v j, m_find j (m_insert k v m) = if k =? j then Some (match m_find j m with Some x => x | None => v end) else m_find j m.
Proof.
  intros V m k v j. unfold m_insert. destruct (m_find k m) as [x|] eqn:F.
  - destruct (Z.eqb_spec k j) as [<- |]; [now rewrite F | reflexivity].
  - rewrite m_find_app. destruct (Z.eqb_spec k j) as [<- | Hj]; [rewrite F; cbn [m_find]; now rewrite Z.eqb_refl|].
    destruct (m_find j m); [reflexivity|]. cbn [m_find]. destruct (Z.eqb_spec k j); congruence.
Qed.

(* ----- the coders ----- *)
Definition fresh (cs : list (Z * coder)) : Prop := NoDup (map fst cs) /\ forall j c, m_find j cs = Some c -> c_queue c = [] /\ c_done c = false /\ delay j = Ok (c_delay c).
Lemma make_coders_ok : forall ls (cs cs' : list (Z * coder)), fresh cs -> make_coders delay ls cs = Ok cs' ->
  fresh cs' /\ forall j, m_find j cs' <> None <-> m_find j cs <> None \/ In j (map fst ls).
Proof.
  induction ls as [|(sid, l) ls IH]; intros cs cs' (F1 & F2) R; cbn [make_coders] in R; [injection R as <-; repeat split; auto; [intros; now apply F2 in H | intros; now apply F2 in H | intros; now apply F2 in H | now intros [H | []]]|].
  destruct (_ || _); [|discriminate]. rb R d Ed. pose proof (fun F => IH _ _ F R) as X. destruct X as (I1 & I2).
  - split; [now apply put_keys|]. intros j c. rewrite m_find_put. destruct (Z.eqb_spec sid j) as [<- |]; [intros [= <-]; auto | apply F2].
  - split; [exact I1|]. intro j. rewrite I2, m_find_put. cbn [map fst In]. destruct (Z.eqb_spec sid j) as [<- | Hj]; [|tauto]. split; intros _; [right; now left | left; discriminate].
Qed.
Lemma coders_of_ok : forall elems ms (cs cs' : list (Z * coder)), fresh cs -> coders_of delay elems ms cs = Ok cs' ->
  fresh cs' /\ forall j, m_find j cs' <> None <-> m_find j cs <> None \/ exists me el, In me ms /\ m_find (me_id me) elems = Some el /\ In j (map fst (el_subs el)).
Proof.
  induction ms as [|me ms IH]; intros cs cs' F R; cbn [coders_of] in R; [injection R as <-; split; [exact F|]; intro j; split; [auto | intros [H | (me & el & [] & _)]; exact H]|].
  destruct (m_find (me_id me) elems) as [el|] eqn:Fe; [|discriminate]. rb R c1 E1. destruct (make_coders_ok _ _ _ F E1) as (M1 & M2). destruct (IH _ _ M1 R) as (I1 & I2).
  split; [exact I1|]. intro j. rewrite I2, M2. split.
  - intros [[H | H] | (me' & el' & H1 & H2 & H3)]; [now left | right; exists me, el; repeat split; auto; now left | right; exists me', el'; repeat split; auto; now right].
  - intros [H | (me' & el' & [-> | H1] & H2 & H3)]; [tauto | rewrite Fe in H2; injection H2 as <-; tauto | right; eauto].
Qed.
Lemma fresh_nil : fresh [].
Proof. split; [constructor | discriminate]. Qed.
Lemma max_from : forall (cs : list (Z * coder)) a, a <= fold_left (fun a e => Z.max a (c_delay (snd e))) cs a /\
  (forall e, In e cs -> c_delay (snd e) <= fold_left (fun a e => Z.max a (c_delay (snd e))) cs a) /\
  (fold_left (fun a e => Z.max a (c_delay (snd e))) cs a = a \/ exists e, In e cs /\ c_delay (snd e) = fold_left (fun a e => Z.max a (c_delay (snd e))) cs a).
Proof.
  induction cs as [|e cs IH]; intro a; cbn [fold_left]; [repeat split; [lia | easy | now left]|].
  destruct (IH (Z.max a (c_delay (snd e)))) as (I1 & I2 & I3). split; [lia|]. split.
  - intros e' [<- | H]; [lia | auto].
  - destruct I3 as [I3 | (e' & I3 & I4)]; [|right; exists e'; split; [now right | exact I4]].
    rewrite I3. destruct (Z.max_spec a (c_delay (snd e))) as [(_ & ->) | (_ & ->)]; [right; exists e; split; [now left | reflexivity] | now left].
Qed.
Lemma max_delay_ok : forall elems ms (cs : list (Z * coder)) D, fresh cs -> coders_of delay elems ms [] = Ok cs -> greatest_delay delay elems ms D -> max_delay cs = D.
Proof.
  intros elems ms cs D F R (G1 & G2 & G3). destruct (coders_of_ok _ _ _ _ fresh_nil R) as (_ & K).
  unfold max_delay. destruct (max_from cs 0) as (M1 & M2 & M3). set (x := fold_left _ cs 0) in *.
  assert (IN : forall e, In e cs -> delay (fst e) = Ok (c_delay (snd e)) /\ exists me el, In me ms /\ m_find (me_id me) elems = Some el /\ In (fst e) (map fst (el_subs el))).
  { intros (j, c) Hin. cbn [fst snd]. pose proof (proj1 (PropsDemix.m_find_in j cs c (proj1 F)) Hin) as Fj. split; [apply (proj2 F _ _ Fj)|].
    destruct (proj1 (K j)) as [H | H]; [congruence | cbn in H; congruence | exact H]. }
  assert (x <= D). { destruct M3 as [-> | (e & E1 & <-)]; [exact G1|]. destruct (IN e E1) as (Q1 & me & el & Q2 & Q3 & Q4). eapply G2; eauto. }
  assert (D <= x). { destruct G3 as [-> | (me & el & j & Q2 & Q3 & Q4 & Q5)]; [exact M1|].
    destruct (m_find j cs) as [c|] eqn:Fj; [|exfalso; apply (proj2 (K j)) in Fj; [exact Fj | right; eauto]].
    destruct (proj2 F _ _ Fj) as (_ & _ & Q). rewrite Q5 in Q. injection Q as ->. apply (M2 (j, c)). now apply (PropsDemix.m_find_in j cs c (proj1 F)). }
  lia.
Qed.

(* ----- the substreams ----- *)
Lemma lab_cons : forall x ls, labelled (x :: ls) -> ~ In (fst x) (map fst ls) /\ labelled ls /\ (0 < length (snd x))%nat.
Proof.
  intros x ls (L1 & L2). cbn [map] in L1. inversion L1; subst. split; [assumption|]. split; [split; [assumption|]; intros y Hy; apply L2; now right|].
  pose proof (L2 x (or_introl eq_refl)) as Q. destruct (snd x); [congruence | cbn [length]; apply Nat.lt_0_succ].
Qed.
Lemma init_subs_frame : forall d me n cs ls (subs subs' : list (Z * sub T)), NoDup (map fst subs) -> init_subs (P := P) A d me n cs ls subs = Ok subs' ->
  NoDup (map fst subs') /\ forall j, ~ In j (map fst ls) -> m_find j subs' = m_find j subs.
Proof.
  induction ls as [|(sid, l) ls IH]; intros subs subs' N R; cbn [init_subs] in R; [injection R as <-; auto|].
  destruct (_ && _); [discriminate|]. cbv zeta in R. destruct (m_find sid (m_insert _ _ _)) as [sd|] eqn:Fs; [|discriminate]. destruct (m_find sid cs) as [c|]; [|discriminate].
  rb R o Eo. destruct (_ <? _); [discriminate|]. rb R e Ee. pose proof (fun F => IH _ _ F R) as X. destruct X as (I1 & I2); [rewrite m_set_keys; now apply insert_keys|].
  split; [exact I1|]. intros j Hj. cbn [map fst In] in Hj. rewrite I2 by tauto. rewrite m_find_set_other by tauto. rewrite insert_find. destruct (Z.eqb_spec sid j); tauto.
Qed.
Lemma pad_new : forall {X} (z : X) k l n o, (0 < n)%nat -> (0 < l)%nat -> 0 <= k -> sf_pad z k (sf_new l n) = Ok o -> holds n (repeat (repeat z (Z.to_nat k)) l) o.
Proof.
  intros X z k l n o Hn Hl Hk R. destruct (pad_holds z n k (repeat [] l) (sf_new l n) 0 Hn) as (s & E & H); auto.
  - destruct l; [lia | discriminate].
  - apply Forall_forall. intros c Hc. apply repeat_spec in Hc. now subst.
  - apply new_holds.
  - rewrite E in R. injection R as <-. assert (MR : forall (f : list X -> list X) y k0, map f (repeat y k0) = repeat (f y) k0) by (intros f y k0; induction k0; cbn [repeat map]; congruence). rewrite MR in H. exact H.
Qed.
Lemma init_subs_ok : forall d me n cs ls (subs subs' : list (Z * sub T)), 0 < n -> 0 <= d -> NoDup (map fst subs) -> labelled ls -> (forall j, In j (map fst ls) -> m_find j subs = None) ->
  init_subs (P := P) A d me n cs ls subs = Ok subs' ->
  forall l, In l ls -> exists c, m_find (fst l) cs = Some c /\ c_delay c <= d /\
    rsub n subs' (fst l) (mkAv (repeat (repeat zt (Z.to_nat d)) (length (snd l))) (repeat (repeat 0 (Z.to_nat (d - c_delay c))) (length (snd l))) 0 d).
Proof.
  induction ls as [|(sid, l) ls IH]; intros subs subs' Hn Hd N HL HN R x Hx; [easy|]. destruct (lab_cons _ _ HL) as (L1 & L2 & L3). cbn [fst snd] in L1, L3. cbn [init_subs] in R.
  destruct (_ && _); [discriminate|]. cbv zeta in R. set (s1 := m_insert _ _ _) in R.
  assert (Fs : m_find sid s1 = Some (mkSub (sf_new (length l) (Z.to_nat n)) (sf_new (length l) (Z.to_nat n)) 0 d)).
  { unfold s1. rewrite insert_find, Z.eqb_refl, HN; [reflexivity | now left]. }
  rewrite Fs in R. destruct (m_find sid cs) as [c|] eqn:Fc; [|discriminate]. cbn [s_obu s_enc s_end s_start] in R.
  rb R o Eo. destruct (Z.ltb_spec d (c_delay c)); [discriminate|]. rb R e Ee.
  assert (N1 : NoDup (map fst s1)) by (now apply insert_keys).
  destruct Hx as [<- | Hx].
  - cbn [fst snd]. exists c. split; [exact Fc|]. split; [assumption|]. eexists. split.
    + destruct (init_subs_frame _ _ _ _ _ _ _ ltac:(rewrite m_set_keys; exact N1) R) as (_ & I). rewrite I by exact L1. rewrite m_find_set by congruence. rewrite Z.eqb_refl. reflexivity.
    + cbn [s_obu s_enc s_end s_start a_obu a_enc a_end a_start]. split; [eapply pad_new; eauto; lia|]. split; [eapply pad_new; eauto; lia|]. auto.
  - refine (IH _ _ Hn Hd _ L2 _ R x Hx); [rewrite m_set_keys; exact N1|]. intros j Hj. assert (sid <> j) by (intros ->; contradiction).
    rewrite m_find_set_other by assumption. unfold s1. rewrite insert_find. destruct (Z.eqb_spec sid j); [congruence|]. apply HN. now right.
Qed.
Lemma init_subs_start : forall d me n cs ls (subs subs' : list (Z * sub T)), ls <> [] -> init_subs (P := P) A d me n cs ls subs = Ok subs' -> me_start_delay me = true -> d <= me_start me.
Proof.
  intros d me n cs [|(sid, l) ls] subs subs' H R Hd; [congruence|]. cbn [init_subs] in R. rewrite Hd in R. cbn [andb] in R. destruct (Z.ltb_spec (me_start me) d); [discriminate | assumption].
Qed.
Lemma put_trims_find : forall d first me ls trs j, m_find j (put_trims d first me ls trs) =
  if in_dec Z.eq_dec j (map fst ls) then Some (mkTrims (negb (me_end_pad me)) (me_end first) (me_start first + (if me_start_delay first then 0 else d))) else m_find j trs.
Proof.
  intros d first me. unfold put_trims. induction ls as [|(sid, l) ls IH]; intros trs j; [reflexivity|]. cbn [fold_left]. rewrite IH. cbn [map fst]. rewrite m_find_put.
  destruct (in_dec Z.eq_dec j (map fst ls)) as [H|H]; destruct (in_dec Z.eq_dec j (sid :: map fst ls)) as [H1|H1]; cbn [In] in H1; destruct (Z.eqb_spec sid j); try reflexivity; tauto.
Qed.
Lemma fill_labels_ok : forall ls out r, fill_labels ls out = Ok r -> r = out ++ ls /\ (NoDup out -> NoDup r).
Proof.
  induction ls as [|l ls IH]; intros out r R; cbn [fill_labels] in R; [injection R as <-; rewrite app_nil_r; auto|]. unfold lab_in in R. destruct (in_dec label_eq_dec l out) as [|Hn]; [discriminate|].
  destruct (IH _ _ R) as (-> & I). rewrite <- app_assoc in *. cbn [app] in *. split; [reflexivity|]. intro N. apply I. apply Permutation_NoDup with (l := l :: out); [apply Permutation_cons_append|]. now constructor.
Qed.
Lemma share_ok : forall first me, share first me = true -> me_end me = me_end first /\ me_start me = me_start first /\ me_end_pad me = me_end_pad first /\ me_start_delay me = me_start_delay first.
Proof. intros first me H. unfold share in H. apply andb_prop in H. destruct H as (H & H4). apply andb_prop in H. destruct H as (H & H3). apply andb_prop in H. destruct H as (H1 & H2). apply Z.eqb_eq in H1, H2. apply Bool.eqb_prop in H3, H4. auto. Qed.

Section One.
Variable typed : Z -> bool.
Variable m : pm.
Variable D : Z.
Variable first : meta.
Variable elems : list (Z * elem).
Variable cs : list (Z * coder).
Variable me : meta.
Variable el : elem.
Notation ls := (el_subs el).
Hypothesis D_ok : 0 <= D.
Hypothesis n_pos : 0 < el_n el.
Hypothesis el_ok : m_find (me_id me) elems = Some el.
Hypothesis ls_ok : labelled ls.
Hypothesis apart : forall id' el', id' <> me_id me -> m_find id' elems = Some el' -> forall j, In j (map fst ls) -> ~ In j (map fst (el_subs el')).
Definition untouched (st st' : labmap * list (Z * sub T) * list (Z * trims)) : Prop :=
  m_find (me_id me) (fst (fst st')) = m_find (me_id me) (fst (fst st)) /\
  forall j, In j (map fst ls) -> m_find j (snd (fst st')) = m_find j (snd (fst st)) /\ m_find j (snd st') = m_find j (snd st).
Lemma init_metas_other : forall ms st st', (forall me', In me' ms -> me_id me' <> me_id me) -> NoDup (map fst (snd (fst st))) -> init_metas A typed m D first elems cs ms st = Ok st' ->
  untouched st st' /\ NoDup (map fst (snd (fst st'))).
Proof.
  induction ms as [|me' ms IH]; intros st st' HI N R; cbn [init_metas] in R; [injection R as <-; split; [split; auto | exact N]|].
  destruct st as ((labs, subs), trs). rb R lb El. destruct (m_find (me_id me') elems) as [el'|] eqn:Fe; [|discriminate]. destruct (_ <? _); [discriminate|]. rb R subs1 Es.
  destruct (_ && _ && _); [discriminate|]. destruct (share first me'); cbn [negb] in R; [|discriminate].
  cbn [fst snd] in N. pose proof (HI me' (or_introl eq_refl)) as Hne. destruct (init_subs_frame _ _ _ _ _ _ _ N Es) as (I1 & I2).
  pose proof (fun F G => IH _ _ F G R) as X. destruct X as ((U1 & U2) & U3); [intros; apply HI; now right | exact I1|]. cbn [fst snd] in U1, U2. split; [|exact U3]. split; cbn [fst snd].
  - rewrite U1, m_find_put. destruct (Z.eqb_spec (me_id me') (me_id me)); congruence.
  - intros j Hj. pose proof (apart _ _ Hne Fe j Hj) as Hni. destruct (U2 j Hj) as (V1 & V2). split; [rewrite V1; now apply I2|]. rewrite V2, put_trims_find. destruct (in_dec Z.eq_dec j (map fst (el_subs el'))); [contradiction | reflexivity].
Qed.
Lemma init_metas_own : forall ms st st', NoDup (map me_id ms) -> In me ms -> NoDup (map fst (snd (fst st))) ->
  m_find (me_id me) (fst (fst st)) = None -> (forall j, In j (map fst ls) -> m_find j (snd (fst st)) = None) ->
  init_metas A typed m D first elems cs ms st = Ok st' ->
  NoDup (map fst (snd (fst st'))) /\ m_find (me_id me) (fst (fst st')) = Some (me_labels me) /\ NoDup (me_labels me) /\ me_end me <= el_n el /\
  (forall l, In l ls -> m_find (fst l) (snd st') = Some (mkTrims (negb (me_end_pad me)) (me_end me) (me_start me + (if me_start_delay me then 0 else D))) /\
     (me_start_delay me = true -> D <= me_start me) /\
     exists c, m_find (fst l) cs = Some c /\ c_delay c <= D /\
       rsub (el_n el) (snd (fst st')) (fst l) (mkAv (repeat (repeat zt (Z.to_nat D)) (length (snd l))) (repeat (repeat 0 (Z.to_nat (D - c_delay c))) (length (snd l))) 0 D)).
Proof.
  induction ms as [|me' ms IH]; intros st st' HN HI N HL HS R; [easy|]. cbn [map] in HN. inversion HN as [|? ? HN1 HN2]; subst. cbn [init_metas] in R. 
  destruct st as ((labs, subs), trs). rb R lb El. destruct (m_find (me_id me') elems) as [el'|] eqn:Fe; [|discriminate]. destruct (Z.ltb_spec (el_n el') (me_end me')); [discriminate|]. rb R subs1 Es.
  destruct (_ && _ && _); [discriminate|]. destruct (share first me') eqn:Sh; cbn [negb] in R; [|discriminate]. cbn [fst snd] in N, HL, HS.
  destruct (init_subs_frame _ _ _ _ _ _ _ N Es) as (I1 & I2).
  destruct HI as [-> | HI].
  - rewrite el_ok in Fe. injection Fe as <-. rewrite HL in El. destruct (fill_labels_ok _ _ _ El) as (-> & NL). cbn [app] in *.
    pose proof (fun F G => init_metas_other ms _ st' F G R) as X. destruct X as ((U1 & U2) & U3); [intros me' Hm E; apply HN1; rewrite <- E; now apply in_map | exact I1|]. cbn [fst snd] in U1, U2.
    split; [exact U3|]. split; [rewrite U1, m_find_put, Z.eqb_refl; reflexivity|]. split; [apply NL; constructor|]. split; [assumption|].
    intros l Hl. assert (Hj : In (fst l) (map fst ls)) by (now apply in_map). destruct (U2 _ Hj) as (V1 & V2). destruct (share_ok _ _ Sh) as (S1 & S2 & S3 & S4). split.
    + rewrite V2, put_trims_find. destruct (in_dec Z.eq_dec (fst l) (map fst ls)); [|contradiction]. now rewrite <- S1, <- S2, <- S4.
    + split; [refine (init_subs_start _ _ _ _ _ _ _ _ Es); intro Q; rewrite Q in Hl; exact Hl|]. destruct (init_subs_ok _ _ _ _ _ _ _ n_pos D_ok N ls_ok HS Es l Hl) as (c & C1 & C2 & sd & C3 & C4). exists c. split; [exact C1|]. split; [exact C2|]. exists sd. rewrite V1. auto.
  - assert (Hne : me_id me' <> me_id me) by (intro E; apply HN1; rewrite E; now apply in_map).
    refine (IH _ _ HN2 HI _ _ _ R); cbn [fst snd]; [exact I1 | | ].
    + rewrite m_find_put. destruct (Z.eqb_spec (me_id me') (me_id me)); congruence.
    + intros j Hj. rewrite I2 by (eapply apart; eauto). now apply HS.
Qed.
End One.

Lemma create_open : forall typed elems ms m clock cf g me el n d D,
  create A delay typed elems ms m clock = Ok (cf, g) -> set_up delay elems ms clock me el n d D ->
  let U := me_start me + (if me_start_delay me then 0 else D) in
  let c0 := fun j => match m_find j (g_audio clock) with Some td => td_stamp td | None => 0 end in
  Open A lin quant code n D d U (me_end me) (negb (me_end_pad me)) c0 (me_id me) el (me_labels me) g [] [] [] /\
  cf_elems cf = elems /\ m_find (me_id me) (cf_labels cf) = Some (me_labels me) /\ NoDup (me_labels me) /\ me_end me <= n /\ d <= D /\ (me_start_delay me = true -> D <= me_start me).
Proof.
  intros typed elems ms m clock cf g me el n d D R H U c0.
  pose proof (su_ids _ _ _ _ _ _ _ _ _ H) as H1. pose proof (su_in _ _ _ _ _ _ _ _ _ H) as H3. pose proof (su_el _ _ _ _ _ _ _ _ _ H) as H4. pose proof (su_n _ _ _ _ _ _ _ _ _ H) as H5.
  pose proof (su_pos _ _ _ _ _ _ _ _ _ H) as H6. pose proof (su_subs _ _ _ _ _ _ _ _ _ H) as H7. pose proof (su_some _ _ _ _ _ _ _ _ _ H) as H8. pose proof (su_labs _ _ _ _ _ _ _ _ _ H) as H9.
  pose proof (su_apart _ _ _ _ _ _ _ _ _ H) as H10. pose proof (su_delay _ _ _ _ _ _ _ _ _ H) as H11. pose proof (su_d _ _ _ _ _ _ _ _ _ H) as H12. pose proof (su_max _ _ _ _ _ _ _ _ _ H) as H13.
  pose proof (su_clock _ _ _ _ _ _ _ _ _ H) as H14. pose proof (su_start _ _ _ _ _ _ _ _ _ H) as H15.
  unfold create in R. destruct ms as [|first ms0]; [destruct H3|]. set (ms := first :: ms0) in *. cbv zeta in R. rb R cs Ec. rb R sts Es. destruct sts as ((labs, subs), trs). injection R as <- <-.
  destruct (coders_of_ok _ _ _ _ fresh_nil Ec) as (F1 & F2). rewrite (max_delay_ok _ _ _ _ F1 Ec H13) in Es.
  assert (D0 : 0 <= D) by apply H13. assert (LB : labelled (el_subs el)) by (split; assumption).
  destruct (init_metas_own typed m D first elems cs me el D0 ltac:(lia) H4 LB H10 ms _ _ H1 H3 (NoDup_nil _ : NoDup (map fst (snd (fst (([], [], []) : labmap * list (Z * sub T) * list (Z * trims)))))) eq_refl (fun _ _ => eq_refl) Es) as (I1 & I2 & I3 & I4 & I5).
  cbn [fst snd] in I1, I2, I5. cbn [cf_elems cf_labels].
  assert (DD : forall l c, In l (el_subs el) -> m_find (fst l) cs = Some c -> c_delay c = d /\ c_queue c = [] /\ c_done c = false).
  { intros l c Hl Hc. destruct (proj2 F1 _ _ Hc) as (Q1 & Q2 & Q3). rewrite H11 in Q3 by (now apply in_map). injection Q3 as ->. auto. }
  assert (dD : d <= D /\ (me_start_delay me = true -> D <= me_start me)).
  { destruct (el_subs el) as [|l0 r] eqn:El; [congruence|]. destruct (I5 l0 (or_introl eq_refl)) as (_ & S0 & c & C1 & C2 & _). destruct (DD l0 c (or_introl eq_refl) C1) as (<- & _). auto. }
  split; [|rewrite H5 in I4; tauto].
  split; [reflexivity|]. split. { split; [exact I1|]. split; [exact (proj1 F1)|]. apply Forall_forall. intros (j, c) Hin. pose proof (proj1 (PropsDemix.m_find_in j cs c (proj1 F1)) Hin) as Fj. destruct (proj2 F1 _ _ Fj) as (Q & _). unfold tagged. cbn [snd]. rewrite Q. constructor. }
  split. { repeat split; [constructor | intros k s [] | intros l s [] | intros l Hl _; left; reflexivity]. }
  set (x0 := fun l : Z * list label => mkSt (P := P) (mkAv (repeat (repeat zt (Z.to_nat D)) (length (snd l))) (repeat (repeat 0 (Z.to_nat (D - d))) (length (snd l))) 0 D)
      (mkTrims (negb (me_end_pad me)) (me_end me) U) [] (c0 (fst l))).
  exists (map x0 (el_subs el)), (Z.to_nat D), (Z.to_nat (D - d)). rewrite H5 in I5.
  assert (FM : forall (Q : Z * list label -> @FrameGenFacts.st T P -> Prop) l0, (forall l, In l l0 -> Q l (x0 l)) -> Forall2 Q l0 (map x0 l0)).
  { intros Q l0 K. induction l0 as [|l l0 IH]; cbn [map]; constructor; [apply K; now left | apply IH; intros; apply K; now right]. }
  split; [|split; [|split; [lia|]]]; apply FM; intros l Hl.
  - destruct (I5 l Hl) as (J1 & _ & c & J2 & J3 & J4). destruct (DD l c Hl J2) as (K1 & K2 & K3). rewrite K1 in J4. unfold x0. split; [exact J4|]. split; [exact J1|]. split; [exists c; auto|].
    destruct (H14 (fst l) (in_map fst _ _ Hl)) as (td & T1 & _). exists td. cbn [g_clock x_clk]. unfold c0. rewrite T1. auto.
  - unfold x0. cbn [x_av]. unfold even. cbn [a_obu a_enc]. rewrite !repeat_length. repeat split; auto; apply Forall_forall; intros y Hy; apply repeat_spec in Hy; subst; apply repeat_length.
  - unfold x0. exists (fun _ => []), (fun _ => []), []. split; [exists []; repeat split; constructor|].
    assert (NR : forall X (v : X) k c, (c < k)%nat -> nth c (repeat v k) v = v) by (intros X v k c _; apply nth_repeat).
    split; [|cbn [x_av x_tr x_q a_end tr_inc tr_end of_sub filter]; pose proof (su_end _ _ _ _ _ _ _ _ _ H) as H16; split; [reflexivity|]; split; [reflexivity|]; split; [destruct (negb _); lia|]; split; [intros _; exact H16|]; split; [lia|]; split; [lia|]; split; [constructor|]; left; split; [reflexivity | constructor]].
    cbn [of_sub filter map app]. constructor; cbn [x_q x_av x_tr x_clk a_obu a_enc a_start tr_start app map length seq]; try constructor.
    + intros c Hc. unfold catc. cbn [map concat app]. rewrite app_nil_r. rewrite (nth_indep _ [] (repeat zt (Z.to_nat D))) by (now rewrite repeat_length). now apply NR.
    + intros c Hc. unfold catc. cbn [map concat app]. rewrite app_nil_r. rewrite (nth_indep _ [] (repeat 0 (Z.to_nat (D - d)))) by (now rewrite repeat_length). now apply NR.
    + change (zlen ([] : list (FrameGen.oframe T P))) with 0. lia.
    + change (zlen ([] : list (FrameGen.oframe T P))) with 0. unfold U. destruct (me_start_delay me); lia.
Qed.
End Init.
