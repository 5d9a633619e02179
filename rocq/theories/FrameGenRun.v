(* The audio frame generator: an audio element through a whole session *)
From Verif Require Import PropsLabels PropsUnit.
From Verif Require Import Base WriteBuf CodecConfig Params AudioElement Timing ParamManager AeData Demix SubFrames SubFramesFacts FrameGen FrameGenFacts FrameGenHist FrameGenOut FrameGenSpec.
From Verif Require PropsDemix.
From Coq Require Import Lia Permutation.

Section Run.
Context {T P : Type}.
Variable A : arith T.
Variable lin : Z -> T.
Variable quant : T -> res Z.
Variable code : Z -> list (list Z) -> res P.
Notation smap := (@smap T).
Notation zt := (a_lit A 0 1).
Variable n : Z.
Hypothesis n_pos : 0 < n.
Notation nn := (Z.to_nat n).
Notation gen := (gen T P).
Notation oframe := (oframe T P).
Notation st := (@st T P).
Variable D d U E0 : Z.
Variable inc : bool.
Variable c0 : Z -> Z.
Hypothesis d_ok : 0 <= d <= D.
Hypothesis U_ok : 0 <= U < 2 ^ 32.
Hypothesis n_small : 3 * n < 2 ^ 32.
Hypothesis E_ok : 0 <= E0 <= n.
Variable cf : cfg.
Variable id : Z.
Variable el : elem.
Variable labels : list label.
Notation ls := (el_subs el).
Hypothesis el_n_ok : el_n el = n.
Hypothesis ls_ok : labelled ls.
Hypothesis ls_some : ls <> [].
Hypothesis cf_el : m_find id (cf_elems cf) = Some el.
Hypothesis cf_lab : m_find id (cf_labels cf) = Some labels.
Hypothesis cf_keys : NoDup (map fst (cf_elems cf)).
Hypothesis labels_ok : NoDup labels /\ labels <> [].
Hypothesis apart : forall id' el', id' <> id -> m_find id' (cf_elems cf) = Some el' -> forall j, In j (map fst ls) -> ~ In j (map fst (el_subs el')).
Hypothesis ns : forall j, In j (map fst ls) -> n_of (cf_elems cf) j = Ok n.

Definition mixes (batches : list (dmix * smap)) (labs : list label) (fr : nat -> list T) (fe : nat -> list Z) : Prop :=
  exists rss, Forall2 (fun b rs => mixed A lin quant el (fst b) (snd b) labs rs) batches rss /\
    (forall c, fr c = catc c (map (map fst) rss)) /\ (forall c, fe c = catc c (map (map snd) rss)).
Definition no_end (fs : list oframe) : Prop := Forall (fun f => o_end f = 0) fs.
(* the frames of a substream up to now; pad: the zeros at the end *)
Definition sub_gen (batches : list (dmix * smap)) (qs : list dmix) (pad pe : Z) (O : list oframe) (l : Z * list label) (x : st) : Prop :=
  exists fr fe ins, mixes batches (snd l) fr fe /\
    hist A code n D d U (c0 (fst l)) (fst l) (length (snd l)) fr fe (map fst batches ++ qs) pad pe x (of_sub (fst l) O) ins /\
    a_end (x_av x) = 0 /\ tr_inc (x_tr x) = inc /\ tr_end (x_tr x) = E0 + (if inc then pad else 0) /\ (inc = false -> pad <= E0) /\ 0 <= pad < n /\ 0 <= pe /\
    no_end (of_sub (fst l) O) /\ (pad = 0 /\ no_end (x_q x) \/ exists q f, x_q x = q ++ [f] /\ no_end q /\ o_end f = pad).

Lemma mixed_cols : forall p m labs rs, mixed A lin quant el p m labs rs -> length rs = length labs /\ Forall (fun r => length (fst r) = length (snd r)) rs.
Proof.
  intros p m labs rs (m' & _ & R). revert rs R. induction labs as [|l labs IH]; intros rs R; cbn [rmap] in R; [injection R as <-; auto|].
  rb R y Ey. rb R q Eq0. injection R as <-. destruct (IH q eq_refl) as (I1 & I2). split; [cbn [length]; now rewrite I1|]. constructor; [|exact I2].
  unfold channel_out in Ey. destruct (sm_find (Orig l) m') as [s|]; [|discriminate]. rb Ey z Ez. injection Ey as <-. cbn [fst snd]. symmetry. exact (rmap_len _ _ _ Ez).
Qed.
Lemma mixes_len : forall batches labs fr fe c, mixes batches labs fr fe -> length (fr c) = length (fe c).
Proof.
  intros batches labs fr fe c (rss & F & H1 & H2). rewrite H1, H2. clear H1 H2. unfold catc. induction F as [|b rs bs rss M F IH]; [reflexivity|].
  cbn [map concat]. rewrite !app_length, IH. f_equal. destruct (mixed_cols _ _ _ _ M) as (_ & E). clear -E. revert c. induction E as [|r rs Hr E IH]; intros [|c]; cbn [map nth]; auto.
Qed.
Lemma mixes_add : forall batches labs fr fe p m rs, mixes batches labs fr fe -> mixed A lin quant el p m labs rs ->
  mixes (batches ++ [(p, m)]) labs (fun c => fr c ++ nth c (map fst rs) []) (fun c => fe c ++ nth c (map snd rs) []).
Proof.
  intros batches labs fr fe p m rs (rss & F & H1 & H2) M. exists (rss ++ [rs]). split; [apply Forall2_app; [exact F|]; constructor; [exact M | constructor]|].
  split; intro c; rewrite map_app; cbn [map]; rewrite catc_app, catc_one; [now rewrite H1 | now rewrite H2].
Qed.
Lemma mixes_same : forall batches labs fr fe fr' fe', mixes batches labs fr fe -> (forall c, fr' c = fr c) -> (forall c, fe' c = fe c) -> mixes batches labs fr' fe'.
Proof. intros batches labs fr fe fr' fe' (rss & F & H1 & H2) E1 E2. exists rss. split; [exact F|]. split; intro c; rewrite ?E1, ?E2; auto. Qed.

(* the coder is behind by its delay, apart from the zeros it was given *)
Lemma catc_len : forall {X} c (bs : list (list (list X))) k, Forall (fun b => length b = k /\ Forall (fun col => length col = nn) b) bs -> (c < k)%nat -> length (catc c bs) = (length bs * nn)%nat.
Proof.
  intros X c bs k H Hc. unfold catc. induction H as [|b bs (B1 & B2) H IH]; [reflexivity|]. cbn [map concat length]. rewrite app_length, IH.
  rewrite Forall_forall in B2. rewrite (B2 (nth c b [])) by (apply nth_In; lia). lia.
Qed.
Lemma F2_length : forall {X Y} (R : X -> Y -> Prop) a b, Forall2 R a b -> length a = length b.
Proof. intros X Y R a b H. induction H; cbn [length]; congruence. Qed.
Lemma behind : forall batches qs pad pe O l x t e, sub_gen batches qs pad pe O l x -> even (length (snd l)) t e (x_av x) -> snd l <> [] -> Z.of_nat e + d = Z.of_nat t + pe.
Proof.
  intros batches qs pad pe O l x t e (fr & fe & ins & M & H & _ & _ & _ & _ & Hp & Hpe & _) (E1 & E2 & E3 & E4) Hl.
  assert (K : (0 < length (snd l))%nat) by (destruct (snd l); [congruence | cbn; lia]).
  pose proof (f_equal (@length T) (h_raw _ _ _ _ _ _ _ _ _ _ _ _ _ _ _ _ _ H 0%nat K)) as R1.
  pose proof (f_equal (@length Z) (h_enc _ _ _ _ _ _ _ _ _ _ _ _ _ _ _ _ _ H 0%nat K)) as R2.
  rewrite !app_length, !repeat_length in R1, R2.
  rewrite (catc_len 0 _ (length (snd l))) in R1; [|apply Forall_map; eapply Forall_impl; [|exact (h_shape _ _ _ _ _ _ _ _ _ _ _ _ _ _ _ _ _ H)]; intros f (_ & F2); exact F2 | exact K].
  rewrite (catc_len 0 _ (length (snd l))) in R2; [|exact (h_ins _ _ _ _ _ _ _ _ _ _ _ _ _ _ _ _ _ H) | exact K].
  rewrite map_length in R1. rewrite <- (F2_length _ _ _ (h_code _ _ _ _ _ _ _ _ _ _ _ _ _ _ _ _ _ H)) in R2.
  rewrite Forall_forall in E3, E4. rewrite (E3 (nth 0 (a_obu (x_av x)) [])) in R1 by (apply nth_In; lia). rewrite (E4 (nth 0 (a_enc (x_av x)) [])) in R2 by (apply nth_In; lia).
  rewrite (mixes_len _ _ _ _ 0 M) in R1. clear -R1 R2 d_ok Hp Hpe. lia.
Qed.

Definition step_pe (t e : nat) : Z := more_of n t e.
Lemma gen_feed : forall batches p m k pe O l x x' t e, In l ls ->
  sub_gen batches [] 0 pe O l x -> even (length (snd l)) t e (x_av x) -> all_len k m -> pe = 0 -> (0 < t + k)%nat ->
  feeding A lin quant code n el p m (t + k) (e + k) l x x' ->
  sub_gen (batches ++ [(p, m)]) [] (pad_of n (t + k)) (pe + more_of n (t + k) (e + k)) O l x' /\ x_q x' <> [].
Proof.
  intros batches p m k pe O l x x' t e Hin (fr & fe & ins & M & H & Ae & Ti & Te & Tl & Hp & Hpe & No & En) HE Hk P0 Htk (rs & f & F1 & F2 & -> & F4).
  destruct (mixed_cols _ _ _ _ F1) as (L1 & _). pose proof HE as (A1 & A2 & _).
  pose proof (mixed_even A lin quant code el p m (snd l) rs k t e (x_av x) Hk F1 HE) as HE'.
  destruct (hist_feed A lin quant code n n_pos D d U (c0 (fst l)) (fst l) (length (snd l)) fr fe (map fst batches ++ []) p pe x (of_sub (fst l) O) ins rs (t + k) (e + k) f H Hpe L1 Ae (or_introl P0) HE' A1 A2 F2)
    as (i & H' & Oe & Xq & Ae' & Xt).
  assert (PD : pad_of n (t + k) = (if Z.of_nat (t + k) <? n then n - Z.of_nat (t + k) else 0)) by reflexivity.
  assert (MO : 0 <= more_of n (t + k) (e + k)) by (unfold more_of; cbv zeta; destruct (Z.ltb_spec (fill_len n (Z.of_nat (t + k)) (Z.of_nat (e + k))) n); lia).
  split; [|rewrite Xq; now destruct (x_q x)].
  eexists _, _, _. split; [exact (mixes_add _ _ _ _ _ _ _ M F1)|].
  split; [rewrite app_nil_r in H' |- *; rewrite map_app; cbn [map fst]; exact H'|].
  rewrite Xt, Xq. unfold fill_tr, left_of. split; [exact Ae'|].
  assert (NE : no_end (x_q x)). { destruct En as [(_ & En) | (q & g & -> & N1 & N2)]; [exact En|]. apply Forall_app. split; [exact N1|]. constructor; [exact N2 | constructor]. }
  unfold enough in F4. rewrite Te, Ti in F4. rewrite PD. destruct (Z.ltb_spec (Z.of_nat (t + k)) n) as [Hlt | Hge]; cbn [tr_inc tr_end]; rewrite ?Ti, ?Te.
  - repeat split; try lia; auto; [destruct inc; lia|intro Hi; specialize (F4 Hlt Hi); rewrite Hi in F4; lia|]. right. exists (x_q x), f. repeat split; auto. rewrite Oe, PD. destruct (Z.ltb_spec (Z.of_nat (t + k)) n); lia.
  - repeat split; try lia; auto. right. exists (x_q x), f. repeat split; auto. rewrite Oe, PD. destruct (Z.ltb_spec (Z.of_nat (t + k)) n); lia.
Qed.
Lemma gen_flush : forall batches qs p m pe O l x x' t e, In l ls ->
  sub_gen batches qs 0 pe O l x -> even (length (snd l)) t e (x_av x) -> all_len 0 m -> (0 < t)%nat ->
  feeding A lin quant code n el p m (t + 0) (e + 0) l x x' ->
  sub_gen batches (qs ++ [p]) (pad_of n t) (pe + more_of n t e) O l x' /\ x_q x' <> [].
Proof.
  intros batches qs p m pe O l x x' t e Hin (fr & fe & ins & M & H & Ae & Ti & Te & Tl & Hp & Hpe & No & En) HE Hk Ht (rs & f & F1 & F2 & -> & F4).
  rewrite !Nat.add_0_r in *.
  destruct (mixed_cols _ _ _ _ F1) as (L1 & _). pose proof HE as (A1 & A2 & _).
  pose proof (mixed_even A lin quant code el p m (snd l) rs 0 t e (x_av x) Hk F1 HE) as HE'. rewrite !Nat.add_0_r in HE'.
  assert (COLS : Forall (fun c => c = []) (map fst rs) /\ Forall (fun c => c = []) (map snd rs)).
  { destruct F1 as (m' & R1 & R2). pose proof (run_downmixers_len A lin quant code 0 _ _ _ _ Hk R1) as Hk'. destruct (channels_len A lin quant _ 0 m' _ _ Hk' R2) as (_ & C2 & C3).
    split; [eapply Forall_impl; [|exact C2] | eapply Forall_impl; [|exact C3]]; intros c Hc; cbv beta in Hc; now destruct c. }
  destruct COLS as (C1 & C2).
  assert (NTH : forall X (bs : list (list X)) c, Forall (fun c => c = []) bs -> nth c bs [] = []).
  { intros X bs c F. rewrite Forall_forall in F. destruct (Nat.ltb_spec c (length bs)); [apply F; now apply nth_In | now apply nth_overflow]. }
  destruct (hist_feed A lin quant code n n_pos D d U (c0 (fst l)) (fst l) (length (snd l)) fr fe (map fst batches ++ qs) p pe x (of_sub (fst l) O) ins rs t e f H Hpe L1 Ae (or_intror C2) HE' A1 A2 F2)
    as (i & H' & Oe & Xq & Ae' & Xt).
  assert (PD : pad_of n t = (if Z.of_nat t <? n then n - Z.of_nat t else 0)) by reflexivity.
  assert (MO : 0 <= more_of n t e) by (unfold more_of; cbv zeta; destruct (Z.ltb_spec (fill_len n (Z.of_nat t) (Z.of_nat e)) n); lia).
  split; [|rewrite Xq; now destruct (x_q x)].
  eexists _, _, _. split; [exact (mixes_same _ _ _ _ _ _ M (fun c => eq_trans (f_equal (app (fr c)) (NTH _ (map fst rs) c C1)) (app_nil_r _)) (fun c => eq_trans (f_equal (app (fe c)) (NTH _ (map snd rs) c C2)) (app_nil_r _)))|].
  split; [rewrite app_assoc; exact H'|].
  rewrite Xt, Xq. unfold fill_tr, left_of. split; [exact Ae'|].
  assert (NE : no_end (x_q x)). { destruct En as [(_ & En) | (q & g & -> & N1 & N2)]; [exact En|]. apply Forall_app. split; [exact N1|]. constructor; [exact N2 | constructor]. }
  unfold enough in F4. rewrite Te, Ti in F4. rewrite PD. destruct (Z.ltb_spec (Z.of_nat t) n) as [Hlt | Hge]; cbn [tr_inc tr_end]; rewrite ?Ti, ?Te.
  - repeat split; try lia; auto; [destruct inc; lia|intro Hi; specialize (F4 Hlt Hi); rewrite Hi in F4; lia|]. right. exists (x_q x), f. repeat split; auto. rewrite Oe, PD. destruct (Z.ltb_spec (Z.of_nat t) n); lia.
  - repeat split; try lia; auto. right. exists (x_q x), f. repeat split; auto. rewrite Oe, PD. destruct (Z.ltb_spec (Z.of_nat t) n); lia.
Qed.

(* ----- OutputFrames, one substream ----- *)
Lemma of_sub_app : forall j (a b : list oframe), of_sub j (a ++ b) = of_sub j a ++ of_sub j b.
Proof. intros. unfold of_sub. apply filter_app. Qed.
Lemma tr_bound : forall pad : Z, 0 <= pad < n -> 0 <= E0 + (if inc then pad else 0) < 2 ^ 32.
Proof. intros. change (2 ^ 32) with 4294967296 in *. destruct inc; lia. Qed.
Lemma sub_gen_quiet : forall batches qs pad pe O fs l x, of_sub (fst l) fs = [] -> sub_gen batches qs pad pe O l x -> sub_gen batches qs pad pe (O ++ fs) l x.
Proof. intros batches qs pad pe O fs l x H S. unfold sub_gen in *. now rewrite of_sub_app, H, app_nil_r. Qed.
Lemma live_deliver : forall batches qs pe O l x g1 g' fs, In l ls -> sane g1 -> live n g1 (fst l) x -> sub_gen batches qs 0 pe O l x ->
  flushing (g_stage g1) && drained (fst l) (g_subs g1) = false -> deliver cf g1 = Ok (g', fs) ->
  exists x', live n g' (fst l) x' /\ sub_gen batches qs 0 pe (O ++ fs) l x' /\ x_av x' = x_av x.
Proof.
  intros batches qs pe O l x g1 g' fs Hin Hs HL HG HD R.
  destruct (deliver_spec lin quant code _ _ _ _ Hs R) as (S1 & S2 & S3 & S4 & _ & S6).
  pose proof HL as ((sd & F & HF) & Ft & (c & Fc & Qc & Dc) & (td & Fd & Sd)).
  destruct (S6 _ _ Fc) as (DV & SB). rewrite HD in DV, SB.
  destruct DV as [(V1 & V2 & V3) | (f & q & nj & tr & tr' & f' & V1 & V2 & V3 & V4 & V5 & V6 & V7)].
  - exists x. split; [|split; [now apply sub_gen_quiet | reflexivity]].
    unfold finished in V3. rewrite Dc in V3. cbn [andb] in V3. repeat split.
    + exists sd. rewrite SB. auto.
    + congruence.
    + exists c. auto.
    + exists td. rewrite S4. auto.
  - rewrite ns in V2 by (now apply in_map). injection V2 as <-. rewrite Ft in V3. injection V3 as <-. rewrite Dc in V4. cbn [andb] in V4. rewrite Qc in V1.
    destruct HG as (fr & fe & ins & M & H & Ae & Ti & Te & Tl & Hp & Hpe & No & En).
    assert (NE : no_end (x_q x)). { destruct En as [(_ & En) | (q1 & g1' & -> & N1 & N2)]; [exact En|]. apply Forall_app. split; [exact N1|]. constructor; [exact N2 | constructor]. }
    rewrite V1 in NE. inversion NE as [|? ? NE1 NE2]; subst.
    destruct (hist_pop A lin quant code n n_pos D d U (c0 (fst l)) d_ok U_ok (fst l) (length (snd l)) fr fe (map fst batches ++ qs) 0 pe x (of_sub (fst l) O) ins f q false tr' f' H V1)
      as (H' & I1 & I2 & I3 & _); auto; [lia | rewrite Te; apply tr_bound; lia|]. destruct (I3 eq_refl) as (I4 & I5).
    exists (popped x tr' q). split; [|split; [|reflexivity]].
    + repeat split; cbn [popped x_av x_tr x_q x_clk].
      * exists sd. rewrite SB. auto.
      * exact V6.
      * exists (rest_of c q). unfold finished in V5. cbn [rest_of c_done] in V5. rewrite Dc in V5. cbn [andb] in V5. auto.
      * exists td. rewrite S4. auto.
    + exists fr, fe, ins. rewrite of_sub_app, V7. cbn [popped x_av x_tr x_q]. split; [exact M|]. split; [exact H'|]. rewrite I2, I5. repeat split; auto; try lia.
      * apply Forall_app. split; [exact No|]. constructor; [congruence | constructor].
Qed.

Definition final (batches : list (dmix * smap)) (O : list oframe) (l : Z * list label) : Prop :=
  exists fr fe qs pad x ins o f, mixes batches (snd l) fr fe /\
    hist A code n D d U (c0 (fst l)) (fst l) (length (snd l)) fr fe (map fst batches ++ qs) pad d x (of_sub (fst l) O) ins /\ x_q x = [] /\
    even (length (snd l)) 0 0 (x_av x) /\ 0 <= pad < n /\ (inc = false -> pad <= E0) /\ of_sub (fst l) O = o ++ [f] /\ no_end o /\ o_end f = E0 + (if inc then pad else 0) /\ o_end f <= n.
Definition gone (batches : list (dmix * smap)) (O : list oframe) (g : gen) (l : Z * list label) : Prop :=
  m_find (fst l) (g_subs g) = None /\
  ((exists x qs pad c, x_q x <> [] /\ m_find (fst l) (g_trims g) = Some (x_tr x) /\ m_find (fst l) (g_coders g) = Some c /\ c_queue c = x_q x /\ c_done c = true /\
     sub_gen batches qs pad d O l x /\ even (length (snd l)) 0 0 (x_av x)) \/
   (m_find (fst l) (g_coders g) = None /\ final batches O l)).
Lemma done_deliver : forall batches qs pad O l x g1 g' fs c, In l ls -> x_q x <> [] -> m_find (fst l) (g_trims g1) = Some (x_tr x) ->
  c_queue c = x_q x -> c_done c = true -> sub_gen batches qs pad d O l x -> even (length (snd l)) 0 0 (x_av x) ->
  delivered cf (fst l) c g1 g' fs -> m_find (fst l) (g_subs g') = None -> gone batches (O ++ fs) g' l.
Proof.
  intros batches qs pad O l x g1 g' fs c Hin Hq Ft Qc Dc HG HE DV SB. split; [exact SB|].
  destruct DV as [(V1 & V2 & V3) | (f & q & nj & tr & tr' & f' & V1 & V2 & V3 & V4 & V5 & V6 & V7)].
  - left. exists x, qs, pad, c. unfold finished in V3. rewrite Dc, Qc in V3. destruct (x_q x) as [|f0 q0] eqn:Xq; [congruence|]. cbn [nil andb] in V3.
    repeat split; auto; try congruence. { now apply sub_gen_quiet. } all: apply HE.
  - rewrite ns in V2 by (now apply in_map). injection V2 as <-. rewrite Ft in V3. injection V3 as <-. rewrite Dc in V4. cbn [andb] in V4. rewrite Qc in V1.
    destruct HG as (fr & fe & ins & M & H & Ae & Ti & Te & Tl & Hp & Hpe & No & En).
    assert (EN : exists q1 f1, x_q x = q1 ++ [f1] /\ no_end q1 /\ o_end f1 = pad).
    { destruct En as [(Z0 & En) | En]; [|exact En]. destruct (exists_last Hq) as (q1 & f1 & Xq). rewrite Xq in En. apply Forall_app in En. destruct En as (N1 & N2). inversion N2; subst. exists q1, f1. auto. }
    destruct EN as (q1 & f1 & Xq & N1 & N2).
    destruct q as [|f2 q].
    + (* the last frame *)
      cbn [nil] in V4. rewrite V1 in Xq. destruct q1 as [|? q1]; [|destruct q1; discriminate]. injection Xq as ->.
      destruct (hist_pop A lin quant code n n_pos D d U (c0 (fst l)) d_ok U_ok (fst l) (length (snd l)) fr fe (map fst batches ++ qs) pad d x (of_sub (fst l) O) ins f1 [] true tr' f' H V1)
        as (H' & I1 & I2 & _ & I3); auto; [lia | rewrite Te; apply tr_bound; lia|]. destruct (I3 eq_refl) as (I4 & I5).
      right. split; [unfold finished in V5; cbn [rest_of c_done c_queue] in V5; rewrite Dc in V5; exact V5|].
      exists fr, fe, qs, pad, (popped x tr' []), ins, (of_sub (fst l) O), f'. rewrite of_sub_app, V7. cbn [popped x_av x_q]. rewrite I4, Te in *.
      split; [exact M|]. split; [exact H'|]. split; [reflexivity|]. split; [exact HE|]. repeat split; auto; lia.
    + cbn [nil] in V4. rewrite V1 in Xq. destruct q1 as [|f3 q1]; [discriminate|]. cbn [app] in Xq. injection Xq as <- Xq. inversion N1 as [|? ? N3 N4]; subst.
      destruct (hist_pop A lin quant code n n_pos D d U (c0 (fst l)) d_ok U_ok (fst l) (length (snd l)) fr fe (map fst batches ++ qs) (o_end f1) d x (of_sub (fst l) O) ins f (f2 :: q) false tr' f' H V1)
        as (H' & I1 & I2 & I3 & _); auto; [lia | rewrite Te; apply tr_bound; lia|]. destruct (I3 eq_refl) as (I4 & I5).
      left. exists (popped x tr' (f2 :: q)), qs, (o_end f1), (rest_of c (f2 :: q)). cbn [popped x_av x_tr x_q rest_of c_queue c_done].
      unfold finished in V5. cbn [rest_of c_done c_queue nil] in V5. rewrite Dc in V5. cbn [andb] in V5.
      split; [discriminate|]. split; [exact V6|]. split; [exact V5|]. split; [reflexivity|]. split; [exact Dc|]. split; [|exact HE].
      exists fr, fe, ins. rewrite of_sub_app, V7. cbn [popped x_av x_tr x_q]. split; [exact M|]. split; [exact H'|]. rewrite I2, I5. repeat split; auto; try lia.
      * apply Forall_app. split; [exact No|]. constructor; [congruence | constructor].
      * right. exists q1, f1. auto.
Qed.
Lemma gone_deliver : forall batches O l g1 g' fs, In l ls -> sane g1 -> gone batches O g1 l -> deliver cf g1 = Ok (g', fs) -> gone batches (O ++ fs) g' l.
Proof.
  intros batches O l g1 g' fs Hin Hs (SB & G) R. destruct (deliver_spec lin quant code _ _ _ _ Hs R) as (S1 & S2 & S3 & S4 & S5 & S6).
  assert (DR : drained (fst l) (g_subs g1) = false) by (unfold drained; now rewrite SB).
  destruct G as [(x & qs & pad & c & G1 & G2 & G3 & G4 & G5 & G6 & G7) | (G1 & G2)].
  - destruct (S6 _ _ G3) as (DV & SB'). rewrite DR, andb_false_r in DV, SB'. eapply done_deliver; eauto. congruence.
  - destruct (S5 _ G1) as (V1 & V2 & V3 & V4). split; [congruence|]. right. split; [exact V3|].
    unfold final in *. now rewrite of_sub_app, V2, app_nil_r.
Qed.

(* ----- the samples which are waiting ----- *)
Definition inmap (part : list (label * list T)) (m : smap) : Prop :=
  NoDup (map fst m) /\ (forall k s, In (k, s) m -> exists l, k = Orig l /\ In l labels) /\ (forall l s, In (l, s) part -> sm_find (Orig l) m = Some s) /\
  (forall l, In l labels -> ~ In l (map fst part) -> sm_find (Orig l) m = None \/ sm_find (Orig l) m = Some []).
Definition empties (m : smap) : Prop := m <> [] /\ all_len 0 m /\ ready None m labels = true.
Lemma sm_set_keys : forall (m : smap) k s x, In x (map fst (sm_set k s m)) -> x = k \/ In x (map fst m).
Proof.
  induction m as [|(i, v) m IH]; intros k s x H; cbn [sm_set] in H; [cbn in H; destruct H as [<- | []]; auto|].
  destruct (lkey_eq_dec i k); cbn [map fst In] in *; [destruct H; auto|]. destruct H as [H | H]; [auto|]. destruct (IH _ _ _ H); auto.
Qed.
Lemma sm_set_nodup : forall (m : smap) k s, NoDup (map fst m) -> NoDup (map fst (sm_set k s m)).
Proof.
  induction m as [|(i, v) m IH]; intros k s H; cbn [sm_set]; [constructor; [easy | constructor]|]. cbn [map fst] in H. inversion H as [|? ? H1 H2]; subst.
  destruct (lkey_eq_dec i k); cbn [map fst]; [subst; now constructor|]. constructor; [|now apply IH]. intro X. apply sm_set_keys in X. destruct X; [congruence | contradiction].
Qed.
Lemma sm_find_set' : forall (m : smap) k j v, sm_find j (sm_set k v m) = if lkey_eq_dec k j then Some v else sm_find j m.
Proof.
  induction m as [|(i, x) m IH]; intros k j v; cbn [sm_set sm_find]; [reflexivity|]. destruct (lkey_eq_dec i k); cbn [sm_find].
  - subst. destruct (lkey_eq_dec k j); reflexivity.
  - destruct (lkey_eq_dec i j); [|apply IH]. destruct (lkey_eq_dec k j); congruence.
Qed.
Lemma sm_find_In : forall (m : smap) k v, NoDup (map fst m) -> In (k, v) m <-> sm_find k m = Some v.
Proof.
  induction m as [|(i, x) m IH]; intros k v H; cbn [sm_find In]; [easy|]. cbn [map fst] in H. inversion H as [|? ? H1 H2]; subst. destruct (lkey_eq_dec i k).
  - subst. split; [intros [E | E]; [congruence|]; exfalso; apply H1; change k with (fst (k, v)); now apply in_map | intros [= ->]; now left].
  - rewrite <- IH by assumption. split; [intros [E | E]; [congruence | exact E] | now right].
Qed.
Lemma inmap_add : forall part m l xs, inmap part m -> In l labels -> ~ In l (map fst part) -> inmap (part ++ [(l, xs)]) (sm_set (Orig l) xs m).
Proof.
  intros part m l xs (I1 & I2 & I3 & I4) Hl Hn. split; [now apply sm_set_nodup|]. split; [|split].
  - intros k s H. apply (in_map fst) in H. cbn [fst] in H. apply sm_set_keys in H. destruct H as [-> | H]; [eauto|]. apply in_map_iff in H. destruct H as ((k', s') & <- & H). cbn [fst]. eauto.
  - intros l' s H. rewrite sm_find_set'. apply in_app_iff in H. destruct H as [H | [H | []]].
    + destruct (lkey_eq_dec (Orig l) (Orig l')) as [E|]; [|auto]. injection E as ->. exfalso. apply Hn. change l' with (fst (l', s)). now apply in_map.
    + injection H as <- <-. destruct (lkey_eq_dec (Orig l) (Orig l)); [reflexivity | congruence].
  - intros l' H1 H2. rewrite map_app, in_app_iff in H2. cbn [map fst In] in H2. rewrite sm_find_set'. destruct (lkey_eq_dec (Orig l) (Orig l')) as [E|]; [injection E as ->; tauto|]. apply I4; tauto.
Qed.
Lemma ready_len : forall lbs nl (m : smap), ready nl m lbs = true -> forall k, nl = Some k -> forall l, In l lbs -> exists s, sm_find (Orig l) m = Some s /\ length s = k.
Proof.
  induction lbs as [|a lbs IH]; intros nl m H k -> l Hl; [easy|]. cbn [ready] in H. destruct (sm_find (Orig a) m) as [s|] eqn:F; [|discriminate].
  destruct (Nat.eqb_spec (length s) k) as [E|]; [|discriminate]. destruct Hl as [<- | Hl]; [eauto|]. eapply IH; eauto.
Qed.
Lemma ready_same : forall m : smap, ready None m labels = true -> exists k, forall l, In l labels -> exists s, sm_find (Orig l) m = Some s /\ length s = k.
Proof.
  intros m H. destruct labels as [|a lbs]; [destruct labels_ok; congruence|]. cbn [ready] in H. destruct (sm_find (Orig a) m) as [s|] eqn:F; [|discriminate].
  exists (length s). intros l [<- | Hl]; [eauto|]. eapply ready_len; eauto.
Qed.
Lemma ready_some : forall lbs (m : smap) k, (forall l, In l lbs -> exists s, sm_find (Orig l) m = Some s /\ length s = k) -> ready (Some k) m lbs = true.
Proof.
  induction lbs as [|a lbs IH]; intros m k H; [reflexivity|]. cbn [ready]. destruct (H a (or_introl eq_refl)) as (s & -> & <-). rewrite Nat.eqb_refl. apply IH. intros l Hl. apply H. now right.
Qed.
Lemma ready_all : forall (m : smap) k, (forall l, In l labels -> exists s, sm_find (Orig l) m = Some s /\ length s = k) -> ready None m labels = true.
Proof.
  intros m k H. destruct labels as [|a lbs] eqn:E; [reflexivity|]. cbn [ready]. destruct (H a (or_introl eq_refl)) as (s & -> & <-). apply ready_some. intros l Hl. apply H. now right.
Qed.
Lemma ready_part : forall m k part l l', inmap part m -> Forall (fun e => length (snd e) = k) part -> (0 < k)%nat -> In l labels -> In l (map fst part) -> In l' labels -> ~ In l' (map fst part) -> ready None m labels = false.
Proof.
  intros m k part l l' (I1 & I2 & I3 & I4) HF Hk Hl Hlp Hl' Hnp. destruct (ready None m labels) eqn:R; [|reflexivity]. exfalso.
  destruct (ready_same m R) as (k' & Q). destruct (Q l Hl) as (s & F1 & L1). destruct (Q l' Hl') as (s' & F2 & L2).
  apply in_map_iff in Hlp. destruct Hlp as ((l0, s0) & E & Hin). cbn [fst] in E. subst l0. pose proof (I3 _ _ Hin) as F3. rewrite F1 in F3. injection F3 as <-.
  rewrite Forall_forall in HF. specialize (HF _ Hin). cbn [snd] in HF. destruct (I4 l' Hl' Hnp) as [N | N]; rewrite N in F2; [discriminate|]. injection F2 as <-. cbn [length] in L2. lia.
Qed.
Lemma inmap_full : forall r m k, inmap r m -> full_round labels k r -> all_len k m /\ m <> [] /\ ready None m labels = true /\ samples_of r m /\ inmap [] (emptied m) /\ empties (emptied m).
Proof.
  intros r m k (I1 & I2 & I3 & I4) (R1 & R2 & R3).
  assert (FND : forall l, In l labels -> exists s, In (l, s) r /\ sm_find (Orig l) m = Some s /\ length s = k).
  { intros l Hl. apply (Permutation_in _ (Permutation_sym R1)) in Hl. apply in_map_iff in Hl. destruct Hl as ((l0, s) & E & Hin). cbn [fst] in E. subst l0.
    exists s. split; [exact Hin|]. split; [auto|]. rewrite Forall_forall in R2. exact (R2 _ Hin). }
  assert (AL : all_len k m).
  { apply Forall_forall. intros (key, s) Hin. destruct (I2 _ _ Hin) as (l & -> & Hl). cbn [snd]. destruct (FND l Hl) as (s' & _ & F & L). apply sm_find_In in Hin; [|exact I1]. rewrite F in Hin. now injection Hin as <-. }
  assert (NE : m <> []).
  { intros ->. destruct labels_ok as (_ & LN). destruct labels as [|a lbs]; [congruence|]. destruct (FND a (or_introl eq_refl)) as (s & _ & F & _). discriminate F. }
  assert (EF : forall kk, sm_find kk (emptied m) = match sm_find kk m with Some _ => Some [] | None => None end).
  { intro kk. unfold emptied. clear. induction m as [|(i, v) m IH]; [reflexivity|]. cbn [map sm_find fst]. destruct (lkey_eq_dec i kk); [reflexivity | exact IH]. }
  repeat split; auto.
  - apply (ready_all m k). intros l Hl. destruct (FND l Hl) as (s & _ & Q). eauto.
  - intros kk s Hin. destruct (I2 _ _ Hin) as (l & -> & Hl). exists l. split; [reflexivity|]. exact (Permutation_in _ (Permutation_sym R1) Hl).
  - unfold emptied. rewrite map_map. cbn [fst]. exact I1.
  - intros kk s Hin. unfold emptied in Hin. apply in_map_iff in Hin. destruct Hin as ((k', s') & E & Hin). injection E as <- <-. eauto.
  - intros l s [].
  - intros l Hl _. rewrite EF. destruct (FND l Hl) as (s & _ & -> & _). now right.
  - destruct m; [congruence | discriminate].
  - apply emptied_len.
  - apply (ready_all (emptied m) 0). intros l Hl. rewrite EF. destruct (FND l Hl) as (s & _ & -> & _). exists []. auto.
Qed.

(* ----- the phases ----- *)
Definition Open (g : gen) (O : list oframe) (batches : list (dmix * smap)) (part : list (label * list T)) : Prop :=
  g_stage g = Taking /\ sane g /\ inmap part (in_of id g) /\
  exists xs t e, lives n g ls xs /\ evenx ls t e xs /\ D <= Z.of_nat t /\ Forall2 (sub_gen batches [] 0 0 O) ls xs.
Definition ClosingT (t : nat) (g : gen) (O : list oframe) (batches : list (dmix * smap)) : Prop :=
  sane g /\ empties (in_of id g) /\
  exists xs e qs pad pe, lives n g ls xs /\ evenx ls t e xs /\ Forall2 (sub_gen batches qs pad pe O) ls xs /\ (pad = 0 \/ t = 0%nat) /\ pe <= d /\
    (t = 0%nat -> Forall (fun x => x_q x <> []) xs) /\ (g_stage g = Flushing -> (0 < t)%nat).
Definition Closing (g : gen) (O : list oframe) (batches : list (dmix * smap)) : Prop := exists t, ClosingT t g O batches.
Definition Gone (g : gen) (O : list oframe) (batches : list (dmix * smap)) : Prop :=
  g_stage g = Flushing /\ sane g /\ empties (in_of id g) /\ Forall (gone batches O g) ls.

(* what another element's calls leave alone *)
Definition alike (g g' : gen) : Prop :=
  (forall j, In j (map fst ls) -> m_find j (g_subs g') = m_find j (g_subs g) /\ m_find j (g_trims g') = m_find j (g_trims g) /\
     m_find j (g_coders g') = m_find j (g_coders g) /\ m_find j (g_audio (g_clock g')) = m_find j (g_audio (g_clock g))) /\
  in_of id g' = in_of id g.
Lemma alike_refl : forall g, alike g g.
Proof. intro. split; auto. Qed.
Lemma alike_trans : forall a b c, alike a b -> alike b c -> alike a c.
Proof.
  intros a b c (A1 & A2) (B1 & B2). split; [|congruence]. intros j Hj. destruct (A1 j Hj) as (X1 & X2 & X3 & X4). destruct (B1 j Hj) as (Y1 & Y2 & Y3 & Y4). repeat split; congruence.
Qed.
Lemma lives_alike : forall g g' l0 xs, (forall l, In l l0 -> In (fst l) (map fst ls)) -> alike g g' -> lives n g l0 xs -> lives n g' l0 xs.
Proof.
  intros g g' l0 xs HI (A1 & _) H. induction H as [|l x l0 xs ((sd & F & Q) & Ft & (c & Fc & Qc) & (td & Fd & Qd)) H IH]; constructor.
  - destruct (A1 (fst l) (HI l (or_introl eq_refl))) as (X1 & X2 & X3 & X4). repeat split; [exists sd; rewrite X1; auto | congruence | exists c; rewrite X3; auto | exists td; rewrite X4; auto].
  - apply IH. intros y Hy. apply HI. now right.
Qed.
Lemma beside_alike : forall id' el' g g', id' <> id -> m_find id' (cf_elems cf) = Some el' -> beside id' (el_subs el') g g' -> alike g g' /\ g_stage g' = g_stage g.
Proof.
  intros id' el' g g' Hne He (B1 & B2 & B3 & B4 & B5 & B6). split; [|exact B5]. split; [|now apply B6, not_eq_sym].
  intros j Hj. apply B1. eapply apart; eauto.
Qed.
Lemma in_ls : forall l, In l ls -> In (fst l) (map fst ls).
Proof. intros. now apply in_map. Qed.
Lemma open_alike : forall g g' O b part, alike g g' -> sane g' -> g_stage g' = g_stage g -> Open g O b part -> Open g' O b part.
Proof.
  intros g g' O b part HA Hs Hg (O1 & O2 & O3 & xs & t & e & O4 & O5 & O6 & O7). split; [congruence|]. split; [exact Hs|]. split; [rewrite (proj2 HA); exact O3|].
  exists xs, t, e. repeat split; auto. eapply lives_alike; eauto using in_ls.
Qed.
Lemma closing_t_alike : forall t g g' O b, alike g g' -> sane g' -> (g_stage g' = Flushing -> g_stage g = Flushing) -> ClosingT t g O b -> ClosingT t g' O b.
Proof.
  intros t g g' O b HA Hs Hg (O2 & O3 & xs & e & qs & pad & pe & O4 & O5 & O6 & O7 & O8 & O9 & O10). split; [exact Hs|]. split; [rewrite (proj2 HA); exact O3|].
  exists xs, e, qs, pad, pe. repeat split; auto. eapply lives_alike; eauto using in_ls.
Qed.
Lemma closing_alike : forall g g' O b, alike g g' -> sane g' -> (g_stage g' = Flushing -> g_stage g = Flushing) -> Closing g O b -> Closing g' O b.
Proof. intros g g' O b HA Hs Hg (t & HC). exists t. eapply closing_t_alike; eauto. Qed.
Lemma gone_alike : forall g g' O b, alike g g' -> sane g' -> g_stage g' = g_stage g -> Gone g O b -> Gone g' O b.
Proof.
  intros g g' O b HA Hs Hg (O1 & O2 & O3 & O4). split; [congruence|]. split; [exact Hs|]. split; [rewrite (proj2 HA); exact O3|].
  rewrite Forall_forall in O4 |- *. intros l Hl. destruct (O4 l Hl) as (G1 & G2). destruct (proj1 HA (fst l) (in_ls l Hl)) as (X1 & X2 & X3 & X4).
  split; [congruence|]. destruct G2 as [(x & qs & pad & c & Y1 & Y2 & Y3 & Y4) | (Y1 & Y2)]; [left; exists x, qs, pad, c; rewrite X2, X3; auto | right; rewrite X3; auto].
Qed.
Lemma other_add : forall id' l xs g g', id' <> id -> sane g -> add_samples A lin quant code cf id' l xs g = Ok g' -> alike g g' /\ sane g' /\ g_stage g' = g_stage g.
Proof.
  intros id' l xs g g' Hne Hs R. unfold add_samples in R. destruct (g_stage g) eqn:St; try (injection R as <-; rewrite St; auto using alike_refl).
  destruct (nil xs); [discriminate|]. destruct (m_find id' (cf_labels cf)) as [lb|]; [|discriminate]. cbv zeta in R. destruct (m_find id' (cf_elems cf)) as [el'|] eqn:Fe; [|discriminate].
  set (g1 := set_in id' (sm_set (Orig l) xs (in_of id' g)) g) in *.
  assert (B1 : beside id' (el_subs el') g g1) by apply set_in_beside.
  pose proof (maybe_beside A lin quant code n _ _ _ _ _ R) as B2. destruct (beside_alike _ _ _ _ Hne Fe (beside_trans _ _ _ _ _ B1 B2)) as (Q1 & Q2).
  split; [exact Q1|]. split; [|congruence]. eapply maybe_sane; [|exact R]. exact Hs.
Qed.

(* ----- OutputFrames while samples are taken ----- *)
Lemma f2_and : forall {X Y} (Q R : X -> Y -> Prop) a b, Forall2 Q a b -> Forall2 R a b -> Forall2 (fun x y => Q x y /\ R x y) a b.
Proof. intros X Y Q R a b H. induction H; intro K; inversion K; subst; constructor; auto. Qed.
Lemma f2_fst : forall {X Y} (Q R : X -> Y -> Prop) a b, Forall2 (fun x y => Q x y /\ R x y) a b -> Forall2 Q a b /\ Forall2 R a b.
Proof. intros X Y Q R a b H. induction H as [|x y a b (H1 & H2) H (I1 & I2)]; split; constructor; auto. Qed.
Lemma f2_ex : forall {X Y W} (Q : X -> Y -> Prop) (R : X -> W -> Prop) a b, Forall2 Q a b -> (forall x y, In x a -> Q x y -> exists w, R x w) -> exists c, Forall2 R a c.
Proof.
  intros X Y W Q R a b H. induction H as [|x y a b H1 H IH]; intro K; [exists []; constructor|]. destruct (K x y (or_introl eq_refl) H1) as (w & Hw).
  destruct IH as (c & Hc); [intros; eapply K; [now right | eassumption]|]. exists (w :: c). now constructor.
Qed.
Lemma f2_left : forall {X Y} (Q : X -> Y -> Prop) (R : X -> Prop) a b, Forall2 Q a b -> (forall x y, In x a -> Q x y -> R x) -> Forall R a.
Proof. intros X Y Q R a b H. induction H as [|x y a b H1 H IH]; intro K; constructor; [exact (K x y (or_introl eq_refl) H1)|]. apply IH. intros x1 y1 I1. exact (K x1 y1 (or_intror I1)). Qed.
Lemma f2_right : forall {X Y} (Q : X -> Y -> Prop) (R : Y -> Prop) a b, Forall2 Q a b -> (forall x y, In x a -> Q x y -> R y) -> Forall R b.
Proof. intros X Y Q R a b H. induction H as [|x y a b H1 H IH]; intro K; constructor; [exact (K x y (or_introl eq_refl) H1)|]. apply IH. intros x1 y1 I1. exact (K x1 y1 (or_intror I1)). Qed.
Lemma f2_impl : forall {X Y} (Q R : X -> Y -> Prop) a b, (forall x y, In x a -> Q x y -> R x y) -> Forall2 Q a b -> Forall2 R a b.
Proof. intros X Y Q R a b K H. induction H as [|x y a b H1 H IH]; constructor; [apply K; [now left | assumption]|]. apply IH. intros. apply K; [now right | assumption]. Qed.

Lemma out_open : forall g g' fs O b part, Open g O b part -> output_frames A lin quant code cf g = Ok (g', fs) -> Open g' (O ++ fs) b part.
Proof.
  intros g g' fs O b part (O1 & O2 & O3 & xs & t & e & O4 & O5 & O6 & O7) R. rewrite output_deliver, O1 in R. cbn [rbind] in R.
  destruct (deliver_spec lin quant code _ _ _ _ O2 R) as (S1 & S2 & S3 & S4 & _ & _).
  assert (X : exists xs', Forall2 (fun l x => (live n g' (fst l) x /\ even (length (snd l)) t e (x_av x)) /\ sub_gen b [] 0 0 (O ++ fs) l x) ls xs').
  { apply (f2_ex _ _ _ _ (f2_and _ _ _ _ (f2_and _ _ _ _ O4 O5) O7)). intros l x Hl ((L1 & L2) & L3).
    destruct (live_deliver b [] 0 O l x g g' fs Hl O2 L1 L3) as (x' & Y1 & Y2 & Y3); [now rewrite O1 | exact R|]. exists x'. rewrite Y3. auto. }
  destruct X as (xs' & X). apply f2_fst in X. destruct X as (X1 & X3). apply f2_fst in X1. destruct X1 as (X1 & X2).
  split; [congruence|]. split; [exact S1|]. split; [unfold in_of; rewrite S3; exact O3|]. exists xs', t, e. auto.
Qed.

(* ----- the element's own samples ----- *)
Lemma own_add : forall l xs g g', g_stage g = Taking -> add_samples A lin quant code cf id l xs g = Ok g' ->
  xs <> [] /\ maybe_encode A lin quant code id el labels (set_in id (sm_set (Orig l) xs (in_of id g)) g) = Ok g'.
Proof.
  intros l xs g g' St R. unfold add_samples in R. rewrite St in R. destruct xs; [discriminate|]. cbn [nil] in R. rewrite cf_lab in R. cbv zeta in R. rewrite cf_el in R. split; [discriminate | exact R].
Qed.
Lemma add_part : forall g g' O b part l xs k l', Open g O b part -> add_samples A lin quant code cf id l xs g = Ok g' ->
  Forall (fun e => length (snd e) = k) (part ++ [(l, xs)]) -> (0 < k)%nat -> In l labels -> ~ In l (map fst part) -> In l' labels -> ~ In l' (map fst (part ++ [(l, xs)])) ->
  Open g' O b (part ++ [(l, xs)]).
Proof.
  intros g g' O b part l xs k l' (O1 & O2 & O3 & O4) R HF Hk Hl Hn Hl' Hn'. destruct (own_add _ _ _ _ O1 R) as (_ & R').
  pose proof (inmap_add part _ l xs O3 Hl Hn) as I. unfold maybe_encode in R'. rewrite in_of_set, Z.eqb_refl in R'.
  rewrite (ready_part _ k _ l l' I HF Hk Hl) in R'; [|rewrite map_app; apply in_app_iff; right; now left | exact Hl' | exact Hn'].
  cbn [negb] in R'. injection R' as <-. split; [exact O1|]. split; [exact O2|]. split; [rewrite in_of_set, Z.eqb_refl; exact I|]. exact O4.
Qed.
Lemma all3_f2 : forall {X Y W} (R : X -> Y -> W -> Prop) (Q : X -> Y -> Prop) (V : X -> W -> Prop) a b c, all3 R a b c -> Forall2 Q a b -> (forall x y w, In x a -> Q x y -> R x y w -> V x w) -> Forall2 V a c.
Proof.
  intros X Y W R Q V a b c H. induction H as [|x y w a b c H1 H IH]; intros F K; [constructor|]. inversion F; subst. constructor; [eapply K; eauto; now left|]. apply IH; [assumption|]. intros. eapply K; eauto. now right.
Qed.
Lemma lab_of : forall l, In l ls -> snd l <> [].
Proof. intros l Hl. now apply ls_ok. Qed.
Lemma ls_head : forall (Q : Z * list label -> st -> Prop) xs, Forall2 Q ls xs -> exists l x, In l ls /\ Q l x.
Proof. intros Q xs H. destruct ls as [|l r] eqn:E; [congruence|]. inversion H; subst. exists l, y. split; [now left | assumption]. Qed.
Lemma add_round : forall g g' O b part l xs k, Open g O b part -> add_samples A lin quant code cf id l xs g = Ok g' -> full_round labels k (part ++ [(l, xs)]) ->
  let m := sm_set (Orig l) xs (in_of id g) in
  sane g' /\ g_stage g' = Taking /\ samples_of (part ++ [(l, xs)]) m /\ inmap [] (in_of id g') /\ empties (in_of id g') /\
  exists p xs' t e, D <= Z.of_nat t /\ Z.of_nat e + d = Z.of_nat t /\ lives n g' ls xs' /\ evenx ls (len_after n (t + k)) (len_after n (elen n (t + k) (e + k))) xs' /\
    Forall2 (fun l x => sub_gen (b ++ [(p, m)]) [] (pad_of n (t + k)) (more_of n (t + k) (e + k)) O l x /\ x_q x <> []) ls xs'.
Proof.
  intros g g' O b part l xs k (O1 & O2 & O3 & ys & t & e & O4 & O5 & O6 & O7) R HR m. destruct (own_add _ _ _ _ O1 R) as (_ & R').
  pose proof HR as (R1 & R2 & R3).
  assert (Hl : In l labels) by (apply (Permutation_in _ R1); rewrite map_app; apply in_app_iff; right; now left).
  assert (Hn : ~ In l (map fst part)).
  { pose proof (Permutation_NoDup (Permutation_sym R1) (proj1 labels_ok)) as N. rewrite map_app in N. cbn [map fst] in N. apply NoDup_remove_2 in N. rewrite app_nil_r in N. exact N. }
  pose proof (inmap_add part _ l xs O3 Hl Hn) as I. fold m in I. destruct (inmap_full _ _ _ I HR) as (F1 & F2 & F3 & F4 & F5 & F6).
  set (g1 := set_in id m g) in *. assert (E1 : in_of id g1 = m) by (unfold g1; rewrite in_of_set, Z.eqb_refl; reflexivity).
  assert (TR : Forall (fun x => tr_room n (x_tr x)) ys).
  { apply (f2_right _ _ _ _ O7). intros l0 x0 _ (fr & fe & ins & _ & _ & _ & _ & Te & _). unfold tr_room. rewrite Te. clear -n_small E_ok. destruct inc; lia. }
  assert (L1 : lives n g1 ls ys) by exact O4.
  destruct (round_ok A lin quant code n n_pos id el labels g1 g' ys t e k el_n_ok ls_ok ls_some L1 O5 TR) as (p & xs' & P1 & P2 & P3 & P4); try (rewrite E1; assumption); try assumption; [lia|].
  rewrite E1 in P2, P4.
  destruct (ls_head _ _ (f2_and _ _ _ _ O5 O7)) as (l0 & x0 & Hl0 & HE0 & HG0). pose proof (behind _ _ _ _ _ _ _ _ _ HG0 HE0 (lab_of _ Hl0)) as BH.
  split; [eapply maybe_sane; [|exact R']; exact O2|]. split; [pose proof (maybe_beside A lin quant code n _ _ _ _ _ R') as (_ & _ & _ & _ & B5 & _); rewrite B5; exact O1|].
  split; [exact F4|]. split; [rewrite P4; exact F5|]. split; [rewrite P4; exact F6|].
  exists p, xs', t, e. split; [exact O6|]. split; [lia|]. split; [exact P1|]. split; [exact P3|].
  apply (all3_f2 _ _ _ _ _ _ P2 (f2_and _ _ _ _ O5 O7)). intros l1 x1 x1' Hl1 (Q1 & Q2) FE.
  exact (gen_feed b p m k 0 O l1 x1 x1' t e Hl1 Q2 Q1 F1 eq_refl ltac:(lia) FE).
Qed.
Lemma add_full : forall g g' O b part l xs k, Open g O b part -> add_samples A lin quant code cf id l xs g = Ok g' -> full_round labels k (part ++ [(l, xs)]) -> n <= Z.of_nat k ->
  exists p m, samples_of (part ++ [(l, xs)]) m /\ Open g' O (b ++ [(p, m)]) [].
Proof.
  intros g g' O b part l xs k HO R HR Hk. destruct (add_round _ _ _ _ _ _ _ _ HO R HR) as (A1 & A2 & A3 & A4 & A5 & p & xs' & t & e & A6 & A7 & A8 & A9 & A10).
  exists p. eexists. split; [exact A3|]. split; [exact A2|]. split; [exact A1|]. split; [exact A4|]. exists xs'. eexists _, _. split; [exact A8|]. split; [exact A9|].
  assert (P0 : pad_of n (t + k) = 0). { unfold pad_of. destruct (Z.ltb_spec (Z.of_nat (t + k)) n); lia. }
  assert (M0 : more_of n (t + k) (e + k) = 0). { unfold more_of, fill_len. destruct (Z.ltb_spec (Z.of_nat (t + k)) n); [lia|]. destruct (Z.ltb_spec (Z.of_nat (e + k)) n); lia. }
  split; [unfold len_after; lia|]. rewrite P0, M0 in A10. exact (proj1 (f2_fst _ _ _ _ A10)).
Qed.
Lemma add_last : forall g g' O b part l xs k, Open g O b part -> add_samples A lin quant code cf id l xs g = Ok g' -> full_round labels k (part ++ [(l, xs)]) ->
  exists p m, samples_of (part ++ [(l, xs)]) m /\ Closing g' O (b ++ [(p, m)]) /\ g_stage g' = Taking.
Proof.
  intros g g' O b part l xs k HO R HR. destruct (add_round _ _ _ _ _ _ _ _ HO R HR) as (A1 & A2 & A3 & A4 & A5 & p & xs' & t & e & A6 & A7 & A8 & A9 & A10).
  exists p. eexists. split; [exact A3|]. split; [|exact A2]. eexists. split; [exact A1|]. split; [exact A5|]. exists xs'. eexists _, [], _, _. split; [exact A8|]. split; [exact A9|].
  split; [exact (proj1 (f2_fst _ _ _ _ A10))|].
  split; [unfold pad_of, len_after; destruct (Z.ltb_spec (Z.of_nat (t + k)) n); [right; lia | now left]|].
  split; [unfold more_of, fill_len; cbv zeta; destruct (Z.ltb_spec (Z.of_nat (t + k)) n); [destruct (Z.ltb_spec (Z.of_nat (e + k) + (n - Z.of_nat (t + k))) n) | destruct (Z.ltb_spec (Z.of_nat (e + k)) n)]; lia|].
  split; [intros _; apply (f2_right _ _ _ _ A10); intros l0 x0 _ (_ & Q); exact Q|]. rewrite A2. discriminate.
Qed.
Lemma closing_fin : forall g O b, Closing g O b -> g_stage g = Taking -> Closing (finalize g) O b /\ g_stage (finalize g) = Finalized.
Proof.
  intros g O b (t & O2 & O3 & xs & e & qs & pad & pe & O4 & O5 & O6 & O7 & O8 & O9 & O10) St. unfold finalize. rewrite St. split; [|reflexivity].
  exists t. split; [exact O2|]. split; [exact O3|]. exists xs, e, qs, pad, pe. repeat split; auto. discriminate.
Qed.

(* ----- OutputFrames after Finalize ----- *)
Lemma close_deliver : forall g1 g' fs O b xs t e qs pad pe, sane g1 -> g_stage g1 = Flushing -> empties (in_of id g1) -> lives n g1 ls xs -> evenx ls t e xs -> Forall2 (sub_gen b qs pad pe O) ls xs ->
  (pad = 0 \/ t = 0%nat) -> pe <= d -> (t = 0%nat -> Forall (fun x => x_q x <> []) xs) -> deliver cf g1 = Ok (g', fs) ->
  (ClosingT t g' (O ++ fs) b /\ g_stage g' = Flushing) \/ Gone g' (O ++ fs) b.
Proof.
  intros g1 g' fs O b xs t e qs pad pe Hs St Hem HL HE HG Hp Hpe Hq R.
  destruct (deliver_spec lin quant code _ _ _ _ Hs R) as (S1 & S2 & S3 & S4 & _ & S6).
  assert (DR : forall l x, In l ls -> live n g1 (fst l) x -> even (length (snd l)) t e (x_av x) -> drained (fst l) (g_subs g1) = Nat.eqb t 0).
  { intros l x Hl Q1 Q2. pose proof Q1 as ((sd & F & _) & _). unfold drained. rewrite F. eapply (empty_even lin quant code n n_pos); eauto. pose proof (lab_of _ Hl). destruct (snd l); [congruence | cbn [length]; lia]. }
  assert (EM : empties (in_of id g')) by (unfold in_of; rewrite S3; exact Hem).
  destruct (Nat.eqb_spec t 0) as [-> | Ht].
  - right. split; [congruence|]. split; [exact S1|]. split; [exact EM|].
    specialize (Hq eq_refl).
    assert (HQ : Forall2 (fun (_ : Z * list label) x => x_q x <> []) ls xs).
    { clear -Hq HL. induction HL; constructor; inversion Hq; subst; auto. }
    apply (f2_left _ _ _ _ (f2_and _ _ _ _ (f2_and _ _ _ _ HL HE) (f2_and _ _ _ _ HG HQ))). intros l x Hl ((L1 & L2) & L3 & L4).
    pose proof (behind _ _ _ _ _ _ _ _ _ L3 L2 (lab_of _ Hl)) as BH. assert (e = 0%nat) as -> by lia. assert (pe = d) as -> by lia.
    pose proof (DR l x Hl L1 L2) as DRl. pose proof L1 as (_ & Ft & (c & Fc & Qc & Dc) & _). destruct (S6 _ _ Fc) as (DV & SB). rewrite St, DRl in DV, SB. cbn [flushing andb Nat.eqb] in DV, SB.
    eapply (done_deliver b qs pad O l x g1 g' fs (mark c)); eauto.
  - left. split; [|congruence]. destruct Hp as [-> | ->]; [|congruence].
    assert (X : exists xs', Forall2 (fun l x => (live n g' (fst l) x /\ even (length (snd l)) t e (x_av x)) /\ sub_gen b qs 0 pe (O ++ fs) l x) ls xs').
    { apply (f2_ex _ _ _ _ (f2_and _ _ _ _ (f2_and _ _ _ _ HL HE) HG)). intros l x Hl ((L1 & L2) & L3).
      destruct (live_deliver b qs pe O l x g1 g' fs Hl Hs L1 L3) as (x' & Y1 & Y2 & Y3); [|exact R|exists x'; rewrite Y3; auto].
      rewrite (DR l x Hl L1 L2). destruct (Nat.eqb_spec t 0); [congruence|]. apply andb_false_r. }
    destruct X as (xs' & X). apply f2_fst in X. destruct X as (X1 & X3). apply f2_fst in X1. destruct X1 as (X1 & X2).
    split; [exact S1|]. split; [exact EM|]. exists xs', e, qs, 0, pe. split; [exact X1|]. split; [exact X2|]. split; [exact X3|]. split; [now left|]. split; [exact Hpe|]. split; [intros ->; congruence | lia].
Qed.
Lemma out_first : forall t g g' fs O b, ClosingT t g O b -> g_stage g = Finalized -> output_frames A lin quant code cf g = Ok (g', fs) ->
  (ClosingT t g' (O ++ fs) b /\ g_stage g' = Flushing) \/ Gone g' (O ++ fs) b.
Proof.
  intros t g g' fs O b (O2 & O3 & xs & e & qs & pad & pe & O4 & O5 & O6 & O7 & O8 & O9 & O10) St R. rewrite output_deliver, St in R. cbn [rbind] in R.
  eapply close_deliver with (g1 := mkGen Flushing (g_in g) (g_subs g) (g_trims g) (g_coders g) (g_pm g) (g_clock g)); eauto.
Qed.
Lemma emptied_id : forall m : smap, all_len 0 m -> emptied m = m.
Proof. unfold emptied. intros m H. induction H as [|(k, s) m H1 H IH]; [reflexivity|]. cbn [map fst]. rewrite IH. cbn [snd] in H1. destruct s; [reflexivity | discriminate]. Qed.
Lemma other_maybe : forall id' el' lb g g', id' <> id -> m_find id' (cf_elems cf) = Some el' -> sane g -> maybe_encode A lin quant code id' el' lb g = Ok g' -> alike g g' /\ sane g' /\ g_stage g' = g_stage g.
Proof.
  intros id' el' lb g g' Hne He Hs R. destruct (beside_alike _ _ _ _ Hne He (maybe_beside A lin quant code n _ _ _ _ _ R)) as (Q1 & Q2). split; [exact Q1|]. split; [|exact Q2]. eapply maybe_sane; eauto.
Qed.
Lemma flush_other : forall l g g', (forall i e, In (i, e) l -> m_find i (cf_elems cf) = Some e /\ i <> id) -> sane g -> flush_elems A lin quant code cf l g = Ok g' -> alike g g' /\ sane g' /\ g_stage g' = g_stage g.
Proof.
  induction l as [|(i, e) l IH]; intros g g' HI Hs R; cbn [flush_elems] in R; [injection R as <-; auto using alike_refl|].
  destruct (m_find i (cf_labels cf)) as [lb|]; [|discriminate]. rb R g1 E1. destruct (HI i e (or_introl eq_refl)) as (H1 & H2).
  destruct (other_maybe _ _ _ _ _ H2 H1 Hs E1) as (Q1 & Q2 & Q3). destruct (IH g1 g') as (Q4 & Q5 & Q6); auto; [intros; apply HI; now right|].
  split; [eapply alike_trans; eauto|]. split; [exact Q5 | congruence].
Qed.
Lemma flush_app : forall a b g, flush_elems A lin quant code cf (a ++ b) g = rbind (flush_elems A lin quant code cf a g) (flush_elems A lin quant code cf b).
Proof.
  induction a as [|(i, e) a IH]; intros b g; cbn [app flush_elems rbind]; [reflexivity|]. destruct (m_find i (cf_labels cf)); [|reflexivity].
  destruct (maybe_encode A lin quant code i e l g); cbn [rbind]; auto.
Qed.
Lemma flush_split : forall g g', sane g -> flush_elems A lin quant code cf (cf_elems cf) g = Ok g' ->
  exists ga gb, (alike g ga /\ sane ga /\ g_stage ga = g_stage g) /\ maybe_encode A lin quant code id el labels ga = Ok gb /\ sane gb /\ g_stage gb = g_stage ga /\ alike gb g' /\ sane g' /\ g_stage g' = g_stage gb.
Proof.
  intros g g' Hs R. pose proof (m_find_In _ _ _ cf_el) as I. apply in_split in I. destruct I as (a & b & E).
  assert (K : forall i e, In (i, e) (a ++ b) -> m_find i (cf_elems cf) = Some e /\ i <> id).
  { intros i e Hi. assert (Hin : In (i, e) (cf_elems cf)) by (rewrite E; apply in_app_iff in Hi; apply in_app_iff; destruct Hi; [now left | right; now right]).
    split; [now apply (PropsDemix.m_find_in _ _ _ cf_keys)|]. intros ->. pose proof cf_keys as N. rewrite E, map_app in N. cbn [map fst] in N. apply NoDup_remove_2 in N. apply N. rewrite <- map_app. change id with (fst (id, e)). now apply in_map. }
  rewrite E, flush_app in R. rb R ga Ea. cbn [flush_elems] in R. rewrite cf_lab in R. rb R gb Eb.
  destruct (flush_other a g ga) as (X1 & X2 & X3); auto; [intros; apply K; apply in_app_iff; now left|].
  assert (Sb : sane gb) by (eapply maybe_sane; eauto). pose proof (maybe_beside A lin quant code n _ _ _ _ _ Eb) as (_ & _ & _ & _ & B5 & _).
  destruct (flush_other b gb g') as (Y1 & Y2 & Y3); auto; [intros; apply K; apply in_app_iff; now right|].
  exists ga, gb. exact (conj (conj X1 (conj X2 X3)) (conj Eb (conj Sb (conj B5 (conj Y1 (conj Y2 Y3)))))).
Qed.

Lemma evenx_pe : forall b qs pad pe O xs t e, Forall2 (sub_gen b qs pad pe O) ls xs -> evenx ls t e xs -> Z.of_nat e + d = Z.of_nat t + pe.
Proof. intros b qs pad pe O xs t e HG HE. destruct (ls_head _ _ (f2_and _ _ _ _ HE HG)) as (l0 & x0 & Hl0 & HE0 & HG0). exact (behind _ _ _ _ _ _ _ _ _ HG0 HE0 (lab_of _ Hl0)). Qed.
Lemma out_flush : forall t g g' fs O b, ClosingT t g O b -> g_stage g = Flushing -> output_frames A lin quant code cf g = Ok (g', fs) ->
  (ClosingT (len_after n t) g' (O ++ fs) b /\ g_stage g' = Flushing) \/ Gone g' (O ++ fs) b.
Proof.
  intros t g g' fs O b HC St R. rewrite output_deliver, St in R. rb R g1 E1.
  destruct (flush_split g g1) as (ga & gb & (Q1 & Q2 & Q3) & Q4 & Q5 & Q6 & Q7 & Q8 & Q9); [apply HC | exact E1|].
  assert (HC' : ClosingT t ga O b) by (eapply closing_t_alike; eauto; congruence). clear HC.
  destruct HC' as (O2 & (O3 & O3' & O3'') & xs & e & qs & pad & pe & O4 & O5 & O6 & O7 & O8 & O9 & O10).
  assert (Ht : (0 < t)%nat) by (apply O10; congruence). assert (pad = 0) as -> by lia.
  assert (TR : Forall (fun x => tr_room n (x_tr x)) xs).
  { apply (f2_right _ _ _ _ O6). intros l0 x0 _ (fr & fe & ins & _ & _ & _ & _ & Te & _). unfold tr_room. rewrite Te. clear -n_small E_ok. destruct inc; lia. }
  destruct (round_ok A lin quant code n n_pos id el labels ga gb xs t e 0 el_n_ok ls_ok ls_some O4 O5 TR O3' O3 ltac:(lia) O3'' Q4) as (p & xs' & P1 & P2 & P3 & P4).
  pose proof (evenx_pe _ _ _ _ _ _ _ _ O6 O5) as BH.
  assert (GS : Forall2 (fun l x => sub_gen b (qs ++ [p]) (pad_of n t) (pe + more_of n t e) O l x /\ x_q x <> []) ls xs').
  { apply (all3_f2 _ _ _ _ _ _ P2 (f2_and _ _ _ _ O5 O6)). intros l1 x1 x1' Hl1 (Y1 & Y2) FE. exact (gen_flush b qs p _ pe O l1 x1 x1' t e Hl1 Y2 Y1 O3' Ht FE). }
  rewrite (Nat.add_0_r t), (Nat.add_0_r e) in P3.
  eapply close_deliver with (g1 := g1) (xs := xs'); [exact Q8 | congruence | | | exact P3 | exact (proj1 (f2_fst _ _ _ _ GS)) | | | | exact R].
  - rewrite (proj2 Q7), P4, emptied_id by exact O3'. repeat split; assumption.
  - eapply lives_alike; eauto using in_ls.
  - unfold pad_of, len_after. destruct (Z.ltb_spec (Z.of_nat t) n); [right; lia | now left].
  - unfold more_of, fill_len. cbv zeta. destruct (Z.ltb_spec (Z.of_nat t) n); [destruct (Z.ltb_spec (Z.of_nat e + (n - Z.of_nat t)) n) | destruct (Z.ltb_spec (Z.of_nat e) n)]; lia.
  - intros _. apply (f2_right _ _ _ _ GS). intros l0 x0 _ (_ & Q). exact Q.
Qed.
Lemma encode_gone : forall k l0 dm g, (forall l, In l l0 -> m_find (fst l) (g_subs g) = None) -> encode_all (T := T) code k l0 dm (g, None, false) = Ok (g, None, false).
Proof.
  intros k. induction l0 as [|(sid, labs) l0 IH]; intros dm g H; cbn [encode_all]; [reflexivity|]. unfold encode_one. pose proof (H (sid, labs) (or_introl eq_refl)) as N. cbn [fst] in N. rewrite N. cbn [rbind]. apply IH. intros l Hl. apply H. now right.
Qed.
Lemma maybe_gone : forall g g', empties (in_of id g) -> (forall l, In l ls -> m_find (fst l) (g_subs g) = None) -> maybe_encode A lin quant code id el labels g = Ok g' -> alike g g'.
Proof.
  intros g g' (E1 & E2 & E3) HN R. unfold maybe_encode in R. rewrite E3 in R. cbn [negb] in R. destruct (el_in el =? el_out el); cbn [negb] in R; [|discriminate].
  rb R r Er. cbn [encode_loop] in Er. rb Er q Eq0. unfold next_frame in Eq0. cbv zeta in Eq0.
  assert (NA : forallb (fun e : lkey * list T => nil (snd e)) (in_of id g) = true).
  { apply forallb_forall. intros x Hx. unfold all_len in E2. rewrite Forall_forall in E2. specialize (E2 _ Hx). destruct (snd x); [reflexivity | discriminate]. }
  rewrite NA in Eq0. cbn [andb] in Eq0. destruct (forallb _ (g_subs g)).
  - injection Eq0 as <-. cbn [fst snd] in Er. rewrite encode_gone in Er by exact HN. cbn [rbind] in Er. injection Er as <-. cbn [fst snd] in R. injection R as <-.
    rewrite emptied_id by exact E2. split; [auto|]. rewrite in_of_set. now rewrite Z.eqb_refl.
  - exfalso. destruct (get_down_mixing (g_pm g) id) as (w, pm'). rb Eq0 p Ep. rb Eq0 subs Em. unfold mix_in in Em. rb Em m' Em'.
    destruct ls as [|(sid, labs) l0]; [congruence|]. cbn [feed_subs] in Em. pose proof (HN (sid, labs) (or_introl eq_refl)) as N. cbn [fst] in N. rewrite N in Em. discriminate.
Qed.
Lemma out_gone : forall g g' fs O b, Gone g O b -> output_frames A lin quant code cf g = Ok (g', fs) -> Gone g' (O ++ fs) b.
Proof.
  intros g g' fs O b HG R. pose proof HG as (St & Hs & _). rewrite output_deliver, St in R. rb R g1 E1.
  destruct (flush_split g g1 Hs E1) as (ga & gb & (Q1 & Q2 & Q3) & Q4 & Q5 & Q6 & Q7 & Q8 & Q9).
  assert (Ha : Gone ga O b) by (eapply gone_alike; eauto).
  assert (Hb : alike ga gb).
  { destruct Ha as (_ & _ & H3 & H4). apply maybe_gone; auto. intros l Hl. rewrite Forall_forall in H4. exact (proj1 (H4 l Hl)). }
  assert (H1 : Gone g1 O b) by (eapply gone_alike; [exact Q7 | exact Q8 | exact Q9|]; eapply gone_alike; eauto).
  destruct H1 as (St1 & Hs1 & He1 & Hg1). destruct (deliver_spec lin quant code _ _ _ _ Hs1 R) as (S1 & S2 & S3 & _).
  split; [congruence|]. split; [exact S1|]. split; [unfold in_of in *; rewrite S3; exact He1|]. rewrite Forall_forall in Hg1 |- *. intros l Hl. exact (gone_deliver b O l g1 g' fs Hl Hs1 (Hg1 l Hl) R).
Qed.

(* ----- the session ----- *)
Lemma with_params_alike : forall m times g, alike g (with_params m times g).
Proof. intros m times g. unfold alike, with_params, in_of. repeat split; reflexivity. Qed.
Definition Done (g : gen) (O : list oframe) (b : list (dmix * smap)) : Prop := Closing g O b /\ g_stage g <> Taking \/ Gone g O b.
Lemma step_done : forall c g O b s', Done g O b -> call_step A lin quant code cf c (g, O) = Ok s' -> Done (fst s') (snd s') b.
Proof.
  intros c g O b s' HD R. assert (St : g_stage g <> Taking) by (destruct HD as [(_ & H) | (H & _)]; [exact H | rewrite H; discriminate]).
  destruct c as [id' l xs | | | m times]; cbn [call_step fst snd] in R.
  - unfold add_samples in R. destruct (g_stage g); [congruence| |]; cbn [rbind] in R; injection R as <-; exact HD.
  - injection R as <-. cbn [fst snd]. unfold finalize. destruct (g_stage g); [congruence| |]; exact HD.
  - rb R q E. injection R as <-. cbn [fst snd]. destruct q as (g', fs). cbn [fst snd].
    destruct HD as [(HC & _) | HG].
    + assert (X : (Closing g' (O ++ fs) b /\ g_stage g' = Flushing) \/ Gone g' (O ++ fs) b).
      { destruct HC as (t & HC). destruct (g_stage g) eqn:Sg; [congruence | destruct (out_first _ _ _ _ _ _ HC Sg E) as [(Y1 & Y2) | Y] | destruct (out_flush _ _ _ _ _ _ HC Sg E) as [(Y1 & Y2) | Y]]; (now right) || (left; split; [eexists; exact Y1 | exact Y2]). }
      destruct X as [(X1 & X2) | X]; [left; split; [exact X1 | rewrite X2; discriminate] | now right].
    + right. eapply out_gone; eauto.
  - injection R as <-. cbn [fst snd]. destruct HD as [(HC & _) | HG].
    + left. split; [refine (closing_alike g _ _ _ (with_params_alike _ _ _) _ (fun z => z) HC); destruct HC as (t & HC); apply HC | exact St].
    + right. refine (gone_alike g _ _ _ (with_params_alike _ _ _) _ eq_refl HG); apply HG.
Qed.
Lemma session_done : forall cs g O b s', Done g O b -> session A lin quant code cf cs (g, O) = Ok s' -> Done (fst s') (snd s') b.
Proof.
  induction cs as [|c cs IH]; intros g O b s' HD R; cbn [session] in R; [now injection R as <-|]. rb R s E. pose proof (step_done _ _ _ _ _ HD E) as H. destruct s as (g1, O1). eapply IH; eauto.
Qed.
Lemma done_final : forall g O b, Done g O b -> generating g = false -> Forall (final b O) ls.
Proof.
  intros g O b HD Hg. unfold generating in Hg. apply Bool.negb_false_iff in Hg. destruct (g_coders g) as [|x cs] eqn:Ec; [|discriminate]. destruct HD as [((t & _ & _ & xs & e & qs & pad & pe & HL & _) & _) | (_ & _ & _ & HG)].
  - exfalso. destruct (ls_head _ _ HL) as (l & y & _ & (_ & _ & (c & Fc & _) & _)). rewrite Ec in Fc. discriminate.
  - eapply Forall_impl; [|exact HG]. intros l (_ & [(y & qs & pad & c & _ & _ & Fc & _) | (_ & HF)]); [rewrite Ec in Fc; discriminate | exact HF].
Qed.
Lemma session_app : forall a b s, session A lin quant code cf (a ++ b) s = rbind (session A lin quant code cf a s) (session A lin quant code cf b).
Proof. induction a as [|c a IH]; intros b s; cbn [app session rbind]; [reflexivity|]. destruct (call_step A lin quant code cf c s); cbn [rbind]; auto. Qed.
(* what is called before the end: no Finalize *)
Definition nofin (c : call T) : Prop := c <> Fin.
(* what is called between the last samples of the element and Finalize *)
Definition aside (c : call T) : Prop := (exists i l xs, c = Add i l xs /\ i <> id) \/ (exists m times, c = Params m times).
Lemma session_aside : forall cs g O b s', Forall aside cs -> Closing g O b -> g_stage g = Taking -> session A lin quant code cf cs (g, O) = Ok s' -> Closing (fst s') O b /\ g_stage (fst s') = Taking /\ snd s' = O.
Proof.
  induction cs as [|c cs IH]; intros g O b s' HF HC St R; cbn [session] in R; [injection R as <-; auto|]. inversion HF as [|? ? [(i & l & xs & -> & Hi) | (m & times & ->)] HF']; subst;
    [|rb R s E; cbn [call_step fst snd] in E; injection E as <-; apply (IH (with_params m times g)); auto; refine (closing_alike g _ _ _ (with_params_alike _ _ _) _ (fun z => z) HC); destruct HC as (t & HC); apply HC].
  rb R s E. cbn [call_step fst snd] in E. rb E g1 E1. injection E as <-. assert (Sg : sane g) by (destruct HC as (t & HC); apply HC). destruct (other_add _ _ _ _ _ Hi Sg E1) as (Q1 & Q2 & Q3).
  eapply (IH g1); eauto; [|congruence]. eapply closing_alike; eauto. congruence.
Qed.
(* the rounds: all but the last are at least as long as a frame *)
Inductive rounds_ok : list (list (label * list T)) -> Prop :=
| rounds_last : forall r k, full_round labels k r -> rounds_ok [r]
| rounds_more : forall r k rs, full_round labels k r -> n <= Z.of_nat k -> rounds_ok rs -> rounds_ok (r :: rs).
Lemma rounds_head : forall rs, rounds_ok rs -> exists r k rs', rs = r :: rs' /\ full_round labels k r /\ (rs' <> [] -> n <= Z.of_nat k /\ rounds_ok rs').
Proof. intros rs H. inversion H as [r k Hr | r k rs' Hr Hk Hrs]; subst; exists r, k; [exists []; repeat split; try easy; apply Hr | exists rs'; repeat split; auto; apply Hr]. Qed.
Lemma round_some : forall (r : list (label * list T)) k, full_round labels k r -> r <> [].
Proof. intros r k (R1 & _) ->. apply Permutation_nil in R1. destruct labels_ok. congruence. Qed.
Lemma prefix_cut : forall {X} (a b c e : list X), a ++ b = c ++ e -> (length a <= length c)%nat -> exists f, c = a ++ f /\ b = f ++ e.
Proof.
  intros X a. induction a as [|x a IH]; intros b c e H L; [exists c; auto|]. destruct c as [|y c]; [cbn in L; lia|]. cbn [app] in H. injection H as -> H. destruct (IH b c e H) as (f & -> & ->); [cbn in L; lia|]. exists f. auto.
Qed.
Lemma round_in : forall k part l (xs : list T) tl, full_round labels k (part ++ (l, xs) :: tl) ->
  In l labels /\ ~ In l (map fst part) /\ Forall (fun e => length (snd e) = k) (part ++ [(l, xs)]) /\ (0 < k)%nat /\
  (tl <> [] -> exists l', In l' labels /\ ~ In l' (map fst (part ++ [(l, xs)]))).
Proof.
  intros k part l xs tl (R1 & R2 & R3). pose proof (Permutation_NoDup (Permutation_sym R1) (proj1 labels_ok)) as N.
  assert (IN : forall y, In y (map fst (part ++ (l, xs) :: tl)) -> In y labels) by (intros y Hy; exact (Permutation_in _ R1 Hy)).
  assert (EQ : part ++ (l, xs) :: tl = (part ++ [(l, xs)]) ++ tl) by (now rewrite <- app_assoc).
  split; [apply IN; rewrite map_app; apply in_app_iff; right; now left|].
  split. { rewrite map_app in N. cbn [map fst] in N. apply NoDup_remove_2 in N. intro Q. apply N. apply in_app_iff. now left. }
  split. { rewrite EQ in R2. apply Forall_app in R2. apply R2. }
  split; [exact R3|]. intro Ht. destruct tl as [|(l', xs') tl]; [congruence|]. exists l'. split; [apply IN; rewrite map_app; apply in_app_iff; right; right; now left|].
  rewrite EQ, map_app in N. cbn [map fst] in N. apply NoDup_remove_2 in N. intro Q. apply N. apply in_app_iff. now left.
Qed.
Definition matched (rs : list (list (label * list T))) (b : list (dmix * smap)) : Prop := Forall2 (fun r x => samples_of r (snd x)) rs b.
Lemma session_open : forall cs l xs g O b part rs s', Forall nofin cs -> Open g O b part -> rounds_ok rs -> part ++ adds_of id cs ++ [(l, xs)] = concat rs -> (length part < length (hd [] rs))%nat ->
  session A lin quant code cf (cs ++ [Add id l xs]) (g, O) = Ok s' ->
  exists b', matched rs b' /\ Closing (fst s') (snd s') (b ++ b') /\ g_stage (fst s') = Taking.
Proof.
  induction cs as [|c cs IH]; intros l xs g O b part rs s' HF HO HR HC HL R.
  - cbn [app session] in R. rb R s E. injection R as <-. cbn [call_step fst snd] in E. rb E g1 E1. injection E as <-. cbn [fst snd].
    destruct (rounds_head _ HR) as (r & k & rs' & -> & Hr & Hm). cbn [hd] in HL. cbn [concat adds_of flat_map app] in HC.
    destruct (prefix_cut _ _ _ _ HC ltac:(lia)) as (f & -> & Ez). destruct f as [|y f]; [rewrite app_nil_r in HL; lia|]. cbn [app] in Ez. injection Ez as <- Ez.
    symmetry in Ez. apply app_eq_nil in Ez. destruct Ez as (-> & Ez).
    assert (rs' = []) as ->. { destruct rs' as [|r' rs']; [reflexivity|]. destruct Hm as (_ & Hm); [discriminate|]. destruct (rounds_head _ Hm) as (r2 & k2 & rs2 & E2 & Hr2 & _). injection E2 as -> ->. cbn [concat] in Ez. apply app_eq_nil in Ez. destruct Ez as (-> & _). destruct (round_some _ _ Hr2 eq_refl). }
    destruct (add_last _ _ _ _ _ _ _ _ HO E1 Hr) as (p & m & M1 & M2 & M3). exists [(p, m)]. split; [constructor; [exact M1 | constructor]|]. auto.
  - inversion HF as [|? ? HF1 HF2]; subst. cbn [app session] in R. rb R s E. destruct s as (g1, O1). destruct c as [i l' xs' | | | m times]; [| congruence | |].
    + cbn [call_step fst snd] in E. rb E g2 E2. injection E as <- <-. cbn [adds_of flat_map] in HC. fold (adds_of id cs) in HC. destruct (Z.eqb_spec i id) as [-> | Hi].
      * cbn [app] in HC. destruct (rounds_head _ HR) as (r & k & rs' & -> & Hr & Hm). cbn [hd] in HL. cbn [concat] in HC.
        destruct (prefix_cut _ _ _ _ HC ltac:(lia)) as (f & -> & Ez). destruct f as [|y f]; [rewrite app_nil_r in HL; lia|]. cbn [app] in Ez. injection Ez as <- Ez.
        destruct f as [|y f].
        -- cbn [app] in Ez. assert (Hne : rs' <> []) by (intros ->; cbn [concat] in Ez; now destruct (adds_of id cs)). destruct (Hm Hne) as (Hk & Hrs).
           destruct (add_full _ _ _ _ _ _ _ _ HO E2 Hr Hk) as (p & m & M1 & M2).
           destruct (IH l xs g2 O (b ++ [(p, m)]) [] rs' s' HF2 M2 Hrs Ez) as (b' & B1 & B2 & B3); [|exact R|].
           { destruct (rounds_head _ Hrs) as (r2 & k2 & rs2 & -> & Hr2 & _). cbn [hd]. pose proof (round_some _ _ Hr2). destruct r2; [congruence | cbn [length]; lia]. }
           exists ((p, m) :: b'). split; [constructor; assumption|]. rewrite <- app_assoc in B2. auto.
        -- destruct (round_in _ _ _ _ _ Hr) as (I1 & I2 & I3 & I4 & I5). destruct I5 as (l2 & I5 & I6); [discriminate|].
           pose proof (add_part _ _ _ _ _ _ _ k l2 HO E2 I3 I4 I1 I2 I5 I6) as HO'.
           assert (EQ : part ++ (l', xs') :: y :: f = (part ++ [(l', xs')]) ++ y :: f) by (now rewrite <- app_assoc).
           apply (IH l xs g2 O b (part ++ [(l', xs')]) _ s' HF2 HO' HR); [| |exact R].
           ++ cbn [concat]. rewrite EQ, <- !app_assoc. cbn [app]. f_equal. f_equal. exact Ez.
           ++ cbn [hd]. rewrite !app_length. cbn [length]. lia.
      * cbn [app] in HC. destruct (other_add _ _ _ _ _ Hi (proj1 (proj2 HO)) E2) as (Q1 & Q2 & Q3). apply (IH l xs g2 O b part rs s' HF2); auto. eapply open_alike; eauto.
    + cbn [call_step fst snd] in E. rb E q E2. injection E as <- <-. destruct q as (g2, fs). cbn [fst snd] in R. apply (IH l xs g2 (O ++ fs) b part rs s' HF2); auto. eapply out_open; eauto.
    + cbn [call_step fst snd] in E. injection E as <- <-. cbn [fst snd] in R. apply (IH l xs (with_params m times g) O b part rs s' HF2); auto.
Qed.
Lemma whole_done : forall p1 l xs p2 g O rs post s', Forall nofin p1 -> Forall aside p2 -> Open g O [] [] -> rounds_ok rs -> adds_of id p1 ++ [(l, xs)] = concat rs ->
  session A lin quant code cf (p1 ++ Add id l xs :: p2 ++ Fin :: post) (g, O) = Ok s' ->
  exists b, matched rs b /\ Done (fst s') (snd s') b.
Proof.
  intros p1 l xs p2 g O rs post s' H1 H2 HO HR HC R.
  replace (p1 ++ Add id l xs :: p2 ++ Fin :: post) with ((p1 ++ [Add id l xs]) ++ p2 ++ Fin :: post) in R by (now rewrite <- app_assoc).
  rewrite session_app in R. rb R s1 E1. rewrite session_app in R. rb R s2 E2. destruct s1 as (g1, O1).
  destruct (session_open p1 l xs g O [] [] rs (g1, O1) H1 HO HR HC) as (b & B1 & B2 & B3); [|exact E1|].
  { destruct (rounds_head _ HR) as (r2 & k2 & rs2 & -> & Hr2 & _). cbn [hd]. pose proof (round_some _ _ Hr2). destruct r2; [congruence | cbn [length]; lia]. }
  cbn [app fst snd] in B2, B3. destruct (session_aside _ _ _ _ _ H2 B2 B3 E2) as (C1 & C2 & C3).
  destruct s2 as (g2, O2). cbn [fst snd] in *. subst O2. cbn [session] in R. rb R s3 E3. cbn [call_step fst snd] in E3. injection E3 as <-.
  destruct (closing_fin _ _ _ C1 C2) as (F1 & F2).
  assert (HD : Done (finalize g2) O1 b) by (left; split; [exact F1 | rewrite F2; discriminate]).
  exists b. split; [exact B1|]. eapply session_done; eauto.
Qed.
Lemma whole : forall p1 l xs p2 post g O rs s', Forall nofin p1 -> Forall aside p2 -> Open g O [] [] -> rounds_ok rs -> adds_of id p1 ++ [(l, xs)] = concat rs ->
  session A lin quant code cf (p1 ++ Add id l xs :: p2 ++ Fin :: post) (g, O) = Ok s' -> generating (fst s') = false ->
  exists b, matched rs b /\ Forall (final b (snd s')) ls.
Proof.
  intros p1 l xs p2 post g O rs s' H1 H2 HO HR HC R HG. destruct (whole_done _ _ _ _ _ _ _ _ _ H1 H2 HO HR HC R) as (b & B1 & B2).
  exists b. split; [exact B1|]. eapply done_final; eauto.
Qed.

(* ----- how many calls of OutputFrames are left until the element has no frame to be made any more ----- *)
Definition Rank (k : nat) (g : gen) (O : list oframe) (b : list (dmix * smap)) : Prop :=
  (exists t, ClosingT t g O b /\ (g_stage g = Finalized /\ (exists j, k = S j /\ (t <= j * nn)%nat) \/ g_stage g = Flushing /\ (t <= k * nn)%nat)) \/ Gone g O b.
Lemma done_rank : forall g O b, Done g O b -> exists k, Rank k g O b.
Proof.
  intros g O b [((t & HC) & St) | HG]; [|exists 0%nat; now right].
  exists (S t). left. exists t. split; [exact HC|]. assert (Q : (t <= t * nn)%nat) by nia. destruct (g_stage g); [congruence | left; split; [reflexivity|]; exists t; auto | right; split; [reflexivity|]; nia].
Qed.
Lemma rank_more : forall k k' g O b, (k <= k')%nat -> Rank k g O b -> Rank k' g O b.
Proof.
  intros k k' g O b L [(t & HC & HK) | HG]; [|now right]. left. exists t. split; [exact HC|].
  destruct HK as [(St & j & -> & Hj) | (St & Ht)]; [left | right]; (split; [exact St|]).
  - destruct k' as [|j']; [lia|]. exists j'. split; [reflexivity|]. nia.
  - nia.
Qed.
Lemma rank_step : forall c k g O b s', Rank (outs [c] + k) g O b -> call_step A lin quant code cf c (g, O) = Ok s' -> Rank k (fst s') (snd s') b.
Proof.
  intros c k g O b s' HR R. destruct HR as [(t & HC & HK) | HG].
  - assert (St : g_stage g <> Taking) by (destruct HK as [(H & _) | (H & _)]; congruence).
    destruct c as [id' l xs | | | m times]; cbn [call_step fst snd outs Nat.add] in *.
    + unfold add_samples in R. destruct (g_stage g) eqn:Sg; [congruence| |]; cbn [rbind] in R; injection R as <-; cbn [fst snd]; left; exists t; rewrite Sg; auto.
    + injection R as <-. cbn [fst snd]. unfold finalize. destruct (g_stage g) eqn:Sg; [congruence| |]; left; exists t; rewrite Sg; auto.
    + rb R q E. injection R as <-. cbn [fst snd]. destruct q as (g', fs). cbn [fst snd]. destruct HK as [(Sg & j & [= <-] & Hj) | (Sg & Ht)].
      * destruct (out_first _ _ _ _ _ _ HC Sg E) as [(Y1 & Y2) | Y]; [left; exists t; auto | now right].
      * destruct (out_flush _ _ _ _ _ _ HC Sg E) as [(Y1 & Y2) | Y]; [left; exists (len_after n t); split; [exact Y1|]; right; split; [exact Y2|]; unfold len_after; nia | now right].
    + injection R as <-. left. exists t. cbn [fst snd]. split; [|exact HK]. refine (closing_t_alike t g _ _ _ (with_params_alike _ _ _) _ (fun z => z) HC). apply HC.
  - right. destruct c as [id' l xs | | | m times]; cbn [call_step fst snd outs] in *.
    + unfold add_samples in R. rewrite (proj1 HG) in R. cbn [rbind] in R. injection R as <-. exact HG.
    + injection R as <-. cbn [fst snd]. unfold finalize. rewrite (proj1 HG). exact HG.
    + rb R q E. injection R as <-. cbn [fst snd]. destruct q as (g', fs). cbn [fst snd]. eapply out_gone; eauto.
    + injection R as <-. cbn [fst snd]. refine (gone_alike g _ _ _ (with_params_alike _ _ _) _ eq_refl HG). apply HG.
Qed.
Lemma rank_session : forall cs k g O b s', Rank (outs cs + k) g O b -> session A lin quant code cf cs (g, O) = Ok s' -> Rank k (fst s') (snd s') b.
Proof.
  induction cs as [|c cs IH]; intros k g O b s' HR R; cbn [session] in R; [injection R as <-; exact HR|]. rb R s E. destruct s as (g1, O1).
  apply (IH k g1 O1 b); [|exact R]. apply (rank_step c (outs cs + k) g O b (g1, O1)); [|exact E].
  replace (outs [c] + (outs cs + k))%nat with (outs (c :: cs) + k)%nat by (destruct c; cbn [outs]; lia). exact HR.
Qed.
Lemma rank_0 : forall g O b, Rank 0 g O b -> Gone g O b.
Proof.
  intros g O b [(t & HC & [(_ & j & Hj & _) | (Sg & Ht)]) | HG]; [discriminate| |exact HG].
  destruct HC as (_ & _ & xs & e & qs & pad & pe & _ & _ & _ & _ & _ & _ & Q). specialize (Q Sg). cbn in Ht. lia.
Qed.
(* the element has no more frames to be made *)
Definition closed (N : nat) (g : gen) : Prop :=
  g_stage g = Flushing /\ sane g /\
  (forall j, In j (map fst ls) -> match m_find j (g_coders g) with Some c => c_done c = true /\ c_queue c <> [] /\ (length (c_queue c) <= N)%nat | None => True end) /\
  (forall g1, flush_elems A lin quant code cf (cf_elems cf) g = Ok g1 -> sane g1 /\ g_stage g1 = Flushing /\ map fst (g_coders g1) = map fst (g_coders g) /\
     forall j, In j (map fst ls) -> m_find j (g_coders g1) = m_find j (g_coders g)).
Lemma flush_keys : forall l g g1, flush_elems A lin quant code cf l g = Ok g1 -> map fst (g_coders g1) = map fst (g_coders g).
Proof.
  induction l as [|(i, e) l IH]; intros g g1 R; cbn [flush_elems] in R; [now injection R as <-|]. destruct (m_find i (cf_labels cf)); [|discriminate]. rb R g2 E.
  rewrite (IH _ _ R). apply (maybe_beside A lin quant code n _ _ _ _ _ E).
Qed.
(* how many frames can wait *)
Lemma mixes_bound : forall b labs, exists N, forall fr fe, mixes b labs fr fe -> (length (fr 0%nat) <= N)%nat.
Proof.
  intros b labs. induction b as [|(p, m) b (N & IH)].
  - exists 0%nat. intros fr fe (rss & F & H1 & _). inversion F; subst. rewrite H1. apply Nat.le_refl.
  - assert (B : exists k, forall rs, mixed A lin quant el p m labs rs -> (length (nth 0 (map fst rs) []) <= k)%nat).
    { destruct (run_downmixers A (params_of A p) (el_down el) m) as [m' | | | |] eqn:E1; try (exists 0%nat; intros rs (m2 & Q & _); congruence).
      destruct (rmap (channel_out A lin quant (el_gains el) m') labs) as [rs0 | | | |] eqn:E2; try (exists 0%nat; intros rs (m2 & Q1 & Q2); rewrite E1 in Q1; injection Q1 as <-; congruence).
      exists (length (nth 0 (map fst rs0) [])). intros rs (m2 & Q1 & Q2). rewrite E1 in Q1. injection Q1 as <-. rewrite E2 in Q2. injection Q2 as <-. apply Nat.le_refl. }
    destruct B as (k & B). exists (k + N)%nat. intros fr fe (rss & F & H1 & H2). inversion F as [|? rs ? rss' M F']; subst. cbn [fst snd] in M.
    rewrite H1. unfold catc. cbn [map concat]. rewrite app_length. specialize (B _ M).
    assert (MX : mixes b labs (fun c => catc c (map (map fst) rss')) (fun c => catc c (map (map snd) rss'))) by (exists rss'; auto).
    specialize (IH _ _ MX). cbv beta in IH. unfold catc in IH. lia.
Qed.
Lemma gone_bound : forall b l, In l ls -> exists N, forall O x qs pad, sub_gen b qs pad d O l x -> even (length (snd l)) 0 0 (x_av x) -> (length (x_q x) <= N)%nat.
Proof.
  intros b l Hl. destruct (mixes_bound b (snd l)) as (N & HN). exists (Z.to_nat D + N + nn)%nat. intros O x qs pad (fr & fe & ins & M & H & _ & _ & _ & _ & Hp & _) (E1 & E2 & E3 & E4).
  pose proof (lab_of _ Hl) as Hne. assert (K : (0 < length (snd l))%nat) by (destruct (snd l); [congruence | cbn; lia]).
  pose proof (f_equal (@length T) (h_raw _ _ _ _ _ _ _ _ _ _ _ _ _ _ _ _ _ H 0%nat K)) as R1. rewrite !app_length, !repeat_length in R1.
  rewrite (catc_len 0 _ (length (snd l))) in R1; [|apply Forall_map; eapply Forall_impl; [|exact (h_shape _ _ _ _ _ _ _ _ _ _ _ _ _ _ _ _ _ H)]; intros f (_ & F2); exact F2 | exact K].
  rewrite map_length in R1. rewrite Forall_forall in E3. rewrite (E3 (nth 0 (a_obu (x_av x)) [])) in R1 by (apply nth_In; lia).
  specialize (HN _ _ M). rewrite app_length in R1. assert (N1 : (1 <= nn)%nat) by lia. assert (P1 : (Z.to_nat pad <= nn)%nat) by lia. nia.
Qed.
Lemma gone_bounds : forall b, exists N, forall l, In l ls -> forall O x qs pad, sub_gen b qs pad d O l x -> even (length (snd l)) 0 0 (x_av x) -> (length (x_q x) <= N)%nat.
Proof.
  intro b. assert (X : forall l0, (forall l, In l l0 -> In l ls) -> exists N, forall l, In l l0 -> forall O x qs pad, sub_gen b qs pad d O l x -> even (length (snd l)) 0 0 (x_av x) -> (length (x_q x) <= N)%nat).
  { induction l0 as [|l l0 IH]; intro HI; [exists 0%nat; intros l []|]. destruct (gone_bound b l (HI l (or_introl eq_refl))) as (N1 & H1). destruct IH as (N2 & H2); [intros; apply HI; now right|].
    exists (Nat.max N1 N2). intros l' [<- | Hl'] O x qs pad G E; [specialize (H1 O x qs pad G E) | specialize (H2 l' Hl' O x qs pad G E)]; lia. }
  apply X. auto.
Qed.
Lemma gone_closed : forall b, exists N, forall g O, Gone g O b -> closed N g.
Proof.
  intro b. destruct (gone_bounds b) as (N & HN). exists N. intros g O HG. pose proof HG as (St & Hs & _ & Hg). rewrite Forall_forall in Hg. split; [exact St|]. split; [exact Hs|]. split.
  - intros j Hj. apply in_map_iff in Hj. destruct Hj as (l & <- & Hl). destruct (Hg l Hl) as (_ & [(x & qs & pad & c & G1 & _ & G3 & G4 & G5 & G6 & G7) | (G & _)]); [|now rewrite G].
    rewrite G3, G4. split; [exact G5|]. split; [exact G1|]. exact (HN l Hl O x qs pad G6 G7).
  - intros g1 E1. destruct (flush_split g g1 Hs E1) as (ga & gb & (Q1 & Q2 & Q3) & Q4 & Q5 & Q6 & Q7 & Q8 & Q9).
    split; [exact Q8|]. split; [congruence|]. split; [eapply flush_keys; eauto|].
    assert (Ha : Gone ga O b) by (eapply gone_alike; eauto).
    assert (Hb : alike ga gb). { destruct Ha as (_ & _ & H3 & H4). apply maybe_gone; auto. intros l Hl. rewrite Forall_forall in H4. exact (proj1 (H4 l Hl)). }
    intros j Hj. pose proof (alike_trans _ _ _ Q1 (alike_trans _ _ _ Hb Q7)) as (X & _). exact (proj1 (proj2 (proj2 (X j Hj)))).
Qed.
Lemma whole_closed : forall p1 l xs p2 g O rs post s, Forall nofin p1 -> Forall aside p2 -> Open g O [] [] -> rounds_ok rs -> adds_of id p1 ++ [(l, xs)] = concat rs ->
  session A lin quant code cf (p1 ++ Add id l xs :: p2 ++ Fin :: post) (g, O) = Ok s ->
  exists K N, forall cs s', (K <= outs cs)%nat -> session A lin quant code cf cs s = Ok s' -> closed N (fst s').
Proof.
  intros p1 l xs p2 g O rs post s H1 H2 HO HR HC R. destruct (whole_done _ _ _ _ _ _ _ _ _ H1 H2 HO HR HC R) as (b & _ & HD). destruct (done_rank _ _ _ HD) as (k & HK).
  destruct (gone_closed b) as (N & HN). exists k, N. intros cs s' L R'. destruct s as (g1, O1). cbn [fst snd] in *. apply (HN _ (snd s')). apply rank_0. eapply rank_session; [|exact R']. eapply rank_more; [|exact HK]. lia.
Qed.
End Run.
