(* The audio frame generator: what OutputFrames does to each substream *)
From Verif Require Import PropsLabels PropsUnit.
From Verif Require Import Base WriteBuf CodecConfig Params AudioElement Timing ParamManager AeData Demix SubFrames SubFramesFacts FrameGen FrameGenFacts.
From Verif Require PropsDemix.
From Coq Require Import Lia.

Section Out.
Context {T P : Type}.
Variable A : arith T.
Variable lin : Z -> T.
Variable quant : T -> res Z.
Variable code : Z -> list (list Z) -> res P.
Notation gen := (gen T P).
Notation oframe := (oframe T P).
Notation coder := (coder T P).

Definition tagged (e : Z * coder) : Prop := Forall (fun f => o_id f = fst e) (c_queue (snd e)).
Definition sane (g : gen) : Prop := NoDup (map fst (g_subs g)) /\ NoDup (map fst (g_coders g)) /\ Forall tagged (g_coders g).
Definition of_sub (j : Z) (fs : list oframe) : list oframe := filter (fun f => o_id f =? j) fs.

Lemma set_tagged : forall cs j c c', Forall tagged cs -> m_find j cs = Some c -> tagged (j, c') -> Forall tagged (Timing.m_set j c' cs).
Proof.
  induction cs as [|(i, x) cs IH]; intros j c c' H F Tc; cbn [Timing.m_set]; [constructor|]. inversion H; subst. cbn [m_find] in F.
  destruct (Z.eqb_spec i j); [subst; constructor; auto|]. constructor; eauto.
Qed.
Lemma encode_all_tagged : forall k ls dm st st', Forall tagged (g_coders (fst (fst st))) -> encode_all code k ls dm st = Ok st' -> Forall tagged (g_coders (fst (fst st'))).
Proof.
  intros k. induction ls as [|(sid, labs) ls IH]; intros dm st1 st' H0 H; cbn [encode_all] in H; [now injection H as <-|].
  rb H st2 E. apply (IH dm st2 st'); [|exact H]. clear -H0 E. destruct st1 as ((g, ts), more). unfold encode_one in E. cbn [fst] in *.
  destruct (m_find sid (g_subs g)) as [sd|]. 2: { destruct more; [discriminate|]. now injection E as <-. }
  destruct (sf_empty (s_obu sd)); [now injection E as <-|]. rb E h Eh. destruct (h <? k). { destruct ts; [discriminate|]. now injection E as <-. }
  cbv zeta in E. destruct (next_audio (g_clock g) sid k) as (((r, t0), t1), clock). rs E Er. rs E Et.
  destruct (m_find sid (g_coders g)) as [c|] eqn:Fc; [|discriminate]. rb E c' Ec. injection E as <-. cbn [fst g_coders]. eapply set_tagged; [exact H0 | exact Fc |].
  unfold encode_frame in Ec. destruct (finished c); [discriminate|]. rs Ec Ev. rb Ec p Ep. injection Ec as <-. unfold tagged. cbn [fst snd c_queue]. apply Forall_app. split.
  - pose proof (m_find_In _ _ _ Fc) as I. rewrite Forall_forall in H0. exact (H0 _ I).
  - repeat constructor.
Qed.
Lemma next_coders : forall id el m (g : gen) dm r, next_frame A lin quant id el m g dm = Ok r -> g_coders (fst r) = g_coders g.
Proof.
  intros id el m g dm r R. unfold next_frame in R. cbv zeta in R. destruct (_ && _); [now injection R as <-|].
  destruct (get_down_mixing (g_pm g) id) as (q, pm'). rb R p Ep. rb R subs Em. rb R s Eq0. now injection R as <-.
Qed.
Lemma loop_tagged : forall fuel id el m dm (g : gen) r, Forall tagged (g_coders g) -> encode_loop A lin quant code fuel id el m dm g = Ok r -> Forall tagged (g_coders (fst r)).
Proof.
  induction fuel as [|f IH]; intros id el m dm g r H0 H; cbn [encode_loop] in H; [discriminate|]. rb H q E. rb H s Es. destruct s as ((g2, ts2), more).
  assert (B : Forall tagged (g_coders g2)).
  { apply (encode_all_tagged _ _ _ _ _ ) in Es; [exact Es|]. cbn [fst]. rewrite (next_coders _ _ _ _ _ _ E). exact H0. }
  destruct ts2; [now injection H as <-|]. destruct more; [eauto | now injection H as <-].
Qed.
Lemma maybe_tagged : forall id el labels (g g' : gen), Forall tagged (g_coders g) -> maybe_encode A lin quant code id el labels g = Ok g' -> Forall tagged (g_coders g').
Proof.
  intros id el labels g g' H0 H. unfold maybe_encode in H. destruct (ready _ _ _); cbn [negb] in H; [|now injection H as <-].
  destruct (_ =? _); cbn [negb] in H; [|discriminate]. rb H r E. pose proof (loop_tagged _ _ _ _ _ _ _ H0 E) as B.
  destruct (snd r) as [t|]; [|now injection H as <-]. destruct (update_demixing _ _ _) as (q, pm'). rs H Eq0. now injection H as <-.
Qed.
Lemma maybe_sane : forall id el labels (g g' : gen), sane g -> maybe_encode A lin quant code id el labels g = Ok g' -> sane g'.
Proof.
  intros id el labels g g' (S1 & S2 & S3) H. destruct (maybe_beside A lin quant code 0 _ _ _ _ _ H) as (_ & B2 & B3 & _). unfold sane. rewrite B2, B3. repeat split; auto.
  eapply maybe_tagged; eassumption.
Qed.

(* ----- finish_coders ----- *)
Lemma m_del_other : forall {V} (m : list (Z * V)) k j, k <> j -> m_find j (m_del k m) = m_find j m.
Proof. induction m as [|(i, v) m IH]; intros k j H; cbn [m_del]; [reflexivity|]. destruct (Z.eqb_spec i k); cbn [m_find]; [subst; destruct (Z.eqb_spec k j); congruence|]. destruct (i =? j); auto. Qed.
Lemma m_del_keys : forall {V} (m : list (Z * V)) k x, In x (map fst (m_del k m)) -> In x (map fst m).
Proof. induction m as [|(i, v) m IH]; intros k x H; cbn [m_del] in H; [exact H|]. destruct (i =? k); cbn [map fst In] in *; [tauto|]. destruct H; [tauto|]. right. eauto. Qed.
Lemma m_del_nodup : forall {V} (m : list (Z * V)) k, NoDup (map fst m) -> NoDup (map fst (m_del k m)) /\ m_find k (m_del k m) = None.
Proof.
  induction m as [|(i, v) m IH]; intros k H; cbn [m_del]; [auto|]. cbn [map fst] in H. inversion H; subst. destruct (Z.eqb_spec i k).
  - subst. split; [assumption | now apply m_find_none].
  - destruct (IH k) as (I1 & I2); auto. cbn [map fst m_find]. destruct (Z.eqb_spec i k); [congruence|]. split; [|exact I2]. constructor; [|exact I1]. intro X. apply m_del_keys in X. contradiction.
Qed.
Definition mark (c : coder) : coder := mkCoder (c_queue c) true (c_delay c) (c_nch c).
Definition drained (j : Z) (subs : list (Z * sub T)) : bool := match m_find j subs with Some sd => sf_empty (s_obu sd) | None => false end.
Lemma finish_spec : forall (cs : list (Z * coder)) subs cs' subs', NoDup (map fst cs) -> NoDup (map fst subs) -> finish_coders cs subs = (cs', subs') ->
  map fst cs' = map fst cs /\ NoDup (map fst subs') /\ (Forall tagged cs -> Forall tagged cs') /\
  (forall j, m_find j cs' = match m_find j cs with Some c => Some (if drained j subs then mark c else c) | None => None end) /\
  (forall j, m_find j subs' = match m_find j cs with Some c => if drained j subs then None else m_find j subs | None => m_find j subs end).
Proof.
  induction cs as [|(sid, c) cs IH]; intros subs cs' subs' Hn Hs H; cbn [finish_coders] in H; [injection H as <- <-; auto|].
  cbn [map fst] in Hn. inversion Hn as [|? ? Hni Hn']; subst.
  assert (DR : forall j, sid <> j -> drained j (m_del sid subs) = drained j subs) by (intros j Hj; unfold drained; now rewrite m_del_other).
  assert (NF : m_find sid cs = None) by (now apply m_find_none).
  destruct (drained sid subs) eqn:Dr; unfold drained in Dr.
  - destruct (m_find sid subs) as [sd|] eqn:F; [|discriminate]. rewrite Dr in H. destruct (finish_coders cs (m_del sid subs)) as (cs0, ss) eqn:E. injection H as <- <-.
    destruct (m_del_nodup subs sid Hs) as (N1 & N2). destruct (IH _ _ _ Hn' N1 E) as (I1 & I2 & I3 & I4 & I5). repeat split; auto.
    + cbn [map fst]. now rewrite I1.
    + intro TG. inversion TG as [|? ? T1 T2]; subst. constructor; [exact T1 | auto].
    + intro j. cbn [m_find]. destruct (Z.eqb_spec sid j); [subst; unfold drained; now rewrite F, Dr|]. rewrite I4, DR by assumption. reflexivity.
    + intro j. cbn [m_find]. destruct (Z.eqb_spec sid j).
      * subst. rewrite I5, NF, N2. unfold drained. now rewrite F, Dr.
      * rewrite I5, DR, m_del_other by assumption. reflexivity.
  - assert (E0 : exists cs0 ss, finish_coders cs subs = (cs0, ss) /\ cs' = (sid, c) :: cs0 /\ subs' = ss).
    { destruct (m_find sid subs) as [sd|] eqn:F; [rewrite Dr in H|]; destruct (finish_coders cs subs) as (cs0, ss) eqn:E; injection H as <- <-; eauto. }
    destruct E0 as (cs0 & ss & E & -> & ->). destruct (IH _ _ _ Hn' Hs E) as (I1 & I2 & I3 & I4 & I5). repeat split; auto.
    + cbn [map fst]. now rewrite I1.
    + intro TG. inversion TG as [|? ? T1 T2]; subst. constructor; [exact T1 | auto].
    + intro j. cbn [m_find]. destruct (Z.eqb_spec sid j); [subst; unfold drained; now rewrite Dr|]. apply I4.
    + intro j. cbn [m_find]. destruct (Z.eqb_spec sid j); [subst; rewrite I5, NF; unfold drained; now rewrite Dr|]. apply I5.
Qed.

(* ----- pop_all ----- *)
Lemma apply_trim_id : forall n last tr (f : oframe) tr' f', apply_trim n last tr f = Ok (tr', f') -> o_id f' = o_id f.
Proof.
  intros n last tr f tr' f' H. unfold apply_trim in H. rb H a E. destruct a as ((ls, ks), fl). destruct last.
  - rb H b E2. destruct b as ((le, ke), fl2). now injection H as <- <-.
  - now injection H as <- <-.
Qed.
Definition rest_of (c : coder) (q : list oframe) : coder := mkCoder q (c_done c) (c_delay c) (c_nch c).
Definition one_popped (cf : cfg) (j : Z) (c : coder) (trs trs' : list (Z * trims)) (cs2 : list (Z * coder)) (fs : list oframe) : Prop :=
  exists f q nj tr tr' f', c_queue c = f :: q /\ n_of (cf_elems cf) j = Ok nj /\ m_find j trs = Some tr /\ apply_trim nj (c_done c && nil q) tr f = Ok (tr', f') /\
    m_find j cs2 = Some (rest_of c q) /\ m_find j trs' = Some tr' /\ of_sub j fs = [f'].
Lemma pop_all_spec : forall cf cs trs cs2 trs' fs, NoDup (map fst cs) -> Forall tagged cs -> pop_all cf cs trs = Ok (cs2, trs', fs) ->
  map fst cs2 = map fst cs /\ Forall tagged cs2 /\
  (forall j, m_find j cs = None -> m_find j trs' = m_find j trs /\ of_sub j fs = []) /\
  (forall j c, m_find j cs = Some c -> one_popped cf j c trs trs' cs2 fs).
Proof.
  intros cf. induction cs as [|(sid, c) cs IH]; intros trs cs2 trs' fs Hn HT H; cbn [pop_all] in H.
  - injection H as <- <- <-. repeat split; auto. discriminate.
  - cbn [map fst] in Hn. inversion Hn as [|? ? Hni Hn']; subst. inversion HT as [|? ? T1 T2]; subst.
    destruct (c_queue c) as [|f q] eqn:Q; [discriminate|]. destruct (m_find sid trs) as [tr|] eqn:F; [|discriminate].
    rb H nj En. rb H a Ea. destruct a as (tr1, f1). rb H r Er. destruct r as ((cs0, trs0), fs0). injection H as <- <- <-. cbn [fst snd] in *.
    destruct (IH _ _ _ _ Hn' T2 Er) as (I1 & I2 & I3 & I4).
    assert (NF : m_find sid cs = None) by (now apply m_find_none).
    assert (ID : o_id f1 = sid). { rewrite (apply_trim_id _ _ _ _ _ _ Ea). unfold tagged in T1. cbn [fst snd] in T1. rewrite Q in T1. now inversion T1. }
    split; [|split; [|split]].
    + cbn [map fst]. now rewrite I1.
    + constructor; [|exact I2]. unfold tagged in *. cbn [fst snd c_queue] in *. rewrite Q in T1. now inversion T1.
    + intros j Hj. cbn [m_find] in Hj. destruct (Z.eqb_spec sid j); [discriminate|]. destruct (I3 j Hj) as (X1 & X2). split.
      * rewrite X1. now apply m_find_set_other.
      * unfold of_sub in *. cbn [filter]. rewrite ID. destruct (Z.eqb_spec sid j); [congruence | exact X2].
    + intros j cj Hj. cbn [m_find] in Hj. destruct (Z.eqb_spec sid j) as [-> | Nj].
      * injection Hj as <-. destruct (I3 j NF) as (X1 & X2). exists f, q, nj, tr, tr1, f1. repeat split; auto.
        -- cbn [m_find]. now rewrite Z.eqb_refl.
        -- rewrite X1. rewrite m_find_set by congruence. now rewrite Z.eqb_refl.
        -- unfold of_sub in *. cbn [filter]. rewrite ID, Z.eqb_refl. now rewrite X2.
      * destruct (I4 j cj Hj) as (f2 & q2 & nj2 & tr2 & tr2' & f2' & Y1 & Y2 & Y3 & Y4 & Y5 & Y6 & Y7). exists f2, q2, nj2, tr2, tr2', f2'. repeat split; auto.
        -- rewrite m_find_set_other in Y3; assumption.
        -- cbn [m_find]. destruct (Z.eqb_spec sid j); [congruence | exact Y5].
        -- unfold of_sub in *. cbn [filter]. rewrite ID. destruct (Z.eqb_spec sid j); [congruence | exact Y7].
Qed.
Lemma m_find_filter : forall {V} (p : Z * V -> bool) m j, NoDup (map fst m) -> m_find j (filter p m) = match m_find j m with Some v => if p (j, v) then Some v else None | None => None end.
Proof.
  intros V p. induction m as [|(i, v) m IH]; intros j H; cbn [filter m_find]; [reflexivity|]. cbn [map fst] in H. inversion H as [|? ? Hni Hn]; subst.
  destruct (Z.eqb_spec i j) as [-> | Nj].
  - destruct (p (j, v)); cbn [m_find]; [now rewrite Z.eqb_refl|]. rewrite IH by assumption. now rewrite (proj2 (m_find_none j m) Hni).
  - destruct (p (i, v)); cbn [m_find]; [destruct (Z.eqb_spec i j); [congruence|]|]; now apply IH.
Qed.
Lemma filter_keys : forall {V} (p : Z * V -> bool) m, NoDup (map fst m) -> NoDup (map fst (filter p m)).
Proof.
  intros V p. induction m as [|(i, v) m IH]; intros H; cbn [filter]; [exact H|]. cbn [map fst] in H. inversion H as [|? ? Hni Hn]; subst.
  destruct (p (i, v)); [|auto]. cbn [map fst]. constructor; [|auto]. intro X. apply Hni. apply in_map_iff in X. destruct X as (y & <- & Y). apply filter_In in Y. now apply in_map.
Qed.

(* ----- the end of OutputFrames ----- *)
Definition deliver (cf : cfg) (g1 : gen) : res (gen * list oframe) :=
  let '(cs, subs) := match g_stage g1 with Flushing => finish_coders (g_coders g1) (g_subs g1) | _ => (g_coders g1, g_subs g1) end in
  rbind (if forallb (fun e => negb (nil (c_queue (snd e)))) cs then pop_all cf cs (g_trims g1) else Ok (cs, g_trims g1, [])) (fun r =>
  let '(cs2, trs, fs) := r in
  Ok (mkGen (g_stage g1) (g_in g1) subs trs (filter (fun e => negb (finished (snd e))) cs2) (g_pm g1) (g_clock g1), fs)).
Definition flushing (s : stage) : bool := match s with Flushing => true | _ => false end.
(* a coder which was not asked, or which was: the coder before, and what it is now *)
Definition delivered (cf : cfg) (j : Z) (c : coder) (g1 g' : gen) (fs : list oframe) : Prop :=
  (m_find j (g_trims g') = m_find j (g_trims g1) /\ of_sub j fs = [] /\ m_find j (g_coders g') = if finished c then None else Some c) \/
  (exists f q nj tr tr' f', c_queue c = f :: q /\ n_of (cf_elems cf) j = Ok nj /\ m_find j (g_trims g1) = Some tr /\ apply_trim nj (c_done c && nil q) tr f = Ok (tr', f') /\
    m_find j (g_coders g') = (if finished (rest_of c q) then None else Some (rest_of c q)) /\ m_find j (g_trims g') = Some tr' /\ of_sub j fs = [f']).
Lemma deliver_spec : forall cf g1 g' fs, sane g1 -> deliver cf g1 = Ok (g', fs) ->
  sane g' /\ g_stage g' = g_stage g1 /\ g_in g' = g_in g1 /\ g_clock g' = g_clock g1 /\
  (forall j, m_find j (g_coders g1) = None -> m_find j (g_trims g') = m_find j (g_trims g1) /\ of_sub j fs = [] /\ m_find j (g_coders g') = None /\ m_find j (g_subs g') = m_find j (g_subs g1)) /\
  (forall j c, m_find j (g_coders g1) = Some c -> 
     delivered cf j (if flushing (g_stage g1) && drained j (g_subs g1) then mark c else c) g1 g' fs /\
     m_find j (g_subs g') = if flushing (g_stage g1) && drained j (g_subs g1) then None else m_find j (g_subs g1)).
Proof.
  intros cf g1 g' fs (S1 & S2 & S3) H. unfold deliver in H.
  destruct (match g_stage g1 with Flushing => finish_coders (g_coders g1) (g_subs g1) | _ => (g_coders g1, g_subs g1) end) as (cs, subs) eqn:E.
  assert (F : map fst cs = map fst (g_coders g1) /\ NoDup (map fst subs) /\ Forall tagged cs /\
    (forall j, m_find j cs = match m_find j (g_coders g1) with Some c => Some (if flushing (g_stage g1) && drained j (g_subs g1) then mark c else c) | None => None end) /\
    (forall j, m_find j subs = match m_find j (g_coders g1) with Some c => if flushing (g_stage g1) && drained j (g_subs g1) then None else m_find j (g_subs g1) | None => m_find j (g_subs g1) end)).
  { destruct (g_stage g1); cbn [flushing andb].
    - injection E as <- <-. repeat split; auto; intro j; now destruct (m_find j (g_coders g1)).
    - injection E as <- <-. repeat split; auto; intro j; now destruct (m_find j (g_coders g1)).
    - destruct (finish_spec _ _ _ _ S2 S1 E) as (F1 & F2 & F3 & F4 & F5). repeat split; auto. }
  destruct F as (F1 & F2 & F3 & F4 & F5). rb H r Er. destruct r as ((cs2, trs), fs0). injection H as <- <-.
  assert (NC : NoDup (map fst cs)) by (rewrite F1; exact S2).
  assert (Q : map fst cs2 = map fst cs /\ Forall tagged cs2 /\ (forall j, m_find j cs = None -> m_find j trs = m_find j (g_trims g1) /\ of_sub j fs0 = []) /\
     (forall j c, m_find j cs = Some c -> (m_find j trs = m_find j (g_trims g1) /\ of_sub j fs0 = [] /\ m_find j cs2 = Some c) \/ one_popped cf j c (g_trims g1) trs cs2 fs0)).
  { destruct (forallb _ cs).
    - destruct (pop_all_spec _ _ _ _ _ _ NC F3 Er) as (P1 & P2 & P3 & P4). repeat split; auto; apply P3; assumption.
    - injection Er as <- <- <-. repeat split; auto. }
  destruct Q as (Q1 & Q2 & Q3 & Q4). assert (NC2 : NoDup (map fst cs2)) by (rewrite Q1; exact NC).
  split; [|split; [reflexivity|split; [reflexivity|split; [reflexivity|split]]]].
  - repeat split; cbn [g_subs g_coders]; auto.
    + now apply filter_keys.
    + apply Forall_forall. intros x Hx. apply filter_In in Hx. rewrite Forall_forall in Q2. now apply Q2.
  - intros j Hj. specialize (F4 j). specialize (F5 j). rewrite Hj in F4, F5. destruct (Q3 j F4) as (X1 & X2). cbn [g_trims g_coders g_subs]. repeat split; auto.
    rewrite m_find_filter by exact NC2. assert (N : m_find j cs2 = None) by (apply m_find_none; rewrite Q1; now apply m_find_none). now rewrite N.
  - intros j c Hj. specialize (F4 j). specialize (F5 j). rewrite Hj in F4, F5. split; [|exact F5].
    set (c1 := if flushing (g_stage g1) && drained j (g_subs g1) then mark c else c) in *. unfold delivered. cbn [g_trims g_coders].
    destruct (Q4 j c1 F4) as [(X1 & X2 & X3) | (f & q & nj & tr & tr' & f' & Y1 & Y2 & Y3 & Y4 & Y5 & Y6 & Y7)].
    + left. repeat split; auto. rewrite m_find_filter by exact NC2. rewrite X3. cbn [snd]. now destruct (finished c1).
    + right. exists f, q, nj, tr, tr', f'. repeat split; auto. rewrite m_find_filter by exact NC2. rewrite Y5. cbn [snd]. now destruct (finished (rest_of c1 q)).
Qed.
(* no coder waits: each gives a frame *)
Lemma deliver_all : forall cf g1 g' fs, sane g1 -> (forall j c, m_find j (g_coders g1) = Some c -> c_queue c <> []) -> deliver cf g1 = Ok (g', fs) ->
  forall j c', m_find j (g_coders g') = Some c' -> exists c f, m_find j (g_coders g1) = Some c /\ c_queue c = f :: c_queue c'.
Proof.
  intros cf g1 g' fs (S1 & S2 & S3) HA H. unfold deliver in H.
  destruct (match g_stage g1 with Flushing => finish_coders (g_coders g1) (g_subs g1) | _ => (g_coders g1, g_subs g1) end) as (cs, subs) eqn:E.
  assert (F : map fst cs = map fst (g_coders g1) /\ Forall tagged cs /\
    (forall j, m_find j cs = match m_find j (g_coders g1) with Some c => Some (if flushing (g_stage g1) && drained j (g_subs g1) then mark c else c) | None => None end)).
  { destruct (g_stage g1); cbn [flushing andb].
    - injection E as <- <-. repeat split; auto; intro j; now destruct (m_find j (g_coders g1)).
    - injection E as <- <-. repeat split; auto; intro j; now destruct (m_find j (g_coders g1)).
    - destruct (finish_spec _ _ _ _ S2 S1 E) as (F1 & F2 & F3 & F4 & F5). repeat split; auto. }
  destruct F as (F1 & F3 & F4). assert (NC : NoDup (map fst cs)) by (rewrite F1; exact S2).
  assert (QQ : forall j c, m_find j cs = Some c -> exists c0, m_find j (g_coders g1) = Some c0 /\ c_queue c = c_queue c0).
  { intros j c Hj. rewrite F4 in Hj. destruct (m_find j (g_coders g1)) as [c0|]; [|discriminate]. injection Hj as <-. exists c0. split; [reflexivity|]. now destruct (flushing _ && _). }
  assert (FB : forallb (fun e : Z * coder => negb (nil (c_queue (snd e)))) cs = true).
  { apply forallb_forall. intros (j, c) Hin. apply (PropsDemix.m_find_in j cs c NC) in Hin. destruct (QQ _ _ Hin) as (c0 & Q1 & Q2). cbn [snd]. rewrite Q2. specialize (HA _ _ Q1). destruct (c_queue c0); [congruence | reflexivity]. }
  rewrite FB in H. rb H r Er. destruct r as ((cs2, trs), fs0). injection H as <- <-. cbn [g_coders].
  destruct (pop_all_spec _ _ _ _ _ _ NC F3 Er) as (P1 & P2 & P3 & P4). intros j c' Hj. assert (NC2 : NoDup (map fst cs2)) by (rewrite P1; exact NC).
  rewrite m_find_filter in Hj by exact NC2.
  destruct (m_find j cs) as [c|] eqn:Fj.
  - destruct (P4 _ _ Fj) as (f & q & nj & tr & tr' & f' & Y1 & Y2 & Y3 & Y4 & Y5 & _). rewrite Y5 in Hj. destruct (negb _); [|discriminate]. injection Hj as <-.
    destruct (QQ _ _ Fj) as (c0 & Q1 & Q2). exists c0, f. split; [exact Q1|]. cbn [rest_of c_queue]. congruence.
  - assert (N : m_find j cs2 = None) by (apply m_find_none; rewrite P1; now apply m_find_none). rewrite N in Hj. discriminate.
Qed.
Lemma output_deliver : forall cf g, output_frames A lin quant code cf g =
  rbind (match g_stage g with
         | Flushing => flush_elems A lin quant code cf (cf_elems cf) g
         | Finalized => Ok (mkGen Flushing (g_in g) (g_subs g) (g_trims g) (g_coders g) (g_pm g) (g_clock g))
         | Taking => Ok g
         end) (deliver cf).
Proof. reflexivity. Qed.
End Out.
