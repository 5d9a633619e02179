(* The audio frame generator: when all elements are closed, the frames which wait are taken, and then it is at its end *)
From Verif Require Import PropsLabels PropsUnit.
From Verif Require Import Base WriteBuf CodecConfig Params AudioElement Timing ParamManager AeData Demix SubFrames SubFramesFacts FrameGen FrameGenFacts FrameGenHist FrameGenOut FrameGenSpec FrameGenRun FrameGenInit.
From Verif Require PropsDemix.
From Coq Require Import Lia.

Section Ends.
Context {T P : Type}.
Variable A : arith T.
Variable lin : Z -> T.
Variable quant : T -> res Z.
Variable code : Z -> list (list Z) -> res P.
Notation gen := (gen T P).
Notation oframe := (oframe T P).
Variable cf : cfg.

Definition within (Q : Z -> Prop) (g : gen) : Prop := sane g /\ forall j, m_find j (g_coders g) <> None -> Q j.
Lemma keys_find : forall {V W} (a : list (Z * V)) (b : list (Z * W)) j, map fst a = map fst b -> m_find j a <> None -> m_find j b <> None.
Proof. intros V W a b j E H N. apply H. apply m_find_none. rewrite E. now apply m_find_none. Qed.
Lemma maybe_within : forall Q id el labels g g', within Q g -> maybe_encode A lin quant code id el labels g = Ok g' -> within Q g'.
Proof.
  intros Q id el labels g g' (S & W) R. split; [eapply maybe_sane; eauto|]. intros j Hj. apply W.
  destruct (maybe_beside A lin quant code 0 _ _ _ _ _ R) as (_ & _ & B3 & _). eapply keys_find; eauto.
Qed.
Lemma flush_within : forall Q l g g', within Q g -> flush_elems A lin quant code cf l g = Ok g' -> within Q g'.
Proof.
  induction l as [|(i, e) l IH]; intros g g' H R; cbn [flush_elems] in R; [now injection R as <-|]. destruct (m_find i (cf_labels cf)); [|discriminate]. rb R g2 E.
  eapply IH; [|exact R]. eapply maybe_within; eauto.
Qed.
Lemma deliver_within : forall Q g g' fs, within Q g -> deliver cf g = Ok (g', fs) -> within Q g'.
Proof.
  intros Q g g' fs (S & W) R. destruct (deliver_spec lin quant code _ _ _ _ S R) as (S1 & _ & _ & _ & S5 & _). split; [exact S1|]. intros j Hj. apply W. intro N. apply Hj. apply (S5 _ N).
Qed.
Lemma step_within : forall Q c s s', within Q (fst s) -> call_step A lin quant code cf c s = Ok s' -> within Q (fst s').
Proof.
  intros Q c (g, fs) s' H R. destruct c as [id l xs | | | m times]; cbn [call_step fst snd] in *.
  - rb R g1 E. injection R as <-. cbn [fst]. unfold add_samples in E. destruct (g_stage g); try (injection E as <-; exact H). destruct (nil xs); [discriminate|].
    destruct (m_find id (cf_labels cf)); [|discriminate]. cbv zeta in E. destruct (m_find id (cf_elems cf)); [|discriminate]. eapply maybe_within; [|exact E]. exact H.
  - injection R as <-. cbn [fst]. unfold finalize. destruct (g_stage g); exact H.
  - rb R q E. injection R as <-. cbn [fst]. destruct q as (g', fs'). cbn [fst]. rewrite output_deliver in E. rb E g1 E1. eapply deliver_within; [|exact E].
    destruct (g_stage g); [injection E1 as <-; exact H | injection E1 as <-; exact H | eapply flush_within; eauto].
  - injection R as <-. exact H.
Qed.
Lemma session_within : forall Q cs s s', within Q (fst s) -> session A lin quant code cf cs s = Ok s' -> within Q (fst s').
Proof.
  intros Q. induction cs as [|c cs IH]; intros s s' H R; cbn [session] in R; [now injection R as <-|]. rb R s1 E. eapply IH; [|exact R]. eapply step_within; eauto.
Qed.

Lemma app_session : forall a b s, session A lin quant code cf (a ++ b) s = rbind (session A lin quant code cf a s) (session A lin quant code cf b).
Proof. induction a as [|c a IH]; intros b s; cbn [app session rbind]; [reflexivity|]. destruct (call_step A lin quant code cf c s); cbn [rbind]; auto. Qed.
Lemma outs_app : forall (a b : list (call T)), outs (a ++ b) = (outs a + outs b)%nat.
Proof. induction a as [|c a IH]; intro b; [reflexivity|]. destruct c; cbn [app outs]; rewrite IH; reflexivity. Qed.

(* all elements are closed, now and later *)
Definition shut (N : nat) (els : list elem) (s : gen * list oframe) : Prop :=
  forall cs s', session A lin quant code cf cs s = Ok s' -> forall el, In el els -> closed A lin quant code cf el N (fst s').
Definition at_most (k : nat) (g : gen) : Prop := forall j c, m_find j (g_coders g) = Some c -> (length (c_queue c) <= k)%nat.
Definition of_elems (els : list elem) (j : Z) : Prop := exists el, In el els /\ In j (map fst (el_subs el)).
Lemma shut_out : forall N els k g O g' fs, els <> [] -> shut N els (g, O) -> within (of_elems els) g -> at_most (S k) g -> output_frames A lin quant code cf g = Ok (g', fs) -> at_most k g'.
Proof.
  intros N els k g O g' fs Hne HS (_ & HW) HA R. assert (CL : forall el, In el els -> closed A lin quant code cf el N g) by (intros el Hel; exact (HS [] (g, O) eq_refl el Hel)).
  rewrite output_deliver in R. destruct els as [|e0 els0]; [congruence|]. destruct (CL e0 (or_introl eq_refl)) as (St & _). rewrite St in R. rb R g1 E1.
  destruct (CL e0 (or_introl eq_refl)) as (_ & _ & _ & C0). destruct (C0 _ E1) as (S1 & _ & K1 & _).
  assert (SAME : forall j c, m_find j (g_coders g1) = Some c -> m_find j (g_coders g) = Some c /\ c_queue c <> []).
  { intros j c Hj. destruct (HW j) as (el & I1 & I2); [eapply keys_find; [exact K1|]; congruence|]. destruct (CL _ I1) as (_ & _ & C1 & C2). destruct (C2 _ E1) as (_ & _ & _ & C3). specialize (C1 _ I2). rewrite (C3 _ I2) in Hj. rewrite Hj in C1. split; [exact Hj | apply C1]. }
  intros j c' Hj. destruct (deliver_all lin quant code cf g1 g' fs S1 (fun j c H => proj2 (SAME j c H)) R j c' Hj) as (c & f & Q1 & Q2). specialize (HA _ _ (proj1 (SAME _ _ Q1))). rewrite Q2 in HA. cbn [length] in HA. lia.
Qed.
Lemma shut_step : forall N els c k g O s', els <> [] -> shut N els (g, O) -> within (of_elems els) g -> at_most (outs [c] + k) g -> call_step A lin quant code cf c (g, O) = Ok s' -> at_most k (fst s').
Proof.
  intros N els c k g O s' Hne HS HW HA R. assert (St : g_stage g = Flushing) by (destruct els as [|e0 els0]; [congruence|]; exact (proj1 (HS [] (g, O) eq_refl e0 (or_introl eq_refl)))).
  destruct c as [id l xs | | | m times]; cbn [call_step fst snd outs Nat.add] in *.
  - unfold add_samples in R. rewrite St in R. cbn [rbind] in R. injection R as <-. exact HA.
  - injection R as <-. cbn [fst]. unfold finalize. rewrite St. exact HA.
  - rb R q E. injection R as <-. cbn [fst]. destruct q as (g', fs). cbn [fst]. eapply shut_out; eauto.
  - injection R as <-. exact HA.
Qed.
Lemma shut_session : forall N els cs k g O s', els <> [] -> shut N els (g, O) -> within (of_elems els) g -> at_most (outs cs + k) g -> session A lin quant code cf cs (g, O) = Ok s' -> at_most k (fst s').
Proof.
  intros N els. induction cs as [|c cs IH]; intros k g O s' Hne HS HW HA R; cbn [session] in R; [injection R as <-; exact HA|]. rb R s E. destruct s as (g1, O1).
  apply (IH k g1 O1); auto.
  - intros cs' s2 R2 el Hel. apply (HS (c :: cs') s2); [|exact Hel]. cbn [session]. rewrite E. exact R2.
  - exact (step_within (of_elems els) c (g, O) (g1, O1) HW E).
  - apply (shut_step N els c (outs cs + k) g O (g1, O1)); auto. replace (outs [c] + (outs cs + k))%nat with (outs (c :: cs) + k)%nat by (destruct c; cbn [outs]; lia). exact HA.
Qed.
Lemma split_outs : forall K (cs : list (call T)), (K <= outs cs)%nat -> exists a b, cs = a ++ b /\ outs a = K.
Proof.
  induction K as [|K IH]; intros cs L; [exists [], cs; auto|]. revert L. induction cs as [|c cs IHc]; intro L; [cbn in L; lia|].
  destruct c as [id l xs | | | m times]; cbn [outs] in L.
  - destruct (IHc L) as (a & b & -> & E). exists (Add id l xs :: a), b. auto.
  - destruct (IHc L) as (a & b & -> & E). exists (Fin :: a), b. auto.
  - destruct (IH cs) as (a & b & -> & E); [lia|]. exists (Out :: a), b. split; [reflexivity|]. cbn [outs]. now rewrite E.
  - destruct (IHc L) as (a & b & -> & E). exists (Params m times :: a), b. auto.
Qed.
(* the bounds of all elements *)
Lemma all_shut : forall els s, (forall el, In el els -> exists K N, forall cs s', (K <= outs cs)%nat -> session A lin quant code cf cs s = Ok s' -> closed A lin quant code cf el N (fst s')) ->
  exists K N, forall cs s', (K <= outs cs)%nat -> session A lin quant code cf cs s = Ok s' -> forall el, In el els -> closed A lin quant code cf el N (fst s').
Proof.
  assert (MORE : forall el N N' g, (N <= N')%nat -> closed A lin quant code cf el N g -> closed A lin quant code cf el N' g).
  { intros el N N' g L (C1 & C2 & C3 & C4). split; [exact C1|]. split; [exact C2|]. split; [|exact C4]. intros j Hj. specialize (C3 j Hj). destruct (m_find j (g_coders g)); [|exact C3]. destruct C3 as (Q1 & Q2 & Q3). split; [exact Q1|]. split; [exact Q2 | lia]. }
  intros els s. induction els as [|e els IH]; intro H; [exists 0%nat, 0%nat; intros cs s' _ _ el []|].
  destruct (H e (or_introl eq_refl)) as (K1 & N1 & H1). destruct IH as (K2 & N2 & H2); [intros; apply H; now right|]. exists (Nat.max K1 K2), (Nat.max N1 N2).
  intros cs s' L R el [<- | Hel]; [apply (MORE _ N1); [lia | apply (H1 cs); [lia | exact R]] | apply (MORE _ N2); [lia | apply (H2 cs); [lia | exact R | exact Hel]]].
Qed.
Lemma all_end : forall els s, els <> [] -> within (of_elems els) (fst s) ->
  (forall el, In el els -> exists K N, forall cs s', (K <= outs cs)%nat -> session A lin quant code cf cs s = Ok s' -> closed A lin quant code cf el N (fst s')) ->
  exists K, forall cs s', (K <= outs cs)%nat -> session A lin quant code cf cs s = Ok s' -> generating (fst s') = false.
Proof.
  intros els s Hne HW HC. destruct (all_shut els s HC) as (K & N & H). exists (K + N)%nat. intros cs s' L R.
  destruct (split_outs K cs) as (a & b & -> & Ea); [lia|]. rewrite outs_app in L. rewrite app_session in R. rb R s1 E1. destruct s1 as (g1, O1).
  assert (HS : shut N els (g1, O1)).
  { intros cs s2 R2 el Hel. apply (H (a ++ cs) s2); [rewrite outs_app; lia | rewrite app_session, E1; exact R2 | exact Hel]. }
  pose proof (session_within _ _ _ _ HW E1) as W1. cbn [fst] in W1.
  assert (H0 : at_most 0 (fst s')).
  { eapply (shut_session N els b 0 g1 O1); eauto. intros j c Hj. destruct W1 as (_ & W1). destruct (W1 j) as (el & I1 & I2); [congruence|].
    destruct (HS [] (g1, O1) eq_refl el I1) as (_ & _ & C1 & _). specialize (C1 j I2). cbn [fst] in C1. rewrite Hj in C1. lia. }
  pose proof (session_within (of_elems els) b (g1, O1) s' W1 R) as (_ & W').
  unfold generating. destruct (g_coders (fst s')) as [|(j, c) r] eqn:E; [reflexivity|]. exfalso.
  assert (Fj : m_find j (g_coders (fst s')) = Some c) by (rewrite E; cbn [m_find]; now rewrite Z.eqb_refl).
  pose proof (H0 _ _ Fj) as L0. destruct (W' j) as (el & I1 & I2); [cbn [m_find]; now rewrite Z.eqb_refl|]. destruct (HS b s' R el I1) as (_ & _ & C1 & _). specialize (C1 _ I2). rewrite Fj in C1. destruct C1 as (_ & C1 & _). destruct (c_queue c); [congruence | cbn [length] in L0; lia].
Qed.
End Ends.
