(* The audio frame generator, one audio element at a time: what the queues of its substreams hold after each step *)
From Verif Require Import PropsLabels PropsUnit.
From Verif Require Import Base WriteBuf CodecConfig Params AudioElement Timing ParamManager AeData Demix SubFrames SubFramesFacts FrameGen.
From Coq Require Import Lia.

Ltac rb H x E := match type of H with rbind ?r _ = Ok _ => destruct r as [x|?| | |] eqn:E; cbn [rbind] in H; try discriminate H end.
Ltac rs H E := match type of H with rthen ?r _ = Ok _ => unfold rthen at 1 in H; destruct r as [?|?| | |] eqn:E; cbn [rbind] in H; try discriminate H end.

Definition zipapp {X} (a b : list (list X)) : list (list X) := map (fun p => fst p ++ snd p) (combine a b).
Lemma zipapp_cons : forall {X} (x y : list X) a b, zipapp (x :: a) (y :: b) = (x ++ y) :: zipapp a b.
Proof. reflexivity. Qed.
Lemma zipapp_nil_r : forall {X} (a b : list (list X)), length a = length b -> Forall (fun c => c = []) b -> zipapp a b = a.
Proof.
  induction a as [|x a IH]; intros [|y b] L H; cbn in L; try discriminate; [reflexivity|].
  inversion H; subst. rewrite zipapp_cons, app_nil_r. f_equal. apply IH; auto.
Qed.
Lemma zipapp_length : forall {X} (a b : list (list X)), length a = length b -> length (zipapp a b) = length a.
Proof. intros. unfold zipapp. rewrite map_length, combine_length. lia. Qed.
Lemma zipapp_even : forall {X} (a b : list (list X)) t k, length a = length b -> Forall (fun c => length c = t) a -> Forall (fun c => length c = k) b ->
  Forall (fun c => length c = t + k)%nat (zipapp a b).
Proof.
  induction a as [|x a IH]; intros [|y b] t k L Ha Hb; cbn in L; try discriminate; [constructor|].
  inversion Ha; inversion Hb; subst. rewrite zipapp_cons. constructor; [apply app_length | apply IH; auto].
Qed.

Inductive all3 {X Y W} (R : X -> Y -> W -> Prop) : list X -> list Y -> list W -> Prop :=
| all3_nil : all3 R [] [] []
| all3_cons : forall x y w xs ys ws, R x y w -> all3 R xs ys ws -> all3 R (x :: xs) (y :: ys) (w :: ws).
Lemma all3_of : forall {X Y W} (R : X -> Y -> W -> Prop) xs ys ws, length ws = length ys -> Forall2 (fun x p => R x (fst p) (snd p)) xs (combine ys ws) -> all3 R xs ys ws.
Proof.
  intros X Y W R xs ys. revert xs. induction ys as [|y ys IH]; intros xs [|w ws] L H; cbn in L; try discriminate; cbn [combine] in H; inversion H; subst; constructor; auto.
Qed.
Lemma all3_impl : forall {X Y W} (R Q : X -> Y -> W -> Prop) xs ys ws, (forall x y w, In x xs -> In y ys -> R x y w -> Q x y w) -> all3 R xs ys ws -> all3 Q xs ys ws.
Proof. intros X Y W R Q xs ys ws HI H. induction H; constructor; [apply HI; auto; now left|]. apply IHall3. intros. apply HI; auto; now right. Qed.
Lemma all3_trans : forall {X Y} (R Q V : X -> Y -> Y -> Prop) xs a b c,
  (forall x y w u, R x y w -> Q x w u -> V x y u) -> all3 R xs a b -> all3 Q xs b c -> all3 V xs a c.
Proof. intros X Y R Q V xs a b c HI H. revert c. induction H; intros c HQ; inversion HQ; subst; constructor; eauto. Qed.
Lemma all3_right : forall {X Y W} (R : X -> Y -> W -> Prop) (Q : X -> W -> Prop) xs ys ws, (forall x y w, R x y w -> Q x w) -> all3 R xs ys ws -> Forall2 Q xs ws.
Proof. intros X Y W R Q xs ys ws HI H. induction H; constructor; eauto. Qed.


Section Facts.
Context {T P : Type}.
Variable A : arith T.
Variable lin : Z -> T.
Variable quant : T -> res Z.
Variable code : Z -> list (list Z) -> res P.
Notation smap := (@smap T).
Notation zt := (a_lit A 0 1).
Variable n : Z.
Hypothesis n_pos : 0 < n.
Notation nn := (Z.to_nat n).
Lemma nn_pos : (0 < nn)%nat. Proof. lia. Qed.

(* the queues of a substream, channel by channel *)
Record av := mkAv { a_obu : list (list T); a_enc : list (list Z); a_end : Z; a_start : Z }.
Definition rsub (subs : list (Z * sub T)) (sid : Z) (a : av) : Prop :=
  exists sd, m_find sid subs = Some sd /\ holds nn (a_obu a) (s_obu sd) /\ holds nn (a_enc a) (s_enc sd) /\ s_end sd = a_end a /\ s_start sd = a_start a.
Definition reprs (subs : list (Z * sub T)) (ls : labmap) (l : list av) : Prop := Forall2 (fun e a => rsub subs (fst e) a) ls l.
(* t samples in every channel to be described by the OBUs, e samples to be encoded *)
Definition even (k : nat) (t e : nat) (a : av) : Prop :=
  length (a_obu a) = k /\ length (a_enc a) = k /\ Forall (fun c => length c = t) (a_obu a) /\ Forall (fun c => length c = e) (a_enc a).
Definition evens (ls : labmap) (t e : nat) (l : list av) : Prop := Forall2 (fun x a => even (length (snd x)) t e a) ls l.
Definition fed (rs : list (list T * list Z)) (a : av) : av :=
  mkAv (zipapp (a_obu a) (map fst rs)) (zipapp (a_enc a) (map snd rs)) (a_end a) (a_start a).

Lemma rsub_other : forall subs sid j a sd, sid <> j -> rsub subs j a -> m_find sid subs <> None -> rsub (Timing.m_set sid sd subs) j a.
Proof.
  intros subs sid j a sd Hne (x & F & R) Hs. exists x. split; [|exact R]. rewrite m_find_set by assumption.
  destruct (Z.eqb_spec sid j); [contradiction | exact F].
Qed.
Lemma reprs_other : forall subs sid ls l sd, ~ In sid (map fst ls) -> reprs subs ls l -> m_find sid subs <> None -> reprs (Timing.m_set sid sd subs) ls l.
Proof.
  intros subs sid ls l sd Hn H Hs. induction H as [|e a ls l R H IH]; constructor.
  - apply rsub_other; auto. intro E. apply Hn. now left.
  - apply IH. intro E. apply Hn. now right.
Qed.
Lemma upd_at_mid : forall {Y} (p : list Y) x s y, upd_at (length p) (fun _ => y) (p ++ x :: s) = p ++ y :: s.
Proof. induction p as [|a p IH]; intros x s y; cbn [length upd_at app]; [reflexivity | now rewrite IH]. Qed.

Lemma feed_channels_ok : forall gains m ls c sd sd' pre suf zpre zsuf,
  feed_channels A lin quant gains m c ls sd = Ok sd' ->
  holds nn (pre ++ suf) (s_obu sd) -> holds nn (zpre ++ zsuf) (s_enc sd) ->
  length pre = c -> length zpre = c -> length suf = length ls -> length zsuf = length ls ->
  exists rs, rmap (channel_out A lin quant gains m) ls = Ok rs /\ length rs = length ls /\
    holds nn (pre ++ zipapp suf (map fst rs)) (s_obu sd') /\ holds nn (zpre ++ zipapp zsuf (map snd rs)) (s_enc sd') /\
    s_end sd' = s_end sd /\ s_start sd' = s_start sd.
Proof.
  intros gains m. induction ls as [|l ls IH]; intros c sd sd' pre suf zpre zsuf H Ho He Lp Lz Ls Lzs; cbn [feed_channels] in H.
  - injection H as <-. destruct suf; [|discriminate]. destruct zsuf; [|discriminate]. exists []. cbn. auto 7.
  - rb H r E1. rb H o E2. rb H e E3. destruct suf as [|col suf]; [discriminate|]. destruct zsuf as [|zcol zsuf]; [discriminate|].
    assert (Hc : nth_error (pre ++ col :: suf) c = Some col) by (rewrite nth_error_app2 by lia; now rewrite Lp, Nat.sub_diag).
    assert (Hz : nth_error (zpre ++ zcol :: zsuf) c = Some zcol) by (rewrite nth_error_app2 by lia; now rewrite Lz, Nat.sub_diag).
    destruct (push_all_holds nn (fst r) _ _ c col nn_pos Ho Hc) as (o' & Eo & Ho').
    destruct (push_all_holds nn (snd r) _ _ c zcol nn_pos He Hz) as (e' & Ee & He').
    rewrite Eo in E2. injection E2 as <-. rewrite Ee in E3. injection E3 as <-.
    rewrite <- Lp, upd_at_mid in Ho'. rewrite <- Lz, upd_at_mid in He'.
    destruct (IH (S c) _ sd' (pre ++ [col ++ fst r]) suf (zpre ++ [zcol ++ snd r]) zsuf H) as (rs & R1 & R2 & R3 & R4 & R5 & R6).
    + cbn [s_obu]. rewrite <- app_assoc. exact Ho'.
    + cbn [s_enc]. rewrite <- app_assoc. exact He'.
    + rewrite app_length. cbn [length]. lia.
    + rewrite app_length. cbn [length]. lia.
    + cbn [length] in Ls. lia.
    + cbn [length] in Lzs. lia.
    + exists (r :: rs). cbn [rmap map length]. rewrite E1, R1. cbn [rbind]. rewrite !zipapp_cons.
      rewrite <- app_assoc in R3, R4. cbn [s_end s_start] in R5, R6. auto 7.
Qed.

(* every substream is given the channels of its labels *)
Definition fed_all (gains : list (label * Z)) (m : smap) (ls : labmap) (l l' : list av) : Prop :=
  Forall2 (fun x p => exists rs, rmap (channel_out A lin quant gains m) (snd x) = Ok rs /\ length rs = length (snd x) /\ snd p = fed rs (fst p)) ls (combine l l').
Lemma feed_subs_ok : forall gains m ls subs subs' l,
  NoDup (map fst ls) -> reprs subs ls l -> Forall2 (fun x a => length (a_obu a) = length (snd x) /\ length (a_enc a) = length (snd x)) ls l ->
  feed_subs A lin quant gains m ls subs = Ok subs' ->
  exists l', length l' = length l /\ reprs subs' ls l' /\ fed_all gains m ls l l' /\
    (forall j, ~ In j (map fst ls) -> m_find j subs' = m_find j subs) /\ map fst subs' = map fst subs.
Proof.
  intros gains m ls. induction ls as [|(sid, labs) ls IH]; intros subs subs' l Hnd HR HL H; cbn [feed_subs] in H.
  - injection H as <-. inversion HR; subst. exists []. repeat split; auto; constructor.
  - inversion HR as [|x a ls0 l0 R HR']; subst. inversion HL as [|? ? ? ? (L1 & L2) HL']; subst.
    cbn [map fst] in Hnd. inversion Hnd as [|? ? Hni Hnd']; subst.
    destruct R as (sd & F & Ho & He & E1 & E2). cbn [fst snd] in *. rewrite F in H. rb H sd' Ef.
    destruct (feed_channels_ok gains m labs 0 sd sd' [] (a_obu a) [] (a_enc a) Ef Ho He eq_refl eq_refl) as (rs & R1 & R2 & R3 & R4 & R5 & R6); try lia.
    destruct (IH (Timing.m_set sid sd' subs) subs' l0) as (l' & Q1 & Q2 & Q3 & Q4 & Q5); auto.
    { apply reprs_other; auto. congruence. }
    assert (M : map fst (Timing.m_set sid sd' subs) = map fst subs).
    { clear. induction subs as [|(i, x) t IHs]; cbn [Timing.m_set map fst]; [reflexivity|]. destruct (i =? sid); cbn [map fst]; [reflexivity | now rewrite IHs]. }
    exists (fed rs a :: l'). cbn [length combine]. repeat split; [lia| | | |congruence].
    + constructor; [|exact Q2]. cbn [fst]. exists sd'. rewrite Q4 by exact Hni. rewrite m_find_set by congruence. rewrite Z.eqb_refl.
      cbn [fed a_obu a_enc a_end a_start]. cbn [app] in R3, R4. repeat split; auto; congruence.
    + constructor; [|exact Q3]. exists rs. cbn [fst snd]. auto.
    + intros j Hj. cbn [map fst In] in Hj. rewrite Q4 by tauto. rewrite m_find_set by congruence. destruct (Z.eqb_spec sid j); [subst; tauto | reflexivity].
Qed.

Definition zeros {X} (z : X) (k : Z) (l : list (list X)) : list (list X) := map (fun c => c ++ repeat z (Z.to_nat k)) l.
Definition left_of (t : Z) (tr : trims) : trims := mkTrims (tr_inc tr) (if tr_inc tr then tr_end tr + (n - t) else tr_end tr) (tr_start tr).
(* first the OBUs' frame is filled up, then, if no samples were added, the coder's *)
Definition fill_obu (t : Z) (a : av) : av := if t <? n then mkAv (zeros zt (n - t) (a_obu a)) (zeros 0 (n - t) (a_enc a)) (n - t) (a_start a) else a.
Definition fill_tr (t : Z) (tr : trims) : trims := if t <? n then left_of t tr else tr.
Definition fill_len (t e : Z) : Z := if t <? n then e + (n - t) else e.
Definition fill_enc (none : bool) (e : Z) (a : av) : av :=
  if none && (e <? n) then mkAv (a_obu a) (zeros 0 (n - e) (a_enc a)) (a_end a) (a_start a) else a.
Definition tr_ok (tr : trims) : Prop := 0 <= tr_end tr /\ tr_end tr + n < 2 ^ 32.

Lemma ticks_front : forall {X} (s : sframes X) cols k t, holds nn cols s -> length cols = k -> (0 < k)%nat -> Forall (fun c => length c = t) cols ->
  ticks (sf_front s) = Ok (Z.min n (Z.of_nat t)).
Proof.
  intros X s cols k t H Hk Hp Ht. rewrite (front_holds nn cols) by assumption. destruct cols as [|c cols]; [cbn in Hk; lia|].
  inversion Ht; subst. cbn [map ticks]. unfold zlen. rewrite firstn_length. f_equal. lia.
Qed.
Lemma zeros_even : forall {X} (z : X) k l t, Forall (fun c => length c = t) l -> Forall (fun c => length c = t + Z.to_nat k)%nat (zeros z k l).
Proof. intros. unfold zeros. apply Forall_map. eapply Forall_impl; [|eassumption]. intros a Ha. cbv beta in *. rewrite app_length, repeat_length. lia. Qed.
Lemma fill_obu_even : forall k t e a, even k t e a -> even k (Nat.max t nn) (Z.to_nat (fill_len (Z.of_nat t) (Z.of_nat e))) (fill_obu (Z.of_nat t) a).
Proof.
  intros k t e a (L1 & L2 & F1 & F2). unfold fill_obu, fill_len. destruct (Z.ltb_spec (Z.of_nat t) n).
  - repeat split; cbn [a_obu a_enc]; try (unfold zeros; now rewrite map_length).
    + apply (zeros_even zt (n - Z.of_nat t)) in F1. eapply Forall_impl; [|exact F1]. intros c Hc. cbv beta in *. lia.
    + apply (zeros_even 0 (n - Z.of_nat t)) in F2. eapply Forall_impl; [|exact F2]. intros c Hc. cbv beta in *. lia.
  - repeat split; auto.
    + eapply Forall_impl; [|exact F1]. intros c Hc. cbv beta in *. lia.
    + eapply Forall_impl; [|exact F2]. intros c Hc. cbv beta in *. lia.
Qed.
Lemma pad_sub_ok : forall none sd tr sd' tr' a k t e, (0 < k)%nat -> even k t e a -> tr_ok tr ->
  holds nn (a_obu a) (s_obu sd) -> holds nn (a_enc a) (s_enc sd) -> s_end sd = a_end a -> s_start sd = a_start a ->
  pad_sub A n none sd tr = Ok (sd', tr') ->
  let a' := fill_enc none (fill_len (Z.of_nat t) (Z.of_nat e)) (fill_obu (Z.of_nat t) a) in
  holds nn (a_obu a') (s_obu sd') /\ holds nn (a_enc a') (s_enc sd') /\ s_end sd' = a_end a' /\ s_start sd' = a_start a' /\
  tr' = fill_tr (Z.of_nat t) tr /\ (Z.of_nat t < n -> tr_inc tr = false -> n - Z.of_nat t <= tr_end tr).
Proof.
  intros none sd tr sd' tr' a k t e Hk HE (T1 & T2) Ho He E1 E2 H a'. pose proof HE as (L1 & L2 & F1 & F2).
  pose proof nn_pos as NP. unfold pad_sub in H.
  rewrite (ticks_front (s_obu sd) (a_obu a) k t) in H by assumption. cbn [rbind] in H.
  rb H r E. destruct r as (sd1, tr1).
  assert (Q : holds nn (a_obu (fill_obu (Z.of_nat t) a)) (s_obu sd1) /\ holds nn (a_enc (fill_obu (Z.of_nat t) a)) (s_enc sd1) /\
              s_end sd1 = a_end (fill_obu (Z.of_nat t) a) /\ s_start sd1 = a_start (fill_obu (Z.of_nat t) a) /\ tr1 = fill_tr (Z.of_nat t) tr /\
              (Z.of_nat t < n -> tr_inc tr = false -> n - Z.of_nat t <= tr_end tr)).
  { unfold fill_obu, fill_tr. destruct (Z.ltb_spec (Z.min n (Z.of_nat t)) n) as [C | C].
    - destruct (Z.ltb_spec (Z.of_nat t) n); [|lia]. rewrite Z.min_r in E by lia.
      rb E q Enp. rb E o Eo. rb E z Ez. injection E as <- <-.
      unfold num_to_pad in Enp. set (lft := if tr_inc tr then tr_end tr + (n - Z.of_nat t) else tr_end tr) in *.
      destruct (Z.ltb_spec lft (n - Z.of_nat t)) as [|Hl]; [discriminate|]. injection Enp as <-. cbn [fst snd] in *.
      assert (U : u32 lft = lft). { unfold u32. apply Z.mod_small. unfold lft. destruct (tr_inc tr); lia. }
      rewrite U, Z.min_l in Eo, Ez |- * by lia.
      destruct (pad_holds zt nn (n - Z.of_nat t) (a_obu a) (s_obu sd) t NP) as (o' & P1 & P2); auto; [intro Z0; rewrite Z0 in L1; cbn in L1; lia | lia |].
      destruct (pad_holds 0 nn (n - Z.of_nat t) (a_enc a) (s_enc sd) e NP) as (z' & P3 & P4); auto; [intro Z0; rewrite Z0 in L2; cbn in L2; lia | lia |].
      rewrite P1 in Eo. injection Eo as <-. rewrite P3 in Ez. injection Ez as <-.
      cbn [a_obu a_enc a_end a_start s_obu s_enc s_end s_start]. repeat split; auto.
      intros _ HI. unfold lft in Hl. rewrite HI in Hl. exact Hl.
    - destruct (Z.ltb_spec (Z.of_nat t) n); [lia|]. injection E as <- <-. repeat split; auto. lia. }
  destruct Q as (Q1 & Q2 & Q3 & Q4 & Q5 & Q6).
  pose proof (fill_obu_even k t e a HE) as (M1 & M2 & M3 & M4).
  set (e' := fill_len (Z.of_nat t) (Z.of_nat e)) in *. assert (He' : 0 <= e') by (unfold e', fill_len; destruct (Z.ltb_spec (Z.of_nat t) n); lia).
  rewrite (ticks_front (s_enc sd1) (a_enc (fill_obu (Z.of_nat t) a)) k (Z.to_nat e')) in H by assumption. cbn [rbind] in H. rewrite Z2Nat.id in H by exact He'.
  unfold a', fill_enc. destruct none; cbn [andb] in H |- *.
  2: { injection H as <- <-. auto 7. }
  destruct (Z.ltb_spec (Z.min n e') n) as [C | C].
  - destruct (Z.ltb_spec e' n); [|lia]. rewrite Z.min_r in H by lia. rb H z Ez. injection H as <- <-.
    destruct (pad_holds 0 nn (n - e') (a_enc (fill_obu (Z.of_nat t) a)) (s_enc sd1) (Z.to_nat e') NP) as (z' & P3 & P4); auto; [intro Z0; rewrite Z0 in M2; cbn in M2; lia | lia |].
    rewrite P3 in Ez. injection Ez as <-. cbn [a_obu a_enc a_end a_start s_obu s_enc s_end s_start]. auto 7.
  - destruct (Z.ltb_spec e' n); [lia|]. injection H as <- <-. auto 7.
Qed.
Definition rtr (trs : list (Z * trims)) (ls : labmap) (l : list trims) : Prop := Forall2 (fun e t => m_find (fst e) trs = Some t) ls l.
Lemma m_set_keys : forall {V} k (v : V) m, map fst (Timing.m_set k v m) = map fst m.
Proof. induction m as [|(i, x) t IHs]; cbn [Timing.m_set map fst]; [reflexivity|]. destruct (i =? k); cbn [map fst]; [reflexivity | now rewrite IHs]. Qed.
Lemma pad_subs_ok : forall none ls subs trs subs' trs' l tl t e,
  NoDup (map fst ls) -> (forall x, In x ls -> snd x <> []) -> reprs subs ls l -> evens ls t e l -> rtr trs ls tl -> Forall tr_ok tl ->
  pad_subs A n none ls subs trs = Ok (subs', trs') ->
  let up := fun a => fill_enc none (fill_len (Z.of_nat t) (Z.of_nat e)) (fill_obu (Z.of_nat t) a) in
  reprs subs' ls (map up l) /\ rtr trs' ls (map (fill_tr (Z.of_nat t)) tl) /\
  (forall j, ~ In j (map fst ls) -> m_find j subs' = m_find j subs /\ m_find j trs' = m_find j trs) /\
  map fst subs' = map fst subs /\ map fst trs' = map fst trs /\
  (Z.of_nat t < n -> Forall (fun tr => tr_inc tr = false -> n - Z.of_nat t <= tr_end tr) tl).
Proof.
  intros none ls. induction ls as [|(sid, labs) ls IH]; intros subs trs subs' trs' l tl t e Hnd Hne HR HE HT HO H up; cbn [pad_subs] in H.
  - injection H as <- <-. inversion HR; subst. inversion HT; subst. cbn [map]. repeat split; auto; try constructor.
  - inversion HR as [|x a ls0 l0 R HR']; subst. inversion HE as [|? ? ? ? E0 HE']; subst. inversion HT as [|? tr ? tl0 F0 HT']; subst.
    inversion HO as [|? ? O0 HO']; subst. cbn [map fst] in Hnd. inversion Hnd as [|? ? Hni Hnd']; subst.
    destruct R as (sd & F & Ho & He & E1 & E2). cbn [fst snd] in *. rewrite F, F0 in H. rb H r Ep. destruct r as (sd', tr').
    cbn [fst snd] in H.
    assert (Hk : (0 < length labs)%nat).
    { specialize (Hne (sid, labs) (or_introl eq_refl)). cbn [snd] in Hne. destruct labs; [congruence | cbn; lia]. }
    destruct (pad_sub_ok none sd tr sd' tr' a (length labs) t e Hk E0 O0 Ho He E1 E2 Ep) as (P1 & P2 & P3 & P4 & P5 & P6).
    destruct (IH (Timing.m_set sid sd' subs) (Timing.m_set sid tr' trs) subs' trs' l0 tl0 t e) as (Q1 & Q2 & Q3 & Q4 & Q5 & Q6); auto.
    { intros x Hx. apply Hne. now right. }
    { apply reprs_other; auto. congruence. }
    { clear -HT' Hni F0. unfold rtr in *. induction HT' as [|x y l1 l2 H H' IH]; constructor.
      - rewrite m_find_set by congruence. cbn [map In] in Hni. destruct (Z.eqb_spec sid (fst x)); [subst; tauto | exact H].
      - apply IH. cbn [map In] in Hni. tauto. }
    rewrite m_set_keys in Q4. rewrite m_set_keys in Q5. cbn [map]. repeat split; auto.
    + constructor; [|exact Q1]. cbn [fst]. exists sd'. destruct (Q3 sid Hni) as (X1 & _). rewrite X1. rewrite m_find_set by congruence. rewrite Z.eqb_refl. auto.
    + constructor; [|exact Q2]. cbn [fst]. destruct (Q3 sid Hni) as (_ & X1). rewrite X1. rewrite m_find_set by congruence. rewrite Z.eqb_refl. now rewrite P5.
    + cbn [map fst In] in H0. destruct (Q3 j ltac:(tauto)) as (X1 & _). rewrite X1. rewrite m_find_set by congruence. destruct (Z.eqb_spec sid j); [subst; tauto | reflexivity].
    + cbn [map fst In] in H0. destruct (Q3 j ltac:(tauto)) as (_ & X1). rewrite X1. rewrite m_find_set by congruence. destruct (Z.eqb_spec sid j); [subst; tauto | reflexivity].
Qed.

Notation gen := (gen T P).
Notation oframe := (oframe T P).
(* everything about one substream *)
Record st := mkSt { x_av : av; x_tr : trims; x_q : list oframe; x_clk : Z }.
Definition live (g : gen) (sid : Z) (x : st) : Prop :=
  rsub (g_subs g) sid (x_av x) /\ m_find sid (g_trims g) = Some (x_tr x) /\
  (exists c, m_find sid (g_coders g) = Some c /\ c_queue c = x_q x /\ c_done c = false) /\
  (exists d, m_find sid (g_audio (g_clock g)) = Some d /\ td_stamp d = x_clk x).
Definition lives (g : gen) (ls : labmap) (xs : list st) : Prop := Forall2 (fun e x => live g (fst e) x) ls xs.
(* the substreams which are not in ls are left alone *)
Definition rest (ls : labmap) (g g' : gen) : Prop :=
  (forall j, ~ In j (map fst ls) -> m_find j (g_subs g') = m_find j (g_subs g) /\ m_find j (g_trims g') = m_find j (g_trims g) /\
     m_find j (g_coders g') = m_find j (g_coders g) /\ m_find j (g_audio (g_clock g')) = m_find j (g_audio (g_clock g))) /\
  map fst (g_subs g') = map fst (g_subs g) /\ map fst (g_coders g') = map fst (g_coders g) /\ map fst (g_trims g') = map fst (g_trims g) /\
  g_stage g' = g_stage g /\ g_in g' = g_in g.
Lemma rest_refl : forall ls g, rest ls g g.
Proof. intros. repeat split; auto. Qed.
Lemma rest_trans : forall ls a b c, rest ls a b -> rest ls b c -> rest ls a c.
Proof.
  intros ls a b c (A1 & A2 & A3 & A4 & A5 & A6) (B1 & B2 & B3 & B4 & B5 & B6). repeat split; try congruence; intros;
  destruct (A1 j H) as (X1 & X2 & X3 & X4); destruct (B1 j H) as (Y1 & Y2 & Y3 & Y4); congruence.
Qed.

(* the frame which is made of the front of the queues *)
Definition made (sid : Z) (dm : option dmix) (x : st) (f : oframe) : Prop :=
  o_id f = sid /\ o_raw f = map (firstn nn) (a_obu (x_av x)) /\ code sid (map (firstn nn) (a_enc (x_av x))) = Ok (o_data f) /\
  o_end f = Z.min n (a_end (x_av x)) /\ o_start f = Z.min n (a_start (x_av x)) /\ o_dm f = dm /\
  o_flag f = negb (o_end f =? 0) || negb (o_start f =? 0) /\ o_t0 f = x_clk x /\ o_t1 f = s64 (x_clk x + n).
Definition cut_av (a : av) : av :=
  mkAv (map (skipn nn) (a_obu a)) (map (skipn nn) (a_enc a)) (a_end a - Z.min n (a_end a)) (a_start a - Z.min n (a_start a)).
Definition emit (f : oframe) (x : st) : st := mkSt (cut_av (x_av x)) (x_tr x) (x_q x ++ [f]) (o_t1 f).

Lemma empty_even : forall g sid x k t e, live g sid x -> even k t e (x_av x) -> (0 < k)%nat ->
  forall sd, m_find sid (g_subs g) = Some sd -> sf_empty (s_obu sd) = Nat.eqb t 0.
Proof.
  intros g sid x k t e ((sd & F & Ho & _) & _) (L1 & _ & F1 & _) Hk sd' F'. rewrite F in F'. injection F' as <-.
  pose proof (empty_holds nn (a_obu (x_av x)) (s_obu sd) nn_pos Ho) as Q.
  destruct (Nat.eqb_spec t 0) as [-> | Ht].
  - apply Q. eapply Forall_impl; [|exact F1]. intros c Hc. cbv beta in Hc. now destruct c.
  - destruct (sf_empty (s_obu sd)) eqn:E; [|reflexivity]. destruct Q as (Q & _). specialize (Q eq_refl).
    destruct (a_obu (x_av x)) as [|c cs]; [cbn in L1; lia|]. inversion Q; inversion F1; subst. cbn [length] in *. congruence.
Qed.
Lemma zmin_front : forall a b, 0 < a -> 0 <= b -> (Z.min a b <? a) = (b <? a).
Proof. intros. destruct (Z.ltb_spec (Z.min a b) a); destruct (Z.ltb_spec b a); lia. Qed.

Lemma encode_one_idle : forall sid dm g ts more x k e, live g sid x -> even k 0 e (x_av x) -> (0 < k)%nat ->
  encode_one code n sid dm (g, ts, more) = Ok (g, ts, more).
Proof.
  intros sid dm g ts more x k e H HE Hk. unfold encode_one. pose proof H as ((sd & F & _) & _). rewrite F.
  now rewrite (empty_even g sid x k 0 e H HE Hk sd F).
Qed.
Lemma encode_one_wait : forall sid dm g ts more r x k t e, live g sid x -> even k t e (x_av x) -> (0 < k)%nat -> (0 < t)%nat -> Z.of_nat e < n ->
  encode_one code n sid dm (g, ts, more) = Ok r -> r = (g, None, true) /\ ts = None.
Proof.
  intros sid dm g ts more r x k t e H HE Hk Ht He R. unfold encode_one in R. pose proof H as ((sd & F & Ho & Hz & _) & _). rewrite F in R.
  rewrite (empty_even g sid x k t e H HE Hk sd F) in R. destruct (Nat.eqb_spec t 0); [lia|].
  destruct HE as (L1 & L2 & F1 & F2). cbv zeta in R. rewrite (ticks_front (s_enc sd) (a_enc (x_av x)) k e) in R by assumption. cbn [rbind] in R.
  rewrite zmin_front in R by lia. destruct (Z.ltb_spec (Z.of_nat e) n); [|lia]. destruct ts; [discriminate|]. injection R as <-. auto.
Qed.
Lemma encode_one_ok : forall sid dm g ts more r x k t e, live g sid x -> even k t e (x_av x) -> (0 < k)%nat -> (nn <= t)%nat -> (nn <= e)%nat ->
  encode_one code n sid dm (g, ts, more) = Ok r ->
  exists g' f, r = (g', Some (x_clk x), true) /\ made sid dm x f /\ live g' sid (emit f x) /\ rest [(sid, [])] g g' /\ g_pm g' = g_pm g /\
    g_trims g' = g_trims g /\ even k (t - nn) (e - nn) (cut_av (x_av x)).
Proof.
  intros sid dm g ts more r x k t e H HE Hk Ht He R. unfold encode_one in R. pose proof H as ((sd & F & Ho & Hz & D1 & D2) & Ft & (c & Fc & Qc & Dc) & (d & Fd & Sd)).
  pose proof nn_pos as NP.
  rewrite F in R. rewrite (empty_even g sid x k t e H HE Hk sd F) in R. destruct (Nat.eqb_spec t 0); [lia|].
  destruct HE as (L1 & L2 & F1 & F2). cbv zeta in R. rewrite (ticks_front (s_enc sd) (a_enc (x_av x)) k e) in R by assumption. cbn [rbind] in R.
  rewrite zmin_front in R by lia. destruct (Z.ltb_spec (Z.of_nat e) n); [lia|].
  unfold next_audio, get_timestamps in R. rewrite Fd in R. unfold rthen at 1 in R. cbn [rbind] in R.
  rs R Ets. rewrite Fc in R. rb R c' Ec. injection R as <-.
  unfold encode_frame, finished in Ec. rewrite Dc in Ec. cbn [andb] in Ec. rs Ec Ev. rb Ec p Ep. injection Ec as <-.
  rewrite (front_holds nn (a_enc (x_av x))) in Ep by assumption. rewrite (front_holds nn (a_obu (x_av x))) by assumption.
  set (f := mkOf sid _ _ _ _ _ _ dm p).
  eexists _, f. split; [rewrite Sd; reflexivity|]. repeat split.
  - exact Ep.
  - cbn [f o_end]. now rewrite D1.
  - cbn [f o_start]. now rewrite D2.
  - exact Sd.
  - cbn [f o_t1]. now rewrite Sd.
  - cbn [g_subs]. eexists. rewrite m_find_set by congruence. rewrite Z.eqb_refl. split; [reflexivity|]. cbn [emit x_av cut_av a_obu a_enc a_end a_start s_obu s_enc s_end s_start].
    rewrite (ensure_holds nn (a_obu (x_av x))) by assumption. rewrite (ensure_holds nn (a_enc (x_av x))) by assumption.
    repeat split; try congruence.
    + apply (pop_holds nn (a_obu (x_av x)) _ t); auto; [intro Z0; rewrite Z0 in L1; cbn in L1; lia | now left].
    + apply (pop_holds nn (a_enc (x_av x)) _ e); auto; [intro Z0; rewrite Z0 in L2; cbn in L2; lia | now left].
  - exact Ft.
  - cbn [g_coders]. eexists. rewrite m_find_set by congruence. rewrite Z.eqb_refl. split; [reflexivity|]. cbn [c_queue c_done emit x_q]. now rewrite Qc.
  - cbn [g_clock g_audio]. eexists. rewrite m_find_set by congruence. rewrite Z.eqb_refl. split; [reflexivity|]. cbn [td_stamp emit x_clk f o_t1]. now rewrite Sd.
  - cbn [g_subs]. rewrite m_find_set by congruence. cbn [map In fst] in H1. destruct (Z.eqb_spec sid j); [subst; tauto | reflexivity].
  - cbn [g_coders]. rewrite m_find_set by congruence. cbn [map In fst] in H1. destruct (Z.eqb_spec sid j); [subst; tauto | reflexivity].
  - cbn [g_clock g_audio]. rewrite m_find_set by congruence. cbn [map In fst] in H1. destruct (Z.eqb_spec sid j); [subst; tauto | reflexivity].
  - cbn [g_subs]. apply m_set_keys.
  - cbn [g_coders]. apply m_set_keys.
  - cbn [cut_av a_obu]. now rewrite map_length.
  - cbn [cut_av a_enc]. now rewrite map_length.
  - cbn [cut_av a_obu]. apply Forall_map. eapply Forall_impl; [|exact F1]. intros q Hq. cbv beta in *. rewrite skipn_length. lia.
  - cbn [cut_av a_enc]. apply Forall_map. eapply Forall_impl; [|exact F2]. intros q Hq. cbv beta in *. rewrite skipn_length. lia.
Qed.
Lemma live_rest : forall g g' ls sid x, rest ls g g' -> ~ In sid (map fst ls) -> live g sid x -> live g' sid x.
Proof.
  intros g g' ls sid x (R1 & _) Hn ((sd & F & Q) & Ft & (c & Fc & Qc) & (d & Fd & Qd)). destruct (R1 sid Hn) as (X1 & X2 & X3 & X4).
  repeat split; [exists sd; rewrite X1; auto | congruence | exists c; rewrite X3; auto | exists d; rewrite X4; auto].
Qed.
Lemma lives_rest1 : forall g g' sid ls xs, rest [(sid, [])] g g' -> ~ In sid (map fst ls) -> lives g ls xs -> lives g' ls xs.
Proof.
  intros g g' sid ls xs R Hn H. induction H as [|e x ls xs L H IH]; constructor.
  - apply (live_rest g g' [(sid, [])]); auto. cbn [map fst In] in Hn |- *. intros [E | []]. apply Hn. now left.
  - apply IH. cbn [map In] in Hn. tauto.
Qed.

Definition evenx (ls : labmap) (t e : nat) (xs : list st) : Prop := Forall2 (fun l x => even (length (snd l)) t e (x_av x)) ls xs.
Definition labelled (ls : labmap) : Prop := NoDup (map fst ls) /\ forall x, In x ls -> snd x <> [].
Lemma labelled_cons : forall x ls, labelled (x :: ls) -> ~ In (fst x) (map fst ls) /\ labelled ls /\ (0 < length (snd x))%nat.
Proof.
  intros x ls (H1 & H2). cbn [map] in H1. inversion H1; subst. repeat split; auto.
  - intros y Hy. apply H2. now right.
  - specialize (H2 x (or_introl eq_refl)). destruct (snd x); [congruence | cbn; lia].
Qed.

Lemma encode_all_idle : forall ls dm g ts more xs e, labelled ls -> lives g ls xs -> evenx ls 0 e xs ->
  encode_all code n ls dm (g, ts, more) = Ok (g, ts, more).
Proof.
  induction ls as [|(sid, labs) ls IH]; intros dm g ts more xs e Hl H HE; [reflexivity|].
  inversion H as [|? x ? xs0 L H']; subst. inversion HE as [|? ? ? ? E0 HE']; subst. destruct (labelled_cons _ _ Hl) as (A1 & A2 & A3). cbn [fst snd] in *.
  cbn [encode_all]. rewrite (encode_one_idle sid dm g ts more x _ e L E0 A3). cbn [rbind]. now apply (IH dm g ts more xs0 e).
Qed.
Lemma encode_all_wait : forall ls dm g more r xs t e, labelled ls -> lives g ls xs -> evenx ls t e xs -> (0 < t)%nat -> Z.of_nat e < n ->
  encode_all code n ls dm (g, None, more) = Ok r -> r = (g, None, match ls with [] => more | _ => true end).
Proof.
  induction ls as [|(sid, labs) ls IH]; intros dm g more r xs t e Hl H HE Ht He R; [now injection R as <-|].
  inversion H as [|? x ? xs0 L H']; subst. inversion HE as [|? ? ? ? E0 HE']; subst. destruct (labelled_cons _ _ Hl) as (A1 & A2 & A3). cbn [fst snd] in *.
  cbn [encode_all] in R. rb R q Eq1. destruct (encode_one_wait sid dm g None more q x _ t e L E0 A3 Ht He Eq1) as (-> & _).
  rewrite (IH dm g true r xs0 t e A2 H' HE' Ht He R). now destruct ls.
Qed.
(* every substream of the element emits a frame *)
Definition emitted (ls : labmap) (dm : option dmix) (xs xs' : list st) : Prop :=
  length xs' = length xs /\ Forall2 (fun l p => exists f, made (fst l) dm (fst p) f /\ snd p = emit f (fst p)) ls (combine xs xs').
Lemma encode_all_ok : forall ls dm g ts more r xs t e, labelled ls -> lives g ls xs -> evenx ls t e xs -> (nn <= t)%nat -> (nn <= e)%nat ->
  encode_all code n ls dm (g, ts, more) = Ok r ->
  exists g' ts' more' xs', r = (g', ts', more') /\ lives g' ls xs' /\ emitted ls dm xs xs' /\ rest ls g g' /\ g_pm g' = g_pm g /\ g_trims g' = g_trims g /\
    evenx ls (t - nn) (e - nn) xs' /\ (ls <> [] -> exists x, In x xs /\ ts' = Some (x_clk x)) /\ (ls = [] -> ts' = ts).
Proof.
  induction ls as [|(sid, labs) ls IH]; intros dm g ts more r xs t e Hl H HE Ht He R.
  - injection R as <-. inversion H; subst. exists g, ts, more, []. repeat split; auto using rest_refl; try constructor. congruence.
  - inversion H as [|? x ? xs0 L H']; subst. inversion HE as [|? ? ? ? E0 HE']; subst. destruct (labelled_cons _ _ Hl) as (A1 & A2 & A3). cbn [fst snd] in *.
    cbn [encode_all] in R. rb R q Eq1. destruct (encode_one_ok sid dm g ts more q x _ t e L E0 A3 Ht He Eq1) as (g1 & f & -> & M & L1 & R1 & P1 & T1 & E1).
    destruct (IH dm g1 (Some (x_clk x)) true r xs0 t e A2) as (g' & ts' & more' & xs' & -> & Q1 & (Q2a & Q2) & Q3 & Q4 & Q5 & Q6 & Q7 & Q8); auto.
    { eapply lives_rest1; eassumption. }
    assert (RR : rest ((sid, labs) :: ls) g g').
    { apply (rest_trans _ g g1 g').
      - destruct R1 as (Ra & Rb). split; [|exact Rb]. intros j Hj. apply Ra. cbn [map fst In] in Hj |- *. tauto.
      - destruct Q3 as (Ra & Rb). split; [|exact Rb]. intros j Hj. apply Ra. cbn [map fst In] in Hj. tauto. }
    exists g', ts', more', (emit f x :: xs'). split; [reflexivity|]. split; [|split; [split|split; [exact RR|split; [|split; [|split; [|split]]]]]].
    + constructor; [|exact Q1]. cbn [fst]. exact (live_rest g1 g' ls sid _ Q3 A1 L1).
    + cbn [length]. lia.
    + cbn [combine]. constructor; [|exact Q2]. exists f. auto.
    + congruence.
    + congruence.
    + constructor; [exact E1 | exact Q6].
    + intros _. destruct ls as [|l0 ls0].
      * rewrite Q8 by reflexivity. exists x. split; [now left | reflexivity].
      * destruct (Q7 ltac:(discriminate)) as (y & Y1 & Y2). exists y. split; [now right | exact Y2].
    + discriminate.
Qed.
(* ----- the samples all have the same length ----- *)
Definition all_len (k : nat) (m : smap) : Prop := Forall (fun e => length (snd e) = k) m.
Lemma all_len_find : forall k m l s, all_len k m -> sm_find l m = Some s -> length s = k.
Proof.
  induction m as [|(i, v) m IH]; intros l s H F; cbn [sm_find] in F; [discriminate|]. inversion H; subst.
  destruct (lkey_eq_dec i l); [now injection F as <- | eauto].
Qed.
Lemma all_len_set : forall k m l s, all_len k m -> length s = k -> all_len k (sm_set l s m).
Proof.
  induction m as [|(i, v) m IH]; intros l s H F; cbn [sm_set]; [constructor; auto; constructor|]. inversion H; subst.
  destruct (lkey_eq_dec i l); constructor; auto. apply IH; auto.
Qed.
Lemma get_all_len : forall k m ls r, all_len k m -> get_all ls m = Ok r -> Forall (fun s => length s = k) r.
Proof.
  induction ls as [|l ls IH]; intros r H F; cbn [get_all] in F; [injection F as <-; constructor|].
  destruct (sm_find (Orig l) m) as [s|] eqn:E; [|discriminate]. rb F q Eq0. injection F as <-. constructor; eauto using all_len_find.
Qed.
Lemma zip2_len : forall (f : T -> T -> T) x y k, length x = k -> length y = k -> length (zip2 f x y) = k.
Proof. intros. unfold zip2. rewrite map_length, combine_length. lia. Qed.
Lemma run_downmixer_len : forall k p d m m', all_len k m -> run_downmixer A p d m = Ok m' -> all_len k m'.
Proof.
  intros k p d m m' H R. unfold run_downmixer, take in R.
  destruct d; rb R r Er; rb Er q Eq0; rb Er u Eu; injection Er as <-; pose proof (get_all_len k m _ _ H Eq0) as L;
    repeat (destruct q as [|? q]; try discriminate R); injection R as <-;
    repeat match goal with Hf : Forall _ (_ :: _) |- _ => inversion Hf; clear Hf; subst end;
    repeat apply all_len_set; auto; apply zip2_len; auto; congruence.
Qed.
Lemma run_downmixers_len : forall k p l m m', all_len k m -> run_downmixers A p l m = Ok m' -> all_len k m'.
Proof. induction l as [|d l IH]; intros m m' H R; cbn [run_downmixers] in R; [now injection R as <-|]. rb R q Eq0. eauto using run_downmixer_len. Qed.
Lemma rmap_len : forall {X Y} (f : X -> res Y) l r, rmap f l = Ok r -> length r = length l.
Proof. induction l as [|x l IH]; intros r H; cbn [rmap] in H; [now injection H as <-|]. rb H y Ey. rb H q Eq0. injection H as <-. cbn [length]. f_equal. eauto. Qed.
Lemma channel_out_len : forall gains k m l r, all_len k m -> channel_out A lin quant gains m l = Ok r -> length (fst r) = k /\ length (snd r) = k.
Proof.
  intros gains k m l r H R. unfold channel_out in R. destruct (sm_find (Orig l) m) as [s|] eqn:E; [|discriminate]. rb R q Eq0. injection R as <-. cbn [fst snd].
  pose proof (all_len_find _ _ _ _ H E). split; [assumption|]. rewrite (rmap_len _ _ _ Eq0). assumption.
Qed.
Lemma channels_len : forall gains k m ls rs, all_len k m -> rmap (channel_out A lin quant gains m) ls = Ok rs ->
  length rs = length ls /\ Forall (fun c => length c = k) (map fst rs) /\ Forall (fun c => length c = k) (map snd rs).
Proof.
  intros gains k m. induction ls as [|l ls IH]; intros rs H R; cbn [rmap] in R; [injection R as <-; cbn; auto|]. rb R y Ey. rb R q Eq0. injection R as <-.
  destruct (IH q H eq_refl) as (I1 & I2 & I3). destruct (channel_out_len gains k m l y H Ey). cbn [length map]. auto.
Qed.

(* ----- the parameters do not change between two look-ups ----- *)
Lemma get_down_mixing_again : forall m id p m', get_down_mixing m id = (Ok p, m') -> fst (get_down_mixing m' id) = Ok p.
Proof.
  intros m id p m' H. unfold get_down_mixing in H. destruct (m_find id (pm_ds m)) as [s|] eqn:F.
  2: { injection H as <- <-. unfold get_down_mixing. now rewrite F. }
  destruct (m_find (ds_pid s) (pm_db m)) as [[b|]|] eqn:Fb.
  2: { injection H as H <-. unfold get_down_mixing. now rewrite F, Fb. }
  2: discriminate.
  destruct (compare_timestamps (ds_next s) (p_start b)) eqn:C; try discriminate.
  destruct (p_subs b) as [|[[]|] ?] eqn:S0; try discriminate.
  destruct (mode_to_params _ (ds_prev s) (ds_rule s)) eqn:M; try discriminate. injection H as <- <-.
  unfold get_down_mixing. cbn [pm_ds pm_db]. rewrite m_find_set by congruence. rewrite Z.eqb_refl. cbn [ds_pid ds_next ds_prev ds_rule]. now rewrite Fb, C, S0, M.
Qed.

(* ----- between the two descriptions of the queues ----- *)
Lemma lives_split : forall (g : gen) ls xs, lives g ls xs <->
  reprs (g_subs g) ls (map x_av xs) /\ rtr (g_trims g) ls (map x_tr xs) /\
  Forall2 (fun e x => (exists c, m_find (fst e) (g_coders g) = Some c /\ c_queue c = x_q x /\ c_done c = false) /\
                      (exists d, m_find (fst e) (g_audio (g_clock g)) = Some d /\ td_stamp d = x_clk x)) ls xs.
Proof.
  intros g ls xs. split.
  - intro H. induction H as [|e x ls xs (L1 & L2 & L3 & L4) H (I1 & I2 & I3)]; cbn [map]; [repeat split; constructor|]. repeat split; constructor; auto.
  - revert xs. induction ls as [|e ls IH]; intros [|x xs] (H1 & H2 & H3); inversion H3; subst; [constructor|]. cbn [map] in H1, H2. inversion H1; inversion H2; subst.
    constructor; [|apply IH; auto]. red. tauto.
Qed.
Definition mixed (el : elem) (p : dmix) (m : smap) (labs : list label) (rs : list (list T * list Z)) : Prop :=
  exists m', run_downmixers A (params_of A p) (el_down el) m = Ok m' /\ rmap (channel_out A lin quant (el_gains el) m') labs = Ok rs.
Definition fill (none : bool) (t e : nat) (rs : list (list T * list Z)) (x : st) : st :=
  mkSt (fill_enc none (fill_len (Z.of_nat t) (Z.of_nat e)) (fill_obu (Z.of_nat t) (fed rs (x_av x)))) (fill_tr (Z.of_nat t) (x_tr x)) (x_q x) (x_clk x).
Definition enough (t : nat) (tr : trims) : Prop := Z.of_nat t < n -> tr_inc tr = false -> n - Z.of_nat t <= tr_end tr.

Lemma next_ok : forall id el m g dm g' dm' xs t e k,
  el_n el = n -> labelled (el_subs el) -> el_subs el <> [] -> lives g (el_subs el) xs -> evenx (el_subs el) t e xs -> Forall (fun x => tr_ok (x_tr x)) xs ->
  all_len k m -> m <> [] -> (0 < t + k)%nat -> next_frame A lin quant id el m g dm = Ok (g', dm') ->
  exists p xs', dm' = Some p /\ get_down_mixing (g_pm g) id = (Ok p, g_pm g') /\ lives g' (el_subs el) xs' /\
    all3 (fun l x x' => exists rs, mixed el p m (snd l) rs /\ x' = fill (Nat.eqb k 0) (t + k) (e + k) rs x /\ enough (t + k) (x_tr x)) (el_subs el) xs xs' /\
    g_clock g' = g_clock g /\ g_coders g' = g_coders g /\ rest (el_subs el) g g'.
Proof.
  intros id el m g dm g' dm' xs t e k Hn HL HN H HE HT Hk Hm Htk R. unfold next_frame in R. cbv zeta in R.
  assert (Nk : forallb (fun e => nil (snd e)) m = Nat.eqb k 0).
  { clear R. destruct m as [|(i, v) m]; [congruence|]. clear Hm. unfold all_len in Hk. destruct k.
    - cbn [Nat.eqb]. apply forallb_forall. intros x Hx. rewrite Forall_forall in Hk. specialize (Hk x Hx). now destruct (snd x).
    - inversion Hk; subst. cbn [forallb snd]. cbn [snd] in *. destruct v; [discriminate|]. reflexivity. }
  rewrite Nk in R. destruct (Nat.eqb k 0 && forallb (fun e => sf_empty (s_obu (snd e))) (g_subs g)) eqn:Sk.
  { exfalso. apply andb_prop in Sk. destruct Sk as (S1 & S2). apply Nat.eqb_eq in S1. subst k.
    destruct (el_subs el) as [|(sid, labs) ls]; [congruence|]. inversion H as [|? x ? ? L _]; subst. inversion HE as [|? ? ? ? E0 _]; subst. cbn [fst snd] in *.
    destruct (labelled_cons _ _ HL) as (_ & _ & A3). cbn [snd] in A3. pose proof L as ((sd & F & _) & _).
    pose proof (empty_even g sid x _ t e L E0 A3 sd F) as Q. rewrite forallb_forall in S2. specialize (S2 _ (m_find_In _ _ _ F)). cbn [snd] in S2. rewrite Q in S2.
    apply Nat.eqb_eq in S2. lia. }
  destruct (get_down_mixing (g_pm g) id) as (r, pm') eqn:G. rb R p Ep. rb R subs Em. rb R q Eq0. destruct q as (subs', trs'). injection R as <- <-.
  unfold mix_in in Em. rb Em m' Ed. rewrite Hn in Eq0.
  pose proof (run_downmixers_len k _ _ _ _ Hk Ed) as Hk'.
  destruct (proj1 (lives_split g (el_subs el) xs) H) as (H1 & H2 & H3). destruct HL as (HL1 & HL2).
  destruct (feed_subs_ok (el_gains el) m' (el_subs el) (g_subs g) subs (map x_av xs) HL1 H1) as (l' & Q1 & Q2 & Q3 & Q4 & Q5); auto.
  { clear -HE. induction HE as [|l x ls xs (E1 & E2 & _) HE IH]; cbn [map]; constructor; auto. }
  assert (F3 : all3 (fun l x a' => exists rs : list (list T * list Z), rmap (channel_out A lin quant (el_gains el) m') (snd l) = Ok rs /\ a' = fed rs (x_av x)) (el_subs el) xs l').
  { clear -Q1 Q3. unfold fed_all in Q3. revert l' Q1 Q3. generalize (el_subs el) as ls. induction xs as [|x xs IH]; intros ls [|a l'] Q1 Q3; cbn [map length] in Q1; try discriminate; cbn [map combine] in Q3; inversion Q3 as [|? ? ? ? (rs & R1 & R2 & R3) Q3']; subst; constructor.
    - exists rs. auto.
    - apply IH; auto. }
  assert (EV : evens (el_subs el) (t + k) (e + k) l').
  { clear -HE F3 Hk'. revert l' F3. induction HE as [|l x ls xs (E1 & E2 & E3 & E4) HE IH]; intros l' F3; inversion F3 as [|? ? ? ? ? ? (rs & R1 & ->) F3']; subst; constructor.
    - destruct (channels_len _ k m' _ _ Hk' R1) as (C1 & C2 & C3).
      
      assert (M1 : @length (list T) (map fst rs) = length (snd l)) by (rewrite <- C1; apply map_length).
      assert (M2 : @length (list Z) (map snd rs) = length (snd l)) by (rewrite <- C1; apply map_length).
      assert (M3 : length (a_obu (x_av x)) = @length (list T) (map fst rs)) by (rewrite M1; exact E1).
      assert (M4 : length (a_enc (x_av x)) = @length (list Z) (map snd rs)) by (rewrite M2; exact E2). repeat split; unfold fed; cbn [a_obu a_enc].
      + eapply eq_trans; [exact (zipapp_length _ _ M3) | exact E1].
      + eapply eq_trans; [exact (zipapp_length _ _ M4) | exact E2].
      + exact (zipapp_even _ _ t k M3 E3 C2).
      + exact (zipapp_even _ _ e k M4 E4 C3).
    - now apply IH. }
  destruct (pad_subs_ok (Nat.eqb k 0) (el_subs el) subs (g_trims g) subs' trs' l' (map x_tr xs) (t + k) (e + k) HL1 HL2 Q2 EV H2) as (P1 & P2 & P3 & P4 & P5 & P6); auto.
  { now apply Forall_map. }
  set (up := fun a => fill_enc (Nat.eqb k 0) (fill_len (Z.of_nat (t + k)) (Z.of_nat (e + k))) (fill_obu (Z.of_nat (t + k)) a)) in *.
  exists p. set (mk := fun (x : st) (a : av) => mkSt (up a) (fill_tr (Z.of_nat (t + k)) (x_tr x)) (x_q x) (x_clk x)).
  exists (map (fun q => mk (fst q) (snd q)) (combine xs l')).
  split; [reflexivity|]. split; [reflexivity|]. split; [|split; [|split; [reflexivity|split; [reflexivity|]]]].
  - apply lives_split. cbn [g_subs g_trims g_coders g_clock].
    assert (LL : length l' = length xs) by (rewrite Q1; apply map_length).
    assert (M1 : map x_av (map (fun q => mk (fst q) (snd q)) (combine xs l')) = map up l').
    { clear -LL. revert l' LL. induction xs as [|x xs IH]; intros [|a l'] LL; cbn in LL; try discriminate; [reflexivity|]. cbn [combine map fst snd]. f_equal. apply IH. lia. }
    assert (M2 : map x_tr (map (fun q => mk (fst q) (snd q)) (combine xs l')) = map (fill_tr (Z.of_nat (t + k))) (map x_tr xs)).
    { clear -LL. revert l' LL. induction xs as [|x xs IH]; intros [|a l'] LL; cbn in LL; try discriminate; [reflexivity|]. cbn [combine map fst snd]. f_equal. apply IH. lia. }
    rewrite M1, M2. repeat split; auto.
    clear -H3 LL. revert l' LL. induction H3 as [|l x ls xs H3 H4 IH]; intros [|a l'] LL; cbn in LL; try discriminate; cbn [combine map fst snd]; constructor; auto.
  - assert (EN : Forall (fun x => enough (t + k) (x_tr x)) xs).
    { apply Forall_forall. intros x Hx Hlt Hi. specialize (P6 Hlt). rewrite Forall_forall in P6. apply (P6 (x_tr x)); auto. now apply in_map. }
    clear -F3 EN Ed. induction F3 as [|l x a ls xs l' (rs & R1 & ->) F3 IH]; cbn [combine map fst snd]; [constructor|].
    inversion EN; subst. constructor; [|now apply IH]. exists rs. split; [exists m'; auto|]. split; [reflexivity | assumption].
  - split.
    + intros j Hj. cbn [g_subs g_trims g_coders g_clock]. destruct (P3 j Hj) as (X1 & X2). rewrite X1, X2. rewrite Q4 by exact Hj. auto.
    + cbn [g_subs g_trims g_coders g_stage g_in]. repeat split; congruence.
Qed.
(* ----- a call leaves the substreams of the other elements alone ----- *)
Lemma m_find_set_other : forall {V} (m : list (Z * V)) k j v, k <> j -> m_find j (Timing.m_set k v m) = m_find j m.
Proof.
  induction m as [|(i, x) m IH]; intros k j v H; cbn [Timing.m_set]; [reflexivity|]. destruct (Z.eqb_spec i k); cbn [m_find].
  - subst. destruct (Z.eqb_spec k j); [congruence | reflexivity].
  - destruct (i =? j); auto.
Qed.
Definition beside (id : Z) (ls : labmap) (g g' : gen) : Prop :=
  (forall j, ~ In j (map fst ls) -> m_find j (g_subs g') = m_find j (g_subs g) /\ m_find j (g_trims g') = m_find j (g_trims g) /\
     m_find j (g_coders g') = m_find j (g_coders g) /\ m_find j (g_audio (g_clock g')) = m_find j (g_audio (g_clock g))) /\
  map fst (g_subs g') = map fst (g_subs g) /\ map fst (g_coders g') = map fst (g_coders g) /\ map fst (g_trims g') = map fst (g_trims g) /\
  g_stage g' = g_stage g /\ (forall j, j <> id -> in_of j g' = in_of j g).
Lemma beside_refl : forall id ls g, beside id ls g g.
Proof. intros. repeat split; auto. Qed.
Lemma beside_trans : forall id ls a b c, beside id ls a b -> beside id ls b c -> beside id ls a c.
Proof.
  intros id ls a b c (A1 & A2 & A3 & A4 & A5 & A6) (B1 & B2 & B3 & B4 & B5 & B6). split; [|repeat split; try congruence].
  - intros j H. destruct (A1 j H) as (X1 & X2 & X3 & X4); destruct (B1 j H) as (Y1 & Y2 & Y3 & Y4); repeat split; congruence.
  - intros j H. rewrite B6, A6 by assumption. reflexivity.
Qed.
Lemma feed_subs_other : forall gains m ls subs subs', feed_subs A lin quant gains m ls subs = Ok subs' ->
  (forall j, ~ In j (map fst ls) -> m_find j subs' = m_find j subs) /\ map fst subs' = map fst subs.
Proof.
  intros gains m. induction ls as [|(sid, labs) ls IH]; intros subs subs' H; cbn [feed_subs] in H; [injection H as <-; auto|].
  destruct (m_find sid subs) as [sd|]; [|discriminate]. rb H sd' E. destruct (IH _ _ H) as (I1 & I2). split.
  - intros j Hj. cbn [map fst In] in Hj. rewrite I1 by tauto. apply m_find_set_other. tauto.
  - rewrite I2. apply m_set_keys.
Qed.
Lemma pad_subs_other : forall none k ls subs trs subs' trs', pad_subs A k none ls subs trs = Ok (subs', trs') ->
  (forall j, ~ In j (map fst ls) -> m_find j subs' = m_find j subs /\ m_find j trs' = m_find j trs) /\ map fst subs' = map fst subs /\ map fst trs' = map fst trs.
Proof.
  intros none k. induction ls as [|(sid, labs) ls IH]; intros subs trs subs' trs' H; cbn [pad_subs] in H; [injection H as <- <-; auto|].
  destruct (m_find sid subs) as [sd|]; [|discriminate]. destruct (m_find sid trs) as [tr|]; [|discriminate]. rb H r E. destruct (IH _ _ _ _ H) as (I1 & I2 & I3). split; [|split].
  - intros j Hj. cbn [map fst In] in Hj. destruct (I1 j ltac:(tauto)) as (X1 & X2). rewrite X1, X2. split; apply m_find_set_other; tauto.
  - rewrite I2. apply m_set_keys.
  - rewrite I3. apply m_set_keys.
Qed.
Lemma next_beside : forall id el m g dm g' dm', next_frame A lin quant id el m g dm = Ok (g', dm') -> beside id (el_subs el) g g' /\ g_in g' = g_in g.
Proof.
  intros id el m g dm g' dm' R. unfold next_frame in R. cbv zeta in R. destruct (_ && _); [injection R as <- <-; split; [apply beside_refl | reflexivity]|].
  destruct (get_down_mixing (g_pm g) id) as (r, pm'). rb R p Ep. rb R subs Em. rb R q Eq0. destruct q as (subs', trs'). injection R as <- <-.
  unfold mix_in in Em. rb Em m' Ed. destruct (feed_subs_other _ _ _ _ _ Em) as (F1 & F2). destruct (pad_subs_other _ _ _ _ _ _ _ Eq0) as (P1 & P2 & P3).
  split; [|reflexivity]. split; [|cbn [g_subs g_coders g_trims g_stage fst snd]; repeat split; congruence].
  intros j Hj. cbn [g_subs g_trims g_coders g_clock fst snd]. destruct (P1 j Hj) as (X1 & X2). rewrite X1, X2, F1 by exact Hj. auto.
Qed.
Lemma encode_all_beside : forall id k ls dm st st', encode_all code k ls dm st = Ok st' -> beside id ls (fst (fst st)) (fst (fst st')) /\ g_in (fst (fst st')) = g_in (fst (fst st)).
Proof.
  intros id k. induction ls as [|(sid, labs) ls IH]; intros dm st1 st' H; cbn [encode_all] in H; [injection H as <-; split; [apply beside_refl | reflexivity]|].
  rb H st2 E. destruct (IH _ _ _ H) as ((I1 & I2 & I3 & I4 & I5 & I6) & I7).
  assert (Q : beside id [(sid, labs)] (fst (fst st1)) (fst (fst st2)) /\ g_in (fst (fst st2)) = g_in (fst (fst st1))).
  { clear -E. destruct st1 as ((g, ts), more). unfold encode_one in E. destruct (m_find sid (g_subs g)) as [sd|].
    2: { destruct more; [discriminate|]. injection E as <-. split; [apply beside_refl | reflexivity]. }
    destruct (sf_empty (s_obu sd)); [injection E as <-; split; [apply beside_refl | reflexivity]|].
    rb E h Eh. destruct (h <? k). { destruct ts; [discriminate|]. injection E as <-. split; [apply beside_refl | reflexivity]. }
    cbv zeta in E. unfold next_audio, get_timestamps in E. destruct (m_find sid (g_audio (g_clock g))) as [d|] eqn:Fd; [|discriminate].
    unfold rthen at 1 in E. cbn [rbind] in E. rs E Et. destruct (m_find sid (g_coders g)) as [c|]; [|discriminate]. rb E c' Ec. injection E as <-.
    cbn [fst]. split; [|reflexivity]. split; [|cbn [g_subs g_coders g_trims g_stage g_in]; repeat split; auto; apply m_set_keys].
    intros j Hj. cbn [map In fst] in Hj. cbn [g_subs g_coders g_trims g_clock g_audio]. rewrite !m_find_set_other by tauto. auto. }
  destruct Q as ((Q1 & Q2 & Q3 & Q4 & Q5 & Q6) & Q7). split; [|congruence]. split; [|repeat split; try congruence].
  - intros j Hj. cbn [map In fst] in Hj. destruct (I1 j ltac:(tauto)) as (X1 & X2 & X3 & X4). destruct (Q1 j) as (Y1 & Y2 & Y3 & Y4); [cbn [map In fst]; tauto|]. repeat split; congruence.
  - intros j Hj. rewrite I6, Q6 by assumption. reflexivity.
Qed.
Lemma loop_beside : forall fuel id el m dm g g' ts, encode_loop A lin quant code fuel id el m dm g = Ok (g', ts) -> beside id (el_subs el) g g' /\ g_in g' = g_in g.
Proof.
  induction fuel as [|f IH]; intros id el m dm g g' ts H; cbn [encode_loop] in H; [discriminate|]. rb H r E. destruct r as (g1, dm1). rb H s Es. destruct s as ((g2, ts2), more).
  destruct (next_beside _ _ _ _ _ _ _ E) as (N1 & N2). destruct (encode_all_beside id _ _ _ _ _ Es) as (M1 & M2). cbn [fst snd] in *.
  assert (B : beside id (el_subs el) g g2 /\ g_in g2 = g_in g) by (split; [eapply beside_trans; eassumption | congruence]).
  destruct ts2 as [t|]; [injection H as <- <-; exact B|]. destruct more; [|injection H as <- <-; exact B].
  destruct (IH _ _ _ _ _ _ _ H) as (I1 & I2). destruct B as (B1 & B2). split; [eapply beside_trans; eassumption | congruence].
Qed.
Lemma m_find_put : forall {V} (m : list (Z * V)) k j v, m_find j (m_put k v m) = if k =? j then Some v else m_find j m.
Proof.
  intros V m k j v. unfold m_put. destruct (m_find k m) as [w|] eqn:F.
  - apply m_find_set. congruence.
  - rewrite m_find_app. cbn [m_find]. destruct (Z.eqb_spec k j); [subst; now rewrite F|]. now destruct (m_find j m).
Qed.
Lemma in_of_set : forall id j m (g : gen), in_of j (set_in id m g) = if id =? j then m else in_of j g.
Proof. intros. unfold in_of, set_in. cbn [g_in]. rewrite m_find_put. destruct (id =? j); reflexivity. Qed.
Lemma set_in_beside : forall id ls m (g : gen), beside id ls g (set_in id m g).
Proof. intros. repeat split. intros j Hj. rewrite in_of_set. destruct (Z.eqb_spec id j); congruence. Qed.
Lemma maybe_beside : forall id el labels g g', maybe_encode A lin quant code id el labels g = Ok g' -> beside id (el_subs el) g g'.
Proof.
  intros id el labels g g' H. unfold maybe_encode in H. destruct (ready _ _ _); cbn [negb] in H; [|injection H as <-; apply beside_refl].
  destruct (_ =? _); cbn [negb] in H; [|discriminate]. rb H r E. destruct r as (g1, ts). cbn [fst snd] in H. destruct (loop_beside _ _ _ _ _ _ _ _ E) as (L1 & L2).
  assert (B : beside id (el_subs el) g (set_in id (emptied (in_of id g)) g1)) by (eapply beside_trans; [exact L1 | apply set_in_beside]).
  destruct ts as [t|]; [|injection H as <-; exact B]. destruct (update_demixing _ _ _) as (q, pm'). rs H Eq0. injection H as <-.
  exact B.
Qed.

(* ----- one round: a frame of every substream ----- *)
Definition feeding (el : elem) (p : dmix) (m : smap) (t e : nat) (l : Z * list label) (x x' : st) : Prop :=
  exists (rs : list (list T * list Z)) (f : oframe), mixed el p m (snd l) rs /\ made (fst l) (Some p) (fill true t e rs x) f /\ x' = emit f (fill true t e rs x) /\ enough t (x_tr x).
Definition len_after (e : nat) : nat := (Nat.max e nn - nn)%nat.
Lemma fill_enc_even : forall (none : bool) k t e a, even k t e a -> even k t (if none then Nat.max e nn else e) (fill_enc none (Z.of_nat e) a).
Proof.
  intros none k t e a (L1 & L2 & F1 & F2). unfold fill_enc. destruct none; cbn [andb]; [|repeat split; auto].
  destruct (Z.ltb_spec (Z.of_nat e) n).
  - repeat split; cbn [a_obu a_enc]; auto; [unfold zeros; now rewrite map_length|].
    apply (zeros_even 0 (n - Z.of_nat e)) in F2. eapply Forall_impl; [|exact F2]. intros c Hc. cbv beta in *. lia.
  - repeat split; auto. eapply Forall_impl; [|exact F2]. intros c Hc. cbv beta in *. lia.
Qed.
Definition elen (t e : nat) : nat := Z.to_nat (fill_len (Z.of_nat t) (Z.of_nat e)).
Lemma elen_id : forall t e, Z.of_nat (elen t e) = fill_len (Z.of_nat t) (Z.of_nat e).
Proof. intros. unfold elen. rewrite Z2Nat.id; [reflexivity|]. unfold fill_len. destruct (Z.ltb_spec (Z.of_nat t) n); lia. Qed.
Lemma fill_even : forall (none : bool) k t e rs x, even k t e (fed rs (x_av x)) -> even k (Nat.max t nn) (if none then Nat.max (elen t e) nn else elen t e) (x_av (fill none t e rs x)).
Proof. intros none k t e rs x H. unfold fill. cbn [x_av]. rewrite <- elen_id. apply fill_enc_even. now apply fill_obu_even. Qed.
Lemma mixed_even : forall el p m labs rs k t e a, all_len k m -> mixed el p m labs rs -> even (length labs) t e a -> even (length labs) (t + k) (e + k) (fed rs a).
Proof.
  intros el p m labs rs k t e a Hk (m' & R1 & R2) (E1 & E2 & E3 & E4). pose proof (run_downmixers_len k _ _ _ _ Hk R1) as Hk'.
  destruct (channels_len _ k m' _ _ Hk' R2) as (C1 & C2 & C3).
  assert (M1 : @length (list T) (map fst rs) = length labs) by (rewrite <- C1; apply map_length).
  assert (M2 : @length (list Z) (map snd rs) = length labs) by (rewrite <- C1; apply map_length).
  assert (M3 : length (a_obu a) = @length (list T) (map fst rs)) by (rewrite M1; exact E1).
  assert (M4 : length (a_enc a) = @length (list Z) (map snd rs)) by (rewrite M2; exact E2). repeat split; unfold fed; cbn [a_obu a_enc].
  - eapply eq_trans; [exact (zipapp_length _ _ M3) | exact E1].
  - eapply eq_trans; [exact (zipapp_length _ _ M4) | exact E2].
  - exact (zipapp_even _ _ t k M3 E3 C2).
  - exact (zipapp_even _ _ e k M4 E4 C3).
Qed.
(* samples of length 0 add nothing *)
Lemma mixed_nothing : forall el p m labs rs t e a, all_len 0 m -> mixed el p m labs rs -> even (length labs) t e a -> fed rs a = a.
Proof.
  intros el p m labs rs t e a Hk (m' & R1 & R2) (E1 & E2 & E3 & E4). pose proof (run_downmixers_len 0 _ _ _ _ Hk R1) as Hk'.
  destruct (channels_len _ 0 m' _ _ Hk' R2) as (C1 & C2 & C3). unfold fed.
  assert (N : forall X (l : list (list X)), Forall (fun c => length c = O) l -> Forall (fun c => c = []) l).
  { intros X l H. eapply Forall_impl; [|exact H]. intros c Hc. cbv beta in Hc. now destruct c. }
  rewrite !zipapp_nil_r; [now destruct a | | now apply N | | now apply N].
  - transitivity (length labs); [exact E2|]. rewrite <- C1. symmetry. apply map_length.
  - transitivity (length labs); [exact E1|]. rewrite <- C1. symmetry. apply map_length.
Qed.
Lemma emptied_len : forall m, all_len 0 (emptied m).
Proof. intros. unfold all_len, emptied. apply Forall_map. apply Forall_forall. reflexivity. Qed.
Lemma fill_twice : forall rs0 rs t e x, (forall a, a = x_av (fill false t e rs x) -> fed rs0 a = a) -> fill true (Nat.max t nn + 0) (elen t e + 0) rs0 (fill false t e rs x) = fill true t e rs x.
Proof.
  intros rs0 rs t e x H. rewrite !Nat.add_0_r. unfold fill at 1. rewrite (H _ eq_refl). unfold fill. cbn [x_av x_tr x_q x_clk].
  assert (C1 : Z.of_nat (Nat.max t nn) <? n = false) by (apply Z.ltb_ge; lia).
  assert (G1 : forall a, fill_obu (Z.of_nat (Nat.max t nn)) a = a) by (intro a; unfold fill_obu; now rewrite C1).
  assert (G2 : forall tr, fill_tr (Z.of_nat (Nat.max t nn)) tr = tr) by (intro a; unfold fill_tr; now rewrite C1).
  assert (G3 : fill_len (Z.of_nat (Nat.max t nn)) (Z.of_nat (elen t e)) = fill_len (Z.of_nat t) (Z.of_nat e)) by (unfold fill_len at 1; rewrite C1; apply elen_id).
  rewrite G1, G2, G3. reflexivity.
Qed.
Lemma fill_full : forall rs t e x, (nn <= elen t e)%nat -> fill false t e rs x = fill true t e rs x.
Proof.
  intros rs t e x H. unfold fill. f_equal. unfold fill_enc. cbn [andb]. rewrite <- elen_id. destruct (Z.ltb_spec (Z.of_nat (elen t e)) n); [lia | reflexivity].
Qed.
Definition tr_room (tr : trims) : Prop := 0 <= tr_end tr /\ tr_end tr + 2 * n < 2 ^ 32.
Lemma round_ok : forall id el labels g g' xs t e k,
  el_n el = n -> labelled (el_subs el) -> el_subs el <> [] -> lives g (el_subs el) xs -> evenx (el_subs el) t e xs -> Forall (fun x => tr_room (x_tr x)) xs ->
  all_len k (in_of id g) -> in_of id g <> [] -> (0 < t + k)%nat -> ready None (in_of id g) labels = true ->
  maybe_encode A lin quant code id el labels g = Ok g' ->
  exists p xs', lives g' (el_subs el) xs' /\ all3 (feeding el p (in_of id g) (t + k) (e + k)) (el_subs el) xs xs' /\
    evenx (el_subs el) (len_after (t + k)) (len_after (elen (t + k) (e + k))) xs' /\ in_of id g' = emptied (in_of id g).
Proof.
  intros id el labels g g' xs t e k Hn HL HN H HE HT Hk Hm Htk Hr R. unfold maybe_encode in R. rewrite Hr in R. cbn [negb] in R.
  destruct (el_in el =? el_out el); cbn [negb] in R; [|discriminate]. rb R r Er. destruct r as (g1, ts). cbn [fst snd] in R.
  assert (Q : exists p xs', lives g1 (el_subs el) xs' /\ all3 (feeding el p (in_of id g) (t + k) (e + k)) (el_subs el) xs xs' /\
    evenx (el_subs el) (len_after (t + k)) (len_after (elen (t + k) (e + k))) xs').
  2: { destruct Q as (p & xs' & Q1 & Q2 & Q3). exists p, xs'. destruct ts as [tt'|].
       - destruct (update_demixing _ _ _) as (q, pm'). rs R Eq0. injection R as <-. repeat split; auto. change (in_of id (set_in id (emptied (in_of id g)) g1) = emptied (in_of id g)). rewrite in_of_set. now rewrite Z.eqb_refl.
       - injection R as <-. repeat split; auto. rewrite in_of_set. now rewrite Z.eqb_refl. }
  assert (HTo : Forall (fun x => tr_ok (x_tr x)) xs) by (eapply Forall_impl; [|exact HT]; intros y (Y1 & Y2); split; lia).
  clear R. set (m := in_of id g) in *. clearbody m. unfold encode_loop in Er; fold (@encode_loop T P) in Er.
  rb Er r1 E1. destruct r1 as (ga, dma). rb Er s1 E2. destruct s1 as ((gb, tsb), moreb). cbn [fst snd] in *.
  destruct (next_ok id el m g None ga dma xs t e k Hn HL HN H HE HTo Hk Hm Htk E1) as (p & ya & -> & Gp & La & Fa & _ & _ & _).
  rewrite Hn in E2.
  assert (EVa : evenx (el_subs el) (Nat.max (t + k) nn) (if Nat.eqb k 0 then Nat.max (elen (t + k) (e + k)) nn else elen (t + k) (e + k)) ya).
  { clear -HE Fa Hk n_pos code lin quant. revert ya Fa. induction HE as [|l x ls xs E0 HE IH]; intros ya Fa; inversion Fa as [|? ? ? ? ? ? (rs & R1 & -> & R3) Fa']; subst; constructor.
    - apply fill_even. eapply mixed_even; eassumption.
    - now apply IH. }
  set (ea := if Nat.eqb k 0 then Nat.max (elen (t + k) (e + k)) nn else elen (t + k) (e + k)) in *.
  (* the last of the two rounds *)
  assert (FIN : forall dm g0 g2 ts2 more2 ys, lives g0 (el_subs el) ys -> evenx (el_subs el) (Nat.max (t + k) nn) (Nat.max (elen (t + k) (e + k)) nn) ys ->
     all3 (fun l x y => exists rs, mixed el p m (snd l) rs /\ y = fill true (t + k) (e + k) rs x /\ enough (t + k) (x_tr x)) (el_subs el) xs ys -> dm = Some p ->
     encode_all code n (el_subs el) dm (g0, None, false) = Ok (g2, ts2, more2) ->
     ts2 <> None /\ exists p xs', lives g2 (el_subs el) xs' /\ all3 (feeding el p m (t + k) (e + k)) (el_subs el) xs xs' /\
    evenx (el_subs el) (len_after (t + k)) (len_after (elen (t + k) (e + k))) xs').
  { clear -HL HN n_pos code lin quant. intros dm g0 g2 ts2 more2 ys L0 E0 F0 -> E.
    destruct (encode_all_ok (el_subs el) (Some p) g0 None false _ ys _ _ HL L0 E0 ltac:(lia) ltac:(lia) E) as (g' & ts' & more' & xs' & X0 & X1 & (X2a & X2) & X3 & X4 & X5 & X6 & X7 & X8).
    injection X0 as <- <- <-. split; [destruct (X7 HN) as (z & _ & Z2); congruence|]. exists p, xs'. split; [exact X1|]. split; [|exact X6].
    apply (all3_of (fun l x x' => exists f, made (fst l) (Some p) x f /\ x' = emit f x)) in X2; [|exact X2a].
    eapply all3_trans; [|exact F0|exact X2]. intros l x y x' (rs & Y1 & -> & Y3) (f & Y4 & ->). exists rs, f. auto. }
  destruct (Nat.leb_spec nn ea) as [Hea | Hea].
  - (* the coders can be given a frame at once *)
    destruct (FIN (Some p) ga gb tsb moreb ya) as (B1 & B2); auto.
    + replace (Nat.max (elen (t + k) (e + k)) nn) with ea; [exact EVa|]. unfold ea in *. destruct (Nat.eqb k 0); lia.
    + eapply all3_impl; [|exact Fa]. intros l x y _ _ (rs & Y1 & -> & Y3). exists rs. split; [exact Y1|]. split; [|exact Y3].
      unfold ea in Hea. destruct (Nat.eqb k 0); [reflexivity | now apply fill_full].
    + destruct tsb as [tb|]; [|congruence]. injection Er as <- <-. exact B2.
  - (* the end: more zeros are needed *)
    assert (Hk0 : Nat.eqb k 0 = false) by (unfold ea in Hea; destruct (Nat.eqb k 0); [lia | reflexivity]).
    unfold ea in Hea, EVa. rewrite Hk0 in *. clear ea.
    pose proof (encode_all_wait (el_subs el) (Some p) ga false _ ya _ _ HL La EVa ltac:(lia) ltac:(lia) E2) as W.
    destruct (el_subs el) as [|l0 ls0] eqn:Els; [congruence|]. rewrite <- Els in *. injection W as -> -> ->.
    rb Er r2 E3. destruct r2 as (gc, dmc). rb Er s2 E4. destruct s2 as ((gd, tsd), mored). cbn [fst snd] in *. rewrite Hn in E4.
    assert (Hm' : emptied m <> []) by (destruct m; [congruence | discriminate]).
    assert (HTa : Forall (fun x => tr_ok (x_tr x)) ya).
    { clear -HT Fa n_pos code lin quant. induction Fa as [|l x y ls xs ys (rs & _ & -> & _) Fa IH]; constructor; inversion HT as [|? ? (T1 & T2) HT']; subst; [|now apply IH].
      unfold fill. cbn [x_tr]. unfold fill_tr. destruct (Z.ltb_spec (Z.of_nat (t + k)) n); [|split; lia]. unfold left_of. split; cbn [tr_end]; destruct (tr_inc (x_tr x)); lia. }
    destruct (next_ok id el (emptied m) ga (Some p) gc dmc ya (Nat.max (t + k) nn) (elen (t + k) (e + k)) 0 Hn HL HN La EVa HTa (emptied_len m) Hm' ltac:(lia) E3)
      as (p2 & yc & -> & Gp2 & Lc & Fc & _ & _ & _).
    pose proof (get_down_mixing_again _ _ _ _ Gp) as Ag. rewrite Gp2 in Ag. cbn [fst] in Ag. injection Ag as ->.
    assert (Fb : all3 (fun l x y => exists rs, mixed el p m (snd l) rs /\ y = fill true (t + k) (e + k) rs x /\ enough (t + k) (x_tr x)) (el_subs el) xs yc).
    { clear -Fa Fc EVa n_pos code lin quant. revert yc Fc EVa. induction Fa as [|l x y ls xs ys (rs & F1 & F2 & F3) Fa IH]; intros yc Fc EVa; inversion Fc as [|? ? z ? ? zs (rs0 & G1 & G2 & G3) Fc']; subst; constructor.
      - exists rs. split; [exact F1|]. split; [|exact F3]. apply fill_twice. intros a Ha. inversion EVa as [|? ? ? ? E0 _]; subst.
        exact (mixed_nothing _ _ _ _ _ _ _ _ (emptied_len m) G1 E0).
      - inversion EVa; subst. now apply IH. }
    assert (Eb : evenx (el_subs el) (Nat.max (t + k) nn) (Nat.max (elen (t + k) (e + k)) nn) yc).
    { clear -Fb HE Hk n_pos code lin quant. revert yc Fb. induction HE as [|l x ls xs E0 HE IH]; intros yc Fb; inversion Fb as [|? ? ? ? ? ? (rs & R1 & -> & R3) Fb']; subst; constructor.
      - apply (fill_even true). eapply mixed_even; eassumption.
      - now apply IH. }
    destruct (FIN (Some p) gc gd tsd mored yc Lc Eb Fb eq_refl E4) as (B1 & B2). destruct tsd as [td0|]; [|congruence]. injection Er as <- <-. exact B2.
Qed.
End Facts.
