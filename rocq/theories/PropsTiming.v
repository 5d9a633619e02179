(* C26: timestamps handed out by the global timing module. *)
From Verif Require Import Base WriteBuf CodecConfig Timing.

(* ---- SPEC: a history of calls; the time of an ID is the sum of the durations asked for it so far ---- *)
Inductive call := Audio (id duration : Z) | Param (id start duration : Z) | Global.
Definition asked_audio (id : Z) (c : call) : Z := match c with Audio i d => if i =? id then d else 0 | _ => 0 end.
Definition asked_param (id : Z) (c : call) : Z := match c with Param i _ d => if i =? id then d else 0 | _ => 0 end.
Definition sum (l : list Z) : Z := fold_right Z.add 0 l.
Definition audio_time (id : Z) (h : list call) : Z := sum (map (asked_audio id) h).
Definition param_time (id : Z) (h : list call) : Z := sum (map (asked_param id) h).
(* durations are uint32_t; no ID is asked for 2^63 ticks or more *)
Definition call_ok (c : call) : Prop := match c with Audio _ d | Param _ _ d => 0 <= d < 2^32 | Global => True end.
Definition history_ok (h : list call) : Prop :=
  Forall call_ok h /\ forall id, audio_time id h < 2^63 /\ param_time id h < 2^63.
(* the state after a history *)
Definition step (g : gtm) (c : call) : gtm :=
  match c with Audio id d => snd (next_audio g id d) | Param id s d => snd (next_param g id s d) | Global => g end.
Definition after (g : gtm) (h : list call) : gtm := fold_left step h g.

(* ---- facts ---- *)
Lemma sum_app a b : sum (a ++ b) = sum a + sum b. Proof. unfold sum. induction a as [|x a IH]; cbn [app fold_right]; [reflexivity|]. rewrite IH. apply Z.add_assoc. Qed.
Lemma s64_small z : 0 <= z < 2^63 -> s64 z = z.
Proof. intro H. unfold s64, sN. change (64 - 1) with 63. rewrite Z.mod_small by lia. replace (z <? 2^63) with true by lia. reflexivity. Qed.
Lemma find_app {V} k (m : list (Z * V)) i v : m_find k (m ++ [(i, v)]) = match m_find k m with Some x => Some x | None => if i =? k then Some v else None end.
Proof. induction m as [|[j x] m IH]; cbn [app m_find]; [reflexivity|]. destruct (j =? k); [reflexivity|exact IH]. Qed.
Lemma find_set {V} k k' (v : V) m : m_find k' (m_set k v m) = if k =? k' then match m_find k m with Some _ => Some v | None => None end else m_find k' m.
Proof.
  induction m as [|[j x] m IH]; cbn [m_find m_set]; [destruct (k =? k'); reflexivity|].
  destruct (j =? k) eqn:E; cbn [m_find].
  - destruct (k =? k') eqn:F; [replace (j =? k') with true by lia; reflexivity|]. replace (j =? k') with false by lia. reflexivity.
  - rewrite IH. destruct (k =? k') eqn:F; destruct (j =? k') eqn:G; try reflexivity. lia.
Qed.
Lemma keys_set {V} k (v : V) m : map fst (m_set k v m) = map fst m.
Proof. induction m as [|[j x] m IH]; cbn [m_set map fst]; [reflexivity|]. destruct (j =? k); cbn [map fst]; [reflexivity|]. f_equal. exact IH. Qed.
Lemma find_keys {V} k (m : list (Z * V)) : (exists v, m_find k m = Some v) <-> In k (map fst m).
Proof.
  induction m as [|[j x] m IH]; cbn [m_find map fst In]; [split; [intros [v E]; discriminate|contradiction]|].
  destruct (j =? k) eqn:E; [split; eauto; left; lia|]. rewrite IH. split; [auto|]. intros [A|A]; [lia|exact A].
Qed.
Lemma find_in {V} k v (m : list (Z * V)) : NoDup (map fst m) -> In (k, v) m -> m_find k m = Some v.
Proof.
  induction m as [|[j x] m IH]; cbn [m_find map fst In]; [contradiction|]. intros N [E|E].
  - injection E as -> ->. rewrite Z.eqb_refl. reflexivity.
  - inversion N as [|? ? N1 N2]; subst. destruct (j =? k) eqn:F; [|apply IH; assumption]. exfalso. apply N1. apply in_map_iff. exists (k, v). split; [cbn [fst]; lia|exact E].
Qed.

(* one map tracks one time per key *)
Definition tracks (keys : list Z) (m : tmap) (f : Z -> Z) : Prop :=
  map fst m = keys /\ NoDup keys /\ forall k d, m_find k m = Some d -> td_stamp d = f k.
Lemma insert_all_ok l m m' : insert_all l m = Ok m' -> NoDup (map fst m) -> (forall k d, m_find k m = Some d -> td_stamp d = 0) ->
  map fst m' = map fst m ++ map fst l /\ NoDup (map fst m') /\ Forall (fun p => snd p <> 0) l /\ (forall k d, m_find k m' = Some d -> td_stamp d = 0).
Proof.
  revert m. induction l as [|[id rate] l IH]; intros m E N S; cbn [insert_all] in E.
  - injection E as <-. rewrite app_nil_r. auto.
  - destruct (rate =? 0) eqn:R; [discriminate|]. destruct (m_find id m) as [v|] eqn:F; [discriminate|].
    apply IH in E as (E1 & E2 & E3 & E4).
    + split; [rewrite E1, map_app; cbn [map fst]; rewrite <- app_assoc; reflexivity|]. split; [exact E2|].
      split; [constructor; [cbn [snd]; lia|exact E3]|exact E4].
    + rewrite map_app. cbn [map fst]. 
      apply NoDup_rev in N. rewrite <- (rev_involutive (_ ++ _)). apply NoDup_rev. rewrite rev_app_distr. cbn [rev app]. constructor; [|exact N].
      rewrite <- in_rev. rewrite <- find_keys. intros [v V]. congruence.
    + intros k d K. rewrite find_app in K. destruct (m_find k m) eqn:G; [injection K as <-; eapply S; exact G|]. destruct (id =? k); [|discriminate]. injection K as <-. reflexivity.
Qed.
Lemma insert_all_accepts l m : NoDup (map fst m ++ map fst l) -> Forall (fun p => snd p <> 0) l -> exists m', insert_all l m = Ok m'.
Proof.
  revert m. induction l as [|[id rate] l IH]; intros m N R; cbn [insert_all]; [eauto|]. inversion R as [|? ? R1 R2]; subst. cbn [snd] in R1. replace (rate =? 0) with false by lia.
  cbn [map fst] in N. destruct (m_find id m) as [v|] eqn:F.
  - exfalso. apply NoDup_remove_2 in N. apply N. apply in_or_app. left. apply find_keys. eauto.
  - apply IH; [|exact R2]. rewrite map_app. cbn [map fst]. rewrite <- app_assoc. exact N.
Qed.

Definition substreams (aes : list (Z * list Z)) : list Z := flat_map snd aes.
Lemma substreams_map aes : map fst (flat_map (fun a : Z * list Z => map (fun i => (i, fst a)) (snd a)) aes) = substreams aes.
Proof. unfold substreams. induction aes as [|a t IH]; cbn [flat_map]; [reflexivity|]. rewrite map_app, IH, map_map. cbn [fst]. rewrite map_id. reflexivity. Qed.

(* Creation succeeds exactly when no substream or parameter ID occurs twice and no rate is zero. *)
Theorem C26_created_exactly : forall aes params,
  (exists g, gtm_create aes params = Ok g) <->
  NoDup (substreams aes) /\ NoDup (map fst params) /\ (forall r l, In (r, l) aes -> l <> [] -> r <> 0) /\ (forall i r, In (i, r) params -> r <> 0).
Proof.
  intros aes params. unfold gtm_create. split.
  - intros [g E]. destruct (insert_all (flat_map _ aes) []) as [a| | | |] eqn:A; try discriminate. cbn [rbind] in E.
    destruct (insert_all params []) as [p| | | |] eqn:P; try discriminate.
    apply insert_all_ok in A as (A1 & A2 & A3 & _); [|constructor|intros ? ? F; discriminate]. apply insert_all_ok in P as (P1 & P2 & P3 & _); [|constructor|intros ? ? F; discriminate].
    cbn [map app] in A1, P1. rewrite substreams_map in A1. rewrite A1 in A2. rewrite P1 in P2. rewrite Forall_forall in A3, P3. repeat split; try assumption.
    + intros r l I L. destruct l as [|i l]; [contradiction|]. apply (A3 (i, r)). apply in_flat_map. exists (r, i :: l). split; [exact I|]. left. reflexivity.
    + intros i r I. apply (P3 (i, r) I).
  - intros (N1 & N2 & R1 & R2). destruct (insert_all_accepts (flat_map (fun a : Z * list Z => map (fun i => (i, fst a)) (snd a)) aes) []) as [a ->].
    + rewrite substreams_map. exact N1.
    + apply Forall_forall. intros [i r] I. apply in_flat_map in I as ([r' l] & I1 & I2). apply in_map_iff in I2 as (j & E & I2). injection E as <- <-. cbn [fst snd] in *.
      apply (R1 r' l I1). intros ->. contradiction.
    + destruct (insert_all_accepts params []) as [p ->]; [exact N2|apply Forall_forall; intros [i r] I; apply (R2 i r I)|]. cbn [rbind]. eauto.
Qed.

Lemma get_tracks keys m f id d r s e m' : tracks keys m f -> get_timestamps m id d = (r, s, e, m') -> 0 <= f id -> 0 <= d -> f id + d < 2^63 ->
  (In id keys -> r = Ok tt /\ s = f id /\ e = f id + d) /\ (~ In id keys -> r = Err InvalidArgument) /\
  tracks keys m' (fun k => f k + if id =? k then d else 0).
Proof.
  intros (K & N & T) E F0 D0 B. unfold get_timestamps in E. destruct (m_find id m) as [x|] eqn:Fd.
  - injection E as <- <- <- <-. rewrite (T _ _ Fd). rewrite s64_small by lia. split; [auto|]. split.
    + intro H. exfalso. apply H. rewrite <- K. apply find_keys. eauto.
    + split; [rewrite keys_set; exact K|]. split; [exact N|]. intros k y Fy. rewrite find_set, Fd in Fy. destruct (id =? k) eqn:Q; [injection Fy as <-; cbn [td_stamp]; replace k with id by lia; reflexivity|].
      rewrite (T _ _ Fy). lia.
  - injection E as <- <- <- <-. split; [intro H; exfalso; rewrite <- K in H; apply find_keys in H as [v H]; congruence|]. split; [reflexivity|].
    split; [exact K|]. split; [exact N|]. intros k y Fy. destruct (id =? k) eqn:Q; [replace k with id in Fy by lia; congruence|]. rewrite (T _ _ Fy). lia.
Qed.
Lemma tracks_ext keys m f g : (forall k, f k = g k) -> tracks keys m f -> tracks keys m g.
Proof. intros E (A & B & C). split; [exact A|]. split; [exact B|]. intros k d H. rewrite <- E. eapply C. exact H. Qed.
Lemma sum_nonneg l : Forall (fun x => 0 <= x) l -> 0 <= sum l.
Proof. induction 1; unfold sum in *; cbn [fold_right]; lia. Qed.
Lemma audio_nonneg id h : Forall call_ok h -> 0 <= audio_time id h.
Proof. intro H. apply sum_nonneg. apply Forall_map. eapply Forall_impl; [|exact H]. intros [i d|i s d|] C; cbn [asked_audio call_ok] in *; try lia. destruct (i =? id); lia. Qed.
Lemma param_nonneg id h : Forall call_ok h -> 0 <= param_time id h.
Proof. intro H. apply sum_nonneg. apply Forall_map. eapply Forall_impl; [|exact H]. intros [i d|i s d|] C; cbn [asked_param call_ok] in *; try lia. destruct (i =? id); lia. Qed.
Lemma audio_snoc id h c : audio_time id (h ++ [c]) = audio_time id h + asked_audio id c.
Proof. unfold audio_time. rewrite map_app, sum_app. unfold sum. cbn [map fold_right]. lia. Qed.
Lemma param_snoc id h c : param_time id (h ++ [c]) = param_time id h + asked_param id c.
Proof. unfold param_time. rewrite map_app, sum_app. unfold sum. cbn [map fold_right]. lia. Qed.

Lemma after_tracks aes params g h : gtm_create aes params = Ok g -> history_ok h ->
  tracks (substreams aes) (g_audio (after g h)) (fun k => audio_time k h) /\ tracks (map fst params) (g_param (after g h)) (fun k => param_time k h).
Proof.
  intros E. induction h as [|c h IH] using rev_ind; intros [C B].
  - unfold after. cbn [fold_left]. unfold gtm_create in E. destruct (insert_all (flat_map _ aes) []) as [a| | | |] eqn:A; try discriminate. cbn [rbind] in E.
    destruct (insert_all params []) as [p| | | |] eqn:P; try discriminate. cbn [rbind] in E. injection E as <-. cbn [g_audio g_param].
    apply insert_all_ok in A as (A1 & A2 & A3 & A4); [|constructor|intros ? ? F; discriminate]. apply insert_all_ok in P as (P1 & P2 & P3 & P4); [|constructor|intros ? ? F; discriminate].
    cbn [map app] in A1, P1. rewrite substreams_map in A1. rewrite A1 in A2. rewrite P1 in P2. split; split; auto.
  - apply Forall_app in C as [C Cc]. inversion Cc as [|? ? Hc _]; subst.
    assert (history_ok h) as Hh. { split; [exact C|]. intro id. specialize (B id). rewrite audio_snoc, param_snoc in B. destruct c as [i d|i s d|]; cbn [asked_audio asked_param call_ok] in *; try lia; destruct (i =? id); lia. }
    destruct (IH Hh) as [TA TP]. unfold after in *. rewrite fold_left_app. cbn [fold_left]. set (g' := fold_left step h g) in *. clearbody g'.
    destruct c as [i d|i s d|]; cbn [step].
    + unfold next_audio. destruct (get_timestamps (g_audio g') i d) as [[[r s] e] m] eqn:G. cbn [snd g_audio g_param].
      specialize (B i). rewrite audio_snoc, param_snoc in B. cbn [asked_audio asked_param call_ok] in *. rewrite Z.eqb_refl in B.
      pose proof (audio_nonneg i h C) as NN.
      destruct (get_tracks _ _ _ _ _ _ _ _ _ TA G) as (_ & _ & T'); [cbv beta; lia|lia|cbv beta; lia|].
      split; [eapply tracks_ext; [|exact T']|eapply tracks_ext; [|exact TP]]; intro k; cbv beta; rewrite ?audio_snoc, ?param_snoc; cbn [asked_audio asked_param]; lia.
    + unfold next_param. destruct (get_timestamps (g_param g') i d) as [[[r s'] e] m] eqn:G. cbn [snd g_audio g_param].
      specialize (B i). rewrite audio_snoc, param_snoc in B. cbn [asked_audio asked_param call_ok] in *. rewrite Z.eqb_refl in B.
      pose proof (param_nonneg i h C) as NN.
      destruct (get_tracks _ _ _ _ _ _ _ _ _ TP G) as (_ & _ & T'); [cbv beta; lia|lia|cbv beta; lia|].
      split; [eapply tracks_ext; [|exact TA]|eapply tracks_ext; [|exact T']]; intro k; cbv beta; rewrite ?audio_snoc, ?param_snoc; cbn [asked_audio asked_param]; lia.
    + split; [eapply tracks_ext; [|exact TA]|eapply tracks_ext; [|exact TP]]; intro k; cbv beta; rewrite ?audio_snoc, ?param_snoc; cbn [asked_audio asked_param]; lia.
Qed.

(* After every history of calls on a created module, the next audio frame of a known substream gets exactly the interval
   that starts at the sum of the durations asked for it before; unknown substreams are refused. *)
Theorem C26_audio_contiguous : forall aes params g h id d,
  gtm_create aes params = Ok g -> history_ok (h ++ [Audio id d]) ->
  (In id (substreams aes) -> fst (next_audio (after g h) id d) = (Ok tt, audio_time id h, audio_time id h + d)) /\
  (~ In id (substreams aes) -> fst (fst (fst (next_audio (after g h) id d))) = Err InvalidArgument).
Proof.
  intros aes params g h id d E [C B]. apply Forall_app in C as [C Cc]. inversion Cc as [|? ? Hc _]; subst.
  assert (history_ok h) as Hh. { split; [exact C|]. intro k. specialize (B k). rewrite audio_snoc, param_snoc in B. cbn [asked_audio asked_param call_ok] in *. destruct (id =? k); lia. }
  destruct (after_tracks _ _ _ _ E Hh) as [TA _]. unfold next_audio. destruct (get_timestamps _ id d) as [[[r s] e] m] eqn:G. cbn [fst].
  specialize (B id). rewrite audio_snoc in B. cbn [asked_audio call_ok] in *. rewrite Z.eqb_refl in B.
  pose proof (audio_nonneg id h C) as NN. destruct (get_tracks _ _ _ _ _ _ _ _ _ TA G) as (P & Q & _); [cbv beta; lia|lia|cbv beta; lia|].
  split; [intro I; destruct (P I) as (-> & -> & ->); reflexivity|exact Q].
Qed.
(* The same for parameter blocks; the call succeeds exactly when the caller's start time is the one the module computes.
   (A refused call has nevertheless advanced the parameter's time: [param_time] counts every call.) *)
Theorem C26_params_contiguous : forall aes params g h id input d,
  gtm_create aes params = Ok g -> history_ok (h ++ [Param id input d]) ->
  (In id (map fst params) ->
   fst (next_param (after g h) id input d) = (if input =? param_time id h then Ok tt else Err InvalidArgument, param_time id h, param_time id h + d)) /\
  (~ In id (map fst params) -> fst (fst (fst (next_param (after g h) id input d))) = Err InvalidArgument).
Proof.
  intros aes params g h id input d E [C B]. apply Forall_app in C as [C Cc]. inversion Cc as [|? ? Hc _]; subst.
  assert (history_ok h) as Hh. { split; [exact C|]. intro k. specialize (B k). rewrite audio_snoc, param_snoc in B. cbn [asked_audio asked_param call_ok] in *. destruct (id =? k); lia. }
  destruct (after_tracks _ _ _ _ E Hh) as [_ TP]. unfold next_param. destruct (get_timestamps _ id d) as [[[r s] e] m] eqn:G. cbn [fst].
  specialize (B id). rewrite param_snoc in B. cbn [asked_param call_ok] in *. rewrite Z.eqb_refl in B.
  pose proof (param_nonneg id h C) as NN. destruct (get_tracks _ _ _ _ _ _ _ _ _ TP G) as (P & Q & _); [cbv beta; lia|lia|cbv beta; lia|].
  split; [intro I; destruct (P I) as (-> & -> & ->); reflexivity|intro I; rewrite (Q I); reflexivity].
Qed.
(* The global timestamp is reported exactly when all substreams have been asked for equally many ticks, and is that number;
   with no substream at all there is an error. *)
Theorem C26_global_timestamp : forall aes params g h t,
  gtm_create aes params = Ok g -> history_ok h ->
  (global_timestamp (after g h) = Ok (Some t) <-> substreams aes <> [] /\ forall id, In id (substreams aes) -> audio_time id h = t) /\
  (global_timestamp (after g h) = Err InvalidArgument <-> substreams aes = []) /\
  (exists o, global_timestamp (after g h) = Ok o \/ global_timestamp (after g h) = Err InvalidArgument).
Proof.
  intros aes params g h t E Hh. destruct (after_tracks _ _ _ _ E Hh) as [(K & N & T) _]. unfold global_timestamp. set (m := g_audio (after g h)) in *. clearbody m.
  rewrite <- K in *. clear K. destruct m as [|[i d] m].
  - cbn [map]. split; [split; [discriminate|intros [A _]; contradiction]|]. split; [tauto|]. exists None. auto.
  - assert (forall k x, In (k, x) ((i, d) :: m) -> td_stamp x = audio_time k h) as T'. { intros k x I. apply T. apply find_in; assumption. }
    destruct (forallb _ _) eqn:F.
    + rewrite forallb_forall in F. split; [|split; [split; discriminate|eexists; left; reflexivity]]. split.
      * intros [= <-]. split; [discriminate|]. intros id I. apply in_map_iff in I as ([k x] & <- & I). cbn [fst]. rewrite <- (T' k x I). specialize (F _ I). cbn [snd] in F. lia.
      * intros [_ A]. f_equal. f_equal. rewrite (T' i d (or_introl eq_refl)). apply A. left. reflexivity.
    + split; [|split; [split; discriminate|eexists; left; reflexivity]]. split; [discriminate|]. intros [_ A]. exfalso.
      enough (forallb (fun p => td_stamp (snd p) =? td_stamp d) ((i, d) :: m) = true) by congruence. apply forallb_forall. intros [k x] I. cbn [snd].
      rewrite (T' k x I), (T' i d (or_introl eq_refl)). rewrite (A k), (A i); [lia|left; reflexivity|apply in_map_iff; exists (k, x); auto].
Qed.

Example C26_ex :
  exists g, gtm_create [(48000, [3; 5]); (48000, [7])] [(100, 48000)] = Ok g /\
  (let h := [Audio 3 960; Param 100 0 960; Audio 5 960; Audio 7 960; Param 100 1 10; Audio 3 1024] in
   history_ok h /\ audio_time 3 h = 1984 /\ param_time 100 h = 970 /\
   global_timestamp (after g (firstn 4 h)) = Ok (Some 960) /\ global_timestamp (after g h) = Ok None).
Proof.
  eexists. split; [reflexivity|]. cbv zeta. split; [|split; [reflexivity|split; [reflexivity|split; reflexivity]]]. split.
  - repeat constructor; cbn [call_ok]; change (2^32) with 4294967296; lia.
  - intro id. unfold audio_time, param_time. cbn [map asked_audio asked_param sum fold_right]. change (2^63) with 9223372036854775808.
    repeat match goal with |- context[if ?b then _ else _] => destruct b end; lia.
Qed.
