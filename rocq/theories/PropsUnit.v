(* C60: what the decoder answers to a whole temporal unit. *)
From Verif Require Import Base WriteBuf ObuHeader SimpleObus CodecConfig Params AudioElement MixPresentation Timing ParamManager AeData
  Profile MixSelect PropsParams PropsPM MixGain PropsGain Processor Demix DemixFacts Render RenderFacts PropsRender PropsHistory.

Section Unit.
Context {T F B C : Type} (E : renv T F B C).
Notation chan := (@samples T).

(* ================= SPEC ================= *)
(* The last parameter block of the unit with an ID *)
Definition last_block (i : Z) (bs : list oblock) : option pblock := option_map ob_obu (find (fun b => bl_id (ob_obu b) =? i) (rev bs)).
(* The layout which is played: the first one of the first sub-mix of the mix presentation *)
Definition plays (m : @models T B C) (l : @lrend T B) : Prop :=
  exists subs ls lm, m_find (rm_mix m) (rm_fin m) = Some subs /\ nth_error subs 0 = Some ls /\ nth_error ls 0 = Some lm /\ lm_rend lm = Some l.
(* The frames are decoded in order, each by the decoder of its substream; frames of other substreams are left as they are. *)
Inductive decoded (subs : list Z) : list (Z * C) -> list oframe -> list (@Demix.frame T) -> list (Z * C) -> Prop :=
| decoded_none decs : decoded subs decs [] [] decs
| decoded_skip decs o t fs decs1 : ~ In (af_id (of_obu o)) subs -> decoded subs decs t fs decs1 -> decoded subs decs (o :: t) (frame_of E o [] :: fs) decs1
| decoded_one decs o t fs decs1 d s d1 : In (af_id (of_obu o)) subs -> m_find (af_id (of_obu o)) decs = Some d -> r_decode E d (af_bytes (of_obu o)) = (Ok s, d1) ->
    decoded subs (Render.m_set (af_id (of_obu o)) d1 decs) t fs decs1 -> decoded subs decs (o :: t) (frame_of E o s :: fs) decs1.

(* ================= proofs ================= *)
Lemma m_find_In {V} k (m : list (Z * V)) v : m_find k m = Some v -> In (k, v) m.
Proof. induction m as [|[i x] m IH]; [discriminate|]. cbn [m_find]. destruct (Z.eqb_spec i k) as [->|]; [intro H; injection H as ->; left; reflexivity|intro H; right; exact (IH H)]. Qed.
Lemma veq_ok a b : veq a b = Ok tt -> a = b.
Proof. unfold veq, vcond. destruct (Z.eqb_spec a b); [auto|discriminate]. Qed.
Lemma blocks_of_last start stop : forall bs m0 m, blocks_of start stop bs m0 = Ok m ->
  Forall (fun b => ob_start b = start /\ ob_end b = stop) bs /\
  forall i, m_find i m = match last_block i bs with Some b => Some b | None => m_find i m0 end.
Proof.
  induction bs as [|b bs IH]; intros m0 m H; cbn [blocks_of] in H; [injection H as <-; split; [constructor|reflexivity]|]. unfold rthen in H.
  destruct (veq start (ob_start b)) as [[]| | | |] eqn:V1; cbn [rbind] in H; try discriminate H. destruct (veq stop (ob_end b)) as [[]| | | |] eqn:V2; cbn [rbind] in H; try discriminate H.
  apply veq_ok in V1. apply veq_ok in V2. destruct (IH _ _ H) as [I1 I2]. split; [constructor; auto|]. intro i. rewrite I2. unfold last_block. cbn [rev]. 
  assert (forall l, find (fun b0 => bl_id (ob_obu b0) =? i) (l ++ [b]) = match find (fun b0 => bl_id (ob_obu b0) =? i) l with Some x => Some x | None => if bl_id (ob_obu b) =? i then Some b else None end) as Fa.
  { induction l as [|x l IHl]; cbn [app find]; [destruct (_ =? _); reflexivity|]. destruct (bl_id (ob_obu x) =? i); [reflexivity|exact IHl]. }
  rewrite Fa. destruct (find _ (rev bs)) as [x|]; cbn [option_map]; [reflexivity|]. rewrite find_put. destruct (bl_id (ob_obu b) =? i); reflexivity.
Qed.
Lemma in_subs x subs : existsb (Z.eqb x) subs = true <-> In x subs.
Proof. rewrite existsb_exists. split; [intros (y & H1 & H2); apply Z.eqb_eq in H2; subst y; exact H1|intro H; exists x; split; [exact H|apply Z.eqb_refl]]. Qed.
Lemma decode_frames_decoded subs start : forall os stop decs fs stop1 decs1, decode_frames E subs start stop os decs = (Ok (fs, stop1), decs1) ->
  decoded subs decs os fs decs1 /\ Forall (fun o => In (af_id (of_obu o)) subs -> of_start o = start /\ Some (of_end o) = stop1) os /\ (stop <> None -> stop1 = stop).
Proof.
  induction os as [|o os IH]; intros stop decs fs stop1 decs1 H; cbn [decode_frames] in H; [injection H as <- <- <-; split; [constructor|]; split; [constructor|auto]|].
  destruct (existsb (Z.eqb (af_id (of_obu o))) subs) eqn:Ex; cbn [negb] in H.
  - apply in_subs in Ex. cbv zeta in H. set (e := match stop with Some e => e | None => of_end o end) in H. destruct (veq start (of_start o) >>> veq e (of_end o)) as [[]|c| | |] eqn:V; try discriminate H.
    unfold rthen in V. destruct (veq start (of_start o)) as [[]| | | |] eqn:V1; cbn [rbind] in V; try discriminate V. apply veq_ok in V1. apply veq_ok in V.
    unfold decode in H. destruct (m_find (af_id (of_obu o)) decs) as [d|] eqn:Ed; [|discriminate H]. destruct (r_decode E d (af_bytes (of_obu o))) as [q d1] eqn:Er. destruct q as [s|c| | |]; try discriminate H.
    match type of H with context[decode_frames E subs start ?x os ?y] => destruct (decode_frames E subs start x os y) as [r d2] eqn:Et end. destruct r as [[fs0 st0]|c| | |]; cbn [rbind fst snd] in H; try discriminate H. injection H as <- <- <-.
    destruct (IH _ _ _ _ _ Et) as (I1 & I2 & I3). specialize (I3 ltac:(discriminate)). subst st0. split; [econstructor; eauto|]. split.
    + constructor; [intros _; split; [congruence|congruence]|exact I2].
    + intro Hs. destruct stop; [reflexivity|congruence].
  - assert (~ In (af_id (of_obu o)) subs) as Nx by (rewrite <- in_subs, Ex; discriminate). destruct (decode_frames E subs start stop os decs) as [r d] eqn:Et. destruct r as [[fs0 st0]|c| | |]; cbn [rbind fst snd] in H; try discriminate H. injection H as <- <- <-.
    destruct (IH _ _ _ _ _ Et) as (I1 & I2 & I3). split; [constructor; assumption|]. split; [constructor; [intro; contradiction|exact I2]|exact I3].
Qed.
Lemma each_nth {X} (f : X -> res unit * X) : forall l l1, each f l = (Ok tt, l1) -> forall i x, nth_error l i = Some x -> exists x1, f x = (Ok tt, x1) /\ nth_error l1 i = Some x1.
Proof.
  induction l as [|y l IH]; intros l1 H i x Hx; [destruct i; discriminate Hx|]. cbn [each] in H. destruct (f y) as [r y1] eqn:Ey. destruct r as [[]|c| | |]; try (injection H as H _; discriminate H).
  destruct (each f l) as [r t] eqn:Et. injection H as -> <-. destruct i as [|i]; cbn [nth_error] in *; [injection Hx as <-; eauto|]. exact (IH _ eq_refl i x Hx).
Qed.
Lemma each_find f : forall (l l1 : list (Z * list (list (@lmeta T B)))), each (on_snd f) l = (Ok tt, l1) -> forall k x, m_find k l = Some x -> exists x1, f x = (Ok tt, x1) /\ m_find k l1 = Some x1.
Proof.
  induction l as [|[i y] l IH]; intros l1 H k x Hx; [discriminate Hx|]. cbn [each] in H. unfold on_snd at 1 in H. cbn [fst snd] in H. destruct (f y) as [r y1] eqn:Ey. destruct r as [[]|c| | |]; try (injection H as H _; discriminate H).
  destruct (each (on_snd f) l) as [r t] eqn:Et. injection H as -> <-. cbn [m_find] in *. destruct (i =? k); [injection Hx as <-; eauto|]. exact (IH _ eq_refl k x Hx).
Qed.
Lemma push_plays (f : @finalizer T B) mix subs ls lm l frames start stop bs f1 out :
  m_find mix f = Some subs -> nth_error subs 0 = Some ls -> nth_error ls 0 = Some lm -> lm_rend lm = Some l ->
  push_unit E f frames start stop bs = (Ok tt, f1) -> get_samples f1 mix 0 0 = Ok out ->
  exists blocks l1, blocks_of start stop bs [] = Ok blocks /\ render E l frames blocks = (Ok out, l1).
Proof.
  intros H1 H2 H3 H4 H Hg. unfold push_unit in H. destruct (blocks_of start stop bs []) as [m|c| | |]; try discriminate H. exists m.
  destruct (each_find _ _ _ H _ _ H1) as (subs1 & Es & Fs). destruct (each_nth _ _ _ Es _ _ H2) as (ls1 & El & Fl). destruct (each_nth _ _ _ El _ _ H3) as (lm1 & Em & Fm).
  unfold get_samples in Hg. rewrite Fs, Fl, Fm in Hg. injection Hg as <-. unfold render_layout in Em. rewrite H4 in Em. destruct (render E l frames m) as [r l1]. exists l1. split; [reflexivity|].
  destruct r as [s|c| | |]; try discriminate Em. injection Em as <-. reflexivity.
Qed.
Lemma demix_all_each fs : forall l fr, NoDup (map fst l) -> demix_all E l fs = Ok fr -> forall id c, In (id, c) l -> demix (r_A E) (fst c) (snd c) fs = Ok (m_find id fr).
Proof.
  assert (forall l fr, demix_all E l fs = Ok fr -> forall id, ~ In id (map fst l) -> m_find id fr = None) as No.
  { induction l as [|[i [ks subs]] l IH]; intros fr H id Hn; cbn [demix_all] in H; [injection H as <-; reflexivity|]. destruct (demix (r_A E) ks subs fs) as [o|c| | |]; cbn [rbind] in H; try discriminate H.
    destruct (demix_all E l fs) as [r|c| | |]; cbn [rbind] in H; try discriminate H. injection H as <-. cbn [map fst In] in Hn. specialize (IH r eq_refl id ltac:(tauto)). destruct o; [|exact IH]. cbn [m_find]. destruct (Z.eqb_spec i id); [tauto|exact IH]. }
  induction l as [|[i [ks subs]] l IH]; intros fr Hd H id c Hin; [destruct Hin|]. cbn [demix_all] in H. destruct (demix (r_A E) ks subs fs) as [o|e| | |] eqn:Ed; cbn [rbind] in H; try discriminate H.
  destruct (demix_all E l fs) as [r|e| | |] eqn:Er; cbn [rbind] in H; try discriminate H. injection H as <-. cbn [map fst] in Hd. inversion Hd as [|? ? Hn Hd']; subst. destruct Hin as [Hin|Hin].
  - injection Hin as <- <-. cbn [fst snd]. rewrite Ed. f_equal. destruct o as [lf|]; [cbn [m_find]; rewrite Z.eqb_refl; reflexivity|]. symmetry. apply (No _ _ Er). exact Hn.
  - rewrite (IH r Hd' eq_refl id c Hin). f_equal. assert (id <> i) as Ni. { intros ->. apply Hn. apply in_map_iff. exists (i, c). auto. } destruct o; [|reflexivity]. cbn [m_find]. destruct (Z.eqb_spec i id); [congruence|reflexivity].
Qed.

(* C60, for a whole temporal unit: every frame has been decoded by the decoder of its substream, and what is played is the formula of C60
   for the demixed frames and, of the parameter blocks with the same ID, the last one; all frames and blocks have the times of the unit. *)
Theorem C60_unit : forall m u l out m1, settled m -> trims_of_unit u -> complete m u -> NoDup (map fst (rm_demix m)) -> plays m l ->
  (forall d b, In d (lr_gain l :: map el_gain (lr_els l)) -> In b (un_blocks u) -> bl_id (ob_obu b) = pb_id (pd_base d) -> block_fits d (ob_obu b)) ->
  render_unit E m u = (Ok out, m1) ->
  exists fs frames blocks stop n,
    decoded (rm_subs m) (rm_decs m) (un_frames u) fs (rm_decs m1) /\
    (forall id c, In (id, c) (rm_demix m) -> demix (r_A E) (fst c) (snd c) fs = Ok (m_find id frames)) /\
    (forall i, m_find i blocks = last_block i (un_blocks u)) /\
    Forall (fun o => In (af_id (of_obu o)) (rm_subs m) -> of_start o = un_time u /\ of_end o = stop) (un_frames u) /\
    Forall (fun b => ob_start b = un_time u /\ ob_end b = stop) (un_blocks u) /\
    zlen out = lr_chans l /\ uniform out n /\ (lr_chans l <> 0 -> n <> O -> Forall (lasts E frames n) (lr_els l)) /\
    forall c ch t, nth_error out c = Some ch -> (t < n)%nat ->
      exists g vs, gain_at E blocks (lr_gain l) t g /\ Forall2 (element_value E frames blocks c t) (lr_els l) vs /\
                   nth_error ch t = Some (r_scale E (fold_left (a_add (r_A E)) vs (zero E)) g).
Proof.
  intros m u l out m1 Hs Ht (C1 & C2) Nd (subs & ls & lm & P1 & P2 & P3 & P4) Hb H. unfold render_unit in H.
  destruct (decode_frames E (rm_subs m) (un_time u) None (un_frames u) (rm_decs m)) as [r decs] eqn:Ed. destruct r as [[fs stop]|c| | |]; cbn [rbind snd fst] in H; try discriminate H.
  destruct stop as [e|]; [|discriminate H]. destruct (demix_all E (rm_demix m) fs) as [fr|c| | |] eqn:Ex; cbn [rbind] in H; try discriminate H.
  destruct (decode_frames_decoded _ _ _ _ _ _ _ _ Ed) as (D1 & D2 & _). destruct (decode_frames_props E _ _ _ _ _ _ _ Ed) as [D3 D4]. cbn [fst] in D3, D4.
  assert (Forall (fun x : @Demix.frame T => 0 <= f_trim_start x /\ 0 <= f_trim_end x) fs) as Hf. { eapply Forall_impl; [|exact D4]. intros x (o & O1 & O2 & O3). rewrite O2, O3. exact (Ht o O1). }
  destruct (demix_all_props E fs Hf _ _ Ex) as [T1 T2].
  assert (forall i, In i (map fst (rm_demix m)) -> m_find i fr <> None) as T3.
  { apply T2. intros id c Hin. destruct (C1 id c Hin) as (o & ls0 & O1 & O2 & O3). assert (In (af_id (of_obu o)) (map (@f_id T) fs)) as Q by (rewrite D3; apply in_map_iff; eauto).
    apply in_map_iff in Q as (f & F1 & F2). exists f, ls0. rewrite F1. auto. }
  destruct (push_unit E (rm_fin m) fr (un_time u) e (un_blocks u)) as [r1 f1] eqn:Ep. injection H as H <-. destruct r1 as [[]|c| | |]; cbn [rbind] in H; try discriminate H.
  destruct (push_plays _ _ _ _ _ _ _ _ _ _ _ _ P1 P2 P3 P4 Ep H) as (blocks & l1 & B1 & B2). destruct (blocks_of_last _ _ _ _ _ B1) as [B3 B4].
  assert (forall i, m_find i blocks = last_block i (un_blocks u)) as B5 by (intro i; rewrite B4; destruct (last_block i (un_blocks u)); reflexivity).
  pose proof (m_find_In _ _ _ P1) as I1. apply nth_error_In in P2. apply nth_error_In in P3.
  assert (forall d, In d (lr_gain l :: map el_gain (lr_els l)) -> blocks_fit blocks d) as Fit.
  { intros d Hd b Q. rewrite B5 in Q. unfold last_block in Q. destruct (find _ (rev (un_blocks u))) as [b0|] eqn:Ef; [|discriminate Q]. injection Q as <-. apply find_some in Ef as [Ef1 Ef2]. apply in_rev in Ef1. apply Z.eqb_eq in Ef2. exact (Hb d b0 Hd Ef1 Ef2). }
  destruct (C60_rendered E l fr blocks out l1 (Hs _ _ _ _ _ I1 P2 P3 P4) T1) as (Z1 & n & U1 & U2 & U3).
  { intros el Hel. apply T3. exact (C2 _ _ _ _ _ I1 P2 P3 P4 el Hel). }
  { apply Fit. left. reflexivity. }
  { intros el Hel. apply Fit. right. apply in_map. exact Hel. }
  { exact B2. }
  exists fs, fr, blocks, e, n. split; [exact D1|]. split; [exact (demix_all_each fs _ _ Nd Ex)|]. split; [exact B5|]. split; [|split; [exact B3|split; [exact Z1|split; [exact U1|split; [exact U2|exact U3]]]]].
  eapply Forall_impl; [|exact D2]. intros o Ho Hin. destruct (Ho Hin) as [O1 O2]. split; [exact O1|congruence].
Qed.
End Unit.

(* Of two parameter blocks with the same ID the second one counts; the hypotheses of C60_unit hold. *)
Definition h_block : header := mkH 3 false false 0 0 None.
Definition u_blocks : outunit :=
  mkOu (un_frames (u_ex 0 0 [1; 2; 3; 4] [5; 6; 7; 8])) [mkOb h_block (mkBlk 1 None [Some (DStep 100); Some (DStep 100)]) 0 4; mkOb h_block block_ex 0 4] 0.
Example C60_unit_ex : settled m_ex /\ trims_of_unit u_blocks /\ complete m_ex u_blocks /\ NoDup (map fst (rm_demix m_ex)) /\ plays m_ex l_ex /\
  (forall d b, In d (lr_gain l_ex :: map el_gain (lr_els l_ex)) -> In b (un_blocks u_blocks) -> bl_id (ob_obu b) = pb_id (pd_base d) -> block_fits d (ob_obu b)) /\
  last_block 1 (un_blocks u_blocks) = Some block_ex /\
  fst (render_unit Ecopy m_ex u_blocks) = Ok [[1 * 2 + 5 * 5 * 3; 2 * 20 + 6 * 5 * 3; 3 * 21 + 7 * 5 * 3; 4 * 22 + 8 * 5 * 3]; [1 * 2 + 5 * 6 * 3; 2 * 20 + 6 * 6 * 3; 3 * 21 + 7 * 6 * 3; 4 * 22 + 8 * 6 * 3]].
Proof.
  destruct C61_ex as (_ & S1 & _). split; [exact S1|]. split; [intros o [<-|[<-|[]]]; cbn; lia|]. split.
  { split.
    - intros id c [Q|[Q|[]]]; injection Q as <- <-; [exists (fr_ex 70 0 0 [1; 2; 3; 4]), [L2; R2]|exists (fr_ex 80 0 0 [5; 6; 7; 8]), [Mono]]; cbn; split; auto; split; auto; discriminate.
    - intros id subs ls lm l [Q|[]] H2 H3 H4 e He. injection Q as <- <-. destruct H2 as [<-|[]]. destruct H3 as [<-|[]]. injection H4 as <-. destruct He as [<-|[<-|[]]]; cbn; tauto. }
  split. { cbn. constructor; [intros [Q|[]]; discriminate Q|]. constructor; [intros []|constructor]. }
  split. { exists [[mkLm (Some l_ex) []]], [mkLm (Some l_ex) []], (mkLm (Some l_ex) []). repeat split. }
  split; [|vm_compute; auto]. destruct C60_ex as (_ & _ & _ & _ & Fit & _). specialize (Fit _ (or_introl eq_refl) block_ex eq_refl).
  intros d b Hd Hb Hi. assert (d = gain_ex 1 10 (Some s_ex)) as ->. { destruct Hd as [<-|[<-|[<-|[]]]]; destruct Hb as [<-|[<-|[]]]; cbn in Hi; try discriminate Hi; reflexivity. }
  destruct Hb as [<-|[<-|[]]]; cbn [ob_obu]; [|exact Fit]. destruct Fit as (s & l & K1 & K2 & K3 & K4 & _ & _). exists s, l. split; [exact K1|]. split; [exact K2|]. split; [exact K3|]. split; [exact K4|].
  split; [repeat constructor|]. intros [|[|[|i]]] a e c t Hn; discriminate Hn.
Qed.
