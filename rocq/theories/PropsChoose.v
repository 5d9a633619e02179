(* C62: which renderer plays an audio element on a layout, and with which channels and coefficients. *)
From Coq Require Import Reals Lra.
From Verif Require Import Base WriteBuf ObuHeader SimpleObus CodecConfig Params AudioElement MixPresentation Timing ParamManager AeData
  Profile MixSelect PropsParams PropsPM MixGain PropsGain Processor Demix DemixFacts Render RenderFacts PropsRender.
Open Scope Z_scope.

(* ================= SPEC ================= *)
(* The loudspeakers of the sound systems in the order of the output channels: A (0+2+0), B (0+5+0), C (2+5+0), D (4+5+0), H (9+10+3), I (0+7+0), J (4+7+0),
   7.1.2, 3.1.2, mono, 9.1.6, 7.1.5.4 *)
Definition s_714 : list label := [L7; R7; Centre; LFE; Lss7; Rss7; Lrs7; Rrs7; Ltf4; Rtf4; Ltb4; Rtb4].
Definition s_916 : list label := [FL; FR; FC; LFE; BL; BR; FLc; FRc; SiL; SiR; TpFL; TpFR; TpBL; TpBR; TpSiL; TpSiR].
Definition s_10293 : list label := [FL; FR; FC; LFE; BL; BR; FLc; FRc; BC; LFE2; SiL; SiR; TpFL; TpFR; TpFC; TpC; TpBL; TpBR; TpSiL; TpSiR; TpBC; BtFC; BtFL; BtFR].
Definition s_7154 : list label := s_714 ++ [TpC; BtFL; BtFR; BtBL; BtBR].
Definition speakers : list (Z * list label) :=
  [(0, [L2; R2]); (1, [L5; R5; Centre; LFE; Ls5; Rs5]); (2, [L5; R5; Centre; LFE; Ls5; Rs5; Ltf2; Rtf2]); (3, [L5; R5; Centre; LFE; Ls5; Rs5; Ltf4; Rtf4; Ltb4; Rtb4]);
   (7, s_10293); (8, [L7; R7; Centre; LFE; Lss7; Rss7; Lrs7; Rrs7]); (9, s_714); (10, [L7; R7; Centre; LFE; Lss7; Rss7; Lrs7; Rrs7; Ltf2; Rtf2]);
   (11, [L3; R3; Centre; LFE; Ltf3; Rtf3]); (12, [Mono]); (13, s_916); (14, s_7154)].
(* loudspeaker_layout (IAMF 3.6.2): the sound system it is part of, and its channels *)
Definition layouts : list (Z * Z * list label) :=
  [(0, 12, [Mono]); (1, 0, [L2; R2]); (2, 1, [L5; R5; Centre; LFE; Ls5; Rs5]); (3, 2, [L5; R5; Centre; LFE; Ls5; Rs5; Ltf2; Rtf2]);
   (4, 3, [L5; R5; Centre; LFE; Ls5; Rs5; Ltf4; Rtf4; Ltb4; Rtb4]); (5, 8, [L7; R7; Centre; LFE; Lss7; Rss7; Lrs7; Rrs7]);
   (6, 10, [L7; R7; Centre; LFE; Lss7; Rss7; Lrs7; Rrs7; Ltf2; Rtf2]); (7, 9, s_714); (8, 11, [L3; R3; Centre; LFE; Ltf3; Rtf3])].
(* expanded_loudspeaker_layout: LFE, stereo surrounds, ..., top 4, 3.0, 9.1.6 and its parts, 10.2.9.3 and its parts, 7.1.5.4 and its parts *)
Definition expanded : list (Z * Z * list label) :=
  [(0, 9, [LFE]); (1, 3, [Ls5; Rs5]); (2, 9, [Lss7; Rss7]); (3, 9, [Lrs7; Rrs7]); (4, 9, [Ltf4; Rtf4]); (5, 9, [Ltb4; Rtb4]); (6, 9, [Ltf4; Rtf4; Ltb4; Rtb4]); (7, 9, [L7; R7; Centre]);
   (8, 13, s_916); (9, 13, [FL; FR]); (10, 13, [SiL; SiR]); (11, 13, [TpSiL; TpSiR]); (12, 13, [TpFL; TpFR; TpSiL; TpSiR; TpBL; TpBR]);
   (13, 7, s_10293); (14, 7, [LFE; LFE2]); (15, 7, [BtFC; BtFL; BtFR]); (16, 14, s_7154); (17, 14, [BtFL; BtFR; BtBL; BtBR]); (18, 14, [TpC]); (19, 14, [Ltf4; Rtf4; Ltb4; Rtb4; TpC])].
(* The layer has the channels [chans] of the sound system [ss] *)
Definition layer_on (ly : layer) (ss : Z) (chans : list label) : Prop :=
  In (ly_layout ly, ss, chans) layouts \/ ly_layout ly = 15 /\ exists e, ly_exp ly = Some e /\ In (e, ss, chans) expanded.
(* Binaural channels fit to two loudspeakers too *)
Definition plays_on (ly : layer) (ss : Z) (chans : list label) : Prop := layer_on ly ss chans \/ ly_layout ly = 9 /\ ss = 0 /\ chans = [L2; R2].
(* Each loudspeaker is given its channel, if there is one *)
Definition seats (chans spk : list label) : list slot := map (fun s => if in_dec label_eq_dec s chans then Some s else None) spk.
(* The layers of an element: an expanded one is the only one; loudspeaker_layout 10 to 14 are reserved *)
Definition layers_ok (ls : list layer) : Prop := (exists ly, ls = [ly]) \/ Forall (fun y => 0 <= ly_layout y <= 9) ls.

Section Choose.
Context {T F B C : Type} (E : renv T F B C).
Lemma in_map_eq {X} (P : X -> Prop) (l : list X) : Forall P l -> forall x, In x l -> P x.
Proof. intro H. rewrite Forall_forall in H. exact H. Qed.

Lemma layer_order ly ss chans spk : layer_on ly ss chans -> In (ss, spk) speakers -> channel_order ly = Ok (seats chans spk) /\ input_key ly = Ok ss /\ num_channels 2 (LSs ss 0) = Ok (zlen spk).
Proof.
  intros [H|(H15 & e & He & H)] Hs.
  - unfold channel_order, input_key. destruct ly as [lay l1 l2 l3 l4 l5 l6 l7 l8 l9]. cbn [ly_layout] in *. unfold layouts in H. cbn [In] in H.
    repeat (destruct H as [H|H]; [injection H as <- <- <-; unfold speakers in Hs; cbn [In] in Hs; repeat (destruct Hs as [Hs|Hs]; [first [discriminate Hs | injection Hs as <-; repeat split; reflexivity]|]); destruct Hs|]). destruct H.
  - unfold channel_order, input_key. rewrite H15, He. change (15 =? kExpanded) with true. cbv iota. unfold expanded in H. cbn [In] in H.
    repeat (destruct H as [H|H]; [injection H as <- <- <-; unfold speakers in Hs; cbn [In] in Hs; repeat (destruct Hs as [Hs|Hs]; [first [discriminate Hs | injection Hs as <-; repeat split; reflexivity]|]); destruct Hs|]). destruct H.
Qed.
Lemma system_layout ss lay chans : In (lay, ss, chans) layouts -> layout_of_system ss = Ok lay.
Proof. intro H. unfold layouts in H. cbn [In] in H. repeat (destruct H as [H|H]; [injection H as <- <- <-; reflexivity|]). destruct H. Qed.
Lemma layout_channels ss lay : layout_of_system ss = Ok lay -> exists chans, In (lay, ss, chans) layouts.
Proof.
  unfold layout_of_system. intro H. repeat (match type of H with context[ss =? ?k] => destruct (Z.eqb_spec ss k) as [->|_]; [injection H as <-; eexists; unfold layouts; cbn [In]; first [left; reflexivity|right; left; reflexivity|do 2 right; left; reflexivity|do 3 right; left; reflexivity
    |do 4 right; left; reflexivity|do 5 right; left; reflexivity|do 6 right; left; reflexivity|do 7 right; left; reflexivity|do 8 right; left; reflexivity]|] end). discriminate H.
Qed.
Lemma can_pass_on ly ss chans r : plays_on ly ss chans -> can_pass ly (2, LSs ss r) = Ok true.
Proof.
  unfold can_pass. cbn [fst snd sound_system rbind]. change (2 =? 2) with true. cbv iota. unfold sound_system. cbn [snd rbind]. intros [[H|(H15 & e & He & H)]|(-> & -> & _)].
  - assert (ly_layout ly =? 9 = false) as ->. { unfold layouts in H. cbn [In] in H. repeat (destruct H as [H|H]; [injection H as <- _ _; reflexivity|]). destruct H. } cbn [andb].
    assert (ly_layout ly =? kExpanded = false) as ->. { unfold layouts in H. cbn [In] in H. repeat (destruct H as [H|H]; [injection H as <- _ _; reflexivity|]). destruct H. } cbv iota. rewrite (system_layout _ _ _ H). cbn [rbind]. rewrite Z.eqb_refl. reflexivity.
  - rewrite H15, He. change (15 =? 9) with false. cbn [andb]. change (15 =? kExpanded) with true. cbv iota. unfold expanded in H. cbn [In] in H. repeat (destruct H as [H|H]; [injection H as <- <- _; reflexivity|]). destruct H.
  - reflexivity.
Qed.
Lemma can_pass_not ly ss r x : 0 <= ly_layout ly <= 9 -> layout_of_system ss = Ok x -> (forall c, ~ plays_on ly ss c) -> can_pass ly (2, LSs ss r) = Ok false.
Proof.
  intros Hl Hs Hn. unfold can_pass. cbn [fst]. change (2 =? 2) with true. cbv iota. unfold sound_system. cbn [snd rbind]. 
  replace ((ly_layout ly =? 9) && (ss =? 0)) with false. 2: { symmetry. destruct (Z.eqb_spec (ly_layout ly) 9) as [Q|]; [|reflexivity]. destruct (Z.eqb_spec ss 0) as [Q0|]; [|reflexivity]. exfalso. apply (Hn [L2; R2]). right. auto. }
  replace (ly_layout ly =? kExpanded) with false by (unfold kExpanded; lia). rewrite Hs. cbn [rbind]. f_equal. destruct (Z.eqb_spec x (ly_layout ly)) as [Q|]; [|reflexivity]. exfalso. destruct (layout_channels _ _ Hs) as (c & Hc). apply (Hn c). left. left. rewrite <- Q. exact Hc.
Qed.
Lemma plays_order ly ss chans spk : plays_on ly ss chans -> In (ss, spk) speakers -> channel_order ly = Ok (seats chans spk).
Proof.
  intros [H|(H9 & -> & ->)] Hs; [exact (proj1 (layer_order _ _ _ _ H Hs))|]. unfold channel_order. rewrite H9. unfold speakers in Hs. cbn [In] in Hs. repeat (destruct Hs as [Hs|Hs]; [first [discriminate Hs | injection Hs as <-; reflexivity]|]). destruct Hs.
Qed.
Lemma find_first l ss r chans x : forall pre ly post, l = pre ++ ly :: post -> plays_on ly ss chans -> (pre = [] \/ layout_of_system ss = Ok x) -> (forall y c, In y pre -> 0 <= ly_layout y <= 9 /\ ~ plays_on y ss c) -> find_layer l (2, LSs ss r) = Ok ly.
Proof.
  intros pre ly post -> Hp Hx Hn. induction pre as [|y pre IH]; cbn [app find_layer].
  - rewrite (can_pass_on _ _ _ _ Hp). reflexivity.
  - destruct Hx as [Hx|Hx]; [discriminate Hx|]. rewrite (can_pass_not y ss r x); [cbn [rbind]; apply IH; [right; exact Hx|intros y' c Hy; apply Hn; right; exact Hy]|apply (Hn y [] (or_introl eq_refl))|exact Hx|intro c; apply (Hn y c (or_introl eq_refl))].
Qed.
Lemma plays_system pre ly post ss chans : layers_ok (pre ++ ly :: post) -> plays_on ly ss chans -> exists x, pre = [] \/ layout_of_system ss = Ok x.
Proof.
  intros [(y & H)|H] Hp; [destruct pre as [|y0 pre]; [exists 0; left; reflexivity|destruct pre; discriminate H]|]. apply Forall_app in H as [_ H]. apply Forall_inv in H.
  destruct Hp as [[Hp|(Q & _)]|(Q1 & -> & _)]; [exists (ly_layout ly); right; exact (system_layout _ _ _ Hp)|lia|exists 1; right; reflexivity].
Qed.

(* C62. A layer with the channels of the playback layout is passed through: the first one, each loudspeaker with its channel or silence *)
Theorem C62_pass_through : forall a m mode ls k pre ly post ss r chans spk spf rate,
  ae_type a = 0 -> ae_conf a = ACScal k ls -> layers_ok ls -> ls = pre ++ ly :: post -> plays_on ly ss chans -> In (ss, spk) speakers -> (forall y c, In y pre -> ~ plays_on y ss c) ->
  exists R, new_for_layout E a m mode (2, LSs ss r) spf rate = Ok (Some R) /\ er_kind R = KPass /\ er_labels R = seats chans spk /\ er_spf R = Z.to_nat spf.
Proof.
  intros a m mode ls k pre ly post ss r chans spk spf rate Ht Hc Hl -> Hp Hs Hn. unfold new_for_layout. cbn [fst]. change (2 =? 3) with false. rewrite !andb_false_r. cbv zeta iota. rewrite Ht, Hc. change (0 =? 1) with false. change (0 =? 0) with true. cbv iota.
  destruct (plays_system _ _ _ _ _ Hl Hp) as (x & Hx). unfold new_pass.
  assert (find_layer (pre ++ ly :: post) (2, LSs ss r) = Ok ly) as ->.
  { apply (find_first _ ss r chans x pre ly post); auto. intros y c Hy. split; [|apply Hn; exact Hy]. destruct Hl as [(y0 & Q)|Hl]; [destruct pre as [|y1 pre]; [destruct Hy|destruct pre; discriminate Q]|]. rewrite Forall_forall in Hl. apply Hl. apply in_or_app. left. exact Hy. }
  cbn [rbind]. rewrite (plays_order _ _ _ _ Hp Hs). cbn [rbind or_null]. eexists. split; [reflexivity|]. repeat split.
Qed.
Ltac in_table := unfold expanded; cbn [In]; repeat first [left; reflexivity | right].
Lemma expanded_channels e s : system_of_expanded e = Ok s -> exists chans, In (e, s, chans) expanded.
Proof.
  intro H. assert (0 <= e <= 19) as He. { unfold system_of_expanded in H. destruct (e =? 1) eqn:Q1; [lia|]. destruct ((e =? 0) || _) eqn:Q2; [lia|]. destruct ((8 <=? e) && _) eqn:Q3; [lia|]. destruct ((13 <=? e) && _) eqn:Q4; [lia|]. destruct ((16 <=? e) && _) eqn:Q5; [lia|discriminate H]. }
  assert (In e (map Z.of_nat (seq 0 20))) as Hi. { apply in_map_iff. exists (Z.to_nat e). split; [lia|]. apply in_seq. lia. }
  cbn [In map seq] in Hi. repeat (destruct Hi as [Hi|Hi]; [subst e; vm_compute in H; injection H as <-; eexists; in_table|]). destruct Hi.
Qed.
Lemma can_pass_none ly ss r : (forall c, ~ plays_on ly ss c) -> can_pass ly (2, LSs ss r) = Ok false \/ exists c, can_pass ly (2, LSs ss r) = Err c.
Proof.
  intro Hn. unfold can_pass. cbn [fst]. change (2 =? 2) with true. cbv iota. unfold sound_system. cbn [snd rbind].
  replace ((ly_layout ly =? 9) && (ss =? 0)) with false. 2: { symmetry. destruct (Z.eqb_spec (ly_layout ly) 9) as [Q|]; [|reflexivity]. destruct (Z.eqb_spec ss 0) as [Q0|]; [|reflexivity]. exfalso. apply (Hn [L2; R2]). right. auto. }
  destruct (Z.eqb_spec (ly_layout ly) kExpanded) as [Q|Q].
  - destruct (ly_exp ly) as [e|] eqn:Ee; [|right; eauto]. destruct (system_of_expanded e) as [s|c| | |] eqn:Es; cbn [rbind]; [|right; eauto|..]. 2-4: unfold system_of_expanded in Es; repeat (match type of Es with context[if ?b then _ else _] => destruct b end); discriminate Es.
    left. f_equal. destruct (Z.eqb_spec s ss) as [->|]; [|reflexivity]. exfalso. destruct (expanded_channels _ _ Es) as (c & Hc). apply (Hn c). left. right. split; [exact Q|eauto].
  - destruct (layout_of_system ss) as [x|c| | |] eqn:Es; cbn [rbind]; [|right; eauto|..]. 2-4: unfold layout_of_system in Es; repeat (match type of Es with context[if ?b then _ else _] => destruct b end); discriminate Es.
    left. f_equal. destruct (Z.eqb_spec x (ly_layout ly)) as [Q2|]; [|reflexivity]. exfalso. destruct (layout_channels _ _ Es) as (c & Hc). apply (Hn c). left. left. rewrite <- Q2. exact Hc.
Qed.
Lemma find_none ss r : forall ls, (forall y c, In y ls -> ~ plays_on y ss c) -> exists c, find_layer ls (2, LSs ss r) = Err c.
Proof.
  induction ls as [|y ls IH]; intro H; cbn [find_layer]; [eauto|]. destruct (can_pass_none y ss r (fun c => H y c (or_introl eq_refl))) as [-> |(c & ->)]; cbn [rbind]; [apply IH; intros z c Hz; apply H; right; exact Hz|eauto].
Qed.
(* C62. Otherwise the highest layer is converted with the matrix from its sound system to that of the playback layout, if there is one;
   without one nothing is rendered to this layout. *)
Theorem C62_matrix : forall a m mode ls k ly rest ss r chans spk i g n spf rate,
  ae_type a = 0 -> ae_conf a = ACScal k ls -> (forall y c, In y ls -> ~ plays_on y ss c) -> ls = rest ++ [ly] -> layer_on ly i chans -> In (i, spk) speakers ->
  nth_error [2; 6; 8; 10; 11; 12; 14; 24; 8; 12; 10; 6; 1; 16; 17] (Z.to_nat ss) = Some n -> 0 <= ss ->
  (r_table E (inl i) ss = Ok g ->
   exists R, new_for_layout E a m mode (2, LSs ss r) spf rate = Ok (Some R) /\ er_kind R = KMatrix i ss g /\ er_labels R = seats chans spk /\ er_spf R = Z.to_nat spf) /\
  (forall c, r_table E (inl i) ss = Err c -> new_for_layout E a m mode (2, LSs ss r) spf rate = Ok None).
Proof.
  intros a m mode ls k ly rest ss r chans spk i g n spf rate Ht Hc Hn -> Hl Hs Hss H0. destruct (find_none ss r _ Hn) as (c0 & Hf). destruct (layer_order _ _ _ _ Hl Hs) as (O1 & O2 & _).
  assert (new_pass (rest ++ [ly]) (2, LSs ss r) spf = Err c0 (A := @erend T B)) as Np by (unfold new_pass; rewrite Hf; reflexivity).
  assert (0 <= ss <= 14) as Hr. { split; [exact H0|]. assert (nth_error [2; 6; 8; 10; 11; 12; 14; 24; 8; 12; 10; 6; 1; 16; 17] (Z.to_nat ss) <> None) as Q by congruence. apply nth_error_Some in Q. cbn [length] in Q. lia. }
  assert (forall o : res (list (list T)), r_table E (inl i) ss = o -> new_for_layout E a m mode (2, LSs ss r) spf rate = or_null (rbind o (fun g => Ok (new_renderer (KMatrix i ss g) (seats chans spk) spf n)))) as K.
  { intros o Ho. unfold new_for_layout. cbn [fst]. change (2 =? 3) with false. rewrite !andb_false_r. cbv zeta iota. rewrite Ht, Hc. change (0 =? 1) with false. change (0 =? 0) with true. cbv iota. rewrite Np. cbn [or_null rbind]. unfold new_matrix. rewrite rev_app_distr. cbn [rev app].
    rewrite O1. cbn [rbind]. rewrite O2. cbn [rbind]. unfold output_key. cbn [fst]. change (2 =? 2) with true. cbv iota. unfold sound_system. cbn [snd rbind]. replace ((0 <=? ss) && (ss <=? 14)) with true by lia. cbn [rbind]. rewrite Ho. destruct o; cbn [rbind or_null]; try reflexivity.
    unfold num_channels. cbn [fst snd]. change (2 =? 3) with false. change (2 =? 2) with true. cbv iota. unfold ss_channels. rewrite Hss. reflexivity. }
  split.
  - intro Hg. rewrite (K _ Hg). cbn [rbind or_null]. eexists. split; [reflexivity|]. repeat split.
  - intros c Hg. rewrite (K _ Hg). reflexivity.
Qed.
(* C62. Headphones without the binaural mode are rendered as stereo loudspeakers. *)
Theorem C62_headphones : forall a m mode s spf rate, mode <> 1 -> new_for_layout E a m mode (3, s) spf rate = new_for_layout E a m mode (2, LSs 0 0) spf rate.
Proof. intros a m mode s spf rate Hm. unfold new_for_layout. cbn [fst]. replace (mode =? 1) with false by lia. change (3 =? 3) with true. change (2 =? 3) with false. cbn [andb negb]. reflexivity. Qed.
End Choose.

(* ================= ambisonics, over the real numbers ================= *)
Section Ambi.
Context {B C : Type} (E : renv R R B C).
Hypothesis HA : r_A E = exactR.
(* SPEC: the channel of the element that channel mapping entry [i] stands for: none for 255, otherwise the one channel of substream i *)
Definition mapped (subs : list Z) (m : labmap) (i : Z) (x : slot) : Prop :=
  i = 255 /\ x = None \/ i <> 255 /\ exists s l, nth_error subs (Z.to_nat i) = Some s /\ m_find s m = Some [l] /\ x = Some l.
(* The value of a channel: silence for a missing one *)
Definition value (v : label -> R) (x : slot) : R := match x with Some l => v l | None => 0%R end.
Definition column (c : nat) (rows : list (list R)) (ks : list R) : Prop := Forall2 (fun row k => nth_error row c = Some k) rows ks.
Definition sum (n : nat) (f : nat -> R) : R := Rsum (map f (seq 0 n)).
Definition entry (g : list (list R)) (k c : nat) : R := nth c (nth k g []) 0%R.
(* The playback layout *)
Definition on (ss r : Z) : lay := (2, LSs ss r).

Lemma mono_mapped subs m : forall mapping slots, mono_slots mapping subs m = Ok slots -> Forall2 (mapped subs m) mapping slots.
Proof.
  induction mapping as [|i mp IH]; intros slots H; cbn [mono_slots] in H; [injection H as <-; constructor|].
  destruct (Z.eqb_spec i 255) as [->|N]; cbn [rbind] in H.
  - destruct (mono_slots mp subs m) as [r| | | |]; cbn [rbind] in H; try discriminate H. injection H as <-. constructor; [left; auto|apply IH; reflexivity].
  - destruct (nth_error subs (Z.to_nat i)) as [s|] eqn:Es; [|discriminate H]. destruct (m_find s m) as [[|l [|l' ls]]|] eqn:El; try discriminate H. cbn [rbind] in H. destruct (mono_slots mp subs m) as [r| | | |]; cbn [rbind] in H; try discriminate H. injection H as <-. constructor; [right; split; [exact N|exists s, l; auto]|apply IH; reflexivity].
Qed.
Lemma order_square n o : ambisonics_order n = Ok o -> (o + 1) * (o + 1) = n /\ 0 <= o.
Proof. unfold ambisonics_order. intro H. destruct (find _ _) as [i|] eqn:Ef; [|discriminate H]. injection H as <-. apply find_some in Ef as [F1 F2]. apply in_map_iff in F1 as (j & <- & _). lia. Qed.
Lemma active_sum v c : forall slots (g : list (list R)) ks, length slots = length g -> column c (map snd (active slots g)) ks ->
  dot (map (value v) (map (fun x => Some (fst x)) (active slots g))) ks = Rsum (map (fun p => (value v (fst p) * nth c (snd p) 0)%R) (combine slots g)).
Proof.
  induction slots as [|[l|] slots IH]; intros [|row g] ks L H; try discriminate L; cbn [length] in L.
  - inversion H; subst. reflexivity.
  - unfold active in *. cbn [combine flat_map fst snd app map] in *. inversion H as [|? k ? ks' Hk H']; subst. unfold dot. cbn [combine map]. unfold Rsum at 1. cbn [fold_right fst snd value]. unfold Rsum at 1. cbn [fold_right]. f_equal; [f_equal; symmetry; apply nth_error_nth; exact Hk|]. apply (IH g ks'); [lia|exact H'].
  - unfold active in *. cbn [combine flat_map fst snd app map] in *. unfold Rsum. cbn [fold_right fst snd value]. rewrite Rmult_0_l, Rplus_0_l. apply (IH g ks); [lia|exact H].
Qed.
(* C62. Ambisonics, mono: the channels which are there are rendered with their rows of the matrix of this ambisonics order. *)
Theorem C62_ambisonics_mono : forall n mapping subs m ss r spf rd, new_ambi E (AMono n mapping) subs m (on ss r) spf = Ok rd ->
  exists o g slots rows, (o + 1) * (o + 1) = zlen mapping /\ r_table E (inr o) ss = Ok g /\ length g = length mapping /\ Forall2 (mapped subs m) mapping slots /\
    er_kind rd = KAmbi rows /\ length rows = length (er_labels rd) /\ er_spf rd = Z.to_nat spf /\ er_labels rd <> [] /\
    forall v c ks, column c rows ks -> dot (map (value v) (er_labels rd)) ks = Rsum (map (fun p => (value v (fst p) * nth c (snd p) 0)%R) (combine slots g)).
Proof.
  intros n mapping subs m ss r spf rd H. unfold new_ambi in H. cbn [ambisonics_slots ambisonics_channels] in H. unfold rthen in H. destruct (veq n (zlen subs)) as [[]| | | |]; cbn [rbind] in H; try discriminate H.
  destruct (mono_slots mapping subs m) as [slots| | | |] eqn:Em; cbn [rbind] in H; try discriminate H. unfold output_key, on in H. cbn [fst snd sound_system rbind] in H. change (2 =? 2) with true in H. cbv iota in H. destruct ((0 <=? ss) && (ss <=? 14)); cbn [rbind] in H; try discriminate H.
  destruct (ambisonics_order (zlen mapping)) as [o| | | |] eqn:Eo; cbn [rbind] in H; try discriminate H. destruct (r_table E (inr o) ss) as [g| | | |] eqn:Eg; cbn [rbind] in H; try discriminate H. destruct (num_channels 2 (LSs ss r)) as [nc| | | |]; cbn [rbind] in H; try discriminate H.
  destruct (veq (zlen g) (zlen slots)) as [[]| | | |] eqn:V; cbn [rbind] in H; try discriminate H. assert (length g = length slots) as Lg. { unfold veq, vcond in V. destruct (Z.eqb_spec (zlen g) (zlen slots)); [unfold zlen in *; lia|discriminate V]. }
  pose proof (mono_mapped _ _ _ _ Em) as Fm. pose proof (forall2_length _ _ _ Fm) as Lm. destruct (order_square _ _ Eo) as [Sq _].
  exists o, g, slots, (map snd (active slots g)). split; [exact Sq|]. split; [exact Eg|]. split; [lia|]. split; [exact Fm|].
  destruct (active slots g) as [|a0 act] eqn:Ea; [discriminate H|]. rewrite <- Ea in *. injection H as <-. cbn [new_renderer er_kind er_labels er_spf]. split; [reflexivity|]. split; [rewrite !map_length; reflexivity|]. split; [reflexivity|]. split; [rewrite Ea; discriminate|].
  intros v c ks Hk. apply active_sum; [symmetry; exact Lg|exact Hk].
Qed.

Lemma sum_S n f : sum (S n) f = (f 0%nat + sum n (fun i => f (S i)))%R.
Proof. unfold sum. cbn [seq map]. rewrite <- seq_shift, map_map. reflexivity. Qed.
Lemma sum_ext n f g : (forall i, (i < n)%nat -> f i = g i) -> sum n f = sum n g.
Proof. intro H. unfold sum. f_equal. apply map_ext_in. intros i Hi. apply in_seq in Hi. apply H. lia. Qed.
Lemma sum_plus n f g : (sum n f + sum n g)%R = sum n (fun i => f i + g i)%R.
Proof. revert f g. induction n as [|n IH]; intros f g; [unfold sum; cbn [seq map Rsum fold_right]; lra|]. rewrite !sum_S, <- IH. lra. Qed.
Lemma sum_scale n f a : (a * sum n f)%R = sum n (fun i => a * f i)%R.
Proof. revert f. induction n as [|n IH]; intro f; [unfold sum; cbn [seq map Rsum fold_right]; lra|]. rewrite !sum_S, <- IH. lra. Qed.
Lemma sum_zero n : sum n (fun _ => 0%R) = 0%R.
Proof. induction n as [|n IH]; [reflexivity|]. rewrite sum_S, IH. lra. Qed.
Lemma sum_swap n k f : sum n (fun i => sum k (f i)) = sum k (fun j => sum n (fun i => f i j)).
Proof.
  induction n as [|n IH] in f |- *; [unfold sum at 1; cbn [seq map Rsum fold_right]; symmetry; rewrite <- (sum_zero k); apply sum_ext; intros; reflexivity|].
  rewrite sum_S, IH, sum_plus. apply sum_ext. intros j _. rewrite sum_S. reflexivity.
Qed.
Lemma combine_row_sum k : forall g row acc x, combine_row E row g k acc = Ok x -> x = (acc + sum (length g) (fun j => IZR (nth j row 0%Z) / 32768 * entry g j k))%R.
Proof.
  induction g as [|gr g IH]; intros row acc x H; [destruct row; injection H as <-; unfold sum; cbn [length seq map Rsum fold_right]; lra|]. destruct row as [|z row]; [discriminate H|]. cbn [combine_row] in H. destruct (nth_error gr k) as [y|] eqn:Ey; [|discriminate H].
  rewrite (IH _ _ _ H). cbn [length]. rewrite sum_S. unfold entry at 2. cbn [nth]. rewrite (nth_error_nth _ _ _ Ey). unfold q15. rewrite HA. cbn [exactR a_add a_mul a_lit]. rewrite <- Rplus_assoc. f_equal.
Qed.
Lemma dot_sum : forall xs ks, length xs = length ks -> dot xs ks = sum (length xs) (fun i => nth i xs 0 * nth i ks 0)%R.
Proof.
  induction xs as [|x xs IH]; intros [|k ks] L; try discriminate L; [reflexivity|]. cbn [length] in *. rewrite sum_S. unfold dot. cbn [combine map]. unfold Rsum. cbn [fold_right fst snd nth]. f_equal. apply (IH ks). lia.
Qed.
Lemma nth_chunk {A} (d : A) n j : forall l, (j < n)%nat -> nth j (firstn n l) d = nth j l d.
Proof. revert j. induction n as [|n IH]; intros j l H; [lia|]. destruct l as [|x l]; [destruct j; reflexivity|]. destruct j as [|j]; [reflexivity|]. cbn [firstn nth]. apply IH. lia. Qed.
Lemma nth_skip {A} (d : A) n j : forall l, nth j (skipn n l) d = nth (n + j) l d.
Proof. induction n as [|n IH]; intro l; [reflexivity|]. destruct l as [|x l]; [destruct j; reflexivity|]. cbn [skipn Nat.add nth]. apply IH. Qed.
Lemma projection_all m : forall subs slots, projection_slots subs m = Ok slots -> exists ll, Forall2 (fun s l => m_find s m = Some l) subs ll /\ slots = map Some (concat ll).
Proof.
  induction subs as [|s subs IH]; intros slots H; cbn [projection_slots] in H; [injection H as <-; exists []; split; [constructor|reflexivity]|]. destruct (m_find s m) as [l|] eqn:El; [|discriminate H]. destruct (projection_slots subs m) as [r| | | |]; cbn [rbind] in H; try discriminate H. injection H as <-.
  destruct (IH r eq_refl) as (ll & I1 & I2). exists (l :: ll). split; [constructor; auto|]. cbn [concat]. rewrite map_app, <- I2. reflexivity.
Qed.
(* C62. Ambisonics, projection: the decoded channels - those of the substreams, in order - are multiplied with the demixing matrix (in Q15), and
   the results are rendered with the matrix of this ambisonics order. *)
Theorem C62_ambisonics_projection : forall out ns coupled mat subs m ss r spf rd, new_ambi E (AProj out ns coupled mat) subs m (on ss r) spf = Ok rd ->
  exists o g rows ll, (o + 1) * (o + 1) = out /\ r_table E (inr o) ss = Ok g /\ zlen g = out /\ er_kind rd = KAmbi rows /\ er_spf rd = Z.to_nat spf /\
    Forall2 (fun s l => m_find s m = Some l) subs ll /\ er_labels rd = map Some (concat ll) /\ zlen (concat ll) = ns + coupled /\
    forall v c ks, column c rows ks ->
      dot (map (value v) (er_labels rd)) ks =
      sum (length g) (fun k => sum (length (concat ll)) (fun i => v (nth i (concat ll) Mono) * (IZR (nth (i * length g + k) mat 0%Z) / 32768)) * entry g k c)%R.
Proof.
  intros out ns coupled mat subs m ss r spf rd H. unfold new_ambi in H. cbn [ambisonics_slots ambisonics_channels] in H. unfold rthen in H. destruct (veq ns (zlen subs)) as [[]| | | |]; cbn [rbind] in H; try discriminate H.
  destruct (projection_slots subs m) as [slots| | | |] eqn:Em; cbn [rbind] in H; try discriminate H. destruct (veq (zlen slots) (ns + coupled)) as [[]| | | |] eqn:V0; cbn [rbind] in H; try discriminate H. unfold output_key, on in H. cbn [fst snd sound_system rbind] in H. change (2 =? 2) with true in H. cbv iota in H. destruct ((0 <=? ss) && (ss <=? 14)); cbn [rbind] in H; try discriminate H.
  destruct (ambisonics_order out) as [o| | | |] eqn:Eo; cbn [rbind] in H; try discriminate H. destruct (r_table E (inr o) ss) as [g| | | |] eqn:Eg; cbn [rbind] in H; try discriminate H. destruct (num_channels 2 (LSs ss r)) as [nc| | | |]; cbn [rbind] in H; try discriminate H.
  destruct (combined_gains E out (ns + coupled) mat g) as [g1| | | |] eqn:Ec; cbn [rbind] in H; try discriminate H. injection H as <-. destruct (order_square _ _ Eo) as [Sq _]. destruct (projection_all _ _ _ Em) as (ll & P1 & P2).
  assert (zlen slots = ns + coupled) as Zs by (unfold veq, vcond in V0; destruct (Z.eqb_spec (zlen slots) (ns + coupled)); [assumption|discriminate V0]).
  unfold combined_gains, rthen in Ec. destruct (veq (zlen g) out) as [[]| | | |] eqn:V; cbn [rbind] in Ec; try discriminate Ec. assert (zlen g = out) as Zg by (unfold veq, vcond in V; destruct (Z.eqb_spec (zlen g) out); [assumption|discriminate V]).
  cbv zeta in Ec. destruct (negb _); [discriminate Ec|]. assert (Z.to_nat out = length g) as Lo by (unfold zlen in Zg; lia). rewrite Lo in Ec. apply rmap_ok in Ec.
  exists o, g, g1, ll. cbn [new_renderer er_kind er_labels er_spf]. split; [exact Sq|]. split; [exact Eg|]. split; [exact Zg|]. split; [reflexivity|]. split; [reflexivity|]. split; [exact P1|]. split; [exact P2|]. split; [rewrite <- Zs, P2; unfold zlen; rewrite map_length; reflexivity|].
  intros v c ks Hk. rewrite P2. rewrite map_map. change (fun x => value v (Some x)) with v.
  assert (length g1 = length (concat ll)) as L1. { pose proof (forall2_length _ _ _ Ec) as Q. rewrite seq_length in Q. rewrite P2 in Zs. unfold zlen in Zs. rewrite map_length in Zs. lia. }
  pose proof (forall2_length _ _ _ Hk) as Lk. rewrite dot_sum by (rewrite map_length; lia). rewrite map_length.
  transitivity (sum (length (concat ll)) (fun i => sum (length g) (fun k => v (nth i (concat ll) Mono) * (IZR (nth (i * length g + k) mat 0%Z) / 32768) * entry g k c)))%R.
  - apply sum_ext. intros i Hi. rewrite (nth_indep _ 0%R (v Mono)) by (rewrite map_length; exact Hi). rewrite map_nth.
    assert (exists row, nth_error g1 i = Some row) as (row & Hrow). { destruct (nth_error g1 i) as [row|] eqn:Er; [eauto|]. apply nth_error_None in Er. lia. }
    destruct (forall2_nth_l _ _ _ _ _ Hk Hrow) as (k0 & K1 & K2). rewrite (nth_error_nth _ _ _ K1). destruct (forall2_nth _ _ _ _ _ Ec Hrow) as (i' & I1 & I2). assert (i' = i) as ->. { rewrite (nth_error_nth' _ O) in I1 by (rewrite seq_length; pose proof (forall2_length _ _ _ Ec) as Q; rewrite seq_length in Q; lia). injection I1 as <-. rewrite seq_nth by (pose proof (forall2_length _ _ _ Ec) as Q; rewrite seq_length in Q; lia). reflexivity. }
    apply rmap_ok in I2. destruct (forall2_nth _ _ _ _ _ I2 K2) as (c' & C1 & C2). assert (c' = c) as ->. { assert (c < first_ticks g)%nat as Lc. { pose proof (forall2_length _ _ _ I2) as Q. rewrite seq_length in Q. rewrite Q. apply nth_error_Some. congruence. } rewrite (nth_error_nth' _ O) in C1 by (rewrite seq_length; exact Lc). injection C1 as <-. rewrite seq_nth by exact Lc. reflexivity. }
    rewrite (combine_row_sum _ _ _ _ _ C2). unfold zero. rewrite HA. cbn [exactR a_lit]. rewrite Rplus_assoc || idtac. replace (IZR 0 / IZR 1)%R with 0%R by lra. rewrite Rplus_0_l, sum_scale. apply sum_ext. intros j Hj. rewrite nth_chunk by exact Hj. rewrite nth_skip. unfold entry. lra.
  - rewrite sum_swap. apply sum_ext. intros k _. rewrite (Rmult_comm _ (entry g k c)), sum_scale. apply sum_ext. intros i _. lra.
Qed.

Ltac mix_case := cbn [nth_error] in *; repeat match goal with K : Some _ = Some ?y |- _ => is_var y; injection K as K; subst y end;
  unfold dot, s_714; cbn [map combine]; unfold Rsum; cbn [fold_right fst snd mixdown]; unfold left3, right3, front3, at5, top3, top2, surround5;
  change (7 =? 7)%Z with true; change (4 =? 4)%Z with true; change (4 =? 2)%Z with false; change (5 <=? 7)%Z with true; change (7 =? 5)%Z with false; cbv iota; ring.
(* C62. With the down-mixing parameters of the bitstream, 7.1.4 is played on 3.1.2 and on 7.1.2 as the down-mix of IAMF 7.2 (the one of C59);
   otherwise these parameters have no influence. *)
Theorem C62_dynamic : forall p inp out g v, dynamic_gains E (Some p) inp out = Some g -> 
  d_in p = true /\ inp = 9 /\ (out = 11 \/ out = 10) /\ length g = length s_714 /\
  forall spk c l ks, In (out, spk) speakers -> nth_error spk c = Some l -> column c g ks -> dot (map v s_714) ks = mixdown p 7 4 v l.
Proof.
  intros p inp out g v H. unfold dynamic_gains in H. destruct (d_in p); cbn [negb] in H; [|discriminate H]. destruct (negb (has_height out) && has_height inp); [discriminate H|]. unfold compute_gains in H.
  assert (zero E = 0%R) as Z0 by (unfold zero; rewrite HA; cbn [exactR a_lit]; lra). assert (one E = 1%R) as O0 by (unfold one; rewrite HA; cbn [exactR a_lit]; lra). rewrite Z0, O0, HA in H. cbn [exactR a_mul] in H.
  destruct ((inp =? 9) && (out =? 11)) eqn:Q1; [|destruct ((inp =? 9) && (out =? 10)) eqn:Q2; [|discriminate H]]; injection H as <-.
  - assert (inp = 9 /\ out = 11) as [-> ->] by lia. split; [reflexivity|]. split; [reflexivity|]. split; [left; reflexivity|]. split; [reflexivity|]. intros spk c l ks Hs Hl Hk. unfold speakers in Hs. cbn [In] in Hs. repeat (destruct Hs as [Hs|Hs]; [first [discriminate Hs|injection Hs as <-]|]); [|destruct Hs].
    unfold column in Hk. repeat (match goal with Hk : Forall2 _ (_ :: _) _ |- _ => inversion Hk as [|? ? ? ? ?K Hk']; subst; clear Hk; rename Hk' into Hk end). inversion Hk; subst. 
    repeat (destruct c as [|c]; [mix_case|]). destruct c; discriminate Hl.
  - assert (inp = 9 /\ out = 10) as [-> ->] by lia. split; [reflexivity|]. split; [reflexivity|]. split; [right; reflexivity|]. split; [reflexivity|]. intros spk c l ks Hs Hl Hk. unfold speakers in Hs. cbn [In] in Hs. repeat (destruct Hs as [Hs|Hs]; [first [discriminate Hs|injection Hs as <-]|]); [|destruct Hs].
    unfold column in Hk. repeat (match goal with Hk : Forall2 _ (_ :: _) _ |- _ => inversion Hk as [|? ? ? ? ?K Hk']; subst; clear Hk; rename Hk' into Hk end). inversion Hk; subst.
    repeat (destruct c as [|c]; [mix_case|]). destruct c; discriminate Hl.
Qed.
End Ambi.

(* A renderer environment over the real numbers with a table for first-order ambisonics on two loudspeakers *)
Definition row4 : list (list R) := [[1; 1]; [1; -1]; [0; 0]; [1 / 2; 1 / 2]]%R.
Definition Ereal : renv R R unit unit :=
  mkRenv exactR (fun _ => 1%R) (fun _ _ _ _ => 1%R) (fun _ _ _ _ _ _ => 1%R) (fun x => x) Rmult
    (fun i ss => match i with inr o => if (o =? 1) && (ss =? 0) then Ok row4 else Err InvalidArgument | inl i => if (i =? 0) && (ss =? 1) then Ok [[1; 0; 0; 0; 0; 0]; [0; 1; 0; 0; 0; 0]]%R else Err InvalidArgument end)
    (fun _ _ _ => None) (fun b _ => (UB, b)) (fun _ _ => UB) (fun c _ => (UB, c)) true true.
Definition ly_ex (l : Z) (e : option Z) : layer := mkLy l false false 0 1 1 0 0 0 e.
Definition ae_ex (ls : list layer) : aelem := mkAE 3 0 0 7 [20] [] (ACScal 0 ls).
Definition p_ex : @dparams R := mkDp (1 / 2)%R (7 / 10)%R (9 / 10)%R (8 / 10)%R (1 / 4)%R true.
Example C62_ex :
  (* stereo and 5.1 layers on 5.1: the second layer; stereo alone: its matrix; the front pair of 9.1.6 on 9.1.6; binaural channels on stereo *)
  (exists R, new_for_layout Ereal (ae_ex [ly_ex 1 None; ly_ex 2 None]) [] 0 (on 1 0) 8 48000 = Ok (Some R) /\ er_kind R = KPass /\ er_labels R = map Some [L5; R5; Centre; LFE; Ls5; Rs5]) /\
  (exists R, new_for_layout Ereal (ae_ex [ly_ex 1 None]) [] 0 (on 1 0) 8 48000 = Ok (Some R) /\ er_kind R = KMatrix 0 1 [[1; 0; 0; 0; 0; 0]; [0; 1; 0; 0; 0; 0]]%R /\ er_labels R = [Some L2; Some R2]) /\
  new_for_layout Ereal (ae_ex [ly_ex 1 None]) [] 0 (on 2 0) 8 48000 = Ok None /\
  (exists R, new_for_layout Ereal (ae_ex [ly_ex 15 (Some 9)]) [] 0 (on 13 0) 8 48000 = Ok (Some R) /\ er_kind R = KPass /\ er_labels R = Some FL :: Some FR :: repeat None 14) /\
  (exists R, new_for_layout Ereal (ae_ex [ly_ex 9 None]) [] 0 (3, LRb 0) 8 48000 = Ok (Some R) /\ er_kind R = KPass /\ er_labels R = [Some L2; Some R2]) /\
  (* the second of four ambisonics channels is missing *)
  (exists R, new_ambi Ereal (AMono 3 [0; 255; 1; 2]) [20; 21; 22] [(20, [LA 0]); (21, [LA 2]); (22, [LA 3])] (on 0 0) 8 = Ok R /\ er_labels R = [Some (LA 0); Some (LA 2); Some (LA 3)] /\ er_kind R = KAmbi [[1; 1]; [0; 0]; [1 / 2; 1 / 2]]%R) /\
  (* a mono stream, projected to all four *)
  (exists R rows, new_ambi Ereal (AProj 4 1 0 [32767; -32768; 0; 0]) [20] [(20, [LA 0])] (on 0 0) 8 = Ok R /\ er_labels R = [Some (LA 0)] /\ er_kind R = KAmbi rows /\ exists x y, rows = [[x; y]] /\ (x = -1 / 32768 /\ y = 32767 / 32768 + 1)%R) /\
  (exists g, dynamic_gains Ereal (Some p_ex) 9 11 = Some g /\ length g = 12%nat) /\ dynamic_gains Ereal (Some p_ex) 9 1 = None.
Proof.
  repeat match goal with |- _ /\ _ => split end.
  - eexists. repeat split.
  - eexists. repeat split.
  - reflexivity.
  - eexists. repeat split.
  - eexists. repeat split.
  - eexists. repeat split.
  - eexists. eexists. split; [reflexivity|]. split; [reflexivity|]. split; [reflexivity|]. eexists. eexists. split; [reflexivity|]. unfold q15, zero. cbn. lra.
  - eexists. split; reflexivity.
  - reflexivity.
Qed.
