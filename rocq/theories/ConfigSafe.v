(* Creating the renderers never crashes, and what they are created with. *)
From Verif Require Import Base WriteBuf ObuHeader SimpleObus CodecConfig Params AudioElement MixPresentation Timing ParamManager AeData
  Profile MixSelect PropsAE PropsParams MixGain PropsGain Processor Demix DemixFacts PropsDemix Render RenderFacts PropsRender PropsHistory RenderSafe RenderUnitSafe.

(* ================= SPEC ================= *)
(* A loudspeaker layout names its sound system, as the parser makes them. *)
Definition good_lay (l : lay) : Prop := fst l = 2 -> exists ss r, snd l = LSs ss r.

Lemma veqok a b : veq a b = Ok tt -> a = b. Proof. unfold veq, vcond. destruct (Z.eqb_spec a b); [auto|discriminate]. Qed.
Ltac ends_ifs := repeat match goal with |- ends (if ?b then _ else _) => destruct b end; try apply ends_ok; try apply ends_err.

Lemma ear_order_ends x : ends (ear_order x) /\ forall l, ear_order x = Ok l -> l <> [].
Proof. unfold ear_order. split; [ends_ifs|]. intro l. repeat match goal with |- context[if ?b then _ else _] => destruct b end; intro H; try discriminate H; injection H as <-; discriminate. Qed.
Lemma ear_order_expanded_ends x : ends (ear_order_expanded x) /\ forall l, ear_order_expanded x = Ok l -> l <> [].
Proof. unfold ear_order_expanded. split; [ends_ifs|]. intro l. repeat match goal with |- context[if ?b then _ else _] => destruct b end; intro H; try discriminate H; injection H as <-; discriminate. Qed.
Lemma channel_order_ends ly : ends (channel_order ly) /\ forall l, channel_order ly = Ok l -> l <> [].
Proof.
  unfold channel_order. destruct (ly_layout ly =? kExpanded); [destruct (ly_exp ly); [apply ear_order_expanded_ends|split; [apply ends_err|discriminate]]|].
  destruct (ear_order_ends (ly_layout ly)) as [A1 A2]. split; [apply ends_bind; [exact A1|intros; apply ends_ok]|]. intros l H. destruct (ear_order (ly_layout ly)) as [x|c| | |]; try discriminate H.
  cbn [rbind] in H. injection H as <-. specialize (A2 x eq_refl). destruct x; [congruence|discriminate].
Qed.
Lemma reconstruct_ends a : aelem_valid a -> ends (labels_to_reconstruct a).
Proof.
  intros (_ & _ & _ & _ & A1 & _). unfold labels_to_reconstruct. destruct (ae_type a =? 0) eqn:T0; [|ends_ifs]. destruct (A1 ltac:(lia)) as (r & l & -> & _).
  destruct (rev l) as [|ly ls]; [apply ends_err|]. unfold reconstruct_labels. destruct (_ =? _); [destruct (ly_exp ly)|]; ends_ifs; try apply ear_order_ends.
Qed.
Lemma sound_system_ends l : good_lay l -> fst l = 2 -> ends (sound_system l).
Proof. intros G F. unfold sound_system. destruct (G F) as (ss & r & ->). apply ends_ok. Qed.
Lemma system_of_expanded_ends e : ends (system_of_expanded e). Proof. unfold system_of_expanded. ends_ifs. Qed.
Lemma layout_of_system_ends e : ends (layout_of_system e). Proof. unfold layout_of_system. ends_ifs. Qed.
Lemma output_key_ends l : good_lay l -> ends (output_key l).
Proof. intro G. unfold output_key. destruct (fst l =? 2) eqn:Q; [|apply ends_err]. apply ends_bind; [apply sound_system_ends; [exact G|lia]|]. intros. ends_ifs. Qed.
Lemma input_key_ends ly : ends (input_key ly).
Proof. unfold input_key. destruct (_ =? _); [destruct (ly_exp ly); [apply system_of_expanded_ends|apply ends_err]|]. destruct (find _ _); [apply ends_ok|apply ends_err]. Qed.
Lemma can_pass_ends ly l : good_lay l -> ends (can_pass ly l).
Proof.
  intro G. unfold can_pass. destruct (fst l =? 2) eqn:Q.
  - apply ends_bind; [apply sound_system_ends; [exact G|lia]|]. intros ss _. destruct (_ && _); [apply ends_ok|]. destruct (ly_layout ly =? kExpanded).
    + destruct (ly_exp ly); [|apply ends_err]. apply ends_bind; [apply system_of_expanded_ends|intros; apply ends_ok].
    + apply ends_bind; [apply layout_of_system_ends|intros; apply ends_ok].
  - ends_ifs.
Qed.
Lemma find_layer_ends l : good_lay l -> forall ls, ends (find_layer ls l).
Proof. intro G. induction ls as [|ly ls IH]; cbn [find_layer]; [apply ends_err|]. apply ends_bind; [apply can_pass_ends; exact G|]. intros b _. destruct b; [apply ends_ok|exact IH]. Qed.
Lemma num_channels_ends l : good_lay l -> ends (num_channels (fst l) (snd l)).
Proof.
  intro G. unfold num_channels. destruct (fst l =? 3); [apply ends_ok|]. destruct (fst l =? 2) eqn:Q; [|apply ends_err]. destruct (G ltac:(lia)) as (ss & r & ->). destruct (nth_error _ _); [apply ends_ok|apply ends_err].
Qed.
Lemma order_ends n : ends (ambisonics_order n). Proof. unfold ambisonics_order. destruct (find _ _); [apply ends_ok|apply ends_err]. Qed.
Lemma or_null_ends {X} (r : res X) : ends r -> ends (or_null r). Proof. intros [[x ->]|[e ->]]; apply ends_ok. Qed.

Lemma mono_slots_ends subs m : forall mapping, (forall i, In i mapping -> i = 255 \/ 0 <= i < zlen subs) -> ends (mono_slots mapping subs m).
Proof.
  induction mapping as [|i mapping IH]; intro H; cbn [mono_slots]; [apply ends_ok|]. apply ends_bind.
  - destruct (Z.eqb_spec i 255); [apply ends_ok|]. destruct (H i (or_introl eq_refl)) as [|R]; [congruence|]. destruct (nth_error subs (Z.to_nat i)) as [s|] eqn:Q; [|apply nth_error_None in Q; unfold zlen in R; lia].
    destruct (m_find s m) as [[|l [|]]|]; first [apply ends_ok|apply ends_err].
  - intros x _. apply ends_bind; [apply IH; intros j Hj; apply H; right; exact Hj|]. intros; apply ends_ok.
Qed.
Lemma mono_slots_spec subs m : forall mapping ls, mono_slots mapping subs m = Ok ls -> Forall2 (fun i x => x = None <-> i = 255) mapping ls.
Proof.
  induction mapping as [|i mapping IH]; intros ls H; cbn [mono_slots] in H; [injection H as <-; constructor|].
  match type of H with rbind ?q _ = _ => destruct q as [x|c| | |] eqn:Ex end; cbn [rbind] in H; try discriminate H. destruct (mono_slots mapping subs m) as [r|c| | |]; cbn [rbind] in H; try discriminate H. injection H as <-.
  constructor; [|apply IH; reflexivity]. destruct (Z.eqb_spec i 255) as [E|E]; [injection Ex as <-; tauto|]. destruct (nth_error subs (Z.to_nat i)); [|discriminate Ex]. destruct (m_find z m) as [[|l [|]]|]; try discriminate Ex. injection Ex as <-. split; [discriminate|contradiction].
Qed.
Lemma projection_slots_ends m : forall subs, ends (projection_slots subs m).
Proof. induction subs as [|s subs IH]; cbn [projection_slots]; [apply ends_ok|]. destruct (m_find s m); [|apply ends_err]. apply ends_bind; [exact IH|intros; apply ends_ok]. Qed.
Lemma ambisonics_slots_ends c subs m : ambi_valid (zlen subs) c -> ends (ambisonics_slots c subs m) /\
  forall ls, ambisonics_slots c subs m = Ok ls -> ls <> [] /\ match c with AMono _ mapping => zlen ls = zlen mapping /\ exists l, In (Some l) ls | AProj _ n k _ => zlen ls = n + k end.
Proof.
  unfold ambisonics_slots, rthen. destruct c as [n mapping|o n k mat]; cbn [ambi_valid].
  - intros (_ & -> & V1 & V2 & V3). split; [apply ends_bind; [apply ends_veq|]; intros _ _; apply mono_slots_ends; exact V2|].
    intros ls H. destruct (veq _ _); cbn [rbind] in H; try discriminate H. pose proof (mono_slots_spec _ _ _ _ H) as F.
    assert (exists l, In (Some l) ls) as [l Hl]. { destruct (In_nth_error _ _ (V3 0 ltac:(lia))) as [i Hi]. destruct (forall2_nth_l _ _ _ _ _ F Hi) as (x & Hx & K). destruct x as [l|]; [exists l; exact (nth_error_In _ _ Hx)|]. destruct K as [K _]. specialize (K eq_refl). discriminate K. }
    split; [intros ->; destruct Hl|]. split; [|eauto]. unfold zlen. rewrite (forall2_length _ _ _ F). reflexivity.
  - intros (_ & -> & V1 & V2 & V3). split; [apply ends_bind; [apply ends_veq|]; intros _ _; apply ends_bind; [apply projection_slots_ends|]; intros; apply ends_bind; [apply ends_veq|intros; apply ends_ok]|].
    intros ls H. destruct (veq (zlen subs) (zlen subs)); cbn [rbind] in H; try discriminate H. destruct (projection_slots subs m) as [l|e| | |]; cbn [rbind] in H; try discriminate H.
    destruct (veq (zlen l) (zlen subs + k)) as [[]|e| | |] eqn:Ev; cbn [rbind] in H; try discriminate H. injection H as <-. apply veqok in Ev. split; [intros ->; unfold zlen in *; cbn [length] in *; lia|lia].
Qed.

Section Config.
Context {T F B C : Type} (E : renv T F B C).
Notation chan := (@samples T).
Variable Fine : C -> Prop.
Hypothesis Et : tame E Fine.
(* A renderer as created: no samples in it, of the frame size, for at least one channel *)
Definition fresh (spf : Z) (r : @erend T B) : Prop := rect_kind (er_kind r) /\ clean (er_out r) /\ er_spf r = Z.to_nat spf /\ er_labels r <> [].

Lemma clean_repeat n : clean (repeat ([] : chan) n). Proof. unfold clean. apply Forall_forall. intros x Hx. apply repeat_spec in Hx. exact Hx. Qed.
Lemma new_fresh k ls spf n : rect_kind (k : @rkind T B) -> ls <> [] -> fresh spf (new_renderer k ls spf n).
Proof. intros H1 H2. split; [exact H1|]. split; [apply clean_repeat|]. split; [reflexivity|exact H2]. Qed.
Lemma new_pass_safe ls l spf : good_lay l -> ends (new_pass (T:=T) (B:=B) ls l spf) /\ forall r, new_pass ls l spf = Ok r -> fresh spf r.
Proof.
  intro G. unfold new_pass. split.
  - apply ends_bind; [apply find_layer_ends; exact G|]. intros ly _. apply ends_bind; [apply channel_order_ends|]. intros; apply ends_ok.
  - intros r H. destruct (find_layer ls l) as [ly|c| | |]; cbn [rbind] in H; try discriminate H. destruct (channel_order ly) as [o|c| | |] eqn:Eo; cbn [rbind] in H; try discriminate H. injection H as <-.
    apply new_fresh; [exact I|exact (proj2 (channel_order_ends ly) _ Eo)].
Qed.
Lemma new_matrix_safe ls l spf : good_lay l -> ends (new_matrix E ls l spf) /\ forall r, new_matrix E ls l spf = Ok r -> fresh spf r.
Proof.
  intro G. unfold new_matrix. destruct (rev ls) as [|ly t]; [split; [apply ends_err|discriminate]|]. split.
  - apply ends_bind; [apply channel_order_ends|]. intros o _. apply ends_bind; [apply input_key_ends|]. intros i _. apply ends_bind; [apply output_key_ends; exact G|]. intros k _.
    apply ends_bind; [apply (tame_table E Fine Et)|]. intros g _. apply ends_bind; [apply num_channels_ends; exact G|]. intros; apply ends_ok.
  - intros r H. destruct (channel_order ly) as [o|c| | |] eqn:Eo; cbn [rbind] in H; try discriminate H. destruct (input_key ly) as [i|c| | |]; cbn [rbind] in H; try discriminate H.
    destruct (output_key l) as [k|c| | |]; cbn [rbind] in H; try discriminate H. destruct (r_table E (inl i) k) as [g|c| | |] eqn:Eg; cbn [rbind] in H; try discriminate H.
    destruct (num_channels _ _) as [n|c| | |]; cbn [rbind] in H; try discriminate H. injection H as <-. apply new_fresh; [exact (proj2 (tame_table E Fine Et _ _) _ Eg)|exact (proj2 (channel_order_ends ly) _ Eo)].
Qed.
Lemma combine_row_ends k : forall row g acc, (length g <= length row)%nat -> Forall (fun r : list T => (k < length r)%nat) g -> ends (combine_row E row g k acc).
Proof.
  induction row as [|v row IH]; intros g acc L H; destruct g as [|gr g]; cbn [combine_row]; try apply ends_ok; [cbn [length] in L; lia|]. inversion H as [|? ? H1 H2]; subst.
  destruct (nth_error gr k) eqn:Q; [apply IH; [cbn [length] in L; lia|exact H2]|apply nth_error_None in Q; lia].
Qed.
Lemma combined_safe out nin mat g : 0 <= nin -> 0 < out -> zlen mat = nin * out -> rect g -> ends (combined_gains E out nin mat g) /\ forall x, combined_gains E out nin mat g = Ok x -> rect x.
Proof.
  intros Hn Ho Hm Hr. unfold combined_gains, rthen. destruct (veq (zlen g) out) as [[]|c| | |] eqn:Ev; cbn [rbind]; try (unfold veq, vcond in Ev; destruct (_ =? _) in Ev; discriminate Ev); [|split; [apply ends_err|discriminate]].
  apply veqok in Ev. cbv zeta. destruct (forallb _ g) eqn:Ef; cbn [negb]; [|split; [apply ends_err|discriminate]]. rewrite forallb_forall in Ef. split.
  - apply rmap_ends. intros i Hi. apply rmap_ends. intros k Hk. apply in_seq in Hi, Hk. apply combine_row_ends.
    + rewrite firstn_length, skipn_length. unfold zlen in *. nia.
    + apply Forall_forall. intros r Hin. specialize (Ef r Hin). apply Nat.eqb_eq in Ef. lia.
  - intros x H. exists (first_ticks g). apply rmap_ok in H. apply Forall_forall. intros row Hrow. apply In_nth_error in Hrow as [i Hi]. destruct (forall2_nth _ _ _ _ _ H Hi) as (j & _ & Hj). apply rmap_length in Hj. rewrite seq_length in Hj. exact Hj.
Qed.
Lemma active_in {X} ls (g : list X) l x : In (l, x) (active ls g) -> In x g.
Proof. unfold active. intro H. apply in_flat_map in H as ([[y|] z] & H1 & H2); [|destruct H2]. cbn [fst snd] in H2. destruct H2 as [H2|[]]. injection H2 as <- <-. exact (in_combine_r _ _ _ _ H1). Qed.
Lemma active_nonempty {X} ls (g : list X) : length g = length ls -> (exists l, In (Some l) ls) -> active ls g <> [].
Proof.
  revert g. induction ls as [|a ls IH]; intros [|x g] L [l Hl]; try discriminate L; [destruct Hl|]. unfold active in *. cbn [combine flat_map fst snd]. destruct a as [y|]; [discriminate|]. cbn [app].
  apply IH; [cbn [length] in L; lia|]. destruct Hl as [Hl|Hl]; [discriminate|eauto].
Qed.
Lemma new_ambi_safe c subs m l spf : ambi_valid (zlen subs) c -> good_lay l -> ends (new_ambi E c subs m l spf) /\ forall r, new_ambi E c subs m l spf = Ok r -> fresh spf r.
Proof.
  intros V G. unfold new_ambi. destruct (ambisonics_slots_ends c subs m V) as [S1 S2].
  destruct (ambisonics_slots c subs m) as [ls|e| | |]; try (destruct S1 as [[? S1]|[? S1]]; discriminate S1); cbn [rbind]; [|split; [apply ends_err|discriminate]]. destruct (S2 ls eq_refl) as [Ne S3]. clear S1 S2.
  pose proof (output_key_ends l G) as K1. destruct (output_key l) as [k|e| | |]; try (destruct K1 as [[? K1]|[? K1]]; discriminate K1); cbn [rbind]; [|split; [apply ends_err|discriminate]].
  pose proof (order_ends (ambisonics_channels c)) as K2. destruct (ambisonics_order _) as [o|e| | |]; try (destruct K2 as [[? K2]|[? K2]]; discriminate K2); cbn [rbind]; [|split; [apply ends_err|discriminate]].
  destruct (tame_table E Fine Et (inr o) k) as [K3 K4]. destruct (r_table E (inr o) k) as [g|e| | |]; try (destruct K3 as [[? K3]|[? K3]]; discriminate K3); cbn [rbind]; [|split; [apply ends_err|discriminate]]. specialize (K4 g eq_refl).
  pose proof (num_channels_ends l G) as K5. destruct (num_channels _ _) as [n|e| | |]; try (destruct K5 as [[? K5]|[? K5]]; discriminate K5); cbn [rbind]; [|split; [apply ends_err|discriminate]].
  destruct c as [ns mapping|out ns cp mat].
  - destruct S3 as [S3 S4]. unfold rthen. destruct (veq (zlen g) (zlen ls)) as [[]|e| | |] eqn:Ev; cbn [rbind]; try (unfold veq, vcond in Ev; destruct (_ =? _) in Ev; discriminate Ev); [|split; [apply ends_err|discriminate]].
    apply veqok in Ev. cbv zeta. assert (length g = length ls) as El by (apply Nat2Z.inj; exact Ev). pose proof (active_nonempty ls g El S4) as Na. destruct (active ls g) as [|p act] eqn:Ea; [congruence|]. rewrite <- Ea in *. split; [rewrite Ea; apply ends_ok|].
    intros r H. assert (r = new_renderer (KAmbi (map snd (active ls g))) (map (fun x : label * list T => Some (fst x)) (active ls g)) spf n) as -> by (rewrite Ea in *; injection H as <-; reflexivity).
    apply new_fresh; [|rewrite Ea; discriminate]. cbn [rect_kind]. destruct K4 as [w Hw]. exists w. rewrite Forall_forall in *. intros row Hrow. apply in_map_iff in Hrow as ([l0 x] & <- & Hin). apply Hw. exact (active_in _ _ _ _ Hin).
  - cbn [ambi_valid] in V. destruct V as ((q & Q1 & Q2) & -> & V1 & V2 & V3).
    destruct (combined_safe out (zlen subs + cp) mat g ltac:(lia) ltac:(nia) V3 K4) as [C1 C2]. destruct (combined_gains E out _ mat g) as [x|e| | |]; try (destruct C1 as [[? C1]|[? C1]]; discriminate C1); cbn [rbind]; [|split; [apply ends_err|discriminate]].
    split; [apply ends_ok|]. intros r H. injection H as <-. apply new_fresh; [exact (C2 x eq_refl)|exact Ne].
Qed.
Lemma new_binaural_safe a (ls : res (list slot)) mat spf rate : ends ls -> (forall o, ls = Ok o -> o <> []) -> ends (new_binaural E a ls mat spf rate) /\ forall r, new_binaural E a ls mat spf rate = Ok r -> fresh spf r.
Proof.
  intros H1 H2. unfold new_binaural. destruct (r_obr_new E a spf rate); [|split; [apply ends_err|discriminate]]. destruct ls as [o|e| | |]; try (destruct H1 as [[? H1]|[? H1]]; discriminate H1); cbn [rbind]; [|split; [apply ends_err|discriminate]].
  split; [apply ends_ok|]. intros r H. injection H as <-. apply new_fresh; [exact I|exact (H2 o eq_refl)].
Qed.
Lemma or_null_safe {X} (q : res X) (P : X -> Prop) : ends q /\ (forall x, q = Ok x -> P x) -> ends (or_null q) /\ forall x, or_null q = Ok (Some x) -> P x.
Proof. intros [H1 H2]. split; [apply or_null_ends; exact H1|]. intros x H. destruct q; try discriminate H. injection H as <-. apply H2. reflexivity. Qed.
Lemma new_for_layout_safe a m mode l spf rate : aelem_valid a -> good_lay l ->
  ends (new_for_layout E a m mode l spf rate) /\ forall r, new_for_layout E a m mode l spf rate = Ok (Some r) -> fresh spf r.
Proof.
  intros (_ & _ & _ & _ & A0 & A1 & _) G. unfold new_for_layout. cbv zeta. set (bin := (mode =? 1) && (fst l =? 3)). set (l1 := if negb bin && (fst l =? 3) then kStereo else l).
  assert (good_lay l1) as G1. { unfold l1. destruct (negb bin && (fst l =? 3)); [intros _; exists 0, 0; reflexivity|exact G]. } clearbody l1 bin.
  destruct (ae_type a =? 1) eqn:T1.
  - destruct (A1 ltac:(lia)) as (c & -> & V). apply or_null_safe. destruct (ambisonics_slots_ends c (ae_subs a) m V) as [S1 S2].
    destruct bin; [apply new_binaural_safe; [exact S1|intros o Ho; exact (proj1 (S2 o Ho))]|apply new_ambi_safe; assumption].
  - destruct (ae_type a =? 0) eqn:T0; [|split; [apply ends_ok|discriminate]]. destruct (A0 ltac:(lia)) as (r0 & ls & Ec & Hl & _). rewrite Ec.
    destruct (or_null_safe _ (fresh spf) (new_pass_safe ls l1 spf G1)) as [P1 P2]. destruct (or_null (new_pass ls l1 spf)) as [o|e| | |]; try (destruct P1 as [[? P1]|[? P1]]; discriminate P1); cbn [rbind]; [|split; [apply ends_err|discriminate]].
    destruct o as [r|]; [split; [apply ends_ok|intros r1 H; injection H as <-; apply P2; reflexivity]|]. destruct bin; [|apply or_null_safe, new_matrix_safe; exact G1].
    destruct (rev ls) as [|ly t] eqn:Er; [exfalso; rewrite <- (rev_involutive ls), Er in Hl; unfold zlen in Hl; cbn [rev length] in Hl; lia|]. apply or_null_safe, new_binaural_safe; apply channel_order_ends.
Qed.

Definition sound_element (p : subelem * aed) : Prop := aelem_valid (ad_obu (snd p)).
Lemma new_elements_safe l spf rate : good_lay l -> 0 <= spf -> forall els, Forall sound_element els ->
  ends (new_elements E els l spf rate) /\ forall x, new_elements E els l spf rate = Ok (Some x) -> Forall (firm spf) x /\ map (@el_gain T B) x = map (fun p => sa_gain (fst p)) els.
Proof.
  intros G Hs. induction els as [|[s a] els IH]; intro H; cbn [new_elements]; [split; [apply ends_ok|intros x Hx; injection Hx as <-; split; [constructor|reflexivity]]|].
  inversion H as [|? ? V1 H']; subst. unfold sound_element in V1. cbn [snd] in V1. destruct (new_for_layout_safe (ad_obu a) (ad_labels a) (rc_mode (sa_conf s)) l spf rate V1 G) as [N1 N2].
  destruct (new_for_layout E _ _ _ _ _ _) as [o|e| | |]; try (destruct N1 as [[? N1]|[? N1]]; discriminate N1); cbn [rbind]; [|split; [apply ends_err|discriminate]].
  destruct o as [r|]; [|split; [apply ends_ok|discriminate]]. destruct (N2 r eq_refl) as (R1 & R2 & R3 & _). destruct (IH H') as [I1 I2].
  destruct (new_elements E els l spf rate) as [x|e| | |]; try (destruct I1 as [[? I1]|[? I1]]; discriminate I1); cbn [rbind]; [|split; [apply ends_err|discriminate]]. split; [apply ends_ok|].
  intros y Hy. destruct x as [x|]; [|discriminate Hy]. cbn [option_map] in Hy. injection Hy as <-. destruct (I2 x eq_refl) as [J1 J2]. split; [|cbn [map el_gain fst]; rewrite J2; reflexivity].
  constructor; [|exact J1]. split; [exact R1|]. split; [exact R2|]. split; [cbn [el_rend]; rewrite R3; lia|]. exists 0%nat. split; [constructor|cbn; lia].
Qed.
Lemma new_layout_safe els gain l rate spf : good_lay l -> 0 <= spf -> els <> [] -> Forall sound_element els ->
  ends (new_layout E els gain l rate spf) /\ forall lm, new_layout E els gain l rate spf = Ok lm -> forall r, lm_rend lm = Some r ->
    firm_layout r /\ gains_of r = gain :: map (fun p => sa_gain (fst p)) els.
Proof.
  intros G Hs Ne H. unfold new_layout. pose proof (num_channels_ends l G) as K. destruct (num_channels _ _) as [n|e| | |]; try (destruct K as [[? K]|[? K]]; discriminate K);
    [|split; [apply ends_ok|intros lm Q; injection Q as <-; discriminate]].
  destruct (new_elements_safe l spf rate G Hs els H) as [N1 N2]. destruct (new_elements E els l spf rate) as [o|e| | |]; try (destruct N1 as [[? N1]|[? N1]]; discriminate N1); cbn [rbind]; [|split; [apply ends_err|discriminate]].
  split; [apply ends_ok|]. intros lm Q r Hr. injection Q as <-. cbn [lm_rend] in Hr. destruct o as [x|]; [|discriminate Hr]. cbn [option_map] in Hr. injection Hr as <-. destruct (N2 x eq_refl) as [J1 J2].
  split; [split; [|exact J1]|unfold gains_of; cbn [lr_gain lr_els]; rewrite J2; reflexivity]. cbn [lr_els]. intros ->. destruct els; [congruence|discriminate J2].
Qed.
Lemma collect_ends aes : forall l, ends (collect_elements aes l) /\ forall els, collect_elements aes l = Ok els -> map fst els = l /\ forall s a, In (s, a) els -> m_find (sa_id s) aes = Some a.
Proof.
  induction l as [|e l [I1 I2]]; cbn [collect_elements]; [split; [apply ends_ok|intros els H; injection H as <-; split; [reflexivity|intros s a []]]|].
  destruct (m_find (sa_id e) aes) as [a|] eqn:Ef; [|split; [apply ends_err|discriminate]]. destruct (collect_elements aes l) as [r|c| | |]; try (destruct I1 as [[? I1]|[? I1]]; discriminate I1); cbn [rbind]; [|split; [apply ends_err|discriminate]].
  split; [apply ends_ok|]. intros els H. injection H as <-. destruct (I2 r eq_refl) as [J1 J2]. split; [cbn [map fst]; rewrite J1; reflexivity|]. intros s b [Q|Q]; [injection Q as <- <-; exact Ef|exact (J2 s b Q)].
Qed.
(* What the descriptors must be for a mix presentation to be configured without a crash *)
Definition sound_aes (aes : aemap) (m : mixp) : Prop :=
  (forall s e a, In s (mp_subs m) -> In e (sm_elems s) -> m_find (sa_id e) aes = Some a -> aelem_valid (ad_obu a) /\ 0 <= cc_frame (codec_of a)) /\
  (forall s x, In s (mp_subs m) -> In x (sm_layouts s) -> good_lay (loudness_layout x)).
Definition mix_gains (m : mixp) : list pdef := flat_map (fun s => sm_gain s :: map sa_gain (sm_elems s)) (mp_subs m).
Lemma new_sub_mix_safe aes m s : sound_aes aes m -> In s (mp_subs m) -> ends (new_sub_mix E aes s) /\
  forall ls, new_sub_mix E aes s = Ok ls -> Forall (calm_layout (fun d => In d (mix_gains m))) ls.
Proof.
  intros [H1 H2] Hs. unfold new_sub_mix. destruct (collect_ends aes (sm_elems s)) as [C1 C2]. destruct (collect_elements aes (sm_elems s)) as [els|e| | |]; try (destruct C1 as [[? C1]|[? C1]]; discriminate C1); cbn [rbind]; [|split; [apply ends_err|discriminate]].
  destruct (C2 els eq_refl) as [Ce Ck]. clear C1 C2.
  assert (Forall sound_element els) as Se. { apply Forall_forall. intros [x a] Hin. destruct (H1 s x a Hs ltac:(rewrite <- Ce; apply in_map_iff; exists (x, a); auto) (Ck _ _ Hin)) as (Q1 & _). exact Q1. }
  destruct els as [|[x a] els]; cbn [common_rate_and_size]; [split; [apply ends_err|discriminate]|]. destruct (negb _); [split; [apply ends_err|discriminate]|]. destruct (negb _); [split; [apply ends_err|discriminate]|]. cbn [rbind fst snd].
  assert (0 <= cc_frame (codec_of a)) as Hf by (apply (H1 s x a Hs); [rewrite <- Ce; left; reflexivity|apply Ck; left; reflexivity]).
  assert (forall l, In l (sm_layouts s) -> ends (new_layout E ((x, a) :: els) (sm_gain s) (loudness_layout l) (rate_of a) (cc_frame (codec_of a))) /\
    forall lm, new_layout E ((x, a) :: els) (sm_gain s) (loudness_layout l) (rate_of a) (cc_frame (codec_of a)) = Ok lm -> calm_layout (fun d => In d (mix_gains m)) lm) as Kl.
  { intros l Hl. destruct (new_layout_safe ((x, a) :: els) (sm_gain s) (loudness_layout l) (rate_of a) (cc_frame (codec_of a)) (H2 s l Hs Hl) Hf ltac:(discriminate) Se) as [L1 L2]. split; [exact L1|].
    intros lm Hlm r Hr. destruct (L2 lm Hlm r Hr) as [F1 F2]. split; [exact F1|]. rewrite F2. apply Forall_forall. intros d Hd. unfold mix_gains. apply in_flat_map. exists s. split; [exact Hs|]. rewrite <- Ce, map_map. exact Hd. }
  split; [apply rmap_ends; intros l Hl; apply Kl; exact Hl|]. intros ls Hls. apply rmap_ok in Hls. apply Forall_forall. intros lm Hin. apply In_nth_error in Hin as [i Hi]. destruct (forall2_nth _ _ _ _ _ Hls Hi) as (l & Hl & Q). exact (proj2 (Kl l (nth_error_In _ _ Hl)) lm Q).
Qed.
Lemma init_decoders_ends c : forall m d, good_decs Fine d -> ends (init_decoders E m c d) /\ forall d1, init_decoders E m c d = Ok d1 -> good_decs Fine d1.
Proof.
  induction m as [|[s ls] m IH]; intros d G; cbn [init_decoders]; [split; [apply ends_ok|intros d1 H; injection H as <-; exact G]|]. destruct (m_find s d); [split; [apply ends_err|discriminate]|].
  destruct (_ || _); [|split; [apply ends_err|discriminate]]. destruct (tame_newdec E Fine Et c (zlen ls)) as [N1 N2]. destruct (r_newdec E c (zlen ls)) as [x|e| | |]; try (destruct N1 as [[? N1]|[? N1]]; discriminate N1); cbn [rbind]; [|split; [apply ends_err|discriminate]].
  apply IH. apply Forall_app. split; [exact G|]. repeat constructor. exact (N2 x eq_refl).
Qed.
Lemma configure_elements_ends : forall l subs decs, good_decs Fine decs -> ends (configure_elements E l subs decs) /\
  forall x, configure_elements E l subs decs = Ok x -> good_decs Fine (snd x).
Proof.
  induction l as [|[i a] l IH]; intros subs decs G; cbn [configure_elements]; [split; [apply ends_ok|intros x H; injection H as <-; exact G]|].
  destruct (init_decoders_ends (codec_of a) (ad_labels a) decs G) as [D1 D2]. destruct (init_decoders E (ad_labels a) (codec_of a) decs) as [d|e| | |]; try (destruct D1 as [[? D1]|[? D1]]; discriminate D1); cbn [rbind]; [|split; [apply ends_err|discriminate]].
  apply IH. exact (D2 d eq_refl).
Qed.
Lemma configure_safe aes m : sound_aes aes m -> (forall i a, In (i, a) aes -> aelem_valid (ad_obu a)) ->
  ends (configure E aes m) /\ forall r, configure E aes m = Ok r -> steady (fun d => In d (mix_gains m)) (rm_fin r) /\ good_decs Fine (rm_decs r).
Proof.
  intros H Ha. unfold configure. cbv zeta. set (used := filter _ aes).
  assert (ends (rmap (fun y : Z * aed => rbind (demix_config (snd y)) (fun c => Ok (fst y, c))) used)) as K2.
  { apply rmap_ends. intros [i a] Hin. apply ends_bind; [|intros; apply ends_ok]. unfold demix_config. apply ends_bind; [|intros; apply ends_ok]. apply reconstruct_ends. apply filter_In in Hin as [Hin _]. exact (Ha i a Hin). }
  assert (ends (new_finalizer E aes [m] []) /\ forall f, new_finalizer E aes [m] [] = Ok f -> steady (fun d => In d (mix_gains m)) f) as [K3 K4].
  { cbn [new_finalizer]. assert (ends (rmap (new_sub_mix E aes) (mp_subs m))) as R1 by (apply rmap_ends; intros s Hs; apply (new_sub_mix_safe aes m s H Hs)).
    destruct (rmap (new_sub_mix E aes) (mp_subs m)) as [x|e| | |] eqn:Er; try (destruct R1 as [[? R1]|[? R1]]; discriminate R1); cbn [rbind]; [|split; [apply ends_err|discriminate]]. cbv zeta. split; [apply ends_ok|].
    intros f Hf. injection Hf as <-. apply steady_forall. apply rmap_ok in Er. match goal with |- context[if ?b then _ else _] => destruct b end; [|constructor]. cbn [m_find app]. constructor; [|constructor]. cbn [snd].
    apply Forall_forall. intros ls Hin. apply In_nth_error in Hin as [i Hi]. destruct (forall2_nth _ _ _ _ _ Er Hi) as (s & Hs & Q). exact (proj2 (new_sub_mix_safe aes m s H (nth_error_In _ _ Hs)) ls Q). }
  split.
  - apply ends_bind; [apply configure_elements_ends; constructor|]. intros x _. apply ends_bind; [exact K2|]. intros dm _. apply ends_bind; [exact K3|]. intros; apply ends_ok.
  - intros r Hr. destruct (configure_elements_ends used [] [] ltac:(constructor)) as [_ C2]. destruct (configure_elements E used [] []) as [x|e| | |]; cbn [rbind] in Hr; try discriminate Hr. destruct (rmap _ used) as [dm|e| | |]; cbn [rbind] in Hr; try discriminate Hr.
    destruct (new_finalizer E aes [m] []) as [f|e| | |]; cbn [rbind] in Hr; try discriminate Hr. injection Hr as <-. cbn [rm_fin rm_decs rm_subs]. split; [exact (K4 f eq_refl)|exact (C2 x eq_refl)].
Qed.
End Config.
