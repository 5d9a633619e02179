(* C50: which mix presentation and which layout a decoder renders. *)
From Verif Require Import Base WriteBuf ObuHeader CodecConfig Params AudioElement MixPresentation Timing ParamManager AeData Profile MixSelect PropsAE PropsMix PropsLabels PropsProfile.

(* ================= SPEC ================= *)
(* The first sub-mix has exactly one audio element, and the highest of its layers has that loudspeaker layout. *)
Definition sole_element_is (aes : aemap) (loudspeaker : Z) (m : mixp) : Prop :=
  exists s t e a r below top, mp_subs m = s :: t /\ sm_elems s = [e] /\ known aes e a /\
    ae_conf (ad_obu a) = ACScal r (below ++ [top]) /\ ly_layout top = loudspeaker.
(* The first sub-mix has exactly one layout, and it is stereo. *)
Definition only_stereo (m : mixp) : Prop := exists s t x r, mp_subs m = s :: t /\ sm_layouts s = [x] /\ lo_spec x = LSs 0 r.
(* The headphones rendering mode of the first audio element is "stereo". *)
Definition headphones_stereo (m : mixp) : Prop := exists s t e u, mp_subs m = s :: t /\ sm_elems s = e :: u /\ rc_mode (sa_conf e) = 0.
Definition offers (d : lay) (m : mixp) : Prop := exists s x, In s (mp_subs m) /\ In x (sm_layouts s) /\ (lo_type x, lo_spec x) = d.
Definition offers_binaural (m : mixp) : Prop := exists s x, In s (mp_subs m) /\ In x (sm_layouts s) /\ lo_type x = 3.
(* What is preferred, best first: the mix which was asked for; then what suits the layout; then any. *)
Definition preferences (aes : aemap) (layout : option lay) (id : option Z) : list (mixp -> Prop) :=
  match id with Some k => [fun m => mp_id m = k] | None => [] end ++
  match layout with
  | None => []
  | Some (ty, sp) =>
      if ty =? 3 then [sole_element_is aes 9; offers_binaural]
      else match sp with
           | LSs 0 _ => [fun m => (only_stereo m /\ sole_element_is aes 1 m) /\ headphones_stereo m; fun m => only_stereo m /\ sole_element_is aes 1 m]
           | _ => [offers (ty, sp)]
           end
  end ++ [fun _ => True].
Definition is_a (ms : list mixp) (P : mixp -> Prop) (i : nat) : Prop := exists m, nth_error ms i = Some m /\ P m.
Inductive chosen (ms : list mixp) (l : list nat) : list (mixp -> Prop) -> nat -> Prop :=
| Best P t before i after : l = before ++ i :: after -> is_a ms P i -> (forall j, In j before -> ~ is_a ms P j) -> chosen ms l (P :: t) i
| Next P t i : (forall j, In j l -> ~ is_a ms P j) -> chosen ms l t i -> chosen ms l (P :: t) i.
(* What every parsed mix presentation of a decoder has. *)
Record renderable (aes : aemap) (m : mixp) : Prop := mkRenderable {
  rn_subs : mp_subs m <> [];
  rn_elems : forall s, In s (mp_subs m) -> sm_elems s <> [];
  rn_layouts : forall s, In s (mp_subs m) -> sm_layouts s <> [];
  rn_layers : forall e a r, In e (elements m) -> known aes e a -> ae_conf (ad_obu a) <> ACScal r [] }.
(* The layout at a place of a mix presentation. *)
Definition at_place (m : mixp) (i j : nat) (s : submix) (x : layout) : Prop := nth_error (mp_subs m) i = Some s /\ nth_error (sm_layouts s) j = Some x.
Definition shape (x : layout) : lay := (lo_type x, lo_spec x).
(* The same mix presentation with one more layout, without loudness information, in its first sub-mix. *)
Definition with_layout (d : lay) (m m' : mixp) : Prop :=
  exists s t, mp_subs m = s :: t /\
    m' = mkMP (mp_id m) (mp_count m) (mp_lang m) (mp_ann m)
              (mkSM (sm_elems s) (sm_gain s) (sm_layouts s ++ [mkLO (fst d) (snd d) 0 0 0 0 [] []]) :: t) (mp_tags m) (mp_opt m).
(* Only the sub-mix and the layout at a place are left. *)
Definition reduced (m : mixp) (s : submix) (x : layout) : mixp :=
  mkMP (mp_id m) (mp_count m) (mp_lang m) (mp_ann m) [mkSM (sm_elems s) (sm_gain s) [x]] (mp_tags m) (mp_opt m).

(* ================= proofs ================= *)
Lemma spec_eqb_eq a b : spec_eqb a b = true <-> a = b.
Proof.
  destruct a as [s r|r], b as [s' r'|r']; cbn [spec_eqb]; try (split; discriminate).
  - rewrite andb_true_iff, !Z.eqb_eq. split; [intros [-> ->]; reflexivity|intro H; injection H as -> ->; tauto].
  - rewrite Z.eqb_eq. split; [intros ->; reflexivity|intro H; injection H as ->; reflexivity].
Qed.
Lemma lay_eqb_eq a b : lay_eqb a b = true <-> a = b.
Proof.
  destruct a as [t s], b as [t' s']. unfold lay_eqb. cbn [fst snd]. rewrite andb_true_iff, Z.eqb_eq, spec_eqb_eq.
  split; [intros [-> ->]; reflexivity|intro H; injection H as -> ->; tauto].
Qed.
(* A condition decides a property on the mixes of a list. *)
Definition decides (ms : list mixp) (l : list nat) (cond : mixp -> res bool) (P : mixp -> Prop) : Prop :=
  forall i m, In i l -> nth_error ms i = Some m -> exists b, cond m = Ok b /\ (b = true <-> P m).
Lemma find_mix_spec ms cond P : forall l, (forall i, In i l -> exists m, nth_error ms i = Some m) -> decides ms l cond P ->
  (exists i before after, find_mix ms cond l = Ok (Some i) /\ l = before ++ i :: after /\ is_a ms P i /\ forall j, In j before -> ~ is_a ms P j) \/
  (find_mix ms cond l = Ok None /\ forall j, In j l -> ~ is_a ms P j).
Proof.
  induction l as [|i t IH]; intros Hm Hd; cbn [find_mix]; [right; split; [reflexivity|intros j []]|].
  destruct (Hm i (or_introl eq_refl)) as [m Em]. rewrite Em. destruct (Hd i m (or_introl eq_refl) Em) as (b & Eb & Hb). rewrite Eb. cbn [rbind].
  destruct b.
  - left. exists i, [], t. split; [reflexivity|]. split; [reflexivity|]. split; [exists m; split; [exact Em|apply Hb; reflexivity]|]. intros j [].
  - assert (~ is_a ms P i) as N. { intros (m' & Em' & Hp). rewrite Em in Em'. injection Em' as <-. apply Hb in Hp. discriminate. }
    destruct IH as [(k & before & after & E & El & Hi & Hbf) | (E & Hn)].
    + intros j Hj. apply Hm. right. exact Hj.
    + intros j m' Hj. apply Hd. right. exact Hj.
    + left. exists k, (i :: before), after. split; [exact E|]. split; [rewrite El; reflexivity|]. split; [exact Hi|]. intros j [<- | Hj]; auto.
    + right. split; [exact E|]. intros j [<- | Hj]; auto.
Qed.
Lemma sole_spec aes loudspeaker m : renderable aes m -> exists b,
  match mp_subs m with [] => Ok false | s :: _ => one_element_with_layout aes (sm_elems s) loudspeaker end = Ok b /\ (b = true <-> sole_element_is aes loudspeaker m).
Proof.
  intros [R1 R2 R3 R4]. unfold sole_element_is, elements in *. destruct (mp_subs m) as [|s t]; [congruence|]. unfold one_element_with_layout.
  destruct (sm_elems s) as [|e [|e2 u]] eqn:Ee.
  - exists false. split; [reflexivity|]. split; [discriminate|]. intros (s0 & t0 & e0 & a & r & bl & tp & H & H2 & _). injection H as <- <-. congruence.
  - destruct (m_find (sa_id e) aes) as [a|] eqn:Ea.
    + destruct (ae_conf (ad_obu a)) as [r ls|c|n x|x] eqn:Ec;
        try (exists false; split; [reflexivity|]; split; [discriminate|]; intros (s0 & t0 & e0 & a0 & r0 & bl & tp & H & H2 & H3 & H4 & _);
             injection H as <- <-; rewrite Ee in H2; injection H2 as <-; unfold known in H3; rewrite Ea in H3; injection H3 as <-; congruence).
      destruct (rev ls) as [|ly bl] eqn:El.
      * destruct (R4 e a r); [|exact Ea|]. { cbn [flat_map]. rewrite Ee. left. reflexivity. }
        rewrite Ec. f_equal. rewrite <- (rev_involutive ls), El. reflexivity.
      * assert (ls = rev bl ++ [ly]) as -> by (rewrite <- (rev_involutive ls), El; reflexivity).
        eexists. split; [reflexivity|]. rewrite Z.eqb_eq. split.
        -- intro H. exists s, t, e, a, r, (rev bl), ly. repeat split; try assumption. 
        -- intros (s0 & t0 & e0 & a0 & r0 & bl0 & tp & H & H2 & H3 & H4 & H5). injection H as <- <-. rewrite Ee in H2. injection H2 as <-. unfold known in H3. rewrite Ea in H3. injection H3 as <-.
           rewrite Ec in H4. injection H4 as _ H4. apply app_inj_tail in H4 as [_ <-]. exact H5.
    + exists false. split; [reflexivity|]. split; [discriminate|]. intros (s0 & t0 & e0 & a & r & bl & tp & H & H2 & H3 & _). injection H as <- <-. rewrite Ee in H2. injection H2 as <-. unfold known in H3. congruence.
  - exists false. split; [reflexivity|]. split; [discriminate|]. intros (s0 & t0 & e0 & a & r & bl & tp & H & H2 & _). injection H as <- <-. congruence.
Qed.
Lemma one_stereo_spec aes m : renderable aes m -> exists b, one_stereo aes m = Ok b /\ (b = true <-> only_stereo m /\ sole_element_is aes 1 m).
Proof.
  intro R. destruct (sole_spec aes 1 m R) as (b & Eb & Hb). destruct R as [R1 R2 R3 R4]. unfold one_stereo, only_stereo in *.
  destruct (mp_subs m) as [|s t]; [congruence|].
  assert (forall x, sm_layouts s = [x] -> (exists s0 t0 x0 r, s :: t = s0 :: t0 /\ sm_layouts s0 = [x0] /\ lo_spec x0 = LSs 0 r) -> stereo_layout (loudness_layout x) = true) as W.
  { intros x Ex (s0 & t0 & x0 & r & H & H2 & H3). injection H as <- <-. rewrite Ex in H2. injection H2 as <-. unfold stereo_layout, loudness_layout. cbn [snd]. rewrite H3. reflexivity. }
  destruct (sm_layouts s) as [|x [|y u]] eqn:El.
  - exists false. split; [reflexivity|]. split; [discriminate|]. intros [(s0 & t0 & x0 & r & H & H2 & _) _]. injection H as <- <-. congruence.
  - destruct (stereo_layout (loudness_layout x)) eqn:Es.
    + exists b. split; [exact Eb|]. rewrite Hb. split; [|tauto]. intro H. split; [|exact H]. unfold stereo_layout, loudness_layout in Es. cbn [snd] in Es.
      destruct (lo_spec x) as [q r|r] eqn:Ex; [|discriminate]. apply Z.eqb_eq in Es. subst q. exists s, t, x, r. auto.
    + exists false. split; [reflexivity|]. split; [discriminate|]. intros [H _]. rewrite (W x eq_refl H) in Es. discriminate.
  - exists false. split; [reflexivity|]. split; [discriminate|]. intros [(s0 & t0 & x0 & r & H & H2 & _) _]. injection H as <- <-. congruence.
Qed.
Lemma mode_stereo_spec aes m : renderable aes m -> exists b, first_mode_stereo m = Ok b /\ (b = true <-> headphones_stereo m).
Proof.
  intros [R1 R2 R3 R4]. unfold first_mode_stereo, headphones_stereo. destruct (mp_subs m) as [|s t]; [congruence|]. specialize (R2 s (or_introl eq_refl)).
  destruct (sm_elems s) as [|e u] eqn:Ee; [congruence|]. eexists. split; [reflexivity|]. rewrite Z.eqb_eq. split.
  - intro H. exists s, t, e, u. auto.
  - intros (s0 & t0 & e0 & u0 & H & H2 & H3). injection H as <- <-. rewrite Ee in H2. injection H2 as <- <-. exact H3.
Qed.
Lemma offers_spec d m : contains_layout d m = true <-> offers d m.
Proof.
  unfold contains_layout, offers. rewrite existsb_exists. split.
  - intros (s & Hs & H). apply existsb_exists in H as (x & Hx & H). apply lay_eqb_eq in H. exists s, x. auto.
  - intros (s & x & Hs & Hx & H). exists s. split; [exact Hs|]. apply existsb_exists. exists x. split; [exact Hx|]. apply lay_eqb_eq. exact H.
Qed.
Lemma offers_binaural_spec m : existsb (fun s => existsb (fun l => binaural_layout (loudness_layout l)) (sm_layouts s)) (mp_subs m) = true <-> offers_binaural m.
Proof.
  unfold offers_binaural. rewrite existsb_exists. unfold binaural_layout, loudness_layout. cbn [fst]. split.
  - intros (s & Hs & H). apply existsb_exists in H as (x & Hx & H). apply Z.eqb_eq in H. exists s, x. auto.
  - intros (s & x & Hs & Hx & H). exists s. split; [exact Hs|]. apply existsb_exists. exists x. split; [exact Hx|]. apply Z.eqb_eq. exact H.
Qed.

Section Choose.
  Context (aes : aemap) (ms : list mixp) (l : list nat).
  Context (Hl : forall i, In i l -> exists m, nth_error ms i = Some m /\ renderable aes m).
  Lemma present i : In i l -> exists m, nth_error ms i = Some m. Proof. intro H. destruct (Hl i H) as (m & E & _). eauto. Qed.
  (* One step through a list of preferences. *)
  Definition answer (prefs : list (mixp -> Prop)) (x : res (option nat)) : Prop :=
    exists o, x = Ok o /\ forall more, match o with Some i => chosen ms l (prefs ++ more) i | None => forall i, chosen ms l more i -> chosen ms l (prefs ++ more) i end.
  Lemma answer_one cond P : (forall m, renderable aes m -> exists b, cond m = Ok b /\ (b = true <-> P m)) -> answer [P] (find_mix ms cond l).
  Proof.
    intro H. destruct (find_mix_spec ms cond P l present) as [(i & b & a & E & El & Hi & Hb) | (E & Hn)].
    - intros i m Hi Em. destruct (Hl i Hi) as (m' & Em' & R). rewrite Em in Em'. injection Em' as <-. auto.
    - exists (Some i). split; [exact E|]. intro more. eapply Best; eassumption.
    - exists None. split; [exact E|]. intros more i Hc. apply Next; assumption.
  Qed.
  Lemma answer_two P Q x y : answer P x -> answer Q y -> answer (P ++ Q) (rbind x (fun o => match o with Some i => Ok (Some i) | None => y end)).
  Proof.
    intros (o & -> & Ho) (o' & -> & Ho'). cbn [rbind]. destruct o as [i|].
    - exists (Some i). split; [reflexivity|]. intro more. rewrite <- app_assoc. apply Ho.
    - exists o'. split; [reflexivity|]. intro more. rewrite <- app_assoc. specialize (Ho' more). specialize (Ho (Q ++ more)). destruct o' as [i|]; auto.
  Qed.
  Lemma answer_none : answer [] (Ok None). Proof. exists None. split; [reflexivity|]. auto. Qed.
  Lemma choose_spec layout id : l <> [] -> exists i, choose_mix aes ms l layout id = Ok i /\ chosen ms l (preferences aes layout id) i.
  Proof.
    intro Hne. unfold choose_mix, preferences.
    assert (answer (match id with Some k => [fun m => mp_id m = k] | None => [] end) (match id with Some i => find_mix ms (fun m => Ok (mp_id m =? i)) l | None => Ok None end)) as A1.
    { destruct id as [k|]; [|apply answer_none]. apply answer_one. intros m _. eexists. split; [reflexivity|]. apply Z.eqb_eq. }
    set (second := match layout with None => [] | Some (ty, sp) => _ end).
    assert (answer second (match layout with
      | Some d => if binaural_layout d then preferred_binaural aes ms l else if stereo_layout d then preferred_stereo aes ms l else find_mix ms (fun m => Ok (contains_layout d m)) l
      | None => Ok None end)) as A2.
    { unfold second. destruct layout as [[ty sp]|]; [|apply answer_none]. unfold binaural_layout, stereo_layout. cbn [fst snd]. destruct (ty =? 3).
      - apply (answer_two [_] [_]).
        + apply answer_one. apply sole_spec.
        + apply answer_one. intros m _. eexists. split; [reflexivity|]. apply offers_binaural_spec.
      - assert (answer [offers (ty, sp)] (find_mix ms (fun m => Ok (contains_layout (ty, sp) m)) l)) as A3.
        { apply answer_one. intros m _. eexists. split; [reflexivity|]. apply offers_spec. }
        destruct sp as [q r|r]; [|exact A3]. destruct q as [|q|q]; [|exact A3|exact A3]. cbn [Z.eqb].
        apply (answer_two [_] [_]).
        + apply answer_one. intros m R. destruct (one_stereo_spec aes m R) as (b & -> & Hb). cbn [rbind]. destruct b.
          * destruct (mode_stereo_spec aes m R) as (b & -> & Hb2). exists b. split; [reflexivity|]. rewrite Hb2. tauto.
          * exists false. split; [reflexivity|]. split; [discriminate|]. intros [H _]. apply Hb in H. discriminate.
        + apply answer_one. intros m R. exact (one_stereo_spec aes m R). }
    pose proof (answer_two _ _ _ _ A1 A2) as (o & E & Ho). specialize (Ho [fun _ => True]). rewrite <- app_assoc in Ho.
    destruct A1 as (o1 & E1 & _). rewrite E1 in *. cbn [rbind] in *. destruct o1 as [i|].
    - injection E as <-. exists i. split; [reflexivity|exact Ho].
    - destruct layout as [d|]; rewrite E; cbn [rbind].
      + destruct o as [i|]; [exists i; split; [reflexivity|exact Ho]|]. destruct l as [|i t] eqn:El; [congruence|]. exists i. split; [reflexivity|]. apply Ho.
        destruct (Hl i (or_introl eq_refl)) as (m & Em & _). apply (Best _ _ _ _ [] i t); [reflexivity|exists m; auto|intros j []].
      + destruct o as [i|]; [exists i; split; [reflexivity|exact Ho]|]. destruct l as [|i t] eqn:El; [congruence|]. exists i. split; [reflexivity|]. apply Ho.
        destruct (Hl i (or_introl eq_refl)) as (m & Em & _). apply (Best _ _ _ _ [] i t); [reflexivity|exists m; auto|intros j []].
  Qed.
End Choose.
Lemma chosen_in ms l prefs i : chosen ms l prefs i -> In i l.
Proof. induction 1 as [P t before i after E _ _|P t i _ _ IH]; [rewrite E; apply in_app_iff; right; left; reflexivity|exact IH]. Qed.

Lemma find_layout_spec d : forall l k, match find_layout d l k with
  | Some j => (k <= j)%nat /\ (exists x, nth_error l (j - k) = Some x /\ shape x = d) /\ forall j' x, (j' < j - k)%nat -> nth_error l j' = Some x -> shape x <> d
  | None => forall x, In x l -> shape x <> d
  end.
Proof.
  induction l as [|x t IH]; intro k; cbn [find_layout]; [intros x []|]. destruct (lay_eqb d (loudness_layout x)) eqn:E.
  - apply lay_eqb_eq in E. rewrite Nat.sub_diag. split; [lia|]. split; [exists x; split; [reflexivity|symmetry; exact E]|]. intros j' y Hj. lia.
  - assert (shape x <> d) as N. { intro H. assert (lay_eqb d (loudness_layout x) = true) as Q by (apply lay_eqb_eq; symmetry; exact H). congruence. }
    specialize (IH (Datatypes.S k)). destruct (find_layout d t (Datatypes.S k)) as [j|].
    + destruct IH as (H1 & H2 & H3). replace (j - k)%nat with (Datatypes.S (j - Datatypes.S k)) by lia. split; [lia|]. split; [exact H2|].
      intros [|j'] y Hj Hy; [injection Hy as <-; exact N|]. apply (H3 j' y); [lia|exact Hy].
    + intros y [<- | Hy]; auto.
Qed.
Lemma find_position_spec d : forall l k, match find_position d l k with
  | Some (i, j) => (k <= i)%nat /\ (exists s x, nth_error l (i - k) = Some s /\ nth_error (sm_layouts s) j = Some x /\ shape x = d) /\
      forall i' j' s x, nth_error l i' = Some s -> nth_error (sm_layouts s) j' = Some x -> shape x = d -> (i - k < i' \/ i - k = i' /\ j <= j')%nat
  | None => forall s x, In s l -> In x (sm_layouts s) -> shape x <> d
  end.
Proof.
  induction l as [|s t IH]; intro k; cbn [find_position]; [intros s x []|]. pose proof (find_layout_spec d (sm_layouts s) 0) as F.
  destruct (find_layout d (sm_layouts s) 0) as [j|].
  - destruct F as (_ & (x & Ex & Hx) & F). rewrite Nat.sub_0_r in *. rewrite Nat.sub_diag. split; [lia|]. split; [exists s, x; auto|].
    intros [|i'] j' s' y Es Ey Hy; [|lia]. right. split; [reflexivity|]. injection Es as <-. destruct (le_lt_dec j j') as [H|H]; [exact H|]. destruct (F j' y H Ey Hy).
  - specialize (IH (Datatypes.S k)). destruct (find_position d t (Datatypes.S k)) as [[i j]|].
    + destruct IH as (H1 & H2 & H3). replace (i - k)%nat with (Datatypes.S (i - Datatypes.S k)) by lia. split; [lia|]. split; [exact H2|].
      intros [|i'] j' s' y Es Ey Hy.
      * injection Es as <-. destruct (F y (nth_error_In _ _ Ey) Hy).
      * specialize (H3 i' j' s' y Es Ey Hy). lia.
    + intros s' y [<- | Hs] Hy; [exact (F y Hy)|exact (IH s' y Hs Hy)].
Qed.
Lemma set_nth_length {A} (x : A) : forall l i, length (set_nth l i x) = length l.
Proof. induction l as [|y t IH]; intros [|i]; cbn [set_nth length]; auto. Qed.
Lemma set_nth_get {A} (x : A) : forall l i j, nth_error (set_nth l i x) j = if (i =? j)%nat then match nth_error l j with Some _ => Some x | None => None end else nth_error l j.
Proof.
  induction l as [|y t IH]; intros i j; [destruct i, j; cbn; try reflexivity; destruct (_ =? _)%nat; reflexivity|].
  destruct i as [|i], j as [|j]; cbn [set_nth nth_error Nat.eqb]; try reflexivity. apply IH.
Qed.
Lemma simplify_spec m i j s x : at_place m i j s x -> simplify m (Z.of_nat i) (Z.of_nat j) = Ok (reduced m s x).
Proof.
  intros [Hs Hx]. unfold simplify, zlen. pose proof (proj1 (nth_error_Some (mp_subs m) i) ltac:(congruence)) as L1. pose proof (proj1 (nth_error_Some (sm_layouts s) j) ltac:(congruence)) as L2.
  replace ((Z.of_nat i <? 0) || (Z.of_nat i >=? Z.of_nat (length (mp_subs m)))) with false by lia. rewrite Nat2Z.id, Hs.
  replace ((Z.of_nat j <? 0) || (Z.of_nat j >=? Z.of_nat (length (sm_layouts s)))) with false by lia. rewrite Nat2Z.id, Hx. reflexivity.
Qed.

(* ================= C50 ================= *)
Record selects (aes : aemap) (ms : list mixp) (l : list nat) (layout : option lay) (id : option Z) (sel : selected) (ms' : list mixp) : Prop := mkSelects {
  (* the best supported mix *)
  se_mix : chosen ms l (preferences aes layout id) (sel_mix sel);
  (* every other mix stays as it is *)
  se_others : forall j, j <> sel_mix sel -> nth_error ms' j = nth_error ms j;
  (* the place which is returned holds the layout which is returned; rendering only that place is possible *)
  se_place : exists m' s x, nth_error ms' (sel_mix sel) = Some m' /\ at_place m' (sel_sub sel) (sel_index sel) s x /\ shape x = sel_layout sel /\
             simplify m' (Z.of_nat (sel_sub sel)) (Z.of_nat (sel_index sel)) = Ok (reduced m' s x);
  (* without a request: the first layout of the first sub-mix *)
  se_default : layout = None -> sel_sub sel = 0%nat /\ sel_index sel = 0%nat /\ ms' = ms;
  (* a requested layout is the one which is rendered *)
  se_request : forall d, layout = Some d -> sel_layout sel = d;
  (* at the first place which offers it, or, when the mix does not, as an additional layout *)
  se_offered : forall d m, layout = Some d -> nth_error ms (sel_mix sel) = Some m -> offers d m ->
               ms' = ms /\ forall i j s x, at_place m i j s x -> shape x = d -> (sel_sub sel < i \/ sel_sub sel = i /\ sel_index sel <= j)%nat;
  se_added : forall d m, layout = Some d -> nth_error ms (sel_mix sel) = Some m -> ~ offers d m ->
             exists m', nth_error ms' (sel_mix sel) = Some m' /\ with_layout d m m' }.
Theorem C50_selection aes ms l layout id : l <> [] -> (forall i, In i l -> exists m, nth_error ms i = Some m /\ renderable aes m) ->
  exists sel ms', find_mix_and_layout aes ms l layout id = Ok (sel, ms') /\ selects aes ms l layout id sel ms'.
Proof.
  intros Hne Hl. destruct (choose_spec aes ms l Hl layout id Hne) as (i & Ei & Hi). unfold find_mix_and_layout. destruct l as [|i0 l0]; [congruence|]. rewrite Ei. cbn [rbind].
  destruct (Hl i (chosen_in _ _ _ _ Hi)) as (m & Em & [R1 R2 R3 R4]). rewrite Em. destruct (mp_subs m) as [|s t] eqn:Es; [congruence|].
  destruct layout as [d|].
  - pose proof (find_position_spec d (s :: t) 0) as F. destruct (find_position d (s :: t) 0) as [[a b]|].
    + destruct F as (_ & (s0 & x & Hs & Hx & Hsh) & F). rewrite Nat.sub_0_r in *. eexists _, ms. split; [reflexivity|]. cbn [sel_mix sel_sub sel_index sel_layout].
      assert (at_place m a b s0 x) as P by (split; [rewrite Es; exact Hs|exact Hx]).
      split; cbn [sel_mix sel_sub sel_index sel_layout]; try assumption.
      * reflexivity.
      * exists m, s0, x. split; [exact Em|]. split; [exact P|]. split; [exact Hsh|]. apply simplify_spec, P.
      * discriminate.
      * intros d0 H. injection H as ->. reflexivity.
      * intros d0 m0 H Em0 _. injection H as ->. rewrite Em in Em0. injection Em0 as <-. split; [reflexivity|]. intros i' j' s1 y [Hs1 Hy] Hsy. rewrite Es in Hs1. exact (F i' j' s1 y Hs1 Hy Hsy).
      * intros d0 m0 H Em0 N. injection H as ->. rewrite Em in Em0. injection Em0 as <-. destruct N. exists s0, x. rewrite Es. split; [exact (nth_error_In _ _ Hs)|]. split; [exact (nth_error_In _ _ Hx)|exact Hsh].
    + eexists _, _. split; [reflexivity|]. assert (add_layout d m = mkMP (mp_id m) (mp_count m) (mp_lang m) (mp_ann m) (mkSM (sm_elems s) (sm_gain s) (sm_layouts s ++ [new_layout d]) :: t) (mp_tags m) (mp_opt m)) as Ea
        by (unfold add_layout; rewrite Es; reflexivity).
      assert (nth_error (set_nth ms i (add_layout d m)) i = Some (add_layout d m)) as Eg by (rewrite set_nth_get, Nat.eqb_refl, Em; reflexivity).
      assert (at_place (add_layout d m) 0 (length (sm_layouts s)) (mkSM (sm_elems s) (sm_gain s) (sm_layouts s ++ [new_layout d])) (new_layout d)) as P.
      { split; [rewrite Ea; reflexivity|]. cbn [sm_layouts]. rewrite nth_error_app2, Nat.sub_diag by lia. reflexivity. }
      split; cbn [sel_mix sel_sub sel_index sel_layout]; try assumption.
      * intros j Hj. rewrite set_nth_get. replace (i =? j)%nat with false; [reflexivity|]. symmetry. apply Nat.eqb_neq. congruence.
      * eexists _, _, _. split; [exact Eg|]. split; [exact P|]. split; [unfold shape, new_layout; cbn; destruct d; reflexivity|]. apply (simplify_spec _ 0), P.
      * discriminate.
      * intros d0 H. injection H as ->. reflexivity.
      * intros d0 m0 H Em0 (s1 & y & H1 & H2 & H3). injection H as ->. rewrite Em in Em0. injection Em0 as <-. rewrite Es in H1. destruct (F s1 y H1 H2 H3).
      * intros d0 m0 H Em0 _. injection H as ->. rewrite Em in Em0. injection Em0 as <-. eexists. split; [exact Eg|]. exists s, t. split; [exact Es|exact Ea].
  - specialize (R3 s (or_introl eq_refl)). destruct (sm_layouts s) as [|x u] eqn:Ex; [congruence|]. eexists _, ms. split; [reflexivity|].
    assert (at_place m 0 0 s x) as P by (split; [rewrite Es; reflexivity|rewrite Ex; reflexivity]).
    split; cbn [sel_mix sel_sub sel_index sel_layout]; try assumption; try discriminate.
    + reflexivity.
    + exists m, s, x. split; [exact Em|]. split; [exact P|]. split; [reflexivity|]. apply (simplify_spec _ 0 0), P.
    + auto.
Qed.
Theorem C50_nothing_supported aes ms layout id : find_mix_and_layout aes ms [] layout id = Err InvalidArgument.
Proof. reflexivity. Qed.
(* What the readers accept is renderable, once a profile of the decoder supports it. *)
Theorem C50_parsed_renderable aes ms s : coherent aes -> Forall profile s ->
  Forall (fun m => exists h, mixp_valid h m) ms -> Forall (fun m => zlen (elements m) < 2^31 /\ total_width aes (elements m) < 2^31) ms ->
  (forall i a, m_find i aes = Some a -> aelem_valid (ad_obu a)) ->
  forall i, In i (supported_mixes s aes ms) -> exists m, nth_error ms i = Some m /\ renderable aes m.
Proof.
  intros Hc Hs Hv Hw Ha i Hi. rewrite Forall_forall in Hv, Hw.
  apply C49_supported_exact in Hi; [|assumption|assumption|].
  2:{ apply Forall_forall. intros m Hm. destruct (Hv m Hm) as [h V]. destruct V as (_ & _ & _ & _ & V5 & _). split; [change (2^31) with 2147483648; lia|]. apply Hw, Hm. }
  destruct Hi as (m & p & Em & _ & Sp). exists m. split; [exact Em|]. destruct (Hv m (nth_error_In _ _ Em)) as [h V].
  destruct V as (_ & _ & _ & _ & V5 & V6 & _). rewrite Forall_forall in V6. split.
  - intro H. rewrite H in V5. unfold zlen in V5. cbn in V5. lia.
  - intros x Hx. apply V6, Hx.
  - intros x Hx. destruct (V6 x Hx) as (_ & _ & (y & Hy & _) & _). intro H. rewrite H in Hy. destruct Hy.
  - intros e a r He Hk Hc0. pose proof (sup_kinds _ _ _ Sp a (ex_intro _ e (conj He Hk))) as K. destruct (Ha _ _ Hk) as (_ & _ & _ & _ & A0 & A1 & A2). rewrite Hc0 in *.
    unfold element_allowed in K. rewrite Hc0 in K. destruct (ae_type (ad_obu a)) as [|[q|[q|q|]|]|q]; try contradiction.
    + destruct K as (r0 & ly & more & H & _). discriminate.
    + destruct (A2 eq_refl) as (n & x & H & _). discriminate.
    + destruct K as (c & H). discriminate.
Qed.

(* ---------------- examples ---------------- *)
Definition ex_mix2 (id : Z) (l : list subelem) (x : list layout) : mixp := mkMP id 0 [] [] [mkSM l ex_gain x] None None.
Definition ex_lay (ty ss res : Z) : layout := mkLO ty (LSs ss res) 0 0 0 0 [] [].
Definition ex_mixes : list mixp :=
  [ex_mix2 41 [ex_elem 3 0] [ex_lay 2 0 0; ex_lay 2 2 0]; ex_mix2 42 [ex_elem 1 1] [ex_lay 2 0 0]; ex_mix2 43 [ex_elem 2 0] [ex_lay 2 0 0]; ex_mix2 44 [ex_elem 4 0] [ex_lay 2 0 3]].
Example C50_ex :
  supported_mixes [0; 1; 2] ex_aes ex_mixes = [0; 1; 2; 3]%nat /\
  (forall i, In i [0; 1; 2; 3]%nat -> exists m, nth_error ex_mixes i = Some m /\ renderable ex_aes m) /\
  find_mix_and_layout ex_aes ex_mixes [0; 1; 2; 3]%nat None (Some 43) = Ok (mkSel 2 (2, LSs 0 0) 0 0, ex_mixes) /\
  find_mix_and_layout ex_aes ex_mixes [0; 1; 2; 3]%nat (Some (2, LSs 0 0)) (Some 99) = Ok (mkSel 2 (2, LSs 0 0) 0 0, ex_mixes) /\
  find_mix_and_layout ex_aes ex_mixes [0; 1; 3]%nat (Some (2, LSs 0 0)) None = Ok (mkSel 1 (2, LSs 0 0) 0 0, ex_mixes) /\
  find_mix_and_layout ex_aes ex_mixes [1; 0; 3]%nat (Some (2, LSs 2 0)) None = Ok (mkSel 0 (2, LSs 2 0) 0 1, ex_mixes) /\
  exists ms, find_mix_and_layout ex_aes ex_mixes [1; 2]%nat (Some (2, LSs 9 0)) None = Ok (mkSel 1 (2, LSs 9 0) 0 1, ms).
Proof.
  split; [vm_compute; reflexivity|]. split.
  - intros i Hi. cbn [In] in Hi.
    assert (forall id e x, In (sa_id e) [1; 2; 3; 4] -> x <> [] -> renderable ex_aes (ex_mix2 id [e] x)) as R.
    { intros id e x He Hx. split; cbn [mp_subs ex_mix2].
      - discriminate.
      - intros s [<- | []]. discriminate.
      - intros s [<- | []]. exact Hx.
      - intros e0 a r H. cbn in H. destruct H as [<- | []]. unfold known. cbn [In] in He.
        assert (exists a1 a2 a3 a4, ex_aes = [(1, a1); (2, a2); (3, a3); (4, a4)] /\ (exists r y, ae_conf (ad_obu a1) = ACScal r [y]) /\ (exists r y, ae_conf (ad_obu a2) = ACScal r [y]) /\
          (exists r y, ae_conf (ad_obu a3) = ACScal r [y]) /\ exists c, ae_conf (ad_obu a4) = ACAmbi c) as (a1 & a2 & a3 & a4 & E & (r1 & y1 & E1) & (r2 & y2 & E2) & (r3 & y3 & E3) & c & E4).
        { eexists _, _, _, _. split; [vm_compute; reflexivity|]. split; [eexists _, _; vm_compute; reflexivity|]. split; [eexists _, _; vm_compute; reflexivity|].
          split; [eexists _, _; vm_compute; reflexivity|]. eexists. vm_compute. reflexivity. }
        rewrite E. destruct He as [<- | [<- | [<- | [<- | []]]]]; cbn [m_find Z.eqb Pos.eqb]; intro H; injection H as <-; congruence. }
    destruct Hi as [<- | [<- | [<- | [<- | []]]]]; (eexists; split; [reflexivity|]; apply R; [cbn; tauto|discriminate]).
  - split; [vm_compute; reflexivity|]. split; [vm_compute; reflexivity|]. split; [vm_compute; reflexivity|]. split; [vm_compute; reflexivity|].
    eexists. vm_compute. reflexivity.
Qed.
(* Layouts are compared with their reserved bits: a stereo layout with reserved bits set does not count as the requested stereo layout. *)
Example C50_reserved_bits : exists ms, find_mix_and_layout ex_aes ex_mixes [3]%nat (Some (2, LSs 0 0)) None = Ok (mkSel 3 (2, LSs 0 0) 0 1, ms) /\
  offers (2, LSs 0 3) (ex_mix2 44 [ex_elem 4 0] [ex_lay 2 0 3]).
Proof. eexists. split; [vm_compute; reflexivity|]. eexists _, _. split; [left; reflexivity|]. split; [left; reflexivity|]. reflexivity. Qed.
