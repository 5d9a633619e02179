(* The decoder with its own descriptor parser: C52 (what parsing gives), C48 (no crash) for the whole of it. *)
From Verif Require Import Base WriteBuf ReadBuf Leb BufSpec LebSpec BitFacts WriteBufFacts ReadBufFacts LebFacts
  ParseFacts EndToEnd ObuHeader ObuHeaderFacts FrameFacts SeqFacts PureFacts SimpleObus CodecConfig Params AudioElement MixPresentation
  Timing ParamManager AeData Profile MixSelect Processor PropsObu ProcFacts Session Reorder Pcm DecoderApi Descriptors
  PropsAE PropsMix PropsLabels PropsProfile PropsMixSelect DescFacts PropsDesc PropsInit PropsDecoder ReadUnits PropsApiSafe.

(* ---- a supported mix presentation can be rendered ---- *)
Definition passes (s : profiles) (a : aelem) : Prop := exists s', Forall profile s' /\ fst (filter_element a s') = Ok tt.
Lemma erase_sub p s : Forall profile s -> Forall profile (erase p s).
Proof. intro H. eapply profile_sub; [exact H|]. intros q Hq. apply in_erase in Hq. apply Hq. Qed.
Lemma erase_all_sub l s : Forall profile s -> Forall profile (erase_all l s).
Proof. intro H. eapply profile_sub; [exact H|]. intros q Hq. apply in_erase_all in Hq. apply Hq. Qed.
Lemma unless_sub s : Forall profile s -> Forall profile (snd (unless_empty s)). Proof. auto. Qed.
Lemma and_then_sub x f : Forall profile (snd x) -> (forall s, Forall profile s -> Forall profile (snd (f s))) -> Forall profile (snd (and_then x f)).
Proof. intros H Hf. unfold and_then. destruct x as [r s]. cbn [fst snd] in *. destruct r; try exact H. apply Hf. exact H. Qed.
Lemma filter_element_sub a s : Forall profile s -> Forall profile (snd (filter_element a s)).
Proof.
  intro H. unfold filter_element. apply and_then_sub.
  - unfold filter_type. apply unless_sub. repeat match goal with |- context [if ?b then _ else _] => destruct b end; auto using erase_all_sub.
  - intros s1 H1. destruct (ae_type a =? 0); [|destruct (ae_type a =? 1)]; [| |exact H1].
    + unfold filter_channel_based. destruct (ae_conf a) as [r [|ly l]|c|n x|x]; try constructor. apply and_then_sub; [|intros; apply unless_sub; assumption].
      destruct (ly_layout ly =? 15).
      * unfold filter_expanded. destruct (ly_exp ly); [|constructor]. apply unless_sub. repeat match goal with |- context [if ?b then _ else _] => destruct b end; auto using erase_all_sub, erase_sub.
      * destruct (_ && _); cbn [snd]; auto using erase_all_sub.
    + unfold filter_ambisonics. destruct (ae_conf a); try constructor. apply unless_sub. exact H1.
Qed.
Lemma filter_elements_each aes : forall l s ch s1 c, Forall profile s -> filter_elements aes l s ch = (Ok tt, s1, c) ->
  Forall profile s1 /\ forall e a, In e l -> known aes e a -> passes s (ad_obu a).
Proof.
  induction l as [|e l IH]; intros s ch s1 c H E; cbn [filter_elements] in E; [injection E as <- _; split; [exact H|intros ? ? []]|].
  destruct (m_find (sa_id e) aes) as [a|] eqn:F; [|discriminate]. pose proof (filter_element_sub (ad_obu a) s H) as H1.
  destruct (filter_element (ad_obu a) s) as [[[]|er| | |] s2] eqn:Ef; cbn [fst snd] in *; try discriminate.
  destruct (IH _ _ _ _ H1 E) as [I1 I2]. split; [exact I1|]. intros e0 a0 [<- | He] Hk.
  - unfold known in Hk. rewrite F in Hk. injection Hk as <-. exists s. split; [exact H|]. rewrite Ef. reflexivity.
  - destruct (I2 e0 a0 He Hk) as (s' & Hs & X). exists s'. auto.
Qed.
Lemma filter_submixes_each aes : forall l s n ch s1 n1 c1, Forall profile s -> filter_submixes aes l s n ch = (Ok tt, s1, n1, c1) ->
  forall e a, In e (flat_map sm_elems l) -> known aes e a -> exists s', Forall profile s' /\ fst (filter_element (ad_obu a) s') = Ok tt.
Proof.
  induction l as [|x l IH]; intros s n ch s1 n1 c1 H E e a He Hk; cbn [flat_map] in He; [destruct He|]. cbn [filter_submixes] in E.
  destruct (filter_elements aes (sm_elems x) s ch) as [[r s2] c2] eqn:Ef. destruct r as [[]| | | |]; try discriminate.
  destruct (filter_elements_each _ _ _ _ _ _ H Ef) as [I1 I2]. apply in_app_or in He as [He|He]; [exact (I2 e a He Hk)|exact (IH _ _ _ _ _ _ I1 E e a He Hk)].
Qed.
Lemma filter_codecs_sub aes m s : Forall profile s -> Forall profile (snd (filter_codecs aes m s)).
Proof.
  intro H. unfold filter_codecs. destruct (gather_all _ _ _ _ _) as [[i lpcm]|]; [|constructor].
  assert (forall l s, Forall profile s -> Forall profile (fold_left (fun s x => if zlen i >? snd x then erase (fst x) s else s) l s)) as X.
  { induction l as [|y l IH]; intros t Ht; cbn [fold_left]; [exact Ht|]. apply IH. destruct (_ >? _); auto using erase_sub. }
  specialize (X [(0, 1); (1, 1); (2, 1); (3, 2); (4, 2); (5, 2)] s H). set (s1 := fold_left _ _ _) in *. clearbody s1.
  destruct (_ && _); [constructor|]. destruct i as [|[? c] j]; [constructor|]. destruct (forallb _ _); [|constructor]. exact X.
Qed.
Lemma filter_headphones_sub l : forall s, Forall profile s -> Forall profile (snd (filter_headphones l s)).
Proof.
  induction l as [|m l IH]; intros s H; cbn [filter_headphones]; [exact H|]. apply and_then_sub; [|exact IH]. apply unless_sub.
  repeat match goal with |- context [if ?b then _ else _] => destruct b end; auto using erase_all_sub.
Qed.
Lemma supported_elements ps aes m : Forall profile ps -> fst (filter_mix aes m ps) = Ok tt ->
  forall e a, In e (elements m) -> known aes e a -> exists s', Forall profile s' /\ fst (filter_element (ad_obu a) s') = Ok tt.
Proof.
  intros H E e a He Hk. unfold filter_mix in E.
  assert (Forall profile (snd (filter_num_submixes (s32 (u32 (zlen (mp_subs m)))) ps))) as H1.
  { unfold filter_num_submixes. destruct (_ >? 2); [constructor|]. apply unless_sub. destruct (_ >? 1); auto using erase_all_sub. }
  unfold and_then at 1 in E. destruct (fst (filter_num_submixes _ ps)) eqn:E1 in E; try congruence.
  pose proof (filter_headphones_sub (modes_of m) _ H1) as H2. unfold and_then at 1 in E. destruct (fst (filter_headphones _ _)) eqn:E2 in E; try congruence.
  pose proof (filter_codecs_sub aes m _ H2) as H3. unfold and_then at 1 in E. destruct (fst (filter_codecs _ _ _)) eqn:E3 in E; try congruence.
  destruct (filter_submixes aes (mp_subs m) _ 0 0) as [[[r s1] n1] c1] eqn:Es. unfold and_then at 1 in E. cbn [fst] in E. destruct r as [[]| | | |]; try discriminate.
  exact (filter_submixes_each _ _ _ _ _ _ _ _ H3 Es e a He Hk).
Qed.
Lemma passes_layers a r : aelem_valid a -> layered a -> (exists s, Forall profile s /\ fst (filter_element a s) = Ok tt) -> ae_conf a <> ACScal r [].
Proof.
  intros V L (s & Hs & F) Ec. unfold filter_element in F.
  destruct (V) as (_ & _ & _ & _ & _ & A1 & A2). rewrite Ec in *. unfold and_then in F.
  destruct (fst (filter_type (ae_type a) s)) eqn:E1; try congruence.
  destruct (ae_type a =? 0) eqn:T0; [cbn [filter_channel_based cleared fst] in F; discriminate|].
  destruct (ae_type a =? 1) eqn:T1; [cbn [filter_ambisonics cleared fst] in F; discriminate|].
  unfold filter_type in E1. rewrite T0, T1 in E1. cbn [orb] in E1. destruct (ae_type a =? 2) eqn:T2.
  { destruct (A2 ltac:(lia)) as (n & x & X & _). discriminate. }
  unfold unless_empty in E1. cbn [fst] in E1. destruct (erase_all [0; 1; 2; 3; 4; 5] s) as [|p t] eqn:Ee; [discriminate|].
  assert (In p (erase_all [0; 1; 2; 3; 4; 5] s)) as Hp by (rewrite Ee; left; reflexivity). apply in_erase_all in Hp as [Hp N].
  rewrite Forall_forall in Hs. specialize (Hs p Hp). unfold profile in Hs. apply N. cbn [In]. lia.
Qed.
Lemma supported_in ps aes ms i : In i (supported_mixes ps aes ms) -> exists m, nth_error ms i = Some m /\ fst (filter_mix aes m ps) = Ok tt.
Proof.
  unfold supported_mixes. intro H. apply in_map_iff in H as ([j m] & <- & H). apply filter_In in H as [H1 H2]. cbn [fst snd] in *. exists m. split.
  - clear H2. assert (forall l k, In (j, m) (combine (seq k (length l)) l) -> (k <= j)%nat /\ nth_error l (j - k) = Some m) as X.
    { induction l as [|x l IH]; intros k Hk; cbn [length seq combine] in Hk; [destruct Hk|]. destruct Hk as [Hk|Hk].
      - injection Hk as -> ->. split; [lia|]. rewrite Nat.sub_diag. reflexivity.
      - apply IH in Hk as [L E]. split; [lia|]. replace (j - k)%nat with (S (j - S k)) by lia. exact E. }
    apply X in H1 as [_ E]. rewrite Nat.sub_0_r in E. exact E.
  - destruct (fst (filter_mix aes m ps)) as [[]| | | |]; try discriminate. reflexivity.
Qed.
Lemma supported_renderable ps o i : consistent o -> Forall profile ps -> In i (supported_mixes ps (do_aes o) (do_mixes o)) ->
  exists m, nth_error (do_mixes o) i = Some m /\ renderable (do_aes o) m.
Proof.
  intros C Hp Hi. destruct (supported_in _ _ _ _ Hi) as (m & Em & F). exists m. split; [exact Em|].
  destruct C as [_ [_ C2] C3]. destruct (C3 m (nth_error_In _ _ Em)) as [[h V] _]. destruct V as (_ & _ & _ & _ & V5 & V6 & _). rewrite Forall_forall in V6. split.
  - intro H. rewrite H in V5. unfold zlen in V5. cbn in V5. lia.
  - intros x Hx. apply V6, Hx.
  - intros x Hx. destruct (V6 x Hx) as (_ & _ & (y & Hy & _) & _). intro H. rewrite H in Hy. destruct Hy.
  - intros e a r He Hk. pose proof (m_find_in _ _ _ Hk) as Ha. destruct (C2 _ _ Ha) as (_ & Va & _ & La & _).
    apply passes_layers; [exact Va|exact La|]. exact (supported_elements _ _ _ Hp F e a He Hk).
Qed.

(* ---- creating the processor ---- *)
(* What is handed to the renderers: one sub-mix of one of the mix presentations, for one layout. *)
Definition rendered_mix (o : dobus) (x : mixp) : Prop :=
  exists m0 s0 s l, In m0 (do_mixes o) /\ In s0 (mp_subs m0) /\ mp_subs x = [s] /\ sm_elems s = sm_elems s0 /\ sm_gain s = sm_gain s0 /\ sm_layouts s = [l] /\ (lo_type l = 2 -> exists ss r, lo_spec l = LSs ss r).
Lemma offers_dec d m : offers d m \/ ~ offers d m.
Proof.
  destruct (existsb (fun s => existsb (fun x => (lo_type x =? fst d) && spec_eqb (lo_spec x) (snd d)) (sm_layouts s)) (mp_subs m)) eqn:Q.
  - left. apply existsb_exists in Q as (s & Hs & Q). apply existsb_exists in Q as (x & Hx & Q). apply andb_true_iff in Q as [Q1 Q2]. exists s, x. split; [exact Hs|]. split; [exact Hx|].
    destruct d as [a b]. cbn [fst snd] in *. f_equal; [lia|apply spec_eqb_eq; exact Q2].
  - right. intros (s & x & Hs & Hx & Ed). enough (existsb (fun s => existsb (fun x => (lo_type x =? fst d) && spec_eqb (lo_spec x) (snd d)) (sm_layouts s)) (mp_subs m) = true) by congruence.
    apply existsb_exists. exists s. split; [exact Hs|]. apply existsb_exists. exists x. split; [exact Hx|]. subst d. cbn [fst snd]. rewrite Z.eqb_refl. apply spec_eqb_eq. reflexivity.
Qed.
Lemma selected_rendered o l q id sel ms' m' s x : consistent o -> (forall i, In i l -> exists m, nth_error (do_mixes o) i = Some m) ->
  selects (do_aes o) (do_mixes o) l (option_map internal_layout q) id sel ms' -> nth_error ms' (sel_mix sel) = Some m' -> at_place m' (sel_sub sel) (sel_index sel) s x ->
  shape x = sel_layout sel -> rendered_mix o (reduced m' s x).
Proof.
  intros C Hl [S1 S2 S3 S4 S5 S6 S7] E P Sh. destruct (Hl _ (chosen_in _ _ _ _ S1)) as [m Em].
  assert (exists s0, In s0 (mp_subs m) /\ sm_elems s = sm_elems s0 /\ sm_gain s = sm_gain s0 /\ (q = None -> s0 = s)) as (s0 & H0 & He & Hg & Hq).
  { destruct P as [P1 P2]. destruct q as [d|]; cbn [option_map] in *.
    - destruct (offers_dec (internal_layout d) m) as [Od|Od].
      + destruct (S6 _ _ eq_refl Em Od) as [-> _]. rewrite Em in E. injection E as <-. exists s. split; [exact (nth_error_In _ _ P1)|auto].
      + destruct (S7 _ _ eq_refl Em Od) as (m1 & Em1 & (s1 & t & Es & ->)). rewrite E in Em1. injection Em1 as ->. cbn [mp_subs] in P1.
        destruct (sel_sub sel) as [|i]; cbn [nth_error] in P1; [injection P1 as <-; exists s1; rewrite Es; split; [left; reflexivity|split; [reflexivity|split; [reflexivity|discriminate]]]|].
        exists s. rewrite Es. split; [right; exact (nth_error_In _ _ P1)|auto].
    - destruct (S4 eq_refl) as (_ & _ & ->). rewrite Em in E. injection E as <-. exists s. split; [exact (nth_error_In _ _ P1)|auto]. }
  exists m, s0. eexists. exists x. split; [exact (nth_error_In _ _ Em)|]. split; [exact H0|]. split; [reflexivity|]. cbn [sm_elems sm_gain sm_layouts]. split; [exact He|]. split; [exact Hg|]. split; [reflexivity|].
  destruct q as [d|]; cbn [option_map] in *.
  - specialize (S5 _ eq_refl). rewrite S5 in Sh. unfold shape, internal_layout in Sh. destruct d as [ss|]; injection Sh as Sh1 Sh2; intro T; [eauto|lia].
  - specialize (Hq eq_refl). subst s0. destruct C as [_ _ C3]. destruct (C3 m (nth_error_In _ _ Em)) as [[h V] _]. destruct V as (_ & _ & _ & _ & _ & V6 & _). rewrite Forall_forall in V6.
    destruct (V6 s H0) as (_ & _ & _ & Vl). rewrite Forall_forall in Vl. destruct P as [_ P2]. destruct (Vl x (nth_error_In _ _ P2)) as (_ & _ & _ & Ty). apply Ty.
Qed.
Section Create.
Context {R : Type} (I : descs -> R -> Prop) (configure : aemap -> mixp -> res R) (ps : profiles) (bits : Z).
Hypothesis Hconf : forall o x, consistent o -> rendered_mix o x ->
  answers (configure (do_aes o) x) /\ forall D s r, initialize o = Ok (D, s) -> configure (do_aes o) x = Ok r -> I D r.
Hypothesis Hps : Forall profile ps.
Lemma layout_answers o m s x : consistent o -> In m (do_mixes o) -> In s (mp_subs m) -> In x (sm_layouts s) -> answers (num_channels (lo_type x) (lo_spec x)).
Proof.
  intros [_ _ C3] Hm Hs Hx. destruct (C3 m Hm) as [[h V] _]. destruct V as (_ & _ & _ & _ & _ & V6 & _). rewrite Forall_forall in V6.
  destruct (V6 s Hs) as (_ & _ & _ & Vl). rewrite Forall_forall in Vl. destruct (Vl x Hx) as (_ & _ & _ & Ty). unfold num_channels.
  destruct (lo_type x =? 3); [reflexivity|]. destruct (lo_type x =? 2) eqn:T; [|reflexivity]. destruct Ty as [Ty _]. destruct Ty as (ss & r & ->); [lia|].
  destruct (nth_error _ _); reflexivity.
Qed.
Lemma prepare_answers q o : consistent o -> answers (prepare_rendering configure ps q o) /\
  forall mix l r, prepare_rendering configure ps q o = Ok (mix, l, r) -> answers (num_channels (fst l) (snd l)) /\ forall D s, initialize o = Ok (D, s) -> I D r.
Proof.
  intro C. unfold prepare_rendering. destruct (do_mixes o) as [|m0 ms] eqn:Em; [split; [reflexivity|discriminate]|].
  destruct (do_aes o) as [|a0 aes] eqn:Ea; [split; [reflexivity|discriminate]|]. rewrite <- Ea, <- Em. clear Ea aes.
  destruct (supported_mixes ps (do_aes o) (do_mixes o)) as [|i0 l0] eqn:El; [split; [reflexivity|discriminate]|]. rewrite <- El.
  destruct (C50_selection (do_aes o) (do_mixes o) (supported_mixes ps (do_aes o) (do_mixes o)) (option_map internal_layout (rq_layout q)) (rq_mix q)) as (sel & ms' & -> & Sel).
  { rewrite El. discriminate. }
  { intros i Hi. apply (supported_renderable ps o i C Hps Hi). }
  cbn [rbind]. pose proof Sel as Sel'. destruct Sel as [S1 S2 S3 S4 S5 S6 S7]. destruct S3 as (m' & s & x & E1 & P & Sh & E2). rewrite E1, E2. cbn [rbind].
  destruct (Hconf o (reduced m' s x) C) as [Hc Hi].
  { apply (selected_rendered o _ _ _ _ _ _ _ _ C (fun i Hi => match supported_renderable ps o i C Hps Hi with ex_intro _ m (conj H _) => ex_intro _ m H end) Sel' E1 P Sh). } destruct (configure (do_aes o) (reduced m' s x)) as [r|er| | |] eqn:Ec; try discriminate Hc; cbn [rbind]; [|split; [reflexivity|discriminate]].
  split; [reflexivity|]. intros mix l r0 E. injection E as <- <- <-. split; [|intros D s1 Ei; exact (Hi D s1 r Ei eq_refl)]. destruct (rq_layout q) as [[ss|]|] eqn:Eq; cbn [option_map] in *.
  - rewrite (S5 _ eq_refl). unfold internal_layout, num_channels. cbn [fst snd]. change (2 =? 3) with false. change (2 =? 2) with true. cbv iota. destruct (nth_error ss_channels (Z.to_nat ss)); reflexivity.
  - rewrite (S5 _ eq_refl). reflexivity.
  - destruct (S4 eq_refl) as (_ & _ & ->). destruct P as [P1 P2]. rewrite <- Sh. cbn [fst snd shape].
    apply (layout_answers o m' s x C (nth_error_In _ _ E1) (nth_error_In _ _ P1) (nth_error_In _ _ P2)).
Qed.
Lemma empty_consistent : consistent do_empty.
Proof. split; cbn [do_empty do_codecs do_aes do_mixes]; [split; [constructor|intros i c []]|split; [constructor|intros i a []]|intros m []]. Qed.

Definition real_env (k : nat) (render : R -> outunit -> frame -> res frame * frame * R) : env request R :=
  mkEnv (fun exact q => create_for_rendering configure k bits ps exact q) render.
Theorem real_sane k render : 2^22 < Z.of_nat k ->
  (forall D r u pending, I D r -> read_unit D u -> answers (fst (fst (render r u pending))) /\ I D (snd (render r u pending))) -> sane I (real_env k render).
Proof.
  intros Hk Hr. split; [|exact Hr]. intros exact q c y c' Kc Hl E. cbn [real_env e_create] in E. unfold create_for_rendering in E.
  rewrite arun_bind, arun_rcatch in E. unfold process_descriptors in E. rewrite arun_bind, arun_rtell in E.
  set (c0 := mkC (c_bits c) (c_pos c) (Some true)) in *.
  assert (loop_good (c_pos c) c0 (arun (descriptor_loop k bits exact (Z.of_nat (c_pos c)) do_empty) c0)) as G.
  { apply loop_sound; [exact empty_consistent|exact Kc|reflexivity|exact Kc| |]; unfold c_left; cbn [c_bits c_pos c0]; change (2^22) with 4194304 in *;
      [|unfold cok in Kc]; lia. }
  unfold loop_good in G. destruct (arun (descriptor_loop _ _ _ _ _) c0) as [[x|er| | |] c1]; try contradiction; cbn [arun] in E.
  2:{ injection E as <- <-. split; [reflexivity|]. discriminate. }
  destruct x as [[o|er| | |] ins]; try contradiction; injection E as <- <-.
  2:{ split; [reflexivity|]. discriminate. }
  destruct G as (C & Sq & -> & Pp). cbn [c_pos c0] in Pp.
  destruct (C53_accepted_exactly o C) as [I1 I2].
  assert (answers (initialize o)) as AI. { destruct (initialize o) as [z|er| | |] eqn:Ei; try reflexivity; exfalso;
    (assert (~ acceptable o) as N by (intro A; destruct (I1 A) as [z0 Z0]; discriminate)); destruct (I2 N) as [e0 E0]; discriminate. }
  destruct (initialize o) as [[D s]|er| | |] eqn:Ei; try discriminate AI; cbn [rbind]; [|split; [reflexivity|discriminate]].
  destruct (prepare_answers q o C) as [P1 P2]. destruct (prepare_rendering configure ps q o) as [[[mix l] r]|er| | |]; try discriminate P1; cbn [rbind]; [|split; [reflexivity|discriminate]].
  split; [reflexivity|]. intros np ins H. injection H as <- <-. cbn [np_s np_mix np_layout np_rate np_size].
  split; [exact Pp|]. split.
  { destruct (C53_initial_state o C D s Ei) as (_ & _ & _ & Ep). eexists. split; [|exact Ep]. rewrite map_map. cbn [fst]. destruct C as [_ [N _] _]. exact N. }
  split; [reflexivity|]. split; [reflexivity|]. split; [destruct (rate_and_size _); reflexivity|]. split; [destruct (rate_and_size _); reflexivity|].
  split; [intros t sp H; injection H as ->; exact (proj1 (P2 _ _ _ eq_refl))|]. cbn [np_D np_R]. exact (proj2 (P2 _ _ _ eq_refl) _ _ Ei).
Qed.
End Create.

(* ================= the whole decoder ================= *)
(* C48 with the modelled creation of the processor: of the parts outside the model only the configuring of the renderers and the
   rendering are asked for answers. *)
Theorem C48_whole_decoder_partial : forall R (configure : aemap -> mixp -> res R) ps bits render fuel k m sch ty cs rs d1,
  (8 <= fuel)%nat -> 2^22 < Z.of_nat k -> Forall profile ps ->
  (forall aes x, answers (configure aes x)) -> (forall r u pending, answers (fst (fst (render r u pending)))) ->
  order_kept (real_env configure ps bits k render) sch -> Forall call_ok cs ->
  calls fuel k (real_env configure ps bits k render) cs (create m sch ty) = (rs, d1) -> resets_ok cs rs ->
  no_crash rs /\ length rs = length cs /\ answers (get_mix d1) /\ answers (get_channels d1) /\ answers (get_rate d1) /\ answers (get_size d1).
Proof.
  intros R configure ps bits render fuel k m sch ty cs rs d1 Hf Hk Hp Hc Hr Ho Ha E Er.
  exact (C48_never_crashes_partial _ _ (fun _ _ => True) fuel k _ m sch ty cs rs d1 Hf Hk (real_sane _ configure ps bits (fun o x _ _ => conj (Hc (do_aes o) x) (fun _ _ _ _ _ => I)) Hp k render Hk (fun D r u p _ _ => conj (Hr r u p) I)) Ho Ha E Er).
Qed.
Theorem C48_whole_decoder_from_descriptors_partial : forall R (configure : aemap -> mixp -> res R) ps bits render fuel k m sch ty bytes r0 d0 cs rs d1,
  (8 <= fuel)%nat -> 2^22 < Z.of_nat k -> Forall profile ps ->
  (forall aes x, answers (configure aes x)) -> (forall r u pending, answers (fst (fst (render r u pending)))) ->
  order_kept (real_env configure ps bits k render) sch -> Forall byteP bytes -> Forall call_ok cs ->
  create_from_descriptors fuel (real_env configure ps bits k render) m sch ty bytes = (r0, d0) ->
  calls fuel k (real_env configure ps bits k render) cs d0 = (rs, d1) -> resets_ok cs rs ->
  answers r0 /\ no_crash rs /\ answers (get_mix d1) /\ answers (get_channels d1) /\ answers (get_rate d1) /\ answers (get_size d1).
Proof.
  intros R configure ps bits render fuel k m sch ty bytes r0 d0 cs rs d1 Hf Hk Hp Hc Hr Ho Hb Ha E0 E Er.
  exact (C48_never_crashes_from_descriptors_partial _ _ (fun _ _ => True) fuel k _ m sch ty bytes r0 d0 cs rs d1 Hf Hk (real_sane _ configure ps bits (fun o x _ _ => conj (Hc (do_aes o) x) (fun _ _ _ _ _ => I)) Hp k render Hk (fun D r u p _ _ => conj (Hr r u p) I)) Ho Hb Ha E0 E Er).
Qed.

(* The hypotheses are met by a real stream: sequence header, LPCM codec config, mono audio element, mix presentation, temporal units. *)
Definition wd_bytes : list Z :=
  [248;6;105;97;109;102;0;0; 0;14;1;105;112;99;109;8;0;0;1;16;0;0;187;128; 8;10;3;0;1;1;0;0;32;16;1;1;
   16;28;7;0;1;1;3;0;0;64;128;247;2;128;0;0;65;128;247;2;128;0;0;1;128;0;0;0;0;0; 32;0; 48;4;1;2;3;4; 32;0; 48;4;5;6;7;8].
Definition wd_render (r : unit) (u : outunit) (_ : frame) : res frame * frame * unit := (Ok (ex_frame_at (un_time u)), [], r).
Example C48_whole_decoder_ex :
  let e := real_env (R := unit) (fun _ _ => Ok tt) [0; 1; 2] 64 big wd_render in
  let cs := [CDecode (firstn 50 wd_bytes); CGet (repeat 0 4); CDecode (skipn 50 wd_bytes); CDecode []; CGet (repeat 0 4); CEnd; CGet (repeat 0 4); CDecode [1; 2; 3]] in
  let ds := [CDecode (skipn 66 wd_bytes); CReset; CDecode [1; 2; 3]; CGet []] in
  2^22 < Z.of_nat big /\ Forall profile [0; 1; 2] /\ (forall r u pending, answers (fst (fst (wd_render r u pending)))) /\
  order_kept e DefaultNoOp /\ Forall call_ok cs /\ Forall byteP (firstn 66 wd_bytes) /\ Forall call_ok ds /\
  (exists rs d1, calls 8 big e cs (create (mkReq None None) DefaultNoOp Int16LE) = (rs, d1) /\ resets_ok cs rs /\
    map r_status rs = [Ok tt; Ok tt; Ok tt; Ok tt; Ok tt; Ok tt; Ok tt; Err Unknown]) /\
  exists d0 rs d1, create_from_descriptors 8 e (mkReq None None) DefaultNoOp Int16LE (firstn 66 wd_bytes) = (Ok tt, d0) /\
    calls 8 big e ds d0 = (rs, d1) /\ resets_ok ds rs /\ rendered rs <> [].
Proof.
  assert (forall l, forallb (fun b => (0 <=? b) && (b <? 256)) l = true -> Forall byteP l) as B.
  { intros l H. rewrite forallb_forall in H. apply Forall_forall. intros b Hb. specialize (H _ Hb). unfold byteP. lia. }
  cbv zeta. split; [exact big_ok|]. split; [repeat constructor; unfold profile; lia|]. split; [reflexivity|].
  split; [left; reflexivity|]. split; [|split; [apply B; run|split]].
  - repeat (constructor; [cbn [call_ok]; try (apply B; run); try (unfold zlen; cbn [repeat length]; change (2^64) with 18446744073709551616; lia); exact I|]); constructor.
  - repeat (constructor; [cbn [call_ok]; try (apply B; run); try (unfold zlen; cbn [repeat length]; change (2^64) with 18446744073709551616; lia); exact I|]); constructor.
  - split.
    + eexists _, _. split; [run|]. split; [unfold resets_ok; cbn [combine]; repeat (apply Forall_cons; [cbn [fst snd is_reset r_status]; try discriminate|]); apply Forall_nil|reflexivity].
    + eexists _, _, _. split; [run|]. split; [run|]. split; [unfold resets_ok; cbn [combine]; repeat (apply Forall_cons; [cbn [fst snd is_reset r_status]; try discriminate|]); apply Forall_nil|]. vm_compute. discriminate.
Qed.
