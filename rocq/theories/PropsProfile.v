(* C49: profile filtering. *)
From Verif Require Import Base WriteBuf CodecConfig Params AudioElement MixPresentation Timing ParamManager AeData Profile PropsTiming PropsPM PropsLabels.
From Coq Require Import Permutation Sorted.

(* ================= SPEC ================= *)
(* The six profiles: 0 simple, 1 base, 2 base-enhanced, 3 base-advanced, 4 advanced 1, 5 advanced 2. *)
Definition profile (p : Z) : Prop := 0 <= p <= 5.
Definition largest (p : Z) (table : list Z) : Z := nth (Z.to_nat p) table 0.
(* What the audio elements of a mix are: by their ID. *)
Definition elements (m : mixp) : list subelem := flat_map sm_elems (mp_subs m).
Definition known (aes : aemap) (e : subelem) (a : aed) : Prop := m_find (sa_id e) aes = Some a.
Definition sum (l : list Z) : Z := fold_right Z.add 0 l.
(* The number of channels which the substreams of an audio element carry. *)
Definition width (a : aed) : Z := sum (map (fun x => zlen (snd x)) (ad_labels a)).
Definition total_width (aes : aemap) (l : list subelem) : Z :=
  sum (map (fun e => match m_find (sa_id e) aes with Some a => width a | None => 0 end) l).
(* Which kinds of audio element a profile has. *)
Definition element_allowed (p : Z) (a : aelem) : Prop :=
  match ae_type a with
  | 0 => exists r ly more, ae_conf a = ACScal r (ly :: more) /\ ~ 10 <= ly_layout ly <= 14 /\
         (ly_layout ly = 15 -> exists x, ly_exp ly = Some x /\ (0 <= x <= 12 /\ 2 <= p \/ 13 <= x <= 19 /\ 3 <= p))
  | 1 => exists c, ae_conf a = ACAmbi c
  | 2 => 3 <= p
  | _ => False
  end.
Definition uses (aes : aemap) (l : list subelem) (a : aed) : Prop := exists e, In e l /\ known aes e a.
Definition codec_id (a : aed) : Z := cc_id (codec_of a).
Record supports (aes : aemap) (m : mixp) (p : Z) : Prop := mkSupports {
  sup_submixes : zlen (mp_subs m) <= largest p [1; 1; 1; 2; 2; 2];
  sup_modes : forall e, In e (elements m) -> rc_mode (sa_conf e) <> 3 /\ (rc_mode (sa_conf e) = 2 -> 3 <= p);
  sup_some : elements m <> [];
  sup_known : forall e, In e (elements m) -> exists a, known aes e a;
  sup_kinds : forall a, uses aes (elements m) a -> element_allowed p (ad_obu a);
  (* the first sub-mix uses a single codec config *)
  sup_first : forall s t a b, mp_subs m = s :: t -> uses aes (sm_elems s) a -> uses aes (sm_elems s) b -> codec_id a = codec_id b;
  (* one codec config, or in the higher profiles two *)
  sup_codecs : exists ids, zlen ids <= largest p [1; 1; 1; 2; 2; 2] /\ forall a, uses aes (elements m) a -> In (codec_id a) ids;
  (* one of several is LPCM *)
  sup_lpcm : (forall a b, uses aes (elements m) a -> uses aes (elements m) b -> codec_id a = codec_id b) \/
             exists a, uses aes (elements m) a /\ cc_codec (codec_of a) = kIdLpcm;
  (* and they agree on frame size and sample rate *)
  sup_agree : forall a b, uses aes (elements m) a -> uses aes (elements m) b ->
              cc_frame (codec_of a) = cc_frame (codec_of b) /\ rate_of a = rate_of b;
  sup_elements : zlen (elements m) <= largest p [1; 2; 28; 18; 18; 28];
  sup_channels : total_width aes (elements m) <= largest p [16; 18; 28; 18; 18; 28] }.
(* Audio elements with the same codec config ID refer to the same codec config (they are looked up by ID). *)
Definition coherent (aes : aemap) : Prop :=
  forall i a j b, m_find i aes = Some a -> m_find j aes = Some b -> codec_id a = codec_id b -> ad_codec a = ad_codec b.

(* ================= filters ================= *)
Definition filters (f : profiles -> res unit * profiles) (Q : Z -> Prop) : Prop :=
  forall s, Forall profile s -> exists r s', f s = (r, s') /\ (r = Ok tt \/ r = Err InvalidArgument) /\ (r <> Ok tt -> s' = []) /\
    Forall profile s' /\ forall p, In p s' <-> In p s /\ Q p.
Definition strict (f : profiles -> res unit * profiles) : Prop := forall s s', f s = (Ok tt, s') -> s' <> [].

Lemma in_erase p q s : In p (erase q s) <-> In p s /\ p <> q.
Proof. unfold erase. rewrite filter_In. split; intros [H1 H2]; (split; [exact H1|]); [intros ->; rewrite Z.eqb_refl in H2; discriminate|]. apply Z.eqb_neq in H2. rewrite H2. reflexivity. Qed.
Lemma in_erase_all p l : forall s, In p (erase_all l s) <-> In p s /\ ~ In p l.
Proof.
  induction l as [|q l IH]; intro s; cbn [erase_all fold_left]; [cbn; tauto|]. change (fold_left _ l (erase q s)) with (erase_all l (erase q s)).
  rewrite IH, in_erase. cbn [In]. split; intuition congruence.
Qed.
Lemma profile_sub s s' : Forall profile s -> (forall p, In p s' -> In p s) -> Forall profile s'.
Proof. rewrite !Forall_forall. auto. Qed.
Lemma filters_unless (g : profiles -> profiles) (Q : Z -> Prop) : (forall s, Forall profile s -> forall p, In p (g s) <-> In p s /\ Q p) ->
  filters (fun s => unless_empty (g s)) Q.
Proof.
  intros H s Hs. specialize (H s Hs). unfold unless_empty. eexists _, _. split; [reflexivity|].
  split; [destruct (g s); auto|]. split; [destruct (g s); [reflexivity|congruence]|]. split; [|exact H]. eapply profile_sub; [exact Hs|]. intros p Hp. apply H, Hp.
Qed.
Lemma strict_unless (g : profiles -> profiles) : strict (fun s => unless_empty (g s)).
Proof. intros s s' H. unfold unless_empty in H. destruct (g s); [discriminate|]. injection H as <-. discriminate. Qed.
Lemma filters_cleared (Q : Z -> Prop) : (forall p, profile p -> ~ Q p) -> filters (fun _ => cleared) Q.
Proof.
  intros H s Hs. exists (Err InvalidArgument), []. split; [reflexivity|]. split; [auto|]. split; [auto|]. split; [constructor|].
  intro p. split; [intros []|]. intros [H1 H2]. rewrite Forall_forall in Hs. exact (H p (Hs p H1) H2).
Qed.
Lemma filters_keep (Q : Z -> Prop) : (forall p, profile p -> Q p) -> filters (fun s => (Ok tt, s)) Q.
Proof.
  intros H s Hs. eexists _, _. split; [reflexivity|]. split; [auto|]. split; [congruence|]. split; [exact Hs|]. intro p. rewrite Forall_forall in Hs. split; [|tauto].
  intro Hp. auto.
Qed.
Lemma filters_then f g (Q R : Z -> Prop) : filters f Q -> filters g R -> filters (fun s => and_then (f s) g) (fun p => Q p /\ R p).
Proof.
  intros Hf Hg s Hs. destruct (Hf s Hs) as (r & s1 & E & Hr & Hn & Hs1 & Hq). rewrite E. unfold and_then. cbn [fst snd].
  destruct Hr as [-> | ->].
  - destruct (Hg s1 Hs1) as (r2 & s2 & E2 & Hr2 & Hn2 & Hs2 & Hq2). rewrite E2. eexists _, _. split; [reflexivity|]. split; [exact Hr2|]. split; [exact Hn2|].
    split; [exact Hs2|]. intro p. rewrite Hq2, Hq. tauto.
  - rewrite (Hn ltac:(discriminate)) in *. eexists _, _. split; [reflexivity|]. split; [auto|]. split; [auto|]. split; [constructor|].
    intro p. split; [intros []|]. intros (H1 & H2 & _). apply Hq; auto.
Qed.
Lemma strict_then f g : strict g -> strict (fun s => and_then (f s) g).
Proof. intros H s s'. unfold and_then. destruct (f s) as [[[]|er| | |] s1]; cbn [fst snd]; try discriminate. apply H. Qed.
Lemma filters_eq f (Q R : Z -> Prop) : (forall p, profile p -> Q p <-> R p) -> filters f Q -> filters f R.
Proof.
  intros H Hf s Hs. destruct (Hf s Hs) as (r & s1 & E & Hr & Hn & Hs1 & Hq). exists r, s1. repeat (split; [assumption|]).
  intro p. rewrite Hq. rewrite Forall_forall in Hs. split; intros [H1 H2]; (split; [exact H1|]); apply (H p (Hs p H1)), H2.
Qed.
Lemma filters_ext f g (Q : Z -> Prop) : (forall s, f s = g s) -> filters f Q -> filters g Q.
Proof. intros H Hf s Hs. rewrite <- H. auto. Qed.

Ltac erased := intros s Hs p; rewrite ?in_erase_all, ?in_erase; cbn [In]; rewrite Forall_forall in Hs; specialize (Hs p); unfold profile in Hs.

Lemma filter_type_spec ty : filters (filter_type ty) (fun p => ty = 0 \/ ty = 1 \/ ty = 2 /\ 3 <= p).
Proof.
  unfold filter_type. destruct (ty =? 0) eqn:E0; cbn [orb]; [|destruct (ty =? 1) eqn:E1; [|destruct (ty =? 2) eqn:E2]].
  1,2: apply (filters_unless (fun s => s)); intros s Hs p; split; intros; intuition lia.
  - apply (filters_unless (erase_all [0; 1; 2])). erased. split; intros [H1 H2]; specialize (Hs H1); (split; [exact H1|]); lia.
  - apply (filters_unless (erase_all [0; 1; 2; 3; 4; 5])). erased. split; intros [H1 H2]; specialize (Hs H1); exfalso; lia.
Qed.
Lemma filter_expanded_spec e : filters (filter_expanded e) (fun p => exists x, e = Some x /\ (0 <= x <= 12 \/ 13 <= x <= 19 /\ p <> 2 \/ ~ 0 <= x <= 19 /\ p < 2)).
Proof.
  unfold filter_expanded. destruct e as [x|].
  2:{ apply filters_cleared. intros p _ (x & H & _). discriminate. }
  destruct ((0 <=? x) && (x <=? 12)) eqn:E0; [|destruct ((13 <=? x) && (x <=? 19)) eqn:E1].
  - apply (filters_unless (fun s => s)). intros s Hs p. split; [|tauto]. intro H. split; [exact H|]. exists x. split; [reflexivity|lia].
  - apply (filters_unless (erase 2)). erased. split; intros [H1 H2]; (split; [exact H1|]).
    + exists x. split; [reflexivity|lia].
    + destruct H2 as (y & H & H2). injection H as <-. lia.
  - apply (filters_unless (erase_all [2; 3; 4; 5])). erased. split; intros [H1 H2]; specialize (Hs H1); (split; [exact H1|]).
    + exists x. split; [reflexivity|lia].
    + destruct H2 as (y & H & H2). injection H as <-. lia.
Qed.
Lemma filter_channel_spec c : filters (filter_channel_based c) (fun p => exists r ly more, c = ACScal r (ly :: more) /\ ~ 10 <= ly_layout ly <= 14 /\
         (ly_layout ly = 15 -> exists x, ly_exp ly = Some x /\ (0 <= x <= 12 /\ 2 <= p \/ 13 <= x <= 19 /\ 3 <= p))).
Proof.
  unfold filter_channel_based. destruct c as [r [|ly more]|a|n x|b]; try (apply filters_cleared; intros p _ (r0 & ly0 & m0 & H & _); discriminate).
  set (Q := fun p => ~ 10 <= ly_layout ly <= 14 /\ (ly_layout ly = 15 -> exists x, ly_exp ly = Some x /\ (0 <= x <= 12 /\ 2 <= p \/ 13 <= x <= 19 /\ 3 <= p))).
  apply (filters_eq _ (fun p => Q p /\ True)).
  { intros p _. unfold Q. split.
    - intros [H _]. eauto.
    - intros (r0 & ly0 & m0 & H & H2). injection H as <- <- <-. tauto. }
  apply filters_then; [|apply (filters_unless (fun s => s)); intros; tauto].
  destruct (ly_layout ly =? 15) eqn:E0; [|destruct ((10 <=? ly_layout ly) && (ly_layout ly <=? 14)) eqn:E1].
  - intros s Hs. assert (Forall profile (erase_all [0; 1] s)) as Hs1 by (eapply profile_sub; [exact Hs|intros p Hp; apply in_erase_all in Hp; tauto]).
    destruct (filter_expanded_spec (ly_exp ly) _ Hs1) as (r1 & s1 & E & Hr & Hn & Hs2 & Hq). exists r1, s1. repeat (split; [assumption|]).
    intro p. rewrite Hq, in_erase_all. cbn [In]. rewrite Forall_forall in Hs. unfold Q. split.
    + intros ((H1 & H2) & x & Ex & H3). split; [exact H1|]. specialize (Hs p H1). unfold profile in Hs. split; [lia|]. intros _. exists x. split; [exact Ex|lia].
    + intros (H1 & _ & H2). destruct (H2 ltac:(lia)) as (x & Ex & H3). split; [split; [exact H1|lia]|]. exists x. split; [exact Ex|lia].
  - intros s Hs. eexists _, _. split; [reflexivity|]. split; [auto|]. split; [congruence|].
    assert (forall p, ~ In p (erase_all [0; 1; 2; 3; 4; 5] s)) as N.
    { intros p Hp. apply in_erase_all in Hp as [H1 H2]. cbn [In] in H2. rewrite Forall_forall in Hs. specialize (Hs p H1). unfold profile in Hs. lia. }
    split; [apply Forall_forall; intros p Hp; destruct (N p Hp)|]. intro p. unfold Q. split; [intro Hp; destruct (N p Hp)|]. intros (_ & H & _). lia.
  - apply filters_keep. intros p _. unfold Q. split; [lia|]. intro. lia.
Qed.
Lemma filter_ambi_spec c : filters (filter_ambisonics c) (fun p => exists a, c = ACAmbi a).
Proof.
  unfold filter_ambisonics. destruct c; try (apply filters_cleared; intros p _ (r0 & H); discriminate).
  apply (filters_unless (fun s => s)). intros s Hs p. split; [|tauto]. intro H. split; [exact H|eauto].
Qed.
Lemma filter_element_spec a : filters (filter_element a) (fun p => element_allowed p a).
Proof.
  unfold filter_element.
  apply (filters_eq _ (fun p => (ae_type a = 0 \/ ae_type a = 1 \/ ae_type a = 2 /\ 3 <= p) /\
    if ae_type a =? 0 then exists r ly more, ae_conf a = ACScal r (ly :: more) /\ ~ 10 <= ly_layout ly <= 14 /\
         (ly_layout ly = 15 -> exists x, ly_exp ly = Some x /\ (0 <= x <= 12 /\ 2 <= p \/ 13 <= x <= 19 /\ 3 <= p))
    else if ae_type a =? 1 then exists c, ae_conf a = ACAmbi c else True)).
  { intros p _. unfold element_allowed. destruct (ae_type a) as [|[q|[q|q|]|]|q]; cbn [Z.eqb Pos.eqb]; try (split; [intros [? ?]; exfalso; lia|intros []]).
    - split; [tauto|]. auto.
    - split; [intros [H _]; lia|]. intros; split; [lia|exact I].
    - split; [tauto|]. auto. }
  apply filters_then; [apply filter_type_spec|].
  destruct (ae_type a =? 0); [apply filter_channel_spec|]. destruct (ae_type a =? 1); [apply filter_ambi_spec|]. apply filters_keep. auto.
Qed.
Lemma num_submixes_spec n : filters (filter_num_submixes n) (fun p => n <= largest p [1; 1; 1; 2; 2; 2]).
Proof.
  assert (forall p, profile p -> largest p [1; 1; 1; 2; 2; 2] = if p <? 3 then 1 else 2) as L.
  { intros p Hp. unfold profile in Hp. assert (p = 0 \/ p = 1 \/ p = 2 \/ p = 3 \/ p = 4 \/ p = 5) as H by lia. destruct H as [-> | [-> | [-> | [-> | [-> | ->]]]]]; reflexivity. }
  unfold filter_num_submixes. destruct (n >? 2) eqn:E2.
  - apply filters_cleared. intros p Hp. rewrite (L p Hp). destruct (p <? 3); lia.
  - destruct (n >? 1) eqn:E1.
    + apply (filters_unless (erase_all [0; 1; 2])). erased. split; intros [H1 H2]; specialize (Hs H1); (split; [exact H1|]); rewrite (L p Hs) in *; destruct (p <? 3) eqn:E; lia.
    + apply (filters_unless (fun s => s)). intros s Hs p. rewrite Forall_forall in Hs. split; [|tauto]. intro H. split; [exact H|]. rewrite (L p (Hs p H)). destruct (p <? 3); lia.
Qed.
Lemma headphones_spec : forall modes, filters (filter_headphones modes) (fun p => forall x, In x modes -> x <> 3 /\ (x = 2 -> 3 <= p)).
Proof.
  induction modes as [|x t IH]; cbn [filter_headphones].
  - apply filters_keep. intros p _ x [].
  - apply (filters_eq _ (fun p => (x <> 3 /\ (x = 2 -> 3 <= p)) /\ forall y, In y t -> y <> 3 /\ (y = 2 -> 3 <= p))).
    { intros p _. split; [intros [H1 H2] y [<- | Hy]; auto|]. intro H. split; [apply H; left; reflexivity|]. intros y Hy. apply H. right. exact Hy. }
    apply (filters_then (fun s => unless_empty _)); [|exact IH].
    apply (filters_unless (fun s => if x =? 2 then erase_all [0; 1; 2] s else if x =? 3 then erase_all [0; 1; 2; 3; 4; 5] s else s)).
    destruct (x =? 2) eqn:E2; [|destruct (x =? 3) eqn:E3].
    + erased. split; intros [H1 H2]; specialize (Hs H1); (split; [exact H1|]); lia.
    + erased. split; intros [H1 H2]; specialize (Hs H1); exfalso; lia.
    + intros s Hs p. split; [|tauto]. intro H. split; [exact H|lia].
Qed.

(* ================= the codec configs of a mix ================= *)
Section Codecs.
  Context (aes : aemap).
  Definition infoof (a : aed) : Z * Z := (cc_frame (codec_of a), rate_of a).
  Definition single (u : list subelem) : Prop := forall a b, uses aes u a -> uses aes u b -> codec_id a = codec_id b.
  Record gathered (u : list subelem) (m : infos) (lp : bool) : Prop := mkGathered {
    ga_known : forall e, In e u -> exists a, known aes e a;
    ga_nodup : NoDup (map fst m);
    ga_from : forall i v, m_find i m = Some v -> exists a, uses aes u a /\ codec_id a = i /\ v = infoof a;
    ga_has : forall a, uses aes u a -> exists v, m_find (codec_id a) m = Some v;
    ga_lpcm : lp = true <-> exists a, uses aes u a /\ cc_codec (codec_of a) = kIdLpcm }.
  Lemma gathered_nil : gathered [] [] false.
  Proof.
    split.
    - intros e [].
    - constructor.
    - intros i v H. discriminate.
    - intros a (e & [] & _).
    - split; [discriminate|]. intros (a & (e & [] & _) & _).
  Qed.
  Lemma uses_snoc u e a : uses aes (u ++ [e]) a <-> uses aes u a \/ known aes e a.
  Proof.
    unfold uses. split.
    - intros (x & Hx & Hk). apply in_app_iff in Hx as [Hx | [<- | []]]; eauto.
    - intros [(x & Hx & Hk) | Hk]; [exists x|exists e]; (split; [apply in_app_iff; cbn [In]; auto|exact Hk]).
  Qed.
  Lemma keys_insert {V} k (v : V) m : NoDup (map fst m) -> NoDup (map fst (m_insert k v m)).
  Proof.
    intro H. unfold m_insert. destruct (m_find k m) eqn:E; [exact H|]. rewrite map_app. cbn [map fst].
    apply (Permutation_NoDup (l := k :: map fst m)); [apply Permutation_cons_append|]. constructor; [|exact H].
    intro N. apply find_keys in N as [x N]. congruence.
  Qed.
  Lemma gather_one u m lp e a : gathered u m lp -> known aes e a ->
    gathered (u ++ [e]) (m_insert (codec_id a) (infoof a) m) (lp || (cc_codec (codec_of a) =? kIdLpcm)).
  Proof.
    intros [G1 G2 G3 G4 G5] Hk. split.
    - intros x Hx. apply in_app_iff in Hx as [Hx | [<- | []]]; eauto.
    - apply keys_insert, G2.
    - intros i v. rewrite find_insert. destruct (m_find i m) eqn:E.
      + intro H. injection H as <-. destruct (G3 i _ E) as (b & Hb & Hi & Hv). exists b. rewrite uses_snoc. auto.
      + destruct (codec_id a =? i) eqn:Ei; [|discriminate]. intro H. injection H as <-. exists a. rewrite uses_snoc. split; [auto|]. split; [lia|reflexivity].
    - intros b Hb. rewrite find_insert. apply uses_snoc in Hb as [Hb | Hb].
      + destruct (G4 b Hb) as [v ->]. eauto.
      + unfold known in *. rewrite Hk in Hb. injection Hb as <-. destruct (m_find (codec_id a) m); [eauto|]. rewrite Z.eqb_refl. eauto.
    - rewrite orb_true_iff, G5. split.
      + intros [(b & Hb & Hl) | Hl]; [exists b|exists a]; rewrite uses_snoc; (split; [auto|]); [exact Hl|lia].
      + intros (b & Hb & Hl). apply uses_snoc in Hb as [Hb | Hb]; [left; eauto|right]. unfold known in *. rewrite Hk in Hb. injection Hb as <-. lia.
  Qed.
  Lemma gather_spec : forall l u m lp, gathered u m lp ->
    match gather aes l m lp with
    | Some (m', lp') => gathered (u ++ l) m' lp'
    | None => exists e, In e l /\ m_find (sa_id e) aes = None
    end.
  Proof.
    induction l as [|e t IH]; intros u m lp G; cbn [gather].
    - rewrite app_nil_r. exact G.
    - destruct (m_find (sa_id e) aes) as [a|] eqn:E; [|exists e; split; [left; reflexivity|exact E]].
      pose proof (IH _ _ _ (gather_one u m lp e a G E)) as H. unfold codec_id, infoof in H.
      destruct (gather _ _ _ _) as [[m' lp']|].
      + rewrite <- app_assoc in H. exact H.
      + destruct H as (x & Hx & Hn). exists x. split; [right; exact Hx|exact Hn].
  Qed.
  Lemma gathered_count u m lp n : gathered u m lp -> (zlen m <= n <-> exists ids, zlen ids <= n /\ forall a, uses aes u a -> In (codec_id a) ids).
  Proof.
    intros [G1 G2 G3 G4 G5]. split.
    - intro H. exists (map fst m). split; [unfold zlen in *; rewrite map_length; exact H|]. intros a Ha. apply find_keys, G4, Ha.
    - intros (ids & Hl & Hi). enough (length (map fst m) <= length ids)%nat by (rewrite map_length in *; unfold zlen in *; lia).
      apply NoDup_incl_length; [exact G2|]. intros i H. apply find_keys in H as [v H]. destruct (G3 i v H) as (a & Ha & <- & _). auto.
  Qed.
  Lemma gathered_single u m lp : gathered u m lp -> (zlen m <= 1 <-> single u).
  Proof.
    intro G. rewrite (gathered_count u m lp 1 G). split.
    - intros (ids & Hl & Hi) a b Ha Hb. apply Hi in Ha, Hb. destruct ids as [|x [|y t]]; [destruct Ha| |unfold zlen in Hl; cbn [length] in Hl; lia].
      destruct Ha as [<- | []]. destruct Hb as [<- | []]. reflexivity.
    - intro H. destruct m as [|[i v] t].
      + exists []. split; [unfold zlen; cbn; lia|]. intros a Ha. destruct (ga_has _ _ _ G a Ha) as [v Hv]. discriminate.
      + destruct (ga_from _ _ _ G i v) as (a & Ha & _); [cbn [m_find]; rewrite Z.eqb_refl; reflexivity|].
        exists [codec_id a]. split; [unfold zlen; cbn; lia|]. intros b Hb. left. apply H; assumption.
  Qed.
  Lemma gathered_nonempty u m lp : gathered u m lp -> (m = [] <-> u = []).
  Proof.
    intro G. split; intros ->.
    - destruct u as [|e u]; [reflexivity|]. destruct (ga_known _ _ _ G e) as [a Ha]; [left; reflexivity|].
      destruct (ga_has _ _ _ G a) as [v Hv]; [exists e; split; [left; reflexivity|exact Ha]|]. discriminate.
    - destruct m as [|[i v] t]; [reflexivity|]. destruct (ga_from _ _ _ G i v) as (a & (e & [] & _) & _). cbn [m_find]. rewrite Z.eqb_refl. reflexivity.
  Qed.
  Lemma gather_all_spec : forall l first u m lp, gathered u m lp ->
    match gather_all aes first l m lp with
    | Some (m', lp') => gathered (u ++ flat_map sm_elems l) m' lp' /\ (first = true -> forall x t, l = x :: t -> single (u ++ sm_elems x))
    | None => (exists e, In e (flat_map sm_elems l) /\ m_find (sa_id e) aes = None) \/
              (first = true /\ exists x t, l = x :: t /\ ~ single (u ++ sm_elems x))
    end.
  Proof.
    induction l as [|x t IH]; intros first u m lp G; cbn [gather_all flat_map].
    - rewrite app_nil_r. split; [exact G|]. intros _ x t H. discriminate.
    - pose proof (gather_spec (sm_elems x) u m lp G) as H. destruct (gather aes (sm_elems x) m lp) as [[m1 l1]|].
      2:{ left. destruct H as (e & He & Hn). exists e. split; [apply in_app_iff; auto|exact Hn]. }
      pose proof (gathered_single _ _ _ H) as Hs. destruct (first && (zlen m1 >? 1)) eqn:E.
      + right. apply andb_true_iff in E as [-> E]. split; [reflexivity|]. exists x, t. split; [reflexivity|]. rewrite <- Hs. lia.
      + specialize (IH false _ _ _ H). destruct (gather_all aes false t m1 l1) as [[m' lp']|].
        * destruct IH as [IH _]. rewrite <- app_assoc in IH. split; [exact IH|]. intros -> y t0 Hy. injection Hy as <- <-. apply Hs. cbn [andb] in E. lia.
        * destruct IH as [(e & He & Hn) | [? _]]; [|discriminate]. left. exists e. split; [apply in_app_iff; auto|exact Hn].
  Qed.
End Codecs.

(* one limit after the other *)
Lemma erased_above n : forall limits s p, In p (fold_left (fun s x => if n >? snd x then erase (fst x) s else s) limits s) <->
  In p s /\ forall x, In x limits -> fst x = p -> n <= snd x.
Proof.
  induction limits as [|x t IH]; intros s p; cbn [fold_left]; [split; [intro H; split; [exact H|intros ? []]|tauto]|].
  rewrite IH. destruct (n >? snd x) eqn:E.
  - rewrite in_erase. split.
    + intros ((H1 & H2) & H3). split; [exact H1|]. intros y [<- | Hy] Hp; [congruence|auto].
    + intros (H1 & H2). split; [split; [exact H1|]|].
      * intros ->. specialize (H2 x (or_introl eq_refl) eq_refl). lia.
      * intros y Hy. apply H2. right. exact Hy.
  - split; intros (H1 & H2); (split; [exact H1|]).
    + intros y [<- | Hy] Hp; [lia|auto].
    + intros y Hy. apply H2. right. exact Hy.
Qed.
Lemma six p (a b c d e f n : Z) : profile p -> (forall x, In x [(0, a); (1, b); (2, c); (3, d); (4, e); (5, f)] -> fst x = p -> n <= snd x) <-> n <= largest p [a; b; c; d; e; f].
Proof.
  intro Hp. unfold profile in Hp. assert (p = 0 \/ p = 1 \/ p = 2 \/ p = 3 \/ p = 4 \/ p = 5) as H by lia.
  destruct H as [-> | [-> | [-> | [-> | [-> | ->]]]]]; cbv [largest Z.to_nat nth Pos.to_nat Pos.iter_op Nat.add]; (split;
  [intro H; match goal with |- _ <= ?k => match type of H with context [(?i, k)] => apply (H (i, k)); [cbn [In]; tauto|reflexivity] end end
  |intros H x Hx He; cbn [In] in Hx; repeat (destruct Hx as [<- | Hx]; [cbn [fst snd] in *; try lia|]); destruct Hx]).
Qed.


Definition codecs_fine (aes : aemap) (m : mixp) (p : Z) : Prop :=
  elements m <> [] /\ (forall e, In e (elements m) -> exists a, known aes e a) /\
  (forall s t, mp_subs m = s :: t -> single aes (sm_elems s)) /\
  (exists ids, zlen ids <= largest p [1; 1; 1; 2; 2; 2] /\ forall a, uses aes (elements m) a -> In (codec_id a) ids) /\
  (single aes (elements m) \/ exists a, uses aes (elements m) a /\ cc_codec (codec_of a) = kIdLpcm) /\
  (forall a b, uses aes (elements m) a -> uses aes (elements m) b -> cc_frame (codec_of a) = cc_frame (codec_of b) /\ rate_of a = rate_of b).
Lemma in_find {V} k (v : V) m : m_find k m = Some v -> In (k, v) m.
Proof. induction m as [|[i x] t IH]; cbn [m_find]; [discriminate|]. destruct (i =? k) eqn:E; [intro H; injection H as ->; left; f_equal; lia|right; auto]. Qed.
Lemma codecs_spec aes m : coherent aes -> filters (filter_codecs aes m) (codecs_fine aes m).
Proof.
  intros Hc. unfold filter_codecs. pose proof (gather_all_spec aes (mp_subs m) true [] [] false (gathered_nil aes)) as G. cbn [app] in G.
  change (flat_map sm_elems (mp_subs m)) with (elements m) in G.
  destruct (gather_all aes true (mp_subs m) [] false) as [[i lp]|].
  2:{ apply filters_cleared. intros p _ (H0 & H1 & H2 & _). destruct G as [(e & He & Hn) | (_ & x & t & Hx & Hs)].
      - destruct (H1 e He) as [a Ha]. unfold known in Ha. congruence.
      - exact (Hs (H2 x t Hx)). }
  destruct G as [G Hf]. specialize (Hf eq_refl).
  pose proof (gathered_single aes _ _ _ G) as Hs. pose proof (gathered_nonempty aes _ _ _ G) as Hn. pose proof (ga_lpcm _ _ _ _ G) as Hl.
  assert (forall a, uses aes (elements m) a -> In (codec_id a, infoof a) i) as Hin.
  { intros a Ha. destruct (ga_has _ _ _ _ G a Ha) as [v Hv]. destruct (ga_from _ _ _ _ G _ _ Hv) as (b & Hb & Hi & ->).
    apply in_find. rewrite Hv. f_equal. destruct Ha as (ea & _ & Ka). destruct Hb as (eb & _ & Kb). unfold infoof, codec_of, rate_of.
    rewrite (Hc _ _ _ _ Kb Ka Hi). reflexivity. }
  destruct ((zlen i >? 1) && negb lp) eqn:E1.
  { apply filters_cleared. intros p _ (_ & _ & _ & _ & [H | H] & _).
    - apply Hs in H. lia.
    - apply Hl in H. subst lp. rewrite andb_false_r in E1. discriminate. }
  destruct i as [|[i0 c] i1].
  { apply filters_cleared. intros p _ (H & _). apply H, Hn. reflexivity. }
  match goal with |- context [forallb ?f ?l] => destruct (forallb f l) eqn:E2 end.
  - rewrite forallb_forall in E2.
    apply (filters_eq _ (fun p => zlen ((i0, c) :: i1) <= largest p [1; 1; 1; 2; 2; 2])).
    { intros p _. rewrite (gathered_count aes _ _ _ _ G). unfold codecs_fine. split; [|tauto]. intro H.
      split; [intro Q; apply Hn in Q; discriminate|]. split; [exact (ga_known _ _ _ _ G)|]. split; [exact Hf|]. split; [exact H|]. split.
      - destruct lp; [right; apply Hl; reflexivity|]. left. apply Hs. lia.
      - intros a b Ha Hb. apply Hin, E2 in Ha. apply Hin, E2 in Hb. cbn [fst snd infoof] in Ha, Hb. lia. }
    intros s Hp. eexists _, _. split; [reflexivity|]. split; [auto|]. split; [congruence|].
    match goal with |- Forall profile ?x /\ _ => set (s' := x) end.
    assert (forall p, In p s' <-> In p s /\ zlen ((i0, c) :: i1) <= largest p [1; 1; 1; 2; 2; 2]) as H.
    { intro p. unfold s'. rewrite erased_above. rewrite Forall_forall in Hp. split; intros [H1 H2]; (split; [exact H1|]); apply (six p _ _ _ _ _ _ _ (Hp p H1)); exact H2. }
    split; [|exact H]. eapply profile_sub; [exact Hp|]. intros p Q. apply H, Q.
  - apply filters_cleared. intros p _ (_ & _ & _ & _ & _ & Ha).
    enough (forallb (fun x => (fst (snd x) =? fst c) && (snd c =? snd (snd x))) ((i0, c) :: i1) = true) as Q by (rewrite Q in E2; discriminate).
    apply forallb_forall. intros [j v] Hj. cbn [fst snd].
    destruct (ga_from _ _ _ _ G j v) as (a & Ua & _ & ->); [apply find_in; [exact (ga_nodup _ _ _ _ G)|exact Hj]|].
    destruct (ga_from _ _ _ _ G i0 c) as (b & Ub & _ & ->); [cbn [m_find]; rewrite Z.eqb_refl; reflexivity|].
    destruct (Ha a b Ua Ub) as [H1 H2]. cbn [fst snd infoof]. lia.
Qed.

(* ================= counting ================= *)
Lemma zlen_app {A} (a b : list A) : zlen (a ++ b) = zlen a + zlen b.
Proof. unfold zlen. rewrite app_length. lia. Qed.
Lemma s32_fits z : 0 <= z < 2^31 -> s32 z = z.
Proof. intro H. unfold s32, sN. change (2^(32-1)) with 2147483648. change (2^32) with 4294967296. change (2^31) with 2147483648 in H. rewrite Z.mod_small by lia. replace (z <? 2147483648) with true by lia. reflexivity. Qed.
Lemma fold_sum : forall (l : list Z) n, fold_left Z.add l n = n + sum l.
Proof. induction l as [|x t IH]; intro n; cbn [fold_left sum fold_right]; [lia|]. rewrite IH. unfold sum. lia. Qed.
Lemma sum_nonneg l : (forall x, In x l -> 0 <= x) -> 0 <= sum l.
Proof. induction l as [|x t IH]; intro H; cbn [sum fold_right]; [lia|]. pose proof (H x (or_introl eq_refl)). change (fold_right Z.add 0 t) with (sum t). specialize (IH (fun y Hy => H y (or_intror Hy))). lia. Qed.
Lemma sum_app a b : sum (a ++ b) = sum a + sum b.
Proof. induction a as [|x t IH]; cbn [app sum fold_right]; [reflexivity|]. change (fold_right Z.add 0 (t ++ b)) with (sum (t ++ b)). change (fold_right Z.add 0 t) with (sum t). lia. Qed.
Lemma width_nonneg a : 0 <= width a.
Proof. apply sum_nonneg. intros x H. apply in_map_iff in H as (y & <- & _). unfold zlen. lia. Qed.
Lemma total_nonneg aes l : 0 <= total_width aes l.
Proof. apply sum_nonneg. intros x H. apply in_map_iff in H as (y & <- & _). destruct (m_find _ _); [apply width_nonneg|lia]. Qed.
Lemma channels_width_aux : forall (l : list (Z * list label)) n, 0 <= n -> n + sum (map (fun x => zlen (snd x)) l) < 2^31 ->
  fold_left (fun n x => s32 (n + zlen (snd x))) l n = n + sum (map (fun x => zlen (snd x)) l).
Proof.
  induction l as [|x t IH]; intros n Hn Hw; cbn [fold_left map sum fold_right] in *; [lia|].
  change (fold_right Z.add 0 (map ?f t)) with (sum (map f t)) in *. pose proof (sum_nonneg (map (fun x => zlen (snd x)) t)) as P.
  assert (forall y, In y (map (fun x : Z * list label => zlen (snd x)) t) -> 0 <= y) as Q by (intros y H; apply in_map_iff in H as (z & <- & _); unfold zlen; lia).
  specialize (P Q). assert (0 <= zlen (snd x)) by (unfold zlen; lia). rewrite s32_fits by lia. rewrite IH by lia. lia.
Qed.
Lemma channels_width a : width a < 2^31 -> channels_of a = width a.
Proof. intro H. unfold channels_of. rewrite channels_width_aux; unfold width in *; lia. Qed.
Lemma total_cons aes e l : total_width aes (e :: l) = match m_find (sa_id e) aes with Some a => width a | None => 0 end + total_width aes l.
Proof. reflexivity. Qed.
Lemma total_app aes a b : total_width aes (a ++ b) = total_width aes a + total_width aes b.
Proof. unfold total_width. rewrite map_app. apply sum_app. Qed.
Definition kinds_fine (aes : aemap) (l : list subelem) (p : Z) : Prop := forall e, In e l -> exists a, known aes e a /\ element_allowed p (ad_obu a).
Lemma filter_elements_spec aes : forall l s c, Forall profile s -> 0 <= c -> c + total_width aes l < 2^31 ->
  exists r s' c', filter_elements aes l s c = (r, s', c') /\ (r = Ok tt \/ r = Err InvalidArgument) /\ (r <> Ok tt -> s' = []) /\
    Forall profile s' /\ (forall p, In p s' <-> In p s /\ kinds_fine aes l p) /\ (r = Ok tt -> c' = c + total_width aes l).
Proof.
  induction l as [|e t IH]; intros s c Hs Hc Hw; cbn [filter_elements].
  - exists (Ok tt), s, c. split; [reflexivity|]. split; [auto|]. split; [congruence|]. split; [exact Hs|]. split; [|intros _; unfold total_width; cbn; lia].
    intro p. split; [|tauto]. intro H. split; [exact H|]. intros x [].
  - rewrite total_cons in Hw. pose proof (total_nonneg aes t) as Ht. destruct (m_find (sa_id e) aes) as [a|] eqn:E.
    2:{ exists (Err InvalidArgument), [], c. split; [reflexivity|]. split; [auto|]. split; [auto|]. split; [constructor|]. split; [|discriminate].
        intro p. split; [intros []|]. intros (_ & H). destruct (H e (or_introl eq_refl)) as (a & Ha & _). unfold known in Ha. congruence. }
    pose proof (width_nonneg a) as Ha. destruct (filter_element_spec (ad_obu a) s Hs) as (r & s1 & E1 & Hr & Hn & Hs1 & Hq). rewrite E1. cbn [fst snd].
    destruct Hr as [-> | ->].
    + rewrite channels_width by lia. rewrite s32_fits by lia.
      destruct (IH s1 (c + width a) Hs1 ltac:(lia) ltac:(lia)) as (r2 & s2 & c2 & E2 & Hr2 & Hn2 & Hs2 & Hq2 & Hc2).
      exists r2, s2, c2. split; [exact E2|]. split; [exact Hr2|]. split; [exact Hn2|]. split; [exact Hs2|]. split.
      * intro p. rewrite Hq2, Hq. unfold kinds_fine. split.
        -- intros ((H1 & H2) & H3). split; [exact H1|]. intros x [<- | Hx]; [exists a; split; [exact E|exact H2]|auto].
        -- intros (H1 & H2). split; [split; [exact H1|]|intros x Hx; apply H2; right; exact Hx]. destruct (H2 e (or_introl eq_refl)) as (b & Hb & H3). unfold known in Hb. rewrite E in Hb. injection Hb as <-. exact H3.
      * intro R. rewrite total_cons, E, (Hc2 R). lia.
    + exists (Err InvalidArgument), s1, c. split; [reflexivity|]. split; [auto|]. split; [auto|]. split; [exact Hs1|]. split; [|discriminate].
      rewrite (Hn ltac:(discriminate)) in *. intro p. split; [intros []|]. intros (H1 & H2). apply (Hq p). split; [exact H1|].
      destruct (H2 e (or_introl eq_refl)) as (b & Hb & H3). unfold known in Hb. rewrite E in Hb. injection Hb as <-. exact H3.
Qed.
Lemma filter_submixes_spec aes : forall l s n c, Forall profile s -> 0 <= n -> 0 <= c -> n + zlen (flat_map sm_elems l) < 2^31 -> c + total_width aes (flat_map sm_elems l) < 2^31 ->
  exists r s' n' c', filter_submixes aes l s n c = (r, s', n', c') /\ (r = Ok tt \/ r = Err InvalidArgument) /\ (r <> Ok tt -> s' = []) /\
    Forall profile s' /\ (forall p, In p s' <-> In p s /\ kinds_fine aes (flat_map sm_elems l) p) /\
    (r = Ok tt -> n' = n + zlen (flat_map sm_elems l) /\ c' = c + total_width aes (flat_map sm_elems l)).
Proof.
  induction l as [|x t IH]; intros s n c Hs Hn Hc Hw1 Hw2; cbn [filter_submixes flat_map] in *.
  - exists (Ok tt), s, n, c. split; [reflexivity|]. split; [auto|]. split; [congruence|]. split; [exact Hs|]. split; [|intros _; unfold total_width, zlen; cbn; lia].
    intro p. split; [|tauto]. intro H. split; [exact H|]. intros y [].
  - rewrite zlen_app in Hw1. rewrite total_app in Hw2. pose proof (total_nonneg aes (flat_map sm_elems t)) as Ht.
    assert (0 <= zlen (flat_map sm_elems t) /\ 0 <= zlen (sm_elems x)) as [Hz1 Hz2] by (unfold zlen; lia).
    destruct (filter_elements_spec aes (sm_elems x) s c Hs Hc ltac:(lia)) as (r & s1 & c1 & E & Hr & Hne & Hs1 & Hq & Hc1). rewrite E.
    destruct Hr as [-> | ->].
    + rewrite s32_fits by lia. rewrite (Hc1 eq_refl). pose proof (total_nonneg aes (sm_elems x)) as Hx.
      destruct (IH s1 (n + zlen (sm_elems x)) (c + total_width aes (sm_elems x)) Hs1 ltac:(lia) ltac:(lia) ltac:(lia) ltac:(lia)) as (r2 & s2 & n2 & c2 & E2 & Hr2 & Hn2 & Hs2 & Hq2 & Hc2).
      exists r2, s2, n2, c2. split; [exact E2|]. split; [exact Hr2|]. split; [exact Hn2|]. split; [exact Hs2|]. split.
      * intro p. rewrite Hq2, Hq. unfold kinds_fine. setoid_rewrite in_app_iff. split.
        -- intros ((H1 & H2) & H3). split; [exact H1|]. intros y [Hy | Hy]; auto.
        -- intros (H1 & H2). split; [split; [exact H1|]|]; intros y Hy; apply H2; auto.
      * intro R. destruct (Hc2 R) as [-> ->]. rewrite zlen_app, total_app. lia.
    + exists (Err InvalidArgument), s1. eexists _, _. split; [reflexivity|]. split; [auto|]. split; [auto|]. split; [exact Hs1|]. split; [|discriminate].
      rewrite (Hne ltac:(discriminate)) in *. intro p. split; [intros []|]. intros (H1 & H2). apply (Hq p). split; [exact H1|].
      intros y Hy. apply H2, in_app_iff. left. exact Hy.
Qed.
Lemma limit_spec a b c d e f n : filters (filter_limit [(0, a); (1, b); (2, c); (3, d); (4, e); (5, f)] n) (fun p => n <= largest p [a; b; c; d; e; f]).
Proof.
  unfold filter_limit. apply (filters_unless (fun s => fold_left _ _ s)). intros s Hs p. rewrite erased_above. rewrite Forall_forall in Hs.
  split; intros [H1 H2]; (split; [exact H1|]); apply (six p _ _ _ _ _ _ _ (Hs p H1)); exact H2.
Qed.

(* ================= C49 ================= *)
Theorem C49_profiles_exact aes m s : coherent aes -> Forall profile s ->
  zlen (mp_subs m) < 2^31 -> zlen (elements m) < 2^31 -> total_width aes (elements m) < 2^31 ->
  exists r s', filter_mix aes m s = (r, s') /\ (r = Ok tt \/ r = Err InvalidArgument) /\ (r = Ok tt <-> s' <> []) /\
    forall p, In p s' <-> In p s /\ supports aes m p.
Proof.
  intros Hc Hs L1 L2 L3.
  assert (filters (filter_mix aes m) (supports aes m) /\ strict (filter_mix aes m)) as [F K].
  { split.
    - apply (filters_eq _ (fun p => zlen (mp_subs m) <= largest p [1; 1; 1; 2; 2; 2] /\
        ((forall x, In x (modes_of m) -> x <> 3 /\ (x = 2 -> 3 <= p)) /\
        (codecs_fine aes m p /\ (kinds_fine aes (elements m) p /\ zlen (elements m) <= largest p [1; 2; 28; 18; 18; 28] /\ total_width aes (elements m) <= largest p [16; 18; 28; 18; 18; 28]))))).
      { intros p _. assert (forall x, In x (modes_of m) <-> exists e, In e (elements m) /\ rc_mode (sa_conf e) = x) as M.
        { intro x. unfold modes_of, elements. rewrite in_flat_map. split.
          - intros (y & Hy & H). apply in_map_iff in H as (e & <- & He). exists e. split; [apply in_flat_map; eauto|reflexivity].
          - intros (e & He & <-). apply in_flat_map in He as (y & Hy & He). exists y. split; [exact Hy|]. apply in_map_iff. eauto. }
        split.
        - intros (H1 & H2 & (H3 & H4 & H5 & H6 & H7 & H8) & H9 & H10 & H11). split; try assumption.
          + intros e He. apply H2, M. eauto.
          + intros a (e & He & Ha). destruct (H9 e He) as (b & Hb & Hk). unfold known in *. rewrite Ha in Hb. injection Hb as ->. exact Hk.
          + intros y t a b Hy Ha Hb. exact (H5 y t Hy a b Ha Hb).
        - intros [H1 H2 H3 H4 H5 H6 H7 H8 H9 H10 H11]. split; [exact H1|]. split; [intros x Hx; apply M in Hx as (e & He & <-); auto|].
          split; [split; [exact H3|]; split; [exact H4|]; split; [intros y t Hy a b; exact (H6 y t a b Hy)|]; split; [exact H7|]; split; [exact H8|exact H9]|].
          split; [|split; assumption]. intros e He. destruct (H4 e He) as [a Ha]. exists a. split; [exact Ha|]. apply H5. exists e. auto. }
      unfold filter_mix. replace (s32 (u32 (zlen (mp_subs m)))) with (zlen (mp_subs m)).
      2:{ unfold u32. change (2^31) with 2147483648 in *. change (2^32) with 4294967296. assert (0 <= zlen (mp_subs m)) by (unfold zlen; lia). rewrite Z.mod_small by lia. rewrite s32_fits; [reflexivity|]. change (2^31) with 2147483648. lia. }
      apply filters_then; [apply num_submixes_spec|]. apply filters_then; [apply headphones_spec|]. apply filters_then; [apply codecs_spec, Hc|].
      intros s0 Hs0. destruct (filter_submixes_spec aes (mp_subs m) s0 0 0 Hs0 ltac:(lia) ltac:(lia) L2 L3) as (r & s1 & n & c & E & Hr & Hne & Hs1 & Hq & Hnc).
      rewrite E. change (flat_map sm_elems (mp_subs m)) with (elements m) in *. unfold and_then at 1. cbn [fst snd].
      destruct Hr as [-> | ->].
      + destruct (Hnc eq_refl) as [-> ->]. rewrite !Z.add_0_l.
        destruct (filters_then _ _ _ _ (limit_spec 1 2 28 18 18 28 (zlen (elements m))) (limit_spec 16 18 28 18 18 28 (total_width aes (elements m))) s1 Hs1)
          as (r2 & s2 & E2 & Hr2 & Hn2 & Hs2 & Hq2).
        exists r2, s2. split; [exact E2|]. repeat (split; [assumption|]). intro p. rewrite Hq2, Hq. tauto.
      + exists (Err InvalidArgument), s1. split; [reflexivity|]. split; [auto|]. split; [exact Hne|]. split; [exact Hs1|]. intro p. rewrite (Hne ltac:(discriminate)) in *. split; [intros []|].
        intros (H1 & H2 & _). apply (Hq p). auto.
    - intros s0 s1. unfold filter_mix.
      apply (strict_then (fun s => filter_num_submixes _ s)) with (s := s0). intros s2 s3.
      apply (strict_then (fun s => filter_headphones _ s)) with (s := s2). intros s4 s5.
      apply (strict_then (fun s => filter_codecs _ _ s)) with (s := s4). intros s6 s7.
      destruct (filter_submixes aes (mp_subs m) s6 0 0) as [[[r s8] n] c].
      apply (strict_then (fun s => (r, s))) with (s := s8).
      apply (strict_then (fun s => filter_limit _ _ s)). apply (strict_unless (fun s => _)). }
  destruct (F s Hs) as (r & s1 & E & Hr & Hn & _ & Hq). exists r, s1. split; [exact E|]. split; [exact Hr|]. split; [|exact Hq].
  split; [intros ->; exact (K s s1 E)|]. intro H. destruct Hr as [R | R]; [exact R|]. destruct H. apply Hn. congruence.
Qed.
(* The mixes a decoder chooses from are those which one of its profiles supports, in stream order. *)
Theorem C49_supported_exact aes ms s : coherent aes -> Forall profile s ->
  Forall (fun m => zlen (mp_subs m) < 2^31 /\ zlen (elements m) < 2^31 /\ total_width aes (elements m) < 2^31) ms ->
  StronglySorted lt (supported_mixes s aes ms) /\
  forall i, In i (supported_mixes s aes ms) <-> exists m p, nth_error ms i = Some m /\ In p s /\ supports aes m p.
Proof.
  intros Hc Hs Hm. unfold supported_mixes. set (f := fun x : nat * mixp => _).
  assert (forall l k, Forall (fun m => zlen (mp_subs m) < 2^31 /\ zlen (elements m) < 2^31 /\ total_width aes (elements m) < 2^31) l ->
    StronglySorted lt (map fst (filter f (combine (seq k (length l)) l))) /\
    forall i, In i (map fst (filter f (combine (seq k (length l)) l))) <-> (k <= i)%nat /\ exists m p, nth_error l (i - k) = Some m /\ In p s /\ supports aes m p) as H.
  { induction l as [|m l IH]; intros k Hl.
    - split; [constructor|]. intro i. split; [intros []|]. intros (_ & m & p & H & _). destruct (i - k)%nat; discriminate.
    - cbn [length seq combine filter]. pose proof (Forall_inv Hl) as (A1 & A2 & A3). apply Forall_inv_tail in Hl. destruct (IH (Datatypes.S k) Hl) as [IHs IHi].
      destruct (C49_profiles_exact aes m s Hc Hs A1 A2 A3) as (r & s1 & E & Hr & Hn & Hq).
      assert (f (k, m) = true <-> exists p, In p s /\ supports aes m p) as F.
      { unfold f. cbn [snd]. rewrite E. cbn [fst]. split.
        - intro Q. assert (r = Ok tt) as R by (destruct Hr as [R | R]; [exact R|subst r; discriminate]). apply Hn in R. destruct s1 as [|p t]; [congruence|]. exists p. apply Hq. left. reflexivity.
        - intros (p & Hp). apply Hq in Hp. assert (r = Ok tt) as -> by (apply Hn; intros ->; destruct Hp). reflexivity. }
      assert (forall i, (k <= i)%nat /\ (exists m0 p, nth_error (m :: l) (i - k) = Some m0 /\ In p s /\ supports aes m0 p) <->
        (i = k /\ f (k, m) = true) \/ In i (map fst (filter f (combine (seq (Datatypes.S k) (length l)) l)))) as B.
      { intro i. rewrite IHi, F. split.
        - intros (H1 & m0 & p & H2 & H3). destruct (Nat.eq_dec i k) as [-> |N].
          + left. split; [reflexivity|]. rewrite Nat.sub_diag in H2. injection H2 as <-. eauto.
          + right. split; [lia|]. exists m0, p. split; [|exact H3]. replace (i - k)%nat with (Datatypes.S (i - Datatypes.S k)) in H2 by lia. exact H2.
        - intros [(-> & p & H) | (H1 & m0 & p & H2 & H3)].
          + split; [lia|]. exists m, p. rewrite Nat.sub_diag. split; [reflexivity|exact H].
          + split; [lia|]. exists m0, p. split; [|exact H3]. replace (i - k)%nat with (Datatypes.S (i - Datatypes.S k)) by lia. exact H2. }
      destruct (f (k, m)) eqn:Fk; cbn [map fst].
      + split.
        * constructor; [exact IHs|]. apply Forall_forall. intros i Hi. apply IHi in Hi. lia.
        * intro i. rewrite B. cbn [In]. intuition congruence.
      + split; [exact IHs|]. intro i. rewrite B. intuition congruence. }
  destruct (H ms 0%nat Hm) as [H1 H2]. split; [exact H1|]. intro i. rewrite H2. rewrite Nat.sub_0_r. split; [tauto|]. intro Q. split; [lia|exact Q].
Qed.
(* Audio elements prepared from one table of codec configs, each stored under its own ID, are coherent. *)
Lemma coherent_generated codecs aes : (forall k c, m_find k codecs = Some c -> cc_id (fst c) = k) ->
  (forall i a, m_find i aes = Some a -> exists o, generate_ae codecs o = Ok a) -> coherent aes.
Proof.
  intros Hk Hg i a j b Ha Hb E.
  assert (forall o d, generate_ae codecs o = Ok d -> exists k, m_find k codecs = Some (ad_codec d)) as G.
  { intros o d. unfold generate_ae. match goal with |- rbind ?x _ = _ -> _ => destruct x as [y|?| | |] end; try discriminate. cbn [rbind].
    destruct (m_find (ae_codec o) codecs) as [c|] eqn:F; [|discriminate]. intro H. injection H as <-. exists (ae_codec o). exact F. }
  destruct (Hg i a Ha) as [oa Oa]. destruct (Hg j b Hb) as [ob Ob]. destruct (G _ _ Oa) as [ka Ka]. destruct (G _ _ Ob) as [kb Kb].
  assert (ka = kb) as <-. { rewrite <- (Hk _ _ Ka), <- (Hk _ _ Kb). exact E. } congruence.
Qed.

(* ---------------- examples ---------------- *)
Definition ex_gain : pdef := mkPD (mkPB 100 48000 0 None) (KMixGain 0).
Definition ex_elem (id mode : Z) : subelem := mkSA id [] (mkRC mode 0 0 [] None []) ex_gain.
Definition ex_mix (id : Z) (l : list subelem) : mixp := mkMP id 0 [] [] [mkSM l ex_gain [mkLO 2 (LSs 0 0) 0 0 0 0 [] []]] None None.
Definition ex_stereo (subs : list Z) : aelem := mkAE 1 0 0 7 subs [] (ACScal 0 [mkLy 1 false false 0 1 1 0 0 0 None]).
Definition ex_wide : aelem := mkAE 2 0 0 7 [5; 6] [] (ACScal 0 [mkLy 15 false false 0 2 1 0 0 0 (Some 7)]).
Definition ex_aes : aemap :=
  match generate_ae [(7, cc0)] (ex_stereo [3]), generate_ae [(7, cc0)] (ex_stereo [4]), generate_ae [(7, cc0)] ex_wide, generate_ae [(7, cc0)] (mkAE 9 1 0 7 [5; 6; 9] [] (ACAmbi (AMono 3 [2; 0; 255; 1]))) with
  | Ok a, Ok b, Ok c, Ok d => [(1, a); (2, b); (3, c); (4, d)]
  | _, _, _, _ => []
  end.
Example C49_ex :
  coherent ex_aes /\ Forall profile [0; 1; 2] /\ length ex_aes = 4%nat /\
  filter_mix ex_aes (ex_mix 42 [ex_elem 1 0]) [0; 1; 2] = (Ok tt, [0; 1; 2]) /\
  filter_mix ex_aes (ex_mix 42 [ex_elem 1 0; ex_elem 2 1]) [0; 1; 2] = (Ok tt, [1; 2]) /\
  filter_mix ex_aes (ex_mix 42 [ex_elem 3 0]) [0; 1; 2] = (Ok tt, [2]) /\
  filter_mix ex_aes (ex_mix 42 [ex_elem 4 2]) [0; 1; 2; 3] = (Ok tt, [3]) /\
  filter_mix ex_aes (ex_mix 42 [ex_elem 4 2]) [0; 1; 2] = (Err InvalidArgument, []) /\
  supported_mixes [0; 1] ex_aes [ex_mix 41 [ex_elem 3 0]; ex_mix 42 [ex_elem 1 0; ex_elem 2 0]; ex_mix 43 [ex_elem 9 0]; ex_mix 44 [ex_elem 4 0]] = [1; 3]%nat.
Proof.
  split; [|split; [repeat constructor; unfold profile; lia|]].
  2:{ split; [vm_compute; reflexivity|]. split; [vm_compute; reflexivity|]. split; [vm_compute; reflexivity|]. split; [vm_compute; reflexivity|]. split; [vm_compute; reflexivity|]. split; vm_compute; reflexivity. }
  apply (coherent_generated [(7, cc0)]).
  - intros k c. cbn [m_find]. destruct (7 =? k) eqn:E; [|discriminate]. intro H. injection H as <-. cbn. lia.
  - intros i a H. apply in_find in H.
    assert (exists a b c d, ex_aes = [(1, a); (2, b); (3, c); (4, d)] /\ generate_ae [(7, cc0)] (ex_stereo [3]) = Ok a /\ generate_ae [(7, cc0)] (ex_stereo [4]) = Ok b /\
      generate_ae [(7, cc0)] ex_wide = Ok c /\ generate_ae [(7, cc0)] (mkAE 9 1 0 7 [5; 6; 9] [] (ACAmbi (AMono 3 [2; 0; 255; 1]))) = Ok d) as (a1 & a2 & a3 & a4 & E & E1 & E2 & E3 & E4).
    { eexists _, _, _, _. split; [vm_compute; reflexivity|]. split; [vm_compute; reflexivity|]. split; [vm_compute; reflexivity|]. split; vm_compute; reflexivity. }
    rewrite E in H. cbn [In] in H. destruct H as [H | [H | [H | [H | []]]]]; injection H as <- <-; eauto.
Qed.
(* An object-based element carries no channel labels: it does not count against the channel limit. *)
Example C49_objects_are_free : exists d, generate_ae [(7, cc0)] (mkAE 1 2 0 7 [3] [] (ACObj 200 [])) = Ok d /\ width d = 0 /\
  filter_mix [(1, d)] (ex_mix 42 [ex_elem 1 0]) [3; 4; 5] = (Ok tt, [3; 4; 5]).
Proof. eexists. split; [vm_compute; reflexivity|]. split; vm_compute; reflexivity. Qed.


