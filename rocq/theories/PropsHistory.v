(* C61: what is rendered for a temporal unit depends on that unit only, not on those rendered before. *)
From Verif Require Import Base WriteBuf ObuHeader SimpleObus CodecConfig Params AudioElement MixPresentation Timing ParamManager AeData
  Profile MixSelect PropsParams MixGain PropsGain Processor Demix DemixFacts Render RenderFacts PropsRender.

Section History.
Context {T F B C : Type} (E : renv T F B C).
Notation chan := (@samples T).

(* ================= SPEC ================= *)
(* Two renderers of a layout for the same audio elements, gains, number of channels, sample rate and frame size; the samples they
   have stored may differ. *)
Definition same_renderer (l l' : @lrend T B) : Prop :=
  Forall2 kept (lr_els l) (lr_els l') /\ lr_gain l' = lr_gain l /\ lr_chans l' = lr_chans l /\ lr_rate l' = lr_rate l /\ lr_spf l' = lr_spf l.
Definition same_layout (m m' : @lmeta T B) : Prop :=
  match lm_rend m, lm_rend m' with Some l, Some l' => same_renderer l l' | None, None => lm_valid m = lm_valid m' | _, _ => False end.
Definition same_finalizer (f f' : @finalizer T B) : Prop :=
  Forall2 (fun p p' => fst p' = fst p /\ Forall2 (Forall2 same_layout) (snd p) (snd p')) f f'.
Definition each_renderer (P : @lrend T B -> Prop) (f : @finalizer T B) : Prop :=
  forall id subs ls lm l, In (id, subs) f -> In ls subs -> In lm ls -> lm_rend lm = Some l -> P l.
(* No samples are left in a renderer *)
Definition settled (m : @models T B C) : Prop := each_renderer ready (rm_fin m).
Definition alike (m m' : @models T B C) : Prop :=
  rm_subs m' = rm_subs m /\ rm_demix m' = rm_demix m /\ rm_mix m' = rm_mix m /\ same_finalizer (rm_fin m) (rm_fin m').
(* The unit has a frame of every audio element *)
Definition complete (m : @models T B C) (u : outunit) : Prop :=
  (forall id c, In (id, c) (rm_demix m) -> exists o ls, In o (un_frames u) /\ m_find (af_id (of_obu o)) (snd c) = Some ls /\ ls <> []) /\
  each_renderer (fun l => forall e, In e (lr_els l) -> In (el_id e) (map fst (rm_demix m))) (rm_fin m).
Definition trims_of_unit (u : outunit) : Prop := forall o, In o (un_frames u) -> 0 <= h_trim_start (of_header o) /\ 0 <= h_trim_end (of_header o).
(* A codec without memory from one frame to the next *)
Definition stateless : Prop := forall d x, snd (r_decode E d x) = d.
Definition after_units (m : @models T B C) (us : list outunit) : models := fold_left (fun m u => snd (render_unit E m u)) us m.

(* ================= proofs ================= *)
Definition raw (r : @erend T B) (p : option (@dparams T)) (ins : list chan) : res (list chan) :=
  match matrix_of E r p with Some g => render_gains E ins g | None => Ok ins end.
Lemma render_samples_eq r p ins : by_loudspeakers r -> clean (er_out r) -> render_samples E r p ins =
  match raw r p ins with Ok o => (Ok tt, set_out r o) | Err c => (Err c, r) | Abort => (Abort, r) | UB => (UB, r) | Diverge => (Diverge, r) end.
Proof.
  intros L Cl. unfold render_samples, raw, matrix_of, by_loudspeakers in *. destruct (er_kind r) as [|i o g|g|m b]; try contradiction; try reflexivity.
  rewrite (append_clean _ _ Cl). reflexivity.
Qed.
Lemma render_labeled_eq r lf : by_loudspeakers r -> clean (er_out r) -> render_labeled E r lf =
  match arranged E r lf with
  | Ok (ins, n) => match raw r (lf_params lf) ins with Ok o => (Ok n, set_out r o) | Err c => (Err c, r) | Abort => (Abort, r) | UB => (UB, r) | Diverge => (Diverge, r) end
  | Err c => (Err c, r) | Abort => (Abort, r) | UB => (UB, r) | Diverge => (Diverge, r)
  end.
Proof.
  intros L Cl. unfold render_labeled. match goal with |- match ?q with _ => _ end = _ => change q with (arranged E r lf) end.
  destruct (arranged E r lf) as [[ins n]|e| | |]; try reflexivity. rewrite (render_samples_eq _ _ _ L Cl). destruct (raw r (lf_params lf) ins); reflexivity.
Qed.
Lemma render_to_layout_eq r lf spf out : by_loudspeakers r -> clean (er_out r) -> render_to_layout E r lf spf out =
  match arranged E r lf with
  | Ok (ins, n) =>
      match raw r (lf_params lf) ins with
      | Ok o => if Z.of_nat n >? spf then (Err InvalidArgument, set_out r o, map (fun _ => []) out)
                else let r2 := set_out r (map (fun _ => []) o) in
                     if Nat.eqb n O then (Ok tt, r2, o)
                     else if existsb (fun ch => match ch with [] => true | _ => false end) o then (Err Unknown, r2, o) else (Ok tt, r2, o)
      | Err c => (Err c, r, map (fun _ => []) out) | Abort => (Abort, r, map (fun _ => []) out) | UB => (UB, r, map (fun _ => []) out) | Diverge => (Diverge, r, map (fun _ => []) out)
      end
  | Err c => (Err c, r, map (fun _ => []) out) | Abort => (Abort, r, map (fun _ => []) out) | UB => (UB, r, map (fun _ => []) out) | Diverge => (Diverge, r, map (fun _ => []) out)
  end.
Proof.
  intros L Cl. unfold render_to_layout. cbv zeta. rewrite (render_labeled_eq _ _ L Cl).
  destruct (arranged E r lf) as [[ins n]|e| | |]; try reflexivity. destruct (raw r (lf_params lf) ins) as [o|e| | |]; try reflexivity.
  destruct (Z.of_nat n >? spf); [reflexivity|]. unfold flush. cbn [set_out er_out er_kind er_labels er_spf]. rewrite (append_clean _ _ (clean_map out)). unfold set_out. cbn [er_out er_kind er_labels er_spf]. reflexivity.
Qed.
Lemma static_raw (r r' : @erend T B) p ins : static r r' -> raw r' p ins = raw r p ins.
Proof. intros (S1 & _ & _). unfold raw, matrix_of. rewrite S1. reflexivity. Qed.
Lemma static_arranged (r r' : @erend T B) lf : static r r' -> arranged E r' lf = arranged E r lf.
Proof. intros (_ & S2 & S3). unfold arranged. rewrite S2, S3. reflexivity. Qed.
Lemma static_by (r r' : @erend T B) : static r r' -> by_loudspeakers r -> by_loudspeakers r'.
Proof. intros (S1 & _). unfold by_loudspeakers. rewrite S1. auto. Qed.
Lemma render_to_layout_same (r r' : @erend T B) lf spf out out' : by_loudspeakers r -> clean (er_out r) -> clean (er_out r') -> static r r' ->
  fst (fst (render_to_layout E r lf spf out)) = fst (fst (render_to_layout E r' lf spf out')) /\
  (fst (fst (render_to_layout E r lf spf out)) = Ok tt -> snd (render_to_layout E r lf spf out) = snd (render_to_layout E r' lf spf out')).
Proof.
  intros L C1 C2 S. rewrite (render_to_layout_eq r) by assumption. rewrite (render_to_layout_eq r') by (try exact (static_by _ _ S L); assumption).
  rewrite (static_arranged _ _ _ S). destruct (arranged E r lf) as [[ins n]|e| | |]; cbn [fst snd]; try (split; [reflexivity|discriminate]).
  rewrite (static_raw _ _ _ _ S). destruct (raw r (lf_params lf) ins) as [o|e| | |]; cbn [fst snd]; try (split; [reflexivity|discriminate]).
  destruct (Z.of_nat n >? spf); cbn [fst snd]; [split; [reflexivity|discriminate]|]. cbv zeta. destruct (Nat.eqb n 0); cbn [fst snd]; [auto|]. match goal with |- context[existsb ?f o] => destruct (existsb f o) end; cbn [fst snd]; auto.
Qed.
Lemma render_elements_same frames blocks chans rate spf : forall els els', Forall2 kept els els' -> Forall (idle spf) els -> Forall (idle spf) els' ->
  (forall e, In e els -> m_find (el_id e) frames <> None) ->
  fst (render_elements E frames blocks chans rate spf els) = fst (render_elements E frames blocks chans rate spf els') /\
  (fst (render_elements E frames blocks chans rate spf els) = Ok tt ->
   map (@el_out T B) (snd (render_elements E frames blocks chans rate spf els)) = map (@el_out T B) (snd (render_elements E frames blocks chans rate spf els'))).
Proof.
  induction 1 as [|e e' els els' (K1 & K2 & K3) K IH]; intros I1 I2 Hf; [cbn [render_elements fst snd]; auto|].
  inversion I1 as [|? ? (A1 & A2 & A3 & A4) I1']; subst. inversion I2 as [|? ? (B1 & B2 & B3 & B4) I2']; subst.
  destruct (IH I1' I2' ltac:(intros e0 He0; apply Hf; right; exact He0)) as [J1 J2]. clear IH. specialize (Hf e (or_introl eq_refl)).
  cbn [render_elements]. rewrite K1, K2. destruct (m_find (el_id e) frames) as [lf|]; [|congruence].
  destruct (render_to_layout_same (el_rend e) (el_rend e') lf (Z.of_nat (er_spf (el_rend e))) (el_out e) (el_out e') A1 A2 B2 K3) as [Q1 Q2].
  destruct (render_to_layout E (el_rend e) lf _ (el_out e)) as [[x r] o]. destruct (render_to_layout E (el_rend e') lf _ (el_out e')) as [[x' r'] o']. cbn [fst snd] in Q1, Q2. subst x'.
  destruct x as [[]|c| | |]; cbn [rbind]; try (cbn [fst snd]; split; [reflexivity|discriminate]). rewrite <- (Q2 eq_refl).
  destruct (apply_gain E rate blocks (el_gain e) chans o) as [o1|c| | |]; try (cbn [fst snd]; split; [reflexivity|discriminate]).
  destruct (render_elements E frames blocks chans rate _ els) as [r2 t]. destruct (render_elements E frames blocks chans rate _ els') as [r2' t']. cbn [fst snd] in *. split; [exact J1|].
  intro Hr. cbn [map el_out]. f_equal. apply J2. exact Hr.
Qed.

(* C61. Rendering to a layout: the answer is the same for any two renderers of the layout between two units. *)
Theorem C61_layout : forall l l' frames blocks, ready l -> ready l' -> same_renderer l l' ->
  (forall e, In e (lr_els l) -> m_find (el_id e) frames <> None) -> fst (render E l frames blocks) = fst (render E l' frames blocks).
Proof.
  intros l l' frames blocks R1 R2 (S1 & S2 & S3 & S4 & S5) Hf. unfold render, ready in *. rewrite S2, S3, S4, S5. rewrite S5 in R2.
  destruct (render_elements_same frames blocks (lr_chans l) (lr_rate l) (lr_spf l) _ _ S1 R1 R2 Hf) as [Q1 Q2].
  destruct (render_elements E frames blocks _ _ _ (lr_els l)) as [r els]. destruct (render_elements E frames blocks _ _ _ (lr_els l')) as [r' els']. cbn [fst snd] in *. subst r'.
  destruct r as [[]|c| | |]; cbn [rbind]; try reflexivity. rewrite (Q2 eq_refl). reflexivity.
Qed.

Lemma same_renderer_refl l : same_renderer l l.
Proof. split; [|auto]. induction (lr_els l); constructor; [apply kept_refl|assumption]. Qed.
Lemma same_renderer_trans a b c : same_renderer a b -> same_renderer b c -> same_renderer a c.
Proof.
  intros (A1 & A2 & A3 & A4 & A5) (B1 & B2 & B3 & B4 & B5). split; [|repeat split; congruence]. clear - A1 B1. revert B1. generalize (lr_els c). induction A1 as [|x y l l' K _ IH]; intros l0 H; inversion H; subst; constructor; eauto using kept_trans.
Qed.
Lemma same_layout_refl l : same_layout l l.
Proof. unfold same_layout. destruct (lm_rend l); [apply same_renderer_refl|reflexivity]. Qed.
Lemma same_layout_trans a b c : same_layout a b -> same_layout b c -> same_layout a c.
Proof. unfold same_layout. destruct (lm_rend a), (lm_rend b), (lm_rend c); try contradiction; try congruence. apply same_renderer_trans. Qed.
Lemma forall2_refl {X} (P : X -> X -> Prop) l : (forall x, P x x) -> Forall2 P l l. Proof. intro H. induction l; constructor; auto. Qed.
Lemma forall2_trans {X} (P : X -> X -> Prop) : (forall x y z, P x y -> P y z -> P x z) -> forall a b c, Forall2 P a b -> Forall2 P b c -> Forall2 P a c.
Proof. intros Ht a b c H. revert c. induction H; intros c H2; inversion H2; subst; constructor; eauto. Qed.
Lemma same_finalizer_refl f : same_finalizer f f.
Proof. apply forall2_refl. intro p. split; [reflexivity|]. apply forall2_refl. intro. apply forall2_refl. exact same_layout_refl. Qed.
Lemma same_finalizer_trans a b c : same_finalizer a b -> same_finalizer b c -> same_finalizer a c.
Proof. apply forall2_trans. intros x y z [A1 A2] [B1 B2]. split; [congruence|]. revert A2 B2. apply forall2_trans. apply forall2_trans. exact same_layout_trans. Qed.
Lemma alike_refl m : alike m m. Proof. repeat split; try reflexivity. apply same_finalizer_refl. Qed.
Lemma alike_trans a b c : alike a b -> alike b c -> alike a c.
Proof. intros (A1 & A2 & A3 & A4) (B1 & B2 & B3 & B4). repeat split; try congruence. exact (same_finalizer_trans _ _ _ A4 B4). Qed.

(* ---- each: a loop that stops at the first failure ---- *)
Lemma each_keeps {X} (f : X -> res unit * X) (P : X -> Prop) (Q : X -> X -> Prop) : (forall x, Q x x) ->
  forall l, Forall (fun x => P x -> P (snd (f x)) /\ Q x (snd (f x))) l -> Forall P l -> Forall P (snd (each f l)) /\ Forall2 Q l (snd (each f l)).
Proof.
  intros R l H. induction H as [|x l H Hl IH]; intro P0; cbn [each]; [split; constructor|]. inversion P0 as [|? ? Px P0']; subst. destruct (H Px) as [H1 H2]. destruct (IH P0') as [I1 I2].
  destruct (f x) as [r x1]. cbn [snd] in *. destruct r as [[]|c| | |]; try (cbn [snd]; split; constructor; auto; apply forall2_refl; exact R).
  destruct (each f l) as [r t]. cbn [snd] in *. split; constructor; auto.
Qed.
Lemma each_rel {X} (f : X -> res unit * X) (Q Q' : X -> X -> Prop) : forall l l', Forall2 Q l l' ->
  (forall x x', In x l -> In x' l' -> Q x x' -> fst (f x) = fst (f x') /\ (fst (f x) = Ok tt -> Q' (snd (f x)) (snd (f x')))) ->
  fst (each f l) = fst (each f l') /\ (fst (each f l) = Ok tt -> Forall2 Q' (snd (each f l)) (snd (each f l'))).
Proof.
  induction 1 as [|x x' l l' H _ IH]; intro Hs; cbn [each]; [cbn [fst snd]; split; [reflexivity|constructor]|]. destruct (Hs x x' (or_introl eq_refl) (or_introl eq_refl) H) as [Q1 Q2].
  destruct (f x) as [r x1]. destruct (f x') as [r' x1']. cbn [fst snd] in Q1, Q2. subst r'. destruct r as [[]|c| | |]; try (cbn [fst]; split; [reflexivity|discriminate]).
  destruct (IH ltac:(intros y y' Hy Hy'; apply Hs; right; assumption)) as [I1 I2]. destruct (each f l), (each f l'). cbn [fst snd] in *. split; [exact I1|]. intro Hr. constructor; [exact (Q2 eq_refl)|exact (I2 Hr)].
Qed.

Definition ready_layout (lm : @lmeta T B) : Prop := forall l, lm_rend lm = Some l -> ready l.
Lemma render_layout_keeps frames blocks lm : trims frames -> ready_layout lm ->
  ready_layout (snd (render_layout E frames blocks lm)) /\ same_layout lm (snd (render_layout E frames blocks lm)).
Proof.
  intros Ht R. unfold render_layout. destruct (lm_rend lm) as [l|] eqn:El; [|cbn [snd]; split; [exact R|apply same_layout_refl]].
  destruct (render E l frames blocks) as [x l1] eqn:Er. destruct (C60_ready E l frames blocks x l1 (R l El) Ht Er) as (R1 & S1).
  assert (forall v, ready_layout (mkLm (Some l1) v) /\ same_layout lm (mkLm (Some l1) v)) as K. { intro v. split; [intros l0 H; injection H as <-; exact R1|]. unfold same_layout. rewrite El. cbn [lm_rend]. exact S1. }
  destruct x; cbn [snd]; apply K.
Qed.
Lemma push_keeps f frames start stop bs : trims frames -> each_renderer ready f ->
  each_renderer ready (snd (push_unit E f frames start stop bs)) /\ same_finalizer f (snd (push_unit E f frames start stop bs)).
Proof.
  intros Ht R. unfold push_unit. destruct (blocks_of start stop bs []) as [m|c| | |]; cbn [snd]; try (split; [exact R|apply same_finalizer_refl]).
  assert (forall g : @finalizer T B, each_renderer ready g <-> Forall (fun p => Forall (Forall ready_layout) (snd p)) g) as Q.
  { intro g. split.
    - intro H. apply Forall_forall. intros [id subs] H1. apply Forall_forall. intros ls H2. apply Forall_forall. intros lm H3 l Hl. exact (H id subs ls lm l H1 H2 H3 Hl).
    - intros H id subs ls lm l H1 H2 H3 Hl. rewrite Forall_forall in H. specialize (H _ H1). cbn [snd] in H. rewrite Forall_forall in H. specialize (H _ H2). rewrite Forall_forall in H. exact (H _ H3 l Hl). }
  apply Q in R. rewrite Q. unfold same_finalizer. apply each_keeps; [|clear R|exact R].
  - intro p. split; [reflexivity|]. apply forall2_refl. intro. apply forall2_refl. exact same_layout_refl.
  - apply Forall_forall. intros [id subs] _ Hs. cbn [snd] in Hs. unfold on_snd. cbn [fst snd].
    destruct (each_keeps (each (render_layout E frames m)) (Forall ready_layout) (Forall2 same_layout) ltac:(intro; apply forall2_refl; exact same_layout_refl) subs) as [K1 K2]; [|exact Hs|destruct (each _ subs) as [r y]; cbn [fst snd] in *; auto].
    apply Forall_forall. intros ls _ Hl. apply each_keeps; [exact same_layout_refl| |exact Hl]. apply Forall_forall. intros lm _ Hm. apply render_layout_keeps; assumption.
Qed.
Definition same_valid (f f' : @finalizer T B) : Prop :=
  Forall2 (fun p p' => fst p' = fst p /\ Forall2 (Forall2 (fun a a' => lm_valid a = lm_valid a')) (snd p) (snd p')) f f'.
Lemma push_same f f' frames start stop bs : each_renderer ready f -> each_renderer ready f' -> same_finalizer f f' ->
  each_renderer (fun l => forall e, In e (lr_els l) -> m_find (el_id e) frames <> None) f ->
  fst (push_unit E f frames start stop bs) = fst (push_unit E f' frames start stop bs) /\
  (fst (push_unit E f frames start stop bs) = Ok tt -> same_valid (snd (push_unit E f frames start stop bs)) (snd (push_unit E f' frames start stop bs))).
Proof.
  intros R1 R2 S P. unfold push_unit. destruct (blocks_of start stop bs []) as [m|c| | |]; cbn [fst]; try (split; [reflexivity|discriminate]).
  unfold same_valid. eapply each_rel; [exact S|]. intros [id subs] [id' subs'] H1 H1' [Hid Hs]. cbn [fst snd] in *. subst id'. unfold on_snd. cbn [fst snd].
  destruct (each_rel (each (render_layout E frames m)) (Forall2 same_layout) (Forall2 (fun a a' => lm_valid a = lm_valid a')) subs subs' Hs) as [K1 K2].
  2:{ destruct (each _ subs), (each _ subs'). cbn [fst snd] in *. split; [exact K1|]. intro Hr. split; [reflexivity|exact (K2 Hr)]. }
  intros ls ls' H2 H2' Hl. eapply each_rel; [exact Hl|]. intros a a' H3 H3' Ha. unfold same_layout in Ha. unfold render_layout.
  destruct (lm_rend a) as [l|] eqn:El, (lm_rend a') as [l'|] eqn:El'; try contradiction; [|cbn [fst snd]; auto].
  pose proof (C61_layout l l' frames m (R1 id subs ls a l H1 H2 H3 El) (R2 id subs' ls' a' l' H1' H2' H3' El') Ha (P id subs ls a l H1 H2 H3 El)) as Q.
  destruct (render E l frames m) as [x lx], (render E l' frames m) as [x' lx']. cbn [fst] in Q. subst x'. destruct x; cbn [fst snd lm_valid]; split; try reflexivity; discriminate.
Qed.
Lemma get_same f f' mix i j : same_valid f f' -> get_samples f mix i j = get_samples f' mix i j.
Proof.
  intro H. unfold get_samples. assert (match m_find mix f, m_find mix f' with Some s, Some s' => Forall2 (Forall2 (fun a a' : @lmeta T B => lm_valid a = lm_valid a')) s s' | None, None => True | _, _ => False end) as K.
  { induction H as [|[a s] [a' s'] f f' [H1 H2] _ IH]; [exact I|]. cbn [fst snd] in *. subst a'. cbn [m_find]. destruct (a =? mix); [exact H2|exact IH]. }
  destruct (m_find mix f) as [s|], (m_find mix f') as [s'|]; try contradiction; [|reflexivity].
  destruct (nth_error s i) as [x|] eqn:Ei.
  - destruct (forall2_nth_l _ _ _ _ _ K Ei) as (y & -> & Kxy). destruct (nth_error x j) as [z|] eqn:Ej.
    + destruct (forall2_nth_l _ _ _ _ _ Kxy Ej) as (w & -> & ->). reflexivity.
    + apply nth_error_None in Ej. rewrite (forall2_length _ _ _ Kxy) in Ej. apply nth_error_None in Ej. rewrite Ej. reflexivity.
  - apply nth_error_None in Ei. rewrite (forall2_length _ _ _ K) in Ei. apply nth_error_None in Ei. rewrite Ei. reflexivity.
Qed.

(* ---- the frames of the unit ---- *)
Lemma decode_frames_props subs start : forall fs stop decs r decs1, decode_frames E subs start stop fs decs = (Ok r, decs1) ->
  map (@f_id T) (fst r) = map (fun o => af_id (of_obu o)) fs /\
  Forall (fun x => exists o, In o fs /\ f_trim_start x = h_trim_start (of_header o) /\ f_trim_end x = h_trim_end (of_header o)) (fst r).
Proof.
  induction fs as [|o fs IH]; intros stop decs r decs1 H; cbn [decode_frames] in H; [injection H as <- _; split; constructor|].
  destruct (negb _).
  - destruct (decode_frames E subs start stop fs decs) as [q d] eqn:Ed. destruct q as [x|c| | |]; cbn [rbind] in H; try discriminate H. injection H as <- _. cbn [fst map].
    destruct (IH _ _ _ _ Ed) as [I1 I2]. split; [f_equal; exact I1|]. constructor; [exists o; split; [left; reflexivity|split; reflexivity]|].
    eapply Forall_impl; [|exact I2]. intros y (o' & H1 & H2). exists o'. split; [right; exact H1|exact H2].
  - cbv zeta in H. set (e := match stop with Some e => e | None => of_end o end) in H. destruct (veq start (of_start o) >>> veq e (of_end o)) as [[]|c| | |]; try discriminate H.
    destruct (decode E decs o) as [q d1]. destruct q as [s|c| | |]; try discriminate H. destruct (decode_frames E subs start (Some e) fs d1) as [q d] eqn:Ed.
    destruct q as [x|c| | |]; cbn [rbind] in H; try discriminate H. injection H as <- _. cbn [fst map].
    destruct (IH _ _ _ _ Ed) as [I1 I2]. split; [f_equal; exact I1|]. constructor; [exists o; split; [left; reflexivity|split; reflexivity]|].
    eapply Forall_impl; [|exact I2]. intros y (o' & H1 & H2). exists o'. split; [right; exact H1|exact H2].
Qed.
Lemma store_frames_trims t0 subs : forall fs exp (lf lf1 : @labeled T), trims_ok lf -> Forall (fun x => 0 <= f_trim_start x /\ 0 <= f_trim_end x) fs ->
  store_frames t0 subs exp fs lf = Ok lf1 -> trims_ok lf1.
Proof.
  induction fs as [|f fs IH]; intros exp lf lf1 Hl Hf H; cbn [store_frames] in H; [injection H as <-; exact Hl|]. inversion Hf as [|? ? [F1 F2] Hf']; subst.
  destruct (m_find (f_id f) subs) as [ls|]; [|eauto]. unfold rthen in H. destruct (veq t0 (f_start f)); cbn [rbind] in H; try discriminate H. destruct (f_samples f) as [|s ss]; [discriminate H|].
  destruct (veq _ (zlen ls)); cbn [rbind] in H; try discriminate H. destruct (common_ticks _) as [n|c| | |]; cbn [rbind] in H; try discriminate H.
  destruct (match exp with None => Ok tt | Some e => veq (Z.of_nat n) (Z.of_nat e) end); cbn [rbind] in H; try discriminate H. eapply IH; [|exact Hf'|exact H]. split; assumption.
Qed.
Lemma sm_set_nonempty k (v : chan) m : sm_set k v m <> []. Proof. destruct m as [|[i x] m]; cbn [sm_set]; [discriminate|]. destruct (lkey_eq_dec i k); discriminate. Qed.
Lemma store_channels_nonempty : forall ls (cs : list chan) m, (m <> [] \/ ls <> []) -> length cs = length ls -> store_channels ls cs m <> [].
Proof.
  induction ls as [|l ls IH]; intros [|c cs] m H L; cbn [store_channels]; try discriminate L; [destruct H; congruence|]. apply IH; [left; apply sm_set_nonempty|]. cbn [length] in L. lia.
Qed.
Lemma store_frames_nonempty t0 subs : forall fs exp (lf lf1 : @labeled T), store_frames t0 subs exp fs lf = Ok lf1 ->
  (lf_map lf <> [] \/ exists f ls, In f fs /\ m_find (f_id f) subs = Some ls /\ ls <> []) -> lf_map lf1 <> [].
Proof.
  induction fs as [|f fs IH]; intros exp lf lf1 H K; cbn [store_frames] in H; [injection H as <-; destruct K as [K|(f & ls & [] & _)]; exact K|].
  destruct (m_find (f_id f) subs) as [ls|] eqn:Ef.
  2:{ eapply IH; [exact H|]. destruct K as [K|(f' & ls & [<-|Hin] & H2 & H3)]; [left; exact K|congruence|right; eauto]. }
  unfold rthen in H. destruct (veq t0 (f_start f)); cbn [rbind] in H; try discriminate H. destruct (f_samples f) as [|s ss] eqn:Es; [discriminate H|].
  destruct (veq (zlen (s :: ss)) (zlen ls)) as [[]|c| | |] eqn:Ev; cbn [rbind] in H; try discriminate H. destruct (common_ticks _) as [n|c| | |]; cbn [rbind] in H; try discriminate H.
  destruct (match exp with None => Ok tt | Some e => veq (Z.of_nat n) (Z.of_nat e) end); cbn [rbind] in H; try discriminate H. eapply IH; [exact H|]. left. cbn [lf_map].
  assert (length (s :: ss) = length ls) as L. { unfold veq, vcond in Ev. destruct (zlen (s :: ss) =? zlen ls) eqn:Q; [|discriminate Ev]. apply Z.eqb_eq in Q. unfold zlen in Q. lia. }
  apply store_channels_nonempty; [|exact L]. right. intros ->. discriminate L.
Qed.
Lemma demix_all_props fs : Forall (fun x : @Demix.frame T => 0 <= f_trim_start x /\ 0 <= f_trim_end x) fs -> forall l fr, demix_all E l fs = Ok fr ->
  trims fr /\ ((forall id c, In (id, c) l -> exists f ls, In f fs /\ m_find (f_id f) (snd c) = Some ls /\ ls <> []) -> forall i, In i (map fst l) -> m_find i fr <> None).
Proof.
  intro Hf. induction l as [|[id [ks subs]] l IH]; intros fr H; cbn [demix_all] in H; [injection H as <-; split; [intros i lf Q; discriminate Q|intros _ i []]|].
  destruct (demix (r_A E) ks subs fs) as [o|c| | |] eqn:Ed; cbn [rbind] in H; try discriminate H. destruct (demix_all E l fs) as [r|c| | |] eqn:Er; cbn [rbind] in H; try discriminate H. injection H as <-.
  destruct (IH r eq_refl) as [I1 I2]. unfold demix in Ed. destruct (store subs fs) as [lf|c| | |] eqn:Es; cbn [rbind] in Ed; try discriminate Ed.
  assert (trims_ok lf) as Tl. { unfold store in Es. destruct fs as [|f0 fs0]; [injection Es as <-; split; cbn; lia|]. eapply store_frames_trims; [|exact Hf|exact Es]. split; cbn; lia. }
  split.
  - destruct o as [lf1|]; [|exact I1]. intros i x. cbn [m_find]. destruct (id =? i); [|apply I1]. intro Q. injection Q as <-.
    destruct (lf_map lf); [discriminate Ed|]. destruct (lf_params lf); [|discriminate Ed]. destruct (run_demixers _ _ _ _) as [mm|c| | |]; cbn [rbind] in Ed; try discriminate Ed. injection Ed as <-. exact Tl.
  - intros Hc i Hi. cbn [map fst In] in Hi. assert (lf_map lf <> []) as Ne.
    { destruct (Hc id (ks, subs) (or_introl eq_refl)) as (f & ls & F1 & F2 & F3). cbn [snd] in F2. unfold store in Es. destruct fs as [|f0 fs0]; [destruct F1|]. eapply store_frames_nonempty; [exact Es|]. right. eauto. }
    destruct (lf_map lf) as [|p mm] eqn:Em; [congruence|]. destruct (lf_params lf) as [pp|]; [|discriminate Ed]. destruct (run_demixers _ _ _ _) as [mm1|c| | |]; cbn [rbind] in Ed; try discriminate Ed. injection Ed as <-.
    cbn [m_find]. destruct (Z.eqb_spec id i) as [->|Ni]; [discriminate|]. destruct Hi as [Hi|Hi]; [congruence|]. apply I2; [|exact Hi]. intros id0 c0 H0. apply (Hc id0 c0). right. exact H0.
Qed.
Lemma decode_stateless : stateless -> forall subs start fs stop decs, snd (decode_frames E subs start stop fs decs) = decs.
Proof.
  intro Hs. assert (forall decs o, snd (decode E decs o) = decs) as K.
  { intros decs o. unfold decode. destruct (m_find (af_id (of_obu o)) decs) as [d|] eqn:Ed; [|reflexivity]. pose proof (Hs d (af_bytes (of_obu o))) as Q. destruct (r_decode E d (af_bytes (of_obu o))) as [r d1]. cbn [snd] in *. subst d1.
    clear - Ed. induction decs as [|[i x] decs IH]; [reflexivity|]. cbn [m_find m_set] in *. destruct (i =? af_id (of_obu o)); [injection Ed as <-; reflexivity|]. rewrite IH by exact Ed. reflexivity. }
  intros subs start. induction fs as [|o fs IH]; intros stop decs; cbn [decode_frames]; [reflexivity|]. destruct (negb _).
  - specialize (IH stop decs). destruct (decode_frames E subs start stop fs decs). exact IH.
  - cbv zeta. destruct (veq _ _ >>> veq _ _); try reflexivity. pose proof (K decs o) as Q. destruct (decode E decs o) as [q d1]. cbn [snd] in Q. subst d1. destruct q; try reflexivity.
    match goal with |- context[decode_frames E subs start ?s fs decs] => specialize (IH s decs); destruct (decode_frames E subs start s fs decs) end. exact IH.
Qed.

(* Whatever the answer to a unit, the renderers are then ready for the next one, and the same; with a codec without memory, so are
   the decoders. *)
Theorem C61_settled : forall m u, settled m -> trims_of_unit u ->
  settled (snd (render_unit E m u)) /\ alike m (snd (render_unit E m u)) /\ (stateless -> rm_decs (snd (render_unit E m u)) = rm_decs m).
Proof.
  intros m u Hs Ht. unfold render_unit. destruct (decode_frames E (rm_subs m) (un_time u) None (un_frames u) (rm_decs m)) as [r decs] eqn:Ed.
  assert (stateless -> decs = rm_decs m) as K0. { intro St. pose proof (decode_stateless St (rm_subs m) (un_time u) (un_frames u) None (rm_decs m)) as Q. rewrite Ed in Q. exact Q. }
  assert (settled (mkRm (rm_subs m) decs (rm_demix m) (rm_fin m) (rm_mix m)) /\ alike m (mkRm (rm_subs m) decs (rm_demix m) (rm_fin m) (rm_mix m)) /\ (stateless -> rm_decs (mkRm (rm_subs m) decs (rm_demix m) (rm_fin m) (rm_mix m)) = rm_decs m)) as K1.
  { split; [exact Hs|]. split; [split; [reflexivity|]; split; [reflexivity|]; split; [reflexivity|apply same_finalizer_refl]|exact K0]. }
  destruct r as [[fs stop]|c| | |]; cbn [rbind snd fst]; try exact K1. destruct stop as [e|]; [|exact K1]. destruct (demix_all E (rm_demix m) fs) as [fr|c| | |] eqn:Ex; cbn [rbind snd]; try exact K1.
  destruct (decode_frames_props _ _ _ _ _ _ _ Ed) as [D1 D2]. cbn [fst] in D1, D2.
  assert (Forall (fun x : @Demix.frame T => 0 <= f_trim_start x /\ 0 <= f_trim_end x) fs) as Hf. { eapply Forall_impl; [|exact D2]. intros x (o & O1 & O2 & O3). rewrite O2, O3. exact (Ht o O1). }
  destruct (demix_all_props fs Hf _ _ Ex) as [T1 _]. destruct (push_keeps (rm_fin m) fr (un_time u) e (un_blocks u) T1 Hs) as [P1 P2]. destruct (push_unit E (rm_fin m) fr (un_time u) e (un_blocks u)) as [r1 f]. cbn [snd] in *.
  split; [exact P1|]. split; [|exact K0]. split; [reflexivity|]. split; [reflexivity|]. split; [reflexivity|exact P2].
Qed.
(* C61. The answer to a unit which has frames of all audio elements is the same in any two states which agree on what was
   configured and on the state of the codecs. *)
Theorem C61_unit : forall m m' u, settled m -> settled m' -> alike m m' -> rm_decs m' = rm_decs m -> trims_of_unit u -> complete m u ->
  fst (render_unit E m u) = fst (render_unit E m' u).
Proof.
  intros m m' u S1 S2 (A1 & A2 & A3 & A4) Dd Ht (C1 & C2). unfold render_unit. rewrite A1, A2, A3, Dd.
  destruct (decode_frames E (rm_subs m) (un_time u) None (un_frames u) (rm_decs m)) as [r decs] eqn:Ed.
  destruct r as [[fs stop]|c| | |]; cbn [rbind snd fst]; try reflexivity. destruct stop as [e|]; [|reflexivity]. destruct (demix_all E (rm_demix m) fs) as [fr|c| | |] eqn:Ex; cbn [rbind fst]; try reflexivity.
  destruct (decode_frames_props _ _ _ _ _ _ _ Ed) as [D1 D2]. cbn [fst] in D1, D2.
  assert (Forall (fun x : @Demix.frame T => 0 <= f_trim_start x /\ 0 <= f_trim_end x) fs) as Hf. { eapply Forall_impl; [|exact D2]. intros x (o & O1 & O2 & O3). rewrite O2, O3. exact (Ht o O1). }
  destruct (demix_all_props fs Hf _ _ Ex) as [T1 T2].
  assert (forall i, In i (map fst (rm_demix m)) -> m_find i fr <> None) as T3.
  { apply T2. intros id c Hin. destruct (C1 id c Hin) as (o & ls & O1 & O2 & O3). assert (In (af_id (of_obu o)) (map (@f_id T) fs)) as Q by (rewrite D1; apply in_map_iff; eauto).
    apply in_map_iff in Q as (f & F1 & F2). exists f, ls. rewrite F1. auto. }
  destruct (push_same (rm_fin m) (rm_fin m') fr (un_time u) e (un_blocks u) S1 S2 A4) as [Q1 Q2].
  { intros id subs ls lm l H1 H2 H3 H4 el Hel. apply T3. exact (C2 id subs ls lm l H1 H2 H3 H4 el Hel). }
  destruct (push_unit E (rm_fin m) fr (un_time u) e (un_blocks u)) as [r1 f1], (push_unit E (rm_fin m') fr (un_time u) e (un_blocks u)) as [r2 f2]. cbn [fst snd] in *. subst r2.
  destruct r1 as [[]|c| | |]; cbn [rbind]; try reflexivity. apply get_same. exact (Q2 eq_refl).
Qed.
(* C61. With a codec without memory, after any history of units - rendered or refused - the answer to a unit is what it would have
   been as the first one. *)
Theorem C61_history : forall m us u, stateless -> settled m -> Forall trims_of_unit us -> trims_of_unit u -> complete m u ->
  fst (render_unit E (after_units m us) u) = fst (render_unit E m u).
Proof.
  intros m us u St Hs Hu Ht Hc. assert (settled (after_units m us) /\ alike m (after_units m us) /\ rm_decs (after_units m us) = rm_decs m) as (K1 & K2 & K3).
  { unfold after_units. clear Hc. revert Hs. generalize m as m0. induction Hu as [|v us Hv Hu IH]; intros m0 Hs; cbn [fold_left]; [split; [exact Hs|split; [apply alike_refl|reflexivity]]|].
    destruct (C61_settled m0 v Hs Hv) as (S1 & S2 & S3). destruct (IH _ S1) as (J1 & J2 & J3). split; [exact J1|]. split; [exact (alike_trans _ _ _ S2 J2)|]. rewrite J3. exact (S3 St). }
  symmetry. apply C61_unit; auto.
Qed.
End History.

(* ---- an example: a codec which copies the bytes into each channel of its substream, its state is the number of channels ---- *)
Definition Ecopy : renv Z Z unit nat :=
  mkRenv Zarith_ (fun x => x) (fun n _ s _ => s + n) (fun _ _ _ _ _ _ => 0) (fun x => x) Z.mul (fun _ _ => Err NotFound) (fun _ _ _ => None) (fun b _ => (Err Unknown, b))
         (fun _ _ => Err Unknown) (fun c x => (Ok (repeat x c), c)) true true.
Definition m_ex : @models Z unit nat :=
  mkRm [70; 80] [(70, 2%nat); (80, 1%nat)] [(7, ([], [(70, [L2; R2])])); (8, ([], [(80, [Mono])]))] [(1, [[mkLm (Some l_ex) []]])] 1.
Definition fr_ex (sub start trim : Z) (bytes : list Z) : oframe :=
  mkOf (mkH 5 false true 0 trim None) (mkAF sub bytes) start (start + 4) (mkDmix 707 707 707 707 0 0 0 false) [] 7.
Definition u_ex (start trim : Z) (a b : list Z) : outunit := mkOu [fr_ex 70 start trim a; fr_ex 80 start trim b] [] start.
Example C61_ex : stateless Ecopy /\ settled m_ex /\ complete m_ex (u_ex 8 0 [1; 2; 3; 4] [5; 6; 7; 8]) /\
  Forall trims_of_unit [u_ex 0 1 [1; 1; 1; 1] [2; 2; 2; 2]; u_ex 4 0 [3; 3; 3] [1; 1]; u_ex 8 0 [1; 2; 3; 4] [5; 6; 7; 8]] /\
  fst (render_unit Ecopy m_ex (u_ex 0 1 [1; 1; 1; 1] [2; 2; 2; 2])) = Ok [[1 * 10 + 2 * 5 * 3; 40; 40]; [46; 46; 46]] /\
  fst (render_unit Ecopy m_ex (u_ex 4 0 [3; 3; 3] [1; 1])) = Err InvalidArgument /\
  fst (render_unit Ecopy m_ex (u_ex 8 0 [1; 2; 3; 4] [5; 6; 7; 8])) = Ok [[85; 110; 135; 160]; [100; 128; 156; 184]].
Proof.
  assert (forall st tr a b, 0 <= tr -> trims_of_unit (u_ex st tr a b)) as K by (intros st tr a b Ht o [<-|[<-|[]]]; cbn; lia).
  split; [intros d x; reflexivity|]. split.
  { intros id subs ls lm l [Q|[]] H2 H3 H4. injection Q as <- <-. destruct H2 as [<-|[]]. destruct H3 as [<-|[]]. injection H4 as <-. exact (proj1 C60_ex). }
  split.
  { split.
    - intros id c [Q|[Q|[]]]; injection Q as <- <-; [exists (fr_ex 70 8 0 [1; 2; 3; 4]), [L2; R2]|exists (fr_ex 80 8 0 [5; 6; 7; 8]), [Mono]]; cbn; split; auto; split; auto; discriminate.
    - intros id subs ls lm l [Q|[]] H2 H3 H4 e He. injection Q as <- <-. destruct H2 as [<-|[]]. destruct H3 as [<-|[]]. injection H4 as <-. destruct He as [<-|[<-|[]]]; cbn; tauto. }
  split; [repeat (apply Forall_cons; [apply K; lia|]); apply Forall_nil|]. vm_compute. auto.
Qed.
