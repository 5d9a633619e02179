(* Runs of the decoder over a stream: one call of ProcessTemporalUnit, with and without end of sequence, as a run over the bytes. *)
From Verif Require Import Base WriteBuf ReadBuf Leb BufSpec LebSpec BitFacts WriteBufFacts ReadBufFacts LebFacts
  ParseFacts EndToEnd ObuHeader ObuHeaderFacts FrameFacts SeqFacts PureFacts SimpleObus CodecConfig Params Timing ParamManager
  Processor PropsObu ProcFacts StreamSpec StreamFacts Session SessionFacts PropsProc PropsSession.

(* Processing some OBUs at the front of [l]: what they are, the units closed, and what is left. *)
Inductive runs (D : descs) : pst -> units -> list Z -> list item -> list outunit -> pst -> units -> list Z -> Prop :=
| R_here s u l : runs D s u l [] [] s u l
| R_step s u l adv s1 it its os1 u1 os s2 u2 rest :
    classify D s l = CDone adv (mkOut (Ok tt) s1 it true) -> advance u it = (os1, u1) ->
    runs D s1 u1 (skipn (Z.to_nat adv) l) its os s2 u2 rest -> runs D s u l (it :: its) (os1 ++ os) s2 u2 rest.

Lemma runs_trans D s u l its os s1 u1 l1 : runs D s u l its os s1 u1 l1 -> forall its' os' s2 u2 l2, runs D s1 u1 l1 its' os' s2 u2 l2 ->
  runs D s u l (its ++ its') (os ++ os') s2 u2 l2.
Proof. induction 1 as [|s u l adv s1 it its os1 u1 os s2 u2 rest E A _ IH]; intros its' os' s3 u3 l3 H; [exact H|]. rewrite <- app_assoc. cbn [app]. eapply R_step; eauto. Qed.
Lemma runs_ext D s u l its os s1 u1 l1 : runs D s u l its os s1 u1 l1 -> forall e, runs D s u (l ++ e) its os s1 u1 (l1 ++ e).
Proof.
  induction 1 as [|s u l adv s1 it its os1 u1 os s2 u2 rest E A _ IH]; intro e; [constructor|].
  pose proof (classify_done _ _ _ _ _ E) as [[? _]|[(? & ? & _ & Ha)|(? & ? & ? & X & _)]]; try discriminate.
  unfold zlen in Ha. eapply R_step; [apply done_ext; exact E|exact A|]. rewrite skipn_app' by lia. apply IH.
Qed.
Lemma runs_uinv D s u l its os s1 u1 l1 : runs D s u l its os s1 u1 l1 -> uinv u -> uinv u1.
Proof. induction 1 as [|s u l adv s1 it its os1 u1 os s2 u2 rest E A _ IH]; intro U; [exact U|]. apply IH. apply (advance_spec _ _ _ _ U A). Qed.
(* the units closed are those of the grouping *)
Lemma runs_group D s u l its os s1 u1 l1 : runs D s u l its os s1 u1 l1 -> uinv u -> forall rest,
  group (seen_of u) (cur_of u) (its ++ rest) = os ++ group (seen_of u1) (cur_of u1) rest.
Proof.
  induction 1 as [|s u l adv s1 it its os1 u1 os s2 u2 rest0 E A _ IH]; intros U rest; [reflexivity|].
  destruct (advance_spec _ _ _ _ U A) as (U1 & _). cbn [app]. rewrite (advance_group _ _ _ _ _ U A), (IH U1), app_assoc. reflexivity.
Qed.
(* on a stream of OBUs a run stops at an OBU boundary *)
Lemma runs_decoded fuel cap D s u l its os s1 u1 l1 : (8 <= fuel)%nat -> (1 <= cap)%nat -> runs D s u l its os s1 u1 l1 -> forall more obus all s2,
  decoded fuel cap D s obus all s2 -> l ++ more = concat obus ->
  exists obus' its', all = its ++ its' /\ decoded fuel cap D s1 obus' its' s2 /\ l1 ++ more = concat obus'.
Proof.
  intros Hf Hc. induction 1 as [|s u l adv s1 it its os1 u1 os s2 u2 rest E A _ IH]; intros more obus all s3 Hd El; [exists obus, all; auto|].
  inversion Hd as [|? o os' it' its' s1' s2' Ho P Hd']; subst.
  - cbn [concat] in El. apply app_eq_nil in El as [-> _]. discriminate.
  - apply (process_classify_obu _ _ _ _ _ _ _ Hf Hc Ho) in P; [|reflexivity]. apply (done_ext _ _ _ (concat os')) in P.
    pose proof (classify_done _ _ _ _ _ E) as [[X _]|[(? & ? & _ & Ha)|(? & ? & ? & X & _)]]; try discriminate.
    apply (done_ext _ _ _ more) in E. cbn [concat] in El. rewrite El, P in E. injection E as <- <- <-.
    destruct (IH more os' its' s3 Hd') as (obus' & its2 & -> & Hd2 & E2).
    + unfold zlen in *. rewrite Nat2Z.id in *. rewrite <- skipn_app' by lia. rewrite El, skipn_app, skipn_all, Nat.sub_diag. reflexivity.
    + exists obus', its2. auto.
Qed.
Lemma idle_decoded fuel cap D s l obus all s2 : (8 <= fuel)%nat -> (1 <= cap)%nat -> idle D s l -> decoded fuel cap D s obus all s2 -> l = concat obus -> l = [] /\ all = [].
Proof.
  intros Hf Hc Hi Hd El. inversion Hd as [|? o os' it' its' s1' s2' Ho P Hd']; subst; [auto|]. exfalso.
  apply (process_classify_obu _ _ _ _ _ _ _ Hf Hc Ho) in P; [|reflexivity]. apply (done_ext _ _ _ (concat os')) in P. cbn [concat] in Hi.
  destruct Hi as [Hi|Hi]; rewrite Hi in P; [discriminate|injection P as; subst; discriminate].
Qed.

(* A delimiter in a unit which has a delimiter but no data: the call returns without a unit. *)
Definition stalled (u : units) (it : item) : Prop := (exists h, it = IDelim h) /\ tu_delim (u_cur u) <> None /\ tu_time (u_cur u) = None.
(* One call of ProcessTemporalUnit. *)
Definition call_post (D : descs) (eos : bool) (s : pst) (u : units) (l : list Z) (c : cur) (x : res (option outunit * bool) * pst * units * cur) : Prop :=
  match x with
  | (Ok (out, cont), s1, u1, c1) =>
      exists l1 its, on c1 l1 /\ c_bits c1 = c_bits c /\ (length l1 <= length l)%nat /\
      if cont then runs D s u l its (opt_list out) s1 u1 l1 /\ (length l1 < length l)%nat /\
                   (out = None -> exists its0 it s0 u0 l0, its = its0 ++ [it] /\ runs D s u l its0 [] s0 u0 l0 /\ stalled u0 it)
      else exists u2, runs D s u l its [] s1 u2 l1 /\ idle D s1 l1 /\
           if eos then close true false false u2 = Some (out, u1) else out = None /\ u1 = u2
  | _ => True
  end.
Lemma close_uinv eos u : uinv u -> close eos false false u = if eos then close true false false u else None.
Proof. intros [H _]. unfold close. rewrite H. destruct eos; reflexivity. Qed.
Lemma call_runs D k eos : forall s u c l, on c l -> zlen l < 2^32 - 64 -> uinv u -> (length l < k)%nat ->
  call_post D eos s u l c (process_unit arun_with k D eos s u c).
Proof.
  induction k as [|k IH]; intros s u c l Hon Hl Hu Hk; [lia|]. cbn [process_unit]. unfold arun_with at 1.
  pose proof Hon as [K Hs]. pose proof (step_spec D s c l K Hs Hl) as Sp.
  assert (forall c1, on c1 l -> c_bits c1 = c_bits c -> idle D s l ->
    call_post D eos s u l c (match close eos false false u with Some (out, u2) => (Ok (out, false), s, u2, c1) | None => (Ok (None, false), s, u, c1) end)) as X.
  { intros c1 On1 B1 Id. rewrite (close_uinv eos u Hu). destruct eos.
    - assert (exists x, close true false false u = Some x) as [[out u2] Ec].
      { unfold close. destruct Hu as [-> _]. cbn [tud_empty tu_time negb andb orb]. destruct (tu_frames (u_cur u)), (tu_blocks (u_cur u)); eauto. }
      rewrite Ec. exists l, []. split; [exact On1|]. split; [exact B1|]. split; [lia|]. exists u. split; [constructor|]. split; [exact Id|exact Ec].
    - exists l, []. split; [exact On1|]. split; [exact B1|]. split; [lia|]. exists u. split; [constructor|]. split; [exact Id|]. auto. }
  destruct (classify D s l) as [| |adv o] eqn:Ec.
  - rewrite Sp. cbn [po_status po_item po_cont po_state collect]. apply X; [exact Hon|reflexivity|left; exact Ec].
  - destruct Sp as (e & c' & Sp). rewrite Sp. cbn [rcast]. exact I.
  - destruct Sp as (c' & Sp & Hb & Ha & Hp). rewrite Sp.
    destruct (classify_done _ _ _ _ _ Ec) as [[-> ->]|[(s1 & it & -> & Ha1)|(r & s1 & it & -> & Hr)]]; cbn [po_status po_item po_cont po_state] in *.
    + cbn [collect]. destruct (Hp eq_refl) as [Hp' _]. apply X; [exact (on_move _ _ _ _ Hon Hb Hp' Ha)|exact Hb|right; exact Ec].
    + destruct (Hp eq_refl) as [Hp' _]. pose proof (on_move _ _ _ _ Hon Hb Hp' Ha) as Hon'.
      destruct (advance u it) as [os1 ua] eqn:Ea. destruct (advance_spec _ _ _ _ Hu Ea) as (Hu1 & _).
      pose proof Ea as Ea'. unfold advance in Ea'.
      destruct (collect u it) as [u1 de] eqn:Eco. unfold zlen in Ha, Ha1.
      assert (forall u1 de, close eos true de u1 = close false true de u1) as -> by (intros; unfold close; destruct eos; reflexivity).
      destruct (close false true de u1) as [[out u2]|] eqn:Ecl.
      * injection Ea' as <- <-. exists (skipn (Z.to_nat adv) l), [it]. split; [exact Hon'|]. split; [exact Hb|].
        rewrite skipn_length. split; [lia|]. split.
        { rewrite <- (app_nil_r (opt_list out)). eapply R_step; [exact Ec|exact Ea|constructor]. }
        split; [lia|]. intros ->. exists [], it, s, u, l. split; [reflexivity|]. split; [constructor|].
        clear - Hu Eco Ecl. destruct u as [[bs fs dl tm] nx]. unfold uinv in Hu. cbn [u_cur u_next tu_time tu_frames tu_blocks] in Hu. destruct Hu as [-> H].
        unfold stalled. cbn [u_cur tu_delim tu_time]. unfold collect in Eco. cbn [u_cur u_next tu_time tu_frames tu_blocks tu_delim] in Eco.
        destruct it as [|f|b|h]; injection Eco as <- <-.
        -- unfold close in Ecl. cbn in Ecl. discriminate.
        -- exfalso. unfold add_data in Ecl. cbn [u_cur u_next tu_time tud_at tu_frames tu_blocks tu_delim] in Ecl. destruct tm as [t0|]; cbn [tu_time tud_at] in Ecl.
           ++ destruct (t0 =? of_start f); unfold close in Ecl; cbn in Ecl; [discriminate|]. rewrite (close_some _ _ _ _ _ H) in Ecl. discriminate.
           ++ rewrite Z.eqb_refl in Ecl. unfold close in Ecl. cbn in Ecl. discriminate.
        -- exfalso. unfold add_data in Ecl. cbn [u_cur u_next tu_time tud_at tu_frames tu_blocks tu_delim] in Ecl. destruct tm as [t0|]; cbn [tu_time tud_at] in Ecl.
           ++ destruct (t0 =? ob_start b); unfold close in Ecl; cbn in Ecl; [discriminate|]. rewrite (close_some _ _ _ _ _ H) in Ecl. discriminate.
           ++ rewrite Z.eqb_refl in Ecl. unfold close in Ecl. cbn in Ecl. discriminate.
        -- destruct dl as [hd|]; unfold close in Ecl; cbn in Ecl; [|discriminate]. split; [eauto|]. split; [discriminate|].
           destruct tm as [t0|]; [|reflexivity]. rewrite (close_some _ _ _ _ _ H) in Ecl. discriminate.
      * injection Ea' as <- <-.
        assert (zlen (skipn (Z.to_nat adv) l) < 2^32 - 64) as Hl' by (unfold zlen in *; rewrite skipn_length; lia).
        specialize (IH s1 u1 c' _ Hon' Hl' Hu1 ltac:(rewrite skipn_length; lia)).
        unfold call_post in *. destruct (process_unit arun_with k D eos s1 u1 c') as [[[r s2] u2] c2].
        destruct r as [[out cont]| | | |]; try exact I.
        destruct IH as (l1 & its & On1 & B1 & L1 & IH). rewrite skipn_length in *. exists l1, (it :: its).
        split; [exact On1|]. split; [congruence|]. split; [lia|]. destruct cont.
        -- destruct IH as (R1 & L2 & S1). split; [change (opt_list out) with ([] ++ opt_list out); eapply R_step; eassumption|]. split; [lia|].
           intro H. destruct (S1 H) as (its0 & it0 & s0 & u0 & l0 & -> & R0 & St). exists (it :: its0), it0, s0, u0, l0. split; [reflexivity|].
           split; [change (@nil outunit) with (@nil outunit ++ []); eapply R_step; eassumption|exact St].
        -- destruct IH as (u3 & R1 & Id & E3). exists u3. split; [change (@nil outunit) with (@nil outunit ++ []); eapply R_step; eassumption|]. auto.
    + destruct r; try contradiction; cbn [rcast]; exact I.
Qed.
