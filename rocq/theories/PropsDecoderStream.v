(* C31 end to end: what the decoder API delivers for a stream of OBUs, however it is cut into Decode calls and however these are mixed
   with GetOutputTemporalUnit calls. *)
From Coq Require Import Reals.
From Flocq Require Import Core BinarySingleNaN.
From Verif Require Import Base WriteBuf ReadBuf Leb BufSpec LebSpec BitFacts WriteBufFacts ReadBufFacts LebFacts
  ParseFacts EndToEnd ObuHeader ObuHeaderFacts FrameFacts SeqFacts PureFacts SimpleObus CodecConfig Params Timing ParamManager
  Processor PropsObu ProcFacts StreamSpec StreamFacts Session SessionFacts PropsProc PropsSession DecoderFacts
  MixPresentation Reorder Pcm PropsPcm PropsLoss DecoderApi PropsDecoder.
Local Open Scope Z_scope.

(* ================= SPEC ================= *)
Section Spec.
Context {M R : Type} (e : env M R).
(* Rendering units one after the other, each put into the channel order asked for. *)
Definition reordered (ro : option (scheme * Z)) (f : frame) : res frame :=
  match ro with Some (sch, ss) => reorder sch ss f | None => Ok f end.
Inductive renders (ro : option (scheme * Z)) : R -> list outunit -> list frame -> R -> Prop :=
| Rs_nil r : renders ro r [] [] r
| Rs_cons r u us f old f' fs r1 r2 : render_unit e r u [] = (Ok f, old, r1) -> reordered ro f = Ok f' ->
    renders ro r1 us fs r2 -> renders ro r (u :: us) (f' :: fs) r2.

(* [l] are the bytes which the buffer holds and nobody has read. *)
Definition unread (b : rbuf) (l : list Z) : Prop :=
  exists c, rrel b c /\ on c l /\ (length (c_bits c) <= 8 * Z.to_nat (2^22))%nat.
(* A decoder in standalone mode which has just processed the descriptors. *)
Definition fresh (d : dstate M R) (D : descs) (s : pst) (r : R) (l : list Z) : Prop :=
  ds_ended d = false /\ ds_fromd d = false /\ ds_frame d = [] /\ unread (ds_buf d) l /\
  exists rate size, ds_proc d = Some (mkP D s (mkU tud_empty tud_empty) r rate size (ds_gen d)).

Definition pushed (cs : list (call M)) : list Z := flat_map (fun c => match c with CDecode b => b | _ => [] end) cs.
Definition is_end (c : call M) : bool := match c with CEnd => true | _ => false end.
Definition all_ok (rs : list reply) : Prop := Forall (fun r => r_status r = Ok tt) rs.
(* No temporal delimiter directly follows another (F24). *)
Fixpoint dense (after : bool) (its : list item) : Prop :=
  match its with
  | [] => True
  | IDelim _ :: rest => after = false /\ dense true rest
  | INone :: rest => dense after rest
  | _ :: rest => dense false rest
  end.
End Spec.

(* ================= proofs ================= *)
Lemma renders_app {M R} (e : env M R) ro r us fs r1 : renders e ro r us fs r1 -> forall us' fs' r2, renders e ro r1 us' fs' r2 ->
  renders e ro r (us ++ us') (fs ++ fs') r2.
Proof. induction 1; intros us' fs' r3 H'; [exact H'|]. cbn [app]. econstructor; eauto. Qed.
Lemma renders_det {M R} (e : env M R) ro r us fs r1 : renders e ro r us fs r1 -> forall fs' r2, renders e ro r us fs' r2 -> fs = fs' /\ r1 = r2.
Proof.
  induction 1 as [|r u us f old f' fs r1 r2 E1 E2 _ IH]; intros gs r3 H'; inversion H' as [|? ? ? g old' g' gs' r1' ? E1' E2' H2]; subst; [auto|].
  rewrite E1 in E1'. injection E1' as <- <- <-. rewrite E2 in E2'. injection E2' as <-. destruct (IH _ _ H2) as [-> ->]. auto.
Qed.

Lemma unread_push b l x b1 : unread b l -> Forall byteP x -> r_push x b = (Ok tt, b1) -> unread b1 (l ++ x).
Proof.
  intros (c & Rc & On & Lc) Hx E. destruct (push_ok _ _ _ _ Rc Lc Hx E) as [R1 L1]. eexists. split; [exact R1|]. split; [|exact L1].
  pose proof (on_len _ _ On). destruct On as [K H0]. unfold on, cok in *. cbn [c_bits c_pos]. rewrite app_length. split; [lia|].
  rewrite skipn_app' by lia. rewrite H0. symmetry. apply bytes_bits_app.
Qed.
Lemma unread_len b l : unread b l -> (length l <= Z.to_nat (2^22))%nat.
Proof. intros (c & _ & On & Lc). pose proof (on_len _ _ On). change (Z.to_nat (2^22)) with (Z.to_nat 4194304) in *. lia. Qed.

(* One call of ProcessTemporalUnit on the decoder's buffer, and the flush. *)
Lemma unit_on_buffer fuel k D eos s u b l : (8 <= fuel)%nat -> 2^22 < Z.of_nat k -> unread b l -> uinv u ->
  match process_unit (crun_with fuel) k D eos s u b with
  | (Ok (out, cont), s1, u1, b1) =>
      exists b2 l1 its, r_flush b1 = (Ok tt, b2) /\ unread b2 l1 /\
      if cont then runs D s u l its (opt_list out) s1 u1 l1 /\
                   (out = None -> exists its0 it s0 u0 l0, its = its0 ++ [it] /\ runs D s u l its0 [] s0 u0 l0 /\ stalled u0 it)
      else exists u2, runs D s u l its [] s1 u2 l1 /\ idle D s1 l1 /\
           if eos then close true false false u2 = Some (out, u1) else out = None /\ u1 = u2
  | _ => True
  end.
Proof.
  intros Hf Hk Un Hu. pose proof (unread_len _ _ Un) as Ll. destruct Un as (c & Rc & On & Lc). change (2^22) with 4194304 in *.
  pose proof (call_runs D k eos s u c l On ltac:(unfold zlen; change (2^32) with 4294967296; lia) Hu ltac:(lia)) as P.
  destruct (unit_refines fuel D k eos Hf s u b c Rc) as [E R1].
  destruct (process_unit (crun_with fuel) k D eos s u b) as [[[x s1] u1] b1], (process_unit arun_with k D eos s u c) as [[[y s1'] u1'] c1].
  cbn [fst snd] in E, R1. injection E as <- <- <-. unfold call_post in P. destruct x as [[out cont]| | | |]; try exact I.
  destruct P as (l1 & its & On1 & B1 & L1 & P). destruct (rrel_flush _ _ R1) as (b2 & Ef & R2).
  exists b2, l1, its. split; [exact Ef|]. split.
  - eexists. split; [exact R2|]. split; [apply (on_flush _ _ On1)|]. cbn [c_bits]. rewrite skipn_length, B1. change (2^22) with 4194304. lia.
  - destruct cont; [|exact P]. destruct P as (P1 & _ & P2). auto.
Qed.

(* Progress through the stream: running, or everything processed after the end of the stream was signalled. *)
Section Progress.
Context {M R : Type} (fuel k : nat) (e : env M R) (D : descs) (s0 : pst) (r0 : R) (ro : option (scheme * Z)).
Hypothesis Hf : (8 <= fuel)%nat.
Hypothesis Hk : 2^22 < Z.of_nat k.
Notation st := (dstate M R).
Notation u0 := (mkU tud_empty tud_empty).

Definition at_stage (d : st) (L : list Z) (fs : list frame) (its : list item) (us : list outunit) (done : bool) : Prop :=
  ds_fromd d = false /\ ds_reord d = ro /\ reorderer_for d = ro /\
  exists p l, ds_proc d = Some p /\ p_D p = D /\ p_gen p = ds_gen d /\ unread (ds_buf d) l /\ renders e ro r0 us fs (p_R p) /\
  if done then exists us1 u out, ds_ended d = true /\ runs D s0 u0 L its us1 (p_s p) u l /\ idle D (p_s p) l /\
                    close true false false u = Some (out, p_u p) /\ us = us1 ++ opt_list out
  else runs D s0 u0 L its us (p_s p) (p_u p) l.

Lemma u0_inv : uinv u0.
Proof. split; [reflexivity|]. cbn. auto. Qed.
Lemma closed_again u out u1 : uinv u -> close true false false u = Some (out, u1) -> uinv u1 /\ close true false false u1 = Some (None, u1).
Proof.
  intros Hu E. pose proof (finish_group u Hu) as F. rewrite E in F. destruct F as [_ F].
  assert (uinv u1) as U1.
  { unfold close in E. destruct Hu as [Hn Hu]. rewrite Hn in E. cbn [tud_empty tu_time negb andb orb] in E.
    destruct (tu_frames (u_cur u)) eqn:E1, (tu_blocks (u_cur u)) eqn:E2; injection E as <- <-; try apply u0_inv. split; [exact Hn|].
    rewrite E1, E2. exact Hu. }
  split; [exact U1|]. unfold cur_of in F. destruct U1 as [N U]. destruct (tu_time (u_cur u1)); [discriminate|].
  unfold close. rewrite N. destruct U as [-> ->]. reflexivity.
Qed.

(* a run which ended in an empty unit *)
Definition has_stall (L : list Z) (its : list item) : Prop :=
  exists its0 it us s u l, its = its0 ++ [it] /\ runs D s0 u0 L its0 us s u l /\ stalled u it.

Lemma one_progress eos (d d1 : st) L fs its us done gs : at_stage d L fs its us done -> eos = ds_ended d -> ds_frame d = [] ->
  decode_one fuel k e eos d = (Ok tt, d1, gs) ->
  exists its1 us1 done1, at_stage d1 L (fs ++ gs) (its ++ its1) (us ++ us1) done1 /\ (done = true -> done1 = true) /\
    ((exists f, gs = [f] /\ ds_frame d1 = f) \/ gs = [] /\ ds_frame d1 = [] /\ (ds_ended d = true -> done1 = true \/ has_stall L (its ++ its1))).
Proof.
  intros (Hfd & Hro & Hrf & p & l & Ep & ED & Eg & Un & Rn & St) -> Hfr Ed.
  destruct (decode_one_kept _ _ _ _ _ _ _ _ Ed) as (Kp & Ken & Kro).
  unfold decode_one in Ed. rewrite Ep, Eg, Nat.eqb_refl in Ed. cbn [negb] in Ed.
  assert (uinv (p_u p)) as Hu.
  { destruct done; [|exact (runs_uinv _ _ _ _ _ _ _ _ _ St u0_inv)]. destruct St as (us1 & u & out & _ & Rr & _ & Ec & _).
    apply (closed_again u out _ (runs_uinv _ _ _ _ _ _ _ _ _ Rr u0_inv) Ec). }
  rewrite ED in Ed. pose proof (unit_on_buffer fuel k D (ds_ended d) (p_s p) (p_u p) (ds_buf d) l Hf Hk Un Hu) as P.
  destruct (process_unit _ _ _ _ _ _ _) as [[[x s1] u1] b1]. destruct x as [[out cont]| | | |]; try discriminate Ed.
  destruct P as (b2 & l1 & its1 & Ef & Un2 & P).
  (* what the call yields, whether or not there is a unit *)
  assert (forall (us1 : list outunit) (done1 : bool), renders e ro (p_R p) us1 gs (match ds_proc d1 with Some p1 => p_R p1 | None => p_R p end) ->
    ds_buf d1 = b2 -> (exists p1, ds_proc d1 = Some p1 /\ p_D p1 = D /\ p_s p1 = s1 /\ p_u p1 = u1 /\ p_gen p1 = ds_gen d1) ->
    (if done1 then exists us' u out', ds_ended d = true /\ runs D s0 u0 L (its ++ its1) us' s1 u l1 /\ idle D s1 l1 /\
        close true false false u = Some (out', u1) /\ us ++ us1 = us' ++ opt_list out'
     else runs D s0 u0 L (its ++ its1) (us ++ us1) s1 u1 l1) ->
    at_stage d1 L (fs ++ gs) (its ++ its1) (us ++ us1) done1) as Fin.
  { intros us1 done1 Rn1 Eb (p1 & Ep1 & ED1 & Es1 & Eu1 & Eg1) St1. unfold kept in Kp.
    split; [destruct Kp as (_ & -> & _); exact Hfd|]. split; [congruence|].
    split. { unfold reorderer_for in *. destruct Kp as (_ & _ & _ & -> & -> & _). rewrite Kro. exact Hrf. }
    exists p1, l1. split; [exact Ep1|]. split; [exact ED1|]. split; [exact Eg1|]. split; [rewrite Eb; exact Un2|].
    rewrite Ep1 in Rn1. split; [eapply renders_app; eassumption|]. rewrite Es1, Eu1. destruct done1; [|exact St1].
    destruct St1 as (us' & u & out' & H1 & H2 & H3 & H4 & H5). exists us', u, out'. rewrite Ken. auto. }
  assert (exists done1 : bool, (done = true -> done1 = true) /\
    (if done1 then exists us' u out', ds_ended d = true /\ runs D s0 u0 L (its ++ its1) us' s1 u l1 /\ idle D s1 l1 /\
        close true false false u = Some (out', u1) /\ us ++ opt_list out = us' ++ opt_list out'
     else runs D s0 u0 L (its ++ its1) (us ++ opt_list out) s1 u1 l1) /\
    (out = None -> ds_ended d = true -> done1 = true \/ has_stall L (its ++ its1))) as (done1 & Hd1 & Hst & Hstall).
  { destruct done.
    - (* everything was processed already *)
      destruct St as (us1 & u & out0 & Hen & Rr & Id & Ec & Eus). rewrite Hen in P.
      destruct (closed_again u out0 _ (runs_uinv _ _ _ _ _ _ _ _ _ Rr u0_inv) Ec) as [U1 Ec1].
      assert (forall its' os s' u' l', runs D (p_s p) (p_u p) l its' os s' u' l' -> its' = [] /\ os = [] /\ s' = p_s p /\ u' = p_u p /\ l' = l) as Still.
      { intros its' os s' u' l' H. inversion H as [|? ? ? adv s2 it its2 os2 u2 os3 s3 u3 rest Ecl]; subst; [auto|].
        exfalso. destruct Id as [Id|Id]; rewrite Id in Ecl; [discriminate|injection Ecl as; subst; discriminate]. }
      destruct cont.
      + destruct P as (P & Q). destruct (Still _ _ _ _ _ P) as (-> & E2 & _). destruct out; [discriminate|].
        destruct (Q eq_refl) as (its0 & it & _ & _ & _ & E & _). destruct its0; discriminate.
      + destruct P as (u2 & P & Id2 & Ec2). destruct (Still _ _ _ _ _ P) as (-> & _ & -> & -> & ->).
        rewrite Ec1 in Ec2. injection Ec2 as <- <-. exists true. split; [auto|]. split; [|auto].
        exists us1, u, out0. rewrite !app_nil_r. auto.
    - destruct cont.
      + destruct P as (P & Q). exists false. split; [discriminate|]. split; [exact (runs_trans _ _ _ _ _ _ _ _ _ St _ _ _ _ _ P)|].
        intros -> _. right. destruct (Q eq_refl) as (its0 & it & s' & u' & l' & -> & P0 & Sl).
        exists (its ++ its0), it, (us ++ []), s', u', l'. rewrite app_assoc. split; [reflexivity|]. split; [|exact Sl].
        exact (runs_trans _ _ _ _ _ _ _ _ _ St _ _ _ _ _ P0).
      + destruct P as (u2 & P & Id & Ec). pose proof (runs_trans _ _ _ _ _ _ _ _ _ St _ _ _ _ _ P) as P'. rewrite app_nil_r in P'.
        destruct (ds_ended d) eqn:Een.
        * exists true. split; [auto|]. split; [|auto]. exists us, u2, out. auto.
        * destruct Ec as [-> ->]. exists false. split; [discriminate|]. cbn [opt_list]. rewrite app_nil_r. split; [exact P'|]. intros _ H. discriminate H. }
  exists its1, (opt_list out), done1. destruct out as [ou|]; cbn [opt_list] in *.
  - rewrite Hfr in Ed. destruct (render_unit e (p_R p) ou []) as [[x old] r1] eqn:Er. destruct x as [f| | | |]; try discriminate Ed.
    destruct (match ds_reord d with Some (sch, ss) => reorder sch ss f | None => Ok f end) as [f'| | | |] eqn:Ero; try discriminate Ed.
    cbn [ds_buf set_frame set_proc set_buf] in Ed. rewrite Ef in Ed. injection Ed as <- <-. split; [|split; [exact Hd1|left; eexists; split; reflexivity]].
    apply Fin; [|reflexivity| |exact Hst].
    + cbn. econstructor; [exact Er| |constructor]. unfold reordered. rewrite <- Hro. exact Ero.
    + cbn. eexists. split; [reflexivity|]. cbn. auto.
  - cbn [ds_buf set_frame set_proc set_buf] in Ed. rewrite Ef in Ed. injection Ed as <- <-. split; [|split; [exact Hd1|right]].
    + apply Fin; [cbn; constructor|reflexivity| |exact Hst]. cbn. eexists. split; [reflexivity|]. cbn. auto.
    + split; [reflexivity|]. split; [cbn; exact Hfr|]. auto.
Qed.

Lemma stage_buf_ext (d : st) L fs its us x b1 : at_stage d L fs its us false -> Forall byteP x -> r_push x (ds_buf d) = (Ok tt, b1) ->
  at_stage (set_reord (set_buf d b1) (reorderer_for (set_buf d b1))) (L ++ x) fs its us false.
Proof.
  intros (Hfd & Hro & Hrf & p & l & Ep & ED & Eg & Un & Rn & St) Hx E.
  assert (reorderer_for (set_buf d b1) = ro) as -> by exact Hrf. split; [exact Hfd|]. split; [reflexivity|].
  split. { unfold reorderer_for in *. cbn [ds_mix ds_scheme ds_reord set_reord set_buf]. destruct (ds_mix d) as [[? [? []]]|]; auto. }
  exists p, (l ++ x). split; [exact Ep|]. split; [exact ED|]. split; [exact Eg|]. split; [exact (unread_push _ _ _ _ Un Hx E)|]. split; [exact Rn|].
  apply runs_ext. exact St.
Qed.

Definition had_stall (L : list Z) (its : list item) : Prop := exists its0 its1, its = its0 ++ its1 /\ has_stall L its0.
Lemma had_now L its : has_stall L its -> had_stall L its.
Proof. intro H. exists its, []. rewrite app_nil_r. auto. Qed.
Lemma had_more L its x its1 : had_stall L its -> had_stall (L ++ x) (its ++ its1).
Proof.
  intros (a & b & -> & its0 & it & us & s & u & l & -> & Rr & Sl). exists (its0 ++ [it]), (b ++ its1). split; [symmetry; apply app_assoc|].
  exists its0, it, us, s, u, (l ++ x). split; [reflexivity|]. split; [apply runs_ext; exact Rr|exact Sl].
Qed.
(* Once the end is signalled, either everything is processed, or a unit is pending, or an empty unit got in the way. *)
Definition ends_well (d : st) (L : list Z) (its : list item) (done : bool) : Prop :=
  ds_ended d = true -> done = true \/ ds_frame d <> [] \/ had_stall L its.

(* One call of the API. *)
Lemma step_progress c (d d1 : st) L fs its us done r : at_stage d L fs its us done -> is_reset c = false -> step fuel k e c d = (r, d1) ->
  r_status r = Ok tt -> match c with CDecode x => Forall byteP x | _ => True end ->
  exists its1 us1 done1, at_stage d1 (L ++ pushed [c]) (fs ++ r_rendered r) (its ++ its1) (us ++ us1) done1 /\ (done = true -> done1 = true) /\
    ds_ended d1 = (ds_ended d || is_end c)%bool /\ (ds_ended d = true -> pushed [c] = []) /\
    (Forall (fun f => some_channels f = true) (r_rendered r) -> ends_well d L its done -> ends_well d1 (L ++ pushed [c]) (its ++ its1) done1).
Proof.
  intros At Hc Es Hr Hx.
  assert (exists p, ds_proc d = Some p) as [p Ep] by (destruct At as (_ & _ & _ & p & _ & Ep & _); eauto).
  assert (ds_fromd d = false) as Hfd by apply At.
  destruct c as [x|span| | |m]; try discriminate Hc; cbn [step] in Es.
  - unfold pushed. cbn [flat_map app is_end]. rewrite app_nil_r, orb_false_r.
    unfold decode in Es. destruct (ds_ended d) eqn:Een; [injection Es as <- <-; discriminate Hr|].
    assert (done = false) as ->. { destruct done; [|reflexivity]. destruct At as (_ & _ & _ & ? & ? & _ & _ & _ & _ & _ & ? & ? & ? & X & _). congruence. }
    destruct (r_push x (ds_buf d)) as [st b1] eqn:Epu. destruct st as [[]| | | |]; try (injection Es as <- <-; discriminate Hr).
    pose proof (stage_buf_ext _ _ _ _ _ _ _ At Hx Epu) as At1. set (d2 := set_reord _ _) in *.
    assert (ds_proc (set_buf d b1) = Some p) as Ep1 by exact Ep. rewrite Ep1 in Es.
    change (ds_frame d2) with (ds_frame d) in Es. change (ds_fromd d2) with (ds_fromd d) in Es. rewrite Hfd in Es.
    destruct (ds_frame d) as [|ch f] eqn:Efr.
    + destruct (decode_one fuel k e false d2) as [[y d3] gs] eqn:E1. injection Es as <- <-. cbn [r_status] in Hr. subst y.
      assert (ds_ended d3 = false) as En3 by (destruct (decode_one_kept _ _ _ _ _ _ _ _ E1) as (_ & X & _); rewrite X; exact Een).
      destruct (one_progress false d2 d3 _ _ _ _ _ _ At1 (eq_sym Een) Efr E1) as (its1 & us1 & done1 & At2 & _ & _).
      exists its1, us1, done1. cbn [r_rendered]. split; [exact At2|]. split; [discriminate|]. split; [exact En3|]. split; [discriminate|].
      intros _ _ H. congruence.
    + injection Es as <- <-. exists [], [], false. cbn [r_rendered]. rewrite !app_nil_r. split; [exact At1|]. split; [discriminate|]. split; [exact Een|].
      split; [discriminate|]. intros _ _ H. change (ds_ended d2) with (ds_ended d) in H. congruence.
  - unfold pushed. cbn [flat_map app is_end]. rewrite app_nil_r, orb_false_r.
    unfold get_unit in Es. destruct (ds_frame d) as [|ch f] eqn:Efr.
    { injection Es as <- <-. exists [], [], done. cbn [r_rendered]. rewrite !app_nil_r. auto. }
    rewrite <- Efr in Es. destruct (write_frame_to_span _ _ _ _) as [[x sp] w].
    assert (x = Ok tt) as ->.
    { destruct x as [[]|c| | |]; [reflexivity| | | |]; try (injection Es as <- <-; discriminate Hr).
      destruct (decode_one fuel k e _ _) as [[y d2] gs]. injection Es as <- <-. cbn [r_status] in Hr. destruct y; discriminate Hr. }
    assert (at_stage (set_frame d []) L fs its us done) as At1 by exact At.
    rewrite Hfd in Es. cbn [orb] in Es.
    destruct (decode_one fuel k e (ds_ended d) (set_frame d [])) as [[y d2] gs] eqn:E1. injection Es as <- <-. cbn [r_status] in Hr.
    assert (y = Ok tt) as -> by (destruct y as [[]| | | |]; congruence). clear Hr.
    assert (ds_ended d2 = ds_ended d) as En2 by (destruct (decode_one_kept _ _ _ _ _ _ _ _ E1) as (_ & X & _); exact X).
    destruct (one_progress _ _ d2 _ _ _ _ _ _ At1 eq_refl eq_refl E1) as (its1 & us1 & done1 & At2 & Hd & Out).
    exists its1, us1, done1. cbn [r_rendered]. split; [exact At2|]. split; [exact Hd|]. split; [exact En2|]. split; [reflexivity|].
    intros Hs _ H. destruct Out as [(g & -> & Eg)|(-> & Eg & Out)].
    + right. left. rewrite Eg. apply Forall_cons_iff in Hs as [Hs _]. destruct g; discriminate.
    + rewrite En2 in H. destruct (Out H) as [X|X]; [left; exact X|right; right; apply had_now; exact X].
  - unfold pushed. cbn [flat_map app is_end]. rewrite app_nil_r, orb_true_r.
    unfold signal_end in Es. cbn [ds_fromd ds_frame ds_proc set_ended] in Es. rewrite Hfd, Ep in Es.
    assert (at_stage (set_ended d true) L fs its us done) as At1.
    { destruct At as (A1 & A2 & A3 & q & l & A4 & A5 & A6 & A7 & A8 & A9). split; [exact A1|]. split; [exact A2|]. split; [exact A3|].
      exists q, l. split; [exact A4|]. split; [exact A5|]. split; [exact A6|]. split; [exact A7|]. split; [exact A8|].
      destruct done; [|exact A9]. destruct A9 as (us' & u & out & _ & H). exists us', u, out. split; [reflexivity|exact H]. }
    destruct (ds_frame d) as [|ch f] eqn:Efr.
    + destruct (decode_one fuel k e true (set_ended d true)) as [[y d2] gs] eqn:E1. injection Es as <- <-. cbn [r_status] in Hr. subst y.
      assert (ds_ended d2 = true) as En2 by (destruct (decode_one_kept _ _ _ _ _ _ _ _ E1) as (_ & X & _); exact X).
      destruct (one_progress _ _ d2 _ _ _ _ _ _ At1 eq_refl Efr E1) as (its1 & us1 & done1 & At2 & Hd & Out).
      exists its1, us1, done1. cbn [r_rendered]. split; [exact At2|]. split; [exact Hd|]. split; [exact En2|]. split; [reflexivity|].
      intros Hs _ H. destruct Out as [(g & -> & Eg)|(-> & Eg & Out)].
      * right. left. rewrite Eg. apply Forall_cons_iff in Hs as [Hs _]. destruct g; discriminate.
      * destruct (Out eq_refl) as [X|X]; [left; exact X|right; right; apply had_now; exact X].
    + injection Es as <- <-. exists [], [], done. cbn [r_rendered]. rewrite !app_nil_r. split; [exact At1|]. split; [auto|]. split; [reflexivity|].
      split; [reflexivity|]. intros _ _ _. right. left. cbn [ds_frame set_ended]. rewrite Efr. discriminate.
Qed.

Lemma calls_progress cs : forall (d d1 : st) L fs its us done rs, at_stage d L fs its us done -> existsb is_reset cs = false ->
  calls fuel k e cs d = (rs, d1) -> all_ok rs -> Forall byteP (pushed cs) ->
  exists its1 us1 done1, at_stage d1 (L ++ pushed cs) (fs ++ flat_map r_rendered rs) (its ++ its1) (us ++ us1) done1 /\
    ds_ended d1 = (ds_ended d || existsb is_end cs)%bool /\
    (Forall (fun f => some_channels f = true) (flat_map r_rendered rs) -> ends_well d L its done -> ends_well d1 (L ++ pushed cs) (its ++ its1) done1).
Proof.
  induction cs as [|c cs IH]; intros d d1 L fs its us done rs At Nr E Ok Hb; cbn [calls existsb] in *.
  - injection E as <- <-. exists [], [], done. cbn [pushed flat_map]. rewrite !app_nil_r, orb_false_r. auto.
  - apply orb_false_elim in Nr as [N1 N2]. destruct (step fuel k e c d) as [r d2] eqn:Es.
    destruct (crashed (r_status r)) eqn:Cr.
    { injection E as <- <-. apply Forall_cons_iff in Ok as [Ok _]. rewrite Ok in Cr. discriminate. }
    destruct (calls fuel k e cs d2) as [rs2 d3] eqn:Ec. injection E as <- <-. apply Forall_cons_iff in Ok as [Ok1 Ok2].
    assert (pushed (c :: cs) = pushed [c] ++ pushed cs) as Pu by (unfold pushed; cbn [flat_map]; rewrite app_nil_r; reflexivity).
    rewrite Pu in *. apply Forall_app in Hb as [Hb1 Hb2].
    assert (match c with CDecode x => Forall byteP x | _ => True end) as Hx.
    { destruct c; auto. unfold pushed in Hb1. cbn [flat_map] in Hb1. rewrite app_nil_r in Hb1. exact Hb1. }
    destruct (step_progress _ _ _ _ _ _ _ _ _ At N1 Es Ok1 Hx) as (its1 & us1 & done1 & At1 & _ & En1 & _ & W1).
    destruct (IH _ _ _ _ _ _ _ _ At1 N2 Ec Ok2 Hb2) as (its2 & us2 & done2 & At2 & En2 & W2).
    exists (its1 ++ its2), (us1 ++ us2), done2. cbn [flat_map]. rewrite !app_assoc in *. split; [exact At2|].
    split; [rewrite En2, En1, orb_assoc; reflexivity|]. intros Hs W. apply Forall_app in Hs as [Hs1 Hs2]. auto.
Qed.
End Progress.

(* Without two delimiters in a row there is no empty unit. *)
Lemma advance_dense u it os u1 after rest : uinv u -> advance u it = (os, u1) -> dense after (it :: rest) ->
  (seen_of u = true -> tu_time (u_cur u) = None -> after = true) ->
  exists after', dense after' rest /\ (seen_of u1 = true -> tu_time (u_cur u1) = None -> after' = true).
Proof.
  destruct u as [[bs fs dl tm] nx]. unfold uinv, seen_of. cbn [u_cur u_next tu_time tu_frames tu_blocks tu_delim]. intros [-> H].
  unfold advance, collect. cbn [u_cur u_next tu_time tu_frames tu_blocks tu_delim].
  intros E Hd Ha. destruct it as [|f|b|h]; cbn [dense] in Hd.
  - unfold close in E. cbn in E. injection E as <- <-. exists after. cbn. auto.
  - exists false. split; [exact Hd|]. intros _ X. exfalso. revert E X. unfold add_data. cbn [u_cur u_next tu_time tud_at tu_frames tu_blocks tu_delim].
    destruct tm as [t0|]; cbn [tu_time tud_at].
    + destruct (t0 =? of_start f).
      * unfold close. cbn. intros E X. injection E as <- <-. discriminate X.
      * unfold close. cbn [u_cur u_next tud_push tud_at tu_time tud_empty tu_frames tu_blocks negb andb orb tu_delim app].
        rewrite (close_some _ _ _ _ _ H). intros E X. injection E as <- <-. discriminate X.
    + rewrite Z.eqb_refl. unfold close. cbn. intros E X. injection E as <- <-. discriminate X.
  - exists false. split; [exact Hd|]. intros _ X. exfalso. revert E X. unfold add_data. cbn [u_cur u_next tu_time tud_at tu_frames tu_blocks tu_delim].
    destruct tm as [t0|]; cbn [tu_time tud_at].
    + destruct (t0 =? ob_start b).
      * unfold close. cbn. intros E X. injection E as <- <-. discriminate X.
      * unfold close. cbn [u_cur u_next tud_push tud_at tu_time tud_empty tu_frames tu_blocks negb andb orb tu_delim app].
        rewrite (close_some _ _ _ _ _ H). intros E X. injection E as <- <-. discriminate X.
    + rewrite Z.eqb_refl. unfold close. cbn. intros E X. injection E as <- <-. discriminate X.
  - destruct Hd as [-> Hd]. exists true. auto.
Qed.
Lemma runs_dense D s u l its os s1 u1 l1 : runs D s u l its os s1 u1 l1 -> uinv u -> forall after rest, dense after (its ++ rest) ->
  (seen_of u = true -> tu_time (u_cur u) = None -> after = true) ->
  exists after', dense after' rest /\ (seen_of u1 = true -> tu_time (u_cur u1) = None -> after' = true).
Proof.
  induction 1 as [|s u l adv s1 it its os1 u1 os s2 u2 rest0 E A _ IH]; intros U after rest Hd Ha; [exists after; auto|].
  destruct (advance_dense _ _ _ _ _ _ U A Hd Ha) as (a1 & Hd1 & Ha1). destruct (advance_spec _ _ _ _ U A) as (U1 & _). eapply IH; eauto.
Qed.
Lemma dense_no_stall D s0 L its rest : dense false (its ++ rest) -> had_stall D s0 L its -> False.
Proof.
  intros Hd (a & b & -> & its0 & it & us & s & u & l & -> & Rr & Sl). rewrite <- !app_assoc in Hd.
  destruct (runs_dense _ _ _ _ _ _ _ _ _ Rr u0_inv _ _ Hd) as (a' & Hd' & Ha'); [discriminate|].
  destruct Sl as ((h & ->) & S1 & S2). cbn [app dense] in Hd'. destruct Hd' as [-> _].
  unfold seen_of in Ha'. destruct (tu_delim (u_cur u)); [|contradiction S1; reflexivity]. specialize (Ha' eq_refl S2). discriminate Ha'.
Qed.

(* A decoder in standalone mode has processed the descriptors; [l0] is what else it was given.  Whatever the calls, if none is refused:
   the frames rendered are those of the first n temporal units of the stream, in order.  n is the number of all units once the end was
   signalled and no unit is pending any more, unless the stream has two delimiters in a row or a unit rendered to no channels (F24). *)
Theorem C31_units_of_the_stream : forall M R fuel cap k (e : env M R) D s0 r0 l0 d0 x0 cs rs d1 os its s1 more,
  (8 <= fuel)%nat -> (1 <= cap)%nat -> 2^22 < Z.of_nat k -> fresh d0 D s0 r0 l0 ->
  calls fuel k e (CDecode x0 :: cs) d0 = (rs, d1) -> existsb is_reset cs = false -> all_ok rs ->
  Forall byteP (pushed (CDecode x0 :: cs)) -> decoded fuel cap D s0 os its s1 -> l0 ++ pushed (CDecode x0 :: cs) ++ more = concat os ->
  (existsb is_end cs = true -> more = []) ->
  exists n r1, renders e (reorderer_for d0) r0 (firstn n (group false None its)) (flat_map r_rendered rs) r1 /\
    (existsb is_end cs = true -> available d1 = false -> dense false its -> Forall (fun f => some_channels f = true) (flat_map r_rendered rs) ->
     n = length (group false None its)).
Proof.
  intros M R fuel cap k e D s0 r0 l0 d0 x0 cs rs d1 os its s1 more Hf Hc Hk (F1 & F2 & F3 & F4 & rate & size & F5) E Nr Ok Hb Hd El Hm.
  assert (calls fuel k e (CDecode x0 :: cs) d0 = calls fuel k e (CDecode x0 :: cs) (set_reord d0 (reorderer_for d0))) as X.
  { cbn [calls step] in E |- *. unfold decode in *. cbn [ds_ended set_reord ds_buf]. rewrite F1 in *.
    destruct (r_push x0 (ds_buf d0)) as [[?| | | |] b1]; [|exfalso; cbn [r_status to_iamf crashed] in E..].
    - cbn [ds_proc set_buf set_reord]. rewrite F5. cbn [ds_frame set_reord set_buf]. rewrite F3. cbn [ds_fromd set_reord set_buf].
      assert (set_reord (set_buf (set_reord d0 (reorderer_for d0)) b1) (reorderer_for (set_buf (set_reord d0 (reorderer_for d0)) b1)) =
              set_reord (set_buf d0 b1) (reorderer_for (set_buf d0 b1))) as ->; [|reflexivity].
      unfold reorderer_for. cbn [ds_mix ds_scheme ds_reord set_buf set_reord]. destruct (ds_mix d0) as [[? [? []]]|]; reflexivity.
    - destruct (calls _ _ _ _ _) in E. injection E as <- <-. apply Forall_cons_iff in Ok as [Ok _]. discriminate Ok.
    - injection E as <- <-. apply Forall_cons_iff in Ok as [Ok _]. discriminate Ok.
    - injection E as <- <-. apply Forall_cons_iff in Ok as [Ok _]. discriminate Ok.
    - injection E as <- <-. apply Forall_cons_iff in Ok as [Ok _]. discriminate Ok. }
  rewrite X in E. clear X.
  assert (at_stage e D s0 r0 (reorderer_for d0) (set_reord d0 (reorderer_for d0)) l0 [] [] [] false) as At.
  { split; [exact F2|]. split; [reflexivity|].
    split. { unfold reorderer_for. cbn [ds_mix ds_scheme ds_reord set_reord]. destruct (ds_mix d0) as [[? [? []]]|]; reflexivity. }
    eexists _, l0. split; [exact F5|]. cbn. split; [reflexivity|]. split; [reflexivity|]. split; [exact F4|]. split; constructor. }
  destruct (calls_progress fuel k e D s0 r0 (reorderer_for d0) Hf Hk (CDecode x0 :: cs) _ _ _ _ _ _ _ _ At Nr E Ok Hb) as (its1 & us1 & done1 & At1 & En1 & W).
  cbn [app] in At1, W. destruct At1 as (_ & _ & _ & p & l & Ep & ED & _ & _ & Rn & St). cbn [ds_ended set_reord existsb is_end orb] in En1. rewrite F1 in En1. cbn [orb] in En1.
  set (L := l0 ++ pushed (CDecode x0 :: cs)) in *. rewrite app_assoc in El. fold L in El.
  destruct done1.
  - destruct St as (us' & u & out & Hen & Rr & Id & Ec & Eus). rewrite Hen in En1. specialize (Hm (eq_sym En1)). subst more.
    destruct (runs_decoded _ _ _ _ _ _ _ _ _ _ _ Hf Hc Rr [] _ _ _ Hd El) as (os' & its' & -> & Hd' & El').
    rewrite app_nil_r in El'. destruct (idle_decoded _ _ _ _ _ _ _ _ Hf Hc Id Hd' El') as [-> ->]. rewrite app_nil_r.
    pose proof (runs_group _ _ _ _ _ _ _ _ _ Rr u0_inv []) as G. change (seen_of (mkU tud_empty tud_empty)) with false in G.
    change (cur_of (mkU tud_empty tud_empty)) with (@None outunit) in G. rewrite app_nil_r in G. cbn [group] in G.
    pose proof (finish_group _ (runs_uinv _ _ _ _ _ _ _ _ _ Rr u0_inv)) as Fg. rewrite Ec in Fg. destruct Fg as [Fg _].
    assert (group false None its1 = us1) as -> by congruence.
    exists (length us1), (p_R p). rewrite firstn_all. auto.
  - destruct (runs_decoded _ _ _ _ _ _ _ _ _ _ _ Hf Hc St more _ _ _ Hd El) as (os' & its' & -> & Hd' & El').
    pose proof (runs_group _ _ _ _ _ _ _ _ _ St u0_inv its') as G. change (seen_of (mkU tud_empty tud_empty)) with false in G.
    change (cur_of (mkU tud_empty tud_empty)) with (@None outunit) in G. rewrite G.
    exists (length us1), (p_R p). rewrite firstn_app, firstn_all, Nat.sub_diag, app_nil_r. split; [exact Rn|].
    intros He Hav Hdn Hs. exfalso. rewrite He in En1.
    destruct (W Hs) as [Y|[Y|Y]]; [intro Y; cbn [ds_ended set_reord] in Y; congruence|exact En1|discriminate Y| |].
    + unfold available in Hav. destruct (ds_frame d1); [apply Y; reflexivity|discriminate Hav].
    + exact (dense_no_stall _ _ _ _ _ Hdn Y).
Qed.

(* ... and in bytes: what the GetOutputTemporalUnit calls return are the PCM bytes of the units of the stream, each once, in order. *)
Theorem C31_bytes_of_the_stream_partial : forall M R fuel cap k (e : env M R) D s0 r0 l0 d0 x0 cs rs d1 os its s1 n,
  (8 <= fuel)%nat -> (1 <= cap)%nat -> 2^22 < Z.of_nat k -> fresh d0 D s0 r0 l0 ->
  calls fuel k e (CDecode x0 :: cs) d0 = (rs, d1) -> existsb is_reset cs = false -> all_ok rs ->
  Forall byteP (pushed (CDecode x0 :: cs)) -> decoded fuel cap D s0 os its s1 -> l0 ++ pushed (CDecode x0 :: cs) = concat os ->
  existsb is_end cs = true -> available d1 = false -> dense false its -> ds_type d0 <> OtherType -> large_buffers n cs ->
  Forall (fun f => some_channels f = true /\ good_frame f /\ byte_size (ds_type d0) f <= n) (flat_map r_rendered rs) ->
  exists frames r1, renders e (reorderer_for d0) r0 (group false None its) frames r1 /\
    deliveries fuel k e (CDecode x0 :: cs) d0 = map (out_bytes (ds_type d0)) frames.
Proof.
  intros M R fuel cap k e D s0 r0 l0 d0 x0 cs rs d1 os its s1 n Hf Hc Hk Hfr E Nr Ok Hb Hd El He Hav Hdn Hty HL HF.
  destruct (C31_units_of_the_stream M R fuel cap k e D s0 r0 l0 d0 x0 cs rs d1 os its s1 [] Hf Hc Hk Hfr E Nr Ok Hb Hd) as (m & r1 & Rn & Full);
    [rewrite app_nil_r; exact El|auto|].
  assert (Forall (fun f => some_channels f = true) (flat_map r_rendered rs)) as Hs by (eapply Forall_impl; [|exact HF]; intros f H; apply H).
  rewrite (Full He Hav Hdn Hs), firstn_all in Rn. exists (flat_map r_rendered rs), r1. split; [exact Rn|].
  assert (forall l, Forall (fun f => some_channels f = true) l -> filter some_channels l = l) as Fl.
  { induction 1 as [|f l H _ IH]; [reflexivity|]. cbn [filter]. rewrite H, IH. reflexivity. }
  pose proof (C31_delivered_once_partial M R fuel k e n _ _ _ _ E) as P.
  assert (ds_frame d0 = []) as F0 by apply Hfr. assert (ds_frame d1 = []) as F1 by (unfold available in Hav; destruct (ds_frame d1); [reflexivity|discriminate]).
  rewrite F0, F1 in P. cbn [filter some_channels app map] in P. rewrite app_nil_r in P. unfold rendered in P. rewrite (Fl _ Hs) in P.
  symmetry. apply P.
  - unfold no_crash. eapply Forall_impl; [|exact Ok]. intros r H. cbv beta in H. rewrite H. reflexivity.
  - exact Nr.
  - exact Hty.
  - constructor; [exact I|exact HL].
  - eapply Forall_impl; [|exact HF]. intros f H. cbv beta in H. tauto.
Qed.

(* Two decoders with the same descriptors which are given the same stream deliver the same bytes, however the stream is cut and
   however Decode and GetOutputTemporalUnit calls are mixed. *)
Theorem C31_histories_agree_partial : forall M R fuel cap k (e : env M R) D s0 r0 la lb da db xa xb ca cb ra rb da1 db1 os its s1 n,
  (8 <= fuel)%nat -> (1 <= cap)%nat -> 2^22 < Z.of_nat k -> fresh da D s0 r0 la -> fresh db D s0 r0 lb ->
  reorderer_for da = reorderer_for db -> ds_type da = ds_type db -> ds_type da <> OtherType ->
  calls fuel k e (CDecode xa :: ca) da = (ra, da1) -> calls fuel k e (CDecode xb :: cb) db = (rb, db1) ->
  existsb is_reset ca = false -> existsb is_reset cb = false -> all_ok ra -> all_ok rb ->
  Forall byteP (pushed (CDecode xa :: ca)) -> Forall byteP (pushed (CDecode xb :: cb)) ->
  decoded fuel cap D s0 os its s1 -> la ++ pushed (CDecode xa :: ca) = concat os -> lb ++ pushed (CDecode xb :: cb) = concat os ->
  existsb is_end ca = true -> existsb is_end cb = true -> available da1 = false -> available db1 = false -> dense false its ->
  large_buffers n ca -> large_buffers n cb ->
  Forall (fun f => some_channels f = true /\ good_frame f /\ byte_size (ds_type da) f <= n) (flat_map r_rendered ra ++ flat_map r_rendered rb) ->
  deliveries fuel k e (CDecode xa :: ca) da = deliveries fuel k e (CDecode xb :: cb) db.
Proof.
  intros M R fuel cap k e D s0 r0 la lb da db xa xb ca cb ra rb da1 db1 os its s1 n Hf Hc Hk Fa Fb Er Et Hty Ea Eb Na Nb Oa Ob Ba Bb Hd La Lb Ena Enb Ava Avb Hdn HLa HLb HF.
  apply Forall_app in HF as [HFa HFb].
  destruct (C31_bytes_of_the_stream_partial _ _ _ _ _ e _ _ _ _ _ _ _ _ _ _ _ _ n Hf Hc Hk Fa Ea Na Oa Ba Hd La Ena Ava Hdn Hty HLa HFa) as (fa & xra & Ra & Da).
  rewrite Et in Hty, HFb.
  destruct (C31_bytes_of_the_stream_partial _ _ _ _ _ e _ _ _ _ _ _ _ _ _ _ _ _ n Hf Hc Hk Fb Eb Nb Ob Bb Hd Lb Enb Avb Hdn Hty HLb HFb) as (fb & xrb & Rb & Db).
  rewrite <- Er in Rb. destruct (renders_det _ _ _ _ _ _ Ra _ _ Rb) as [-> _]. rewrite Da, Db, Et. reflexivity.
Qed.

(* Where such decoders come from: the Decode call which completes the descriptors leaves exactly the bytes after them. *)
Theorem C31_fresh_after_descriptors : forall M R fuel k (e : env M R) d l x r d1,
  (8 <= fuel)%nat -> ds_proc d = None -> ds_ended d = false -> ds_fromd d = false -> ds_frame d = [] -> unread (ds_buf d) l ->
  Forall byteP l -> Forall byteP x -> step fuel k e (CDecode x) d = (r, d1) -> complete d1 = true ->
  exists D s r0 rest, l ++ x = ds_desc d1 ++ rest /\ fresh d1 D s r0 rest /\ r_status r = Ok tt.
Proof.
  intros M R fuel k e d l x r d1 Hf Hp He Hfd Hfr Un Bl Bx Es Hc. cbn [step] in Es. unfold decode in Es. rewrite He in Es.
  destruct (r_push x (ds_buf d)) as [st b1] eqn:Ep. unfold complete in Hc.
  destruct st as [[]| | | |]; try (injection Es as <- <-; cbn [ds_proc set_buf] in Hc; rewrite Hp in Hc; discriminate Hc).
  pose proof (unread_push _ _ _ _ Un Bx Ep) as (c & Rc & On & Lc). cbn [ds_proc set_buf] in Es. rewrite Hp in Es.
  destruct (create_processor fuel e (set_buf d b1)) as [y d2] eqn:Ec.
  pose proof (create_processor_kept _ _ _ _ _ Ec) as (_ & Kfd & _ & _ & Kgen & Ken & _ & Kfr & _ & Kbad). cbn [ds_fromd ds_gen ds_ended ds_frame ds_proc set_buf] in *.
  injection Es as <- <-. unfold create_processor in Ec. cbn [ds_fromd ds_req ds_buf set_buf] in Ec.
  destruct (crun_refines fuel (create_prog e (ds_fromd d) (ds_req d)) Hf b1 c Rc) as [E R1].
  destruct (crun fuel (create_prog e (ds_fromd d) (ds_req d)) b1) as [z b2], (arun (create_prog e (ds_fromd d) (ds_req d)) c) as [z' c2] eqn:Ea. cbn [fst snd] in E, R1. subst z'.
  destruct z as [[[np bytes]| | | |]| | | |]; try (injection Ec as <- <-; cbn [ds_proc set_buf] in Hc; rewrite Hp in Hc; discriminate Hc).
  (* the program *)
  pose proof (arun_bits (create_prog e (ds_fromd d) (ds_req d)) c) as Hbits. rewrite Ea in Hbits. cbn [snd] in Hbits.
  assert (exists n, bytes = firstn n (l ++ x) /\ (n <= length (l ++ x))%nat /\ c_pos c2 = (c_pos c + 8 * n)%nat) as (n & Eb & Ln & Pos).
  { unfold create_prog in Ea. apply arun_bind_ok in Ea as (p0 & c3 & E0 & Ea). rewrite arun_rtell in E0. injection E0 as <- <-.
    apply arun_bind_ok in Ea as (xx & c4 & E0 & Ea).
    pose proof (arun_bits (rcatch (e_create e (ds_fromd d) (ds_req d))) (mkC (c_bits c) (c_pos c) (Some true))) as B4. rewrite E0 in B4. cbn [snd c_bits] in B4.
    destruct (arun_valid (rcatch (e_create e (ds_fromd d) (ds_req d))) (mkC (c_bits c) (c_pos c) (Some true)) eq_refl) as [V4 _]. rewrite E0 in V4. cbn [snd c_valid] in V4.
    destruct xx as [|[[[np'|] ins]| | | |]]; try (cbn [arun crash] in Ea; discriminate Ea).
    apply arun_bind_ok in Ea as (p1 & c5 & E1 & Ea). rewrite arun_rtell in E1. injection E1 as <- <-. cbv zeta in Ea.
    set (n := Z.quot _ _) in Ea. destruct (n <? 0) eqn:En; [cbn [arun] in Ea; discriminate Ea|].
    pose proof (on_len _ _ On) as Lon. destruct On as [K Hs]. unfold cok in K.
    apply arun_bind_ok in Ea as ([] & c6 & E2 & Ea). rewrite B4 in E2.
    rewrite (arun_rseek_ok (c_bits c) (c_pos c4) (Z.of_nat (c_pos c))) in E2 by (unfold zlen; lia). injection E2 as <-.
    rewrite Nat2Z.id in Ea. apply arun_bind_ok in Ea as (bs & c7 & E3 & Ea). cbn [arun] in Ea. injection Ea as <- <- <-.
    pose proof (arun_span (Z.to_nat n) (mkC (c_bits c) (c_pos c) (Some true)) K) as Sp. cbn [c_bits c_pos] in Sp.
    destruct (_ <=? _)%nat eqn:El; [|destruct Sp as (c' & Sp); rewrite Sp in E3; discriminate E3].
    destruct Sp as (l' & v & Sp & L' & B' & Bb). rewrite Sp in E3. injection E3 as <- <-. cbn [c_pos].
    exists (Z.to_nat n). split; [|split; [lia|reflexivity]]. apply bytes_bits_inj; [exact B'| |].
    { assert (Forall byteP (l ++ x)) as Blx by (apply Forall_app; auto). rewrite <- (firstn_skipn (Z.to_nat n) (l ++ x)) in Blx. apply Forall_app in Blx. apply Blx. }
    rewrite Bb, Hs, bytes_bits_firstn. reflexivity. }
  destruct (rrel_flush _ _ R1) as (b3 & Ef & R3). rewrite Ef in Ec.
  destruct (np_mix np) as [mix| | | |]; try (injection Ec as <- <-; cbn [ds_proc set_buf set_desc] in Hc; rewrite Hp in Hc; discriminate Hc).
  destruct (np_layout np) as [lay| | | |]; try (injection Ec as <- <-; cbn [ds_proc set_buf set_desc] in Hc; rewrite Hp in Hc; discriminate Hc).
  injection Ec as <- <-. cbn [ds_desc set_proc set_mix set_buf set_desc].
  exists (np_D np), (np_s np), (np_R np), (skipn n (l ++ x)). split; [rewrite Eb; symmetry; apply firstn_skipn|]. split; [|reflexivity].
  split; [exact He|]. split; [exact Hfd|]. split; [exact Hfr|]. split; [|exists (np_rate np), (np_size np); reflexivity].
  cbn [ds_buf set_proc set_mix set_buf]. eexists. split; [exact R3|].
  assert (on c2 (skipn n (l ++ x))) as On2.
  { rewrite <- (Nat2Z.id n). apply (on_move c (l ++ x) c2 (Z.of_nat n) On Hbits); unfold zlen; lia. }
  split; [exact (on_flush _ _ On2)|]. cbn [c_bits]. rewrite skipn_length, Hbits. change (2^22) with 4194304 in *. lia.
Qed.

(* A decoder made by Create has read nothing. *)
Lemma unread_create {M R} (m : M) sch ty : unread (ds_buf (@create M R m sch ty)) [].
Proof.
  pose proof (srel_init 1024 ltac:(lia)) as [R0 _]. change (view s_empty) with (mkC [] 0 None) in R0.
  exists (mkC [] 0 None). split; [exact R0|]. split; [split; [unfold cok; cbn; lia|reflexivity]|]. cbn [c_bits length]. lia.
Qed.
(* The hypotheses hold of two histories over the stream of PropsLoss.v: the first gives the descriptors and the start of the stream in
   one Decode call. *)
Definition ex_cut (n : nat) : list (call unit) :=
  [CDecode (skipn n (concat ex_stream)); CGet (repeat 0 4); CGet (repeat 0 4); CGet (repeat 0 4); CEnd; CGet (repeat 0 4); CGet (repeat 0 4)].
Definition ex_cut2 : list (call unit) :=
  [CDecode (firstn 7 (concat ex_stream)); CDecode (firstn 6 (skipn 7 (concat ex_stream))); CGet (repeat 0 4); CGet (repeat 0 4);
   CDecode (skipn 13 (concat ex_stream)); CGet (repeat 0 4); CEnd; CGet (repeat 0 4); CGet (repeat 0 4)].
Definition ex_ready (x : list Z) : dstate unit unit := snd (step 8 ex_k ex_env (CDecode x) ex_dec).
Definition ex_hyps (x : list Z) (cs : list (call unit)) (l : list Z) (its : list item) : Prop :=
  exists rs d1, calls 8 ex_k ex_env cs (ex_ready x) = (rs, d1) /\ existsb is_reset cs = false /\ all_ok rs /\ Forall byteP (pushed cs) /\
  l ++ pushed cs = concat ex_stream /\ existsb is_end cs = true /\ available d1 = false /\ large_buffers 4 cs /\
  flat_map r_rendered rs = map ex_frame_at [0; 8; 16].
Example C31_stream_ex : exists its s1,
  decoded 8 1 ex_D ex_s ex_stream its s1 /\ dense false its /\ length (group false None its) = 3%nat /\
  fresh (ex_ready (9 :: firstn 12 (concat ex_stream))) ex_D ex_s tt (firstn 12 (concat ex_stream)) /\
  ex_hyps (9 :: firstn 12 (concat ex_stream)) (ex_cut 12) (firstn 12 (concat ex_stream)) its /\
  fresh (ex_ready [9]) ex_D ex_s tt [] /\ ex_hyps [9] ex_cut2 [] its /\
  Forall (fun f => some_channels f = true /\ good_frame f /\ byte_size Int16LE f <= 4) (map ex_frame_at [0; 8; 16]).
Proof.
  eexists _, _. split; [walk|]. split; [repeat split|]. split; [run|].
  assert (forall x, Forall byteP x -> complete (ex_ready x) = true -> exists D s r0 rest, x = ds_desc (ex_ready x) ++ rest /\ fresh (ex_ready x) D s r0 rest) as X.
  { intros x Hx Hc. destruct (step 8 ex_k ex_env (CDecode x) ex_dec) as [r d1] eqn:E. unfold ex_ready in *. rewrite E in *. cbn [snd] in *.
    destruct (C31_fresh_after_descriptors _ _ 8 ex_k ex_env ex_dec [] x r d1) as (D & s & r0 & rest & E1 & E2 & _); try reflexivity; try lia; try assumption; try constructor.
    apply unread_create. exists D, s, r0, rest. auto. }
  assert (forall x rest, Forall byteP (9 :: x) -> complete (ex_ready (9 :: x)) = true -> ds_desc (ex_ready (9 :: x)) = [9] -> rest = x ->
    option_map (fun p => (p_D p, p_s p, p_R p)) (ds_proc (ex_ready (9 :: x))) = Some (ex_D, ex_s, tt) -> fresh (ex_ready (9 :: x)) ex_D ex_s tt rest) as Y.
  { intros x rest Hx Hc Hd -> Hp. destruct (X _ Hx Hc) as (D & s & r0 & rest & E1 & E2). rewrite Hd in E1. injection E1 as <-.
    destruct E2 as (F1 & F2 & F3 & F4 & rate & size & F5). rewrite F5 in Hp. injection Hp as -> -> ->. unfold fresh. eauto 10. }
  split; [apply Y; [repeat constructor; unfold byteP; lia|run..]|].
  assert (forall l, forallb (fun b => (0 <=? b) && (b <? 256)) l = true -> Forall byteP l) as B.
  { intros l H. rewrite forallb_forall in H. apply Forall_forall. intros b Hb. specialize (H _ Hb). unfold byteP. lia. }
  split; [|split; [apply Y; [repeat constructor; unfold byteP; lia|run..]|split]].
  - eexists _, _. split; [run|]. split; [reflexivity|]. split; [repeat constructor|]. split; [apply B; run|]. split; [run|]. split; [reflexivity|].
    split; [run|]. split; [|run]. repeat constructor; try (unfold zlen; cbn [repeat length]; lia); change (2^64) with 18446744073709551616; unfold zlen; cbn [repeat length]; lia.
  - eexists _, _. split; [run|]. split; [reflexivity|]. split; [repeat constructor|]. split; [apply B; run|]. split; [run|]. split; [reflexivity|].
    split; [run|]. split; [|run]. repeat constructor; try (unfold zlen; cbn [repeat length]; lia); change (2^64) with 18446744073709551616; unfold zlen; cbn [repeat length]; lia.
  - repeat constructor; try (unfold byte_size, zlen; vm_compute; discriminate).
Qed.

(* An empty temporal unit (two delimiters in a row) hides what follows: the client decodes everything, signals the end, takes what is
   available until nothing is, all calls succeed, and two of the three units were never delivered (F24). *)
Definition ex_gap : list (list Z) := [ex_td; ex_frame 1; ex_td; ex_td; ex_td; ex_frame 2; ex_td; ex_frame 3].
Definition ex_gap_calls : list (call unit) :=
  [CDecode (concat ex_gap); CEnd; CGet (repeat 0 4); CGet (repeat 0 4); CGet (repeat 0 4)].
Theorem C31_empty_unit_refuted : exists its s1 rs d1,
  decoded 8 1 ex_D ex_s ex_gap its s1 /\ length (group false None its) = 3%nat /\ fresh (ex_ready [9]) ex_D ex_s tt [] /\
  calls 8 ex_k ex_env ex_gap_calls (ex_ready [9]) = (rs, d1) /\ all_ok rs /\ pushed ex_gap_calls = concat ex_gap /\
  existsb is_end ex_gap_calls = true /\ available d1 = false /\
  deliveries 8 ex_k ex_env ex_gap_calls (ex_ready [9]) = [[0; 64; 0; 32]].
Proof.
  eexists _, _, _, _. split; [walk|]. split; [run|].
  split; [destruct C31_stream_ex as (its & s1 & H); decompose [and] H; assumption|].
  split; [run|]. split; [repeat constructor|]. split; [run|]. split; [reflexivity|]. split; [run|]. run.
Qed.
