(* C66: the probe's report on temporal units that the muxer wrote. *)
From Coq Require Import Permutation Sorted.
From Verif Require Import TempUnit Base WriteBuf ReadBuf Leb BufSpec LebSpec BitFacts WriteBufFacts ReadBufFacts LebFacts
  ParseFacts EndToEnd ObuHeader ObuHeaderFacts FrameFacts SeqFacts BndFacts PureFacts SimpleObus CodecConfig Params
  Timing PropsTiming ParamManager Processor PropsObu PropsParams ProcFacts PropsProc DescFacts Descriptors PropsDesc Sequencer SeqRound PropsSeqDesc UnitRound PropsSeqUnits
  Probe ProbeFacts PropsProbe ProbeUnits.
Local Open Scope Z_scope.

(* ================= SPEC ================= *)
(* Unit number [i], which begins at byte [b] of the units and has [k] bytes, in the index.  Its offset is that of its first OBU if it is a
   temporal delimiter; otherwise somewhere in the unit (see C66_offset_ex). *)
Definition entry_of (n : Z) (delims : bool) (i : Z) (u : tunit) (b k : Z) (e : entry) : Prop :=
  en_time e = i * n /\ en_samples e = n /\ b <= en_offset e < b + k /\ (delims = true -> en_offset e = b) /\
  exists f r, tu_frames u = f :: r /\ en_trim_start e = trimmed_start f /\ en_trim_end e = trimmed_end f.
Fixpoint index_of (n : Z) (delims : bool) (i b : Z) (us : list tunit) (bs : list (list Z)) (es : list entry) : Prop :=
  match us, bs, es with
  | [], [], [] => True
  | u :: us', x :: bs', e :: es' => entry_of n delims i u b (zlen x) e /\ index_of n delims (i + 1) (b + zlen x) us' bs' es'
  | _, _, _ => False
  end.
(* A parameter block of unit [u] in the details. *)
Definition detail_of (u : tunit) (b : obu (pdef * pblock)) : blockrep :=
  mkBr (pd_type (pd_kind (fst (ob_v b)))) (tu_start u) (tu_start u + block_duration (fst (ob_v b)) (snd (ob_v b))) (fst (ob_v b)) (stored_block (snd (ob_v b))).
(* What follows the units, and what the scan says about it: nothing; another IA sequence; a part of an OBU. *)
Definition follows (rest : list Z) (r : stop) : Prop :=
  rest = [] /\ r = Eof \/
  (exists g h payload footer bits o more, lebgen_wf g /\ header_wf h /\ Forall winstr_wf payload /\ Forall byteP footer /\ h_type h = kSequenceHeader /\ h_red h = false /\
     wbits (write_obu g h payload footer) = Ok bits /\ bytes_bits o = bits /\ Forall byteP o /\ rest = o ++ more /\ r = NextSequence) \/
  (exists o missing, is_obu o /\ o = rest ++ missing /\ rest <> [] /\ missing <> [] /\ r = Truncated).

(* ================= proofs ================= *)
Definition view (s : scan) := (sc_start s, sc_seen s, (sc_num s, sc_trim_start s, sc_trim_end s), (sc_time s, sc_entries s)).
Lemma view_note p s x : sc_start s = Some x -> view (note_start p s) = view s.
Proof. unfold note_start. intros ->. reflexivity. Qed.
Lemma view_block full T p id b s : view (tally full T p (EBlock id b) s) = view (note_start p s).
Proof. cbn [tally]. unfold tally_block. destruct b as [[d x]|]; reflexivity. Qed.
Lemma view_others full T evs : Forall (fun e => e = EOther) (map snd evs) -> forall s, view (steps full T evs s) = view s.
Proof. induction evs as [|[p e] evs IH]; intros H s; [reflexivity|]. cbn [map snd] in H. inversion H as [|? ? -> H2]; subst. cbn [steps fold_left fst snd tally]. apply IH. exact H2. Qed.
Lemma steps_app full T a b s : steps full T (a ++ b) s = steps full T b (steps full T a s).
Proof. unfold steps. apply fold_left_app. Qed.
Lemma view_blocks full T evs : Forall (fun e => is_block e = true) (map snd evs) -> forall s x, sc_start s = Some x -> view (steps full T evs s) = view s.
Proof.
  induction evs as [|[p e] evs IH]; intros H s x Hs; [reflexivity|]. cbn [map snd] in H. inversion H as [|? ? H1 H2]; subst. cbn [steps fold_left fst snd]. fold (steps full T evs (tally full T p e s)).
  destruct e as [| |id b| | |]; try discriminate H1. assert (view (tally full T p (EBlock id b) s) = view s) as V by (rewrite view_block; eapply view_note; exact Hs).
  rewrite (IH H2 _ x); [exact V|]. unfold view in V. congruence.
Qed.
(* blocks before anything else *)
Lemma view_blocks_first full T evs lo hi : Forall (fun e => is_block e = true) (map snd evs) -> Forall (fun x => lo <= fst x < hi) evs -> forall s, sc_start s = None ->
  exists st, view (steps full T evs s) = (st, sc_seen s, (sc_num s, sc_trim_start s, sc_trim_end s), (sc_time s, sc_entries s)) /\ match st with Some p => lo <= p < hi | None => True end.
Proof.
  intros H R s Hs. destruct evs as [|[p e] evs]. { exists None. unfold view. cbn [steps fold_left]. rewrite Hs. auto. }
  cbn [map snd] in H. inversion H as [|? ? H1 H2]; subst. inversion R as [|? ? R1 R2]; subst. cbn [steps fold_left fst snd] in *. fold (steps full T evs (tally full T p e s)).
  destruct e as [| |id b| | |]; try discriminate H1. exists (Some p). split; [|exact R1].
  assert (view (tally full T p (EBlock id b) s) = (Some p, sc_seen s, (sc_num s, sc_trim_start s, sc_trim_end s), (sc_time s, sc_entries s))) as V by (rewrite view_block; unfold note_start; rewrite Hs; reflexivity).
  rewrite (view_blocks full T evs H2 _ p); [exact V|]. unfold view in V. congruence.
Qed.
Definition ev_id (e : event) : Z := match e with EFrame id _ _ => id | _ => 0 end.
Definition is_frame (e : event) : bool := match e with EFrame _ _ _ => true | _ => false end.
(* further frames *)
Lemma view_frames full T n evs : 0 <= n -> Forall (fun e => is_frame e = true /\ size_of T (ev_id e) = n) (map snd evs) -> forall s x, sc_start s = Some x -> sc_seen s <> [] -> sc_num s = n ->
  NoDup (sc_seen s ++ map ev_id (map snd evs)) ->
  view (steps full T evs s) = (Some x, sc_seen s ++ map ev_id (map snd evs), (n, sc_trim_start s, sc_trim_end s), (sc_time s, sc_entries s)).
Proof.
  intro Hn. induction evs as [|[p e] evs IH]; intros H s x Hs Ne Nu Nd. { cbn [steps fold_left map]. rewrite app_nil_r. unfold view. rewrite Hs, Nu. reflexivity. }
  cbn [map snd] in H, Nd. inversion H as [|? ? [H1 H1'] H2]; subst. cbn [steps fold_left fst snd]. fold (steps full T evs (tally full T p e s)).
  destruct e as [id ts te| | | | |]; try discriminate H1. cbn [ev_id] in *.
  assert (existsb (Z.eqb id) (sc_seen s) = false) as Nx.
  { destruct (existsb (Z.eqb id) (sc_seen s)) eqn:Q; [|reflexivity]. apply in_existsb in Q. exfalso. apply NoDup_remove_2 in Nd. apply Nd. apply in_or_app. left. exact Q. }
  assert (view (tally full T p (EFrame id ts te) s) = (Some x, sc_seen s ++ [id], (sc_num s, sc_trim_start s, sc_trim_end s), (sc_time s, sc_entries s))) as V.
  { cbn [tally]. unfold tally_frame. rewrite Nx. replace (note_start p s) with s by (unfold note_start; rewrite Hs; reflexivity). rewrite Nx. fold (size_of T id). destruct (sc_seen s) eqn:Q; [contradiction|]. unfold view.
    cbn [sc_start sc_seen sc_num sc_trim_start sc_trim_end sc_time sc_entries]. rewrite Hs. replace (Z.max (sc_num s) (size_of T id)) with (sc_num s) by lia. reflexivity. }
  set (s1 := tally full T p (EFrame id ts te) s) in *. clearbody s1. unfold view in V. injection V as V1 V2 V3 V4 V5 V6 V7. rewrite (IH H2 s1 x V1).
  - rewrite V2, V4, V5, V6, V7, <- app_assoc. reflexivity.
  - rewrite V2. destruct (sc_seen s); discriminate.
  - congruence.
  - rewrite V2, <- app_assoc. exact Nd.
Qed.
(* the frames of a unit; [s'] is the state without the unit before it *)
Lemma view_unit_frames full T n p id ts te evs : 0 <= n -> Forall (fun e => is_frame e = true /\ size_of T (ev_id e) = n) (map snd ((p, EFrame id ts te) :: evs)) -> NoDup (map ev_id (map snd ((p, EFrame id ts te) :: evs))) ->
  forall s, (sc_seen s = [] /\ sc_num s = 0) \/ (In id (sc_seen s) /\ sc_start s <> None) ->
  let s' := if existsb (Z.eqb id) (sc_seen s) then finalize_tu full s else s in
  view (steps full T ((p, EFrame id ts te) :: evs) s) = (Some (match sc_start s' with Some q => q | None => p end), map ev_id (map snd ((p, EFrame id ts te) :: evs)), (n, ts, te), (sc_time s', sc_entries s')).
Proof.
  intros Hn H Nd s Hs s'. cbn [map snd ev_id] in *. cbn [steps fold_left fst snd]. pose proof (Forall_inv H) as [_ H1]. pose proof (Forall_inv_tail H) as H2. cbn [ev_id] in H1.
  assert (sc_seen s' = [] /\ sc_num s' = 0) as [S1 S2].
  { unfold s'. destruct Hs as [[Hs Hz]|[Hs St]].
    - rewrite Hs. cbn [existsb]. auto.
    - replace (existsb (Z.eqb id) (sc_seen s)) with true by (symmetry; apply in_existsb; exact Hs). unfold finalize_tu. destruct (sc_start s) as [q|]; [|contradiction].
      destruct (sc_seen s); [destruct Hs|]. split; reflexivity. }
  assert (view (tally full T p (EFrame id ts te) s) = (Some (match sc_start s' with Some q => q | None => p end), [id], (n, ts, te), (sc_time s', sc_entries s'))) as V.
  { cbn [tally]. unfold tally_frame. fold s'. clearbody s'. pose proof (note_same p s') as N. injection N as N1 N2 N3 N4 N5 _ _ _ _ _ _ _ _ N6 _. rewrite N1, N4, N5, N6, S1, S2. cbn [existsb app]. fold (size_of T id). unfold view.
    cbn [sc_start sc_seen sc_num sc_trim_start sc_trim_end sc_time sc_entries]. rewrite H1. replace (Z.max 0 n) with n by lia. unfold note_start. destruct (sc_start s') eqn:Q; cbn [sc_start]; rewrite ?Q; reflexivity. }
  clearbody s'. set (s1 := tally full T p (EFrame id ts te) s) in *. fold (steps full T evs s1). clearbody s1. unfold view in V. injection V as V1 V2 V3 V4 V5 V6 V7.
  rewrite (view_frames full T n evs Hn H2 s1 _ V1).
  - rewrite V2, V4, V5, V6, V7. reflexivity.
  - rewrite V2. discriminate.
  - exact V3.
  - rewrite V2. exact Nd.
Qed.

(* ---- units ---- *)
Lemma forall_repeat {A} (x : A) k : Forall (fun e => e = x) (repeat x k).
Proof. induction k; cbn [repeat]; constructor; auto. Qed.
Lemma view_delim full T p s : view (tally full T p EDelim s) = let s' := finalize_tu full s in (Some (match sc_start s' with Some q => q | None => p end), sc_seen s', (sc_num s', sc_trim_start s', sc_trim_end s'), (sc_time s', sc_entries s')).
Proof. cbn [tally]. cbv zeta. unfold note_start. destruct (sc_start (finalize_tu full s)) eqn:Q; unfold view; cbn [add_delim sc_start sc_seen sc_num sc_trim_start sc_trim_end sc_time sc_entries]; rewrite ?Q; reflexivity. Qed.
Lemma finalize_view full s q : sc_start s = Some q -> sc_seen s <> [] ->
  view (finalize_tu full s) = (None, [], (0, 0, 0), (sc_time s + sc_num s, if full then sc_entries s ++ [mkEn (sc_time s) (sc_num s) q (sc_trim_start s) (sc_trim_end s)] else sc_entries s)).
Proof. unfold finalize_tu. intros -> H. destruct (sc_seen s); [contradiction|]. reflexivity. Qed.
Lemma f2_length {A B} (R : A -> B -> Prop) l m : Forall2 R l m -> length l = length m.
Proof. induction 1; cbn [length]; congruence. Qed.
(* split a placed list along its events *)
Lemma place_split full T os e1 e2 off : Forall2 (obu_shows full T) os (e1 ++ e2) -> exists o1 o2, os = o1 ++ o2 /\ Forall2 (obu_shows full T) o1 e1 /\ Forall2 (obu_shows full T) o2 e2 /\
  place off os (e1 ++ e2) = place off o1 e1 ++ place (off + zlen (concat o1)) o2 e2.
Proof.
  intro H. apply Forall2_app_inv_r in H as (o1 & o2 & H1 & H2 & ->). exists o1, o2. split; [reflexivity|]. split; [exact H1|]. split; [exact H2|]. apply place_app. apply (f2_length _ _ _ H1).
Qed.
Lemma place_snd full T os evs off : Forall2 (obu_shows full T) os evs -> map snd (place off os evs) = evs.
Proof. intro H. apply place_events. apply (f2_length _ _ _ H). Qed.

Section Units.
Context (full delims : bool) (T : ptables) (D : descs) (n : Z).
Hypotheses (Hn : 0 < n) (Hsize : forall id, In id (flat_map ai_subs (d_aes D)) -> size_of T id = n)
  (Hnd : NoDup (flat_map ai_subs (d_aes D))) (Hne : flat_map ai_subs (d_aes D) <> []).
(* the state between two units: nothing seen, or all of the unit before *)
Definition between (t : Z) (es : list entry) (s : scan) : Prop :=
  (view s = (None, [], (0, 0, 0), (0, [])) /\ t = 0 /\ es = []) \/
  (exists q, sc_start s = Some q /\ Permutation (sc_seen s) (flat_map ai_subs (d_aes D)) /\ view (finalize_tu full s) = (None, [], (0, 0, 0), (t, es))).
Lemma unit_view earlier u k1 k2 k3 os off s t es : unit_ok D n earlier u -> Forall2 (obu_shows full T) os (unit_events full delims k1 k2 k3 u) -> between t es s ->
  exists e, between (t + n) (if full then es ++ [e] else es) (steps full T (place off os (unit_events full delims k1 k2 k3 u)) s) /\
    en_time e = t /\ en_samples e = n /\ off <= en_offset e < off + zlen (concat os) /\ (delims = true -> en_offset e = off) /\
    exists f r, tu_frames u = f :: r /\ en_trim_start e = trimmed_start f /\ en_trim_end e = trimmed_end f.
Proof.
  intros (_ & U2 & _ & _ & _ & _) F B. set (subs := flat_map ai_subs (d_aes D)) in *.
  destruct (tu_frames u) as [|f fr] eqn:Ef. { exfalso. cbn [map] in U2. apply Permutation_nil in U2. contradiction. }
  pose proof (place_range _ _ _ _ F off) as Rg. unfold unit_events in F, Rg |- *. rewrite Ef in F, Rg |- *.
  destruct (place_split _ _ _ _ _ off F) as (oa & ob & -> & Fa & Fb & E1). rewrite E1 in Rg |- *. clear F E1.
  set (off1 := off + zlen (concat oa)) in *.
  destruct (place_split _ _ _ _ _ off1 Fb) as (oc & od & -> & Fc & Fd & E2). rewrite E2 in Rg |- *. clear Fb E2. set (off2 := off1 + zlen (concat oc)) in *.
  destruct (place_split _ _ _ _ _ off2 Fd) as (oe & og & -> & Fe & Fg & E3). rewrite E3 in Rg |- *. clear Fd E3. set (off3 := off2 + zlen (concat oe)) in *.
  destruct (place_split _ _ _ _ _ off3 Fg) as (oh & oi & -> & Fh & Fi & E4). rewrite E4 in Rg |- *. clear Fg E4. set (off4 := off3 + zlen (concat oh)) in *.
  destruct (place_split _ _ _ _ _ off4 Fi) as (oj & ok & -> & Fj & Fk & E5). rewrite E5 in Rg |- *. clear Fi E5. set (off5 := off4 + zlen (concat oj)) in *.
  set (len := zlen (concat (oa ++ _))) in *.
  rewrite !steps_app. apply Forall_app in Rg as [Ra Rg]. apply Forall_app in Rg as [Rc Rg]. apply Forall_app in Rg as [Re Rg]. apply Forall_app in Rg as [Rh Rg]. apply Forall_app in Rg as [Rj Rk].
  pose proof (place_snd _ _ _ _ off Fa) as Sa. pose proof (place_snd _ _ _ _ off1 Fc) as Sc. pose proof (place_snd _ _ _ _ off2 Fe) as Se. pose proof (place_snd _ _ _ _ off3 Fh) as Sh. pose proof (place_snd _ _ _ _ off4 Fj) as Sj. pose proof (place_snd _ _ _ _ off5 Fk) as Sk.
  clear Fc Fe Fh Fj Fk.
  set (pa := place off oa _) in *. set (pc := place off1 oc _) in *. set (pe := place off2 oe _) in *. set (ph := place off3 oh _) in *. set (pj := place off4 oj _) in *. set (pk := place off5 ok _) in *.
  assert (pa = if delims then [(off, EDelim)] else []) as Ea. { unfold pa. destruct delims; inversion Fa as [|? ? ? ? ? Q]; subst; [inversion Q; subst|]; reflexivity. } clear Fa.
  clearbody pa pc pe ph pj pk len. subst pa.
  (* up to the first frame *)
  assert (exists st, let s1 := steps full T ph (steps full T pe (steps full T pc (steps full T (if delims then [(off, EDelim)] else []) s))) in
    ((view s1 = (st, [], (0, 0, 0), (t, es)) /\ match st with Some p => off <= p < off + len /\ (delims = true -> p = off) | None => delims = false end) \/
     (delims = false /\ view s1 = view s /\ exists q, sc_start s = Some q /\ Permutation (sc_seen s) subs /\ view (finalize_tu full s) = (None, [], (0, 0, 0), (t, es))))) as (st & Hpre).
  { cbv zeta. rewrite (view_others full T ph) by (rewrite Sh; apply forall_repeat).
    assert (Forall (fun e => is_block e = true) (map snd pe)) as Be. { rewrite Se. apply Forall_forall. intros e He. apply in_map_iff in He as (b & <- & _). reflexivity. }
    assert (forall s, view (steps full T pc s) = view s) as Vc by (apply view_others; rewrite Sc; apply forall_repeat).
    destruct delims eqn:Dl.
    - exists (Some off). left. split; [|pose proof (Forall_inv Ra) as R1; cbn [fst] in R1; auto].
      assert (view (steps full T [(off, EDelim)] s) = (Some off, [], (0, 0, 0), (t, es))) as Vd.
      { cbn [steps fold_left fst snd]. rewrite view_delim. cbv zeta. destruct B as [(V & -> & ->)|(q & _ & _ & V)].
        - assert (finalize_tu full s = s) as -> by (unfold finalize_tu; unfold view in V; replace (sc_start s) with (@None Z) by congruence; reflexivity). unfold view in V. injection V as -> -> -> -> -> -> ->. reflexivity.
        - unfold view in V. injection V as -> -> -> -> -> -> ->. reflexivity. }
      specialize (Vc (steps full T [(off, EDelim)] s)). rewrite Vd in Vc. rewrite (view_blocks full T pe Be _ off); [exact Vc|]. unfold view in Vc. congruence.
    - change (steps full T [] s) with s. specialize (Vc s). destruct B as [(V & -> & ->)|(q & Q1 & Q2 & Q3)].
      + rewrite V in Vc. unfold view in Vc. injection Vc as V1 V2 V3 V4 V5 V6 V7. destruct (view_blocks_first full T pe off (off + len) Be Re _ V1) as (st & Vb & Hst). exists st. left. rewrite Vb, V2, V3, V4, V5, V6, V7. split; [reflexivity|].
        destruct st; [split; [exact Hst|discriminate]|reflexivity].
      + exists None. right. split; [reflexivity|]. split; [|eauto]. rewrite (view_blocks full T pe Be _ q); [exact Vc|]. unfold view in Vc. congruence. }
  set (s1 := steps full T ph _) in *. cbv zeta in Hpre. clearbody s1.
  rewrite <- (map_app (@snd Z event) [] pj) in Sj || idtac.
  destruct pj as [|[p e0] pj]; [discriminate Sj|]. cbn [map snd] in Sj. injection Sj as -> Sj.
  assert (Forall (fun e => is_frame e = true /\ size_of T (ev_id e) = n) (map snd ((p, frame_event f) :: pj))) as Fz.
  { cbn [map snd]. rewrite Sj. change (frame_event f :: map frame_event fr) with (map frame_event (f :: fr)). apply Forall_forall. intros e He. apply in_map_iff in He as (x & <- & Hx). split; [reflexivity|]. apply Hsize. apply (Permutation_in _ U2). apply in_map_iff. exists x. auto. }
  assert (map ev_id (map snd ((p, frame_event f) :: pj)) = map frame_id (f :: fr)) as Ei.
  { cbn [map snd]. rewrite Sj. cbn [frame_event ev_id]. f_equal. rewrite map_map. reflexivity. }
  assert (NoDup (map ev_id (map snd ((p, frame_event f) :: pj)))) as Ni by (rewrite Ei; eapply Permutation_NoDup; [apply Permutation_sym, U2|exact Hnd]).
  inversion Rj as [|? ? Rp _]; subst. cbn [fst] in Rp.
  assert ((sc_seen s1 = [] /\ sc_num s1 = 0) \/ (In (frame_id f) (sc_seen s1) /\ sc_start s1 <> None)) as Hs1.
  { destruct Hpre as [[V _]|(_ & V & q & Q1 & Q2 & _)]; unfold view in V; [left; split; congruence|right]. assert (sc_start s1 = Some q /\ sc_seen s1 = sc_seen s) as [-> ->] by (split; congruence). split; [|discriminate].
    apply (Permutation_in _ (Permutation_sym Q2)), (Permutation_in _ U2). left. reflexivity. }
  pose proof (view_unit_frames full T n p (frame_id f) (trimmed_start f) (trimmed_end f) pj ltac:(lia) Fz Ni s1 Hs1) as Vf. cbv zeta in Vf. fold (frame_event f) in Vf.
  set (s1' := if existsb _ _ then _ else s1) in *. set (s2 := steps full T ((p, frame_event f) :: pj) s1) in *.
  assert (view (steps full T pk s2) = view s2) as Vk by (apply view_others; rewrite Sk; apply forall_repeat). set (s3 := steps full T pk s2) in *. clearbody s3. rewrite Vf, Ei in Vk. clear Vf.
  assert (sc_time s1' = t /\ sc_entries s1' = es /\ match sc_start s1' with Some x => off <= x < off + len /\ (delims = true -> x = off) | None => delims = false end) as (T1 & T2 & T3).
  { unfold s1'. destruct Hpre as [[V Hst]|(Dl & V & q & Q1 & Q2 & Q3)]; unfold view in V.
    - assert (sc_seen s1 = []) as -> by congruence. cbn [existsb]. injection V as V1 V2 V3 V4 V5 V6 V7. rewrite V6, V7, V1. split; [reflexivity|]. split; [reflexivity|exact Hst].
    - injection V as V1 V2 V3 V4 V5 V6 V7. rewrite V2. replace (existsb (Z.eqb (frame_id f)) (sc_seen s)) with true.
      2:{ symmetry. apply in_existsb. apply (Permutation_in _ (Permutation_sym Q2)), (Permutation_in _ U2). left. reflexivity. }
      assert (sc_seen s <> []) as Ns by (intro X; rewrite X in Q2; apply Permutation_nil in Q2; contradiction).
      rewrite (finalize_view full s q Q1 Ns) in Q3. assert (view (finalize_tu full s1) = (None, [], (0, 0, 0), (t, es))) as W by (rewrite (finalize_view full s1 q) by congruence; rewrite V3, V4, V5, V6, V7; exact Q3).
      unfold view in W. injection W as W1 _ _ _ _ W6 W7. rewrite W1, W6, W7. auto. }
  clearbody s1'. set (x := match sc_start s1' with Some q => q | None => p end) in *. unfold view in Vk. injection Vk as K1 K2 K3 K4 K5 K6 K7.
  exists (mkEn t n x (trimmed_start f) (trimmed_end f)). cbn [en_time en_samples en_offset en_trim_start en_trim_end]. split; [|split; [reflexivity|split; [reflexivity|split; [|split; [|exists f, fr; auto]]]]].
  - right. exists x. split; [exact K1|]. split; [rewrite K2; exact U2|]. rewrite (finalize_view full s3 x K1) by (rewrite K2; discriminate). rewrite K3, K4, K5, K6, K7, T1, T2. reflexivity.
  - unfold x. destruct (sc_start s1'); [apply T3|exact Rp].
  - intro Dl. unfold x. destruct (sc_start s1'); [apply T3; exact Dl|congruence].
Qed.
End Units.

(* ---- what the events say ---- *)
Definition evs_frames (evs : list event) : list (Z * Z * Z) := flat_map (fun e => match e with EFrame id ts te => [(id, ts, te)] | _ => [] end) evs.
Definition evs_blocks (evs : list event) : list (pdef * pblock) := flat_map (fun e => match e with EBlock _ (Some b) => [b] | _ => [] end) evs.
Lemma frames_of_snd evs : frames_of evs = evs_frames (map snd evs).
Proof. unfold frames_of, evs_frames. induction evs as [|x evs IH]; [reflexivity|]. cbn [flat_map map]. rewrite IH. reflexivity. Qed.
Lemma blocks_of_snd evs : blocks_of evs = evs_blocks (map snd evs).
Proof. unfold blocks_of, evs_blocks. induction evs as [|x evs IH]; [reflexivity|]. cbn [flat_map map]. rewrite IH. reflexivity. Qed.
Record tells (full delims : bool) (us : list tunit) (evs : list event) : Prop := mkTells {
  tl_frames : evs_frames evs = map (fun f => (frame_id f, trimmed_start f, trimmed_end f)) (flat_map tu_frames us);
  tl_blocks : evs_blocks evs = if full then map (fun b => (fst (ob_v b), stored_block (snd (ob_v b)))) (flat_map tu_blocks us) else [];
  tl_nblocks : zlen (filter is_block evs) = zlen (flat_map tu_blocks us);
  tl_delims : zlen (filter is_delim evs) = if delims then zlen us else 0;
  tl_errors : filter is_frame_error evs = [] /\ filter is_block_error evs = [];
  tl_named : Forall (fun e => match e with EBlock id (Some b) => bl_id (snd b) = id | _ => True end) evs }.
Lemma tells_app full delims us us' a b : tells full delims us a -> tells full delims us' b -> tells full delims (us ++ us') (a ++ b).
Proof.
  intros [A1 A2 A3 A4 [A5 A5'] A6] [B1 B2 B3 B4 [B5 B5'] B6]. constructor.
  - unfold evs_frames in *. rewrite !flat_map_app, map_app, A1, B1. reflexivity.
  - unfold evs_blocks in *. rewrite !flat_map_app, A2, B2. destruct full; [rewrite map_app|]; reflexivity.
  - rewrite filter_app, flat_map_app, !zlen_app. lia.
  - rewrite filter_app, !zlen_app. destruct delims; lia.
  - rewrite !filter_app, A5, A5', B5, B5'. auto.
  - apply Forall_app. auto.
Qed.
Lemma tells_unit full delims k1 k2 k3 u : tells full delims [u] (unit_events full delims k1 k2 k3 u).
Proof.
  assert (forall k, evs_frames (repeat EOther k) = [] /\ evs_blocks (repeat EOther k) = [] /\ forall p, p EOther = false -> filter p (repeat EOther k) = []) as R.
  { induction k as [|k (I1 & I2 & I3)]; [auto|]. unfold evs_frames, evs_blocks in *. cbn [repeat flat_map app filter]. split; [exact I1|]. split; [exact I2|]. intros p Hp. rewrite Hp. auto. }
  assert (forall l, evs_frames (map frame_event l) = map (fun f => (frame_id f, trimmed_start f, trimmed_end f)) l /\ evs_blocks (map frame_event l) = [] /\ forall p, (forall f, p (frame_event f) = false) -> filter p (map frame_event l) = []) as F.
  { induction l as [|f l (I1 & I2 & I3)]; [auto|]. unfold evs_frames, evs_blocks in *. cbn [map flat_map frame_event app filter]. fold (frame_event f). split; [rewrite I1; reflexivity|]. split; [exact I2|]. intros p Hp. rewrite Hp. auto. }
  assert (forall l, evs_frames (map (block_event full) l) = [] /\ evs_blocks (map (block_event full) l) = (if full then map (fun b => (fst (ob_v b), stored_block (snd (ob_v b)))) l else []) /\
    forall p c, (forall f, p (block_event full f) = c) -> zlen (filter p (map (block_event full) l)) = if c then zlen l else 0) as B.
  { induction l as [|f l (I1 & I2 & I3)]; [repeat split; try reflexivity; [destruct full; reflexivity|intros p c _; destruct c; reflexivity]|]. unfold evs_frames, evs_blocks in *. cbn [map flat_map block_event app filter]. fold (block_event full f). split; [exact I1|].
    split; [rewrite I2; destruct full; reflexivity|]. intros p c Hp. specialize (I3 p c Hp). rewrite Hp. unfold zlen in *. destruct c; cbn [length]; lia. }
  assert (forall l : list event, zlen l = 0 -> l = []) as Z0 by (intros [|? ?] Q; [reflexivity|unfold zlen in Q; cbn [length] in Q; lia]).
  unfold unit_events. destruct (R k1) as (R1 & R1' & R1''), (R k2) as (R2 & R2' & R2''), (R k3) as (R3 & R3' & R3''), (F (tu_frames u)) as (F1 & F2 & F3), (B (tu_blocks u)) as (B1 & B2 & B3).
  assert (evs_frames (if delims then [EDelim] else []) = [] /\ evs_blocks (if delims then [EDelim] else []) = []) as [G1 G2] by (destruct delims; split; reflexivity).
  constructor; cbn [flat_map]; rewrite ?app_nil_r.
  - unfold evs_frames in *. rewrite !flat_map_app, G1, R1, R2, R3, F1, B1. cbn [app]. rewrite app_nil_r. reflexivity.
  - unfold evs_blocks in *. rewrite !flat_map_app, G2, R1', R2', R3', F2, B2. cbn [app]. rewrite app_nil_r. reflexivity.
  - rewrite !filter_app, !zlen_app, (R1'' is_block eq_refl), (R2'' is_block eq_refl), (R3'' is_block eq_refl), (F3 is_block ltac:(reflexivity)), (B3 is_block true ltac:(reflexivity)). change (@zlen event []) with 0. destruct delims; cbn [filter is_block]; change (@zlen event []) with 0; lia.
  - rewrite !filter_app, !zlen_app, (R1'' is_delim eq_refl), (R2'' is_delim eq_refl), (R3'' is_delim eq_refl), (F3 is_delim ltac:(reflexivity)), (B3 is_delim false ltac:(reflexivity)). change (@zlen event []) with 0. destruct delims; reflexivity.
  - split; rewrite !filter_app.
    + rewrite (R1'' is_frame_error eq_refl), (R2'' is_frame_error eq_refl), (R3'' is_frame_error eq_refl), (F3 is_frame_error ltac:(reflexivity)), (Z0 _ (B3 is_frame_error false ltac:(reflexivity))). destruct delims; reflexivity.
    + rewrite (R1'' is_block_error eq_refl), (R2'' is_block_error eq_refl), (R3'' is_block_error eq_refl), (F3 is_block_error ltac:(reflexivity)), (Z0 _ (B3 is_block_error false ltac:(reflexivity))). destruct delims; reflexivity.
  - rewrite !Forall_app, !Forall_forall. assert (forall k e, In e (repeat EOther k) -> match e with EBlock id (Some b) => bl_id (snd b) = id | _ => True end) as Rp by (intros k e He; apply repeat_spec in He; subst e; exact I).
    split; [destruct delims; intros e He; [destruct He as [<- |[]]; exact I|destruct He]|]. split; [apply Rp|]. split; [|split; [apply Rp|split; [|apply Rp]]].
    + intros e He. apply in_map_iff in He as (b & <- & _). unfold block_event. destruct full; [reflexivity|exact I].
    + intros e He. apply in_map_iff in He as (b & <- & _). exact I.
Qed.

(* ---- all units ---- *)
Lemma units_view full delims T D n g : 0 < n -> (forall id, In id (flat_map ai_subs (d_aes D)) -> size_of T id = n) -> NoDup (flat_map ai_subs (d_aes D)) -> flat_map ai_subs (d_aes D) <> [] ->
  lebgen_wf g -> pt_defs T = d_defs D -> forall us bs, Forall2 (fun u b => wbits (write_unit g delims u) = Ok (bytes_bits b) /\ Forall byteP b) us bs -> Forall undelimited us ->
  forall earlier, (forall e u l, us = e ++ u :: l -> unit_ok D n (earlier ++ e) u) ->
  exists os evs, concat os = concat bs /\ Forall2 (obu_shows full T) os evs /\ tells full delims us evs /\
    forall off s i es, between full D (i * n) es s -> exists es', between full D ((i + zlen us) * n) (if full then es ++ es' else es) (steps full T (place off os evs) s) /\ index_of n delims i off us bs es'.
Proof.
  intros Hn Hs Hnd Hne Hg ED us bs W Un. induction W as [|u b us bs [E Fb] W IH]; intros earlier P.
  { exists [], []. split; [reflexivity|]. split; [constructor|]. split; [constructor; try reflexivity; [destruct full; reflexivity|destruct delims; reflexivity|split; reflexivity|constructor]|].
    intros off s i es B. exists []. split; [|exact I]. change (zlen []) with 0. rewrite Z.add_0_r, app_nil_r. destruct full; exact B. }
  inversion Un as [|? ? Un1 Un2]; subst. pose proof (P [] u us eq_refl) as Hu. rewrite app_nil_r in Hu.
  destruct (unit_shows full T D n g delims earlier u _ Hg ED Hu Un1 E) as (k1 & k2 & k3 & os1 & Eo & F1).
  assert (concat os1 = b) as Eb. { apply bytes_bits_inj; [|exact Fb|exact Eo]. clear -F1. induction F1 as [|o e os evs [Io _] _ IH]; [constructor|]. cbn [concat]. apply Forall_app. split; [apply obu_bytes; exact Io|exact IH]. }
  destruct (IH Un2 (earlier ++ [u])) as (os2 & evs2 & Ec & F2 & T2 & V2). { intros e u' l Q. rewrite <- app_assoc. apply (P (u :: e) u' l). rewrite Q. reflexivity. }
  exists (os1 ++ os2), (unit_events full delims k1 k2 k3 u ++ evs2). split; [rewrite concat_app, Ec, Eb; reflexivity|]. split; [apply Forall2_app; assumption|].
  split; [apply (tells_app full delims [u] us); [apply tells_unit|exact T2]|].
  intros off s i es B. rewrite place_app by (apply (f2_length _ _ _ F1)). rewrite steps_app.
  destruct (unit_view full delims T D n Hn Hs Hnd Hne earlier u k1 k2 k3 os1 off s (i * n) es Hu F1 B) as (e & B1 & X1 & X2 & X3 & X4 & X5).
  replace (i * n + n) with ((i + 1) * n) in B1 by lia. destruct (V2 (off + zlen (concat os1)) _ (i + 1) _ B1) as (es' & B2 & I2). exists (e :: es'). split.
  - replace (i + zlen (u :: us)) with (i + 1 + zlen us) by (unfold zlen; cbn [length]; lia). destruct full; [|exact B2]. rewrite <- app_assoc in B2. exact B2.
  - cbn [index_of]. rewrite Eb in *. split; [|exact I2]. split; [exact X1|]. split; [exact X2|]. split; [exact X3|]. auto.
Qed.

(* ---- the details of units ---- *)
Definition details_of (us : list tunit) : list blockrep := flat_map (fun u => map (detail_of u) (tu_blocks u)) us.
Lemma timed_unique l : forall l', timed l -> timed l' -> map (fun b => (br_def b, br_block b)) l = map (fun b => (br_def b, br_block b)) l' -> l = l'.
Proof.
  induction l as [|x l IH] using rev_ind; intros l' T1 T2 E. { destruct l'; [reflexivity|discriminate E]. }
  destruct (@exists_last _ l') as (m & y & ->). { intros ->. rewrite map_app in E. cbn [map] in E. destruct (map _ l); discriminate E. }
  rewrite !map_app in E. cbn [map] in E. apply app_inj_tail in E as [E1 E2].
  assert (l = m) as <-. { apply IH; [| |exact E1]; intros b1 b b2 Q; [apply (T1 b1 b (b2 ++ [x]))|apply (T2 b1 b (b2 ++ [y]))]; rewrite Q, <- app_assoc; reflexivity. }
  destruct (T1 l x [] eq_refl) as (P1 & P2 & P3). destruct (T2 l y [] eq_refl) as (Q1 & Q2 & Q3). destruct x as [x1 x2 x3 x4 x5], y as [y1 y2 y3 y4 y5]. cbn [br_type br_start br_end br_def br_block] in *. injection E2 as <- <-. congruence.
Qed.
Lemma lasted_total id l : lasted id l = total (map (fun b => if bl_id (br_block b) =? id then block_duration (br_def b) (br_block b) else 0) l).
Proof. reflexivity. Qed.
Lemma lasted_details id us : lasted id (details_of us) = lasting id us.
Proof.
  rewrite lasted_total. unfold details_of, lasting. induction us as [|u us IH]; [reflexivity|]. cbn [flat_map]. rewrite map_app, total_app, IH, map_app.
  assert (forall a b, sum (a ++ b) = sum a + sum b) as Sa.
  { intros a b. induction a as [|x a IHa]; [reflexivity|]. cbn [app sum fold_right] in *. fold (sum (a ++ b)). fold (sum a). lia. }
  rewrite Sa. f_equal. rewrite map_map. cbn [detail_of br_block br_def bl_id stored_block]. unfold total. induction (tu_blocks u) as [|b l IHl]; [reflexivity|]. cbn [map fold_right sum]. rewrite IHl. reflexivity.
Qed.
Lemma timed_details D n us : playable D n us -> timed (details_of us).
Proof.
  induction us as [|u us IH] using rev_ind; intro P. { intros b1 b b2 Q. destruct b1; discriminate Q. }
  assert (timed (details_of us)) as H. { apply IH. intros e x l Q. apply (P e x (l ++ [u])). rewrite Q, <- app_assoc. reflexivity. }
  pose proof (P us u [] eq_refl) as (_ & _ & _ & U4 & U5 & _). unfold details_of in *. rewrite flat_map_app. cbn [flat_map]. rewrite app_nil_r. fold (details_of us) in *.
  assert (forall bl, incl bl (tu_blocks u) -> NoDup (map block_id bl) -> timed (details_of us ++ map (detail_of u) bl)) as G; [|apply G; [apply incl_refl|exact U4]]. clear IH.
  induction bl as [|b bl IHb] using rev_ind; intros Hi N; [cbn [map]; rewrite app_nil_r; exact H|]. rewrite map_app. cbn [map]. rewrite app_assoc. rewrite map_app in N. cbn [map] in N. apply NoDup_remove in N as [N1 N2]. rewrite app_nil_r in N1, N2.
  apply timed_snoc; [apply IHb; [intros x Hx; apply Hi, in_or_app; left; exact Hx|exact N1]| |reflexivity|reflexivity].
  cbn [detail_of br_start br_block]. change (bl_id (stored_block (snd (ob_v b)))) with (block_id b). rewrite lasted_total, map_app, total_app, <- lasted_total, lasted_details.
  rewrite Forall_forall in U5. assert (In b (tu_blocks u)) as Ib by (apply Hi, in_or_app; right; left; reflexivity). destruct (U5 b Ib) as (_ & (_ & _ & _ & _ & L) & _). fold (block_id b) in L.
  rewrite L. enough (total (map (fun b0 => if bl_id (br_block b0) =? block_id b then block_duration (br_def b0) (br_block b0) else 0) (map (detail_of u) bl)) = 0) by lia. clear -N2.
  induction bl as [|x bl IH]; [reflexivity|]. cbn [map total fold_right detail_of br_block br_def]. change (bl_id (stored_block (snd (ob_v x)))) with (block_id x). replace (block_id x =? block_id b) with false.
  2:{ symmetry. apply Z.eqb_neq. intro Q. apply N2. left. exact Q. } cbn [Z.add]. apply IH. intro Q. apply N2. right. exact Q.
Qed.

(* ---- what follows ---- *)
Lemma follows_look full T rest r : follows rest r -> look full T rest = VStop r.
Proof.
  intros [[-> ->]|[(g & h & payload & footer & bits & o & more & Hg & Hh & Hp & Hf & Ht & Hr & E & Eo & Fo & -> & ->)|(o & missing & Io & -> & Nr & Nm & ->)]].
  - reflexivity.
  - destruct (look_written full T g h payload footer bits Hg Hh Hp Hf E) as (o' & pb & n & Eo' & Io & _ & _ & _ & _ & L).
    assert (o = o') as -> by (apply bytes_bits_inj; [exact Fo|apply obu_bytes; exact Io|congruence]). rewrite L, Ht, Hr. reflexivity.
  - destruct (obu_fill _ [] Io) as (t & x & E). rewrite app_nil_r, bytes_bits_app in E. pose proof (prun_ext fill_header_metadata (bytes_bits rest) (bytes_bits missing)) as X. unfold look.
    destruct (prun fill_header_metadata (bytes_bits rest)) as [|er|[t' tot] y].
    + destruct rest; [contradiction|]. unfold zlen. cbn [length]. replace (_ =? 0) with false by lia. reflexivity.
    + rewrite E in X. discriminate X.
    + rewrite E in X. injection X as <- <- _. destruct missing; [contradiction|]. unfold zlen. rewrite app_length. cbn [length]. replace (_ <? _) with true by lia. reflexivity.
Qed.
Lemma occurs_units (subs : list Z) us id : NoDup subs -> Forall (fun u => Permutation (map frame_id (tu_frames u)) subs) us ->
  occurs id (map (fun f => (frame_id f, trimmed_start f, trimmed_end f)) (flat_map tu_frames us)) = if existsb (Z.eqb id) subs then zlen us else 0.
Proof.
  intros Hn H. induction H as [|u us Hu _ IH]. { destruct (existsb _ _); reflexivity. }
  cbn [flat_map]. rewrite map_app, occurs_app, IH. clear IH.
  assert (occurs id (map (fun f => (frame_id f, trimmed_start f, trimmed_end f)) (tu_frames u)) = zlen (filter (Z.eqb id) (map frame_id (tu_frames u)))) as ->.
  { unfold occurs, zlen. clear. induction (tu_frames u) as [|f l IH]; [reflexivity|]. cbn [map filter fid fst]. rewrite (Z.eqb_sym (frame_id f) id). destruct (id =? frame_id f); cbn [length]; lia. }
  assert (zlen (filter (Z.eqb id) (map frame_id (tu_frames u))) = zlen (filter (Z.eqb id) subs)) as ->.
  { clear Hn. unfold zlen. induction Hu as [|x l l' _ IH|x y l|l l' l'' _ IH1 _ IH2]; cbn [filter]; [reflexivity| | |lia].
    - destruct (id =? x); cbn [length]; lia.
    - destruct (id =? x), (id =? y); reflexivity. }
  assert (zlen (filter (Z.eqb id) subs) = if existsb (Z.eqb id) subs then 1 else 0) as ->.
  { clear -Hn. induction Hn as [|x l Nx _ IH]; [reflexivity|]. cbn [filter existsb]. destruct (id =? x) eqn:Q; cbn [orb].
    - apply Z.eqb_eq in Q. subst x. replace (existsb (Z.eqb id) l) with false in IH. { unfold zlen in *. cbn [length]. lia. }
      symmetry. destruct (existsb (Z.eqb id) l) eqn:Y; [|reflexivity]. apply in_existsb in Y. contradiction.
    - exact IH. }
  unfold zlen. cbn [length]. destruct (existsb _ _); lia.
Qed.

(* ================= C66 ================= *)
(* Units as an encoder makes them (C57), with or without temporal delimiters before them, after any bytes of descriptors, and followed by
   the end of the data, another IA sequence, or a part of an OBU: the report is exact, in both modes. *)
Theorem C66_units : forall fuel cap full budget T go before D n g delims us bs rest r,
  (8 <= fuel)%nat -> (1 <= cap)%nat -> Forall byteP (before ++ concat bs ++ rest) -> zlen (concat bs ++ rest) < 2^32 - 64 ->
  zlen (concat bs) < 2 * Z.of_nat budget -> (forall i o d, go i o d = true) ->
  let subs := flat_map ai_subs (d_aes D) in NoDup subs -> subs <> [] -> 0 < n -> (forall id, In id subs -> size_of T id = n) -> pt_defs T = d_defs D ->
  lebgen_wf g -> playable D n us -> Forall undelimited us -> written_units g delims us bs -> follows rest r ->
  exists rep, probe_scan fuel cap full budget T go before (concat bs ++ rest) = Ok (rep, 8 * (zlen before + zlen (concat bs))) /\
    rp_stop rep = r /\ rp_bytes rep = zlen (concat bs) /\ rp_units rep = zlen us /\ rp_frames rep = zlen us * zlen subs /\
    rp_blocks rep = zlen (flat_map tu_blocks us) /\ rp_delims rep = (if delims then zlen us else 0) /\ rp_frame_errors rep = 0 /\ rp_block_errors rep = 0 /\
    sorted_ids (rp_subs rep) /\ (forall id x, In (id, x) (rp_subs rep) <-> us <> [] /\ In id subs /\ x = mkSu (codec_id T id) (zlen us) (zlen us * n)) /\
    rp_total rep = match us with [] => None | _ => Some (zlen us * n) end /\
    (if full then index_of n delims 0 0 us bs (rp_entries rep) /\ rp_details rep = flat_map (fun u => map (detail_of u) (tu_blocks u)) us
     else rp_entries rep = [] /\ rp_details rep = []).
Proof.
  intros fuel cap full budget T go before D n g delims us bs rest r Hf Hc Hb Hl Hbu Hgo subs Nd Ne Hn Hsz ED Hg P Un W Fo.
  assert (Forall (fun u => Permutation (map frame_id (tu_frames u)) subs) us) as Pm. { apply Forall_forall. intros u Hu. apply in_split in Hu as (l1 & l2 & Hu). exact (proj1 (proj2 (P l1 u l2 Hu))). }
  assert (Forall2 (fun u b => wbits (write_unit g delims u) = Ok (bytes_bits b) /\ Forall byteP b) us bs) as W2.
  { assert (forall u, In u us -> Forall winstr_wf (write_unit g delims u)) as Wf. { intros u Hu. apply in_split in Hu as (l1 & l2 & Hu). eapply write_unit_wf; [exact Hg|exact (P l1 u l2 Hu)]. }
    clear -W Wf. induction W as [|u b us bs E _ IH]; constructor; [apply aligned_bits; [apply Wf; left; reflexivity|exact E]|apply IH; intros x Hx; apply Wf; right; exact Hx]. }
  destruct (units_view full delims T D n g Hn Hsz Nd Ne Hg ED us bs W2 Un [] P) as (os & evs & Ec & F & [L1 L2 L3 L4 [L5 L6] L7] & V).
  assert (2 * zlen os <= zlen (concat os)) as Lo. { clear -F. induction F as [|o e os evs [Io _] _ IH]; [reflexivity|]. cbn [concat]. rewrite zlen_app. pose proof (obu_len _ Io). unfold zlen in *. cbn [length]. lia. }
  destruct (scan_walked fuel cap full budget T go before (concat bs ++ rest) Hf Hc Hb Hl) as (q & E & Eq). unfold probe_scan. rewrite E. clear E. unfold walked in *. rewrite <- Ec in *.
  destruct (walk_shows full T go os evs F Hgo budget 1 0 sc_empty rest) as (i' & Ew). { unfold zlen in *. lia. }
  rewrite Ew in Eq |- *. clear Ew. destruct (budget - length os)%nat as [|k] eqn:Ek; [unfold zlen in *; lia|]. cbn [walk] in Eq |- *. rewrite Hgo, (follows_look full T rest r Fo) in *. cbn [negb] in Eq |- *. rewrite Z.add_0_l in *.
  set (s := steps full T (place 0 os evs) sc_empty) in *. pose proof (place_snd _ _ _ _ 0 F) as Sn.
  pose proof (steps_counters full T (place 0 os evs) sc_empty) as (A1 & A2 & A3 & A4). cbv zeta in A1, A2, A3, A4. fold s in A1, A2, A3, A4. unfold hits in A1, A2, A3, A4. rewrite Sn in A1, A2, A3, A4. rewrite L3 in A1. rewrite L4 in A2. rewrite L5 in A3. rewrite L6 in A4.
  cbn [sc_empty sc_blocks sc_delims sc_frame_errors sc_block_errors] in A1, A2, A3, A4. change (@zlen event []) with 0 in A3, A4.
  pose proof (counts_finalize full _ _ _ (counts_steps full T (place 0 os evs) _ _ (counts_empty T))) as [C0 C1 C2 _]. fold s in C0, C1, C2. cbn [app] in C0, C2. rewrite frames_of_snd, Sn, L1 in C0, C2.
  assert (forall id, occurs id (map (fun f => (frame_id f, trimmed_start f, trimmed_end f)) (flat_map tu_frames us)) = if existsb (Z.eqb id) subs then zlen us else 0) as Oc by (intro id; apply occurs_units; assumption).
  pose proof (others_finalize full s) as O. unfold others in O. injection O as O1 O2 O3 O4 _ O6.
  destruct (V 0 sc_empty 0 []) as (es' & B & Ix). { left. repeat split. } rewrite Z.add_0_l in B. fold s in B. cbn [app] in B.
  assert (sc_entries (finalize_tu full s) = if full then es' else []) as Ee.
  { destruct B as [(Q1 & Q2 & Q3)|(x & Q1 & Q2 & Q3)].
    - assert (finalize_tu full s = s) as -> by (unfold finalize_tu; unfold view in Q1; replace (sc_start s) with (@None Z) by congruence; reflexivity). unfold view in Q1. rewrite Q3. congruence.
    - unfold view in Q3. congruence. }
  assert (zlen (flat_map tu_frames us) = zlen us * zlen subs) as Nf.
  { clear -Pm. induction Pm as [|u us Hu _ IH]; [reflexivity|]. cbn [flat_map]. rewrite zlen_app, IH. apply Permutation_length in Hu. rewrite map_length in Hu. unfold zlen in *. cbn [length]. lia. }
  exists (conclude full r s (zlen (concat os))). cbn [conclude rp_bytes] in Eq. subst q. split; [do 2 f_equal; lia|].
  cbn [conclude rp_stop rp_bytes rp_units rp_frames rp_blocks rp_delims rp_frame_errors rp_block_errors rp_subs rp_details rp_entries rp_total].
  rewrite O1, O2, O3, O4, O6, A1, A2, A3, A4, C0. set (fs := map (fun f => (frame_id f, trimmed_start f, trimmed_end f)) (flat_map tu_frames us)) in *.
  assert (zlen fs = zlen us * zlen subs) as Nz by (rewrite <- Nf; unfold fs, zlen; rewrite map_length; reflexivity).
  set (sm := sc_subs (finalize_tu full s)) in *. destruct (sort_spec _ C1) as [So Mo].
  assert (forall id x, In (id, x) sm <-> us <> [] /\ In id subs /\ x = mkSu (codec_id T id) (zlen us) (zlen us * n)) as Sm.
  { intros id x. rewrite <- (find_in _ _ _ C1). rewrite C2, Oc. destruct us as [|u us'].
    - destruct (existsb _ _); cbn [zlen length Z.of_nat Z.eqb]; (split; [discriminate|intros [Q _]; contradiction]).
    - assert (0 < zlen (u :: us')) as Pz by (unfold zlen; cbn [length]; lia). destruct (existsb (Z.eqb id) subs) eqn:Q.
      + replace (zlen (u :: us') =? 0) with false by lia. pose proof (proj1 (in_existsb id subs) Q) as Is. rewrite (Hsz id Is). split; [intro X; injection X as <-; split; [discriminate|auto]|intros (_ & _ & ->); reflexivity].
      + cbn [Z.eqb]. split; [discriminate|]. intros (_ & X & _). apply in_existsb in X. congruence. }
  assert (forall (f : Z * summary -> Z) m, 0 <= m -> (forall x, In x sm -> f x = m) -> (us = [] -> m = 0) -> maximum (map f sm) = m) as Mx.
  { intros f m Hm Hx H0. pose proof (maximum_nonneg (map f sm)). assert (maximum (map f sm) <= m). { apply maximum_le; [exact Hm|]. intros y Hy. apply in_map_iff in Hy as (x & <- & X). rewrite (Hx x X). lia. }
    destruct us as [|u us']; [rewrite H0 in * by reflexivity; lia|]. destruct subs as [|i0 subs'] eqn:Es; [contradiction|].
    assert (In (i0, mkSu (codec_id T i0) (zlen (u :: us')) (zlen (u :: us') * n)) sm) as I0 by (apply Sm; split; [discriminate|]; split; [left; reflexivity|reflexivity]).
    assert (m <= maximum (map f sm)); [|lia]. rewrite <- (Hx _ I0). apply maximum_ge. apply in_map. exact I0. }
  pose proof (zlen_nonneg us) as Zu.
  assert (maximum (map (fun x => su_frames (snd x)) sm) = zlen us) as M1. { apply Mx; [exact Zu| |intros ->; reflexivity]. intros [id x] X. apply Sm in X as (_ & _ & ->). reflexivity. }
  assert (maximum (map (fun x => su_samples (snd x)) sm) = zlen us * n) as M2. { apply Mx; [nia| |intros ->; reflexivity]. intros [id x] X. apply Sm in X as (_ & _ & ->). reflexivity. }
  rewrite M1, M2. split; [reflexivity|]. split; [reflexivity|]. split; [destruct delims; lia|]. split; [exact Nz|]. split; [lia|]. split; [destruct delims; lia|]. split; [reflexivity|]. split; [reflexivity|].
  split; [exact So|]. split; [intros id x; rewrite Mo; apply Sm|]. split.
  { destruct us as [|u us']; [reflexivity|]. assert (0 < zlen (u :: us') * n) as Q by (unfold zlen; cbn [length]; nia). replace (zlen (u :: us') * n >? 0) with true by lia. reflexivity. }
  assert (named (place 0 os evs)) as Nm. { unfold named. rewrite <- Sn in L7. clear -L7. induction (place 0 os evs) as [|x l IH]; [constructor|]. cbn [map] in L7. inversion L7; subst. constructor; auto. }
  destruct (steps_blocks full T (place 0 os evs) sc_empty Nm) as (H1 & _ & H3). { intros b1 b b2 Q. destruct b1; discriminate Q. } { reflexivity. }
  cbv zeta in H1, H3. fold s in H1, H3. rewrite blocks_of_snd, Sn, L2 in H3. cbn [sc_empty sc_details map app] in H3. destruct full.
  - split; [rewrite Ee; exact Ix|]. fold (details_of us). apply timed_unique; [exact H1|eapply timed_details; exact P|]. rewrite H3. unfold details_of. clear.
    induction us as [|u us IH]; [reflexivity|]. cbn [flat_map]. rewrite !map_app, IH. f_equal. rewrite map_map. reflexivity.
  - split; [exact Ee|]. destruct (sc_details s); [reflexivity|discriminate H3].
Qed.
