(* C31 (every rendered unit is delivered once, in order) and C32 (life cycle of the decoder). *)
From Coq Require Import Reals.
From Flocq Require Import Core BinarySingleNaN.
From Verif Require Import Base ReadBuf BitFacts ReadBufFacts Processor Session MixPresentation Reorder Pcm PropsPcm PropsLoss DecoderApi ParseFacts.
Local Open Scope Z_scope.

(* ================= SPEC ================= *)
(* The PCM bytes of a rendered frame: interleaved little-endian samples (frame_bytes, pcm_value: PropsPcm.v). *)
Definition out_bytes (ty : sample_type) (f : frame) : list Z :=
  frame_bytes (bytes_per_sample ty) false pcm_value (B754_zero false : double) f (ticks_of f).
Definition byte_size (ty : sample_type) (f : frame) : Z := zlen f * ticks_of f * bytes_per_sample ty.
(* A frame as a renderer should produce it: equally long channels of finite samples. *)
Definition good_frame (f : frame) : Prop := same_ticks f (ticks_of f) /\ Forall (Forall finite) f.
(* Frames with channels; a unit without audio renders to no channels and there is nothing to deliver. *)
Definition some_channels (f : frame) : bool := match f with [] => false | _ => true end.

Section Spec.
Context {M R : Type}.
Definition is_reset (c : call M) : bool := match c with CReset | CResetMix _ => true | _ => false end.
Definition no_crash (rs : list reply) : Prop := Forall (fun r => crashed (r_status r) = false) rs.
(* What each GetOutputTemporalUnit call returned that was made while IsTemporalUnitAvailable. *)
Fixpoint deliveries (fuel k : nat) (e : env M R) (cs : list (call M)) (d : dstate M R) : list (list Z) :=
  match cs with
  | [] => []
  | c :: rest =>
      let '(r, d1) := step fuel k e c d in
      (match c with CGet _ => if available d then [r_bytes r] else [] | _ => [] end) ++
      (if crashed (r_status r) then [] else deliveries fuel k e rest d1)
  end.
Definition rendered (rs : list reply) : list frame := filter some_channels (flat_map r_rendered rs).
(* The caller's buffers are large enough for frames of [n] bytes. *)
Definition large_buffers (n : Z) (cs : list (call M)) : Prop :=
  Forall (fun c => match c with CGet span => n <= zlen span < 2^64 | _ => True end) cs.
End Spec.

(* ================= facts about one call ================= *)
(* Everything but buffers, processor state, and the pending frame. *)
Definition kept {M R} (d d1 : dstate M R) : Prop :=
  ds_type d1 = ds_type d /\ ds_fromd d1 = ds_fromd d /\ ds_desc d1 = ds_desc d /\ ds_mix d1 = ds_mix d /\ ds_scheme d1 = ds_scheme d /\
  ds_req d1 = ds_req d /\ ds_gen d1 = ds_gen d /\ option_map p_rate (ds_proc d1) = option_map p_rate (ds_proc d) /\
  option_map p_size (ds_proc d1) = option_map p_size (ds_proc d) /\ option_map p_gen (ds_proc d1) = option_map p_gen (ds_proc d) /\
  option_map p_D (ds_proc d1) = option_map p_D (ds_proc d).
Lemma kept_refl {M R} (d : dstate M R) : kept d d.
Proof. unfold kept. tauto. Qed.
Lemma kept_trans {M R} (a b c : dstate M R) : kept a b -> kept b c -> kept a c.
Proof. unfold kept. intros. intuition congruence. Qed.
Ltac kept_tac := unfold kept; cbn; intuition congruence.

Section Facts.
Context {M R : Type} (fuel k : nat) (e : env M R).
Notation st := (dstate M R).

Lemma decode_one_kept eos (d : st) r d1 fs : decode_one fuel k e eos d = (r, d1, fs) ->
  kept d d1 /\ ds_ended d1 = ds_ended d /\ ds_reord d1 = ds_reord d.
Proof.
  unfold decode_one. destruct (ds_proc d) as [p|] eqn:Ep.
  2:{ intro H; injection H as <- <- <-. split; [apply kept_refl|auto]. }
  destruct (negb _). { intro H; injection H as <- <- <-. split; [apply kept_refl|auto]. }
  assert (forall s1 u1 r1 b1 (d0 : st), kept d d0 -> ds_proc d0 = ds_proc d ->
    kept d (set_proc (set_buf d0 b1) (Some (mkP (p_D p) s1 u1 r1 (p_rate p) (p_size p) (p_gen p))))) as K.
  { intros s1 u1 r1 b1 d0 H Hp. unfold kept in *. cbn. rewrite Ep. cbn. intuition congruence. }
  assert (forall s1 u1 r1 b1 f, kept d (set_frame (set_proc (set_buf d b1) (Some (mkP (p_D p) s1 u1 r1 (p_rate p) (p_size p) (p_gen p)))) f)) as K2.
  { intros. unfold kept. cbn. rewrite Ep. cbn. intuition congruence. }
  assert (forall s1 u1 r1 b1 f b2, kept d (set_buf (set_frame (set_proc (set_buf d b1) (Some (mkP (p_D p) s1 u1 r1 (p_rate p) (p_size p) (p_gen p)))) f) b2)) as K3.
  { intros. unfold kept. cbn. rewrite Ep. cbn. intuition congruence. }
  assert (forall s1 u1 r1 b1 b2, kept d (set_buf (set_proc (set_buf d b1) (Some (mkP (p_D p) s1 u1 r1 (p_rate p) (p_size p) (p_gen p)))) b2)) as K4.
  { intros. unfold kept. cbn. rewrite Ep. cbn. intuition congruence. }
  destruct (process_unit _ _ _ _ _ _ _) as [[[x s1] u1] b1].
  destruct x as [[out cont]| | | |]; try (intro H; injection H as <- <- <-; split; [apply K; [apply kept_refl|reflexivity]|auto]).
  destruct out as [ou|].
  - destruct (render_unit e (p_R p) ou (ds_frame d)) as [[x old] r1].
    destruct x as [f| | | |]; try (intro H; injection H as <- <- <-; split; [apply K2|auto]).
    destruct (match ds_reord d with Some (sch, ss) => reorder sch ss f | None => Ok f end) as [f'| | | |];
      try (intro H; injection H as <- <- <-; split; [apply K2|auto]).
    cbn [ds_buf set_frame set_proc set_buf]. destruct (r_flush b1) as [[?| | | |] b2]; intro H; injection H as <- <- <-; (split; [apply K3|auto]).
  - cbn [ds_buf set_frame set_proc set_buf]. destruct (r_flush b1) as [[?| | | |] b2]; intro H; injection H as <- <- <-; (split; [apply K4|auto]).
Qed.
Lemma decode_one_frame eos (d : st) r d1 fs : decode_one fuel k e eos d = (r, d1, fs) -> crashed r = false ->
  (exists f, fs = [f] /\ ds_frame d1 = f) \/
  (fs = [] /\ (ds_frame d = [] -> ds_frame d1 = []) /\ (r = Ok tt -> ds_frame d1 = ds_frame d)).
Proof.
  unfold decode_one. destruct (ds_proc d) as [p|] eqn:Ep.
  2:{ intro H; injection H as <- <- <-. intros _. right. auto. }
  destruct (negb _). { intro H; injection H as <- <- <-. discriminate. }
  destruct (process_unit _ _ _ _ _ _ _) as [[[x s1] u1] b1].
  destruct x as [[out cont]| | | |]; try (intro H; injection H as <- <- <-; intros _; right; cbn; auto).
  destruct out as [ou|].
  - destruct (render_unit e (p_R p) ou (ds_frame d)) as [[x old] r1] eqn:Er.
    destruct x as [f| | | |]; try (intro H; injection H as <- <- <-; discriminate).
    + destruct (match ds_reord d with Some (sch, ss) => reorder sch ss f | None => Ok f end) as [f'| | | |];
        try (intro H; injection H as <- <- <-; discriminate).
      cbn [ds_buf set_frame set_proc set_buf]. destruct (r_flush b1) as [[?| | | |] b2]; intro H; injection H as <- <- <-; intros _; left; eexists; split; reflexivity.
    + intro H; injection H as <- <- <-. intros _. right. split; [reflexivity|]. split; [|discriminate]. cbn. intro E.
      unfold render_unit in Er. destruct (un_frames ou); [congruence|]. destruct (e_render e (p_R p) ou (ds_frame d)) as [[? ?] ?].
      rewrite E in Er. congruence.
  - cbn [ds_buf set_frame set_proc set_buf]. destruct (r_flush b1) as [[?| | | |] b2]; intro H; injection H as <- <- <-; intros _; right; cbn; auto.
Qed.

(* What creating the processor leaves alone. *)
Lemma create_processor_kept (d : st) r d1 : create_processor fuel e d = (r, d1) ->
  ds_type d1 = ds_type d /\ ds_fromd d1 = ds_fromd d /\ ds_scheme d1 = ds_scheme d /\ ds_req d1 = ds_req d /\ ds_gen d1 = ds_gen d /\
  ds_ended d1 = ds_ended d /\ ds_reord d1 = ds_reord d /\ ds_frame d1 = ds_frame d /\
  (r = Ok tt -> exists p, ds_proc d1 = Some p /\ p_gen p = ds_gen d /\ exists m, ds_mix d1 = Some m) /\
  (r <> Ok tt -> ds_proc d1 = ds_proc d).
Proof.
  unfold create_processor. destruct (crun _ _ _) as [[[[np bytes]| | | |]| | | |] b1]; cbn [crash];
    try (intro H; injection H as <- <-; cbn; repeat (split; [reflexivity|]); split; [discriminate|reflexivity]).
  destruct (r_flush b1) as [[?| | | |] b2]; cbn [crash];
    try (intro H; injection H as <- <-; cbn; repeat (split; [reflexivity|]); split; [discriminate|reflexivity]).
  destruct (np_mix np) as [m| | | |]; cbn [crash];
    try (intro H; injection H as <- <-; cbn; repeat (split; [reflexivity|]); split; [discriminate|reflexivity]).
  destruct (np_layout np) as [l| | | |]; cbn [crash];
    try (intro H; injection H as <- <-; cbn; repeat (split; [reflexivity|]); split; [discriminate|reflexivity]).
  intro H; injection H as <- <-; cbn; repeat (split; [reflexivity|]). split; [intros _|intro H; contradiction H; reflexivity].
  eexists. split; [reflexivity|]. split; [reflexivity|]. eexists. reflexivity.
Qed.

Definition same_settings (d d1 : st) : Prop := ds_type d1 = ds_type d /\ ds_fromd d1 = ds_fromd d /\ ds_scheme d1 = ds_scheme d /\ ds_req d1 = ds_req d.
Lemma step_settings c (d : st) r d1 : is_reset c = false -> step fuel k e c d = (r, d1) -> same_settings d d1.
Proof.
  unfold same_settings. destruct c as [bytes|span| | |m]; try discriminate; intros _; cbn [step].
  - unfold decode. destruct (ds_ended d); [intro H; injection H as <- <-; tauto|].
    destruct (r_push bytes (ds_buf d)) as [[?| | | |] b1]; try (intro H; injection H as <- <-; cbn; tauto).
    destruct (ds_proc (set_buf d b1)).
    + destruct (ds_frame _); [|intro H; injection H as <- <-; cbn; tauto].
      destruct (decode_one _ _ _ _ _) as [[x d2] fs] eqn:E. apply decode_one_kept in E as (E & _). intro H; injection H as <- <-.
      unfold kept in E. cbn in E. tauto.
    + destruct (create_processor _ _ _) as [x d2] eqn:E. apply create_processor_kept in E. cbn in E. intro H; injection H as <- <-. tauto.
  - unfold get_unit. destruct (ds_frame d); [intro H; injection H as <- <-; tauto|].
    destruct (write_frame_to_span _ _ _ _) as [[x sp] w].
    destruct x; try (intro H; injection H as <- <-; tauto); destruct (decode_one _ _ _ _ _) as [[y d2] fs] eqn:E; apply decode_one_kept in E as (E & _);
      intro H; injection H as <- <-; unfold kept in E; cbn in E; tauto.
  - unfold signal_end. destruct (ds_fromd (set_ended d true)), (ds_frame (set_ended d true)), (ds_proc (set_ended d true)); try (intro H; injection H as <- <-; cbn; tauto).
    destruct (decode_one _ _ _ _ _) as [[y d2] fs] eqn:E; apply decode_one_kept in E as (E & _);
      intro H; injection H as <- <-; unfold kept in E; cbn in E; tauto.
Qed.
End Facts.

(* ================= C31 ================= *)
Section Deliver.
Context {M R : Type} (fuel k : nat) (e : env M R) (ty : sample_type) (n : Z).
Notation st := (dstate M R).
Definition fits (f : frame) : Prop := some_channels f = true -> good_frame f /\ byte_size ty f <= n.
Definition shown (f : frame) : list (list Z) := map (out_bytes ty) (filter some_channels [f]).

Lemma one_delivers eos (d : st) r d1 fs : decode_one fuel k e eos d = (r, d1, fs) -> crashed r = false -> ds_frame d = [] ->
  map (out_bytes ty) (filter some_channels fs) = shown (ds_frame d1) /\ (Forall fits fs -> fits (ds_frame d1)).
Proof.
  intros E C F. destruct (decode_one_frame _ _ _ _ _ _ _ _ E C) as [(f & -> & Ef)|(-> & Ef & _)].
  - rewrite Ef. split; [reflexivity|]. intro H. apply Forall_cons_iff in H as [H _]. exact H.
  - rewrite (Ef F). split; [reflexivity|]. intros _ H. discriminate H.
Qed.
Lemma step_delivers c (d : st) r d1 : is_reset c = false -> step fuel k e c d = (r, d1) -> crashed (r_status r) = false ->
  ty <> OtherType -> ds_type d = ty -> fits (ds_frame d) -> match c with CGet span => n <= zlen span < 2^64 | _ => True end ->
  shown (ds_frame d) ++ map (out_bytes ty) (filter some_channels (r_rendered r)) =
  (match c with CGet _ => if available d then [r_bytes r] else [] | _ => [] end) ++ shown (ds_frame d1) /\
  (Forall fits (r_rendered r) -> fits (ds_frame d1)).
Proof.
  intros Hc E C Hty Ety F Hs. destruct c as [bytes|span| | |m]; try discriminate; cbn [step] in E.
  - unfold decode in E. destruct (ds_ended d); [injection E as <- <-; cbn [r_rendered filter map app]; rewrite app_nil_r; auto|].
    destruct (r_push bytes (ds_buf d)) as [[?| | | |] b1]; try (injection E as <- <-; cbn [r_rendered filter map app ds_frame set_buf]; rewrite app_nil_r; auto).
    destruct (ds_proc (set_buf d b1)).
    + cbn [ds_frame set_reord set_buf] in E. destruct (ds_frame d) eqn:Ef.
      2:{ injection E as <- <-. cbn [r_rendered filter map app ds_frame set_reord set_buf]. rewrite app_nil_r, Ef. auto. }
      destruct (decode_one _ _ _ _ _) as [[x d2] fs] eqn:E1. injection E as <- <-. cbn [r_status r_rendered] in *.
      destruct (one_delivers _ _ _ _ _ E1 C Ef) as [A B]. split; [exact A|exact B].
    + destruct (create_processor _ _ _) as [x d2] eqn:E1. apply create_processor_kept in E1. injection E as <- <-.
      destruct E1 as (_ & _ & _ & _ & _ & _ & _ & E1 & _). rewrite E1. cbn [r_rendered filter map app ds_frame set_buf]. rewrite app_nil_r. auto.
  - unfold get_unit in E. unfold available. destruct (ds_frame d) as [|ch0 f0] eqn:Ef; [injection E as <- <-; rewrite Ef; cbn [r_rendered filter map app]; split; [reflexivity|intros _; exact F]|].
    rewrite <- Ef in E, F |- *. destruct F as [[G1 G2] G3]; [rewrite Ef; reflexivity|].
    unfold byte_size in G3. rewrite Ety in E.
    destruct (C33_frame_is_written (ds_frame d) ty span 0 (ticks_of (ds_frame d)) (B754_zero false : double)) as [W L]; try assumption; try lia.
    { rewrite Ef. discriminate. }
    cbv zeta in W, L. fold (out_bytes ty (ds_frame d)) in W, L. rewrite W in E.
    destruct (decode_one _ _ _ _ _) as [[x d2] fs] eqn:E1.
    assert (crashed x = false) as Cx by (injection E as <- <-; cbn [r_status] in C; destruct x; auto).
    destruct (one_delivers _ _ _ _ _ E1 Cx eq_refl) as [A B]. injection E as <- <-. cbn [r_rendered r_bytes].
    split; [|exact B]. rewrite A. f_equal. unfold shown. rewrite Ef at 1. cbn [filter some_channels map]. rewrite <- Ef. f_equal.
    rewrite <- L. unfold zlen. rewrite Nat2Z.id, firstn_app, firstn_all, Nat.sub_diag. cbn [firstn]. rewrite app_nil_r. reflexivity.
  - unfold signal_end in E. cbn [ds_fromd ds_frame ds_proc set_ended] in E.
    destruct (ds_fromd d); [injection E as <- <-; cbn [r_rendered filter map app ds_frame set_ended]; rewrite app_nil_r; auto|].
    destruct (ds_frame d) eqn:Ef; [|injection E as <- <-; cbn [r_rendered filter map app ds_frame set_ended]; rewrite app_nil_r, Ef; auto].
    destruct (ds_proc d); [|injection E as <- <-; cbn [r_rendered filter map app ds_frame set_ended]; rewrite Ef; auto].
    destruct (decode_one _ _ _ _ _) as [[x d2] fs] eqn:E1. injection E as <- <-. cbn [r_status r_rendered] in *.
    destruct (one_delivers _ _ _ _ _ E1 C Ef) as [A B]. split; [exact A|exact B].
Qed.
End Deliver.

(* Whatever the order of Decode, GetOutputTemporalUnit and SignalEndOfDecoding calls, and whatever bytes are decoded: if the buffers
   passed to GetOutputTemporalUnit are large enough, the units returned by the calls made while a unit is available, followed by the
   pending unit, are the units pending at first and those rendered since: each once, complete, in order. *)
Theorem C31_delivered_once_partial : forall M R fuel k (e : env M R) n cs d rs d1,
  calls fuel k e cs d = (rs, d1) -> no_crash rs -> existsb is_reset cs = false -> ds_type d <> OtherType -> large_buffers n cs ->
  Forall (fun f => good_frame f /\ byte_size (ds_type d) f <= n) (filter some_channels [ds_frame d] ++ rendered rs) ->
  map (out_bytes (ds_type d)) (filter some_channels [ds_frame d] ++ rendered rs) =
  deliveries fuel k e cs d ++ map (out_bytes (ds_type d)) (filter some_channels [ds_frame d1]).
Proof.
  intros M R fuel k e n. induction cs as [|c cs IH]; intros d rs d1 E NC NR Hty HL HF; cbn [calls deliveries] in *.
  - injection E as <- <-. cbn [rendered flat_map filter map app]. rewrite app_nil_r. reflexivity.
  - cbn [existsb] in NR. apply orb_false_elim in NR as [N1 N2]. apply Forall_cons_iff in HL as [L1 L2].
    destruct (step fuel k e c d) as [r d2] eqn:Es. destruct (crashed (r_status r)) eqn:Cr.
    { injection E as <- <-. apply Forall_cons_iff in NC as [NC _]. rewrite Cr in NC. discriminate NC. }
    destruct (calls fuel k e cs d2) as [rs2 d3] eqn:Ec. injection E as <- <-. apply Forall_cons_iff in NC as [_ NC].
    destruct (step_settings _ _ _ _ _ _ _ N1 Es) as (T & _). unfold rendered in *. cbn [flat_map] in *. rewrite filter_app in *.
    apply Forall_app in HF as [F0 HF]. apply Forall_app in HF as [F1 F2].
    assert (forall l, Forall (fun f => good_frame f /\ byte_size (ds_type d) f <= n) (filter some_channels l) -> Forall (fits (ds_type d) n) l) as X.
    { intros l H. apply Forall_forall. intros f Hf Hs. rewrite Forall_forall in H. apply H. apply filter_In. auto. }
    assert (fits (ds_type d) n (ds_frame d)) as Fd by (apply (X [ds_frame d]) in F0; apply Forall_cons_iff in F0 as [F0 _]; exact F0).
    destruct (step_delivers fuel k e (ds_type d) n c d r d2 N1 Es Cr Hty eq_refl Fd) as [A B]; [destruct c; auto|].
    rewrite <- T in *.
    assert (fits (ds_type d2) n (ds_frame d2)) as Fd2 by (apply B, X, F1).
    specialize (IH d2 rs2 d3 Ec NC N2 Hty L2).
    rewrite !map_app in *. unfold shown in A. rewrite app_assoc, A, <- !app_assoc. f_equal. apply IH.
    apply Forall_app. split; [|exact F2]. apply Forall_forall. intros f Hf. apply filter_In in Hf as [Hf Hs]. destruct Hf as [<-|[]]. apply Fd2, Hs.
Qed.

(* ---- examples: one byte of "descriptors", then the stream of PropsLoss.v; the renderer shows the unit's time in both channels ---- *)
Definition ex_np : newproc unit := mkNP ex_D ex_s tt (Ok 1) (Ok (2, LSs 0 0)) (Ok 48000) (Ok 8).
Definition ex_half : double := @B754_finite 53 1024 false 4503599627370496 (-53) eq_refl.
Definition ex_quarter : double := @B754_finite 53 1024 false 4503599627370496 (-54) eq_refl.
Definition ex_eighth : double := @B754_finite 53 1024 false 4503599627370496 (-55) eq_refl.
Definition ex_frame_at (t : Z) : frame :=
  if t =? 0 then [[ex_half]; [ex_quarter]] else if t =? 8 then [[ex_quarter]; [ex_half]] else [[ex_eighth]; [ex_eighth]].
Definition ex_env : env unit unit :=
  mkEnv (fun _ _ => x <- rcatch (rlit 8 64) ;; match x with inl _ => RRet (Ok (None, true)) | inr _ => RRet (Ok (Some ex_np, false)) end)
        (fun r u _ => (Ok (ex_frame_at (un_time u)), [], r)).
Definition ex_dec : dstate unit unit := create tt DefaultNoOp Int16LE.
Ltac run := vm_compute; reflexivity.

(* The hypotheses of C31_delivered_once_partial hold of a history with three units, one still pending. *)
Definition ex_history : list (call unit) :=
  [CDecode [9]; CDecode (firstn 12 (concat ex_stream)); CGet (repeat 0 4); CDecode (skipn 12 (concat ex_stream)); CGet (repeat 0 4);
   CEnd].
Example C31_ex : exists rs d1,
  calls 8 ex_k ex_env ex_history ex_dec = (rs, d1) /\ forallb (fun r => is_ok (r_status r)) rs = true /\
  rendered rs = map ex_frame_at [0; 8; 16] /\
  deliveries 8 ex_k ex_env ex_history ex_dec = [[0; 64; 0; 32]; [0; 32; 0; 64]] /\ available d1 = true.
Proof. eexists _, _. split; [run|]. split; [run|]. split; [run|]. split; run. Qed.

(* A GetOutputTemporalUnit call whose buffer is too small fails, and the unit which was available is lost: two units were rendered,
   the second is available afterwards, and the first was never returned. *)
Theorem C31_small_buffer_refuted : exists cs rs d1 bytes0,
  calls 8 ex_k ex_env cs ex_dec = (rs, d1) /\ no_crash rs /\ rendered rs = [ex_frame_at 0; ex_frame_at 8] /\
  fst (write_frame_to_span (ex_frame_at 0) Int16LE (repeat 0 4) 0) = (Ok tt, bytes0) /\ bytes0 <> [] /\
  deliveries 8 ex_k ex_env cs ex_dec = [[]] /\ ds_frame d1 = ex_frame_at 8 /\ r_status (last rs (mkReply (Ok tt) [] [])) = Err Unknown.
Proof.
  exists [CDecode [9]; CDecode (concat ex_stream); CGet (repeat 0 3)]. eexists _, _, _. split; [run|].
  split; [repeat constructor|]. split; [run|]. split; [run|]. split; [discriminate|]. split; [run|]. split; run.
Qed.
(* A unit may be returned by a call which reports an error: the one for decoding the next unit. *)
Theorem C31_unit_in_failed_call_refuted : exists cs rs d1,
  calls 8 ex_k ex_env cs ex_dec = (rs, d1) /\ no_crash rs /\ rendered rs = [ex_frame_at 0] /\
  deliveries 8 ex_k ex_env cs ex_dec = [[0; 64; 0; 32]] /\ ds_frame d1 = [] /\ r_status (last rs (mkReply (Ok tt) [] [])) = Err Unknown.
Proof.
  exists [CDecode [9]; CDecode (ex_td ++ ex_frame 1 ++ ex_td ++ ex_frame 2 ++ [0; 0]); CGet (repeat 0 4)]. eexists _, _. split; [run|].
  split; [repeat constructor|]. split; [run|]. split; [run|]. split; run.
Qed.

(* ================= C32 ================= *)
Section Life.
Context {M R : Type} (fuel k : nat) (e : env M R).
Notation st := (dstate M R).

(* Two decoders are equivalent if they differ at most in the number of read buffers made so far.  A processor is stale if it refers
   to a read buffer which has been replaced. *)
Definition stale (d : st) : bool := match ds_proc d with Some p => negb (Nat.eqb (p_gen p) (ds_gen d)) | None => false end.
Definition gen_ok (d : st) : Prop := match ds_proc d with Some p => (p_gen p <= ds_gen d)%nat | None => True end.
Definition no_gen (p : proc R) : proc R := mkP (p_D p) (p_s p) (p_u p) (p_R p) (p_rate p) (p_size p) 0.
Definition forget_gen (d : st) : st :=
  mkDS (ds_ended d) (option_map no_gen (ds_proc d)) (ds_buf d) 0 (ds_frame d)
       (ds_req d) (ds_mix d) (ds_type d) (ds_fromd d) (ds_desc d) (ds_scheme d) (ds_reord d).
Definition equivalent (a b : st) : Prop := gen_ok a /\ gen_ok b /\ stale a = stale b /\ forget_gen a = forget_gen b.

Lemma ended_stays c (d : st) r d1 : is_reset c = false -> step fuel k e c d = (r, d1) -> ds_ended d = true -> ds_ended d1 = true.
Proof.
  destruct c as [bytes|span| | |m]; try discriminate; intros _ E H; cbn [step] in E.
  - unfold decode in E. rewrite H in E. injection E as <- <-. exact H.
  - unfold get_unit in E. destruct (ds_frame d); [injection E as <- <-; exact H|].
    destruct (write_frame_to_span _ _ _ _) as [[x sp] w].
    destruct x; try (injection E as <- <-; exact H); destruct (decode_one _ _ _ _ _) as [[y d2] fs] eqn:E1; apply decode_one_kept in E1 as (_ & E1 & _);
      injection E as <- <-; cbn in E1; congruence.
  - unfold signal_end in E. destruct (ds_fromd (set_ended d true)), (ds_frame (set_ended d true)), (ds_proc (set_ended d true)); try (injection E as <- <-; reflexivity).
    destruct (decode_one _ _ _ _ _) as [[y d2] fs] eqn:E1; apply decode_one_kept in E1 as (_ & E1 & _). injection E as <- <-. cbn in E1. congruence.
Qed.
Lemma calls_ended cs : forall (d : st) rs d1, calls fuel k e cs d = (rs, d1) -> existsb is_reset cs = false -> ds_ended d = true -> ds_ended d1 = true.
Proof.
  induction cs as [|c cs IH]; intros d rs d1 E N H; cbn [calls] in E; [injection E as <- <-; exact H|].
  cbn [existsb] in N. apply orb_false_elim in N as [N1 N2]. destruct (step fuel k e c d) as [r d2] eqn:Es.
  pose proof (ended_stays _ _ _ _ N1 Es H) as H2. destruct (crashed _); [injection E as <- <-; exact H2|].
  destruct (calls fuel k e cs d2) as [rs2 d3] eqn:Ec. injection E as <- <-. eapply IH; eauto.
Qed.

(* After SignalEndOfDecoding, whatever calls follow, Decode is refused and changes nothing, until a reset. *)
Theorem C32_decode_refused_after_end : forall cs d0 r d rs d1 bytes,
  step fuel k e CEnd d0 = (r, d) -> crashed (r_status r) = false -> calls fuel k e cs d = (rs, d1) -> existsb is_reset cs = false ->
  step fuel k e (CDecode bytes) d1 = (mkReply (Err Unknown) [] [], d1).
Proof.
  intros cs d0 r d rs d1 bytes Es Cr Ec N.
  assert (ds_ended d = true) as H.
  { cbn [step] in Es. unfold signal_end in Es. destruct (ds_fromd (set_ended d0 true)), (ds_frame (set_ended d0 true)), (ds_proc (set_ended d0 true)); try (injection Es as <- <-; reflexivity).
    destruct (decode_one _ _ _ _ _) as [[y d2] fs] eqn:E1; apply decode_one_kept in E1 as (_ & E1 & _). injection Es as <- <-. cbn in E1. congruence. }
  cbn [step]. unfold decode. rewrite (calls_ended _ _ _ _ Ec N H). reflexivity.
Qed.

(* Reset and ResetWithNewMix are refused in standalone mode and change nothing. *)
Lemma fromd_step c (d : st) r d1 : step fuel k e c d = (r, d1) -> ds_fromd d1 = ds_fromd d.
Proof.
  destruct (is_reset c) eqn:Ec; [|intro E; apply (step_settings fuel k e) in E; [apply E|exact Ec]].
  assert (forall (x : st) r d1, reset fuel e x = (r, d1) -> ds_fromd d1 = ds_fromd x) as X.
  { intros x r0 d2. unfold reset. destruct (ds_fromd x) eqn:Ef; cbn [negb]; [|intro H; injection H as <- <-; exact Ef].
    destruct (r_push _ _) as [[?| | | |] b1]; try (intro H; injection H as <- <-; cbn; congruence).
    destruct (create_processor _ _ _) as [y d3] eqn:E1. apply create_processor_kept in E1. cbn in E1. intro H; injection H as <- <-. destruct E1 as (_ & E1 & _). congruence. }
  destruct c as [?|?| | |m]; try discriminate; cbn [step]; [apply X|].
  unfold reset_with_mix. destruct (ds_fromd d) eqn:Ef; cbn [negb]; [|intro H; injection H as <- <-; exact Ef].
  destruct (reset fuel e (set_req d m)) as [r1 d2] eqn:E1. apply X in E1. cbn in E1.
  destruct (r_status r1); try (intro H; injection H as <- <-; congruence).
  destruct (ds_mix d2) as [[? ?]|]; [destruct (api_layout _)|]; intro H; injection H as <- <-; congruence.
Qed.
Lemma calls_fromd cs : forall (d : st) rs d1, calls fuel k e cs d = (rs, d1) -> ds_fromd d1 = ds_fromd d.
Proof.
  induction cs as [|c cs IH]; intros d rs d1 E; cbn [calls] in E; [injection E as <- <-; reflexivity|].
  destruct (step fuel k e c d) as [r d2] eqn:Es. apply fromd_step in Es. destruct (crashed _); [injection E as <- <-; exact Es|].
  destruct (calls fuel k e cs d2) as [rs2 d3] eqn:Ec. injection E as <- <-. apply IH in Ec. congruence.
Qed.
Theorem C32_reset_refused_standalone : forall m sch ty cs rs d m',
  calls fuel k e cs (create m sch ty) = (rs, d) ->
  step fuel k e CReset d = (mkReply (Err Unknown) [] [], d) /\ step fuel k e (CResetMix m') d = (mkReply (Err Unknown) [] [], d).
Proof.
  intros m sch ty cs rs d m' E. apply calls_fromd in E. cbn [create ds_fromd] in E. cbn [step]. unfold reset, reset_with_mix. rewrite E. auto.
Qed.
(* ---- equivalent decoders answer alike ---- *)
Lemma decode_one_equiv eos (a b : st) : equivalent a b ->
  match decode_one fuel k e eos a, decode_one fuel k e eos b with
  | (ra, a1, fa), (rb, b1, fb) => ra = rb /\ fa = fb /\ equivalent a1 b1
  end.
Proof.
  destruct a as [en p bu g f rq mx ty fd de sc re], b as [en' p' bu' g' f' rq' mx' ty' fd' de' sc' re']. unfold equivalent, forget_gen, gen_ok, stale. cbn.
  intros (G1 & G2 & S & E). injection E as -> Ep -> -> -> -> -> -> -> -> ->.
  unfold decode_one. cbn [ds_proc ds_buf ds_gen ds_frame ds_reord].
  destruct p as [p|], p' as [p'|]; try discriminate; [|cbn; auto 10].
  cbn in Ep. injection Ep as E1 E2 E3 E4 E5 E6. unfold no_gen in *. rewrite S, E1, E2, E3, E4, E5, E6. 
  destruct (negb (Nat.eqb (p_gen p') g')) eqn:Es. { cbn. rewrite Es. split; [reflexivity|]. split; [reflexivity|]. repeat (split; [assumption|]). unfold no_gen. congruence. }
  destruct (process_unit _ _ _ _ _ _ _) as [[[x s1] u1] b1].
  destruct x as [[out cont]| | | |]; try (cbn; unfold no_gen; cbn; rewrite Es; repeat (split; [first [assumption|reflexivity]|]); reflexivity).
  destruct out as [ou|].
  - destruct (render_unit e (p_R p') ou f') as [[x old] r1].
    destruct x as [f| | | |]; try (cbn; unfold no_gen; cbn; rewrite Es; repeat (split; [first [assumption|reflexivity]|]); reflexivity).
    destruct (match re' with Some (sch, ss) => reorder sch ss f | None => Ok f end) as [f''| | | |]; try (cbn; unfold no_gen; cbn; rewrite Es; repeat (split; [first [assumption|reflexivity]|]); reflexivity).
    cbn [ds_buf set_frame set_proc set_buf]. destruct (r_flush b1) as [[?| | | |] b2]; cbn; unfold no_gen; cbn; rewrite Es; repeat (split; [first [assumption|reflexivity]|]); reflexivity.
  - cbn [ds_buf set_frame set_proc set_buf]. destruct (r_flush b1) as [[?| | | |] b2]; cbn; unfold no_gen; cbn; rewrite Es; repeat (split; [first [assumption|reflexivity]|]); reflexivity.
Qed.
(* [core d d1]: what creating the processor depends on. *)
Lemma create_equiv (a b : st) : gen_ok a -> gen_ok b -> ds_fromd a = ds_fromd b -> ds_req a = ds_req b -> ds_buf a = ds_buf b ->
  ds_ended a = ds_ended b -> ds_frame a = ds_frame b -> ds_type a = ds_type b -> ds_scheme a = ds_scheme b -> ds_reord a = ds_reord b ->
  match create_processor fuel e a, create_processor fuel e b with
  | (ra, a1), (rb, b1) => ra = rb /\ ds_buf a1 = ds_buf b1 /\ gen_ok a1 /\ gen_ok b1 /\
      (ra = Ok tt -> equivalent a1 b1) /\ (equivalent a b -> equivalent a1 b1)
  end.
Proof.
  destruct a as [en p bu g f rq mx ty fd de sc re], b as [en' p' bu' g' f' rq' mx' ty' fd' de' sc' re']. unfold gen_ok at 1 2. cbn.
  intros G1 G2 -> -> -> -> -> -> -> ->. unfold create_processor. cbn [ds_proc ds_buf ds_gen ds_frame ds_reord ds_fromd ds_req].
  assert (forall b1, equivalent (mkDS en' p bu' g f' rq' mx ty' fd' de sc' re') (mkDS en' p' bu' g' f' rq' mx' ty' fd' de' sc' re') ->
    equivalent (mkDS en' p b1 g f' rq' mx ty' fd' de sc' re') (mkDS en' p' b1 g' f' rq' mx' ty' fd' de' sc' re')) as X.
  { intros b1. unfold equivalent, forget_gen, gen_ok, stale. cbn. intros (? & ? & ? & E). injection E as E1 E2 E3. rewrite E1, E2, E3. auto. }
  assert (forall b1 de1, equivalent (mkDS en' p bu' g f' rq' mx ty' fd' de sc' re') (mkDS en' p' bu' g' f' rq' mx' ty' fd' de' sc' re') ->
    equivalent (mkDS en' p b1 g f' rq' mx ty' fd' de1 sc' re') (mkDS en' p' b1 g' f' rq' mx' ty' fd' de1 sc' re')) as X2.
  { intros b1 de1. unfold equivalent, forget_gen, gen_ok, stale. cbn. intros (? & ? & ? & E). injection E as E1 E2 E3. rewrite E1, E2. auto. }
  destruct (crun _ _ _) as [[[[np bytes]| | | |]| | | |] b1]; cbn [crash];
    try (split; [reflexivity|]; split; [reflexivity|]; split; [exact G1|]; split; [exact G2|]; split; [discriminate|apply X]).
  destruct (r_flush b1) as [[?| | | |] b2]; cbn [crash];
    try (split; [reflexivity|]; split; [reflexivity|]; split; [exact G1|]; split; [exact G2|]; split; [discriminate|apply X2]).
  destruct (np_mix np) as [m| | | |]; cbn [crash];
    try (split; [reflexivity|]; split; [reflexivity|]; split; [exact G1|]; split; [exact G2|]; split; [discriminate|apply X2]).
  destruct (np_layout np) as [l| | | |]; cbn [crash];
    try (split; [reflexivity|]; split; [reflexivity|]; split; [exact G1|]; split; [exact G2|]; split; [discriminate|apply X2]).
  assert (equivalent
    (mkDS en' (Some (mkP (np_D np) (np_s np) (mkU tud_empty tud_empty) (np_R np) (np_rate np) (np_size np) g)) b2 g f' rq' (Some (m, l)) ty' fd' bytes sc' re')
    (mkDS en' (Some (mkP (np_D np) (np_s np) (mkU tud_empty tud_empty) (np_R np) (np_rate np) (np_size np) g')) b2 g' f' rq' (Some (m, l)) ty' fd' bytes sc' re')) as Q.
  { unfold equivalent, forget_gen, gen_ok, stale. cbn. rewrite !Nat.eqb_refl. auto. }
  split; [reflexivity|]. split; [reflexivity|]. split; [cbn; lia|]. split; [cbn; lia|]. split; intros _; exact Q.
Qed.
Lemma equiv_fields (a b : st) : equivalent a b -> gen_ok a /\ gen_ok b /\ ds_fromd a = ds_fromd b /\ ds_req a = ds_req b /\ ds_buf a = ds_buf b /\
  ds_ended a = ds_ended b /\ ds_frame a = ds_frame b /\ ds_type a = ds_type b /\ ds_scheme a = ds_scheme b /\ ds_reord a = ds_reord b /\
  ds_desc a = ds_desc b /\ ds_mix a = ds_mix b /\ option_map no_gen (ds_proc a) = option_map no_gen (ds_proc b).
Proof. intros (G1 & G2 & _ & E). unfold forget_gen in E. injection E as. auto 20. Qed.
Ltac equiv_set := unfold equivalent, forget_gen, gen_ok, stale; cbn; intros (? & ? & ? & E); injection E as; repeat (split; [assumption|]); congruence.
Lemma equiv_buf (a b : st) x : equivalent a b -> equivalent (set_buf a x) (set_buf b x). Proof. equiv_set. Qed.
Lemma equiv_frame (a b : st) x : equivalent a b -> equivalent (set_frame a x) (set_frame b x). Proof. equiv_set. Qed.
Lemma equiv_ended (a b : st) x : equivalent a b -> equivalent (set_ended a x) (set_ended b x). Proof. equiv_set. Qed.
Lemma equiv_reord (a b : st) x : equivalent a b -> equivalent (set_reord a x) (set_reord b x). Proof. equiv_set. Qed.
Lemma equiv_req (a b : st) x : equivalent a b -> equivalent (set_req a x) (set_req b x). Proof. equiv_set. Qed.
Lemma equiv_fresh (a b : st) x : equivalent a b -> equivalent (set_fresh_buf a x) (set_fresh_buf b x).
Proof.
  unfold equivalent, forget_gen, gen_ok, stale; cbn; intros (? & ? & ? & E); injection E as.
  destruct (ds_proc a) as [p|] eqn:Pa, (ds_proc b) as [q|] eqn:Pb; try discriminate.
  - split; [lia|]. split; [lia|]. split; [|congruence]. 
    replace (p_gen p =? S (ds_gen a))%nat with false by (symmetry; apply Nat.eqb_neq; lia).
    replace (p_gen q =? S (ds_gen b))%nat with false by (symmetry; apply Nat.eqb_neq; lia). reflexivity.
  - repeat (split; [exact I || reflexivity|]). congruence.
Qed.
Lemma reset_equiv (a b : st) : equivalent a b ->
  match reset fuel e a, reset fuel e b with (ra, a1), (rb, b1) => ra = rb /\ equivalent a1 b1 end.
Proof.
  intro Q. pose proof (equiv_fields _ _ Q) as (_ & _ & E1 & _). unfold reset. rewrite E1. destruct (negb (ds_fromd b)); [auto|].
  set (a2 := set_fresh_buf _ _). set (b2 := set_fresh_buf (set_ended (set_reord (set_frame b []) None) false) (r_stream 1024)).
  assert (equivalent a2 b2) as Q2 by (apply equiv_fresh, equiv_ended, equiv_reord, equiv_frame, Q).
  pose proof (equiv_fields _ _ Q2) as (_ & _ & _ & _ & E3 & _ & _ & _ & _ & _ & E2 & _). rewrite E2, E3.
  destruct (r_push (ds_desc b2) (ds_buf b2)) as [[?| | | |] b1]; try (split; [reflexivity|apply equiv_buf, Q2]).
  pose proof (equiv_buf _ _ b1 Q2) as Q3. pose proof (equiv_fields _ _ Q3) as (G1 & G2 & F1 & F2 & F3 & F4 & F5 & F6 & F7 & F8 & _).
  pose proof (create_equiv _ _ G1 G2 F1 F2 F3 F4 F5 F6 F7 F8) as C.
  destruct (create_processor fuel e (set_buf a2 b1)) as [ra a3], (create_processor fuel e (set_buf b2 b1)) as [rb b3].
  destruct C as (-> & _ & _ & _ & _ & C). split; [reflexivity|]. apply C, Q3.
Qed.
Lemma step_equiv c (a b : st) : equivalent a b ->
  match step fuel k e c a, step fuel k e c b with (ra, a1), (rb, b1) => ra = rb /\ equivalent a1 b1 end.
Proof.
  intro Q. pose proof (equiv_fields _ _ Q) as (G1 & G2 & F1 & F2 & F3 & F4 & F5 & F6 & F7 & F8 & F9 & F10 & F11).
  destruct c as [bytes|span| | |m]; cbn [step].
  - unfold decode. rewrite F4, F3. destruct (ds_ended b); [auto|].
    destruct (r_push bytes (ds_buf b)) as [[?| | | |] b1]; try (split; [reflexivity|apply equiv_buf, Q]).
    pose proof (equiv_buf _ _ b1 Q) as Q1. cbn [ds_proc set_buf].
    destruct (ds_proc a) as [p|], (ds_proc b) as [q|]; try discriminate.
    + assert (reorderer_for (set_buf a b1) = reorderer_for (set_buf b b1)) as Er.
      { unfold reorderer_for. cbn [ds_mix ds_scheme ds_reord set_buf]. rewrite F10, F7, F8. reflexivity. }
      rewrite Er. pose proof (equiv_reord _ _ (reorderer_for (set_buf b b1)) Q1) as Q2.
      cbn [ds_frame ds_fromd set_reord set_buf]. rewrite F5, F1. destruct (ds_frame b); [|auto].
      pose proof (decode_one_equiv (ds_fromd b) _ _ Q2) as D.
      destruct (decode_one _ _ _ _ _) as [[ra a1] fa]. destruct (decode_one _ _ _ _ (set_reord (set_buf b b1) _)) as [[rb b2] fb].
      destruct D as (-> & -> & D). auto.
    + pose proof (equiv_fields _ _ Q1) as (G1' & G2' & F1' & F2' & F3' & F4' & F5' & F6' & F7' & F8' & _).
      pose proof (create_equiv _ _ G1' G2' F1' F2' F3' F4' F5' F6' F7' F8') as C.
      destruct (create_processor fuel e (set_buf a b1)) as [ra a3], (create_processor fuel e (set_buf b b1)) as [rb b3].
      destruct C as (-> & _ & _ & _ & _ & C). split; [reflexivity|]. apply C, Q1.
  - unfold get_unit. rewrite F5. destruct (ds_frame b) eqn:Ef; [auto|]. rewrite <- Ef, F6, F1, F4.
    destruct (write_frame_to_span (ds_frame b) (ds_type b) span 0) as [[x sp] w].
    assert (equivalent (match x with Ok _ => set_frame a [] | _ => a end) (match x with Ok _ => set_frame b [] | _ => b end)) as Q1 by (destruct x; [apply equiv_frame|..]; exact Q).
    pose proof (decode_one_equiv (ds_fromd b || ds_ended b) _ _ Q1) as D.
    destruct x; cbn iota in D |- *; try (split; [reflexivity|exact Q]);
      destruct (decode_one _ _ _ _ _) as [[ra a1] fa];
      match goal with |- context [decode_one _ _ _ ?z ?y] => destruct (decode_one fuel k e z y) as [[rb b2] fb] end;
      destruct D as (-> & -> & D); auto.
  - unfold signal_end. cbn [ds_fromd ds_frame ds_proc set_ended]. rewrite F1, F5. pose proof (equiv_ended _ _ true Q) as Q1.
    destruct (ds_fromd b); [auto|]. destruct (ds_frame b); [|auto]. destruct (ds_proc a), (ds_proc b); try discriminate; [|auto].
    pose proof (decode_one_equiv true _ _ Q1) as D.
    destruct (decode_one _ _ _ _ _) as [[ra a1] fa]. destruct (decode_one _ _ _ _ (set_ended b true)) as [[rb b2] fb].
    destruct D as (-> & -> & D). auto.
  - apply reset_equiv, Q.
  - unfold reset_with_mix. rewrite F1. destruct (negb (ds_fromd b)); [cbn [fst]; auto|].
    pose proof (reset_equiv _ _ (equiv_req _ _ m Q)) as X.
    destruct (reset fuel e (set_req a m)) as [ra a1], (reset fuel e (set_req b m)) as [rb b1]. destruct X as [-> X].
    destruct (r_status rb); try (split; [reflexivity|exact X]).
    pose proof (equiv_fields _ _ X) as (_ & _ & _ & _ & _ & _ & _ & _ & _ & _ & _ & F & _). rewrite F.
    destruct (ds_mix b1) as [[? ?]|]; [destruct (api_layout _)|]; split; try reflexivity; exact X.
Qed.
(* What a client can ask without changing the decoder. *)
Definition same_answers (a b : st) : Prop :=
  get_mix a = get_mix b /\ get_channels a = get_channels b /\ get_rate a = get_rate b /\ get_size a = get_size b /\
  available a = available b /\ complete a = complete b /\ ds_type a = ds_type b.
Lemma equiv_answers (a b : st) : equivalent a b -> same_answers a b.
Proof.
  intro Q. pose proof (equiv_fields _ _ Q) as (_ & _ & _ & _ & _ & _ & F5 & F6 & _ & _ & _ & F10 & F11).
  unfold same_answers, get_mix, get_channels, get_rate, get_size, available, complete. rewrite F5, F10.
  destruct (ds_proc a), (ds_proc b); try discriminate; cbn in F11; [injection F11 as E1 E2 E3 E4 E5 E6; rewrite E5, E6|]; auto 10.
Qed.
Lemma calls_equiv cs : forall a b ra a1 rb b1, equivalent a b ->
  calls fuel k e cs a = (ra, a1) -> calls fuel k e cs b = (rb, b1) ->
  ra = rb /\ deliveries fuel k e cs a = deliveries fuel k e cs b /\ equivalent a1 b1.
Proof.
  induction cs as [|c cs IH]; intros a b ra a1 rb b1 Q Ea Eb; cbn [calls deliveries] in *.
  - injection Ea as <- <-. injection Eb as <- <-. auto.
  - pose proof (step_equiv c _ _ Q) as X. destruct (step fuel k e c a) as [r1 a2], (step fuel k e c b) as [r2 b2]. destruct X as [-> X].
    destruct (equiv_answers _ _ Q) as (_ & _ & _ & _ & Av & _). rewrite Av.
    destruct (crashed (r_status r2)).
    + injection Ea as <- <-. injection Eb as <- <-. auto.
    + destruct (calls fuel k e cs a2) as [r3 a3] eqn:E3, (calls fuel k e cs b2) as [r4 b4] eqn:E4. injection Ea as <- <-. injection Eb as <- <-.
      destruct (IH _ _ _ _ _ _ X E3 E4) as (-> & -> & X2). auto.
Qed.

(* ---- reset ---- *)
Lemma reset_like_new (d : st) r d1 r0 d0 : gen_ok d -> ds_fromd d = true -> reset fuel e d = (r, d1) ->
  create_from_descriptors fuel e (ds_req d) (ds_scheme d) (ds_type d) (ds_desc d) = (r0, d0) ->
  r = mkReply r0 [] [] /\ gen_ok d1 /\ (r0 = Ok tt -> equivalent d1 d0).
Proof.
  intros G Hd. unfold reset, create_from_descriptors. rewrite Hd. cbn [negb create ds_buf ds_desc set_fresh_buf set_ended set_reord set_frame].
  assert (forall b, gen_ok (set_buf (set_fresh_buf (set_ended (set_reord (set_frame d []) None) false) (r_stream 1024)) b)) as Ga.
  { intro b. unfold gen_ok in *. cbn. destruct (ds_proc d); [lia|exact I]. }
  destruct (r_push (ds_desc d) (r_stream 1024)) as [[u0| | | |] b1].
  2-5: intros H1 H2; injection H1 as <- <-; injection H2 as <- <-; split; [reflexivity|]; split; [apply Ga|discriminate].
  set (a := set_buf _ _). set (b := set_fromd _ _).
  assert (gen_ok b) as Gb by exact I. specialize (Ga b1). fold a in Ga.
  pose proof (create_equiv a b Ga Gb Hd eq_refl eq_refl eq_refl eq_refl eq_refl eq_refl eq_refl) as C.
  destruct (create_processor fuel e a) as [x a1], (create_processor fuel e b) as [y b2]. destruct C as (-> & _ & G1 & _ & C & _).
  intros H1 H2; injection H1 as <- <-; injection H2 as <- <-. split; [reflexivity|]. split; [exact G1|].
  intro H. apply C. destruct y as [[]| | | |]; try discriminate. reflexivity.
Qed.
Lemma gen_ok_step c (d : st) r d1 : gen_ok d -> step fuel k e c d = (r, d1) -> gen_ok d1.
Proof.
  intros G E. assert (equivalent d d) as Q by (split; [exact G|]; split; [exact G|]; auto).
  pose proof (step_equiv c _ _ Q) as X. rewrite E in X. apply X.
Qed.

Lemma kept_complete (d d1 : st) : kept d d1 -> complete d1 = complete d.
Proof. unfold kept, complete. intros (_ & _ & _ & _ & _ & _ & _ & H & _). destruct (ds_proc d), (ds_proc d1); try discriminate; reflexivity. Qed.
Lemma step_kept c (d : st) r d1 : is_reset c = false -> complete d = true -> step fuel k e c d = (r, d1) -> kept d d1.
Proof.
  destruct c as [bytes|span| | |m]; try discriminate; intros _ Hp; cbn [step].
  - unfold decode. destruct (ds_ended d); [intro H; injection H as <- <-; apply kept_refl|].
    destruct (r_push bytes (ds_buf d)) as [[?| | | |] b1]; try (intro H; injection H as <- <-; kept_tac).
    unfold complete in Hp. cbn [ds_proc set_buf]. destruct (ds_proc d) eqn:Ep; [|discriminate].
    destruct (ds_frame _); [|intro H; injection H as <- <-; kept_tac].
    destruct (decode_one _ _ _ _ _) as [[x d2] fs] eqn:E. apply decode_one_kept in E as (E & _). intro H; injection H as <- <-.
    eapply kept_trans; [|exact E]. kept_tac.
  - unfold get_unit. destruct (ds_frame d); [intro H; injection H as <- <-; apply kept_refl|].
    destruct (write_frame_to_span _ _ _ _) as [[x sp] w].
    destruct x; try (intro H; injection H as <- <-; apply kept_refl); destruct (decode_one _ _ _ _ _) as [[y d2] fs] eqn:E; apply decode_one_kept in E as (E & _);
      intro H; injection H as <- <-; (eapply kept_trans; [|exact E]); kept_tac.
  - unfold signal_end. destruct (ds_fromd (set_ended d true)), (ds_frame (set_ended d true)), (ds_proc (set_ended d true)); try (intro H; injection H as <- <-; kept_tac).
    destruct (decode_one _ _ _ _ _) as [[y d2] fs] eqn:E; apply decode_one_kept in E as (E & _);
      intro H; injection H as <- <-. eapply kept_trans; [|exact E]. kept_tac.
Qed.
Definition is_reset_mix (c : call M) : bool := match c with CResetMix _ => true | _ => false end.

(* A decoder created from exactly the descriptor bytes: after any calls (other than for a new mix), Reset succeeds and gives a
   decoder equivalent to the one created; in particular it answers every further history of calls alike. *)
Theorem C32_reset_restores : forall m sch ty bytes d0 cs rs d r d1,
  create_from_descriptors fuel e m sch ty bytes = (Ok tt, d0) -> ds_desc d0 = bytes ->
  calls fuel k e cs d0 = (rs, d) -> no_crash rs -> existsb is_reset_mix cs = false ->
  step fuel k e CReset d = (r, d1) ->
  r_status r = Ok tt /\ same_answers d1 d0 /\
  forall cs', fst (calls fuel k e cs' d1) = fst (calls fuel k e cs' d0) /\ deliveries fuel k e cs' d1 = deliveries fuel k e cs' d0.
Proof.
  intros m sch ty bytes d0 cs rs d r d1 E0 Hb Ec NC NR Er. cbn [step] in Er.
  pose (inv := fun x : st => gen_ok x /\ complete x = true /\ ds_fromd x = true /\ ds_req x = m /\ ds_scheme x = sch /\ ds_type x = ty /\ ds_desc x = bytes).
  assert (inv d0) as I0.
  { unfold create_from_descriptors in E0. cbn [create ds_buf] in E0. destruct (r_push bytes (r_stream 1024)) as [[?| | | |] b1]; try discriminate.
    destruct (create_processor _ _ _) as [x d2] eqn:E2. injection E0 as E0 <-. destruct x as [[]| | | |]; try discriminate.
    apply create_processor_kept in E2 as (A1 & A2 & A3 & A4 & A5 & A6 & A7 & A8 & A9 & _). destruct (A9 eq_refl) as (p & P1 & P2 & _).
    unfold inv, gen_ok, complete. rewrite P1. cbn in *. rewrite P2, A5. auto 10. }
  assert (forall x r x1, inv x -> reset fuel e x = (r, x1) -> r_status r = Ok tt /\ equivalent x1 d0) as Rst.
  { intros x r0 x1 (G & C & F & Rq & Sc & Ty & De) Ex.
    destruct (reset_like_new x r0 x1 (Ok tt) d0 G F Ex) as (-> & _ & Q); [rewrite Rq, Sc, Ty, De; exact E0|]. split; [reflexivity|apply Q; reflexivity]. }
  assert (forall x, equivalent x d0 -> inv x) as Qinv.
  { intros x Q. pose proof (equiv_fields _ _ Q) as (G1 & _ & F1 & F2 & F3 & F4 & F5 & F6 & F7 & F8 & F9 & F10 & F11). destruct (equiv_answers _ _ Q) as (_ & _ & _ & _ & _ & Cm & _).
    unfold inv in *. intuition congruence. }
  assert (inv d) as Id.
  { clear Er. revert d0 E0 Hb I0 rs d Ec NC Rst Qinv. intros d0 E0 Hb I0 rs d Ec NC Rst Qinv.
    assert (forall cs x rs d, inv x -> calls fuel k e cs x = (rs, d) -> no_crash rs -> existsb is_reset_mix cs = false -> inv d) as X.
    { clear - Rst Qinv. induction cs as [|c cs IH]; intros x rs d Ix E NC NR; cbn [calls] in E; [injection E as <- <-; exact Ix|].
      cbn [existsb] in NR. apply orb_false_elim in NR as [N1 N2]. destruct (step fuel k e c x) as [r x1] eqn:Es.
      assert (inv x1) as I1.
      { destruct (is_reset c) eqn:Rc.
        - destruct c; try discriminate. cbn [step] in Es. apply Qinv. apply (Rst x r x1 Ix Es).
        - destruct Ix as (G & C & F & Rq & Sc & Ty & De). pose proof (step_kept _ _ _ _ Rc C Es) as K. pose proof (kept_complete _ _ K) as Kc.
          pose proof (gen_ok_step _ _ _ _ G Es) as G1. unfold kept in K. unfold inv. intuition congruence. }
      destruct (crashed (r_status r)) eqn:Cr; [injection E as <- <-; apply Forall_cons_iff in NC as [NC _]; rewrite Cr in NC; discriminate NC|].
      destruct (calls fuel k e cs x1) as [rs2 d2] eqn:E2. injection E as <- <-. apply Forall_cons_iff in NC as [_ NC]. eapply IH; eauto. }
    eapply X; eauto. }
  destruct (Rst d r d1 Id Er) as [S1 Q]. split; [exact S1|]. split; [apply equiv_answers, Q|]. intro cs'.
  destruct (calls fuel k e cs' d1) as [ra a1] eqn:Ea, (calls fuel k e cs' d0) as [rb b1] eqn:Eb.
  destruct (calls_equiv cs' _ _ _ _ _ _ Q Ea Eb) as (-> & Dl & _). auto.
Qed.
Lemma reset_recreates : forall m sch ty bytes r00 d00 cs rs d,
  create_from_descriptors fuel e m sch ty bytes = (r00, d00) -> ds_fromd d00 = true -> calls fuel k e cs d00 = (rs, d) ->
  forall mix r d1 r0 d0, (mix = ds_req d /\ step fuel k e CReset d = (r, d1) \/ reset fuel e (set_req d mix) = (r, d1)) ->
  create_from_descriptors fuel e mix sch ty (ds_desc d) = (r0, d0) ->
  r_status r = r0 /\ (r0 = Ok tt -> same_answers d1 d0 /\
    forall cs', fst (calls fuel k e cs' d1) = fst (calls fuel k e cs' d0) /\ deliveries fuel k e cs' d1 = deliveries fuel k e cs' d0).
Proof.
  intros m sch ty bytes r00 d00 cs rs d E00 F00 Ec mix r d1 r0 d0 Er E0.
  assert (gen_ok d /\ ds_scheme d = sch /\ ds_type d = ty /\ ds_fromd d = true) as (G & Sc & Ty & F).
  { assert (gen_ok d00 /\ ds_scheme d00 = sch /\ ds_type d00 = ty) as (G0 & S0 & T0).
    { unfold create_from_descriptors in E00. cbn [create ds_buf] in E00. destruct (r_push bytes (r_stream 1024)) as [[?| | | |] b1]; try (injection E00 as <- <-; repeat split; exact I).
      set (x := set_fromd _ _) in E00. assert (equivalent x x) as Q by (repeat split; exact I).
      pose proof (equiv_fields _ _ Q) as (G1' & G2' & F1' & F2' & F3' & F4' & F5' & F6' & F7' & F8' & _).
      pose proof (create_equiv _ _ G1' G2' F1' F2' F3' F4' F5' F6' F7' F8') as C.
      destruct (create_processor fuel e x) as [y d2] eqn:E2. injection E00 as <- <-. apply create_processor_kept in E2. cbn in E2. destruct C as (_ & _ & C & _).
      split; [exact C|]. split; apply E2. }
    assert (forall cs x rs d, gen_ok x /\ ds_scheme x = sch /\ ds_type x = ty /\ ds_fromd x = true -> calls fuel k e cs x = (rs, d) ->
      gen_ok d /\ ds_scheme d = sch /\ ds_type d = ty /\ ds_fromd d = true) as X; [|eapply X; eauto].
    clear. induction cs as [|c cs IH]; intros x rs d Ix E; cbn [calls] in E; [injection E as <- <-; exact Ix|].
    destruct (step fuel k e c x) as [r x1] eqn:Es. destruct Ix as (G & S1 & T1 & F1).
    assert (gen_ok x1 /\ ds_scheme x1 = sch /\ ds_type x1 = ty /\ ds_fromd x1 = true) as I1.
    { split; [eapply gen_ok_step; eauto|]. pose proof (fromd_step _ _ _ _ Es) as Fs. split; [|split; [|congruence]].
      all: destruct (is_reset c) eqn:Rc; [|apply step_settings in Es; [destruct Es as (A & B & C & _); congruence|exact Rc]].
      all: assert (forall (x : st) r d1, reset fuel e x = (r, d1) -> ds_scheme d1 = ds_scheme x /\ ds_type d1 = ds_type x) as Rs.
      1,3: intros z r0 d2; unfold reset; destruct (negb (ds_fromd z)); [intro H; injection H as <- <-; auto|];
          destruct (r_push _ _) as [[?| | | |] b1]; try (intro H; injection H as <- <-; cbn; auto);
          destruct (create_processor _ _ _) as [y d3] eqn:E1; apply create_processor_kept in E1; cbn in E1; intro H; injection H as <- <-; tauto.
      all: destruct c as [?|?| | |m']; try discriminate; cbn [step] in Es; [apply Rs in Es; intuition congruence|].
      all: unfold reset_with_mix in Es; rewrite F1 in Es; cbn [negb] in Es; destruct (reset fuel e (set_req x m')) as [r1 d2] eqn:E1; apply Rs in E1; cbn in E1;
          destruct (r_status r1); try (injection Es as <- <-; intuition congruence);
          destruct (ds_mix d2) as [[? ?]|]; [destruct (api_layout _)|]; injection Es as <- <-; intuition congruence. }
    destruct (crashed (r_status r)); [injection E as <- <-; exact I1|].
    destruct (calls fuel k e cs x1) as [rs2 d2] eqn:E2. injection E as <- <-. eapply IH; eauto. }
  assert (exists x, gen_ok x /\ ds_fromd x = true /\ ds_req x = mix /\ ds_scheme x = sch /\ ds_type x = ty /\ ds_desc x = ds_desc d /\ reset fuel e x = (r, d1)) as (x & Gx & Fx & Rx & Sx & Tx & Dx & Ex).
  { destruct Er as [[-> Er]|Er]; [exists d; auto 10|exists (set_req d mix); auto 10]. }
  destruct (reset_like_new x r d1 r0 d0 Gx Fx Ex) as (-> & _ & Q); [rewrite Rx, Sx, Tx, Dx; exact E0|]. split; [reflexivity|].
  intro H. specialize (Q H). split; [apply equiv_answers, Q|]. intro cs'.
  destruct (calls fuel k e cs' d1) as [ra a1] eqn:Ea, (calls fuel k e cs' d0) as [rb b1] eqn:Eb.
  destruct (calls_equiv cs' _ _ _ _ _ _ Q Ea Eb) as (-> & Dl & _). auto.
Qed.

(* In general: after any calls, Reset succeeds if and only if creating a decoder afresh from the stored descriptors does, and then gives
   a decoder which answers like that one. *)
Theorem C32_reset_is_recreation : forall m sch ty bytes r00 d00 cs rs d r d1 r0 d0,
  create_from_descriptors fuel e m sch ty bytes = (r00, d00) -> ds_fromd d00 = true -> calls fuel k e cs d00 = (rs, d) ->
  step fuel k e CReset d = (r, d1) -> create_from_descriptors fuel e (ds_req d) sch ty (ds_desc d) = (r0, d0) ->
  r_status r = r0 /\ (r0 = Ok tt -> same_answers d1 d0 /\
    forall cs', fst (calls fuel k e cs' d1) = fst (calls fuel k e cs' d0) /\ deliveries fuel k e cs' d1 = deliveries fuel k e cs' d0).
Proof.
  intros m sch ty bytes r00 d00 cs rs d r d1 r0 d0 E00 F00 Ec Er E0.
  exact (reset_recreates _ _ _ _ _ _ _ _ _ E00 F00 Ec (ds_req d) r d1 r0 d0 (or_introl (conj eq_refl Er)) E0).
Qed.
(* ResetWithNewMix likewise, with the new mix; it reports the mix and layout that the new decoder reports. *)
Theorem C32_reset_with_new_mix : forall m sch ty bytes r00 d00 cs rs d mix r d1 selected r0 d0,
  create_from_descriptors fuel e m sch ty bytes = (r00, d00) -> ds_fromd d00 = true -> calls fuel k e cs d00 = (rs, d) ->
  reset_with_mix fuel e mix d = (r, d1, selected) -> create_from_descriptors fuel e mix sch ty (ds_desc d) = (r0, d0) ->
  (r_status r = Ok tt -> r0 = Ok tt /\ selected <> None /\ get_mix d0 = match selected with Some x => Ok x | None => Err Unknown end) /\
  (r0 = Ok tt -> same_answers d1 d0 /\
    forall cs', fst (calls fuel k e cs' d1) = fst (calls fuel k e cs' d0) /\ deliveries fuel k e cs' d1 = deliveries fuel k e cs' d0).
Proof.
  intros m sch ty bytes r00 d00 cs rs d mix r d1 selected r0 d0 E00 F00 Ec Em E0. pose proof (calls_fromd _ _ _ _ Ec) as F. rewrite F00 in F.
  unfold reset_with_mix in Em. rewrite F in Em. cbn [negb] in Em. destruct (reset fuel e (set_req d mix)) as [r1 d2] eqn:Er.
  destruct (reset_recreates _ _ _ _ _ _ _ _ _ E00 F00 Ec mix r1 d2 r0 d0 (or_intror Er) E0) as [A B].
  assert (d1 = d2) as -> by (destruct (r_status r1); try congruence; destruct (ds_mix d2) as [[? ?]|]; [destruct (api_layout _)|]; congruence).
  split; [|exact B]. intro H. destruct (r_status r1) as [[]| | | |] eqn:E1; try (injection Em as <- <- ; congruence).
  specialize (B (eq_sym A)) as [(G & _ & _ & _ & _ & C & _) _]. split; [auto|].
  rewrite <- G. unfold get_mix. rewrite C.
  assert (complete d0 = true) as C0.
  { unfold create_from_descriptors in E0. destruct (r_push _ _) as [[?| | | |] b1]; try (injection E0 as <- <-; discriminate).
    destruct (create_processor _ _ _) as [x d3] eqn:E2. injection E0 as E0 <-. rewrite <- A in E0. destruct x as [[]| | | |]; try discriminate.
    apply create_processor_kept in E2 as (_ & _ & _ & _ & _ & _ & _ & _ & A9 & _). destruct (A9 eq_refl) as (p & P1 & _). unfold complete. rewrite P1. reflexivity. }
  rewrite C0. cbn [negb]. destruct (ds_mix d2) as [[mx l]|]; [|injection Em as <- <-; discriminate].
  destruct (api_layout l); injection Em as <- <-; try discriminate. split; [discriminate|reflexivity].
Qed.

(* Getters fail until the descriptors are complete; then their answers do not change, whatever the client does, until a reset. *)
Theorem C32_getters_before : forall d : st, complete d = false ->
  get_mix d = Err Unknown /\ get_channels d = Err Unknown /\ get_rate d = Err Unknown /\ get_size d = Err Unknown.
Proof. intros d H. unfold get_mix, get_channels, get_rate, get_size. rewrite H. unfold complete in H. destruct (ds_proc d); [discriminate|]. auto. Qed.
Theorem C32_getters_stable : forall cs d rs d1, complete d = true -> calls fuel k e cs d = (rs, d1) -> existsb is_reset cs = false ->
  complete d1 = true /\ get_mix d1 = get_mix d /\ get_channels d1 = get_channels d /\ get_rate d1 = get_rate d /\ get_size d1 = get_size d /\ ds_type d1 = ds_type d.
Proof.
  intros cs d rs d1 H E N. assert (kept d d1) as K.
  { revert d rs d1 H E N. induction cs as [|c cs IH]; intros d rs d1 H E N; cbn [calls] in E; [injection E as <- <-; apply kept_refl|].
    cbn [existsb] in N. apply orb_false_elim in N as [N1 N2]. destruct (step fuel k e c d) as [r d2] eqn:Es.
    pose proof (step_kept _ _ _ _ N1 H Es) as K. destruct (crashed (r_status r)); [injection E as <- <-; exact K|].
    destruct (calls fuel k e cs d2) as [rs2 d3] eqn:E2. injection E as <- <-. eapply kept_trans; [exact K|]. eapply IH; [|exact E2|exact N2].
    rewrite (kept_complete _ _ K). exact H. }
  pose proof (kept_complete _ _ K) as Kc. unfold kept in K. destruct K as (K1 & K2 & K3 & K4 & K5 & K6 & K7 & K8 & K9 & _).
  unfold get_mix, get_channels, get_rate, get_size. rewrite Kc, K4. split; [congruence|]. split; [reflexivity|]. split; [reflexivity|].
  destruct (ds_proc d), (ds_proc d1); cbn in K8, K9; try discriminate; [|auto]. injection K8 as ->. injection K9 as ->. auto.
Qed.
(* When the descriptors do not give a processor: a standalone decoder waits for more data if they were merely incomplete; a decoder
   created from descriptors reports an error whatever the reason, and so does a standalone one otherwise. *)
Lemma crun_rcatch {A} (p : rprog A) : forall r, crun fuel (rcatch p) r =
  match crun fuel p r with (Ok a, r1) => (Ok (inr a), r1) | (Err c, r1) => (Ok (inl c), r1) | (Abort, r1) => (Abort, r1) | (UB, r1) => (UB, r1) | (Diverge, r1) => (Diverge, r1) end.
Proof. induction p as [a|c|o f IH]; intro r; cbn [rcatch crun]; try reflexivity. destruct (cop fuel o r) as [[v|c| | |] r1]; auto. Qed.
Theorem C32_no_processor : forall d bytes b1 answer b2,
  ds_ended d = false -> complete d = false -> fst (r_push bytes (ds_buf d)) = Ok tt -> snd (r_push bytes (ds_buf d)) = b1 ->
  crun fuel (rtell ;;; rcatch (e_create e (ds_fromd d) (ds_req d))) b1 = (Ok answer, b2) ->
  (forall np more, answer <> inr (Ok (Some np, more))) -> (forall r, answer = inr r -> crashed r = false) ->
  exists d1, step fuel k e (CDecode bytes) d = (mkReply (if negb (ds_fromd d) then match answer with inr (Ok (None, true)) => Ok tt | _ => Err Unknown end else Err Unknown) [] [], d1) /\
    complete d1 = false /\ get_mix d1 = Err Unknown.
Proof.
  intros d bytes b1 answer b2 He Hc Hp Hb Hr Hn Hx. cbn [step]. unfold decode. rewrite He. destruct (r_push bytes (ds_buf d)) as [[[]| | | |] bb]; try discriminate. cbn [snd] in Hb. subst bb.
  assert (ds_proc (set_buf d b1) = None) as P by (unfold complete in Hc; cbn; destruct (ds_proc d); [discriminate|reflexivity]). rewrite P.
  unfold create_processor. cbn [ds_fromd ds_req ds_buf set_buf]. unfold create_prog. rewrite crun_bind. rewrite crun_bind in Hr.
  destruct (crun fuel rtell b1) as [[t|?| | |] b0]; try discriminate. rewrite crun_bind. rewrite Hr.
  assert (forall c, complete (set_buf (set_buf d b1) b2) = false /\ get_mix (set_buf (set_buf d b1) b2) = Err Unknown /\ c = c :> code) as G.
  { intro c. assert (complete (set_buf (set_buf d b1) b2) = false) as G by (unfold complete; cbn; unfold complete in Hc; exact Hc). split; [exact G|]. split; [|reflexivity]. unfold get_mix. rewrite G. reflexivity. }
  destruct answer as [c|[[[np|] more]|c| | |]]; [| destruct (Hn np more eq_refl)| | |specialize (Hx _ eq_refl); discriminate Hx..]; cbn [crun crash].
  - eexists. split; [|split; [apply (G c)|apply (G c)]]. destruct (negb (ds_fromd d)); reflexivity.
  - eexists. split; [|split; [apply (G InvalidArgument)|apply (G InvalidArgument)]]. destruct more, (ds_fromd d); reflexivity.
  - eexists. split; [|split; [apply (G c)|apply (G c)]]. destruct (negb (ds_fromd d)); reflexivity.
Qed.
(* The mix and the layout that a complete decoder reports are those it decodes for: any of the API's fourteen sound systems, or binaural. *)
Definition api_sound_systems : list Z := [0; 1; 2; 3; 4; 5; 6; 7; 8; 9; 10; 11; 12; 13].
Theorem C32_layout_reported : forall (d : st) mix, complete d = true ->
  (forall ss r, ds_mix d = Some (mix, (2, LSs ss r)) -> (In ss api_sound_systems -> get_mix d = Ok (mix, Some ss)) /\ (~ In ss api_sound_systems -> get_mix d = Err Unknown)) /\
  (forall r, ds_mix d = Some (mix, (3, LRb r)) -> get_mix d = Ok (mix, None)).
Proof.
  intros d mix Hc. unfold get_mix. rewrite Hc. cbn [negb]. split; [intros ss r E|intros r E]; rewrite E; [|reflexivity]. cbn [api_layout Z.eqb Pos.eqb negb].
  assert (In ss api_sound_systems <-> 0 <= ss <= 13) as Hs.
  { unfold api_sound_systems. cbn [In]. lia. }
  rewrite Hs. split; intro H; [replace ((0 <=? ss) && (ss <=? 13)) with true by lia; reflexivity|].
  replace ((0 <=? ss) && (ss <=? 13)) with false by lia. reflexivity.
Qed.
End Life.

(* ---- examples ---- *)
(* Created from exactly one byte of descriptors: the hypotheses of C32_reset_restores hold after decoding and ending. *)
Example C32_ex : exists d0 rs d r d1,
  create_from_descriptors 8 ex_env tt DefaultNoOp Int16LE [9] = (Ok tt, d0) /\ ds_desc d0 = [9] /\
  calls 8 ex_k ex_env [CDecode (concat ex_stream); CGet (repeat 0 4); CEnd] d0 = (rs, d) /\ forallb (fun r => is_ok (r_status r)) rs = true /\
  step 8 ex_k ex_env CReset d = (r, d1) /\ available d = true /\ available d1 = false /\ get_mix d1 = Ok (1, Some 0) /\ get_channels d1 = Ok 2.
Proof. eexists _, _, _, _, _. split; [run|]. split; [run|]. split; [run|]. split; [run|]. split; [run|]. split; [run|]. split; [run|]. split; run. Qed.
(* Descriptors that are incomplete: a standalone decoder waits, one created from them reports an error. *)
Example C32_no_processor_ex : exists d1 d2,
  step 8 ex_k (mkEnv (fun _ (_ : unit) => RRet (Ok (None, true))) (e_render ex_env)) (CDecode [1; 2]) (create tt DefaultNoOp Int16LE) = (mkReply (Ok tt) [] [], d1) /\
  step 8 ex_k (mkEnv (fun _ (_ : unit) => RRet (Ok (None, true))) (e_render ex_env)) (CDecode [1; 2]) (set_fromd (create tt DefaultNoOp Int16LE) true) = (mkReply (Err Unknown) [] [], d2).
Proof. eexists _, _. split; run. Qed.
(* Bytes behind the descriptors which CreateFromDescriptors was given are decoded later, but not after Reset. *)
Theorem C32_reset_drops_trailing_bytes_refuted : exists d0 r d1,
  create_from_descriptors 8 ex_env tt DefaultNoOp Int16LE ([9] ++ concat ex_stream) = (Ok tt, d0) /\
  step 8 ex_k ex_env CReset d0 = (r, d1) /\ r_status r = Ok tt /\
  deliveries 8 ex_k ex_env [CDecode []; CGet (repeat 0 4)] d0 = [[0; 64; 0; 32]] /\
  deliveries 8 ex_k ex_env [CDecode []; CGet (repeat 0 4)] d1 = [].
Proof. eexists _, _, _. split; [run|]. split; [run|]. split; [run|]. split; run. Qed.
(* ResetWithNewMix with a mix for which no processor can be made fails; the next Decode then uses the destroyed read buffer. *)
Definition ex_env2 : env bool unit :=
  mkEnv (fun (fd m : bool) => if m then RRet (Ok (None, false)) else e_create ex_env fd tt) (e_render ex_env).
Theorem C32_failed_reset_refuted : exists d0 r d1 rs d2,
  create_from_descriptors 8 ex_env2 false DefaultNoOp Int16LE [9] = (Ok tt, d0) /\
  step 8 ex_k ex_env2 (CResetMix true) d0 = (r, d1) /\ r_status r = Err Unknown /\
  calls 8 ex_k ex_env2 [CDecode ex_td] d1 = (rs, d2) /\ map r_status rs = [UB].
Proof. eexists _, _, _, _, _. split; [run|]. split; [run|]. split; [run|]. split; run. Qed.
(* With Android channel ordering and an output layout such as 7.1, a temporal unit without audio frames fails a check: the program
   is aborted. *)
Definition ex_env71 : env unit unit :=
  mkEnv (fun _ _ => rlit 8 64 ;;; RRet (Ok (Some (mkNP ex_D ex_s tt (Ok 1) (Ok (2, LSs 8 0)) (Ok 48000) (Ok 8)), false))) (e_render ex_env).
Theorem C48_unit_without_audio_refuted : exists rs d1,
  calls 8 ex_k ex_env71 [CDecode [9]; CDecode (ex_td ++ ex_block 5 ++ ex_td)] (create tt ForAndroid Int16LE) = (rs, d1) /\
  map r_status rs = [Ok tt; Abort].
Proof. eexists _, _. split; run. Qed.
