(* C56: what is known of a stream once its descriptors have been read: the answers of a new decoder. *)
From Coq Require Import Reals Permutation.
From Flocq Require Import Core BinarySingleNaN.
From Verif Require Import TempUnit Base WriteBuf ReadBuf Leb BufSpec LebSpec BitFacts WriteBufFacts ReadBufFacts LebFacts
  ParseFacts EndToEnd ObuHeader ObuHeaderFacts FrameFacts SeqFacts PureFacts SimpleObus CodecConfig Params AudioElement MixPresentation
  Timing ParamManager AeData Profile PropsProfile MixSelect PropsMixSelect Processor ProcFacts Session Reorder Pcm DecoderApi PropsApiSafe Descriptors DescFacts
  PropsDesc PropsInit PropsCreate PropsDescStream PropsDescModes Sequencer PropsSeq PropsSeqDesc.
Local Open Scope Z_scope.

(* ================= SPEC ================= *)
(* CreateForRendering on bytes: the processor, whether more data are needed, and the bit position afterwards. *)
Definition create_at {R} (configure : aemap -> mixp -> res R) (fuel cap k : nat) (bits : Z) (ps : profiles) (exact : bool) (q : request) (src : list Z) :=
  fst (crun fuel (read_at 0 (create_for_rendering configure k bits ps exact q)) (r_create cap src)).
(* The processor [np] answers as the descriptors [o] say. *)
Record reports {R} (configure : aemap -> mixp -> res R) (ps : profiles) (q : request) (o : dobus) (np : newproc R) : Prop := mkReports {
  (* sample rate and frame size: those of the only codec config; with none or several there is no answer *)
  rp_one : forall id c output input depth, do_codecs o = [(id, (c, (output, input, depth)))] -> np_rate np = Ok output /\ np_size np = Ok (cc_frame c);
  rp_many : length (do_codecs o) <> 1%nat -> np_rate np = Err FailedPrecondition /\ np_size np = Err FailedPrecondition;
  (* mix presentation and layout: those selected (C50) among the supported ones (C49); the renderer is set up for exactly these *)
  rp_mix : exists sel ms' m m' s x,
    selects (do_aes o) (do_mixes o) (supported_mixes ps (do_aes o) (do_mixes o)) (option_map internal_layout (rq_layout q)) (rq_mix q) sel ms' /\
    nth_error (do_mixes o) (sel_mix sel) = Some m /\ np_mix np = Ok (mp_id m) /\ np_layout np = Ok (sel_layout sel) /\
    nth_error ms' (sel_mix sel) = Some m' /\ at_place m' (sel_sub sel) (sel_index sel) s x /\ configure (do_aes o) (reduced m' s x) = Ok (np_R np);
  (* the state of the parsers: C53 *)
  rp_state : initialize o = Ok (np_D np, np_s np) }.
(* Why there may be no processor. *)
Definition unusable {R} (configure : aemap -> mixp -> res R) (ps : profiles) (o : dobus) : Prop :=
  ~ acceptable o \/ do_mixes o = [] \/ do_aes o = [] \/ supported_mixes ps (do_aes o) (do_mixes o) = [] \/ exists m e, configure (do_aes o) m = Err e.

(* ================= proofs ================= *)
Lemma same_ids aes ms l layout id sel ms' i m' : find_mix_and_layout aes ms l layout id = Ok (sel, ms') -> nth_error ms' i = Some m' ->
  exists m, nth_error ms i = Some m /\ mp_id m = mp_id m'.
Proof.
  intros E N. unfold find_mix_and_layout in E. destruct l as [|i0 l]; [discriminate|]. destruct (choose_mix _ _ _ _ _) as [j| | | |]; try discriminate. cbn [rbind] in E.
  destruct (nth_error ms j) as [m|] eqn:Em; [|discriminate]. destruct (mp_subs m) as [|s t] eqn:Es; [discriminate|]. destruct layout as [d|].
  - destruct (find_position d (s :: t) 0) as [[a b]|]; [injection E as <- <-; eauto|]. injection E as <- <-. rewrite set_nth_get in N.
    destruct (j =? i)%nat eqn:J; [|eauto]. rewrite Nat.eqb_eq in J. subst j. rewrite Em in N. injection N as <-. exists m. split; [exact Em|]. unfold add_layout. rewrite Es. reflexivity.
  - destruct (sm_layouts s); [discriminate|]. injection E as <- <-. eauto.
Qed.
Section Report.
Context {R : Type} (configure : aemap -> mixp -> res R) (ps : profiles).
Hypothesis Hconf : forall aes m, answers (configure aes m).
Hypothesis Hps : Forall profile ps.
Lemma creation_reports q o : consistent o ->
  (exists np, creation configure ps q o = Ok (Some np, false) /\ reports configure ps q o np) \/
  (creation configure ps q o = Ok (None, false) /\ unusable configure ps o).
Proof.
  intro C. destruct (C53_accepted_exactly o C) as [I1 I2]. unfold creation.
  destruct (initialize o) as [[D s]|er| | |] eqn:Ei; cbn [rbind].
  2:{ right. split; [reflexivity|]. left. intro A. destruct (I1 A) as [z Z0]. discriminate. }
  2-4: exfalso; assert (~ acceptable o) as N by (intro A; destruct (I1 A) as [z Z0]; discriminate); destruct (I2 N) as [e0 E0]; discriminate.
  unfold prepare_rendering. destruct (do_mixes o) as [|m0 ms] eqn:Em; [right; split; [reflexivity|right; left; exact Em]|].
  destruct (do_aes o) as [|a0 aes] eqn:Ea; [right; split; [reflexivity|right; right; left; exact Ea]|]. rewrite <- Ea, <- Em. clear Ea aes.
  destruct (supported_mixes ps (do_aes o) (do_mixes o)) as [|i0 l0] eqn:El; [right; split; [reflexivity|right; right; right; left; exact El]|]. rewrite <- El.
  destruct (C50_selection (do_aes o) (do_mixes o) (supported_mixes ps (do_aes o) (do_mixes o)) (option_map internal_layout (rq_layout q)) (rq_mix q)) as (sel & ms' & Ef & Sel).
  { rewrite El. discriminate. }
  { intros i Hi. apply (supported_renderable ps o i C Hps Hi). }
  rewrite Ef. cbn [rbind]. pose proof (se_place _ _ _ _ _ _ _ Sel) as (m' & sb & x & E1 & P & Sh & E2). rewrite E1, E2. cbn [rbind].
  pose proof (Hconf (do_aes o) (reduced m' sb x)) as Hc. destruct (configure (do_aes o) (reduced m' sb x)) as [r|er| | |] eqn:Ec; try discriminate Hc; cbn [rbind].
  2:{ right. split; [reflexivity|]. do 4 right. eauto. }
  left. eexists. split; [reflexivity|]. destruct (same_ids _ _ _ _ _ _ _ _ _ Ef E1) as (m & Em' & Id). split; cbn [np_rate np_size np_mix np_layout np_R np_D np_s].
  - intros id c output input depth ->. split; reflexivity.
  - intro L. unfold rate_and_size. destruct (do_codecs o) as [|[i [c st]] [|y t]]; [split; reflexivity|cbn in L; lia|split; reflexivity].
  - exists sel, ms', m, m', sb, x. rewrite Id. split; [exact Sel|]. split; [exact Em'|]. split; [reflexivity|]. split; [reflexivity|]. split; [exact E1|]. split; [exact P|exact Ec].
  - exact Ei.
Qed.

(* What is made of a stream is decided by what its descriptors are (C52, C55), and the answers are those of the descriptors. *)
Theorem C56_reports : forall fuel cap k bits exact q src, (8 <= fuel)%nat -> (1 <= cap)%nat -> Forall byteP src -> zlen src < 2^32 - 64 -> zlen src < Z.of_nat k ->
  match parse_at fuel cap k bits exact src with
  | Ok (Ok o, _, p) =>
      (exists np, create_at configure fuel cap k bits ps exact q src = Ok (Ok (Some np, false), p) /\ reports configure ps q o np) \/
      (create_at configure fuel cap k bits ps exact q src = Ok (Ok (None, false), p) /\ unusable configure ps o)
  | Ok (_, _, p) => create_at configure fuel cap k bits ps exact q src = Ok (Ok (None, true), p)
  | _ => exists p, create_at configure fuel cap k bits ps exact q src = Ok (Ok (None, false), p)
  end.
Proof.
  intros fuel cap k bits exact q src Hf Hc Hb Hz Hk. pose proof (C52_parser_sound fuel cap k bits exact src Hf Hc Hb Hz Hk) as X.
  unfold parse_at, create_at in *. rewrite crun_read_at in X |- * by (try assumption; unfold zlen; lia). rewrite crun_read_at by (try assumption; unfold zlen; lia). unfold create_for_rendering. rewrite arun_bind, arun_rcatch.
  destruct (arun (process_descriptors k bits exact) (mkC (bytes_bits src) (Z.to_nat 0) (Some true))) as [[[[o|er| | |] ins]|er| | |] c1]; cbn [at_result] in *; try contradiction.
  - destruct X as (C & _ & -> & _). cbn [arun at_result]. pose proof (creation_reports q o C) as Y. unfold creation in Y.
    destruct Y as [(np & E & Y)|[E Y]]; rewrite E; [left; exists np; auto|right; auto].
  - destruct X as (-> & _). cbn [arun at_result]. reflexivity.
  - cbn [arun at_result]. eexists. reflexivity.
Qed.
(* The mix presentation asked for is the one reported, if a supported one has this ID; the layout asked for is the one reported. *)
Theorem C56_requests : forall q o np, reports configure ps q o np ->
  (forall w i m, rq_mix q = Some w -> In i (supported_mixes ps (do_aes o) (do_mixes o)) -> nth_error (do_mixes o) i = Some m -> mp_id m = w -> np_mix np = Ok w) /\
  (forall l, rq_layout q = Some l -> np_layout np = Ok (match l with Some ss => (2, LSs ss 0) | None => (3, LRb 0) end)) /\
  (exists m, In m (do_mixes o) /\ np_mix np = Ok (mp_id m) /\ fst (filter_mix (do_aes o) m ps) = Ok tt).
Proof.
  intros q o np [_ _ (sel & ms' & m & m' & s & x & Sel & Em & Hm & Hl & _) _]. split; [|split].
  - intros w i m1 Ew Hi Ei Ew1. destruct Sel as [Ch _ _ _ _ _ _]. unfold preferences in Ch. rewrite Ew in Ch. cbn [app] in Ch.
    inversion Ch as [P t before i1 after El (m2 & Em2 & Id) Hb Eq|P t i1 Hn Ht Eq]; subst.
    + rewrite Em in Em2. injection Em2 as <-. rewrite Hm. f_equal. exact Id.
    + exfalso. apply (Hn i Hi). exists m1. auto.
  - intros l El. rewrite Hl, (se_request _ _ _ _ _ _ _ Sel (internal_layout l)); [reflexivity|]. rewrite El. reflexivity.
  - exists m. split; [exact (nth_error_In _ _ Em)|]. split; [exact Hm|]. pose proof (chosen_in _ _ _ _ (se_mix _ _ _ _ _ _ _ Sel)) as I. apply supported_in in I as (m2 & E2 & F). rewrite Em in E2. injection E2 as <-. exact F.
Qed.
(* The descriptors an encoder writes, at the beginning of a stream: what a decoder makes of it. *)
Theorem C56_encoded : forall g bits d b rest fuel cap k q,
  lebgen_wf g -> encodable bits d -> serialize (serialize_descriptors g d) false = Ok b -> Forall byteP rest -> begins_unit rest ->
  (8 <= fuel)%nat -> (1 <= cap)%nat -> zlen (b ++ rest) < Z.of_nat k -> zlen (b ++ rest) < 2^32 - 64 ->
  (exists np, create_at configure fuel cap k bits ps false q (b ++ rest) = Ok (Ok (Some np, false), 8 * zlen b) /\ reports configure ps q (found d) np) \/
  (create_at configure fuel cap k bits ps false q (b ++ rest) = Ok (Ok (None, false), 8 * zlen b) /\ unusable configure ps (found d)).
Proof.
  intros g bits d b rest fuel cap k q Hg He E Hr Hu Hf Hc Hk Hz.
  assert (Forall byteP b) as Fb by (destruct (written g d bits b Hg He E) as [F _]; exact F).
  assert (zlen b <= zlen (b ++ rest)) as L by (unfold zlen; rewrite app_length; lia).
  pose proof (C56_reports fuel cap k bits false q (b ++ rest) Hf Hc ltac:(apply Forall_app; auto) Hz Hk) as X.
  rewrite (C55_followed_by_units g bits d b rest fuel cap k Hg He E Hr Hu Hf Hc ltac:(lia) Hz) in X. exact X.
Qed.
End Report.

(* The number of channels reported: the loudspeakers of the sound system (ITU-R BS.2051-3: upper, middle, bottom and LFE; 10 to 14 are IAMF's own:
   7.1.2, 3.1.2, mono, 9.1.6, 7.1.5.4), or two for headphones. *)
Definition speakers (ss : Z) : option (Z * Z * Z * Z) :=
  if ss =? 0 then Some (0, 2, 0, 0) else if ss =? 1 then Some (0, 5, 0, 1) else if ss =? 2 then Some (2, 5, 0, 1) else if ss =? 3 then Some (4, 5, 0, 1)
  else if ss =? 4 then Some (4, 5, 1, 1) else if ss =? 5 then Some (3, 7, 0, 2) else if ss =? 6 then Some (4, 9, 0, 1) else if ss =? 7 then Some (9, 10, 3, 2)
  else if ss =? 8 then Some (0, 7, 0, 1) else if ss =? 9 then Some (4, 7, 0, 1) else if ss =? 10 then Some (2, 7, 0, 1) else if ss =? 11 then Some (2, 3, 0, 1)
  else if ss =? 12 then Some (0, 1, 0, 0) else if ss =? 13 then Some (6, 9, 0, 1) else if ss =? 14 then Some (5, 7, 4, 1) else None.
Theorem C56_channels : forall M R (d : dstate M R) mix,
  (get_mix d = Ok (mix, None) -> get_channels d = Ok 2) /\
  (forall ss, get_mix d = Ok (mix, Some ss) -> exists u m b l, speakers ss = Some (u, m, b, l) /\ get_channels d = Ok (u + m + b + l)) /\
  (forall t s, complete d = true -> ds_mix d = Some (mix, (t, s)) ->
    (t = 3 -> get_channels d = Ok 2) /\
    (forall ss r, t = 2 -> s = LSs ss r -> 0 <= ss ->
      get_channels d = match speakers ss with Some (u, m, b, l) => Ok (u + m + b + l) | None => Err Unknown end)).
Proof.
  assert (forall M R (d : dstate M R) mix t s, complete d = true -> ds_mix d = Some (mix, (t, s)) ->
    (t = 3 -> get_channels d = Ok 2) /\
    (forall ss r, t = 2 -> s = LSs ss r -> 0 <= ss ->
      get_channels d = match speakers ss with Some (u, m, b, l) => Ok (u + m + b + l) | None => Err Unknown end)) as K.
  { intros M R d mix t s C Mx. unfold get_channels. rewrite C, Mx. cbn [negb]. split.
    - intros ->. reflexivity.
    - intros ss r -> -> H. unfold num_channels. change (2 =? 3) with false. change (2 =? 2) with true. cbv iota.
      destruct (Z.to_nat ss) as [|[|[|[|[|[|[|[|[|[|[|[|[|[|[|n]]]]]]]]]]]]]]] eqn:E;
        try (match type of E with _ = ?k => replace ss with (Z.of_nat k) by lia end; reflexivity).
      replace (nth_error ss_channels _) with (@None Z) by (symmetry; apply nth_error_None; unfold ss_channels; cbn [length]; lia).
      unfold speakers. repeat match goal with |- context[ss =? ?k] => replace (ss =? k) with false by lia end. reflexivity. }
  intros M R d mix. split; [|split].
  - intro E. unfold get_mix in E. destruct (complete d) eqn:C; [|discriminate]. cbn [negb] in E. destruct (ds_mix d) as [[x [t s]]|] eqn:Mx; [|discriminate].
    apply (proj1 (K M R d x t s C Mx)). destruct (api_layout (t, s)) as [y| | | |] eqn:Ea; try discriminate. injection E as _ ->. unfold api_layout in Ea.
    destruct s as [ss r|r]; [destruct (negb (t =? 2)); [discriminate|]; destruct (_ && _); discriminate|]. destruct (t =? 3) eqn:T; [lia|discriminate].
  - intros ss E. unfold get_mix in E. destruct (complete d) eqn:C; [|discriminate]. cbn [negb] in E. destruct (ds_mix d) as [[x [t s]]|] eqn:Mx; [|discriminate].
    destruct (api_layout (t, s)) as [y| | | |] eqn:Ea; try discriminate. injection E as _ ->. unfold api_layout in Ea.
    destruct s as [ss' r|r]; [|destruct (t =? 3); discriminate]. destruct (negb (t =? 2)) eqn:T; [discriminate|]. destruct ((0 <=? ss') && (ss' <=? 13)) eqn:B; [|discriminate].
    injection Ea as ->. apply andb_true_iff in B as [B1 B2]. rewrite (proj2 (K M R d x t _ C Mx) ss r) by (try reflexivity; lia).
    assert (ss = 0 \/ ss = 1 \/ ss = 2 \/ ss = 3 \/ ss = 4 \/ ss = 5 \/ ss = 6 \/ ss = 7 \/ ss = 8 \/ ss = 9 \/ ss = 10 \/ ss = 11 \/ ss = 12 \/ ss = 13) as Q by lia.
    repeat (destruct Q as [Q|Q]; [subst ss; do 4 eexists; split; reflexivity|]). subst ss. do 4 eexists. split; reflexivity.
  - intros t s C Mx. exact (K M R d mix t s C Mx).
Qed.
(* A stream whose layout is 7.1.5.4 (sound system 14) is played with 17 channels, but GetOutputMix has no name for it and fails. *)
Theorem C56_layout_named_refuted : forall M R (d : dstate M R) mix r, complete d = true -> ds_mix d = Some (mix, (2, LSs 14 r)) ->
  get_channels d = Ok 17 /\ get_mix d = Err Unknown.
Proof. intros M R d mix r C Mx. unfold get_channels, get_mix. rewrite C, Mx. split; reflexivity. Qed.

(* The hypotheses are met: the descriptors of the C55 example, with a request for the 7.1.4 layout (sound system 9) and for mix 7. *)
Definition rx_bytes : list Z := match serialize (serialize_descriptors LebMin (dx false)) false with Ok b => b | _ => [] end.
Definition rx_conf (_ : aemap) (_ : mixp) : res unit := Ok tt.
Definition rx_look (q : request) := match create_at rx_conf 8 4 200 16 [0; 1; 2] false q (rx_bytes ++ [32; 0]) with
  | Ok (Ok (Some np, _), _) => Some (np_rate np, np_size np, np_mix np, np_layout np) | _ => None end.
Example C56_ex : (forall aes m, answers (rx_conf aes m)) /\ Forall profile [0; 1; 2] /\ begins_unit [32; 0] /\
  exists b np np2, serialize (serialize_descriptors LebMin (dx false)) false = Ok b /\
    create_at rx_conf 8 4 200 16 [0; 1; 2] false (mkReq None None) (b ++ [32; 0]) = Ok (Ok (Some np, false), 816) /\
    np_rate np = Ok 48000 /\ np_size np = Ok 8 /\ np_mix np = Ok 7 /\ np_layout np = Ok (2, LSs 0 0) /\
    create_at rx_conf 8 4 200 16 [0; 1; 2] false (mkReq (Some 7) (Some (Some 9))) (b ++ [32; 0]) = Ok (Ok (Some np2, false), 816) /\
    np_mix np2 = Ok 7 /\ np_layout np2 = Ok (2, LSs 9 0) /\ reports rx_conf [0; 1; 2] (mkReq (Some 7) (Some (Some 9))) (found (dx false)) np2.
Proof.
  assert (forall aes m, answers (rx_conf aes m)) as Ha by (intros aes m; exact eq_refl). split; [exact Ha|].
  assert (Forall profile [0; 1; 2]) as Hp by (repeat constructor; unfold profile; lia). split; [exact Hp|].
  assert (begins_unit [32; 0]) as Hu.
  { exists 32, [0], []. split; [reflexivity|]. split; [unfold byteP; lia|]. split; [cbn [is_leb]; lia|].
    split; [vm_compute; discriminate|]. split; [vm_compute; discriminate|reflexivity]. }
  split; [exact Hu|].
  destruct (serialize (serialize_descriptors LebMin (dx false)) false) as [b| | | |] eqn:Es; [|exfalso; vm_compute in Es; discriminate..].
  assert (b = rx_bytes) as -> by (unfold rx_bytes; rewrite Es; reflexivity).
  assert (8 * zlen rx_bytes = 816) as Lz by (vm_compute; reflexivity).
  assert (forall q z, rx_look q = Some z ->
    exists np, create_at rx_conf 8 4 200 16 [0; 1; 2] false q (rx_bytes ++ [32; 0]) = Ok (Ok (Some np, false), 816) /\ reports rx_conf [0; 1; 2] q (found (dx false)) np /\
      (np_rate np, np_size np, np_mix np, np_layout np) = z) as X.
  { intros q z Hq. unfold rx_look in Hq. destruct (C56_encoded rx_conf [0; 1; 2] Ha Hp LebMin 16 (dx false) rx_bytes [32; 0] 8 4 200 q I (dx_encodable false) Es) as [(np & E2 & Rp)|[E2 U]].
    - repeat constructor; unfold byteP; lia.
    - exact Hu.
    - lia.
    - lia.
    - vm_compute. reflexivity.
    - vm_compute. reflexivity.
    - rewrite E2 in Hq. injection Hq as Hq. rewrite Lz in E2. eauto.
    - exfalso. rewrite E2 in Hq. discriminate Hq. }
  destruct (X (mkReq None None) (Ok 48000, Ok 8, Ok 7, Ok (2, LSs 0 0))) as (np & E1 & _ & Z1); [vm_compute; reflexivity|].
  destruct (X (mkReq (Some 7) (Some (Some 9))) (Ok 48000, Ok 8, Ok 7, Ok (2, LSs 9 0))) as (np2 & E2 & Rp & Z2); [vm_compute; reflexivity|].
  injection Z1 as Z1 Z3 Z4 Z5. injection Z2 as _ _ Z6 Z7. exists rx_bytes, np, np2.
  exact (conj eq_refl (conj E1 (conj Z1 (conj Z3 (conj Z4 (conj Z5 (conj E2 (conj Z6 (conj Z7 Rp))))))))).
Qed.
