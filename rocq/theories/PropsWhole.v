(* C63: the whole decoder, with its own rendering, never crashes. *)
From Verif Require Import Base WriteBuf ReadBuf Leb BufSpec LebSpec BitFacts WriteBufFacts ReadBufFacts LebFacts
  ParseFacts EndToEnd ObuHeader ObuHeaderFacts FrameFacts SeqFacts PureFacts SimpleObus CodecConfig Params PropsParams AudioElement MixPresentation
  Timing ParamManager AeData Profile MixSelect Processor PropsObu ProcFacts Session Reorder Pcm DecoderApi Descriptors
  PropsAE PropsMix PropsLabels PropsProfile PropsMixSelect DescFacts PropsDesc PropsInit PropsDecoder ReadUnits PropsApiSafe PropsCreate
  MixGain PropsGain Demix DemixFacts PropsDemix Render RenderFacts PropsRender PropsHistory RenderSafe RenderUnitSafe ConfigSafe DoubleEnv.

(* ---- parameter blocks of mix gains, as they are read ---- *)
Lemma read_gain_data v c a c' : arun (read_pdata (KMixGain v)) c = (Ok a, c') -> is_gain_data (Some a).
Proof.
  intro E. cbn [read_pdata] in E. apply arun_bind_ok in E as (t & c1 & _ & E). destruct (t =? 0).
  { apply arun_bind_ok in E as (x & c2 & _ & E). cbn [arun] in E. injection E as <- _. exact I. }
  destruct (t =? 1).
  { apply arun_bind_ok in E as (x & c2 & _ & E). apply arun_bind_ok in E as (y & c3 & _ & E). cbn [arun] in E. injection E as <- _. exact I. }
  destruct (t =? 2); [|discriminate E].
  apply arun_bind_ok in E as (x & c2 & _ & E). apply arun_bind_ok in E as (y & c3 & _ & E). apply arun_bind_ok in E as (z & c4 & _ & E). apply arun_bind_ok in E as (w & c5 & _ & E).
  cbn [arun] in E. injection E as <- _. exact I.
Qed.
Lemma parse_schedule_data {A} (on : rprog A) (P : A -> Prop) : (forall c a c', cok c -> arun on c = (Ok a, c') -> P a) ->
  forall c s l c', cok c -> arun (parse_schedule on) c = (Ok (s, l), c') -> Forall P l.
Proof.
  intros H c s l c' Hc E. unfold parse_schedule in E. apply arun_bind_ok in E as (d & c1 & E1 & E). apply arun_cok_ok in E1 as K1; [|exact Hc].
  apply arun_bind_ok in E as (cs & c2 & E2 & E). apply arun_cok_ok in E2 as K2; [|exact K1]. destruct (negb (cs =? 0)).
  - apply arun_rres_ok in E as (s0 & _ & E). apply arun_bind_ok in E as (l0 & c3 & E3 & E). cbn [arun] in E. injection E as _ <- _. exact (proj2 (arun_rlist_inv on P _ H _ _ _ K2 E3)).
  - apply arun_bind_ok in E as (n & c3 & E3 & E). apply arun_cok_ok in E3 as K3; [|exact K2]. apply arun_rcheck_ok in E as [_ E]. apply arun_rcheck_ok in E as [_ E]. apply arun_rcheck_ok in E as [_ E].
    apply arun_bind_ok in E as (l0 & c4 & E4 & E). apply arun_rres_ok in E as (s0 & _ & E). apply arun_rcheck_ok in E as [_ E]. cbn [arun] in E. injection E as _ <- _. rewrite Forall_map.
    refine (proj2 (arun_rlist_inv _ (fun x => P (snd x)) _ _ _ _ _ K3 E4)). intros d0 a d1 Kd Ea. apply arun_bind_ok in Ea as (y & d2 & F1 & Ea). apply arun_cok_ok in F1 as Kd2; [|exact Kd].
    apply arun_bind_ok in Ea as (z & d3 & F2 & Ea). cbn [arun] in Ea. injection Ea as <- _. exact (H _ _ _ Kd2 F2).
Qed.
(* Every parameter block which is read under the definition of a mix gain has a subblock of mix gain data for each subblock. *)
Lemma schedule_total d b s l : schedule_of d b = Some s -> partitioned_as s l -> total l = Processor.block_duration d b.
Proof. unfold schedule_of, Processor.block_duration, pb_dur. intros H (_ & _ & _ & T & _). destruct (bl_sched b); [congruence|]. rewrite H. exact T. Qed.
Lemma read_gain_block d h n c b c' : cok c -> mix_gain d -> arun (read_pblock d h n) c = (Ok b, c') -> bl_id b = pb_id (pd_base d) /\ 0 <= Processor.block_duration d b < 2^32 /\
  (Processor.block_duration d b <= 2^30 -> gain_block d b).
Proof.
  intros Hc [[v Ev] Hs] R. unfold read_pblock in R. apply arun_rres_ok in R as ([] & V & R). apply arun_bind_ok in R as (id & c1 & R1 & R). apply arun_cok_ok in R1 as K1; [|exact Hc].
  apply arun_rcheck_ok in R as (Hid & R). rewrite Ev in R. unfold mode0 in R. destruct (pb_sched (pd_base d)) as [s0|] eqn:Sc.
  - apply arun_bind_ok in R as (l & c2 & R2 & R). cbn [arun] in R. injection R as <- _. cbn [bl_id]. split; [lia|]. destruct (Hs s0 eq_refl) as [[ds P] Sm].
    destruct (arun_rlist_inv _ (fun a => is_gain_data (Some a)) _ (fun c a c' _ E => read_gain_data v c a c' E) _ _ _ K1 R2) as [L F].
    match goal with |- _ <= Processor.block_duration d ?b < _ /\ _ => assert (schedule_of d b = Some s0) as So by exact Sc end. pose proof (schedule_total _ _ _ _ So P) as St. pose proof P as (Pn & _ & Pp & Pt & _).
    assert (0 <= total ds) as P0 by (clear - Pp; induction Pp; unfold total in *; cbn [fold_right]; lia). split; [lia|]. intro Sh. exists s0, ds. split; [exact So|]. split; [exact P|].
    cbn [bl_subs]. split; [|split; [rewrite Forall_map; exact F|lia]]. rewrite map_length, L. unfold pb_num. rewrite Sc. unfold zlen in Pn. lia.
  - apply arun_bind_ok in R as ([s1 l] & c2 & R2 & R). cbn [arun fst snd] in R. injection R as <- _. cbn [bl_id]. split; [lia|].
    pose proof (parse_schedule_data _ (fun a => is_gain_data (Some a)) (fun c a c' _ E => read_gain_data v c a c' E) _ _ _ _ K1 R2) as F.
    apply parse_schedule_made in R2 as [M L]; [|exact K1]. destruct (C22_made_partitions s1 M) as [ds P]. pose proof (made_dur s1 M) as Sm.
    match goal with |- _ <= Processor.block_duration d ?b < _ /\ _ => assert (schedule_of d b = Some s1) as So by reflexivity end. pose proof (schedule_total _ _ _ _ So P) as St. pose proof P as (Pn & _ & Pp & Pt & _).
    assert (0 <= total ds) as P0 by (clear - Pp; induction Pp; unfold total in *; cbn [fold_right]; lia). split; [lia|]. intro Sh. exists s1, ds. split; [exact So|]. split; [exact P|].
    cbn [bl_subs]. split; [|split; [rewrite Forall_map; exact F|lia]]. rewrite map_length. unfold zlen in *. lia.
Qed.

(* ---- the descriptors which the decoder renders ---- *)
Lemma gains_defined o x d : consistent o -> rendered_mix o x -> In d (mix_gains x) -> defines o (d, None) /\ mix_gain d.
Proof.
  intros [_ _ C3] (m0 & s0 & s & l & Hm & Hs & Ex & Ee & Eg & _) Hd. unfold mix_gains in Hd. rewrite Ex in Hd. cbn [flat_map] in Hd. rewrite app_nil_r, Ee, Eg in Hd.
  destruct (C3 m0 Hm) as [[h V] _]. destruct V as (_ & _ & _ & _ & _ & V6 & _). rewrite Forall_forall in V6. destruct (V6 s0 Hs) as (_ & [V1 V2] & _).
  destruct Hd as [<-|Hd]; [split; [exact (Def_output o m0 s0 Hm Hs)|exact V2]|]. apply in_map_iff in Hd as (e & <- & He). split; [exact (Def_element o m0 s0 e Hm Hs He)|apply V1; exact He].
Qed.
Lemma sound_rendered o x : consistent o -> rendered_mix o x -> sound_aes (do_aes o) x.
Proof.
  intros [[_ C1] [_ C2] _] (m0 & s0 & s & l & Hm & Hs & Ex & Ee & Eg & El & Hl). split; rewrite Ex.
  - intros s1 e a [<-|[]] He Hf. apply PropsDesc.m_find_in in Hf. destruct (C2 _ _ Hf) as (_ & Va & _ & _ & Hc & _). split; [exact Va|]. destruct (C1 _ _ Hc) as (_ & _ & H). unfold codec_of. lia.
  - intros s1 y [<-|[]] Hy. rewrite El in Hy. destruct Hy as [<-|[]]. intro T. exact (Hl T).
Qed.

Section Whole.
Context {F B C : Type} (E : renv double F B C) (old : @models double B C -> outunit -> DecoderApi.frame -> DecoderApi.frame).
Variable Fine : C -> Prop.
Hypothesis Et : tame E Fine.
(* The renderer as part of the decoder: [old] is what a frame which was handed out before shows after the next unit was rendered. *)
Definition own_render (m : @models double B C) (u : outunit) (pending : DecoderApi.frame) : res DecoderApi.frame * DecoderApi.frame * @models double B C :=
  let '(x, m1) := Render.render_unit E m u in (x, old m u pending, m1).
(* A gain of the descriptors: it is the definition of its ID. *)
Definition own_gain (D : descs) (d : pdef) : Prop := m_find (pb_id (pd_base d)) (d_defs D) = Some d /\ mix_gain d.
Definition keyed (D : descs) : Prop := forall i d, m_find i (d_defs D) = Some d -> pb_id (pd_base d) = i.
Definition own_state (D : descs) (m : @models double B C) : Prop :=
  keyed D /\ (forall a, In a (d_aes D) -> 0 < ai_spf a <= 96000) /\ steady (own_gain D) (rm_fin m) /\ good_decs Fine (rm_decs m).
Lemma steady_impl (P Q : pdef -> Prop) (f : @finalizer double B) : (forall d, P d -> Q d) -> steady P f -> steady Q f.
Proof. intros H Hs id subs ls lm l H1 H2 H3 Hl. destruct (Hs id subs ls lm l H1 H2 H3 Hl) as [K1 K2]. split; [exact K1|]. eapply Forall_impl; [|exact K2]. exact H. Qed.
Lemma ends_answers {X} (r : res X) : ends r -> answers r. Proof. intros [[x ->]|[x ->]]; reflexivity. Qed.
Lemma own_configured o x : consistent o -> rendered_mix o x ->
  answers (Render.configure E (do_aes o) x) /\ forall D s r, initialize o = Ok (D, s) -> Render.configure E (do_aes o) x = Ok r -> own_state D r.
Proof.
  intros Co Rx. destruct (configure_safe E Fine Et (do_aes o) x (sound_rendered o x Co Rx)) as [K1 K2].
  { intros i a Hi. destruct Co as [_ [_ C2] _]. destruct (C2 _ _ Hi) as (_ & Va & _). exact Va. }
  split; [exact (ends_answers _ K1)|]. intros D s r Hi Hr. destruct (C53_initial_state o Co D s Hi) as (I1 & I2 & _). split; [|split; [|split; [|exact (proj2 (K2 r Hr))]]].
  - intros i d Hd. apply I1 in Hd as (v & _ & Ei & <-). exact Ei.
  - intros a Ha. rewrite I2 in Ha. apply in_map_iff in Ha as ([i x0] & <- & Ha). cbn [ai_spf snd]. destruct Co as [[_ C1] [_ C2] _]. destruct (C2 _ _ Ha) as (_ & _ & _ & _ & Hc & _). exact (proj2 (proj2 (C1 _ _ Hc))).
  - eapply steady_impl; [|exact (proj1 (K2 r Hr))]. intros d Hd. destruct (gains_defined o x d Co Rx Hd) as [G1 G2]. split; [|exact G2]. apply I1. exists (d, None). split; [exact G1|]. split; reflexivity.
Qed.
Lemma own_rendered D m u pending : own_state D m -> read_unit D u -> answers (fst (fst (own_render m u pending))) /\ own_state D (snd (own_render m u pending)).
Proof.
  intros (Hk & Ha & Hs & Hd) [U1 U2]. unfold own_render. destruct (render_unit_safe E Fine Et (own_gain D) m u Hs Hd) as (K1 & K2 & K3).
  - intros f Hf. destruct (U1 f Hf) as (F1 & F2 & _). auto.
  - intros b d f Hb [Hf Mg] Hid Ty Ho T1 T2. destruct (U2 b Hb) as (d' & (i & h & n & c & c' & Hi & Kc & R) & Eb). destruct (U1 f Ho) as (_ & _ & a & Ea & Ef). pose proof R as R'. unfold read_pblock in R'. apply arun_rres_ok in R' as ([] & _ & R').
    apply arun_bind_ok in R' as (id & c1 & _ & R'). apply arun_rcheck_ok in R' as (Hc & R').
    assert (bl_id (ob_obu b) = id) as Ei. { destruct (mode0 _); apply arun_bind_ok in R' as (l & c2 & _ & R'); cbn [arun] in R'; injection R' as <- _; reflexivity. }
    pose proof (Hk _ _ Hi) as Ek. assert (d' = d) as -> by (replace (pb_id (pd_base d)) with i in Hf by lia; congruence). destruct (read_gain_block d h n c _ c' Kc Mg R) as (_ & Rb & G). apply G.
    apply find_some in Ea as [Ea _]. specialize (Ha a Ea). rewrite T1, T2, Eb in Ef. unfold s64, sN in Ef. change (2^64) with 18446744073709551616 in Ef. change (2^(64-1)) with 9223372036854775808 in Ef. change (2^32) with 4294967296 in Rb. change (2^30) with 1073741824.
    set (x := ob_start b) in *. set (y := Processor.block_duration d (ob_obu b)) in *. pose proof (Z.div_mod (x + y) 18446744073709551616 ltac:(lia)). pose proof (Z.div_mod (x + ai_spf a) 18446744073709551616 ltac:(lia)).
    pose proof (Z.mod_pos_bound (x + y) 18446744073709551616 ltac:(lia)). pose proof (Z.mod_pos_bound (x + ai_spf a) 18446744073709551616 ltac:(lia)).
    assert ((x + y) mod 18446744073709551616 = (x + ai_spf a) mod 18446744073709551616) by (destruct (_ <? _) in Ef; destruct (_ <? _) in Ef; lia). nia.
  - destruct (Render.render_unit E m u) as [x m1]. cbn [fst snd] in *. split; [exact (ends_answers _ K1)|]. split; [exact Hk|]. auto.
Qed.
End Whole.

(* ================= C63 ================= *)
(* Whatever bytes and calls, with the decoder's own parsing, processing and rendering.  Of the parts outside the model - the codec
   libraries, the precomputed matrices, the binaural library - only what [tame] says is asked. *)
Theorem C63_never_crashes_partial : forall F B C (E : renv double F B C) Fine old ps bits fuel k m sch ty cs rs d1,
  tame E Fine -> (8 <= fuel)%nat -> 2^22 < Z.of_nat k -> Forall profile ps ->
  let e := real_env (Render.configure E) ps bits k (own_render E old) in
  order_kept e sch -> Forall call_ok cs -> calls fuel k e cs (create m sch ty) = (rs, d1) -> resets_ok cs rs ->
  no_crash rs /\ length rs = length cs /\ answers (get_mix d1) /\ answers (get_channels d1) /\ answers (get_rate d1) /\ answers (get_size d1).
Proof.
  intros F B C E Fine old ps bits fuel k m sch ty cs rs d1 Et Hf Hk Hp e Ho Ha Ec Er.
  exact (C48_never_crashes_partial _ _ (own_state Fine) fuel k e m sch ty cs rs d1 Hf Hk
    (real_sane _ _ ps bits (own_configured E Fine Et) Hp k _ Hk (own_rendered E old Fine Et)) Ho Ha Ec Er).
Qed.
Theorem C63_never_crashes_from_descriptors_partial : forall F B C (E : renv double F B C) Fine old ps bits fuel k m sch ty bytes r0 d0 cs rs d1,
  tame E Fine -> (8 <= fuel)%nat -> 2^22 < Z.of_nat k -> Forall profile ps ->
  let e := real_env (Render.configure E) ps bits k (own_render E old) in
  order_kept e sch -> Forall byteP bytes -> Forall call_ok cs ->
  create_from_descriptors fuel e m sch ty bytes = (r0, d0) -> calls fuel k e cs d0 = (rs, d1) -> resets_ok cs rs ->
  answers r0 /\ no_crash rs /\ answers (get_mix d1) /\ answers (get_channels d1) /\ answers (get_rate d1) /\ answers (get_size d1).
Proof.
  intros F B C E Fine old ps bits fuel k m sch ty bytes r0 d0 cs rs d1 Et Hf Hk Hp e Ho Hb Ha E0 Ec Er.
  exact (C48_never_crashes_from_descriptors_partial _ _ (own_state Fine) fuel k e m sch ty bytes r0 d0 cs rs d1 Hf Hk
    (real_sane _ _ ps bits (own_configured E Fine Et) Hp k _ Hk (own_rendered E old Fine Et)) Ho Hb Ha E0 Ec Er).
Qed.

(* The decoder as it is compiled (double samples, float gains, its own LPCM decoder): what is asked is only asked of the gain tables, the
   binaural library and the other codecs. *)
Theorem C63_compiled_decoder_never_crashes_partial : forall B C (X : outside B C) Fine tb te old ps bits fuel k m sch ty bytes r0 d0 cs rs d1,
  tame_outside X Fine -> (8 <= fuel)%nat -> 2^22 < Z.of_nat k -> Forall profile ps ->
  let e := real_env (Render.configure (cpp X tb te)) ps bits k (own_render (cpp X tb te) old) in
  order_kept e sch -> Forall byteP bytes -> Forall call_ok cs ->
  create_from_descriptors fuel e m sch ty bytes = (r0, d0) -> calls fuel k e cs d0 = (rs, d1) -> resets_ok cs rs ->
  answers r0 /\ no_crash rs /\ answers (get_mix d1) /\ answers (get_channels d1) /\ answers (get_rate d1) /\ answers (get_size d1).
Proof.
  intros B C X Fine tb te old ps bits fuel k m sch ty bytes r0 d0 cs rs d1 Ht.
  exact (C63_never_crashes_from_descriptors_partial _ _ _ (cpp X tb te) (fine Fine) old ps bits fuel k m sch ty bytes r0 d0 cs rs d1 (cpp_tame X Fine tb te Ht)).
Qed.
(* Without gain tables, a binaural library and other codecs, a stereo LPCM stream is still decoded: the bytes come out as they were written.
   (The gain of 0 dB is 10^(0/20) = 1.) *)
Definition bare : outside unit unit :=
  mkOutside (fun _ => sgl 1 0) (fun _ _ => Err Unknown) (fun _ _ _ => None) (fun b _ => (Err Unknown, b)) (fun _ _ => Err Unknown) (fun c _ => (Err Unknown, c)).
Definition pcm_descs : list Z :=
  [248;6;105;97;109;102;0;0; 0;14;1;105;112;99;109;8;0;0;1;16;0;0;187;128; 8;10;3;0;1;1;0;0;32;16;1;1;
   16;28;7;0;1;1;3;0;0;64;128;247;2;128;0;0;65;128;247;2;128;0;0;1;128;0;0;0;0;0].
Definition pcm_1 : list Z := [1;2;3;4;5;6;7;8; 9;10;11;12;13;14;15;16; 17;18;19;20;21;22;23;24; 25;26;27;28;29;30;31;32].
Definition pcm_2 : list Z := [255;255;0;128;255;127;0;0; 1;0;255;255;2;0;1;128; 17;18;19;20;21;22;23;24; 25;26;27;28;29;30;31;32].
Definition cpp_env : env request models := real_env (Render.configure (cpp bare true true)) [0; 1; 2] 64 big (own_render (cpp bare true true) (fun _ _ f => f)).
Definition pcm_calls : list (call request) :=
  [CDecode ([32; 0; 48; 32] ++ pcm_1 ++ [32; 0; 48; 32] ++ pcm_2); CGet (repeat 0 32); CEnd; CGet (repeat 0 40); CReset; CDecode [1; 2; 3]; CGet []].
Lemma resets_ok_map {M} (cs : list (call M)) rs : Forall (fun r => exists x, r = Ok x) (map r_status rs) -> resets_ok cs rs.
Proof.
  intro H. unfold resets_ok. apply Forall_forall. intros [c r] Hi _ x. cbn [snd]. apply in_combine_r in Hi. rewrite Forall_forall in H. destruct (H (r_status r) (in_map _ _ _ Hi)) as [y ->]. discriminate.
Qed.
Example C63_compiled_decoder_ex :
  tame_outside bare (fun _ => True) /\ 2^22 < Z.of_nat big /\ Forall profile [0; 1; 2] /\ order_kept cpp_env DefaultNoOp /\
  Forall byteP pcm_descs /\ Forall call_ok pcm_calls /\
  exists d0 rs d1, create_from_descriptors 8 cpp_env (mkReq None None) DefaultNoOp Int16LE pcm_descs = (Ok tt, d0) /\
    get_channels d0 = Ok 2 /\ get_rate d0 = Ok 48000 /\ get_size d0 = Ok 8 /\
    calls 8 big cpp_env pcm_calls d0 = (rs, d1) /\ resets_ok pcm_calls rs /\ map r_bytes rs = [[]; pcm_1; []; pcm_2; []; []; []].
Proof.
  assert (forall l, forallb (fun b => (0 <=? b) && (b <? 256)) l = true -> Forall byteP l) as B.
  { intros l H. rewrite forallb_forall in H. apply Forall_forall. intros b Hb. specialize (H _ Hb). unfold byteP. lia. }
  split; [|split; [exact big_ok|]].
  { split; cbn [x_table x_obr x_newdec x_decode bare fst snd]; intros; split; try apply ends_err; try discriminate; exact Logic.I. }
  split; [repeat constructor; unfold profile; lia|]. split; [left; reflexivity|]. split; [apply B; run|]. split.
  { unfold pcm_calls. repeat (constructor; [cbn [call_ok]; try (apply B; run); try (unfold zlen; cbn [repeat length]; change (2^64) with 18446744073709551616; lia); exact Logic.I|]); constructor. }
  exists (snd (create_from_descriptors 8 cpp_env (mkReq None None) DefaultNoOp Int16LE pcm_descs)).
  exists (fst (calls 8 big cpp_env pcm_calls (snd (create_from_descriptors 8 cpp_env (mkReq None None) DefaultNoOp Int16LE pcm_descs)))).
  exists (snd (calls 8 big cpp_env pcm_calls (snd (create_from_descriptors 8 cpp_env (mkReq None None) DefaultNoOp Int16LE pcm_descs)))).
  split.
  { transitivity (fst (create_from_descriptors 8 cpp_env (mkReq None None) DefaultNoOp Int16LE pcm_descs), snd (create_from_descriptors 8 cpp_env (mkReq None None) DefaultNoOp Int16LE pcm_descs)); [apply surjective_pairing|]. apply (f_equal2 pair); [run|reflexivity]. }
  split; [run|]. split; [run|]. split; [run|]. split; [apply surjective_pairing|]. split; [|run].
  apply resets_ok_map. match goal with |- Forall _ ?l => assert (l = [Ok tt; Ok tt; Ok tt; Ok tt; Ok tt; Ok tt; Ok tt]) as -> by run end.
  repeat (constructor; [eauto|]); constructor.
Qed.

(* Both restrictions are needed, and a stream is enough.  Android channel ordering, a 7.1.4 stream, a unit with a parameter block only:
   the program is aborted. *)
Definition descs_714 : list Z :=
  [248;6;105;97;109;102;0;0; 0;14;1;105;112;99;109;8;0;0;1;16;0;0;187;128; 8;16;3;0;1;7;0;1;2;3;4;5;6;0;32;112;7;5;
   16;28;7;0;1;1;3;0;0;64;128;247;2;128;0;0;65;128;247;2;128;0;0;1;164;0;0;0;0;0].
Theorem C63_unit_without_audio_refuted :
  let c := create_from_descriptors 8 cpp_env (mkReq None None) ForAndroid Int16LE descs_714 in
  let a := calls 8 big cpp_env [CDecode [32; 0; 24; 6; 64; 8; 8; 0; 0; 0; 32; 0]] (snd c) in
  fst c = Ok tt /\ get_mix (snd c) = Ok (7, Some 9) /\ get_channels (snd c) = Ok 12 /\ map r_status (fst a) = [Abort].
Proof. cbv zeta. split; [run|]. split; [run|]. split; run. Qed.
(* A stream with a second mix presentation whose codec is not supported: asking for it fails, and the next call uses freed memory. *)
Definition descs_two_codecs : list Z :=
  [248;6;105;97;109;102;2;2; 0;14;1;105;112;99;109;8;0;0;1;16;0;0;187;128; 0;20;2;79;112;117;115;192;7;255;252;1;2;1;56;0;0;187;128;0;0;0;
   8;10;3;0;1;1;0;0;32;16;1;1; 8;10;4;0;2;1;1;0;32;16;1;1;
   16;28;7;0;1;1;3;0;0;64;128;247;2;128;0;0;65;128;247;2;128;0;0;1;128;0;0;0;0;0;
   16;28;8;0;1;1;4;0;0;66;128;247;2;128;0;0;67;128;247;2;128;0;0;1;128;0;0;0;0;0].
Theorem C63_failed_reset_refuted :
  let c := create_from_descriptors 8 cpp_env (mkReq None None) DefaultNoOp Int16LE descs_two_codecs in
  let a := calls 8 big cpp_env [CResetMix (mkReq (Some 8) None); CDecode [32; 0]] (snd c) in
  fst c = Ok tt /\ get_mix (snd c) = Ok (7, Some 0) /\ map r_status (fst a) = [Err Unknown; UB].
Proof. cbv zeta. split; [run|]. split; run. Qed.
