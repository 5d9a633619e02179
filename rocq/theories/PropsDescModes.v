(* C52: parsing descriptors: what comes out, and that the two ways to give descriptors to a decoder agree. *)
From Coq Require Import Reals Permutation.
From Flocq Require Import Core BinarySingleNaN.
From Verif Require Import Base WriteBuf ReadBuf Leb BufSpec LebSpec BitFacts WriteBufFacts ReadBufFacts LebFacts
  ParseFacts EndToEnd ObuHeader ObuHeaderFacts FrameFacts SeqFacts PureFacts SimpleObus CodecConfig Params AudioElement MixPresentation
  Timing ParamManager AeData Profile MixSelect Processor PropsObu ProcFacts StreamSpec StreamFacts Session SessionFacts PropsProc PropsSession
  DecoderFacts Reorder Pcm PropsPcm PropsLoss DecoderApi PropsDecoder PropsDecoderStream Descriptors DescFacts MixStable PropsDesc PropsInit PropsCreate PropsDescStream.
Local Open Scope Z_scope.

(* ================= SPEC ================= *)
(* The first OBU of [rest] belongs to a temporal unit (its header is there). *)
Definition begins_unit (rest : list Z) : Prop :=
  exists b0 size tail, rest = b0 :: size ++ tail /\ byteP b0 /\ is_leb size /\ zlen size <= 8 /\ uleb_value size <= 2^21 /\
    temporal_unit_type (b0 / 8) = true.
(* Parsing descriptors at the beginning of [src]: status, descriptors, and the bit position afterwards. *)
Definition parse_at (fuel cap k : nat) (bits : Z) (exact : bool) (src : list Z) : res (res dobus * bool * Z) :=
  fst (crun fuel (read_at 0 (process_descriptors k bits exact)) (r_create cap src)).

(* ================= proofs ================= *)
Lemma begins_fill rest : begins_unit rest -> exists t total r, prun fill_header_metadata (bytes_bits rest) = POk (t, total) r /\ temporal_unit_type t = true.
Proof. intros (b0 & size & tail & -> & Hb & Hs & Hk & Hv & Ht). rewrite fill_obu by assumption. eauto 10. Qed.

Lemma header_not_empty s p T x c : (p <= length s)%nat -> arun read_header (at_byte (firstn (p + T) s) p) = (Ok x, c) -> (1 <= T)%nat.
Proof.
  intros Hp E. destruct T; [|lia]. exfalso. rewrite Nat.add_0_r in E. pose proof (arun_header (firstn p s) p ltac:(rewrite firstn_length; lia)) as A.
  rewrite skipn_all2 in A by (rewrite firstn_length; lia). change (prun read_header (bytes_bits [])) with (@PNeed (header * Z)) in A. destruct A as (er & c' & A). congruence.
Qed.
Lemma dscan_more : forall k j bits ex s p o, dscan k bits ex s p o <> DCrash -> dscan (k + j) bits ex s p o = dscan k bits ex s p o.
Proof.
  induction k as [|k IH]; intros j bits ex s p o E; [contradiction E; reflexivity|]. cbn [Nat.add dscan] in *.
  destruct (prun fill_header_metadata _) as [|er|[t total] r]; try reflexivity. destruct (temporal_unit_type t); [reflexivity|].
  destruct (_ <? total); [reflexivity|]. cbv zeta in *. destruct (arun read_header _) as [[[h n]| | | |] c]; try reflexivity.
  destruct (fst (arun _ c)) as [[|[o2| | | |]]| | | |]; try reflexivity.
  - destruct (do_seq o2); [|reflexivity]. destruct (_ && _); [reflexivity|]. apply IH, E.
  - destruct (do_seq o); [|reflexivity]. destruct (_ && _); [reflexivity|]. apply IH, E.
Qed.
Lemma dscan_pos : forall k bits ex s p o o1 p1, (p <= length s)%nat -> dscan k bits ex s p o = DDone o1 p1 -> (p <= p1 <= length s)%nat.
Proof.
  induction k as [|k IH]; intros bits ex s p o o1 p1 Hp E; [discriminate E|]. cbn [dscan] in E.
  destruct (prun fill_header_metadata _) as [|er|[t total] r] eqn:Ef; try discriminate E. pose proof (fill_total _ _ _ _ Ef) as T0. destruct (temporal_unit_type t).
  { destruct ex; [discriminate E|]. destruct (do_seq o); [|discriminate E]. injection E as <- <-. lia. }
  destruct (_ <? total) eqn:Et; [discriminate E|]. unfold zlen in Et. rewrite skipn_length in Et. cbv zeta in *. destruct (arun read_header _) as [[[h n]| | | |] c]; try discriminate E.
  destruct (fst (arun _ c)) as [[|[o2| | | |]]| | | |]; try discriminate E; try exact E.
  - destruct (do_seq o); [|discriminate E]. destruct (_ && _); injection E as <- <-; lia.
  - destruct (do_seq o2); [|discriminate E]. destruct (_ && _); [injection E as <- <-; lia|]. apply IH in E; lia.
  - destruct (do_seq o); [|discriminate E]. destruct (_ && _); [injection E as <- <-; lia|]. apply IH in E; lia.
Qed.
(* Exact parsing of [s] and parsing of a stream which begins with [s]. *)
Lemma exact_stream : forall k bits s rest p o o1 p1, (p < length s)%nat -> begins_unit rest -> dscan k bits true s p o = DDone o1 p1 ->
  dscan (S k) bits false (s ++ rest) p o = DDone o1 p1.
Proof.
  induction k as [|k IH]; intros bits s rest p o o1 p1 Hp Hr E; [discriminate E|]. cbn [dscan] in E. remember (S k) as k1. cbn [dscan]. subst k1.
  rewrite skipn_app_le, bytes_bits_app by lia. pose proof (prun_ext fill_header_metadata (bytes_bits (skipn p s)) (bytes_bits rest)) as X.
  destruct (prun fill_header_metadata (bytes_bits (skipn p s))) as [|er|[t total] r] eqn:Ef; try discriminate E. rewrite X. pose proof (fill_total _ _ _ _ Ef) as T0.
  destruct (temporal_unit_type t); [discriminate E|]. destruct (zlen (skipn p s) <? total) eqn:Et; [discriminate E|].
  replace (zlen (skipn p s ++ rest) <? total) with false by (unfold zlen in *; rewrite app_length; lia).
  unfold zlen in Et. rewrite skipn_length in Et. cbv zeta in *. rewrite firstn_app_le by lia.
  assert (forall o2, (match do_seq o2 with None => DFail | Some _ => if true && (length s <=? p + Z.to_nat total)%nat then DDone o2 (p + Z.to_nat total) else dscan k bits true s (p + Z.to_nat total) o2 end) = DDone o1 p1 ->
    match do_seq o2 with None => DFail | Some _ => if false && (length (s ++ rest) <=? p + Z.to_nat total)%nat then DDone o2 (p + Z.to_nat total) else dscan (S k) bits false (s ++ rest) (p + Z.to_nat total) o2 end = DDone o1 p1) as Hgo.
  { intros o2 H. destruct (do_seq o2) eqn:Es; [|discriminate H]. cbn [andb] in *. destruct (length s <=? p + Z.to_nat total)%nat eqn:El.
    - injection H as -> <-. assert (p + Z.to_nat total = length s)%nat as -> by lia. cbn [dscan]. rewrite skipn_app, skipn_all, Nat.sub_diag. cbn [skipn app].
      destruct (begins_fill _ Hr) as (t2 & total2 & r2 & -> & ->). rewrite Es. reflexivity.
    - apply IH; [lia|exact Hr|exact H]. }
  destruct (arun read_header _) as [[[h n]| | | |] c]; try discriminate E. destruct (fst (arun _ c)) as [[|[o2| | | |]]| | | |]; try discriminate E; cbn [andb] in *.
  - destruct (do_seq o); [|discriminate E]. replace (length s <=? p)%nat with false in E by lia. exact E.
  - apply Hgo, E.
  - apply Hgo, E.
Qed.
Lemma stream_exact : forall k bits s p o o1 p1, zlen s < 2^32 - 64 -> (p < p1)%nat -> (p <= length s)%nat -> dscan k bits false s p o = DDone o1 p1 ->
  dscan k bits true (firstn p1 s) p o = DDone o1 p1.
Proof.
  induction k as [|k IH]; intros bits s p o o1 p1 Hz Hp Hl E; [discriminate E|]. pose proof (dscan_pos _ _ _ _ _ _ _ _ Hl E) as P1. cbn [dscan] in *.
  set (w := firstn p1 s). assert (s = w ++ skipn p1 s) as Es by (symmetry; apply firstn_skipn). assert (length w = p1) as Lw by (unfold w; rewrite firstn_length; lia).
  assert (skipn p s = skipn p w ++ skipn p1 s) as Esk by (rewrite Es at 1; apply skipn_app_le; lia).
  pose proof (prun_ext fill_header_metadata (bytes_bits (skipn p w)) (bytes_bits (skipn p1 s))) as X. rewrite <- bytes_bits_app, <- Esk in X.
  destruct (prun fill_header_metadata (bytes_bits (skipn p s))) as [|er|[t total] r] eqn:Ef; try discriminate E. pose proof (fill_total _ _ _ _ Ef) as T0.
  destruct (temporal_unit_type t) eqn:Tt. { destruct (do_seq o); [|discriminate E]. injection E as <- <-. lia. }
  destruct (zlen (skipn p s) <? total) eqn:Et; [discriminate E|]. cbv zeta in *.
  assert (p + Z.to_nat total <= p1)%nat as Hq.
  { destruct (arun read_header _) as [[[h n]| | | |] c]; try discriminate E. unfold zlen in Et. rewrite skipn_length in Et. destruct (fst (arun _ c)) as [[|[o2| | | |]]| | | |]; try discriminate E; cbn [andb] in *.
    - destruct (do_seq o); [|discriminate E]. injection E as <- <-. lia.
    - destruct (do_seq o2); [|discriminate E]. apply dscan_pos in E; lia.
    - destruct (do_seq o); [|discriminate E]. apply dscan_pos in E; lia. }
  assert (exists r', prun fill_header_metadata (bytes_bits (skipn p w)) = POk (t, total) r') as [r' Ew].
  { destruct (prun fill_header_metadata (bytes_bits (skipn p w))) as [|er|[t2 total2] r2] eqn:Ew.
    - exfalso. set (v := firstn (p + Z.to_nat total) s) in E. unfold zlen in Et. rewrite skipn_length in Et.
      assert (length v = p + Z.to_nat total)%nat as Lv by (unfold v; rewrite firstn_length; lia).
      assert (w = v ++ skipn (p + Z.to_nat total) w) as Ev.
      { rewrite <- (firstn_skipn (p + Z.to_nat total) w) at 1. f_equal. unfold v, w. rewrite firstn_firstn. f_equal. lia. }
      pose proof (arun_header v p ltac:(lia)) as Ah. destruct (arun read_header (at_byte v p)) as [[[h n]| | | |] c]; try discriminate E.
      destruct (prun read_header (bytes_bits (skipn p v))) as [|?|[h2 n2] r2] eqn:Eh; [destruct Ah as (? & ? & Ah); discriminate Ah|destruct Ah as (? & ? & Ah); discriminate Ah|].
      destruct (header_shape _ _ _ _ Eh) as (t3 & total3 & r3 & E3 & _).
      { rewrite bytes_bits_length, skipn_length. unfold zlen in Hz. change (2^32) with 4294967296 in *. lia. }
      pose proof (prun_ext fill_header_metadata (bytes_bits (skipn p v)) (bytes_bits (skipn (p + Z.to_nat total) w))) as Y. rewrite E3, <- bytes_bits_app, <- skipn_app_le, <- Ev in Y by lia. congruence.
    - discriminate X.
    - injection X as <- <- _. eauto. }
  rewrite Ew, Tt. replace (zlen (skipn p w) <? total) with false by (unfold zlen; rewrite skipn_length; lia).
  replace (firstn (p + Z.to_nat total) w) with (firstn (p + Z.to_nat total) s) by (rewrite Es at 1; apply firstn_app_le; lia).
  assert (forall o2, (match do_seq o2 with None => DFail | Some _ => dscan k bits false s (p + Z.to_nat total) o2 end) = DDone o1 p1 ->
    match do_seq o2 with None => DFail | Some _ => if true && (length w <=? p + Z.to_nat total)%nat then DDone o2 (p + Z.to_nat total) else dscan k bits true w (p + Z.to_nat total) o2 end = DDone o1 p1) as Hgo.
  { intros o2 H. destruct (do_seq o2) eqn:Eq; [|discriminate H]. cbn [andb]. destruct (length w <=? p + Z.to_nat total)%nat eqn:El.
    - assert (p + Z.to_nat total = p1)%nat as -> by lia. f_equal. clear IH. destruct k as [|k]; [discriminate H|]. cbn [dscan] in H.
      clear X Esk Ew Ef Et Tt E. destruct (prun fill_header_metadata _) as [|er|[t2 total2] r2] eqn:Ef2; try discriminate H. pose proof (fill_total _ _ _ _ Ef2) as T2.
      destruct (temporal_unit_type t2). { rewrite Eq in H. congruence. }
      destruct (_ <? total2) eqn:Et2; [discriminate H|]. unfold zlen in Et2. rewrite skipn_length in Et2. cbv zeta in H. destruct (arun read_header _) as [[[h n]| | | |] c] eqn:Eh; try discriminate H. apply header_not_empty in Eh; [|lia].
      destruct (fst (arun _ c)) as [[|[o3| | | |]]| | | |]; try discriminate H; cbn [andb] in H.
      + rewrite Eq in H. congruence.
      + destruct (do_seq o3); [|discriminate H]. apply dscan_pos in H; lia.
      + rewrite Eq in H. apply dscan_pos in H; lia.
    - apply IH; [exact Hz|lia|unfold zlen in Et; rewrite skipn_length in Et; lia|exact H]. }
  destruct (arun read_header _) as [[[h n]| | | |] c]; try discriminate E. destruct (fst (arun _ c)) as [[|[o2| | | |]]| | | |]; try discriminate E; cbn [andb] in *.
  - destruct (do_seq o); [|discriminate E]. injection E as <- <-. lia.
  - apply Hgo, E.
  - apply Hgo, E.
Qed.

(* ---- the parser ---- *)
Lemma parse_arun fuel cap k bits ex src : (8 <= fuel)%nat -> (1 <= cap)%nat -> Forall byteP src ->
  parse_at fuel cap k bits ex src = at_result (arun (descriptor_loop k bits ex 0 do_empty) (at_byte src 0)).
Proof.
  intros Hf Hc Hb. unfold parse_at. rewrite crun_read_at by (try assumption; unfold zlen; lia). unfold process_descriptors. rewrite arun_bind, arun_rtell. reflexivity.
Qed.
Lemma parse_dscan fuel cap k bits ex src : (8 <= fuel)%nat -> (1 <= cap)%nat -> Forall byteP src -> mixes_known src -> zlen src < 2^32 - 64 -> zlen src < Z.of_nat k ->
  match dscan k bits ex src 0 do_empty with
  | DWait => parse_at fuel cap k bits ex src = Ok (Err ResourceExhausted, true, 0)
  | DFail => exists er, parse_at fuel cap k bits ex src = Err er
  | DDone o p => parse_at fuel cap k bits ex src = Ok (Ok o, false, 8 * Z.of_nat p)
  | DCrash => False
  end.
Proof.
  intros Hf Hc Hb Hm Hz Hk. rewrite (parse_arun fuel cap k bits ex src Hf Hc Hb).
  pose proof (loop_refines k bits ex 0 src 0 do_empty (known_stable _ Hm) Hz ltac:(unfold zlen; lia) (DS_first src) ltac:(lia)) as X.
  pose proof (loop_sound k bits ex 0 do_empty (at_byte src 0) empty_consistent (at_byte_cok src 0 ltac:(lia)) eq_refl ltac:(lia)) as Y.
  cbn [c_bits at_byte] in Y. rewrite bytes_bits_length in Y. unfold c_left in Y. cbn [c_bits c_pos at_byte] in Y. rewrite bytes_bits_length in Y.
  specialize (Y ltac:(unfold zlen in *; change (2^32) with 4294967296 in *; lia) ltac:(unfold zlen in *; lia)). change (Z.of_nat 0) with 0 in Y.
  destruct (dscan k bits ex src 0 do_empty) as [| |o p|]; cbn [refines] in X.
  - rewrite X. reflexivity.
  - destruct X as (er & c' & ->). cbn [at_result]. eauto.
  - destruct X as [-> _]. cbn [at_result c_pos at_byte]. do 2 f_equal. lia.
  - destruct X as (x & c' & X & Hx). change (mkC (bytes_bits src) (8 * 0) (Some true)) with (at_byte src 0) in Y. rewrite X in Y. cbn [loop_good] in Y. destruct x; try discriminate Hx; contradiction.
Qed.

(* Whatever the bytes are: parsing ends, does not crash, and what it gives is consistent; if data are missing, nothing is consumed. *)
Theorem C52_parser_sound : forall fuel cap k bits exact src, (8 <= fuel)%nat -> (1 <= cap)%nat -> Forall byteP src -> zlen src < 2^32 - 64 -> zlen src < Z.of_nat k ->
  match parse_at fuel cap k bits exact src with
  | Ok (Ok o, insufficient, p) => consistent o /\ do_seq o <> None /\ insufficient = false /\ 0 <= p <= 8 * zlen src
  | Ok (Err er, insufficient, p) => insufficient = true /\ er = ResourceExhausted /\ p = 0
  | Err _ => True
  | _ => False
  end.
Proof.
  intros fuel cap k bits exact src Hf Hc Hb Hz Hk. rewrite (parse_arun fuel cap k bits exact src Hf Hc Hb).
  pose proof (loop_sound k bits exact 0 do_empty (at_byte src 0) empty_consistent (at_byte_cok src 0 ltac:(lia)) eq_refl ltac:(lia)) as Y.
  cbn [c_bits at_byte] in Y. rewrite bytes_bits_length in Y. unfold c_left in Y. cbn [c_bits c_pos at_byte] in Y. rewrite bytes_bits_length in Y.
  specialize (Y ltac:(unfold zlen in *; change (2^32) with 4294967296 in *; lia) ltac:(unfold zlen in *; lia)). change (Z.of_nat 0) with 0 in Y.
  change (mkC (bytes_bits src) (8 * 0) (Some true)) with (at_byte src 0) in Y.
  pose proof (arun_cok (descriptor_loop k bits exact 0 do_empty) (at_byte src 0) (at_byte_cok src 0 ltac:(lia))) as K.
  pose proof (arun_bits (descriptor_loop k bits exact 0 do_empty) (at_byte src 0)) as B.
  destruct (arun (descriptor_loop k bits exact 0 do_empty) (at_byte src 0)) as [[[[o|er| | |] ins]|er| | |] c1]; cbn [loop_good at_result snd] in *; try contradiction; try exact I.
  - destruct Y as (Y1 & Y2 & Y3 & Y4). split; [exact Y1|]. split; [exact Y2|]. split; [exact Y3|]. unfold cok in K. rewrite B in K. cbn [c_bits at_byte] in K. rewrite bytes_bits_length in K. unfold zlen. lia.
  - destruct Y as (Y1 & Y2 & Y3). rewrite Y3. auto.
Qed.
(* What is accepted as a complete set of descriptors is what is found in a stream in which a temporal unit follows, and the other way round. *)
Theorem C52_exact_then_stream : forall fuel cap k bits descs rest o p, (8 <= fuel)%nat -> (1 <= cap)%nat -> Forall byteP (descs ++ rest) -> mixes_known (descs ++ rest) ->
  zlen (descs ++ rest) < 2^32 - 64 -> zlen (descs ++ rest) < Z.of_nat k -> begins_unit rest ->
  parse_at fuel cap k bits true descs = Ok (Ok o, false, p) -> parse_at fuel cap k bits false (descs ++ rest) = Ok (Ok o, false, p).
Proof.
  intros fuel cap k bits descs rest o p Hf Hc Hb Hm Hz Hk Hr E. pose proof Hb as Hb'. apply Forall_app in Hb' as [Hb1 _].
  assert (zlen descs <= zlen (descs ++ rest)) as Hl by (unfold zlen; rewrite app_length; lia).
  pose proof (parse_dscan fuel cap k bits true descs Hf Hc Hb1 (known_prefix _ _ Hm) ltac:(lia) ltac:(lia)) as X.
  pose proof (parse_dscan fuel cap k bits false (descs ++ rest) Hf Hc Hb Hm Hz Hk) as Y.
  destruct (dscan k bits true descs 0 do_empty) as [| |o1 p1|] eqn:Ed; try contradiction; [congruence|destruct X as (er & X); congruence|].
  rewrite X in E. injection E as -> <-.
  assert (dscan (S k) bits false (descs ++ rest) 0 do_empty = DDone o p1) as F.
  { apply exact_stream; [|exact Hr|exact Ed]. destruct descs; [|cbn [length]; lia]. exfalso. destruct k; [discriminate Ed|discriminate Ed]. }
  assert (dscan k bits false (descs ++ rest) 0 do_empty = DDone o p1) as G.
  { rewrite <- F. symmetry. replace (S k) with (k + 1)%nat by lia. apply dscan_more. intro Z0. rewrite Z0 in Y. exact Y. }
  rewrite G in Y. exact Y.
Qed.
Theorem C52_stream_then_exact : forall fuel cap k bits s o p, (8 <= fuel)%nat -> (1 <= cap)%nat -> Forall byteP s -> mixes_known s ->
  zlen s < 2^32 - 64 -> zlen s < Z.of_nat k -> parse_at fuel cap k bits false s = Ok (Ok o, false, p) ->
  exists n, p = 8 * Z.of_nat n /\ (0 < n <= length s)%nat /\ parse_at fuel cap k bits true (firstn n s) = Ok (Ok o, false, p).
Proof.
  intros fuel cap k bits s o p Hf Hc Hb Hm Hz Hk E. pose proof (parse_dscan fuel cap k bits false s Hf Hc Hb Hm Hz Hk) as X.
  destruct (dscan k bits false s 0 do_empty) as [| |o1 p1|] eqn:Ed; try contradiction; [congruence|destruct X as (er & X); congruence|].
  rewrite X in E. injection E as -> <-. pose proof (dscan_pos k bits false s 0 do_empty o p1 ltac:(lia) Ed) as P1.
  assert (0 < p1)%nat as P0.
  { destruct p1; [|lia]. exfalso. pose proof (C52_parser_sound fuel cap k bits false s Hf Hc Hb Hz Hk) as Y. rewrite X in Y. destruct Y as (_ & Y & _). clear X.
    destruct k as [|k]; [discriminate Ed|]. cbn [dscan] in Ed. destruct (prun fill_header_metadata _) as [|er|[t total] r]; try discriminate Ed. destruct (temporal_unit_type t); [discriminate Ed|].
    destruct (_ <? total) eqn:Et; [discriminate Ed|]. unfold zlen in Et. rewrite skipn_length in Et. cbv zeta in Ed. destruct (arun read_header _) as [[[h n]| | | |] c] eqn:Eh; try discriminate Ed. apply header_not_empty in Eh; [|lia].
    destruct (fst (arun _ c)) as [[|[o2| | | |]]| | | |]; try discriminate Ed; cbn [andb do_seq do_empty] in Ed; try discriminate Ed.
    destruct (do_seq o2); [|discriminate Ed]. apply dscan_pos in Ed; lia. }
  exists p1. split; [reflexivity|]. split; [lia|].
  pose proof (stream_exact k bits s 0 do_empty o p1 Hz P0 ltac:(lia) Ed) as F.
  assert (s = firstn p1 s ++ skipn p1 s) as Es by (symmetry; apply firstn_skipn).
  assert (zlen (firstn p1 s) <= zlen s) as Hl by (unfold zlen; rewrite firstn_length; lia).
  pose proof (parse_dscan fuel cap k bits true (firstn p1 s) Hf Hc) as Y. rewrite F in Y. apply Y; try lia.
  - rewrite Es in Hb. apply Forall_app in Hb. apply Hb.
  - rewrite Es in Hm. exact (known_prefix _ _ Hm).
Qed.

(* ---- the decoder ---- *)
Lemma small_zlen l : small l -> zlen l < 2^32 - 64.
Proof. intro H. exact (small_z 8 ltac:(lia) l H). Qed.
Section Decoders.
Context {R : Type} (configure : aemap -> mixp -> res R) (ps : profiles) (bits : Z) (fuel k : nat)
        (render : R -> outunit -> frame -> res frame * frame * R).
Notation e := (real_env configure ps bits k render).
Hypothesis Hf : (8 <= fuel)%nat.
Definition set_up (d : dstate request R) (np : newproc R) (desc rest : list Z) : Prop :=
  ds_desc d = desc /\ ds_ended d = false /\ ds_frame d = [] /\ unread (ds_buf d) rest /\
  ds_proc d = Some (mkP (np_D np) (np_s np) (mkU tud_empty tud_empty) (np_R np) (np_rate np) (np_size np) (ds_gen d)) /\
  exists mix lay, np_mix np = Ok mix /\ np_layout np = Ok lay /\ ds_mix d = Some (mix, lay).
Lemma made_set_up d np desc rest : made d np desc rest -> set_up d np desc rest.
Proof. intros (M0 & M1 & M2 & M3 & M4 & M5 & M6). unfold set_up. auto 10. Qed.
(* Creating the processor on a buffer which holds [l]. *)
Lemma processor_on ex q (d : dstate request R) l v y d1 : ds_fromd d = ex -> ds_req d = q -> ds_proc d = None -> ds_ended d = false -> ds_frame d = [] ->
  rrel (ds_buf d) (mkC (bytes_bits l) 0 v) -> Forall byteP l -> mixes_known l -> small l -> create_processor fuel e d = (y, d1) ->
  match dscan k bits ex l 0 do_empty with
  | DWait => y = Err (if ex then InvalidArgument else ResourceExhausted) /\ complete d1 = false
  | DFail => y = Err InvalidArgument /\ complete d1 = false
  | DDone o p => (p <= length l)%nat /\
      match creation configure ps q o with
      | Ok (Some np, _) => y = Ok tt /\ set_up d1 np (firstn p l) (skipn p l)
      | Ok (None, _) => y = Err InvalidArgument /\ complete d1 = false
      | _ => crashed y = true
      end
  | DCrash => crashed y = true
  end.
Proof.
  intros Fd Fq W1 W2 W4 Rb Hb Hm Hs Ec. unfold create_processor in Ec. rewrite Fd, Fq in Ec.
  destruct (crun_refines fuel (create_prog e ex q) Hf (ds_buf d) _ Rb) as [Er R1].
  pose proof (create_prog_on configure ps bits fuel k render Hf ex q l v Hb Hm Hs) as X. cbv zeta in X.
  destruct (crun fuel (create_prog e ex q) (ds_buf d)) as [z b2], (arun (create_prog e ex q) (mkC (bytes_bits l) 0 v)) as [z' c2] eqn:Ea. cbn [fst snd] in Er, R1. subst z'.
  assert (forall b, complete (set_buf d b) = false) as Cf by (intro b; unfold complete; cbn [ds_proc set_buf]; rewrite W1; reflexivity).
  destruct (dscan k bits ex l 0 do_empty) as [| |o p|].
  - injection X as -> ->. injection Ec as <- <-. auto.
  - destruct X as (c' & X). injection X as -> ->. injection Ec as <- <-. auto.
  - destruct X as [Hp X]. split; [exact Hp|]. destruct (creation_cases configure ps q o) as [(np & mix & lay & Ecr & Em & El)|[Ecr|Ecr]].
    + rewrite Ecr in X |- *. injection X as -> ->. destruct (rrel_flush _ _ R1) as (b3 & Ef & R3). rewrite Ef, Em, El in Ec. injection Ec as <- <-.
      split; [reflexivity|]. unfold set_up. cbn [ds_desc ds_ended ds_fromd ds_frame ds_buf ds_proc ds_mix ds_gen set_proc set_mix set_buf set_desc].
      split; [reflexivity|]. split; [exact W2|]. split; [exact W4|]. split; [|split; [reflexivity|eauto]].
      eexists. split; [exact R3|]. assert (on (at_byte l p) (skipn p l)) as On2 by (split; [apply at_byte_cok; exact Hp|apply at_byte_skip]).
      split; [exact (on_flush _ _ On2)|]. unfold small in Hs. cbn [c_bits]. rewrite skipn_length. cbn [at_byte c_bits]. rewrite bytes_bits_length. lia.
    + rewrite Ecr in X |- *. destruct X as (c' & X). injection X as -> ->. injection Ec as <- <-. auto.
    + assert (exists y2 c', (z, c2) = (Ok y2, c') /\ crashed y2 = true) as (y2 & c' & X2 & Y) by (destruct (creation configure ps q o) as [[[?|] ?]| | | |]; try discriminate Ecr; exact X).
      destruct (creation configure ps q o) as [[[?|] ?]| | | |]; try discriminate Ecr; injection X2 as -> ->; destruct y2 as [?| | | |]; try discriminate Y; injection Ec as <- <-; reflexivity.
  - destruct X as (y2 & c' & X2 & Y). injection X2 as -> ->. destruct y2 as [?| | | |]; try discriminate Y; injection Ec as <- <-; reflexivity.
Qed.
Lemma push_small l x (b : rbuf) v : rrel b (mkC (bytes_bits l) 0 v) -> small (l ++ x) -> Forall byteP x ->
  exists b1, r_push x b = (Ok tt, b1) /\ rrel b1 (mkC (bytes_bits (l ++ x)) 0 v).
Proof.
  intros W6 Hs Bx. unfold small in *. pose proof (rrel_len _ _ W6) as Lr. cbn [c_bits] in Lr. rewrite bytes_bits_length in Lr. rewrite app_length in Hs.
  assert (exists b1, r_push x b = (Ok tt, b1)) as [b1 Eb].
  { unfold r_push. change (Z.to_nat (2^22)) with (Z.to_nat 4194304) in *. change (2^22) with 4194304. unfold u64, zlen.
    rewrite Z.mod_small by (change (2^64) with 18446744073709551616; lia). replace (_ >? _) with false by lia. eauto. }
  exists b1. split; [exact Eb|]. destruct (push_ok _ _ _ _ W6 ltac:(cbn [c_bits]; rewrite bytes_bits_length; lia) Bx Eb) as [R1 _].
  cbn [c_bits c_pos c_valid] in R1. rewrite <- bytes_bits_app in R1. exact R1.
Qed.
Lemma from_descriptors q sch ty bytes r d : Forall byteP bytes -> mixes_known bytes -> small bytes -> create_from_descriptors fuel e q sch ty bytes = (r, d) ->
  fixed q sch ty d /\ ds_fromd d = true /\
  match dscan k bits true bytes 0 do_empty with
  | DDone o p => (p <= length bytes)%nat /\
      match creation configure ps q o with
      | Ok (Some np, _) => r = Ok tt /\ set_up d np (firstn p bytes) (skipn p bytes)
      | Ok (None, _) => r = Err Unknown /\ complete d = false
      | _ => crashed r = true
      end
  | DCrash => crashed r = true
  | _ => r = Err Unknown /\ complete d = false
  end.
Proof.
  intros Hb Hm Hs E. destruct (@waiting_create R fuel Hf q sch ty) as [(_ & _ & _ & _ & _ & v & W6) _].
  destruct (push_small [] bytes _ v W6 Hs Hb) as (b1 & Ep & Rb). rewrite app_nil_l in Rb. unfold create_from_descriptors in E. rewrite Ep in E.
  destruct (create_processor fuel e (set_fromd (set_buf (create q sch ty) b1) true)) as [y d1] eqn:Ec. injection E as <- <-.
  pose proof (create_processor_kept _ _ _ _ _ Ec) as (Kty & Kfd & Ksc & Krq & Kgen & Ken & Kro & Kfr & _ & _). cbn [ds_type ds_fromd ds_scheme ds_req ds_gen ds_ended ds_reord ds_frame ds_proc set_buf set_fromd create] in *.
  split; [unfold fixed; auto|]. split; [exact Kfd|].
  pose proof (processor_on true q (set_fromd (set_buf (create q sch ty) b1) true) bytes v y d1 eq_refl eq_refl eq_refl eq_refl eq_refl Rb Hb Hm Hs Ec) as X.
  destruct (dscan k bits true bytes 0 do_empty) as [| |o p|].
  - destruct X as [-> X]. auto.
  - destruct X as [-> X]. auto.
  - destruct X as [Hp X]. split; [exact Hp|]. destruct (creation configure ps q o) as [[[np|] ins]| | | |]; try (destruct X as [-> X]; auto); destruct y; try discriminate X; reflexivity.
  - destruct y; try discriminate X; reflexivity.
Qed.
End Decoders.

(* ================= SPEC ================= *)
(* Two decoders have the same descriptors, answer alike, and their processors start alike, about to read [l] and [l']. *)
Definition same_start {M R} (d d' : dstate M R) (l l' : list Z) : Prop :=
  complete d = true /\ complete d' = true /\ ds_desc d = ds_desc d' /\
  get_mix d = get_mix d' /\ get_channels d = get_channels d' /\ get_rate d = get_rate d' /\ get_size d = get_size d' /\
  reorderer_for d = reorderer_for d' /\ available d = false /\ available d' = false /\ unread (ds_buf d) l /\ unread (ds_buf d') l' /\
  match ds_proc d, ds_proc d' with
  | Some p, Some p' => p_D p = p_D p' /\ p_s p = p_s p' /\ p_u p = p_u p' /\ p_R p = p_R p'
  | _, _ => False
  end.
Lemma set_up_same {R} (d d' : dstate request R) np desc l l' q sch ty : set_up d np desc l -> set_up d' np desc l' -> fixed q sch ty d -> fixed q sch ty d' -> same_start d d' l l'.
Proof.
  intros (A1 & A2 & A4 & A5 & A6 & mixa & laya & A7 & A8 & A9) (B1 & B2 & B4 & B5 & B6 & mixb & layb & B7 & B8 & B9) (G1 & G2 & G3 & G4) (H1 & H2 & H3 & H4).
  rewrite A7 in B7. injection B7 as <-. rewrite A8 in B8. injection B8 as <-.
  assert (complete d = true) as K1 by (unfold complete; rewrite A6; reflexivity). assert (complete d' = true) as K2 by (unfold complete; rewrite B6; reflexivity).
  unfold same_start. split; [exact K1|]. split; [exact K2|]. split; [congruence|].
  split; [unfold get_mix; rewrite K1, K2, A9, B9; reflexivity|]. split; [unfold get_channels; rewrite K1, K2, A9, B9; reflexivity|].
  split; [unfold get_rate; rewrite A6, B6; reflexivity|]. split; [unfold get_size; rewrite A6, B6; reflexivity|].
  split; [unfold reorderer_for; rewrite A9, B9, G2, H2, G4, H4; reflexivity|].
  split; [unfold available; rewrite A4; reflexivity|]. split; [unfold available; rewrite B4; reflexivity|]. split; [exact A5|]. split; [exact B5|].
  rewrite A6, B6. cbn [p_D p_s p_u p_R]. auto.
Qed.

(* C52 for decoders: the descriptors which a decoder found in a stream can be given to CreateFromDescriptors, with the same result; *)
Theorem C52_from_found_descriptors : forall R (configure : aemap -> mixp -> res R) ps bits render fuel k q sch ty L r d,
  let e := real_env configure ps bits k render in
  (8 <= fuel)%nat -> Forall byteP L -> mixes_known L -> zlen L < Z.of_nat k ->
  step fuel k e (CDecode L) (create q sch ty) = (r, d) -> complete d = true -> crashed (r_status r) = false ->
  exists rest d', L = ds_desc d ++ rest /\ create_from_descriptors fuel e q sch ty (ds_desc d) = (Ok tt, d') /\ same_start d d' rest [].
Proof.
  intros R configure ps bits render fuel k q sch ty L r d e Hf Hb Hm Hk E Hc Hcr. subst e. destruct (@waiting_create R fuel Hf q sch ty) as [W0 F0].
  assert (r_status r = Ok tt) as Or.
  { destruct (C31_fresh_after_descriptors _ _ fuel k _ _ [] L r d Hf (proj1 W0) eq_refl eq_refl eq_refl (unread_create q sch ty) (Forall_nil _) Hb E Hc) as (? & ? & ? & ? & _ & _ & S1). exact S1. }
  pose proof (decode_small configure ps bits fuel k render Hf _ _ _ _ _ W0 Hb E Or) as Hs. rewrite app_nil_l in Hs.
  destruct (decode_waiting configure ps bits fuel k render Hf q sch ty _ [] L r d W0 F0 (Forall_nil _) Hb Hm Hs E) as (FA & _ & _ & X). rewrite app_nil_l in X.
  destruct (dscan k bits false L 0 do_empty) as [| |o p|] eqn:Ed.
  - destruct X as [_ (W1 & _)]. unfold complete in Hc. rewrite W1 in Hc. discriminate.
  - destruct X as [_ X]. congruence.
  - destruct X as [Hp X]. destruct (creation_cases configure ps q o) as [(np & mix & lay & Ecr & _ & _)|[Ecr|Ecr]].
    2:{ rewrite Ecr in X. destruct X as [_ X]. congruence. }
    2:{ destruct (creation configure ps q o) as [[[?|] ?]| | | |]; try discriminate Ecr; congruence. }
    rewrite Ecr in X. destruct X as [_ Md]. pose proof (made_set_up _ _ _ _ Md) as Su. pose proof Su as (Dd & _). exists (skipn p L). rewrite Dd.
    destruct (create_from_descriptors fuel (real_env configure ps bits k render) q sch ty (firstn p L)) as [r' d'] eqn:E'. exists d'.
    split; [symmetry; apply firstn_skipn|].
    assert (L = firstn p L ++ skipn p L) as Es by (symmetry; apply firstn_skipn).
    assert (0 < p)%nat as P0.
    { pose proof (parse_dscan fuel 1 k bits false L Hf ltac:(lia) Hb Hm (small_zlen _ Hs) Hk) as Y. rewrite Ed in Y.
      destruct (C52_stream_then_exact fuel 1 k bits L _ _ Hf ltac:(lia) Hb Hm (small_zlen _ Hs) Hk Y) as (n & En & Hn & _). lia. }
    pose proof (stream_exact k bits L 0 do_empty o p (small_zlen _ Hs) P0 ltac:(lia) Ed) as Ex.
    destruct (from_descriptors configure ps bits fuel k render Hf q sch ty (firstn p L) r' d') as (F1 & _ & Z).
    + rewrite Es in Hb. apply Forall_app in Hb. apply Hb.
    + rewrite Es in Hm. exact (known_prefix _ _ Hm).
    + unfold small in *. rewrite firstn_length. lia.
    + exact E'.
    + rewrite Ex, Ecr in Z. destruct Z as [_ [-> Z]]. split; [reflexivity|].
      rewrite firstn_firstn, Nat.min_id in Z. rewrite skipn_all2 in Z by (rewrite firstn_length; lia). eapply set_up_same; eassumption.
  - congruence.
Qed.
(* and descriptors which CreateFromDescriptors accepts give the same decoder when they precede a stream. *)
Theorem C52_from_given_descriptors : forall R (configure : aemap -> mixp -> res R) ps bits render fuel k q sch ty bytes rest d,
  let e := real_env configure ps bits k render in
  (8 <= fuel)%nat -> Forall byteP (bytes ++ rest) -> mixes_known (bytes ++ rest) -> zlen (bytes ++ rest) < Z.of_nat k -> zlen (bytes ++ rest) <= 2^22 -> begins_unit rest ->
  create_from_descriptors fuel e q sch ty bytes = (Ok tt, d) -> ds_desc d = bytes ->
  exists d', step fuel k e (CDecode (bytes ++ rest)) (create q sch ty) = (mkReply (Ok tt) [] [], d') /\ same_start d d' [] rest.
Proof.
  intros R configure ps bits render fuel k q sch ty bytes rest d e Hf Hb Hm Hk Hz Hr E Hd. subst e. destruct (@waiting_create R fuel Hf q sch ty) as [W0 F0].
  assert (small (bytes ++ rest)) as Hs by (unfold small, zlen in *; change (2^22) with 4194304 in *; lia).
  assert (small bytes) as Hs1 by (unfold small in *; rewrite app_length in Hs; lia).
  apply Forall_app in Hb as Hb'. destruct Hb' as [Hb1 _].
  destruct (from_descriptors configure ps bits fuel k render Hf q sch ty bytes _ d Hb1 (known_prefix _ _ Hm) Hs1 E) as (F1 & _ & Z).
  destruct (step fuel k (real_env configure ps bits k render) (CDecode (bytes ++ rest)) (create q sch ty)) as [r d'] eqn:Es. exists d'.
  destruct (decode_waiting configure ps bits fuel k render Hf q sch ty _ [] (bytes ++ rest) r d' W0 F0 (Forall_nil _) Hb Hm Hs Es) as (F2 & R1 & R2 & X). rewrite app_nil_l in X.
  destruct (dscan k bits true bytes 0 do_empty) as [| |o p|] eqn:Ed; try (destruct Z as [Z _]; discriminate Z); try discriminate Z.
  destruct Z as [Hp Z]. destruct (creation_cases configure ps q o) as [(np & mix & lay & Ecr & _ & _)|[Ecr|Ecr]].
  2:{ rewrite Ecr in Z. destruct Z as [Z _]. discriminate Z. }
  2:{ destruct (creation configure ps q o) as [[[?|] ?]| | | |]; try discriminate Ecr; discriminate Z. }
  rewrite Ecr in Z. destruct Z as [_ Z]. pose proof Z as (Zd & _). rewrite Hd in Zd. assert (p = length bytes) as ->.
  { pose proof (f_equal (@length _) Zd) as Lz. rewrite firstn_length in Lz. lia. }
  assert (dscan k bits false (bytes ++ rest) 0 do_empty = DDone o (length bytes)) as G.
  { pose proof (parse_dscan fuel 1 k bits false (bytes ++ rest) Hf ltac:(lia) Hb Hm (small_zlen _ Hs) Hk) as Y.
    rewrite <- (exact_stream k bits bytes rest 0 do_empty o (length bytes)); [|destruct bytes; [destruct k; discriminate Ed|cbn [length]; lia]|exact Hr|exact Ed].
    symmetry. replace (S k) with (k + 1)%nat by lia. apply dscan_more. intro Z0. rewrite Z0 in Y. exact Y. }
  rewrite G, Ecr in X. destruct X as [_ [Xs Md]]. split.
  { destruct r as [rs rb rr]. cbn [r_status r_bytes r_rendered] in *. subst. reflexivity. }
  apply made_set_up in Md. rewrite skipn_app, skipn_all, Nat.sub_diag in Md. rewrite skipn_all in Z. cbn [skipn app] in Md. rewrite firstn_app_le, firstn_all in Md by lia. rewrite firstn_all in Z.
  eapply set_up_same; eassumption.
Qed.

(* ---- the hypotheses are met ---- *)
Lemma it_begins : begins_unit (concat it_units).
Proof.
  exists 32, [0], (skipn 2 (concat it_units)). split; [reflexivity|]. split; [unfold byteP; lia|]. split; [cbn [is_leb]; lia|].
  split; [vm_compute; discriminate|]. split; [vm_compute; discriminate|reflexivity].
Qed.
Lemma all_bytes l : forallb (fun b => (0 <=? b) && (b <? 256)) l = true -> Forall byteP l.
Proof. intros H. rewrite forallb_forall in H. apply Forall_forall. intros b Hb. specialize (H _ Hb). unfold byteP. lia. Qed.
Example C52_ex :
  Forall byteP it_all /\ mixes_known it_all /\ zlen it_all < Z.of_nat 200 /\ begins_unit (concat it_units) /\
  (exists o, parse_at 8 1 200 64 true it_desc = Ok (Ok o, false, 8 * zlen it_desc) /\ parse_at 8 1 200 64 false it_all = Ok (Ok o, false, 8 * zlen it_desc) /\ length (do_mixes o) = 1%nat) /\
  (* in a stream the end of the descriptors must be seen; as a complete set they are accepted *)
  parse_at 8 1 200 64 false it_desc = Ok (Err ResourceExhausted, true, 0) /\
  (* a complete set may not be cut *)
  parse_at 8 1 200 64 true (removelast it_desc) = Ok (Err ResourceExhausted, true, 0).
Proof.
  split; [apply all_bytes; run|]. split; [apply (known_scan_ok _ 10); run|]. split; [run|]. split; [apply it_begins|].
  split; [eexists; split; [run|split; run]|]. split; run.
Qed.
Example C52_decoders_ex :
  (exists r d, step 8 it_k it_env (CDecode it_all) it_new = (r, d) /\ complete d = true /\ crashed (r_status r) = false /\ ds_desc d = it_desc) /\
  exists d, create_from_descriptors 8 it_env (mkReq None None) DefaultNoOp Int16LE it_desc = (Ok tt, d) /\ ds_desc d = it_desc /\ zlen it_all < Z.of_nat it_k /\ zlen it_all <= 2^22.
Proof.
  split; [eexists _, _; split; [run|split; [run|split; run]]|]. eexists. split; [run|]. split; [run|].
  unfold it_k. rewrite Nat2Z.inj_succ, Z2Nat.id by (vm_compute; discriminate). split; vm_compute; [reflexivity|discriminate].
Qed.

(* C53: descriptors which initialisation accepts, and descriptors which it refuses although they parse: the two mix gains share an ID. *)
Definition it_clash : list Z := firstn 52 it_desc ++ [64;128;247;2;128;0;1] ++ skipn 59 it_desc.
(* Two audio elements, in both orders. *)
Definition it_el (i s : Z) : list Z := [8;10;i;0;1;1;s;0;32;16;1;1].
Definition it_two (x y : list Z) : list Z := firstn 24 it_desc ++ x ++ y ++ skipn 36 it_desc.
Lemma parsed_consistent fuel cap k bits ex src o i p : (8 <= fuel)%nat -> (1 <= cap)%nat -> Forall byteP src -> zlen src < 2^32 - 64 -> zlen src < Z.of_nat k ->
  parse_at fuel cap k bits ex src = Ok (Ok o, i, p) -> consistent o.
Proof. intros Hf Hc Hb Hz Hk E. pose proof (C52_parser_sound fuel cap k bits ex src Hf Hc Hb Hz Hk) as X. rewrite E in X. apply X. Qed.
Example C53_ex :
  (exists o p x, parse_at 8 1 200 64 true it_desc = Ok (Ok o, false, p) /\ consistent o /\ initialize o = Ok x) /\
  (exists o p, parse_at 8 1 200 64 true it_clash = Ok (Ok o, false, p) /\ consistent o /\ initialize o = Err InvalidArgument) /\
  (exists o o' p p' x, parse_at 8 1 200 64 true (it_two (it_el 3 0) (it_el 4 1)) = Ok (Ok o, false, p) /\ parse_at 8 1 200 64 true (it_two (it_el 4 1) (it_el 3 0)) = Ok (Ok o', false, p') /\
    consistent o /\ consistent o' /\ initialize o = Ok x /\ length (do_aes o) = 2%nat /\ Permutation (do_aes o) (do_aes o') /\ Permutation (do_mixes o) (do_mixes o')).
Proof.
  assert (forall src o i p, parse_at 8 1 200 64 true src = Ok (Ok o, i, p) -> forallb (fun b => (0 <=? b) && (b <? 256)) src && (zlen src <? 200) = true -> consistent o) as K.
  { intros src o i p E H. apply andb_prop in H as [H1 H2]. eapply parsed_consistent; [| | | | |exact E]; try lia. apply all_bytes, H1. }
  split; [|split].
  - eexists _, _, _. split; [run|]. split; [eapply (K it_desc); run|run].
  - eexists _, _. split; [run|]. split; [eapply (K it_clash); run|run].
  - eexists _, _, _, _, _. split; [run|]. split; [run|]. split; [eapply (K (it_two (it_el 3 0) (it_el 4 1))); run|].
    split; [eapply (K (it_two (it_el 4 1) (it_el 3 0))); run|]. split; [run|]. split; [run|]. split; cbn [do_aes do_mixes]; first [apply Permutation_refl|apply perm_swap].
Qed.
