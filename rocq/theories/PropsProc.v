(* C29: streaming does not depend on chunk boundaries.  C30: unknown or broken OBUs are skipped exactly. *)
From Verif Require Import Base WriteBuf ReadBuf Leb BufSpec LebSpec BitFacts WriteBufFacts ReadBufFacts LebFacts
  ParseFacts EndToEnd ObuHeader ObuHeaderFacts FrameFacts SeqFacts PureFacts SimpleObus CodecConfig Params Timing ParamManager
  Processor PropsObu ProcFacts StreamSpec StreamFacts Session SessionFacts.

(* ---- SPEC ---- *)
(* The bytes of one OBU: a byte with type and flags, a LEB128 size, that many bytes. *)
Definition is_obu (o : list Z) : Prop :=
  exists b0 size body, o = b0 :: size ++ body /\ byteP b0 /\ is_leb size /\ zlen size <= 8 /\ uleb_value size = zlen body /\
    Forall byteP body /\ zlen body <= 2^21.
(* Processing the OBU at byte [length before] of a buffer with content [src]; outcome and bit position afterwards. *)
Definition process_at (fuel cap : nat) (D : descs) (s : pst) (p : Z) (src : list Z) : res (pout * Z) :=
  fst (crun fuel (read_at (8 * p) (proc_obu D s)) (r_create cap src)).
Definition failed {A} (r : res A) : Prop := match r with Err _ => True | _ => False end.

(* ---- facts ---- *)
Lemma parses_prun {A} (p : rprog A) bs a e : pure p -> parses p bs a -> prun p (bs ++ e) = POk a e.
Proof.
  intros Hp P. destruct (P [] e (Some true)) as [v' E]. cbn [app length Nat.add] in E.
  set (c := mkC (bs ++ e) 0 (Some true)) in *. assert (cok c) as K by (unfold cok; cbn [c c_pos]; lia).
  pose proof (arun_prun p Hp c K) as Q. cbn [c c_pos c_bits skipn] in Q. fold c in Q.
  destruct (prun p (bs ++ e)) as [|er|x r] eqn:Er.
  - destruct Q as [c' Q]. congruence.
  - destruct Q as [c' Q]. congruence.
  - destruct Q as [v Q]. rewrite E in Q. injection Q as <- L _. f_equal.
    destruct (prun_rest _ _ _ _ Er) as [u Eu].
    pose proof (f_equal (@length bool) Eu) as Lu. rewrite !app_length in *.
    assert (length u = length bs) as Lb by lia.
    assert (skipn (length u) (u ++ r) = r) as <- by (rewrite skipn_app, skipn_all, Nat.sub_diag; reflexivity).
    rewrite <- Eu, Lb, skipn_app, skipn_all, Nat.sub_diag. reflexivity.
Qed.

Lemma is_leb_len l : is_leb l -> (1 <= length l)%nat.
Proof. destruct l; cbn [is_leb length]; [contradiction|lia]. Qed.
Lemma fill_obu b0 size rest : byteP b0 -> is_leb size -> zlen size <= 8 -> uleb_value size <= 2^21 -> 
  prun fill_header_metadata (bytes_bits (b0 :: size ++ rest)) = POk (b0 / 8, 1 + zlen size + uleb_value size) (bytes_bits rest).
Proof.
  intros Hb Hs Hk Hv. pose proof (uleb_value_nonneg size) as Hv0. change (2^21) with 2097152 in Hv.
  unfold fill_header_metadata. change (bytes_bits (b0 :: size ++ rest)) with (bits 8 b0 ++ bytes_bits (size ++ rest)).
  change (bits 8 b0) with [Z.testbit b0 7; Z.testbit b0 6; Z.testbit b0 5; Z.testbit b0 4; Z.testbit b0 3; Z.testbit b0 2; Z.testbit b0 1; Z.testbit b0 0].
  rewrite prun_bind.
  unfold rlit at 1, rop1 at 1. cbn [prun]. change (legal_width 5 64) with true. cbv iota. change (Z.to_nat 5) with 5%nat.
  cbn [app length Nat.leb firstn skipn]. cbv iota.
  unfold rbool. rewrite prun_bind. unfold rlit at 1, rop1 at 1. rewrite prun_bind. cbn [prun]. change (legal_width 1 64) with true. cbv iota. change (Z.to_nat 1) with 1%nat.
  cbn [app length Nat.leb firstn skipn prun]. cbv iota.
  unfold rbool. rewrite prun_bind. unfold rlit at 1, rop1 at 1. rewrite prun_bind. cbn [prun]. change (legal_width 1 64) with true. cbv iota. change (Z.to_nat 1) with 1%nat.
  cbn [app length Nat.leb firstn skipn prun]. cbv iota.
  unfold rbool. rewrite prun_bind. unfold rlit at 1, rop1 at 1. rewrite prun_bind. cbn [prun]. change (legal_width 1 64) with true. cbv iota. change (Z.to_nat 1) with 1%nat.
  cbn [app length Nat.leb firstn skipn prun]. cbv iota.
  rewrite prun_bind, bytes_bits_app.
  assert (parses ruleb_sz (bytes_bits size) (uleb_value size, zlen size)) as P.
  { apply parses_uleb_sz; try assumption; unfold zlen in *; change (2^32) with 4294967296; lia. }
  rewrite (parses_prun _ _ _ _ pure_ruleb_sz P). cbn [prun fst snd].
  rewrite u32_id by (change (2^32) with 4294967296; unfold zlen in *; lia).
  f_equal. f_equal; [|lia].
  clear - Hb. unfold byteP in Hb. 
  assert (forallb (fun b => ofbits [Z.testbit b 7; Z.testbit b 6; Z.testbit b 5; Z.testbit b 4; Z.testbit b 3] =? b / 8) (map Z.of_nat (seq 0 256)) = true) as S by (vm_compute; reflexivity).
  rewrite forallb_forall in S. apply Z.eqb_eq. apply S. apply in_map_iff. exists (Z.to_nat b0). split; [lia|]. apply in_seq. lia.
Qed.

Lemma process_classify fuel cap D s before l : (8 <= fuel)%nat -> (1 <= cap)%nat -> Forall byteP (before ++ l) -> zlen l < 2^32 - 64 ->
  match classify D s l with
  | CWait => process_at fuel cap D s (zlen before) (before ++ l) = Ok (mkOut (Ok tt) s INone false, 8 * zlen before)
  | CBad => failed (process_at fuel cap D s (zlen before) (before ++ l))
  | CDone adv o => exists q, process_at fuel cap D s (zlen before) (before ++ l) = Ok (o, q) /\ (po_status o = Ok tt -> q = 8 * (zlen before + adv))
  end.
Proof.
  intros Hf Hc Hb Hl. unfold process_at.
  assert (0 <= 8 * zlen before <= 8 * zlen (before ++ l)) as Hp by (unfold zlen; rewrite app_length; lia).
  rewrite crun_read_at by assumption. set (c := mkC (bytes_bits (before ++ l)) (Z.to_nat (8 * zlen before)) (Some true)).
  assert (Z.to_nat (8 * zlen before) = 8 * length before)%nat as Hpos by (unfold zlen; lia).
  assert (cok c) as K by (unfold cok, c; cbn [c_pos c_bits]; rewrite bytes_bits_length, app_length; lia).
  assert (skipn (c_pos c) (c_bits c) = bytes_bits l) as Hs.
  { unfold c. cbn [c_pos c_bits]. rewrite Hpos, bytes_bits_app, skipn_app, <- bytes_bits_length, skipn_all, Nat.sub_diag. reflexivity. }
  pose proof (step_spec D s c l K Hs Hl) as Sp. destruct (classify D s l) as [| |adv o].
  - rewrite Sp. cbn [at_result c_pos c]. rewrite Z2Nat.id by lia. reflexivity.
  - destruct Sp as (e & c' & ->). exact I.
  - destruct Sp as (c' & -> & _ & _ & Hq). cbn [at_result]. eexists. split; [reflexivity|]. intro Ho.
    destruct (Hq Ho) as [-> _]. cbn [c c_pos]. rewrite Z2Nat.id; lia.
Qed.

(* the size of an OBU is what its header says *)
Lemma obu_fill o e : is_obu o -> exists t r, prun fill_header_metadata (bytes_bits (o ++ e)) = POk (t, zlen o) r.
Proof.
  intros (b0 & size & body & -> & Hb & Hs & Hk & Hv & _ & H2). cbn [app]. rewrite <- app_assoc.
  rewrite fill_obu by (try assumption; lia). eexists _, _. f_equal. f_equal. unfold zlen in *. cbn [length]. rewrite app_length. lia.
Qed.
Lemma obu_bytes o : is_obu o -> Forall byteP o.
Proof.
  intros (b0 & size & body & -> & Hb & Hs & _ & _ & Hy & _). constructor; [exact Hb|]. apply Forall_app. split; [apply is_leb_bytes; exact Hs|exact Hy].
Qed.
Lemma obu_len o : is_obu o -> 2 <= zlen o <= 2^21 + 9.
Proof.
  intros (b0 & size & body & -> & _ & Hs & Hk & _ & _ & H2). apply is_leb_len in Hs. change (2^21) with 2097152 in *.
  unfold zlen in *. cbn [length]. rewrite app_length. lia.
Qed.
Lemma classify_prefix D s o p q : is_obu o -> o = p ++ q -> q <> [] -> classify D s p = CWait.
Proof.
  intros Ho E Hq. destruct (obu_fill o [] Ho) as (t & r & F). rewrite app_nil_r in F. unfold classify.
  pose proof (prun_ext fill_header_metadata (bytes_bits p) (bytes_bits q)) as X. rewrite <- bytes_bits_app, <- E, F in X.
  destruct (prun fill_header_metadata (bytes_bits p)) as [|c|[t1 total] r1]; [reflexivity|discriminate|].
  injection X as _ <- _. replace (zlen p <? zlen o) with true; [reflexivity|].
  rewrite E. unfold zlen. rewrite app_length. destruct q; [contradiction|]. cbn [length]. lia.
Qed.
Lemma classify_obu D s o e : is_obu o -> classify D s o <> CWait /\ classify D s (o ++ e) = classify D s o /\
  forall adv x, classify D s o = CDone adv x -> adv = if po_cont x then zlen o else match po_status x with Ok _ => 0 | _ => adv end.
Proof.
  intro Ho. destruct (obu_fill o [] Ho) as (t & r & F). rewrite app_nil_r in F.
  assert (classify D s o <> CWait) as N.
  { unfold classify. rewrite F, Z.ltb_irrefl. destruct (prun read_header _) as [|?|[h n] w]; try discriminate.
    unfold effect. destruct (temporal_unit_type _); [destruct (store _ _ _ _) as [[[] ?] ?]; discriminate|].
    destruct (_ && _); [discriminate|]. destruct (_ || _ || _ || _); [destruct (h_red h)|]; discriminate. }
  split; [exact N|]. split.
  - pose proof (classify_ext D s o e) as X. destruct (classify D s o); [contradiction|exact X|exact X].
  - unfold classify. rewrite F, Z.ltb_irrefl. destruct (prun read_header _) as [|?|[h n] w]; try discriminate.
    unfold effect. intros adv x. destruct (temporal_unit_type _); [destruct (store _ _ _ _) as [[[] ?] ?]; intro H; injection H as <- <-; reflexivity|].
    destruct (_ && _); [intro H; injection H as <- <-; reflexivity|].
    destruct (_ || _ || _ || _); [destruct (h_red h); [|discriminate]|]; intro H; injection H as <- <-; reflexivity.
Qed.

(* ---- C29 ---- *)
(* An OBU of which some bytes are missing is not touched: no output, the state and the position stay. *)
Theorem C29_incomplete_obu_waits : forall fuel cap D s before o part missing,
  (8 <= fuel)%nat -> (1 <= cap)%nat -> Forall byteP before -> is_obu o -> o = part ++ missing -> missing <> [] ->
  process_at fuel cap D s (zlen before) (before ++ part) = Ok (mkOut (Ok tt) s INone false, 8 * zlen before).
Proof.
  intros fuel cap D s before o part missing Hf Hc Hb Ho E Hm. pose proof (obu_bytes _ Ho) as By. pose proof (obu_len _ Ho) as Hl.
  rewrite E in By. apply Forall_app in By as [By _].
  assert (zlen part < 2^32 - 64) as Hp by (rewrite E in Hl; change (2^32) with 4294967296; change (2^21) with 2097152 in Hl; unfold zlen in *; rewrite app_length in Hl; lia).
  pose proof (process_classify fuel cap D s before part Hf Hc ltac:(apply Forall_app; auto) Hp) as P.
  rewrite (classify_prefix D s o part missing Ho E Hm) in P. exact P.
Qed.

(* What is done for a complete OBU depends on its own bytes and the state only, and the position moves exactly past it. *)
Theorem C29_obu_is_processed_alone : forall fuel cap D s before o after,
  (8 <= fuel)%nat -> (1 <= cap)%nat -> Forall byteP before -> is_obu o -> Forall byteP after -> zlen (o ++ after) < 2^32 - 64 ->
  let alone := process_at fuel cap D s 0 o in
  let within := process_at fuel cap D s (zlen before) (before ++ o ++ after) in
  (failed alone /\ failed within) \/
  (exists x q q', alone = Ok (x, q) /\ within = Ok (x, q') /\
     (po_status x = Ok tt -> q = (if po_cont x then 8 * zlen o else 0) /\ q' = 8 * zlen before + q)).
Proof.
  intros fuel cap D s before o after Hf Hc Hb Ho Ha Hl alone within. unfold alone, within. pose proof (obu_bytes _ Ho) as By.
  assert (zlen o < 2^32 - 64) as Hl0 by (unfold zlen in *; rewrite app_length in Hl; lia).
  pose proof (process_classify fuel cap D s [] o Hf Hc By Hl0) as P1. cbn [app] in P1. change (zlen []) with 0 in P1.
  pose proof (process_classify fuel cap D s before (o ++ after) Hf Hc ltac:(repeat (apply Forall_app; split); assumption) Hl) as P2.
  destruct (classify_obu D s o after Ho) as (N & E & A). rewrite E in P2.
  destruct (classify D s o) as [| |adv x]; [contradiction|left; auto|right].
  destruct P1 as (q & E1 & Q1), P2 as (q' & E2 & Q2). exists x, q, q'. split; [exact E1|]. split; [exact E2|].
  intro Hx. specialize (A _ _ eq_refl). specialize (Q1 Hx). specialize (Q2 Hx). rewrite Hx in A. destruct (po_cont x); lia.
Qed.

(* The result of a session does not depend on how the bytes were cut into chunks. *)
Theorem C29_chunks_do_not_matter : forall fuel k D s a b units_a end_a s_a pending_a units_b end_b s_b pending_b,
  (8 <= fuel)%nat -> 2^22 < Z.of_nat k -> Forall (Forall byteP) a -> Forall (Forall byteP) b -> concat a = concat b ->
  whole_session fuel k D a s = (units_a, end_a, s_a, pending_a) -> whole_session fuel k D b s = (units_b, end_b, s_b, pending_b) ->
  end_a <> Refused -> end_b <> Refused ->
  units_a = units_b /\ end_a = end_b /\ s_a = s_b /\ pending_a = pending_b.
Proof.
  intros fuel k D s a b ua ea sa pa ub eb sb pb Hf Hk Ha Hb Eab. unfold whole_session.
  pose proof (srel_init 1024 ltac:(lia)) as [R0 _]. change (view s_empty) with (mkC [] 0 None) in R0.
  assert (on (mkC [] 0 None) []) as O0 by (split; [unfold cok; cbn [c_pos c_bits length]; lia|reflexivity]).
  assert (uinv (mkU tud_empty tud_empty)) as U0 by (split; [reflexivity|split; reflexivity]).
  assert (idle D s []) as I0 by (left; reflexivity).
  assert (length (c_bits (mkC [] 0 None)) <= 8 * Z.to_nat (2^22))%nat as L0 by (cbn [c_bits length]; lia).
  pose proof (session_flows fuel k D Hf Hk a s _ _ _ [] Ha R0 O0 L0 U0 I0) as Sa.
  pose proof (session_flows fuel k D Hf Hk b s _ _ _ [] Hb R0 O0 L0 U0 I0) as Sb.
  cbn [app] in Sa, Sb. rewrite <- Eab in Sb.
  assert (Hk1 : (1 <= k)%nat) by (change (2^22) with 4194304 in Hk; lia).
  assert (forall c l, on c l -> (length (c_bits c) <= 8 * Z.to_nat (2^22))%nat -> zlen l < 2^32 - 64) as Bd.
  { intros c l Hon Hc. apply on_len in Hon. change (Z.to_nat (2^22)) with (Z.to_nat 4194304) in Hc. change (2^32) with 4294967296. unfold zlen. lia. }
  destruct (session fuel k D a s (mkU tud_empty tud_empty) (r_stream 1024)) as [[[[oa ea1] s1] u1] r1].
  destruct (session fuel k D b s (mkU tud_empty tud_empty) (r_stream 1024)) as [[[[ob eb1] s2] u2] r2].
  unfold session_post in Sa, Sb.
  destruct ea1; [destruct Sa as (l1 & c1 & R1 & On1 & Hc1 & U1 & F1 & I1)|intros E; injection E as <- <- <- <-; contradiction|destruct Sa as [x1 F1]];
  (destruct eb1; [destruct Sb as (l2 & c2 & R2 & On2 & Hc2 & U2 & F2 & I2)|intros _ E; injection E as <- <- <- <-; contradiction|destruct Sb as [x2 F2]]);
  destruct (flows_det _ _ _ _ _ _ _ _ _ F1 _ _ _ _ _ F2) as (-> & -> & -> & X & Y); try discriminate.
  - subst l2.
    destruct (finish fuel k D s2 u2 r1 c1 l1 Hf Hk1 R1 On1 (Bd _ _ On1 Hc1) I1 U1) as [ra ->].
    destruct (finish fuel k D s2 u2 r2 c2 l1 Hf Hk1 R2 On2 (Bd _ _ On2 Hc2) I2 U2) as [rb ->].
    destruct (close true false false u2) as [[out u3]|]; intros E1 E2 _ _; injection E1 as <- <- <- <-; injection E2 as <- <- <- <-; auto.
  - intros E1 E2 _ _; injection E1 as <- <- <- <-; injection E2 as <- <- <- <-; auto.
Qed.

(* ---- C30 ---- *)
Lemma header_alone fuel cap o h n q : (8 <= fuel)%nat -> (1 <= cap)%nat -> Forall byteP o ->
  fst (crun fuel (read_at 0 read_header) (r_create cap o)) = Ok ((h, n), q) ->
  exists w, prun read_header (bytes_bits o) = POk (h, n) w /\ q = 8 * zlen o - zlen w.
Proof.
  intros Hf Hc Hb E. rewrite crun_read_at in E by (try assumption; unfold zlen; lia). change (Z.to_nat 0) with O in E.
  set (c := mkC (bytes_bits o) 0 (Some true)) in *. assert (cok c) as K by (unfold cok; cbn [c c_pos]; lia).
  pose proof (arun_prun _ pure_header c K) as P. cbn [c c_pos c_bits skipn] in P. fold c in P.
  destruct (prun read_header (bytes_bits o)) as [|er|[h1 n1] w] eqn:Ep.
  - destruct P as [c' P]. rewrite P in E. discriminate.
  - destruct P as [c' P]. rewrite P in E. discriminate.
  - destruct P as [v P]. rewrite P in E. cbn [at_result c_pos] in E. injection E as -> -> <-. exists w. split; [reflexivity|].
    apply prun_rest_len in Ep. rewrite bytes_bits_length in *. unfold zlen. lia.
Qed.
Lemma skipped fuel cap D s before o after : (8 <= fuel)%nat -> (1 <= cap)%nat -> Forall byteP before -> is_obu o -> Forall byteP after -> zlen (o ++ after) < 2^32 - 64 ->
  classify D s o = CDone (zlen o) (mkOut (Ok tt) s INone true) ->
  process_at fuel cap D s (zlen before) (before ++ o ++ after) = Ok (mkOut (Ok tt) s INone true, 8 * (zlen before + zlen o)).
Proof.
  intros Hf Hc Hb Ho Ha Hl E. pose proof (obu_bytes _ Ho) as By.
  pose proof (process_classify fuel cap D s before (o ++ after) Hf Hc ltac:(repeat (apply Forall_app; split); assumption) Hl) as P.
  destruct (classify_obu D s o after Ho) as (_ & -> & _) in P. rewrite E in P. destruct P as (q & -> & Q). rewrite (Q eq_refl). reflexivity.
Qed.
Lemma classify_header D s o h n w : is_obu o -> prun read_header (bytes_bits o) = POk (h, n) w -> classify D s o = effect D s h n (zlen o) w.
Proof.
  intros Ho E. destruct (obu_fill o [] Ho) as (t & r & F). rewrite app_nil_r in F. unfold classify. rewrite F, Z.ltb_irrefl.
  unfold zlen. rewrite Nat2Z.id, firstn_all, E. reflexivity.
Qed.

(* Reserved OBUs (obu_type 24..30, any content): no output, no state change, the position exactly after them. *)
Theorem C30_reserved_obus_are_skipped : forall fuel cap D s before o after h n q,
  (8 <= fuel)%nat -> (1 <= cap)%nat -> Forall byteP before -> is_obu o -> Forall byteP after -> zlen (o ++ after) < 2^32 - 64 ->
  fst (crun fuel (read_at 0 read_header) (r_create cap o)) = Ok ((h, n), q) -> 24 <= h_type h <= 30 ->
  process_at fuel cap D s (zlen before) (before ++ o ++ after) = Ok (mkOut (Ok tt) s INone true, 8 * (zlen before + zlen o)).
Proof.
  intros fuel cap D s before o after h n q Hf Hc Hb Ho Ha Hl Eh Ht. apply skipped; try assumption.
  destruct (header_alone _ _ _ _ _ _ Hf Hc (obu_bytes _ Ho) Eh) as (w & Ew & _).
  rewrite (classify_header D s o h n w Ho Ew). unfold effect, temporal_unit_type, is_audio_frame, kSequenceHeader, kCodecConfig, kAudioElement, kMixPresentation, kParameterBlock, kTemporalDelimiter, kAudioFrame, kAudioFrameId17.
  assert (h_type h = 24 \/ h_type h = 25 \/ h_type h = 26 \/ h_type h = 27 \/ h_type h = 28 \/ h_type h = 29 \/ h_type h = 30) as X by lia.
  repeat destruct X as [->|X]; try rewrite X; reflexivity.
Qed.

(* Redundant copies of descriptors. *)
Theorem C30_redundant_descriptors_are_skipped : forall fuel cap D s before o after h n q,
  (8 <= fuel)%nat -> (1 <= cap)%nat -> Forall byteP before -> is_obu o -> Forall byteP after -> zlen (o ++ after) < 2^32 - 64 ->
  fst (crun fuel (read_at 0 read_header) (r_create cap o)) = Ok ((h, n), q) ->
  h_type h = kSequenceHeader \/ h_type h = kCodecConfig \/ h_type h = kAudioElement \/ h_type h = kMixPresentation -> h_red h = true ->
  process_at fuel cap D s (zlen before) (before ++ o ++ after) = Ok (mkOut (Ok tt) s INone true, 8 * (zlen before + zlen o)).
Proof.
  intros fuel cap D s before o after h n q Hf Hc Hb Ho Ha Hl Eh Ht Hr. apply skipped; try assumption.
  destruct (header_alone _ _ _ _ _ _ Hf Hc (obu_bytes _ Ho) Eh) as (w & Ew & _).
  rewrite (classify_header D s o h n w Ho Ew). unfold effect. rewrite Hr.
  destruct Ht as [Ht | [Ht | [Ht | Ht]]]; rewrite Ht; reflexivity.
Qed.

(* OBUs of a temporal unit whose payload does not parse. *)
Theorem C30_broken_payloads_are_skipped : forall fuel cap D s before o after h n q e q2,
  (8 <= fuel)%nat -> (1 <= cap)%nat -> Forall byteP before -> is_obu o -> Forall byteP after -> zlen (o ++ after) < 2^32 - 64 ->
  fst (crun fuel (read_at 0 read_header) (r_create cap o)) = Ok ((h, n), q) -> 3 <= h_type h <= 23 ->
  fst (crun fuel (read_at q (parse_payload D h n)) (r_create cap o)) = Ok (inl e, q2) ->
  process_at fuel cap D s (zlen before) (before ++ o ++ after) = Ok (mkOut (Ok tt) s INone true, 8 * (zlen before + zlen o)).
Proof.
  intros fuel cap D s before o after h n q e q2 Hf Hc Hb Ho Ha Hl Eh Ht Ep. apply skipped; try assumption. pose proof (obu_bytes _ Ho) as By.
  destruct (header_alone _ _ _ _ _ _ Hf Hc By Eh) as (w & Ew & Hq).
  assert (Z.of_nat (length (bytes_bits o)) < 8 * (2^32 - 64)) as Hlo.
  { pose proof (obu_len _ Ho). rewrite bytes_bits_length. unfold zlen in *. change (2^32) with 4294967296. change (2^21) with 2097152 in *. lia. }
  destruct (header_shape _ _ _ _ Ew Hlo) as (t & total & r' & Ef & _ & Hn & Htot & L & _).
  destruct (obu_fill o [] Ho) as (t0 & r0 & F0). rewrite app_nil_r, Ef in F0. injection F0 as -> -> ->.
  destruct (prun_rest _ _ _ _ Ew) as [used Eu].
  rewrite (classify_header D s o h n w Ho Ew). unfold effect.
  replace (temporal_unit_type (h_type h)) with true.
  2:{ symmetry. unfold temporal_unit_type, is_audio_frame, kParameterBlock, kTemporalDelimiter, kAudioFrame, kAudioFrameId0, kAudioFrameId17. lia. }
  assert (zlen w <= 8 * zlen o) as Lw by (pose proof (f_equal (@length bool) Eu) as X; rewrite app_length, bytes_bits_length in X; unfold zlen; lia).
  assert (0 <= q <= 8 * zlen o) as Hq2 by (unfold zlen in *; lia).
  rewrite crun_read_at in Ep by assumption. set (c := mkC (bytes_bits o) (Z.to_nat q) (Some true)) in *.
  assert (cok c) as K by (unfold cok, c; cbn [c_pos c_bits]; rewrite bytes_bits_length; unfold zlen in *; lia).
  assert (skipn (c_pos c) (c_bits c) = w ++ []) as Sk.
  { unfold c. cbn [c_pos c_bits]. rewrite app_nil_r, Eu.
    replace (Z.to_nat q) with (length used). 2:{ pose proof (f_equal (@length bool) Eu) as X. rewrite app_length, bytes_bits_length in X. unfold zlen in *. lia. }
    rewrite skipn_app, skipn_all, Nat.sub_diag. reflexivity. }
  assert (zlen w = 8 * n) as Hw by (rewrite bytes_bits_length in L; unfold zlen in *; lia).
  destruct (parse_local D h n c w [] K Sk Hw) as (x & c' & Ex & Sx & _). rewrite Ex in Ep. cbn [at_result] in Ep. injection Ep as -> _.
  destruct (lparse D h n w) as [e2|y]; [|contradiction Sx]. reflexivity.
Qed.
