(* C01-C06: the bit buffers.  Statements only use the calls (WriteBuf/ReadBuf) and the specifications in
   BufSpec.v, StreamSpec.v, EndToEnd.v. *)
From Verif Require Import Base WriteBuf ReadBuf BufSpec StreamSpec BitFacts WriteBufFacts ReadBufFacts ParseFacts
  StreamFacts EndToEnd.

(* ------------------------------------------------------------------ C01 *)
(* Everything the calls [p] appended: the bits of those that succeeded, in order. *)
Definition appended (p : list winstr) : list bool := flat_map (fun i => ok_bits (wspec i)) p.

Theorem C01_writer_is_append_log : forall p,
  Forall winstr_wf p ->
  let '(statuses, w) := wrun_all p w_empty in
  statuses = map (fun i => status_of (wspec i)) p /\
  w_bytes w = pack (appended p) /\
  w_off w = zlen (appended p) /\
  zlen (w_bytes w) = (w_off w + 7) / 8.
Proof.
  intros p Hp. destruct (wrun_all_spec p w_empty [] Hp holds_empty) as [E [H1 H2]].
  destruct (wrun_all p w_empty) as [rs w]. cbn [fst snd] in *. cbn [app] in H1, H2. unfold appended.
  repeat split; try assumption. rewrite H1, H2. unfold zlen. rewrite pack_length. lia.
Qed.

(* Later calls never change earlier bits; a failed call changes nothing at all. *)
Theorem C01_earlier_bits_are_kept : forall p q,
  Forall winstr_wf p -> Forall winstr_wf q ->
  let w1 := snd (wrun_all p w_empty) in
  let w2 := snd (wrun_all (p ++ q) w_empty) in
  exists more pad, bytes_bits (w_bytes w2) = firstn (Z.to_nat (w_off w1)) (bytes_bits (w_bytes w1)) ++ more ++ repeat false pad.
Proof.
  intros p q Hp Hq w1 w2.
  destruct (wrun_all_spec p w_empty [] Hp holds_empty) as [_ H1].
  assert (Forall winstr_wf (p ++ q)) as Hpq by (apply Forall_app; auto).
  destruct (wrun_all_spec (p ++ q) w_empty [] Hpq holds_empty) as [_ H2]. cbn [app] in H1, H2.
  fold w1 in H1. fold w2 in H2. rewrite flat_map_app in H2.
  destruct (holds_bits _ _ H1) as [_ (k1 & B1)]. destruct (holds_bits _ _ H2) as [_ (k2 & B2)].
  rewrite (holds_off _ _ H1), B1, B2. unfold zlen. rewrite Nat2Z.id, firstn_app_exact.
  eexists _, k2. rewrite <- app_assoc. reflexivity.
Qed.

Theorem C01_failed_call_changes_nothing : forall p i,
  Forall winstr_wf p -> winstr_wf i ->
  let w := snd (wrun_all p w_empty) in
  is_ok (fst (winstr_run i w)) = false -> snd (winstr_run i w) = w.
Proof.
  intros p i Hp Hi w. destruct (wrun_all_spec p w_empty [] Hp holds_empty) as [_ H]. fold w in H.
  destruct (winstr_run_spec i w _ Hi H) as (E1 & _ & E3). intro F. apply E3. rewrite E1 in F.
  destruct (wspec i); cbn in *; congruence.
Qed.

Example C01_ex :
  let p := [WLit 32 5 3; WLit 32 8 3 (* does not fit *); WSpan [255; 1]; WLit 64 (2^40) 41; WLit 32 1 33 (* too wide *)] in
  Forall winstr_wf p /\
  wrun_all p w_empty =
    ([Ok tt; Err InvalidArgument; Ok tt; Ok tt; Err InvalidArgument], mkW [191; 224; 48; 0; 0; 0; 0; 0] 60).
Proof.
  split; [|vm_compute; reflexivity].
  repeat constructor; cbn [winstr_wf]; unfold byteP; try lia; vm_compute; split; congruence.
Qed.

(* ------------------------------------------------------------------ C02 *)
(* [p] is any adaptive sequence of calls: the next call may depend on the earlier results. *)
Theorem C02_reader_is_a_cursor : forall (A : Type) (p : rprog A) (src : list Z) (cap fuel : nat),
  Forall byteP src -> (1 <= cap)%nat -> (8 <= fuel)%nat ->
  fst (crun fuel p (r_create cap src)) = fst (arun p (mkC (bytes_bits src) 0 None)) /\
  fst (crun fuel p (r_create cap src)) <> Abort /\ fst (crun fuel p (r_create cap src)) <> Diverge.
Proof.
  intros A p src cap fuel Hs Hc Hf. pose proof (rrel_create cap src Hc Hs) as R.
  destruct (crun_refines fuel p Hf _ _ R) as [E _]. rewrite E. split; [reflexivity|]. apply arun_no_abort.
Qed.

Theorem C02_capacity_is_irrelevant : forall (A : Type) (p : rprog A) (src : list Z) (cap cap' fuel : nat),
  Forall byteP src -> (1 <= cap)%nat -> (1 <= cap')%nat -> (8 <= fuel)%nat ->
  fst (crun fuel p (r_create cap src)) = fst (crun fuel p (r_create cap' src)).
Proof.
  intros. destruct (C02_reader_is_a_cursor A p src cap fuel) as [-> _]; try assumption.
  destruct (C02_reader_is_a_cursor A p src cap' fuel) as [-> _]; try assumption. reflexivity.
Qed.

Example C02_ex :
  let p := (a <- rlit 12 32 ;; t <- rtell ;; rseek 4 ;;; b <- rlit 64 64 ;; rignore 1 ;;; n <- ravail ;; RRet (a, t, b, n)) in
  let src := [171; 205; 1; 2; 3; 4; 5; 6; 7; 8; 9; 10] in
  fst (crun 8 p (r_create 1 src)) = Ok (2748, 12, 13605392204720787552, 2) /\
  fst (crun 8 p (r_create 5 src)) = Ok (2748, 12, 13605392204720787552, 2).
Proof. vm_compute. split; reflexivity. Qed.

(* ------------------------------------------------------------------ C03 *)
(* For every state reachable by any calls: exact error condition, exact movement. *)
Theorem C03_literal_reads_are_exact : forall (A : Type) (p : rprog A) (src : list Z) (cap fuel : nat) (n max : Z),
  Forall byteP src -> (1 <= cap)%nat -> (8 <= fuel)%nat -> 0 <= max <= 64 ->
  let r := snd (crun fuel p (r_create cap src)) in
  let pos := fst (r_tell r) in
  let result := fst (r_lit fuel n max r) in
  let pos' := fst (r_tell (snd (r_lit fuel n max r))) in
  0 <= pos <= 8 * zlen src /\
  (result = Err ResourceExhausted <-> 0 <= n <= max /\ 8 * zlen src - pos < n) /\
  (result = Err InvalidArgument <-> ~ (0 <= n <= max)) /\
  (0 <= n <= max -> n <= 8 * zlen src - pos ->
     result = Ok (ofbits (firstn (Z.to_nat n) (skipn (Z.to_nat pos) (bytes_bits src)))) /\ pos' = pos + n) /\
  (is_ok result = false -> pos' = pos).
Proof.
  intros A p src cap fuel n max Hs Hc Hf Hm r pos result pos'.
  pose proof (rrel_create cap src Hc Hs) as R0. destruct (crun_refines fuel p Hf _ _ R0) as [_ R]. fold r in R.
  remember (snd (arun p (mkC (bytes_bits src) 0 None))) as c eqn:Ec.
  assert (c_bits c = bytes_bits src) as Eb by (rewrite Ec; apply arun_bits). clear Ec.
  destruct (rrel_tell _ _ R) as [Et _]. fold pos in Et. pose proof (rrel_pos_le _ _ R) as Hle.
  destruct (cop_refines fuel (OLit n max) r c Hf R) as [E1 R1].
  unfold cop in E1, R1. replace (Z.min max 64) with max in E1, R1 by lia. fold result in E1.
  destruct (rrel_tell _ _ R1) as [Et1 _]. fold pos' in Et1.
  cbn [aop] in *. unfold legal_width, c_left in *. replace (Z.min max 64) with max in * by lia.
  rewrite Eb, bytes_bits_length in *. unfold zlen.
  split; [lia|].
  destruct ((0 <=? n) && (n <=? max)) eqn:L; [destruct (Z.to_nat n <=? 8 * length src - c_pos c)%nat eqn:F|];
    cbn [fst snd c_pos] in *; rewrite E1, Et1, Et.
  - split; [split; [discriminate|lia]|]. split; [split; [discriminate|lia]|].
    split; [intros _ _; rewrite Nat2Z.id; split; [reflexivity|lia]|discriminate].
  - split; [split; [lia|reflexivity]|]. split; [split; [discriminate|lia]|].
    split; [lia|reflexivity].
  - split; [split; [discriminate|lia]|]. split; [split; [lia|reflexivity]|].
    split; [lia|reflexivity].
Qed.

Example C03_ex :
  let r := snd (crun 8 (rlit 5 8) (r_create 1 [255; 7])) in
  fst (r_tell r) = 5 /\ fst (r_lit 8 12 16 r) = Err ResourceExhausted /\ fst (r_lit 8 11 16 r) = Ok 1799.
Proof. vm_compute. repeat split. Qed.

(* ------------------------------------------------------------------ C04 *)
(* FALSE as stated: with capacity 0 (accepted by both factory functions) an 8-bit read never terminates:
   no amount of fuel is enough.  A shorter read aborts on an internal check instead of returning a status. *)
Theorem C04_zero_capacity_refuted : forall (x : Z) (rest : list Z) (fuel : nat),
  fst (r_lit fuel 8 8 (r_create 0 (x :: rest))) = Diverge /\
  fst (r_lit fuel 5 8 (r_create 0 (x :: rest))) = Abort.
Proof.
  intros x rest fuel.
  assert (forall f out, read_whole f 8 out (mkR [] 0 0 (x :: rest) (zlen (x :: rest) * 8) 0 (Some true)) =
            (Diverge, mkR [] 0 0 (x :: rest) (zlen (x :: rest) * 8) 0 (Some true))) as W.
  { induction f as [|f IH]; intro out; [reflexivity|]. cbn [read_whole]. unfold r_seek_tell, r_tell, r_tell_val, r_seek.
    cbn [set_valid r_win r_boff r_bsize r_src r_ssize r_soff r_valid].
    pose proof (zlen_nonneg rest). rewrite zlen_cons. 
    change (0 - 0 + 0) with 0. change (8 >=? 8) with true. change (0 <? 0) with false.
    replace (0 >? (1 + zlen rest) * 8) with false by lia. change (0 - 0 <=? 0) with true. cbn [andb].
    change (zlen (@nil Z)) with 0. replace (Z.min 0 ((1 + zlen rest) * 8 / 8 - 0 / 8)) with 0 by lia.
    unfold r_load. cbn [r_win r_src]. change (0 / 8) with 0. change (zlen (@nil Z)) with 0.
    replace (0 >? zlen (x :: rest)) with false by (rewrite zlen_cons; lia).
    replace (0 + 0 >? zlen (x :: rest)) with false by (rewrite zlen_cons; lia).
    cbn [orb]. change (0 <? 0) with false. change (0 >? 0) with false. cbn [orb].
    change (Z.to_nat 0) with 0%nat. cbn [firstn skipn app]. cbn [r_bsize r_boff r_win].
    change (Z.min (0 * 8 - 0 mod 8) (8 / 8 * 8)) with 0. change (0 mod 8 =? 0) with true.
    change ((0 mod 8) mod 8 =? 0) with true. cbn [andb]. change (Z.to_nat (0 / 8)) with 0%nat. cbn [read_bytes_loop].
    unfold set_boff. cbn [r_win r_boff r_bsize r_src r_ssize r_soff r_valid].
    change (8 - 0) with 8. change ((0 + 0) * 8) with 0. change (0 * 8) with 0. change (0 mod 8) with 0.
    rewrite <- zlen_cons with (x := x). apply IH. }
  unfold r_lit, r_lit_internal, r_create, r_seek_tell, r_tell, r_tell_val, r_seek.
  change (8 >? 8) with false. change (5 >? 8) with false. change (8 <? 0) with false. change (5 <? 0) with false.
  cbn [repeat set_valid r_win r_boff r_bsize r_src r_ssize r_soff r_valid].
  pose proof (zlen_nonneg rest).
  change (0 - 0 + 0) with 0. change (0 <? 0) with false.
  replace (0 + 8 >? zlen (x :: rest) * 8) with false by (rewrite zlen_cons; lia).
  replace (0 + 5 >? zlen (x :: rest) * 8) with false by (rewrite zlen_cons; lia).
  change (8 =? 0) with false. change (5 =? 0) with false.
  replace (0 >? zlen (x :: rest) * 8) with false by (rewrite zlen_cons; lia). change (0 - 0 <=? 0) with true. cbn [andb].
  change (zlen (@nil Z)) with 0. replace (Z.min 0 (zlen (x :: rest) * 8 / 8 - 0 / 8)) with 0 by (rewrite zlen_cons; lia).
  unfold r_load. cbn [set_valid r_win r_src]. change (0 / 8) with 0. change (zlen (@nil Z)) with 0.
  replace (0 >? zlen (x :: rest)) with false by (rewrite zlen_cons; lia).
  replace (0 + 0 >? zlen (x :: rest)) with false by (rewrite zlen_cons; lia).
  cbn [orb]. change (0 <? 0) with false. change (0 >? 0) with false. cbn [orb].
  change (Z.to_nat 0) with 0%nat. cbn [firstn skipn app set_valid r_win r_boff r_bsize r_src r_ssize r_soff r_valid].
  change ((0 + 0) * 8) with 0. change (0 * 8) with 0. change (0 mod 8) with 0. change (0 - 0 + 0) with 0.
  change (0 + 8) with 8. change (0 + 5) with 5. change (8 / 8 =? 0 / 8) with false. change (5 / 8 =? 0 / 8) with true.
  change (0 mod 8 =? 0) with true. split.
  - rewrite W. reflexivity.
  - change (Z.to_nat 5) with 5%nat. cbn [read_bits_loop]. change (0 / 8 <? zlen (@nil Z)) with false. cbn [andb].
    change (Z.of_nat 5 =? 0) with false. reflexivity.
Qed.

(* The strongest true variant: with any positive capacity every sequence of calls terminates without aborting
   (C02_reader_is_a_cursor), each literal read needing at most 8 iterations of its loop. *)
Theorem C04_positive_capacity_terminates_partial : forall (A : Type) (p : rprog A) (src : list Z) (cap : nat),
  Forall byteP src -> (1 <= cap)%nat ->
  exists outcome, outcome <> Diverge /\ outcome <> Abort /\
    forall fuel, (8 <= fuel)%nat -> fst (crun fuel p (r_create cap src)) = outcome.
Proof.
  intros A p src cap Hs Hc. exists (fst (arun p (mkC (bytes_bits src) 0 None))).
  destruct (arun_no_abort p (mkC (bytes_bits src) 0 None)) as [? ?]. repeat split; try assumption.
  intros fuel Hf. apply C02_reader_is_a_cursor; assumption.
Qed.

(* ------------------------------------------------------------------ C05 *)
(* Any history of pushes, flushes and reader calls behaves as the one-growing-string specification of StreamSpec.v
   (where Flush only renumbers positions and a push is refused exactly above 4 MiB retained). *)
Theorem C05_stream_refines_spec : forall (h : list sop) (cap fuel : nat),
  (1 <= cap)%nat -> (8 <= fuel)%nat -> Forall sop_wf h ->
  fst (srun fuel h (r_stream cap)) = fst (spec_run h s_empty).
Proof. intros h cap fuel Hc Hf Hh. apply srun_refines; try assumption. apply srel_init. exact Hc. Qed.

(* Whatever the chunking and the flushes: the bits read are, in order, the bits pushed. *)
Theorem C05_reads_are_a_prefix_of_pushes : forall (h : list sop) (cap fuel : nat),
  (1 <= cap)%nat -> (8 <= fuel)%nat -> Forall sop_wf h -> forallb no_seek h = true ->
  let rs := fst (srun fuel h (r_stream cap)) in
  exists unread, bytes_bits (bytes_pushed h rs) = bits_read h rs ++ unread.
Proof. intros. apply stream_reads_prefix; assumption. Qed.

Lemma spec_run_app h1 h2 s :
  spec_run (h1 ++ h2) s =
  let '(r1, s1) := spec_run h1 s in let '(r2, s2) := spec_run h2 s1 in (r1 ++ r2, s2).
Proof.
  revert s. induction h1 as [|o h1 IH]; intro s; cbn [app spec_run].
  - destruct (spec_run h2 s). reflexivity.
  - destruct (spec_step o s) as [x s1]. rewrite IH. destruct (spec_run h1 s1) as [r1 s2].
    destruct (spec_run h2 s2) as [r2 s3]. reflexivity.
Qed.

(* Flush never fails, and keeps the number of available bytes. *)
Theorem C05_flush_keeps_available_bytes : forall (h : list sop) (cap fuel : nat),
  (1 <= cap)%nat -> (8 <= fuel)%nat -> Forall sop_wf h ->
  exists rs n, fst (srun fuel (h ++ [SOp OAvail; SFlush; SOp OAvail]) (r_stream cap)) = rs ++ [Ok n; Ok 0; Ok n].
Proof.
  intros h cap fuel Hc Hf Hh. rewrite C05_stream_refines_spec; try assumption.
  - rewrite spec_run_app. destruct (spec_run h s_empty) as [rs s]. cbn [spec_run spec_step fst]. eexists _, _.
    cbn [st_all st_pos]. reflexivity.
  - apply Forall_app. split; [exact Hh|]. repeat constructor.
Qed.

(* A read that fails for lack of data consumes nothing: after more data arrives it delivers the same bits. *)
Theorem C05_failed_read_can_be_retried : forall (h : list sop) (b : list Z) (n max : Z) (cap fuel : nat),
  (1 <= cap)%nat -> (8 <= fuel)%nat -> Forall sop_wf h -> Forall byteP b ->
  (exists rs, fst (srun fuel (h ++ [SOp (OLit n max)]) (r_stream cap)) = rs ++ [Err ResourceExhausted]) ->
  exists rs r1 r2, fst (srun fuel (h ++ [SPush b; SOp (OLit n max)]) (r_stream cap)) = rs ++ [r1; r2] /\
                   fst (srun fuel (h ++ [SOp (OLit n max); SPush b; SOp (OLit n max)]) (r_stream cap))
                   = rs ++ [Err ResourceExhausted; r1; r2].
Proof.
  intros h b n max cap fuel Hc Hf Hh Hb [rs0 H].
  rewrite C05_stream_refines_spec in H; try assumption;
    [|apply Forall_app; split; [exact Hh|repeat constructor]].
  rewrite !C05_stream_refines_spec; try assumption;
    try (apply Forall_app; split; [exact Hh|repeat (constructor; try exact I; try exact Hb)]).
  rewrite spec_run_app in H. rewrite !spec_run_app. destruct (spec_run h s_empty) as [rs s]. exists rs.
  cbn [spec_run] in H |- *. destruct (spec_step (SOp (OLit n max)) s) as [x s1] eqn:E1. cbn [fst] in H.
  apply app_inj_tail in H as [_ ->].
  assert (st_all s1 = st_all s /\ st_pos s1 = st_pos s /\ st_base s1 = st_base s) as (A1 & A2 & A3).
  { cbn [spec_step] in E1. destruct ((0 <=? n) && (n <=? Z.min max 64)); [|congruence].
    destruct (st_pos s + Z.to_nat n <=? length (st_all s))%nat; [congruence|].
    injection E1 as <-. auto. }
  cbn [spec_step] in *. rewrite A1, A3. destruct (zlen (st_all s) / 8 - Z.of_nat (st_base s) + zlen b >? 2 ^ 22).
  - destruct ((0 <=? n) && (n <=? Z.min max 64)); [|congruence]. rewrite A1, A2, A3.
    destruct (st_pos s + Z.to_nat n <=? length (st_all s))%nat; [congruence|]. eexists _, _. cbn [fst]. split; reflexivity.
  - cbn [st_all st_pos st_base]. rewrite A2. destruct ((0 <=? n) && (n <=? Z.min max 64)); [|congruence].
    destruct (st_pos s + Z.to_nat n <=? length (st_all s ++ bytes_bits b))%nat; eexists _, _; cbn [fst]; split; reflexivity.
Qed.

Example C05_ex :
  let h := [SPush [1; 2]; SOp (OLit 12 16); SFlush; SOp (OLit 8 8); SPush [171]; SFlush; SOp (OLit 8 8); SOp OAvail] in
  forallb no_seek h = true /\
  fst (srun 8 h (r_stream 1)) = [Ok 0; Ok 16; Ok 0; Err ResourceExhausted; Ok 0; Ok 0; Ok 42; Ok 0].
Proof. vm_compute. split; reflexivity. Qed.

(* ------------------------------------------------------------------ C06 *)
(* FALSE as stated (1): Seek on a fresh buffer reads the never-initialised flag, whatever the source and position. *)
Theorem C06_fresh_seek_refuted : forall cap src p, fst (r_seek p (r_create cap src)) = UB.
Proof. reflexivity. Qed.

(* FALSE as stated (2): after Flush, any literal read (not only Tell) re-enables Seek, so a position obtained before the
   Flush is accepted and now denotes other data: position 8 was byte 2, after the flush it is byte 3. *)
Theorem C06_stale_position_refuted :
  fst (srun 8 [SPush [1; 2; 3]; SOp (OLit 8 8); SOp OTell; SFlush; SOp (OSeek 8)] (r_stream 4))
    = [Ok 0; Ok 1; Ok 8; Ok 0; Err FailedPrecondition] /\
  fst (srun 8 [SPush [1; 2; 3]; SOp (OLit 8 8); SOp OTell; SFlush; SOp (OLit 8 8); SOp (OSeek 8); SOp (OLit 8 8)] (r_stream 4))
    = [Ok 0; Ok 1; Ok 8; Ok 0; Ok 2; Ok 0; Ok 3].
Proof. vm_compute. split; reflexivity. Qed.

(* The true part: after a Flush every Seek is refused until the next Tell or literal read. *)
Definition no_new_position (o : sop) : bool :=
  match o with SPush _ | SFlush | SOp (OSeek _) | SOp OAvail => true | SOp OTell | SOp (OLit _ _) => false end.

Theorem C06_seek_refused_after_flush_partial : forall (h q : list sop) (p : Z) (cap fuel : nat),
  (1 <= cap)%nat -> (8 <= fuel)%nat -> Forall sop_wf (h ++ q) -> forallb no_new_position q = true ->
  exists rs, fst (srun fuel (h ++ SFlush :: q ++ [SOp (OSeek p)]) (r_stream cap)) = rs ++ [Err FailedPrecondition].
Proof.
  intros h q p cap fuel Hc Hf Hw Hq. apply Forall_app in Hw as [Hh Hq'].
  rewrite C05_stream_refines_spec; try assumption.
  2:{ apply Forall_app. split; [exact Hh|]. constructor; [exact I|]. apply Forall_app. split; [exact Hq'|]. repeat constructor. }
  rewrite spec_run_app. destruct (spec_run h s_empty) as [rs s]. cbn [spec_run spec_step].
  assert (forall s0, st_valid s0 = Some false -> st_valid (snd (spec_run q s0)) = Some false) as V.
  { clear - Hq. induction q as [|o q IH]; intros s0 H0; [exact H0|].
    cbn [forallb] in Hq. apply andb_prop in Hq as [Ho Hq]. cbn [spec_run]. destruct (spec_step o s0) as [x s1] eqn:E.
    specialize (IH Hq s1). destruct (spec_run q s1). cbn [snd] in *. apply IH. clear IH.
    destruct o as [b| |[]]; try discriminate; cbn [spec_step] in E.
    - destruct (_ >? _); injection E as <- <-; exact H0.
    - injection E as <- <-; reflexivity.
    - rewrite H0 in E. injection E as <- <-. exact H0.
    - injection E as <- <-. exact H0. }
  specialize (V (mkS (st_all s) (st_pos s) (st_pos s / 8) (Some false)) eq_refl).
  rewrite spec_run_app. destruct (spec_run q _) as [rq sq]. cbn [snd] in V. cbn [spec_run spec_step]. rewrite V. cbn [fst].
  exists (rs ++ Ok 0 :: rq). rewrite <- app_assoc. reflexivity.
Qed.

Print Assumptions C01_writer_is_append_log.
Print Assumptions C02_reader_is_a_cursor.
Print Assumptions C03_literal_reads_are_exact.
Print Assumptions C04_zero_capacity_refuted.
Print Assumptions C05_stream_refines_spec.
Print Assumptions C06_seek_refused_after_flush_partial.
