(* Facts about the probe's walk: what one iteration does is a function of the bytes ahead. *)
From Verif Require Import Base WriteBuf ReadBuf Leb BufSpec LebSpec BitFacts WriteBufFacts ReadBufFacts LebFacts
  ParseFacts EndToEnd ObuHeader ObuHeaderFacts FrameFacts SeqFacts PureFacts SimpleObus CodecConfig Params Timing ParamManager
  Processor PropsObu ProcFacts Probe.

Lemma header_at c l t total r' : cok c -> skipn (c_pos c) (c_bits c) = bytes_bits l -> zlen l < 2^32 - 64 ->
  prun fill_header_metadata (bytes_bits l) = POk (t, total) r' -> total <= zlen l ->
  match prun read_header (bytes_bits (firstn (Z.to_nat total) l)) with
  | POk (h, n) w => exists q, arun read_header (mkC (c_bits c) (c_pos c) (Some true)) = (Ok (h, n), mkC (c_bits c) q (Some true)) /\
      Z.of_nat q = Z.of_nat (c_pos c) + 8 * (total - n) /\ 0 <= n <= total /\ skipn q (c_bits c) = w ++ bytes_bits (skipn (Z.to_nat total) l) /\
      zlen w = 8 * n /\ 0 < total
  | _ => exists er c', arun read_header (mkC (c_bits c) (c_pos c) (Some true)) = (Err er, c') /\ c_bits c' = c_bits c /\ c_valid c' = Some true
  end.
Proof.
  intros Hc Hs Hl Ef Et. assert (length (c_bits c) = c_pos c + 8 * length l)%nat as LL.
  { unfold cok in Hc. pose proof (f_equal (@length bool) Hs) as L. rewrite skipn_length, bytes_bits_length in L. lia. }
  set (c0 := mkC (c_bits c) (c_pos c) (Some true)). assert (cok c0) as K0 by exact Hc.
  pose proof (fill_total _ _ _ _ Ef) as FT.
  set (o := firstn (Z.to_nat total) l). set (e := skipn (Z.to_nat total) l).
  assert (l = o ++ e) as El by (symmetry; apply firstn_skipn).
  assert (bytes_bits l = bytes_bits o ++ bytes_bits e) as Eb by (rewrite El at 1; apply bytes_bits_app).
  assert (Z.of_nat (length o) = total) as Lo by (unfold o, zlen in *; rewrite firstn_length; lia).
  assert (zlen (bytes_bits o) = 8 * total) as Lo8 by (unfold zlen; rewrite bytes_bits_length; lia).
  assert (Z.of_nat (length (bytes_bits l)) < 8 * (2^32 - 64)) as Hl8 by (rewrite bytes_bits_length; unfold zlen in Hl; lia).
  assert (exists r2, prun fill_header_metadata (bytes_bits o) = POk (t, total) r2 \/ (forall h n r, prun read_header (bytes_bits l) <> POk (h, n) r)) as [r2 Fo].
  { destruct (prun read_header (bytes_bits l)) as [|er|[h n] r] eqn:Eh; try (exists []; right; congruence).
    destruct (header_shape _ _ _ _ Eh Hl8) as (t2 & total2 & r2 & E2 & _ & Hn & Ht & L2 & L3). rewrite Ef in E2. injection E2 as <- <- <-.
    pose proof (prun_ext fill_header_metadata (bytes_bits o) (bytes_bits e)) as X. rewrite <- Eb, Ef in X.
    destruct (prun fill_header_metadata (bytes_bits o)) as [|er|[ta tb] ra]; try discriminate.
    - exfalso. rewrite Eb, app_length in L3. unfold zlen in Lo8. lia.
    - injection X as <- <- _. exists ra. left. reflexivity. }
  pose proof (arun_prun _ pure_header c0 K0) as Ph. cbn [c_pos c_bits c0] in Ph. fold c0 in Ph. rewrite Hs in Ph.
  destruct (arun_valid read_header c0 eq_refl) as [Vh _]. pose proof (arun_bits read_header c0) as Bh.
  pose proof (prun_ext read_header (bytes_bits o) (bytes_bits e)) as X. rewrite <- Eb in X.
  destruct (prun read_header (bytes_bits l)) as [|er|[h n] r] eqn:Eh.
  { destruct Ph as [c' Ph]. rewrite Ph in Vh, Bh. cbn [snd] in Vh, Bh.
    destruct (prun read_header (bytes_bits o)) as [|?|[? ?] ?]; try discriminate; eexists; exists c'; split; try exact Ph; split; assumption. }
  { destruct Ph as [c' Ph]. rewrite Ph in Vh, Bh. cbn [snd] in Vh, Bh.
    destruct (prun read_header (bytes_bits o)) as [|?|[? ?] ?]; try discriminate; eexists; exists c'; split; try exact Ph; split; assumption. }
  destruct Fo as [Fo|Fo]; [|exfalso; eapply Fo; reflexivity].
  assert (Z.of_nat (length (bytes_bits o ++ bytes_bits e)) < 8 * (2^32 - 64)) as Hl9 by (rewrite <- Eb; exact Hl8).
  pose proof Eh as Eh2. rewrite Eb in Eh2.
  destruct (header_window _ _ _ _ _ _ _ _ Fo Lo8 Hl9 Eh2) as (w & Ew & -> & Hw). rewrite Ew.
  destruct (header_shape _ _ _ _ Ew ltac:(rewrite app_length in Hl9; lia)) as (t3 & total3 & r3 & E3 & _ & Hn & Ht & L4 & L5).
  rewrite Fo in E3. injection E3 as <- <- <-.
  destruct Ph as [v2 Ph]. rewrite Ph in Vh, Bh |- *. cbn [snd c_valid c_bits] in Vh. subst v2. clear Bh.
  assert (0 <= n <= total) as Hnt by (unfold zlen in Lo8, Hw; pose proof (prun_rest_len _ _ _ _ Ew); lia).
  exists (length (c_bits c) - length (w ++ bytes_bits e))%nat. split; [reflexivity|].
  assert (length l = length o + length e)%nat as Lt by (rewrite El at 1; apply app_length).
  split; [unfold zlen in *; rewrite app_length; rewrite !bytes_bits_length in *; lia|]. split; [exact Hnt|]. split.
  - destruct (prun_rest _ _ _ _ Ew) as [u Eu].
    replace (length (c_bits c) - length (w ++ bytes_bits e))%nat with (c_pos c + length u)%nat.
    + rewrite <- skipn_skipn', Hs, Eb, Eu, <- app_assoc, skipn_app, skipn_all, Nat.sub_diag. reflexivity.
    + rewrite app_length, LL. pose proof (f_equal (@length bool) Eb) as Q. pose proof (f_equal (@length bool) Eu) as Q2.
      rewrite app_length in Q, Q2. rewrite bytes_bits_length in Q. lia.
  - split; [exact Hw|]. clear -Fo Lo8 L5.
    assert (bytes_bits o <> []) as N by (intro Q; rewrite Q in Fo; discriminate Fo).
    unfold zlen in Lo8. destruct (bytes_bits o); [contradiction|]. cbn [length] in Lo8. lia.
Qed.

(* ---- what the walk sees in the bytes ahead ---- *)
Inductive sview := VStop (r : stop) | VNext (adv : Z) (e : event).
Definition frame_seen (h : header) (w : list bool) : event :=
  if h_type h =? kAudioFrame
  then match prun ruleb_sz w with POk (id, _) _ => EFrame id (h_trim_start h) (h_trim_end h) | _ => EFrameError end
  else EFrame (h_type h - kAudioFrameId0) (h_trim_start h) (h_trim_end h).
Definition block_seen (full : bool) (T : ptables) (h : header) (n : Z) (w e : list bool) : event :=
  match prun ruleb (w ++ e) with
  | POk id _ =>
      match m_find id (pt_defs T) with
      | None => EBlockError true
      | Some d => if full then match lpay (read_pblock d h n) w with inl _ => EBlockError true | inr b => EBlock id (Some (d, fst b)) end
                  else EBlock id None
      end
  | _ => EBlockError false
  end.
Definition seen (full : bool) (T : ptables) (h : header) (n : Z) (w e : list bool) : event :=
  if is_audio_frame (h_type h) then frame_seen h w
  else if h_type h =? kParameterBlock then block_seen full T h n w e
  else if h_type h =? kTemporalDelimiter then EDelim
  else EOther.
Definition look (full : bool) (T : ptables) (l : list Z) : sview :=
  match prun fill_header_metadata (bytes_bits l) with
  | PNeed => VStop (if zlen l =? 0 then Eof else Truncated)
  | PErr _ => VStop Malformed
  | POk (_, total) _ =>
      if zlen l <? total then VStop Truncated
      else match prun read_header (bytes_bits (firstn (Z.to_nat total) l)) with
           | POk (h, n) w =>
               if (h_type h =? kSequenceHeader) && negb (h_red h) then VStop NextSequence
               else VNext total (seen full T h n w (bytes_bits (skipn (Z.to_nat total) l)))
           | _ => VNext total EOther
           end
  end.

Lemma frame_spec h n c w e : cok c -> c_valid c = Some true -> skipn (c_pos c) (c_bits c) = w ++ e -> zlen w = 8 * n -> 0 <= n -> is_audio_frame (h_type h) = true ->
  exists x c', arun (scan_frame h n) c = (Ok x, c') /\ c_bits c' = c_bits c /\ c_valid c' = Some true /\
    match x with Some ev => ev = frame_seen h w /\ Z.of_nat (c_pos c') = Z.of_nat (c_pos c) + 8 * n | None => frame_seen h w = EFrameError end.
Proof.
  intros Hc Hv Hs Hw Hn Ht. unfold scan_frame, frame_seen.
  assert (Z.of_nat (c_pos c) + 8 * n <= zlen (c_bits c)) as R.
  { unfold cok in Hc. pose proof (f_equal (@length bool) Hs) as L. rewrite skipn_length, app_length in L. unfold zlen in *. lia. }
  destruct (h_type h =? kAudioFrame) eqn:E.
  - rewrite arun_bind, arun_bind, arun_rcatch. pose proof (arun_prun _ pure_ruleb_sz c Hc) as P. rewrite Hs in P.
    destruct (arun_valid ruleb_sz c Hv) as [V _]. pose proof (arun_bits ruleb_sz c) as B. pose proof (prun_ext ruleb_sz w e) as X.
    destruct (prun ruleb_sz w) as [|er|[v k] r] eqn:Ew.
    + destruct (prun ruleb_sz (w ++ e)) as [|er|[v k] r] eqn:E2.
      * destruct P as [c' P]. rewrite P in V, B |- *. cbn [snd] in V, B. cbn [arun]. eexists _, _. repeat split; assumption.
      * destruct P as [c' P]. rewrite P in V, B |- *. cbn [snd] in V, B. cbn [arun]. eexists _, _. repeat split; assumption.
      * destruct P as [v0 P]. rewrite P in V |- *. cbn [snd c_valid] in V. cbn [arun].
        replace (n <? k) with true. { cbn [arun]. eexists _, _. repeat split. exact V. }
        symmetry. apply Z.ltb_lt. apply prun_leb_ok in E2 as (L2 & K2 & _). rewrite app_length in L2. unfold zlen in Hw. lia.
    + rewrite X in P. destruct P as [c' P]. rewrite P in V, B |- *. cbn [snd] in V, B. cbn [arun]. eexists _, _. repeat split; assumption.
    + rewrite X in P. destruct P as [v0 P]. rewrite P in V |- *. cbn [snd c_valid] in V. subst v0. cbn [arun].
      apply prun_leb_ok in Ew as (L2 & K2 & _). unfold zlen in Hw. replace (n <? k) with false by lia.
      rewrite arun_bind, arun_rcatch, arun_rignore. 2:{ lia. } 2:{ pose proof (f_equal (@length bool) Hs) as L. rewrite skipn_length, app_length in L. rewrite app_length. unfold zlen, cok in *. lia. }
      cbn [arun is_ok]. eexists _, _. cbn [c_bits c_valid c_pos]. repeat split.
      pose proof (f_equal (@length bool) Hs) as L. rewrite skipn_length, app_length in L. cbn [c_pos]. rewrite app_length. unfold cok in Hc. lia.
  - cbn [rb]. rewrite arun_bind, arun_rcatch. destruct c as [cb cp cv]. cbn [c_bits c_pos c_valid] in *. rewrite arun_rignore by (try lia; exact R).
    cbn [arun is_ok]. eexists _, _. cbn [c_bits c_valid c_pos]. repeat split. cbn [c_pos]. lia.
Qed.

Lemma arun_peek_id c l : cok c -> skipn (c_pos c) (c_bits c) = l ->
  arun (rcatch peek_parameter_id) c = (Ok (match prun ruleb l with POk id _ => inr id | PErr er => inl er | PNeed => inl ResourceExhausted end), mkC (c_bits c) (c_pos c) (Some true)).
Proof.
  intros Hc Hs. rewrite arun_rcatch. unfold peek_parameter_id. rewrite arun_bind, arun_rtell, arun_bind, arun_rcatch.
  set (c0 := mkC (c_bits c) (c_pos c) (Some true)). assert (cok c0) as K0 by exact Hc.
  pose proof (arun_prun _ pure_ruleb c0 K0) as P. cbn [c_pos c_bits c0] in P. fold c0 in P. rewrite Hs in P.
  destruct (arun_valid ruleb c0 eq_refl) as [V _]. pose proof (arun_bits ruleb c0) as B. cbn [c_bits c0] in B.
  assert (0 <= Z.of_nat (c_pos c) <= zlen (c_bits c)) as R by (unfold cok, zlen in *; lia).
  destruct (prun ruleb l) as [|er|id r].
  - destruct P as [c' P]. rewrite P in V, B |- *. cbn [snd] in V, B. destruct c' as [b1 p1 v1]. cbn [c_bits c_valid] in V, B. subst b1 v1.
    rewrite arun_bind, arun_rseek_ok by exact R. rewrite Nat2Z.id. reflexivity.
  - destruct P as [c' P]. rewrite P in V, B |- *. cbn [snd] in V, B. destruct c' as [b1 p1 v1]. cbn [c_bits c_valid] in V, B. subst b1 v1.
    rewrite arun_bind, arun_rseek_ok by exact R. rewrite Nat2Z.id. reflexivity.
  - destruct P as [v P]. rewrite P in V |- *. cbn [snd c_valid] in V. subst v.
    rewrite arun_bind, arun_rseek_ok by exact R. rewrite Nat2Z.id. reflexivity.
Qed.

Lemma block_spec full T h n c w e : cok c -> skipn (c_pos c) (c_bits c) = w ++ e -> zlen w = 8 * n -> 0 <= n ->
  exists x c', arun (scan_block full T h n) c = (Ok x, c') /\ c_bits c' = c_bits c /\ c_valid c' = Some true /\
    match x with inr ev => ev = block_seen full T h n w e /\ Z.of_nat (c_pos c') = Z.of_nat (c_pos c) + 8 * n | inl ev => ev = block_seen full T h n w e end.
Proof.
  intros Hc Hs Hw Hn. unfold scan_block, block_seen. rewrite arun_bind, (arun_peek_id c _ Hc Hs).
  assert (Z.of_nat (c_pos c) + 8 * n <= zlen (c_bits c)) as R.
  { unfold cok in Hc. pose proof (f_equal (@length bool) Hs) as L. rewrite skipn_length, app_length in L. unfold zlen in *. lia. }
  destruct (prun ruleb (w ++ e)) as [|er|id r]; [cbn [arun]; eexists _, _; split; [reflexivity|repeat split]|cbn [arun]; eexists _, _; split; [reflexivity|repeat split]|].
  destruct (m_find id (pt_defs T)) as [d|]; [|cbn [arun]; eexists _, _; split; [reflexivity|repeat split]].
  destruct full.
  - rewrite arun_bind. set (c0 := mkC (c_bits c) (c_pos c) (Some true)).
    destruct (payload_local _ n c0 w e (pure_pblock d h n) Hc Hs Hw) as (x & c' & E & S & B' & V' & P').
    rewrite E. cbn [arun]. eexists _, _. split; [reflexivity|]. split; [exact B'|]. split; [exact V'|].
    destruct x as [?|a], (lpay _ w) as [?|b2]; cbn [same] in S; try contradiction; subst; [reflexivity|]. split; [reflexivity|exact P'].
  - rewrite arun_bind, arun_rcatch, arun_rignore by (try lia; exact R). cbn [arun is_ok]. eexists _, _. cbn [c_bits c_valid c_pos]. repeat split. cbn [c_pos]. lia.
Qed.

Lemma scan_obu_spec full T c l : cok c -> skipn (c_pos c) (c_bits c) = bytes_bits l -> zlen l < 2^32 - 64 ->
  match look full T l with
  | VStop r => arun (scan_obu full T) c = (Ok (EOther, Some r), mkC (c_bits c) (c_pos c) (Some true))
  | VNext adv e => arun (scan_obu full T) c = (Ok (e, None), mkC (c_bits c) (c_pos c + 8 * Z.to_nat adv) (Some true)) /\ 0 <= adv <= zlen l
  end.
Proof.
  intros Hc Hs Hl. assert (length (c_bits c) = c_pos c + 8 * length l)%nat as LL.
  { unfold cok in Hc. pose proof (f_equal (@length bool) Hs) as L. rewrite skipn_length, bytes_bits_length in L. lia. }
  set (c0 := mkC (c_bits c) (c_pos c) (Some true)). assert (cok c0) as K0 by exact Hc.
  assert (arun ravail c0 = (Ok (zlen l), c0)) as Ea.
  { unfold ravail, rop1. cbn [arun aop]. unfold c_left. cbn [c_pos c_bits c0]. rewrite LL.
    replace (c_pos c + 8 * length l - c_pos c)%nat with (8 * length l)%nat by lia. unfold zlen.
    replace (Z.of_nat (8 * length l)) with (Z.of_nat (length l) * 8) by lia. rewrite Z.div_mul by discriminate. reflexivity. }
  assert (arun rtell c = (Ok (Z.of_nat (c_pos c)), c0)) as Et by reflexivity.
  unfold scan_obu, look. rewrite arun_bind, Et. rewrite arun_bind, Ea. rewrite arun_bind, arun_rcatch, (arun_peek c0 K0).
  change (mkC (c_bits c0) (c_pos c0) (Some true)) with c0.
  pose proof (arun_prun _ pure_fill c0 K0) as P. cbn [c_pos c_bits c0] in P. fold c0 in P. rewrite Hs in P.
  pose proof (fill_err (bytes_bits l)) as FE. pose proof (fill_total (bytes_bits l)) as FT.
  destruct (prun fill_header_metadata (bytes_bits l)) as [|er|[t total] r'] eqn:Ef.
  - destruct P as [c' P]. rewrite P. reflexivity.
  - destruct P as [c' P]. rewrite P. rewrite (FE er eq_refl). reflexivity.
  - destruct P as [v P]. rewrite P. specialize (FT _ _ _ eq_refl). cbn [snd]. rewrite arun_bind, Ea.
    destruct (zlen l <? total) eqn:Etot; [reflexivity|]. assert (total <= zlen l) as Etot2 by lia.
    pose proof (header_at c l t total r' Hc Hs Hl Ef Etot2) as Hh. fold c0 in Hh.
    assert (0 <= Z.of_nat (c_pos c) <= zlen (c_bits c)) as R0 by (unfold cok, zlen in *; lia).
    assert (forall p2 v, arun (rcatch (rseek (Z.of_nat (c_pos c));;; rignore total)) (mkC (c_bits c) p2 (Some true)) =
              (Ok (inr v), mkC (c_bits c) (c_pos c + 8 * Z.to_nat total) (Some true))) as Eskip.
    { intros p2 []. rewrite arun_rcatch, arun_bind, arun_rseek_ok by exact R0. rewrite Nat2Z.id, arun_rignore by (unfold zlen in *; lia).
      do 2 f_equal. lia. }
    rewrite arun_bind, arun_rcatch.
    destruct (prun read_header (bytes_bits (firstn (Z.to_nat total) l))) as [|er|[h n] w].
    + destruct Hh as (er & [b1 p1 v1] & -> & B1 & V1). cbn [c_bits c_valid] in B1, V1. subst b1 v1.
      rewrite arun_bind, (Eskip p1 tt). cbn [arun is_ok]. split; [reflexivity|lia].
    + destruct Hh as (er1 & [b1 p1 v1] & -> & B1 & V1). cbn [c_bits c_valid] in B1, V1. subst b1 v1.
      rewrite arun_bind, (Eskip p1 tt). cbn [arun is_ok]. split; [reflexivity|lia].
    + destruct Hh as (q & -> & Hq & Hnt & S1 & Hw & Hpos).
      set (c1 := mkC (c_bits c) q (Some true)).
      assert (Z.of_nat q + 8 * n <= zlen (c_bits c)) as Rq by (unfold zlen in *; lia).
      assert (cok c1) as K1 by (unfold cok, zlen in *; cbn [c_pos c_bits c1]; lia).
      assert (forall p2, Z.of_nat p2 = Z.of_nat q + 8 * n -> mkC (c_bits c) p2 (Some true) = mkC (c_bits c) (c_pos c + 8 * Z.to_nat total) (Some true)) as Ep by (intros p2 Q; f_equal; lia).
      assert (forall e, arun (rtell;;; RRet (e : event, @None stop)) (mkC (c_bits c) (c_pos c + 8 * Z.to_nat total) (Some true)) = (Ok (e, None), mkC (c_bits c) (c_pos c + 8 * Z.to_nat total) (Some true))) as _ by reflexivity.
      assert (forall e : event, arun (x <- rtell;; RRet (e, if x <=? Z.of_nat (c_pos c) then Some Malformed else None)) (mkC (c_bits c) (c_pos c + 8 * Z.to_nat total) (Some true)) =
         (Ok (e, None), mkC (c_bits c) (c_pos c + 8 * Z.to_nat total) (Some true))) as Echk.
      { intro e. rewrite arun_bind, arun_rtell. cbn [c_pos c_bits arun]. replace (Z.of_nat (c_pos c + 8 * Z.to_nat total) <=? Z.of_nat (c_pos c)) with false by lia. reflexivity. }
      assert (arun (rcatch (rignore n)) c1 = (Ok (inr tt), mkC (c_bits c) (c_pos c + 8 * Z.to_nat total) (Some true))) as Eign.
      { rewrite arun_rcatch. unfold c1. rewrite arun_rignore by (try lia; exact Rq). do 2 f_equal. lia. }
      unfold seen. destruct (is_audio_frame (h_type h)) eqn:Ea1.
      { replace ((h_type h =? kSequenceHeader) && negb (h_red h)) with false.
        2:{ unfold is_audio_frame, kSequenceHeader, kAudioFrame, kAudioFrameId0, kAudioFrameId17 in *. lia. }
        rewrite arun_bind. destruct (frame_spec h n c1 w _ K1 eq_refl S1 Hw ltac:(lia) Ea1) as (x & [b2 p2 v2] & E2 & B2 & V2 & P2).
        cbn [c_bits c_valid c_pos c1] in B2, V2, P2. subst b2 v2. rewrite E2. destruct x as [ev|].
        - destruct P2 as [-> P2]. rewrite (Ep p2 P2). rewrite arun_bind. cbn [arun snd fst]. rewrite Echk. split; [reflexivity|lia].
        - rewrite P2. rewrite arun_bind, arun_bind, (Eskip p2 tt). cbn [arun snd fst is_ok]. rewrite Echk. split; [reflexivity|lia]. }
      destruct (h_type h =? kParameterBlock) eqn:Ea2.
      { replace ((h_type h =? kSequenceHeader) && negb (h_red h)) with false by (unfold kSequenceHeader, kParameterBlock in *; lia).
        rewrite arun_bind. destruct (block_spec full T h n c1 w _ K1 S1 Hw ltac:(lia)) as (x & [b2 p2 v2] & E2 & B2 & V2 & P2).
        cbn [c_bits c_valid c_pos c1] in B2, V2, P2. subst b2 v2. rewrite E2. destruct x as [ev|ev].
        - rewrite <- P2. rewrite arun_bind, arun_bind, (Eskip p2 tt). cbn [arun snd fst is_ok]. rewrite Echk. split; [reflexivity|lia].
        - destruct P2 as [-> P2]. rewrite (Ep p2 P2). rewrite arun_bind. cbn [arun snd fst]. rewrite Echk. split; [reflexivity|lia]. }
      destruct (h_type h =? kTemporalDelimiter) eqn:Ea3.
      { replace ((h_type h =? kSequenceHeader) && negb (h_red h)) with false by (unfold kSequenceHeader, kTemporalDelimiter in *; lia).
        rewrite arun_bind, Eign. cbn [is_ok snd fst]. rewrite Echk. split; [reflexivity|lia]. }
      destruct ((h_type h =? kSequenceHeader) && negb (h_red h)).
      { rewrite arun_bind, arun_rcatch. unfold c1. rewrite arun_rseek_ok by exact R0. rewrite Nat2Z.id. reflexivity. }
      rewrite arun_bind, Eign. cbn [snd fst]. rewrite Echk. split; [reflexivity|lia].
Qed.

(* ---- the walk over bytes ---- *)
Section Walk.
Context (full : bool) (T : ptables) (go : Z -> Z -> Z -> bool).
(* stop reason, offset, state *)
Fixpoint walk (k : nat) (i off : Z) (s : scan) (l : list Z) : stop * Z * scan :=
  match k with
  | O => (BudgetExceeded, off, s)
  | S k' =>
      if negb (go i off (sc_done s)) then (Cancelled, off, s)
      else match look full T l with
           | VStop r => (r, off, s)
           | VNext adv e => walk k' (i + 1) (off + adv) (tally full T off e s) (skipn (Z.to_nat adv) l)
           end
  end.
Lemma loop_walk k : forall i s c start l off, cok c -> skipn (c_pos c) (c_bits c) = bytes_bits l -> zlen l < 2^32 - 64 ->
  Z.of_nat (c_pos c) = start + 8 * off ->
  exists p, arun (scan_loop full T go start k i s) c = (let '(r, o, s') := walk k i off s l in (Ok (r, s'), mkC (c_bits c) p (match k with O => c_valid c | _ => Some true end)))
    /\ let '(r, o, s') := walk k i off s l in Z.of_nat p = start + 8 * o.
Proof.
  induction k as [|k IH]; intros i s c start l off Hc Hs Hl Hp; cbn [scan_loop walk].
  - exists (c_pos c). split; [destruct c; reflexivity|exact Hp].
  - rewrite arun_bind, arun_rtell. rewrite Hp. replace ((start + 8 * off - start) / 8) with off.
    2:{ replace (start + 8 * off - start) with (off * 8) by lia. rewrite Z.div_mul by discriminate. reflexivity. }
    destruct (negb (go i off (sc_done s))). { exists (c_pos c). split; [reflexivity|exact Hp]. }
    rewrite arun_bind. set (c0 := mkC (c_bits c) (c_pos c) (Some true)).
    pose proof (scan_obu_spec full T c0 l Hc Hs Hl) as P. destruct (look full T l) as [r|adv e].
    + rewrite P. cbn [snd fst tally]. exists (c_pos c). split; [reflexivity|exact Hp].
    + destruct P as [P R]. rewrite P. cbn [snd fst].
      assert (length (c_bits c) = c_pos c + 8 * length l)%nat as LL.
      { unfold cok in Hc. pose proof (f_equal (@length bool) Hs) as L. rewrite skipn_length, bytes_bits_length in L. lia. }
      destruct (IH (i + 1) (tally full T off e s) (mkC (c_bits c0) (c_pos c0 + 8 * Z.to_nat adv) (Some true)) start (skipn (Z.to_nat adv) l) (off + adv)) as (p & E & Q).
      * unfold cok, zlen in *. cbn [c_bits c_pos c0]. lia.
      * cbn [c_bits c_pos c0]. rewrite <- skipn_skipn', Hs. symmetry. apply bytes_bits_skipn.
      * unfold zlen in *. rewrite skipn_length. lia.
      * cbn [c_pos c0]. lia.
      * exists p. split; [|exact Q]. cbn [c_bits c_pos c_valid c0] in E |- *. rewrite E. destruct k; reflexivity.
Qed.
End Walk.

Definition walked (full : bool) (budget : nat) (T : ptables) (go : Z -> Z -> Z -> bool) (l : list Z) : report :=
  let '(r, o, s) := walk full T go budget 1 0 sc_empty l in conclude full r s o.
Lemma scan_walked fuel cap full budget T go before l : (8 <= fuel)%nat -> (1 <= cap)%nat -> Forall byteP (before ++ l) -> zlen l < 2^32 - 64 ->
  exists q, fst (crun fuel (read_at (8 * zlen before) (scan_units full budget T go)) (r_create cap (before ++ l))) = Ok (walked full budget T go l, 8 * zlen before + 8 * q)
    /\ q = rp_bytes (walked full budget T go l).
Proof.
  intros Hf Hc Hb Hl. assert (0 <= 8 * zlen before <= 8 * zlen (before ++ l)) as Hp by (unfold zlen; rewrite app_length; lia).
  rewrite crun_read_at by assumption. set (c := mkC (bytes_bits (before ++ l)) (Z.to_nat (8 * zlen before)) (Some true)).
  assert (Z.to_nat (8 * zlen before) = 8 * length before)%nat as Hpos by (unfold zlen; lia).
  assert (cok c) as K by (unfold cok, c; cbn [c_pos c_bits]; rewrite bytes_bits_length, app_length; lia).
  assert (skipn (c_pos c) (c_bits c) = bytes_bits l) as Hs.
  { unfold c. cbn [c_pos c_bits]. rewrite Hpos, bytes_bits_app, skipn_app, <- bytes_bits_length, skipn_all, Nat.sub_diag. reflexivity. }
  unfold scan_units, walked. rewrite arun_bind, arun_rtell, arun_bind.
  change (mkC (c_bits c) (c_pos c) (Some true)) with c.
  destruct (loop_walk full T go budget 1 sc_empty c (Z.of_nat (c_pos c)) l 0 K Hs Hl ltac:(lia)) as (p & E & Q).
  rewrite E. destruct (walk full T go budget 1 0 sc_empty l) as [[r o] s]. rewrite arun_bind, arun_rtell. cbn [c_pos c_bits arun at_result fst snd].
  exists o. rewrite Q. replace ((Z.of_nat (c_pos c) + 8 * o - Z.of_nat (c_pos c)) / 8) with o.
  2:{ replace (Z.of_nat (c_pos c) + 8 * o - Z.of_nat (c_pos c)) with (o * 8) by lia. rewrite Z.div_mul by discriminate. reflexivity. }
  split; [|unfold conclude; reflexivity]. do 2 f_equal. cbn [c c_pos]. rewrite Z2Nat.id by lia. reflexivity.
Qed.
