(* C66: what the probe's report says about the OBUs in the bytes, whatever the bytes. *)
From Coq Require Import Permutation Sorted.
From Verif Require Import Base WriteBuf ReadBuf Leb BufSpec LebSpec BitFacts WriteBufFacts ReadBufFacts LebFacts
  ParseFacts EndToEnd ObuHeader ObuHeaderFacts FrameFacts SeqFacts PureFacts SimpleObus CodecConfig Params Timing ParamManager
  Processor PropsObu ProcFacts PropsProc Probe ProbeFacts PropsProbe.
Local Open Scope Z_scope.

(* ================= SPEC ================= *)
(* The bytes begin with a byte and a size in LEB128 (at most 8 bytes, less than 2^32); the OBU has [total] bytes with these two. The code
   computes the sum modulo 2^32: see C66_spins. *)
Definition begins (l : list Z) (total : Z) : Prop :=
  exists b s body, l = b :: s ++ body /\ is_leb s /\ (length s <= 8)%nat /\ uleb_value s < 2^32 /\ total = (1 + zlen s + uleb_value s) mod 2^32.
(* The bytes cut into OBUs. *)
Inductive cut : list Z -> list (list Z) -> list Z -> Prop :=
| cut_end l : cut l [] l
| cut_more l total os rest : begins l total -> total <= zlen l -> cut (skipn (Z.to_nat total) l) os rest -> cut l (firstn (Z.to_nat total) l :: os) rest.
(* The type is in the upper 5 bits of the first byte; the header, with the trims and the extension it announces, and the payload [p]. *)
Definition kind (o : list Z) : Z := hd 0 o / 8.
Definition header_of (o : list Z) (h : header) (p : list Z) : Prop := prun read_header (bytes_bits o) = POk (h, zlen p) (bytes_bits p).
Definition begins_with_leb (p : list Z) (v : Z) : Prop := exists s body, p = s ++ body /\ is_leb s /\ (length s <= 8)%nat /\ uleb_value s < 2^32 /\ v = uleb_value s.
(* What an OBU is. *)
Inductive tag := TFrame (id trim_start trim_end : Z) | TBadFrame | TBlock | TDelim | TOther.
Definition says (o : list Z) (t : tag) : Prop :=
  match t with
  | TFrame id a b => exists h p, header_of o h p /\ h_trim_start h = a /\ h_trim_end h = b /\
      (6 <= kind o <= 23 /\ id = kind o - 6 \/ kind o = 5 /\ begins_with_leb p id)
  | TBadFrame => exists h p, header_of o h p /\ kind o = 5 /\ forall v, ~ begins_with_leb p v
  | TBlock => exists h p, header_of o h p /\ kind o = 3
  | TDelim => exists h p, header_of o h p /\ kind o = 4
  | TOther => (forall h p, ~ header_of o h p) \/ exists h p, header_of o h p /\ ~ 3 <= kind o <= 23 /\ ~ (kind o = 31 /\ h_red h = false)
  end.
Definition frames_in (ts : list tag) : list (Z * Z * Z) := flat_map (fun t => match t with TFrame id a b => [(id, a, b)] | _ => [] end) ts.
Definition tag_eqb (a b : tag) : bool := match a, b with TBadFrame, TBadFrame | TBlock, TBlock | TDelim, TDelim => true | _, _ => false end.
Definition number (t : tag) (ts : list tag) : Z := zlen (filter (tag_eqb t) ts).
(* Why the scan may stop before the bytes [rest]. *)
Definition stops (rest : list Z) (r : stop) : Prop :=
  match r with
  | Eof => rest = []
  | Truncated => (exists total, begins rest total /\ zlen rest < total) \/ (exists b s, rest = b :: s /\ Forall (fun x => 128 <= x < 256) s /\ (length s < 8)%nat)
  | Malformed => rest <> [] /\ forall total, ~ begins rest total
  | NextSequence => exists h total, begins rest total /\ total <= zlen rest /\ (exists p, header_of (firstn (Z.to_nat total) rest) h p) /\ kind rest = 31 /\ h_red h = false
  | BudgetExceeded | Cancelled => True
  end.

(* ================= proofs ================= *)
Lemma Forall_firstn' (P : Z -> Prop) k l : Forall P l -> Forall P (firstn k l).
Proof. intro H. rewrite <- (firstn_skipn k l) in H. apply Forall_app in H. tauto. Qed.
Lemma Forall_skipn' (P : Z -> Prop) k l : Forall P l -> Forall P (skipn k l).
Proof. intro H. rewrite <- (firstn_skipn k l) in H. apply Forall_app in H. tauto. Qed.
Lemma leb_seen m : Forall byteP m ->
  match prun ruleb_sz (bytes_bits m) with
  | POk (x, k) r => exists s body, m = s ++ body /\ is_leb s /\ (length s <= 8)%nat /\ uleb_value s < 2^32 /\ x = uleb_value s /\ k = zlen s /\ r = bytes_bits body
  | PNeed => Forall (fun b => 128 <= b < 256) m /\ (length m < 8)%nat
  | PErr _ => True
  end.
Proof.
  intro Hm. set (c := mkC (bytes_bits m) 0 (Some true)). assert (cok c) as K by (unfold cok; cbn [c c_pos]; lia).
  pose proof (arun_prun _ pure_ruleb_sz c K) as P. cbn [c c_pos c_bits skipn] in P. fold c in P.
  destruct (arun_uleb c K) as [(s & rest & v & Es & Hs & Ls & Hv & R)|[(s & rest & c' & Es & Lr & Ls & Hs & R)|(c' & R)]].
  - cbn [c c_pos c_bits skipn] in Es. assert (m = s ++ skipn (length s) m) as Em.
    { assert (s = firstn (length s) m) as Ef.
      { apply bytes_bits_inj; [apply is_leb_bytes; exact Hs|apply Forall_firstn'; exact Hm|]. rewrite bytes_bits_firstn, Es, firstn_app, <- bytes_bits_length, firstn_all, Nat.sub_diag. cbn [firstn]. rewrite app_nil_r. reflexivity. }
      rewrite Ef at 1. symmetry. apply firstn_skipn. }
    set (body := skipn (length s) m) in *. clearbody body. subst m.
    assert (prun ruleb_sz (bytes_bits (s ++ body)) = POk (uleb_value s, zlen s) (bytes_bits body)) as ->.
    { rewrite bytes_bits_app. apply parses_prun; [apply pure_ruleb_sz|apply parses_uleb_sz; [exact Hs|lia|lia]]. }
    exists s, body. repeat split; try assumption; lia.
  - cbn [c c_pos c_bits skipn] in Es. destruct (prun ruleb_sz (bytes_bits m)) as [|e|[x k] r].
    + assert (m = s); [|subst; auto]. assert (rest = []) as ->. { pose proof (f_equal (@length bool) Es) as L. rewrite app_length, !bytes_bits_length in L. destruct rest; [reflexivity|cbn [length] in *; lia]. }
      rewrite app_nil_r in Es. apply bytes_bits_inj; [exact Hm| |exact Es]. eapply Forall_impl; [|exact Hs]. intros b Hb. cbv beta in Hb. unfold byteP. lia.
    + exact I.
    + destruct P as [v P]. congruence.
  - destruct (prun ruleb_sz (bytes_bits m)) as [|e|[x k] r].
    + destruct P as [v P]. congruence.
    + exact I.
    + destruct P as [v P]. congruence.
Qed.

Lemma leb_begins s body : is_leb s -> (length s <= 8)%nat -> uleb_value s < 2^32 -> prun ruleb_sz (bytes_bits (s ++ body)) = POk (uleb_value s, zlen s) (bytes_bits body).
Proof. intros. rewrite bytes_bits_app. apply parses_prun; [apply pure_ruleb_sz|apply parses_uleb_sz; assumption]. Qed.
Lemma fill_cons b m : exists t, prun fill_header_metadata (bytes_bits (b :: m)) = match prun ruleb_sz (bytes_bits m) with PNeed => PNeed | PErr e => PErr e | POk os r => POk (t, u32 (fst os + snd os + 1)) r end.
Proof.
  unfold fill_header_metadata. change (bytes_bits (b :: m)) with (bits 8 b ++ bytes_bits m).
  change (bits 8 b) with [Z.testbit b 7; Z.testbit b 6; Z.testbit b 5; Z.testbit b 4; Z.testbit b 3; Z.testbit b 2; Z.testbit b 1; Z.testbit b 0].
  rewrite prun_bind. unfold rlit at 1, rop1 at 1. cbn [prun]. change (legal_width 5 64) with true. cbv iota. change (Z.to_nat 5) with 5%nat.
  cbn [app length Nat.leb firstn skipn]. cbv iota. eexists.
  do 3 (rewrite prun_bind; unfold rbool at 1; rewrite prun_bind; unfold rlit at 1, rop1 at 1; cbn [prun]; change (legal_width 1 64) with true; cbv iota; change (Z.to_nat 1) with 1%nat; cbn [app length Nat.leb firstn skipn prun]; cbv iota).
  rewrite prun_bind. destruct (prun ruleb_sz _) as [|?|os r]; reflexivity.
Qed.
Lemma fill_seen l : Forall byteP l ->
  match prun fill_header_metadata (bytes_bits l) with
  | POk (_, total) _ => begins l total
  | PNeed => l = [] \/ exists b s, l = b :: s /\ Forall (fun x => 128 <= x < 256) s /\ (length s < 8)%nat
  | PErr _ => l <> [] /\ forall total, ~ begins l total
  end.
Proof.
  intro Hl. destruct l as [|b m]; [left; reflexivity|]. destruct (fill_cons b m) as [t ->]. pose proof (leb_seen m (Forall_inv_tail Hl)) as L.
  destruct (prun ruleb_sz (bytes_bits m)) as [|e|[x k] r] eqn:E.
  - right. exists b, m. split; [reflexivity|exact L].
  - split; [discriminate|]. intros total (b' & s & body & Q & Hs & Ls & Hv & _). injection Q as <- ->. rewrite (leb_begins s body Hs Ls Hv) in E. discriminate E.
  - destruct L as (s & body & -> & Hs & Ls & Hv & -> & -> & _). cbn [fst snd]. exists b, s, body. repeat split; try assumption. unfold u32. f_equal. lia.
Qed.
Definition matches (e : event) (t : tag) : Prop :=
  match e with
  | EFrame id a b => t = TFrame id a b
  | EFrameError => t = TBadFrame
  | EBlock _ _ | EBlockError _ => t = TBlock
  | EDelim => t = TDelim
  | EOther => t = TOther
  end.
Lemma header_payload l t total r' h n w : Forall byteP l -> zlen l < 2^32 - 64 -> prun fill_header_metadata (bytes_bits l) = POk (t, total) r' -> total <= zlen l ->
  prun read_header (bytes_bits (firstn (Z.to_nat total) l)) = POk (h, n) w -> exists p, header_of (firstn (Z.to_nat total) l) h p /\ w = bytes_bits p /\ Forall byteP p /\ h_type h = kind (firstn (Z.to_nat total) l).
Proof.
  intros Hl Hz Ef Ht E. set (c := mkC (bytes_bits l) 0 (Some true)). assert (cok c) as K by (unfold cok; cbn [c c_pos]; lia).
  pose proof (header_at c l t total r' K eq_refl Hz Ef Ht) as H. rewrite E in H. destruct H as (q & _ & _ & Hn & _ & Lw & _). clear c K q.
  set (o := firstn (Z.to_nat total) l) in *. assert (Forall byteP o) as Ho by (apply Forall_firstn'; exact Hl). clearbody o.
  destruct (prun_rest _ _ _ _ E) as [u Eu]. pose proof (f_equal (@length bool) Eu) as L. rewrite app_length, bytes_bits_length in L. unfold zlen in Lw.
  set (p := skipn (length o - Z.to_nat n) o). assert (w = bytes_bits p) as Ew.
  { unfold p. rewrite bytes_bits_skipn, Eu. replace (8 * (length o - Z.to_nat n))%nat with (length u) by lia. rewrite skipn_app, skipn_all, Nat.sub_diag. reflexivity. }
  exists p. assert (n = zlen p) as En by (subst w; rewrite bytes_bits_length in Lw; unfold zlen; lia). split; [unfold header_of; rewrite <- En, <- Ew; exact E|]. split; [exact Ew|]. split; [apply Forall_skipn'; exact Ho|].
  destruct o as [|b o]; [discriminate E|]. exact (proj1 (header_byte b o h n w (Forall_inv Ho) E)).
Qed.
Lemma look_seen full T l : Forall byteP l -> zlen l < 2^32 - 64 ->
  match look full T l with
  | VStop r => stops l r
  | VNext adv e => begins l adv /\ adv <= zlen l /\ exists t, says (firstn (Z.to_nat adv) l) t /\ matches e t
  end.
Proof.
  intros Hl Hz. unfold look. pose proof (fill_seen l Hl) as F. destruct (prun fill_header_metadata (bytes_bits l)) as [|er|[t total] r'] eqn:Ef.
  - destruct F as [->|F]; [reflexivity|]. destruct (zlen l =? 0) eqn:Z0; [|right; exact F]. destruct F as (b & s & -> & _). discriminate Z0.
  - exact F.
  - destruct (zlen l <? total) eqn:Et; [left; exists total; split; [exact F|lia]|]. pose proof (header_payload l t total r') as HP.
    destruct (prun read_header (bytes_bits (firstn (Z.to_nat total) l))) as [|er|[h n] w] eqn:Eh.
    + split; [exact F|]. split; [lia|]. exists TOther. split; [|reflexivity]. left. intros h p Q. unfold header_of in Q. congruence.
    + split; [exact F|]. split; [lia|]. exists TOther. split; [|reflexivity]. left. intros h p Q. unfold header_of in Q. congruence.
    + destruct (HP h n w Hl Hz Ef ltac:(lia) eq_refl) as (p & Hp & -> & Bp & Hk). clear HP.
      destruct ((h_type h =? kSequenceHeader) && negb (h_red h)) eqn:Sq.
      * apply andb_true_iff in Sq as [S1 S2]. exists h, total. split; [exact F|]. split; [lia|]. split; [exists p; exact Hp|]. split; [|destruct (h_red h); [discriminate S2|reflexivity]].
        replace (kind l) with (kind (firstn (Z.to_nat total) l)); [rewrite <- Hk; unfold kSequenceHeader in S1; lia|]. unfold kind. destruct l as [|b l]; [rewrite firstn_nil; reflexivity|]. destruct (Z.to_nat total) eqn:Zt; [discriminate Eh|reflexivity].
      * split; [exact F|]. split; [lia|]. set (o := firstn (Z.to_nat total) l) in *. clearbody o. unfold seen.
        destruct (is_audio_frame (h_type h)) eqn:Ia.
        { unfold frame_seen. destruct (h_type h =? kAudioFrame) eqn:E5.
          - pose proof (leb_seen p Bp) as L. destruct (prun ruleb_sz (bytes_bits p)) as [|e|[x k] r] eqn:El.
            + exists TBadFrame. split; [|reflexivity]. exists h, p. split; [exact Hp|]. split; [rewrite <- Hk; unfold kAudioFrame in E5; lia|]. intros v (s & body & -> & Hs & Ls & Hv & _). rewrite (leb_begins s body Hs Ls Hv) in El. discriminate El.
            + exists TBadFrame. split; [|reflexivity]. exists h, p. split; [exact Hp|]. split; [rewrite <- Hk; unfold kAudioFrame in E5; lia|]. intros v (s & body & -> & Hs & Ls & Hv & _). rewrite (leb_begins s body Hs Ls Hv) in El. discriminate El.
            + destruct L as (s & body & -> & Hs & Ls & Hv & -> & _). exists (TFrame (uleb_value s) (h_trim_start h) (h_trim_end h)). split; [|reflexivity]. exists h, (s ++ body). split; [exact Hp|]. split; [reflexivity|]. split; [reflexivity|]. right.
              split; [rewrite <- Hk; unfold kAudioFrame in E5; lia|]. exists s, body. repeat split; assumption.
          - exists (TFrame (h_type h - kAudioFrameId0) (h_trim_start h) (h_trim_end h)). split; [|reflexivity]. exists h, p. split; [exact Hp|]. split; [reflexivity|]. split; [reflexivity|]. left.
            rewrite <- Hk. unfold is_audio_frame, kAudioFrame, kAudioFrameId0, kAudioFrameId17 in *. lia. }
        destruct (h_type h =? kParameterBlock) eqn:E3.
        { exists TBlock. split; [exists h, p; split; [exact Hp|rewrite <- Hk; unfold kParameterBlock in E3; lia]|]. unfold block_seen. destruct (prun ruleb _) as [|?|id r]; try reflexivity. destruct (m_find id _) as [d|]; [|reflexivity].
          destruct full; [destruct (lpay _ _)|]; reflexivity. }
        destruct (h_type h =? kTemporalDelimiter) eqn:E4.
        { exists TDelim. split; [exists h, p; split; [exact Hp|rewrite <- Hk; unfold kTemporalDelimiter in E4; lia]|reflexivity]. }
        exists TOther. split; [|reflexivity]. right. exists h, p. split; [exact Hp|]. rewrite <- Hk. unfold is_audio_frame, kParameterBlock, kTemporalDelimiter, kSequenceHeader, kAudioFrame, kAudioFrameId0, kAudioFrameId17 in *. split; [lia|]. intros [Q1 Q2]. rewrite Q1, Q2 in Sq. discriminate Sq.
Qed.
Lemma walk_cut full T go k : forall i off s l, Forall byteP l -> zlen l < 2^32 - 64 ->
  exists r o evs os ts rest, walk full T go k i off s l = (r, o, steps full T evs s) /\ cut l os rest /\ o = off + zlen (concat os) /\ (length os <= k)%nat /\ Forall2 says os ts /\ Forall2 matches (map snd evs) ts /\ stops rest r /\ path off evs o.
Proof.
  induction k as [|k IH]; intros i off s l Hb Hl; cbn [walk].
  { exists BudgetExceeded, off, [], [], [], l. cbn [concat map steps fold_left path length]. change (zlen []) with 0. repeat split; try constructor; lia. }
  destruct (go i off (sc_done s)) eqn:G; cbn [negb].
  2:{ exists Cancelled, off, [], [], [], l. cbn [concat map steps fold_left path length]. change (zlen []) with 0. repeat split; try constructor; lia. }
  pose proof (look_seen full T l Hb Hl) as L. destruct (look full T l) as [r|adv e] eqn:E.
  - exists r, off, [], [], [], l. cbn [concat map steps fold_left path length]. change (zlen []) with 0. repeat split; try constructor; try lia; assumption.
  - destruct (look_adv _ _ _ _ _ Hl E) as [A1 A2]. destruct L as (L1 & L2 & t & L3 & L4).
    destruct (IH (i + 1) (off + adv) (tally full T off e s) (skipn (Z.to_nat adv) l)) as (r & o & evs & os & ts & rest & W & Ct & Eo & Le & Sy & Ma & St & Pa).
    { apply Forall_skipn'. exact Hb. } { unfold zlen in *. rewrite skipn_length. lia. }
    exists r, o, ((off, e) :: evs), (firstn (Z.to_nat adv) l :: os), (t :: ts), rest. split; [exact W|]. split; [constructor; assumption|]. split.
    { cbn [concat]. rewrite zlen_app. unfold zlen in *. rewrite firstn_length. lia. }
    split; [cbn [length]; lia|]. split; [constructor; assumption|]. split; [cbn [map snd]; constructor; assumption|]. split; [exact St|]. cbn [path]. split; [reflexivity|]. exists adv. split; [lia|]. auto.
Qed.
Lemma cut_concat l os rest : cut l os rest -> concat os ++ rest = l.
Proof. induction 1 as [l|l total os rest _ _ _ IH]; [reflexivity|]. cbn [concat]. rewrite <- app_assoc, IH. apply firstn_skipn. Qed.
Lemma matched_frames evs ts : Forall2 matches (map snd evs) ts -> frames_of evs = frames_in ts.
Proof.
  unfold frames_of, frames_in. revert ts. induction evs as [|[p e] evs IH]; intros ts H; cbn [map snd] in H; inversion H as [|? t ? ts' M H']; subst; [reflexivity|]. cbn [flat_map snd]. rewrite (IH _ H').
  destruct e; cbn [matches] in M; subst t; reflexivity.
Qed.
Lemma matched_number evs ts : Forall2 matches (map snd evs) ts ->
  hits is_delim evs = number TDelim ts /\ hits is_frame_error evs = number TBadFrame ts /\ hits is_block evs + hits is_block_error evs = number TBlock ts.
Proof.
  unfold hits, number. revert ts. induction evs as [|[p e] evs IH]; intros ts H; cbn [map snd] in H; inversion H as [|? t ? ts' M H']; subst; [repeat split|]. cbn [map snd]. destruct (IH _ H') as (I1 & I2 & I3).
  destruct e; cbn [matches] in M; subst t; cbn [filter is_delim is_frame_error is_block is_block_error tag_eqb]; unfold zlen in *; cbn [length]; repeat split; lia.
Qed.

(* ================= C66 ================= *)
(* Whatever the bytes: the scan has cut what it consumed into OBUs by their sizes, and every number in the report is the number of OBUs of
   that kind among them -- audio frames by substream with their trims, frames without a substream ID, delimiters, parameter blocks (good or bad);
   unreadable headers and all other types are not counted.  In a full scan every audio frame is in one unit of the index, in order.  The scan
   stops for the reason it gives, and only then. *)
Theorem C66_obus : forall fuel cap full budget T go before l rep q,
  (8 <= fuel)%nat -> (1 <= cap)%nat -> Forall byteP (before ++ l) -> zlen l < 2^32 - 64 ->
  probe_scan fuel cap full budget T go before l = Ok (rep, q) ->
  exists os ts rest, cut l os rest /\ Forall2 says os ts /\ concat os ++ rest = l /\ rp_bytes rep = zlen (concat os) /\ (length os <= budget)%nat /\ stops rest (rp_stop rep) /\
    rp_frames rep = zlen (frames_in ts) /\ rp_frame_errors rep = number TBadFrame ts /\ rp_delims rep = number TDelim ts /\ rp_blocks rep + rp_block_errors rep = number TBlock ts /\
    (forall id c k m, In (id, mkSu c k m) (rp_subs rep) <-> k = occurs id (frames_in ts) /\ 0 < k /\ m = k * size_of T id /\ c = codec_id T id) /\
    (full = true -> exists gs, Forall2 (is_unit T) gs (rp_entries rep) /\ concat gs = frames_in ts).
Proof.
  intros fuel cap full budget T go before l rep q Hf Hc Hb Hl E. destruct (scan_walked fuel cap full budget T go before l Hf Hc Hb Hl) as (q' & E' & _).
  unfold probe_scan in E. rewrite E' in E. injection E as <- _. unfold walked. apply Forall_app in Hb as [_ Hb].
  destruct (walk_cut full T go budget 1 0 sc_empty l Hb Hl) as (r & o & evs & os & ts & rest & -> & Ct & Eo & Le & Sy & Ma & St & Pa).
  cbn [conclude rp_frames rp_subs rp_delims rp_blocks rp_block_errors rp_frame_errors rp_bytes rp_stop rp_entries].
  pose proof (matched_frames _ _ Ma) as Mf. destruct (matched_number _ _ Ma) as (M1 & M2 & M3).
  pose proof (steps_counters full T evs sc_empty) as (A1 & A2 & A3 & A4). cbv zeta in A1, A2, A3, A4. cbn [sc_empty sc_blocks sc_delims sc_frame_errors sc_block_errors] in A1, A2, A3, A4.
  pose proof (others_finalize full (steps full T evs sc_empty)) as O. unfold others in O. injection O as O1 O2 O3 O4 _ _.
  pose proof (counts_finalize full _ _ _ (counts_steps full T evs _ _ (counts_empty T))) as [B0 B1 B2 _]. cbn [app] in B0, B2. rewrite Mf in B0, B2.
  exists os, ts, rest. split; [exact Ct|]. split; [exact Sy|]. split; [apply cut_concat; exact Ct|]. split; [lia|]. split; [exact Le|]. split; [exact St|].
  split; [exact B0|]. split; [rewrite O3; lia|]. split; [rewrite O2; lia|]. split; [rewrite O1, O4; lia|]. split.
  - intros id c k m. destruct (sort_spec _ B1) as [_ M]. rewrite M, <- (find_in _ _ _ B1), B2. pose proof (zlen_nonneg (filter (fun f => fid f =? id) (frames_in ts))) as P. fold (occurs id (frames_in ts)) in P. destruct (occurs id (frames_in ts) =? 0) eqn:Z0.
    + split; [discriminate|intros (-> & H & _); lia].
    + split; [intro H; injection H as <- <- <-; repeat split; lia|]. intros (-> & _ & -> & ->). reflexivity.
  - intros ->. destruct (index_steps T evs _ _ _ _ _ (index_empty T) Pa) as (gs & cur & I1 & E1). destruct (index_finalize _ _ _ _ _ I1) as (gs2 & [U _ _ _ _ _ _] & E2 & _).
    exists gs2. split; [exact U|]. cbn [concat app] in E1. rewrite E2, E1. exact Mf.
Qed.
