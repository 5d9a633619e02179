(* C66: the probe's scan of the temporal units. *)
From Coq Require Import Permutation Sorted.
From Verif Require Import Base WriteBuf ReadBuf Leb BufSpec LebSpec BitFacts WriteBufFacts ReadBufFacts LebFacts
  ParseFacts EndToEnd ObuHeader ObuHeaderFacts FrameFacts SeqFacts PureFacts SimpleObus CodecConfig Params Timing ParamManager
  Processor PropsObu ProcFacts Probe ProbeFacts.
Local Open Scope Z_scope.

(* ================= SPEC ================= *)
(* The scan of the bytes [l], which follow the bytes [before] of the descriptors, and where the reader is afterwards (in bits). *)
Definition probe_scan (fuel cap : nat) (full : bool) (budget : nat) (T : ptables) (go : Z -> Z -> Z -> bool) (before l : list Z) : res (report * Z) :=
  fst (crun fuel (read_at (8 * zlen before) (scan_units full budget T go)) (r_create cap (before ++ l))).
(* A byte that begins an IA sequence header which is not a redundant copy: type 31, redundancy bit 0. *)
Definition begins_sequence (b : Z) : Prop := b / 8 = 31 /\ (b / 4) mod 2 = 0.
(* Audio frames as (substream, trim at start, trim at end); the size of a substream's frames. *)
Definition fid (f : Z * Z * Z) : Z := fst (fst f).
Definition size_of (T : ptables) (id : Z) : Z := match m_find id (pt_subs T) with Some x => fst x | None => 0 end.
Definition codec_id (T : ptables) (id : Z) : Z := match m_find id (pt_subs T) with Some x => snd x | None => 0 end.
Definition occurs (id : Z) (l : list (Z * Z * Z)) : Z := zlen (filter (fun f => fid f =? id) l).
(* The frames of one temporal unit of the index: at least one, of different substreams; the unit lasts as long as the longest, and the
   first says what is trimmed. *)
Definition is_unit (T : ptables) (g : list (Z * Z * Z)) (e : entry) : Prop :=
  NoDup (map fid g) /\ en_samples e = maximum (map (fun f => size_of T (fid f)) g) /\
  exists f r, g = f :: r /\ en_trim_start e = snd (fst f) /\ en_trim_end e = snd f.
(* Each unit begins when the one before it has ended. *)
Fixpoint consecutive (t : Z) (l : list entry) : Prop :=
  match l with [] => True | e :: r => en_time e = t /\ consecutive (t + en_samples e) r end.
(* Each unit begins at a later byte than the one before it, in [lo, hi). *)
Fixpoint ascending (lo : Z) (l : list entry) (hi : Z) : Prop :=
  match l with [] => True | e :: r => lo <= en_offset e < hi /\ ascending (en_offset e + 1) r hi end.
(* What was reported about the blocks of a parameter before. *)
Definition lasted (id : Z) (l : list blockrep) : Z := fold_right Z.add 0 (map (fun b => if bl_id (br_block b) =? id then block_duration (br_def b) (br_block b) else 0) l).

(* ================= proofs ================= *)
(* ---- the events of a scan ---- *)
Definition steps (full : bool) (T : ptables) (evs : list (Z * event)) (s : scan) : scan := fold_left (fun s x => tally full T (fst x) (snd x) s) evs s.
Fixpoint path (off : Z) (evs : list (Z * event)) (o : Z) : Prop :=
  match evs with
  | [] => off = o
  | (p, e) :: t => p = off /\ exists adv, 0 <= adv /\ (e <> EOther -> 0 < adv) /\ path (off + adv) t o
  end.
Lemma look_adv full T l adv e : zlen l < 2^32 - 64 -> look full T l = VNext adv e -> 0 <= adv <= zlen l /\ (e <> EOther -> 0 < adv).
Proof.
  intros Hl E. set (c := mkC (bytes_bits l) 0 (Some true)). assert (cok c) as K by (unfold cok; cbn [c c_pos]; lia).
  pose proof (scan_obu_spec full T c l K eq_refl Hl) as P. rewrite E in P. destruct P as [_ P]. split; [exact P|].
  unfold look in E. destruct (prun fill_header_metadata (bytes_bits l)) as [|er|[t total] r'] eqn:Ef; try discriminate E.
  destruct (zlen l <? total) eqn:Et; [discriminate E|]. pose proof (header_at c l t total r' K eq_refl Hl Ef ltac:(lia)) as Hh.
  destruct (prun read_header _) as [|er|[h n] w].
  - injection E as _ <-. congruence.
  - injection E as _ <-. congruence.
  - destruct (_ && _); [discriminate E|]. injection E as <- _. destruct Hh as (q & _ & _ & _ & _ & _ & H). intros _. exact H.
Qed.
Definition looked (full : bool) (T : ptables) (off : Z) (l : list Z) (x : Z * event) : Prop :=
  off <= fst x /\ exists adv, look full T (skipn (Z.to_nat (fst x - off)) l) = VNext adv (snd x).
Lemma walk_events full T go k : forall i off s l, zlen l < 2^32 - 64 ->
  exists r o evs, walk full T go k i off s l = (r, o, steps full T evs s) /\ ((length evs <= k)%nat /\ Forall (looked full T off l) evs) /\ path off evs o /\ off <= o <= off + zlen l /\
    match r with
    | Eof => o = off + zlen l
    | Truncated => o < off + zlen l
    | NextSequence => exists h n w rest, skipn (Z.to_nat (o - off)) l = rest /\ prun read_header (bytes_bits rest) = POk (h, n) w /\ h_type h = kSequenceHeader /\ h_red h = false
    | BudgetExceeded => length evs = k
    | Cancelled => exists d, go (i + zlen evs) (o) d = false
    | Malformed => o < off + zlen l
    end.
Proof.
  induction k as [|k IH]; intros i off s l Hl; cbn [walk].
  { exists BudgetExceeded, off, []. pose proof (zlen_nonneg l). repeat split; cbn [length]; try lia. constructor. }
  destruct (go i off (sc_done s)) eqn:G; cbn [negb].
  2:{ exists Cancelled, off, []. pose proof (zlen_nonneg l). split; [reflexivity|]. split; [split; [cbn [length]; lia|constructor]|]. split; [reflexivity|]. split; [lia|]. exists (sc_done s). change (zlen []) with 0. rewrite Z.add_0_r. exact G. }
  destruct (look full T l) as [r|adv e] eqn:E.
  - exists r, off, []. pose proof (zlen_nonneg l). split; [reflexivity|]. split; [split; [cbn [length]; lia|constructor]|]. split; [reflexivity|]. split; [lia|].
    unfold look in E. destruct (prun fill_header_metadata (bytes_bits l)) as [|er|[t total] r'] eqn:Ef.
    + destruct (zlen l =? 0) eqn:Z0; injection E as <-; lia.
    + injection E as <-. destruct l; [discriminate Ef|]. unfold zlen. cbn [length]. lia.
    + destruct (zlen l <? total) eqn:Et. { injection E as <-. destruct l; [discriminate Ef|]. unfold zlen. cbn [length]. lia. }
      destruct (prun read_header _) as [|er|[h n] w] eqn:Eh; try discriminate E. destruct ((h_type h =? kSequenceHeader) && negb (h_red h)) eqn:Q; [|discriminate E]. injection E as <-.
      exists h, n, (w ++ bytes_bits (skipn (Z.to_nat total) l)), l. rewrite Z.sub_diag. split; [reflexivity|]. apply (prun_ext_ok _ _ (bytes_bits (skipn (Z.to_nat total) l))) in Eh.
      rewrite <- bytes_bits_app, firstn_skipn in Eh. split; [exact Eh|]. destruct (h_red h); lia.
  - destruct (look_adv _ _ _ _ _ Hl E) as [A1 A2].
    destruct (IH (i + 1) (off + adv) (tally full T off e s) (skipn (Z.to_nat adv) l)) as (r & o & evs & W & [Le Lk] & P & R & Q).
    { unfold zlen in *. rewrite skipn_length. lia. }
    assert (zlen (skipn (Z.to_nat adv) l) = zlen l - adv) as Ls by (unfold zlen in *; rewrite skipn_length; lia).
    exists r, o, ((off, e) :: evs). rewrite W. split; [reflexivity|]. split.
    { split; [cbn [length]; lia|]. constructor; [split; cbn [fst snd]; [lia|exists adv; rewrite Z.sub_diag; exact E]|]. eapply Forall_impl; [|exact Lk]. intros x [X1 (a & X2)]. split; [lia|]. exists a. rewrite <- X2. f_equal. rewrite skipn_skipn'. f_equal. lia. }
    split.
    { cbn [path]. split; [reflexivity|]. exists adv. split; [lia|]. auto. }
    split; [lia|]. destruct r; try lia.
    + destruct Q as (h & n & w & rest & Q1 & Q2). exists h, n, w, rest. split; [|exact Q2]. rewrite <- Q1. rewrite skipn_skipn'. f_equal. lia.
    + cbn [length]. lia.
    + destruct Q as [d Q]. exists d. rewrite <- Q. f_equal. unfold zlen. cbn [length]. lia.
Qed.

(* ---- maxima, sums, maps ---- *)
Lemma maximum_nonneg l : 0 <= maximum l. Proof. induction l as [|a l IH]; cbn [maximum fold_right]; [lia|]. fold (maximum l). lia. Qed.
Lemma maximum_snoc l x : maximum (l ++ [x]) = Z.max (maximum l) x.
Proof.
  induction l as [|a l IH]; cbn [app maximum fold_right].
  - lia.
  - fold (maximum (l ++ [x])) (maximum l). rewrite IH. lia.
Qed.
Lemma maximum_le l b : 0 <= b -> (forall x, In x l -> x <= b) -> maximum l <= b.
Proof. intros H0. induction l as [|a l IH]; intro H; cbn [maximum fold_right]; [exact H0|]. fold (maximum l). pose proof (H a (or_introl eq_refl)). specialize (IH (fun x Hx => H x (or_intror Hx))). lia. Qed.
Lemma maximum_ge l x : In x l -> x <= maximum l.
Proof. induction l as [|a l IH]; [intros []|]. intros [-> |H]; cbn [maximum fold_right]; fold (maximum l); [lia|]. specialize (IH H). lia. Qed.
Lemma find_set {V} k (v : V) m j : (exists x, m_find k m = Some x) -> m_find j (Timing.m_set k v m) = if k =? j then Some v else m_find j m.
Proof.
  induction m as [|[i y] m IH]; cbn [m_find Timing.m_set]; intros [x Hx]; [discriminate Hx|].
  destruct (i =? k) eqn:E.
  - cbn [m_find]. apply Z.eqb_eq in E. subst i. destruct (k =? j); reflexivity.
  - cbn [m_find]. rewrite IH by eauto. destruct (i =? j) eqn:E2; [|reflexivity]. replace (k =? j) with false by lia. reflexivity.
Qed.
Lemma find_app {V} (m : list (Z * V)) k v j : m_find k m = None -> m_find j (m ++ [(k, v)]) = if k =? j then Some v else m_find j m.
Proof.
  induction m as [|[i y] m IH]; cbn [m_find app]; intro H; [reflexivity|]. destruct (i =? k) eqn:E; [discriminate H|].
  rewrite IH by exact H. destruct (i =? j) eqn:E2; [|reflexivity]. replace (k =? j) with false by lia. reflexivity.
Qed.
Lemma find_put {V} k (v : V) m j : m_find j (m_put k v m) = if k =? j then Some v else m_find j m.
Proof. unfold m_put. destruct (m_find k m) as [x|] eqn:E; [apply find_set; eauto|apply find_app; exact E]. Qed.
Lemma keys_put {V} k (v : V) m : map fst (m_put k v m) = if existsb (Z.eqb k) (map fst m) then map fst m else map fst m ++ [k].
Proof.
  unfold m_put. replace (existsb (Z.eqb k) (map fst m)) with (match m_find k m with Some _ => true | None => false end).
  2:{ induction m as [|[i y] m IH]; cbn [m_find map fst existsb]; [reflexivity|]. rewrite <- IH. rewrite (Z.eqb_sym k i). destruct (i =? k); reflexivity. }
  destruct (m_find k m) eqn:E; [|rewrite map_app; reflexivity]. clear E. induction m as [|[i y] m IH]; cbn [Timing.m_set map fst]; [reflexivity|].
  destruct (i =? k); cbn [map fst]; [reflexivity|]. rewrite IH. reflexivity.
Qed.
Lemma in_existsb k l : existsb (Z.eqb k) l = true <-> In k l.
Proof. rewrite existsb_exists. split; [intros (x & H & E); apply Z.eqb_eq in E; subst; exact H|intro H; exists k; split; [exact H|apply Z.eqb_refl]]. Qed.
Lemma nodup_put {V} k (v : V) m : NoDup (map fst m) -> NoDup (map fst (m_put k v m)).
Proof.
  intro H. rewrite keys_put. destruct (existsb (Z.eqb k) (map fst m)) eqn:E; [exact H|].
  apply (Permutation_NoDup (l := k :: map fst m)); [apply Permutation_cons_append|]. constructor; [|exact H]. rewrite <- in_existsb. congruence.
Qed.
Lemma find_in {V} k (v : V) m : NoDup (map fst m) -> (m_find k m = Some v <-> In (k, v) m).
Proof.
  induction m as [|[i y] m IH]; cbn [m_find map fst]; intro N; [split; [discriminate|intros []]|]. inversion N as [|? ? N1 N2]; subst.
  destruct (i =? k) eqn:E.
  - apply Z.eqb_eq in E. subst i. split; [intro H; injection H as <-; left; reflexivity|]. intros [H|H]; [injection H as <-; reflexivity|]. exfalso. apply N1. apply in_map_iff. exists (k, v). auto.
  - rewrite (IH N2). split; [intro H; right; exact H|]. intros [H|H]; [injection H as <- <-; lia|exact H].
Qed.
Definition total (l : list Z) : Z := fold_right Z.add 0 l.
Lemma total_app a b : total (a ++ b) = total a + total b.
Proof. unfold total. rewrite fold_right_app. induction a as [|x a IH]; cbn [fold_right]; [reflexivity|]. rewrite IH. lia. Qed.
Lemma total_put (k : Z) (v : summary) m : NoDup (map fst m) ->
  total (map (fun x => su_frames (snd x)) (m_put k v m)) = total (map (fun x => su_frames (snd x)) m) + su_frames v - match m_find k m with Some x => su_frames x | None => 0 end.
Proof.
  intro N. unfold m_put. destruct (m_find k m) as [x|] eqn:E.
  - revert E. clear N. induction m as [|[i y] m IH]; cbn [m_find Timing.m_set]; [discriminate|]. destruct (i =? k) eqn:E2.
    + intro H. injection H as <-. cbn [map snd total fold_right]. lia.
    + intro H. specialize (IH H). cbn [map snd total fold_right]. fold (total (map (fun x => su_frames (snd x)) (Timing.m_set k v m))). fold (total (map (fun x => su_frames (snd x)) m)). lia.
  - rewrite map_app, total_app. cbn [map snd total fold_right]. lia.
Qed.
Lemma occurs_snoc id l f : occurs id (l ++ [f]) = occurs id l + (if fid f =? id then 1 else 0).
Proof. unfold occurs, zlen. rewrite filter_app, app_length. cbn [filter]. destruct (fid f =? id); cbn [length]; lia. Qed.
Lemma occurs_app id a b : occurs id (a ++ b) = occurs id a + occurs id b.
Proof. unfold occurs, zlen. rewrite filter_app, app_length. lia. Qed.

(* ---- the invariant of the counters ---- *)
Record counts (T : ptables) (s : scan) (fs : list (Z * Z * Z)) : Prop := mkCounts {
  ct_frames : sc_frames s = zlen fs;
  ct_nodup : NoDup (map fst (sc_subs s));
  ct_sub : forall id, m_find id (sc_subs s) = if occurs id fs =? 0 then None else Some (mkSu (codec_id T id) (occurs id fs) (occurs id fs * size_of T id));
  ct_sum : sc_frames s = total (map (fun x => su_frames (snd x)) (sc_subs s)) }.
(* ... and of the index: [gs] are the frames of the finished units, [cur] those of the pending one *)
Record index (T : ptables) (s : scan) (gs : list (list (Z * Z * Z))) (cur : list (Z * Z * Z)) (hi : Z) : Prop := mkIndex {
  ix_units : Forall2 (is_unit T) gs (sc_entries s);
  ix_time : consecutive 0 (sc_entries s) /\ sc_time s = total (map en_samples (sc_entries s));
  ix_seen : sc_seen s = map fid cur /\ NoDup (map fid cur);
  ix_num : sc_num s = maximum (map (fun f => size_of T (fid f)) cur);
  ix_trim : forall f r, cur = f :: r -> sc_trim_start s = snd (fst f) /\ sc_trim_end s = snd f;
  ix_start : match sc_start s with Some p => 0 <= p < hi /\ ascending 0 (sc_entries s) p | None => cur = [] /\ ascending 0 (sc_entries s) hi end;
  ix_hi : 0 <= hi }.
Lemma ascending_hi l : forall lo hi hi', ascending lo l hi -> hi <= hi' -> ascending lo l hi'.
Proof. induction l as [|e l IH]; cbn [ascending]; intros lo hi hi' H Hh; [exact I|]. destruct H as [H1 H2]. split; [lia|]. eapply IH; [exact H2|exact Hh]. Qed.
Lemma ascending_snoc l e : forall lo, lo <= en_offset e -> ascending lo l (en_offset e) -> ascending lo (l ++ [e]) (en_offset e + 1).
Proof.
  induction l as [|x l IH]; cbn [ascending app]; intros lo Hlo H; [split; [lia|exact I]|]. destruct H as [H1 H2]. split; [lia|]. apply IH; [lia|exact H2].
Qed.
Lemma consecutive_snoc l e : forall t, consecutive t l -> en_time e = t + total (map en_samples l) -> consecutive t (l ++ [e]).
Proof.
  induction l as [|x l IH]; cbn [consecutive app map total fold_right]; intros t H E; [split; [lia|exact I]|]. destruct H as [H1 H2]. split; [exact H1|].
  fold (total (map en_samples l)) in E. apply IH; [exact H2|lia].
Qed.

Lemma counts_note T s fs p : counts T s fs -> counts T (note_start p s) fs.
Proof. intros [A B C D]. unfold note_start. destruct (sc_start s); constructor; assumption. Qed.
Lemma counts_finalize full T s fs : counts T s fs -> counts T (finalize_tu full s) fs.
Proof. intros [A B C D]. unfold finalize_tu, no_pending. destruct (sc_start s); [|constructor; assumption]. destruct (sc_seen s); constructor; assumption. Qed.
Lemma index_note T s gs cur p hi : index T s gs cur p -> p < hi -> index T (note_start p s) gs cur hi /\ sc_start (note_start p s) <> None.
Proof.
  intros [A B C D E F G] H. unfold note_start. destruct (sc_start s) as [q|] eqn:Es; (split; [|cbn [sc_start]; congruence]).
  - constructor; try assumption; [rewrite Es|lia]. destruct F as [F1 F2]. split; [lia|exact F2].
  - destruct F as [F1 F2]. constructor; cbn [sc_entries sc_time sc_seen sc_num sc_trim_start sc_trim_end sc_start]; try assumption; [|lia]. split; [lia|exact F2].
Qed.
Lemma index_finalize T s gs cur hi : index T s gs cur hi -> exists gs', index T (finalize_tu true s) gs' [] hi /\ concat gs' = concat gs ++ cur /\ sc_start (finalize_tu true s) = None.
Proof.
  intros [A B C D E F G]. unfold finalize_tu. destruct (sc_start s) as [q|] eqn:Es.
  - destruct C as [C1 C2]. destruct F as [F1 F2]. destruct cur as [|f r].
    + cbn [map] in C1. rewrite C1. exists gs. split; [|split; [rewrite app_nil_r; reflexivity|reflexivity]]. unfold no_pending.
      constructor; cbn [sc_entries sc_time sc_seen sc_num sc_trim_start sc_trim_end sc_start map maximum fold_right]; try assumption.
      * split; [reflexivity|constructor]. * reflexivity. * discriminate. * split; [reflexivity|]. eapply ascending_hi; [exact F2|lia].
    + destruct (sc_seen s) as [|i0 is] eqn:Q; [discriminate C1|]. exists (gs ++ [f :: r]). split; [|split; [rewrite concat_app; cbn [concat]; rewrite app_nil_r; reflexivity|reflexivity]].
      destruct B as [B1 B2]. destruct (E f r eq_refl) as [E1 E2].
      constructor; cbn [sc_entries sc_time sc_seen sc_num sc_trim_start sc_trim_end sc_start].
      * apply Forall2_app; [exact A|]. constructor; [|constructor]. split; [exact C2|]. split; [exact D|]. exists f, r. split; [reflexivity|]. split; assumption.
      * split; [apply consecutive_snoc; [exact B1|cbn [en_time]; lia]|]. rewrite map_app, total_app. cbn [map total fold_right en_samples]. lia.
      * split; [reflexivity|constructor].
      * reflexivity.
      * discriminate.
      * split; [reflexivity|]. eapply ascending_hi; [apply ascending_snoc; [cbn [en_offset]; lia|exact F2]|cbn [en_offset]; lia].
      * exact G.
  - destruct F as [-> F2]. exists gs. split; [|split; [rewrite app_nil_r; reflexivity|exact Es]]. constructor; try assumption. rewrite Es. auto.
Qed.
Lemma index_hi T s gs cur hi hi' : index T s gs cur hi -> hi <= hi' -> index T s gs cur hi'.
Proof.
  intros [A B C D E F G] H. constructor; try assumption; [|lia]. destruct (sc_start s); [destruct F as [F1 F2]; split; [lia|exact F2]|]. destruct F as [F1 F2]. split; [exact F1|]. eapply ascending_hi; [exact F2|exact H].
Qed.
Lemma occurs_seen id l : NoDup (map fid l) -> existsb (Z.eqb id) (map fid l) = false -> occurs id l = 0.
Proof.
  intros _. induction l as [|f l IH]; [reflexivity|]. cbn [map existsb]. intro H. apply orb_false_iff in H as [H1 H2]. unfold occurs in *. cbn [filter].
  rewrite Z.eqb_sym, H1. apply IH. exact H2.
Qed.

Lemma counts_frame full T s fs p id ts te : counts T s fs -> counts T (tally_frame full T p id ts te s) (fs ++ [(id, ts, te)]).
Proof.
  intro H. unfold tally_frame. set (s1 := if existsb _ _ then _ else s). assert (counts T s1 fs) as H1 by (unfold s1; destruct (existsb _ _); [apply counts_finalize|]; exact H).
  set (s2 := note_start p s1). assert (counts T s2 fs) as H2 by (apply counts_note; exact H1). clearbody s2. clear s1 H1 H. destruct H2 as [A B C D].
  assert (forall id', 0 <= occurs id' fs) as Pos by (intro; apply zlen_nonneg).
  set (old := match m_find id (sc_subs s2) with Some x => x | None => mkSu 0 0 0 end).
  assert (su_frames old = occurs id fs) as O1. { unfold old. rewrite C. destruct (occurs id fs =? 0) eqn:Z0; cbn [su_frames]; lia. }
  assert (su_samples old = occurs id fs * size_of T id) as O2. { unfold old. rewrite C. destruct (occurs id fs =? 0) eqn:Z0; cbn [su_samples]; lia. }
  assert (match m_find id (pt_subs T) with Some x => snd x | None => su_codec old end = codec_id T id) as O3.
  { unfold codec_id. destruct (m_find id (pt_subs T)) eqn:Em; [reflexivity|]. unfold old. rewrite C. destruct (occurs id fs =? 0) eqn:Z0; cbn [su_codec]; [reflexivity|]. unfold codec_id. rewrite Em. reflexivity. }
  assert (fold_right (fun _ x => x) 0 (@nil Z) = 0) as _ by reflexivity.
  replace (match sc_seen s2 with [] => (ts, te) | _ => (sc_trim_start s2, sc_trim_end s2) end) with
    (match sc_seen s2 with [] => ts | _ => sc_trim_start s2 end, match sc_seen s2 with [] => te | _ => sc_trim_end s2 end) by (destruct (sc_seen s2); reflexivity).
  cbv beta zeta. fold (size_of T id). rewrite O1, O2, O3. constructor; cbn [sc_frames sc_subs].
  - rewrite A. unfold zlen. rewrite app_length. cbn [length]. lia.
  - apply nodup_put. exact B.
  - intro j. rewrite find_put, occurs_snoc. cbn [fid fst]. destruct (id =? j) eqn:E.
    + apply Z.eqb_eq in E. subst j. replace (occurs id fs + 1 =? 0) with false by (specialize (Pos id); lia). do 2 f_equal. lia.
    + rewrite C, Z.add_0_r. reflexivity.
  - rewrite total_put by exact B. cbn [su_frames]. rewrite <- D. fold old. replace (match m_find id (sc_subs s2) with Some x => su_frames x | None => 0 end) with (su_frames old).
    2:{ unfold old. destruct (m_find id (sc_subs s2)); reflexivity. } rewrite O1. lia.
Qed.
Lemma index_frame T s gs cur p id ts te hi : index T s gs cur p -> p < hi -> exists gs' cur', index T (tally_frame true T p id ts te s) gs' cur' hi /\
  concat gs' ++ cur' = (concat gs ++ cur) ++ [(id, ts, te)].
Proof.
  intros H Hp. unfold tally_frame. set (s1 := if existsb _ _ then _ else s).
  assert (exists gs1 cur1, index T s1 gs1 cur1 p /\ concat gs1 ++ cur1 = concat gs ++ cur /\ existsb (Z.eqb id) (map fid cur1) = false) as (gs1 & cur1 & H1 & E1 & N1).
  { unfold s1. destruct (ix_seen _ _ _ _ _ H) as [S1 S2]. rewrite S1. destruct (existsb (Z.eqb id) (map fid cur)) eqn:E.
    - destruct (index_finalize _ _ _ _ _ H) as (gs' & I' & C' & _). exists gs', []. split; [exact I'|]. split; [rewrite app_nil_r; exact C'|reflexivity].
    - exists gs, cur. auto. }
  destruct (index_note _ _ _ _ _ hi H1 Hp) as [H2 St]. set (s2 := note_start p s1) in *. clearbody s2. clear s1 H1 H.
  destruct H2 as [A B [C1 C2] D E F G].
  replace (match sc_seen s2 with [] => (ts, te) | _ => (sc_trim_start s2, sc_trim_end s2) end) with
    (match sc_seen s2 with [] => ts | _ => sc_trim_start s2 end, match sc_seen s2 with [] => te | _ => sc_trim_end s2 end) by (destruct (sc_seen s2); reflexivity).
  cbv beta zeta. rewrite C1, N1. fold (size_of T id). exists gs1, (cur1 ++ [(id, ts, te)]). split; [|rewrite app_assoc, E1; reflexivity].
  constructor; cbn [sc_entries sc_time sc_seen sc_num sc_trim_start sc_trim_end sc_start]; try assumption.
  - rewrite map_app. cbn [map fid fst]. split; [reflexivity|]. apply (Permutation_NoDup (l := id :: map fid cur1)); [apply Permutation_cons_append|]. constructor; [|exact C2]. rewrite <- in_existsb. congruence.
  - rewrite map_app. cbn [map fid fst]. rewrite maximum_snoc, D. reflexivity.
  - intros f r Q. destruct cur1 as [|f0 r0]; cbn [app map] in *.
    + injection Q as <- _. auto.
    + injection Q as <- _. apply (E f0 r0). reflexivity.
  - destruct (sc_start s2); [exact F|contradiction].
Qed.
Lemma counts_tally full T s fs p e : counts T s fs -> counts T (tally full T p e s) (fs ++ match e with EFrame id ts te => [(id, ts, te)] | _ => [] end).
Proof.
  intro H. destruct e as [id ts te| |id b|noted| |]; cbn [tally]; rewrite ?app_nil_r.
  - apply counts_frame. exact H.
  - destruct H as [A B C D]. constructor; assumption.
  - apply (counts_note T s fs p) in H. destruct H as [A B C D]. unfold tally_block. destruct b as [[d x]|]; constructor; assumption.
  - assert (counts T (if noted then note_start p s else s) fs) as H1 by (destruct noted; [apply counts_note|]; exact H). destruct H1 as [A B C D]. constructor; assumption.
  - apply (counts_finalize full) in H. apply (counts_note _ _ _ p) in H. destruct H as [A B C D]. constructor; assumption.
  - exact H.
Qed.
Lemma index_tally T s gs cur p e hi : index T s gs cur p -> p <= hi -> (e <> EOther -> p < hi) -> exists gs' cur', index T (tally true T p e s) gs' cur' hi /\
  concat gs' ++ cur' = (concat gs ++ cur) ++ match e with EFrame id ts te => [(id, ts, te)] | _ => [] end.
Proof.
  intros H Hp He. destruct e as [id ts te| |id b|noted| |]; cbn [tally]; rewrite ?app_nil_r.
  - apply index_frame; [exact H|apply He; discriminate].
  - exists gs, cur. split; [|reflexivity]. apply (index_hi _ _ _ _ _ hi) in H; [|exact Hp]. destruct H as [A B C D E F G]. constructor; assumption.
  - exists gs, cur. split; [|reflexivity]. destruct (index_note _ _ _ _ _ hi H ltac:(apply He; discriminate)) as [[A B C D E F G] _]. unfold tally_block. destruct b as [[d x]|]; constructor; assumption.
  - exists gs, cur. split; [|reflexivity]. assert (index T (if noted then note_start p s else s) gs cur hi) as H1.
    { destruct noted; [apply index_note; [exact H|apply He; discriminate]|eapply index_hi; eassumption]. } destruct H1 as [A B C D E F G]. constructor; assumption.
  - destruct (index_finalize _ _ _ _ _ H) as (gs' & H1 & E1 & _). exists gs', []. rewrite app_nil_r. split; [|exact E1].
    destruct (index_note _ _ _ _ _ hi H1 ltac:(apply He; discriminate)) as [[A B C D E F G] _]. constructor; assumption.
  - exists gs, cur. split; [|reflexivity]. eapply index_hi; eassumption.
Qed.
Definition frames_of (evs : list (Z * event)) : list (Z * Z * Z) := flat_map (fun x => match snd x with EFrame id ts te => [(id, ts, te)] | _ => [] end) evs.
Lemma counts_steps full T evs : forall s fs, counts T s fs -> counts T (steps full T evs s) (fs ++ frames_of evs).
Proof.
  induction evs as [|[p e] evs IH]; intros s fs H; [cbn [steps fold_left frames_of flat_map]; rewrite app_nil_r; exact H|].
  cbn [steps fold_left fst snd]. change (frames_of ((p, e) :: evs)) with (match e with EFrame id ts te => [(id, ts, te)] | _ => [] end ++ frames_of evs). rewrite app_assoc. apply IH. apply counts_tally. exact H.
Qed.
Lemma index_steps T evs : forall s gs cur off o, index T s gs cur off -> path off evs o -> exists gs' cur', index T (steps true T evs s) gs' cur' o /\ concat gs' ++ cur' = (concat gs ++ cur) ++ frames_of evs.
Proof.
  induction evs as [|[p e] evs IH]; intros s gs cur off o H P; cbn [path] in P.
  - subst o. exists gs, cur. cbn [frames_of flat_map]. rewrite app_nil_r. auto.
  - destruct P as [-> (adv & A1 & A2 & P)]. destruct (index_tally T s gs cur off e (off + adv) H ltac:(lia) ltac:(intro Q; specialize (A2 Q); lia)) as (gs1 & cur1 & H1 & E1).
    destruct (IH _ _ _ _ _ H1 P) as (gs2 & cur2 & H2 & E2). exists gs2, cur2. split; [exact H2|]. rewrite E2, E1, <- app_assoc. reflexivity.
Qed.
Lemma counts_empty T : counts T sc_empty [].
Proof. constructor; [reflexivity|constructor|reflexivity|reflexivity]. Qed.
Lemma index_empty T : index T sc_empty [] [] 0.
Proof. constructor; cbn [sc_empty sc_entries sc_time sc_seen sc_num sc_start map]; [constructor|split; [exact I|reflexivity]|split; [reflexivity|constructor]|reflexivity|discriminate|split; [reflexivity|exact I]|lia]. Qed.

(* ---- the first byte of a header ---- *)
Lemma header_byte b l h n w : byteP b -> prun read_header (bytes_bits (b :: l)) = POk (h, n) w -> h_type h = b / 8 /\ h_red h = negb ((b / 4) mod 2 =? 0).
Proof.
  intros Hb E. unfold read_header in E. change (bytes_bits (b :: l)) with (bits 8 b ++ bytes_bits l) in E.
  change (bits 8 b) with [Z.testbit b 7; Z.testbit b 6; Z.testbit b 5; Z.testbit b 4; Z.testbit b 3; Z.testbit b 2; Z.testbit b 1; Z.testbit b 0] in E.
  rewrite prun_bind in E. unfold rlit at 1, rop1 at 1 in E. cbn [prun] in E. change (legal_width 5 64) with true in E. cbv iota in E. change (Z.to_nat 5) with 5%nat in E.
  cbn [app length Nat.leb firstn skipn] in E. cbv iota in E.
  unfold rbool at 1 in E. rewrite prun_bind in E. unfold rlit at 1, rop1 at 1 in E. rewrite prun_bind in E. cbn [prun] in E. change (legal_width 1 64) with true in E. cbv iota in E. change (Z.to_nat 1) with 1%nat in E.
  cbn [app length Nat.leb firstn skipn prun] in E. cbv iota in E.
  set (t := ofbits [Z.testbit b 7; Z.testbit b 6; Z.testbit b 5; Z.testbit b 4; Z.testbit b 3]) in *.
  set (red := negb (ofbits [Z.testbit b 2] =? 0)) in *.
  assert (h_type h = t /\ h_red h = red) as [-> ->].
  { clearbody t red. rewrite prun_bind in E. destruct (prun rbool _) as [|?|fl ?]; try discriminate E. rewrite prun_bind in E. destruct (prun rbool _) as [|?|ex ?]; try discriminate E.
    rewrite prun_bind in E. destruct (prun ruleb_sz _) as [|?|os ?]; try discriminate E. rewrite prun_bind in E. destruct (prun (rres _) _) as [|?|? ?]; try discriminate E.
    cbv zeta in E. rewrite prun_bind in E. destruct (prun _ _) as [|?|tr ?] in E; try discriminate E. rewrite prun_bind in E. destruct (prun _ _) as [|?|es ?] in E; try discriminate E.
    rewrite prun_bind in E. destruct (prun _ _) as [|?|[] ?] in E; try discriminate E. rewrite prun_bind in E. destruct (prun _ _) as [|?|eb ?] in E; try discriminate E.
    rewrite prun_bind in E. destruct (prun (rres _) _) as [|?|? ?]; try discriminate E. cbn [prun] in E. injection E as <- _ _. auto. }
  assert (forallb (fun b => (ofbits [Z.testbit b 7; Z.testbit b 6; Z.testbit b 5; Z.testbit b 4; Z.testbit b 3] =? b / 8) &&
     Bool.eqb (negb (ofbits [Z.testbit b 2] =? 0)) (negb ((b / 4) mod 2 =? 0))) (map Z.of_nat (seq 0 256)) = true) as S by (vm_compute; reflexivity).
  rewrite forallb_forall in S. specialize (S b). cbv beta in S.
  assert ((ofbits [Z.testbit b 7; Z.testbit b 6; Z.testbit b 5; Z.testbit b 4; Z.testbit b 3] =? b / 8) && Bool.eqb (negb (ofbits [Z.testbit b 2] =? 0)) (negb ((b / 4) mod 2 =? 0)) = true) as Q by (apply S; apply in_map_iff; exists (Z.to_nat b); unfold byteP in Hb; split; [lia|apply in_seq; lia]).
  apply andb_true_iff in Q as [Q1 Q2]. apply Bool.eqb_prop in Q2. unfold t, red. split; [lia|exact Q2].
Qed.

(* ================= C66 ================= *)
(* The scan always answers, whatever the bytes, the tables and the callback: no crash, no error.  It stays within the bytes, stands where
   it says it does, and gives its true reason for stopping: all bytes consumed (Eof), a canonical sequence header ahead (NextSequence),
   bytes left (Truncated, Malformed), the callback said no (Cancelled). *)
Theorem C66_answers : forall fuel cap full budget T go before l,
  (8 <= fuel)%nat -> (1 <= cap)%nat -> Forall byteP (before ++ l) -> zlen l < 2^32 - 64 ->
  exists rep, probe_scan fuel cap full budget T go before l = Ok (rep, 8 * (zlen before + rp_bytes rep)) /\
    0 <= rp_bytes rep <= zlen l /\
    match rp_stop rep with
    | Eof => rp_bytes rep = zlen l
    | Truncated | Malformed => rp_bytes rep < zlen l
    | NextSequence => exists b, nth_error l (Z.to_nat (rp_bytes rep)) = Some b /\ begins_sequence b
    | BudgetExceeded => True
    | Cancelled => exists i d, go i (rp_bytes rep) d = false
    end.
Proof.
  intros fuel cap full budget T go before l Hf Hc Hb Hl. destruct (scan_walked fuel cap full budget T go before l Hf Hc Hb Hl) as (q & E & ->).
  exists (walked full budget T go l). unfold probe_scan. rewrite E. split; [do 2 f_equal; lia|]. unfold walked.
  destruct (walk_events full T go budget 1 0 sc_empty l Hl) as (r & o & evs & -> & _ & _ & R & Q). cbn [conclude rp_bytes rp_stop].
  split; [lia|]. destruct r; try lia; try exact I.
  - destruct Q as (h & n & w & rest & Er & Eh & Ht & Hr). rewrite Z.sub_0_r in Er. destruct rest as [|b rest]; [discriminate Eh|].
    assert (byteP b) as Bb. { apply Forall_app in Hb as [_ Hb]. rewrite Forall_forall in Hb. apply Hb. rewrite <- (firstn_skipn (Z.to_nat o) l), Er. apply in_or_app. right. left. reflexivity. }
    exists b. split. { rewrite <- (firstn_skipn (Z.to_nat o) l), Er. assert (length (firstn (Z.to_nat o) l) = Z.to_nat o) as L by (rewrite firstn_length; unfold zlen in R; lia).
      rewrite nth_error_app2 by lia. rewrite L, Nat.sub_diag. reflexivity. }
    destruct (header_byte b rest h n w Bb Eh) as [H1 H2]. unfold begins_sequence. rewrite Ht in H1. unfold kSequenceHeader in H1. rewrite Hr in H2. split; [lia|]. destruct ((b / 4) mod 2 =? 0) eqn:E0; [lia|discriminate H2].
  - destruct Q as [d Q]. eauto.
Qed.

(* The totals agree with one another: there is one list of audio frames such that ... *)
Definition sorted_ids (l : list (Z * summary)) : Prop := StronglySorted Z.lt (map fst l).
Lemma insert_in x l y : In y (insert_sub x l) <-> y = x \/ In y l.
Proof.
  induction l as [|z l IH]; cbn [insert_sub]; [cbn [In]; intuition congruence|]. destruct (fst x <=? fst z); cbn [In]; [intuition congruence|]. rewrite IH. tauto.
Qed.
Lemma insert_sorted x l : sorted_ids l -> ~ In (fst x) (map fst l) -> sorted_ids (insert_sub x l).
Proof.
  unfold sorted_ids. induction l as [|z l IH]; cbn [insert_sub map]; intros S N; [repeat constructor|]. inversion S as [|? ? S1 S2]; subst.
  destruct (fst x <=? fst z) eqn:E; cbn [map].
  - constructor; [exact S|]. assert (fst x <> fst z) by (intro Q; apply N; left; congruence). constructor; [lia|]. eapply Forall_impl; [|exact S2]. intros; lia.
  - constructor; [apply IH; [exact S1|intro Q; apply N; right; exact Q]|]. apply Forall_forall. intros k Hk. apply in_map_iff in Hk as (y & <- & Hy). apply insert_in in Hy as [-> |Hy]; [lia|].
    rewrite Forall_forall in S2. apply S2. apply in_map. exact Hy.
Qed.
Lemma sort_spec l : NoDup (map fst l) -> sorted_ids (sort_subs l) /\ forall x, In x (sort_subs l) <-> In x l.
Proof.
  induction l as [|x l IH]; cbn [sort_subs fold_right map]; intro N; [split; [constructor|tauto]|]. inversion N as [|? ? N1 N2]; subst. destruct (IH N2) as [S M]. fold (sort_subs l).
  split; [apply insert_sorted; [exact S|]|intro y; rewrite insert_in, M; cbn [In]; intuition congruence].
  intro Q. apply in_map_iff in Q as (y & Ey & Hy). apply M in Hy. apply N1. rewrite <- Ey. apply in_map. exact Hy.
Qed.
Lemma sort_total (f : Z * summary -> Z) l : total (map f (sort_subs l)) = total (map f l).
Proof.
  assert (forall x l, total (map f (insert_sub x l)) = f x + total (map f l)) as H.
  { intros x m. induction m as [|z m IH]; cbn [insert_sub]; [reflexivity|]. destruct (_ <=? _); [reflexivity|]. cbn [map total fold_right]. fold (total (map f (insert_sub x m))) (total (map f m)). rewrite IH. lia. }
  induction l as [|x l IH]; [reflexivity|]. cbn [sort_subs fold_right]. fold (sort_subs l). rewrite H, IH. reflexivity.
Qed.
Lemma sort_max (f : Z * summary -> Z) l : maximum (map f (sort_subs l)) = maximum (map f l).
Proof.
  assert (forall x l, maximum (map f (insert_sub x l)) = Z.max (f x) (maximum (map f l))) as H.
  { intros x m. induction m as [|z m IH]; cbn [insert_sub]; [reflexivity|]. destruct (_ <=? _); [reflexivity|]. cbn [map maximum fold_right]. fold (maximum (map f (insert_sub x m))) (maximum (map f m)). rewrite IH. lia. }
  induction l as [|x l IH]; [reflexivity|]. cbn [sort_subs fold_right]. fold (sort_subs l). rewrite H, IH. reflexivity.
Qed.

(* In both modes: there is a list of audio frames [fs], as many as audio_frame_count says, such that the list of substreams has, in
   ascending order of the IDs, exactly the substreams that occur, each with the number of its frames, that number times the frame size,
   and its codec config; the number of temporal units is the largest number of frames of a substream, or the number of delimiters if that
   is larger; the total is the longest substream. *)
Theorem C66_counts : forall fuel cap full budget T go before l rep q,
  (8 <= fuel)%nat -> (1 <= cap)%nat -> Forall byteP (before ++ l) -> zlen l < 2^32 - 64 ->
  probe_scan fuel cap full budget T go before l = Ok (rep, q) ->
  exists fs, rp_frames rep = zlen fs /\ sorted_ids (rp_subs rep) /\
    (forall id c k m, In (id, mkSu c k m) (rp_subs rep) <-> k = occurs id fs /\ 0 < k /\ m = k * size_of T id /\ c = codec_id T id) /\
    rp_frames rep = total (map (fun x => su_frames (snd x)) (rp_subs rep)) /\
    rp_units rep = Z.max (maximum (map (fun x => su_frames (snd x)) (rp_subs rep))) (rp_delims rep) /\
    rp_total rep = (let m := maximum (map (fun x => su_samples (snd x)) (rp_subs rep)) in if m >? 0 then Some m else None).
Proof.
  intros fuel cap full budget T go before l rep q Hf Hc Hb Hl E. destruct (scan_walked fuel cap full budget T go before l Hf Hc Hb Hl) as (q' & E' & _).
  unfold probe_scan in E. rewrite E' in E. injection E as <- _. unfold walked.
  destruct (walk_events full T go budget 1 0 sc_empty l Hl) as (r & o & evs & -> & _ & _ & _ & _). cbv zeta. cbn [conclude rp_frames rp_subs rp_units rp_delims rp_total].
  pose proof (counts_finalize full _ _ _ (counts_steps full T evs _ _ (counts_empty T))) as [A B C D]. cbn [app] in *. set (s := finalize_tu full (steps full T evs sc_empty)) in *. set (fs := frames_of evs) in *.
  exists fs. split; [exact A|]. destruct (sort_spec _ B) as [S M]. split; [exact S|]. split; [|rewrite sort_total, !sort_max; repeat split; exact D].
  intros id c k m. rewrite M, <- (find_in _ _ _ B), C. pose proof (zlen_nonneg (filter (fun f => fid f =? id) fs)) as P. fold (occurs id fs) in P. destruct (occurs id fs =? 0) eqn:Z0.
  - split; [discriminate|intros (-> & H & _); lia].
  - split; [intro H; injection H as <- <- <-; repeat split; lia|]. intros (-> & _ & -> & ->). reflexivity.
Qed.

(* In a full scan, the index lists units of which each begins when the one before it has ended (the first at 0) and at a later byte, before
   the end of the scan; and every audio frame belongs to exactly one of them. *)
Theorem C66_index : forall fuel cap budget T go before l rep q,
  (8 <= fuel)%nat -> (1 <= cap)%nat -> Forall byteP (before ++ l) -> zlen l < 2^32 - 64 ->
  probe_scan fuel cap true budget T go before l = Ok (rep, q) ->
  consecutive 0 (rp_entries rep) /\ ascending 0 (rp_entries rep) (rp_bytes rep) /\
  exists gs, Forall2 (is_unit T) gs (rp_entries rep) /\ zlen (concat gs) = rp_frames rep /\
    forall x, In x (rp_subs rep) -> su_frames (snd x) = occurs (fst x) (concat gs).
Proof.
  intros fuel cap budget T go before l rep q Hf Hc Hb Hl E. destruct (scan_walked fuel cap true budget T go before l Hf Hc Hb Hl) as (q' & E' & _).
  unfold probe_scan in E. rewrite E' in E. injection E as <- _. unfold walked.
  destruct (walk_events true T go budget 1 0 sc_empty l Hl) as (r & o & evs & -> & _ & P & _ & _). cbn [conclude rp_entries rp_bytes rp_frames rp_subs].
  pose proof (counts_finalize true _ _ _ (counts_steps true T evs _ _ (counts_empty T))) as [A B C D]. cbn [app] in *.
  destruct (index_steps T evs _ _ _ _ _ (index_empty T) P) as (gs & cur & I1 & E1). destruct (index_finalize _ _ _ _ _ I1) as (gs2 & [U [V1 V2] _ _ _ W _] & E2 & N2).
  rewrite N2 in W. destruct W as [_ W]. cbn [concat app] in E1. rewrite E1 in E2. split; [exact V1|]. split; [exact W|].
  exists gs2. split; [exact U|]. rewrite E2. split; [symmetry; exact A|]. intros [id [c k m]] Hx. destruct (sort_spec _ B) as [_ M]. rewrite M, <- (find_in _ _ _ B), C in Hx.
  cbn [fst snd su_frames]. destruct (_ =? 0); [discriminate Hx|]. injection Hx as _ <- _. reflexivity.
Qed.
(* So no substream has more frames than there are units in the index. *)
Theorem C66_index_covers : forall fuel cap budget T go before l rep q,
  (8 <= fuel)%nat -> (1 <= cap)%nat -> Forall byteP (before ++ l) -> zlen l < 2^32 - 64 ->
  probe_scan fuel cap true budget T go before l = Ok (rep, q) ->
  forall x, In x (rp_subs rep) -> su_frames (snd x) <= zlen (rp_entries rep).
Proof.
  intros fuel cap budget T go before l rep q Hf Hc Hb Hl E x Hx. destruct (C66_index _ _ _ _ _ _ _ _ _ Hf Hc Hb Hl E) as (_ & _ & gs & U & _ & O). rewrite (O x Hx). clear -U.
  set (id := fst x). clearbody id. clear x. induction U as [|g e gs es (N & _ & _) _ IH]; [reflexivity|]. cbn [concat]. rewrite occurs_app.
  assert (zlen (e :: es) = 1 + zlen es) as -> by (unfold zlen; cbn [length]; lia).
  assert (occurs id g <= 1) as H1; [|lia]. clear -N. induction g as [|f g IH]; [discriminate|]. cbn [map] in N. inversion N as [|? ? N1 N2]; subst. specialize (IH N2). unfold occurs in *. cbn [filter].
  destruct (fid f =? id) eqn:E; [|exact IH]. assert (filter (fun f => fid f =? id) g = []) as ->; [|reflexivity].
  destruct (filter (fun f0 => fid f0 =? id) g) as [|y t] eqn:Q; [reflexivity|]. exfalso. assert (In y (filter (fun f0 => fid f0 =? id) g)) as Iy by (rewrite Q; left; reflexivity). apply filter_In in Iy as [Iy Ey].
  apply N1. apply in_map_iff. exists y. split; [lia|exact Iy].
Qed.

(* ---- the other counters, and the parameter blocks ---- *)
Definition is_delim (e : event) : bool := match e with EDelim => true | _ => false end.
Definition is_block (e : event) : bool := match e with EBlock _ _ => true | _ => false end.
Definition is_frame_error (e : event) : bool := match e with EFrameError => true | _ => false end.
Definition is_block_error (e : event) : bool := match e with EBlockError _ => true | _ => false end.
Definition hits (p : event -> bool) (evs : list (Z * event)) : Z := zlen (filter p (map snd evs)).
Lemma note_same p s : (sc_num (note_start p s), sc_trim_start (note_start p s), sc_trim_end (note_start p s), sc_seen (note_start p s), sc_time (note_start p s), sc_done (note_start p s), sc_subs (note_start p s), sc_ptime (note_start p s),
   sc_frames (note_start p s), sc_blocks (note_start p s), sc_delims (note_start p s), sc_frame_errors (note_start p s), sc_block_errors (note_start p s), sc_entries (note_start p s), sc_details (note_start p s)) =
  (sc_num s, sc_trim_start s, sc_trim_end s, sc_seen s, sc_time s, sc_done s, sc_subs s, sc_ptime s, sc_frames s, sc_blocks s, sc_delims s, sc_frame_errors s, sc_block_errors s, sc_entries s, sc_details s).
Proof. unfold note_start. destruct (sc_start s); reflexivity. Qed.
Definition others (s : scan) := (sc_blocks s, sc_delims s, sc_frame_errors s, sc_block_errors s, sc_ptime s, sc_details s).
Lemma others_note p s : others (note_start p s) = others s.
Proof. unfold note_start. destruct (sc_start s); reflexivity. Qed.
Lemma others_finalize full s : others (finalize_tu full s) = others s.
Proof. unfold finalize_tu. destruct (sc_start s); [|reflexivity]. destruct (sc_seen s); reflexivity. Qed.
Lemma others_frame full T p id ts te s : others (tally_frame full T p id ts te s) = others s.
Proof.
  unfold tally_frame. set (s1 := if existsb _ _ then _ else s). assert (others s1 = others s) as <- by (unfold s1; destruct (existsb _ _); [apply others_finalize|reflexivity]).
  rewrite <- (others_note p s1). set (s2 := note_start p s1). destruct (match sc_seen s2 with [] => (ts, te) | _ => _ end) as [a b]. reflexivity.
Qed.
Lemma steps_counters full T evs : forall s, let s' := steps full T evs s in
  sc_blocks s' = sc_blocks s + hits is_block evs /\ sc_delims s' = sc_delims s + hits is_delim evs /\
  sc_frame_errors s' = sc_frame_errors s + hits is_frame_error evs /\ sc_block_errors s' = sc_block_errors s + hits is_block_error evs.
Proof.
  induction evs as [|[p e] evs IH]; intro s; cbv zeta. { cbn [steps fold_left]. unfold hits, zlen. cbn. lia. }
  cbn [steps fold_left fst snd]. destruct (IH (tally full T p e s)) as (A & B & C & D). cbv zeta in *. fold (steps full T evs (tally full T p e s)). rewrite A, B, C, D.
  unfold hits, zlen. cbn [map snd filter]. destruct e as [id ts te| |id b|noted| |]; cbn [is_block is_delim is_frame_error is_block_error tally length].
  - pose proof (others_frame full T p id ts te s) as O. unfold others in O. injection O as -> -> -> -> _ _. lia.
  - cbn [add_frame_error sc_blocks sc_delims sc_frame_errors sc_block_errors]. lia.
  - pose proof (others_note p s) as O. unfold others in O. injection O as O1 O2 O3 O4 _ _. unfold tally_block. destruct b as [[d x]|]; cbn [sc_blocks sc_delims sc_frame_errors sc_block_errors]; rewrite O1, O2, O3, O4; lia.
  - pose proof (others_note p s) as O. unfold others in O. injection O as O1 O2 O3 O4 _ _. destruct noted; cbn [add_block_error sc_blocks sc_delims sc_frame_errors sc_block_errors]; rewrite ?O1, ?O2, ?O3, ?O4; lia.
  - pose proof (others_note p (finalize_tu full s)) as O. rewrite others_finalize in O. unfold others in O. injection O as O1 O2 O3 O4 _ _. cbn [add_delim sc_blocks sc_delims sc_frame_errors sc_block_errors]. rewrite O1, O2, O3, O4. lia.
  - lia.
Qed.
Definition blocks_of (evs : list (Z * event)) : list (pdef * pblock) := flat_map (fun x => match snd x with EBlock _ (Some b) => [b] | _ => [] end) evs.
(* each block begins when those of the same parameter before it have ended *)
Definition timed (l : list blockrep) : Prop := forall before b after, l = before ++ b :: after ->
  br_start b = lasted (bl_id (br_block b)) before /\ br_end b = br_start b + block_duration (br_def b) (br_block b) /\ br_type b = pd_type (pd_kind (br_def b)).
Definition named (evs : list (Z * event)) : Prop := Forall (fun x => match snd x with EBlock id (Some b) => bl_id (snd b) = id | _ => True end) evs.
Lemma lasted_snoc id l b : lasted id (l ++ [b]) = lasted id l + (if bl_id (br_block b) =? id then block_duration (br_def b) (br_block b) else 0).
Proof. unfold lasted. rewrite map_app. fold (total (map (fun b => if bl_id (br_block b) =? id then block_duration (br_def b) (br_block b) else 0) l)). change (fold_right Z.add 0 ?x) with (total x). rewrite total_app. cbn [map total fold_right]. lia. Qed.
Lemma timed_snoc l b : timed l -> br_start b = lasted (bl_id (br_block b)) l -> br_end b = br_start b + block_duration (br_def b) (br_block b) -> br_type b = pd_type (pd_kind (br_def b)) -> timed (l ++ [b]).
Proof.
  intros H S1 S2 S3 before x after E. destruct (@exists_last _ (x :: after) ltac:(discriminate)) as (a' & y & Q). destruct after as [|z after].
  - apply app_inj_tail in E as [-> ->]. auto.
  - rewrite Q in E. assert (exists a2, a' = x :: a2) as (a2 & ->). { destruct a' as [|w a2]; [discriminate Q|]. injection Q as -> _. eauto. }
    rewrite app_assoc in E. apply app_inj_tail in E as [E _]. eapply H. exact E.
Qed.
Lemma steps_blocks full T evs : forall s, named evs -> timed (sc_details s) -> (forall id, match m_find id (sc_ptime s) with Some t => t | None => 0 end = lasted id (sc_details s)) ->
  let s' := steps full T evs s in timed (sc_details s') /\ (forall id, match m_find id (sc_ptime s') with Some t => t | None => 0 end = lasted id (sc_details s')) /\
  map (fun b => (br_def b, br_block b)) (sc_details s') = map (fun b => (br_def b, br_block b)) (sc_details s) ++ blocks_of evs.
Proof.
  induction evs as [|[p e] evs IH]; intros s N H P; cbv zeta. { cbn [steps fold_left blocks_of flat_map]. rewrite app_nil_r. auto. }
  inversion N as [|? ? N1 N2]; subst. cbn [snd] in N1. cbn [steps fold_left fst snd]. fold (steps full T evs (tally full T p e s)).
  assert (timed (sc_details (tally full T p e s)) /\ (forall id, match m_find id (sc_ptime (tally full T p e s)) with Some t => t | None => 0 end = lasted id (sc_details (tally full T p e s))) /\
    map (fun b => (br_def b, br_block b)) (sc_details (tally full T p e s)) = map (fun b => (br_def b, br_block b)) (sc_details s) ++ match e with EBlock _ (Some b) => [b] | _ => [] end) as (H1 & P1 & E1).
  { destruct e as [id ts te| |id b|noted| |]; cbn [tally]; rewrite ?app_nil_r.
    - pose proof (others_frame full T p id ts te s) as O. unfold others in O. injection O as _ _ _ _ -> ->. auto.
    - auto.
    - pose proof (others_note p s) as O. unfold others in O. injection O as _ _ _ _ O1 O2. unfold tally_block. destruct b as [[d x]|]; cbn [sc_details sc_ptime]; rewrite ?O1, ?O2, ?app_nil_r; [|auto].
      cbn [snd] in N1. rewrite P. split; [|split].
      + apply timed_snoc; cbn [br_start br_end br_type br_def br_block]; rewrite ?N1; auto.
      + intro j. rewrite find_put, lasted_snoc. cbn [br_block br_def]. rewrite N1. destruct (id =? j) eqn:Q; [apply Z.eqb_eq in Q; subst j; reflexivity|]. rewrite P. lia.
      + rewrite map_app. reflexivity.
    - pose proof (others_note p s) as O. unfold others in O. injection O as _ _ _ _ O1 O2. destruct noted; cbn [add_block_error sc_details sc_ptime]; rewrite ?O1, ?O2; auto.
    - pose proof (others_note p (finalize_tu full s)) as O. rewrite others_finalize in O. unfold others in O. injection O as _ _ _ _ O1 O2. cbn [add_delim sc_details sc_ptime]. rewrite O1, O2. auto.
    - auto. }
  destruct (IH _ N2 H1 P1) as (H2 & P2 & E2). cbv zeta in *. split; [exact H2|]. split; [exact P2|]. rewrite E2, E1, <- app_assoc. reflexivity.
Qed.

(* ---- what an event says about its OBU ---- *)
Lemma prun_block_id d h n w b r : prun (read_pblock d h n) w = POk b r -> exists r', prun ruleb w = POk (bl_id b) r'.
Proof.
  intro R. unfold read_pblock in R. rewrite prun_bind in R. destruct (prun (rres _) w) as [|?|[] w1] eqn:V; try discriminate R.
  assert (w1 = w) as ->. { destruct (pd_validate d) as [[]|?| | |]; cbn [rres prun] in V; try discriminate V. injection V as <-. reflexivity. }
  rewrite prun_bind in R. destruct (prun ruleb w) as [|?|id w2]; try discriminate R. exists w2. f_equal.
  rewrite prun_bind in R. destruct (prun (rcheck _ _) w2) as [|?|[] w3]; try discriminate R.
  destruct (mode0 _); rewrite prun_bind in R; (destruct (prun _ _) as [|?|l w4] in R; try discriminate R); cbn [prun] in R; injection R as <- _; reflexivity.
Qed.
Lemma look_block full T l adv id b : look full T l = VNext adv (EBlock id b) ->
  match b with Some (d, x) => full = true /\ bl_id x = id /\ m_find id (pt_defs T) = Some d | None => full = false /\ exists d, m_find id (pt_defs T) = Some d end.
Proof.
  unfold look. destruct (prun fill_header_metadata _) as [|?|[t tot] r]; try discriminate. destruct (_ <? _); [discriminate|]. destruct (prun read_header _) as [|?|[h n] w]; try discriminate.
  destruct (_ && _); [discriminate|]. intro E. injection E as _ E. unfold seen in E. destruct (is_audio_frame _).
  { unfold frame_seen in E. destruct (_ =? _); [destruct (prun ruleb_sz w) as [|?|[? ?] ?]|]; discriminate E. }
  destruct (_ =? _); [|destruct (_ =? _); discriminate E]. unfold block_seen in E. destruct (prun ruleb (w ++ _)) as [|?|i r2] eqn:Ei; try discriminate E.
  destruct (m_find i (pt_defs T)) as [d|] eqn:Ed; [|discriminate E]. destruct full.
  - destruct (lpay (read_pblock d h n) w) as [?|[x f]] eqn:El; [discriminate E|]. injection E as <- <-. cbn [fst]. split; [reflexivity|]. split; [|exact Ed].
    unfold lpay in El. destruct (prun (read_pblock d h n) w) as [|?|x' rest] eqn:Ep; try discriminate El. destruct (_ =? _)%nat; [|discriminate El]. destruct (prun (rspan _) rest); try discriminate El. injection El as <- _.
    destruct (prun_block_id _ _ _ _ _ _ Ep) as (r' & R'). apply (prun_ext_ok _ _ (bytes_bits (skipn (Z.to_nat tot) l))) in R'. rewrite R' in Ei. congruence.
  - injection E as <- <-. eauto.
Qed.
Lemma looked_named full T off l evs : Forall (looked full T off l) evs -> named evs.
Proof.
  intro H. eapply Forall_impl; [|exact H]. intros [p e] [_ (adv & L)]. cbn [fst snd] in *. destruct e as [| |id [b|]| | |]; try exact I. apply look_block in L. destruct b as [d x]. cbn [snd]. tauto.
Qed.
Lemma frames_hits evs : zlen (frames_of evs) + hits is_block evs + hits is_delim evs + hits is_frame_error evs + hits is_block_error evs <= zlen evs.
Proof.
  unfold hits, zlen. induction evs as [|[p e] evs IH]; [reflexivity|]. cbn [map snd frames_of flat_map]. fold (frames_of evs). destruct e; cbn [filter is_block is_delim is_frame_error is_block_error app length]; lia.
Qed.
Lemma frames_path evs : forall off o, path off evs o -> zlen (frames_of evs) + hits is_block evs + hits is_delim evs + hits is_frame_error evs + hits is_block_error evs <= o - off.
Proof.
  unfold hits, zlen. induction evs as [|[p e] evs IH]; intros off o P. { cbn [path] in P. subst. cbn. lia. }
  cbn [path] in P. destruct P as [-> (adv & A1 & A2 & P)]. specialize (IH _ _ P). cbn [map snd frames_of flat_map]. fold (frames_of evs).
  destruct e; cbn [filter is_block is_delim is_frame_error is_block_error app length]; try specialize (A2 ltac:(discriminate)); lia.
Qed.

(* The counters never exceed the number of iterations allowed nor the number of bytes: they cannot wrap around in 32 bits.  Nor do the
   numbers of frames and samples: no substream has more than [budget] frames; and if frames have at most M samples, the index ends by budget * M. *)
Theorem C66_bounds : forall fuel cap full budget T go before l rep q M,
  (8 <= fuel)%nat -> (1 <= cap)%nat -> Forall byteP (before ++ l) -> zlen l < 2^32 - 64 -> (forall id, size_of T id <= M) -> 0 <= M ->
  probe_scan fuel cap full budget T go before l = Ok (rep, q) ->
  (let n := rp_frames rep + rp_blocks rep + rp_delims rep + rp_frame_errors rep + rp_block_errors rep in n <= Z.of_nat budget /\ n <= rp_bytes rep) /\
  0 <= rp_frames rep /\ 0 <= rp_blocks rep /\ 0 <= rp_delims rep /\ 0 <= rp_frame_errors rep /\ 0 <= rp_block_errors rep /\
  0 <= rp_units rep <= rp_frames rep + rp_delims rep /\ (forall x, In x (rp_subs rep) -> su_frames (snd x) <= rp_frames rep) /\
  (full = true -> forall e, In e (rp_entries rep) -> en_time e + en_samples e <= rp_frames rep * M).
Proof.
  intros fuel cap full budget T go before l rep q M Hf Hc Hb Hl HM HM0 E.
  destruct (C66_counts _ _ _ _ _ _ _ _ _ _ Hf Hc Hb Hl E) as (fs & C1 & _ & C3 & _ & C5 & _).
  assert (full = true -> exists gs, Forall2 (is_unit T) gs (rp_entries rep) /\ zlen (concat gs) = rp_frames rep /\ consecutive 0 (rp_entries rep)) as Ix.
  { intros ->. destruct (C66_index _ _ _ _ _ _ _ _ _ Hf Hc Hb Hl E) as (X1 & _ & gs & X2 & X3 & _). eauto. }
  assert (forall x, In x (rp_subs rep) -> su_frames (snd x) <= rp_frames rep) as Sf.
  { intros [id [c k m]] Hx. apply C3 in Hx as (-> & _). cbn [snd su_frames]. rewrite C1. unfold occurs, zlen. clear. induction fs as [|f fs IH]; [reflexivity|]. cbn [filter]. destruct (_ =? _); cbn [length]; lia. }
  assert (0 <= rp_frames rep) as F0 by (rewrite C1; apply zlen_nonneg).
  destruct (scan_walked fuel cap full budget T go before l Hf Hc Hb Hl) as (q' & E' & _). unfold probe_scan in E. rewrite E' in E. injection E as Erep _. unfold walked in Erep.
  destruct (walk_events full T go budget 1 0 sc_empty l Hl) as (r & o & evs & W & [Le Lk] & P & R & _). rewrite W in Erep.
  pose proof (steps_counters full T evs sc_empty) as (A1 & A2 & A3 & A4). pose proof (counts_steps full T evs _ _ (counts_empty T)) as [A0 _ _ _]. cbn [app] in A0. cbn [sc_empty sc_blocks sc_delims sc_frame_errors sc_block_errors] in A1, A2, A3, A4.
  pose proof (others_finalize full (steps full T evs sc_empty)) as O. unfold others in O. injection O as O1 O2 O3 O4 _ _.
  assert (sc_frames (finalize_tu full (steps full T evs sc_empty)) = sc_frames (steps full T evs sc_empty)) as O0 by (unfold finalize_tu; destruct (sc_start _); [destruct (sc_seen _)|]; reflexivity).
  pose proof (frames_hits evs) as H1. pose proof (frames_path evs _ _ P) as H2.
  pose proof (zlen_nonneg (filter is_block (map snd evs))) as G1. pose proof (zlen_nonneg (filter is_delim (map snd evs))) as G2. pose proof (zlen_nonneg (filter is_frame_error (map snd evs))) as G3. pose proof (zlen_nonneg (filter is_block_error (map snd evs))) as G4.
  fold (hits is_block evs) in G1. fold (hits is_delim evs) in G2. fold (hits is_frame_error evs) in G3. fold (hits is_block_error evs) in G4.
  assert (rp_frames rep = zlen (frames_of evs) /\ rp_blocks rep = hits is_block evs /\ rp_delims rep = hits is_delim evs /\ rp_frame_errors rep = hits is_frame_error evs /\ rp_block_errors rep = hits is_block_error evs /\ rp_bytes rep = o) as (Q0 & Q1 & Q2 & Q3 & Q4 & Q5).
  { rewrite <- Erep. cbn [conclude rp_frames rp_blocks rp_delims rp_frame_errors rp_block_errors rp_bytes]. rewrite O0, O1, O2, O3, O4. repeat split; lia. }
  split; [cbv zeta; unfold zlen in *; lia|]. split; [exact F0|]. do 4 (split; [lia|]). split; [|split; [exact Sf|]].
  - rewrite C5. assert (maximum (map (fun x => su_frames (snd x)) (rp_subs rep)) <= rp_frames rep) as Mx. { apply maximum_le; [exact F0|]. intros y Hy. apply in_map_iff in Hy as (x & <- & Hx). apply Sf. exact Hx. }
    pose proof (maximum_nonneg (map (fun x => su_frames (snd x)) (rp_subs rep))). lia.
  - intros Fu e He. destruct (Ix Fu) as (gs & X1 & X2 & X3). rewrite <- X2. clear -X1 X3 He HM HM0.
    assert (forall t, consecutive t (rp_entries rep) -> en_time e + en_samples e <= t + zlen (concat gs) * M) as H; [|specialize (H 0 X3); lia]. clear X3.
    induction X1 as [|g x gs es (N & S & f & r & -> & _) F IH]; [destruct He|]. intros t [T1 T2]. cbn [concat].
    assert (en_samples x <= M) as Sx. { rewrite S. apply maximum_le; [exact HM0|]. intros y Hy. apply in_map_iff in Hy as (z & <- & _). apply HM. }
    assert (zlen ((f :: r) ++ concat gs) = 1 + zlen r + zlen (concat gs)) as -> by (unfold zlen; rewrite app_length; cbn [length]; lia).
    pose proof (zlen_nonneg r). pose proof (zlen_nonneg (concat gs)). destruct He as [-> |He]; [|specialize (IH He _ T2)]; nia.
Qed.
(* In a full scan the details list every parameter block that was counted, in order; each begins when the listed ones of the same parameter
   have ended, and has the definition the descriptors give for its parameter. *)
Theorem C66_details : forall fuel cap budget T go before l rep q,
  (8 <= fuel)%nat -> (1 <= cap)%nat -> Forall byteP (before ++ l) -> zlen l < 2^32 - 64 ->
  probe_scan fuel cap true budget T go before l = Ok (rep, q) ->
  zlen (rp_details rep) = rp_blocks rep /\
  forall earlier b later, rp_details rep = earlier ++ b :: later ->
    m_find (bl_id (br_block b)) (pt_defs T) = Some (br_def b) /\ br_type b = pd_type (pd_kind (br_def b)) /\
    br_start b = lasted (bl_id (br_block b)) earlier /\ br_end b = br_start b + block_duration (br_def b) (br_block b).
Proof.
  intros fuel cap budget T go before l rep q Hf Hc Hb Hl E. destruct (scan_walked fuel cap true budget T go before l Hf Hc Hb Hl) as (q' & E' & _).
  unfold probe_scan in E. rewrite E' in E. injection E as <- _. unfold walked.
  destruct (walk_events true T go budget 1 0 sc_empty l Hl) as (r & o & evs & -> & [_ Lk] & _ & _ & _). cbn [conclude rp_details rp_blocks].
  pose proof (others_finalize true (steps true T evs sc_empty)) as O. unfold others in O. injection O as -> _ _ _ _ ->.
  pose proof (steps_counters true T evs sc_empty) as (A1 & _). cbv zeta in A1. rewrite A1. cbn [sc_empty sc_blocks].
  destruct (steps_blocks true T evs sc_empty (looked_named _ _ _ _ _ Lk)) as (H1 & _ & H3). { intros b1 b b2 Q. destruct b1; discriminate Q. } { reflexivity. }
  cbv zeta in *. cbn [sc_empty sc_details map app] in H3. set (ds := sc_details (steps true T evs sc_empty)) in *. clearbody ds. split.
  - assert (length ds = length (blocks_of evs)) as L by (rewrite <- H3, map_length; reflexivity). unfold zlen. rewrite L. unfold hits, zlen. clear -Lk. induction Lk as [|[p e] evs [_ (adv & L)] _ IH]; [reflexivity|].
    cbn [fst snd map filter] in *. cbn [blocks_of flat_map snd]. fold (blocks_of evs). destruct e as [| |id [b|]| | |]; cbn [is_block app length]; try lia. apply look_block in L as [L _]. discriminate L.
  - intros earlier b later Q. destruct (H1 _ _ _ Q) as (T1 & T2 & T3). split; [|auto].
    assert (In (br_def b, br_block b) (blocks_of evs)) as Ib by (rewrite <- H3, Q; apply in_map_iff; exists b; split; [reflexivity|apply in_or_app; right; left; reflexivity]).
    apply in_flat_map in Ib as ([p e] & Ie & Ib). cbn [snd] in Ib. rewrite Forall_forall in Lk. destruct (Lk _ Ie) as [_ (adv & L)]. cbn [snd] in L. destruct e as [| |id [b'|]| | |]; try contradiction. destruct Ib as [Ib|[]].
    subst b'. apply look_block in L as (_ & <- & L). exact L.
Qed.

(* ---- quick and full scans ---- *)
Definition alike (e e' : event) : Prop :=   (* e in a full scan, e' in a quick one *)
  e = e' /\ is_block e' = false \/ exists id, e' = EBlock id None /\ (e = EBlockError true \/ exists b, e = EBlock id (Some b)).
Lemma look_modes T l : match look true T l, look false T l with VStop r, VStop r' => r = r' | VNext a e, VNext a' e' => a = a' /\ alike e e' | _, _ => False end.
Proof.
  unfold look. destruct (prun fill_header_metadata _) as [|?|[t tot] r]; try reflexivity. destruct (_ <? _); [reflexivity|]. destruct (prun read_header _) as [|?|[h n] w]; try (split; [reflexivity|left; split; reflexivity]).
  destruct (_ && _); [reflexivity|]. split; [reflexivity|]. unfold seen. destruct (is_audio_frame _). { left. unfold frame_seen. destruct (_ =? _); [destruct (prun ruleb_sz w) as [|?|[? ?] ?]|]; split; reflexivity. }
  destruct (_ =? _); [|left; destruct (_ =? _); split; reflexivity]. unfold block_seen. destruct (prun ruleb _) as [|?|i r2]; try (left; split; reflexivity). destruct (m_find _ _); [|left; split; reflexivity].
  right. exists i. split; [reflexivity|]. destruct (lpay _ _); eauto.
Qed.
Definition common (s : scan) := (sc_start s, sc_num s, sc_trim_start s, sc_trim_end s, sc_seen s, sc_time s, sc_done s, (sc_subs s, sc_frames s, sc_delims s, sc_frame_errors s)).
Definition twins (s s' : scan) : Prop := common s = common s' /\ sc_blocks s + sc_block_errors s = sc_blocks s' + sc_block_errors s' /\ sc_blocks s <= sc_blocks s' /\ sc_entries s' = [] /\ sc_details s' = [].
Lemma twins_note p s s' : twins s s' -> twins (note_start p s) (note_start p s').
Proof.
  destruct s as [a1 a2 a3 a4 a5 a6 a7 a8 a9 a10 a11 a12 a13 a14 a15 a16], s' as [b1 b2 b3 b4 b5 b6 b7 b8 b9 b10 b11 b12 b13 b14 b15 b16]. intros (C & H). unfold common in C. cbn [sc_start sc_num sc_trim_start sc_trim_end sc_seen sc_time sc_done sc_subs sc_frames sc_delims sc_frame_errors] in C.
  injection C as -> -> -> -> -> -> -> -> -> -> ->. unfold note_start. cbn [sc_start]. destruct b1; split; try reflexivity; exact H.
Qed.
Lemma twins_finalize s s' : twins s s' -> twins (finalize_tu true s) (finalize_tu false s').
Proof.
  destruct s as [a1 a2 a3 a4 a5 a6 a7 a8 a9 a10 a11 a12 a13 a14 a15 a16], s' as [b1 b2 b3 b4 b5 b6 b7 b8 b9 b10 b11 b12 b13 b14 b15 b16]. intros (C & H). unfold common in C. cbn [sc_start sc_num sc_trim_start sc_trim_end sc_seen sc_time sc_done sc_subs sc_frames sc_delims sc_frame_errors] in C.
  injection C as -> -> -> -> -> -> -> -> -> -> ->. unfold finalize_tu, no_pending. cbn [sc_start sc_seen]. destruct b1; [destruct b5|]; split; try reflexivity; exact H.
Qed.
Lemma twins_frame T p id ts te s s' : twins s s' -> twins (tally_frame true T p id ts te s) (tally_frame false T p id ts te s').
Proof.
  intro H. unfold tally_frame. replace (sc_seen s') with (sc_seen s) by (destruct H as [C _]; unfold common in C; congruence).
  set (s1 := if existsb _ _ then _ else s). set (s1' := if existsb _ _ then _ else s'). assert (twins s1 s1') as H1 by (unfold s1, s1'; destruct (existsb _ _); [apply twins_finalize|]; exact H). clearbody s1 s1'. clear H s s'.
  apply (twins_note p) in H1. set (s2 := note_start p s1) in *. set (s2' := note_start p s1') in *. clearbody s2 s2'.
  destruct s2 as [a1 a2 a3 a4 a5 a6 a7 a8 a9 a10 a11 a12 a13 a14 a15 a16], s2' as [b1 b2 b3 b4 b5 b6 b7 b8 b9 b10 b11 b12 b13 b14 b15 b16]. destruct H1 as (C & H). unfold common in C. cbn [sc_start sc_num sc_trim_start sc_trim_end sc_seen sc_time sc_done sc_subs sc_frames sc_delims sc_frame_errors] in C.
  injection C as -> -> -> -> -> -> -> -> -> -> ->. cbn [sc_start sc_num sc_trim_start sc_trim_end sc_seen sc_time sc_done sc_subs sc_frames sc_delims sc_frame_errors sc_ptime sc_blocks sc_block_errors sc_entries sc_details].
  destruct b5; split; try reflexivity; exact H.
Qed.
Lemma twins_tally T p e e' s s' : alike e e' -> twins s s' -> twins (tally true T p e s) (tally false T p e' s').
Proof.
  assert (forall s s' f f', twins s s' -> common (f s) = common s -> common (f' s') = common s' -> sc_entries (f' s') = sc_entries s' -> sc_details (f' s') = sc_details s' ->
    sc_blocks (f s) + sc_block_errors (f s) - sc_blocks s - sc_block_errors s = sc_blocks (f' s') + sc_block_errors (f' s') - sc_blocks s' - sc_block_errors s' -> sc_blocks (f s) - sc_blocks s <= sc_blocks (f' s') - sc_blocks s' -> twins (f s) (f' s')) as G.
  { intros x x' f f' (C & B1 & B2 & B3 & B4) F1 F2 F3 F4 F5 F6. split; [congruence|]. split; [lia|]. split; [lia|]. split; congruence. }
  intros [[-> B]|(id & -> & [-> |(b & ->)])] H.
  - destruct e' as [id ts te| |id b|noted| |]; cbn [tally]; try discriminate B.
    + apply twins_frame. exact H.
    + destruct H as (C & B1 & B2 & B3 & B4). unfold common in C. injection C as C1 C2 C3 C4 C5 C6 C7 C8 C9 C10 C11. split; [unfold common; cbn [add_frame_error sc_start sc_num sc_trim_start sc_trim_end sc_seen sc_time sc_done sc_subs sc_frames sc_delims sc_frame_errors]; congruence|auto].
    + assert (twins (if noted then note_start p s else s) (if noted then note_start p s' else s')) as H1 by (destruct noted; [apply twins_note|]; exact H).
      apply (G _ _ add_block_error add_block_error H1); try reflexivity; cbn [add_block_error sc_blocks sc_block_errors]; lia.
    + apply twins_finalize, (twins_note p) in H. destruct H as (C & B1 & B2 & B3 & B4). unfold common in C. injection C as C1 C2 C3 C4 C5 C6 C7 C8 C9 C10 C11. split; [unfold common; cbn [add_delim sc_start sc_num sc_trim_start sc_trim_end sc_seen sc_time sc_done sc_subs sc_frames sc_delims sc_frame_errors]; congruence|auto].
    + exact H.
  - cbn [tally]. apply (twins_note p) in H. apply (G _ _ add_block_error (tally_block id None) H); try reflexivity; cbn [add_block_error tally_block sc_blocks sc_block_errors]; lia.
  - cbn [tally]. apply (twins_note p) in H. apply (G _ _ (tally_block id (Some b)) (tally_block id None) H); destruct b as [d x]; try reflexivity; cbn [tally_block sc_blocks sc_block_errors]; lia.
Qed.
Lemma walk_twins T go k : forall i off s s' l, twins s s' -> exists r o s1 s1', walk true T go k i off s l = (r, o, s1) /\ walk false T go k i off s' l = (r, o, s1') /\ twins s1 s1'.
Proof.
  induction k as [|k IH]; intros i off s s' l H; cbn [walk]. { exists BudgetExceeded, off, s, s'. auto. }
  replace (sc_done s') with (sc_done s) by (destruct H as [C _]; unfold common in C; congruence). destruct (go i off (sc_done s)); cbn [negb]; [|exists Cancelled, off, s, s'; auto].
  pose proof (look_modes T l) as L. destruct (look true T l) as [r|a e], (look false T l) as [r'|a' e']; try contradiction; [subst r'; exists r, off, s, s'; auto|]. destruct L as [<- A]. apply IH. apply twins_tally; assumption.
Qed.
(* A quick scan of the same bytes finds the same, except that it believes the parameter blocks and leaves out the details and the index. *)
Theorem C66_modes : forall fuel cap budget T go before l rep q rep' q',
  (8 <= fuel)%nat -> (1 <= cap)%nat -> Forall byteP (before ++ l) -> zlen l < 2^32 - 64 ->
  probe_scan fuel cap true budget T go before l = Ok (rep, q) -> probe_scan fuel cap false budget T go before l = Ok (rep', q') ->
  rp_stop rep = rp_stop rep' /\ rp_bytes rep = rp_bytes rep' /\ rp_units rep = rp_units rep' /\ rp_frames rep = rp_frames rep' /\ rp_delims rep = rp_delims rep' /\
  rp_frame_errors rep = rp_frame_errors rep' /\ rp_subs rep = rp_subs rep' /\ rp_total rep = rp_total rep' /\
  rp_blocks rep + rp_block_errors rep = rp_blocks rep' + rp_block_errors rep' /\ rp_blocks rep <= rp_blocks rep' /\ rp_entries rep' = [] /\ rp_details rep' = [].
Proof.
  intros fuel cap budget T go before l rep q rep' q' Hf Hc Hb Hl E E'. destruct (scan_walked fuel cap true budget T go before l Hf Hc Hb Hl) as (x & X & _). destruct (scan_walked fuel cap false budget T go before l Hf Hc Hb Hl) as (y & Y & _).
  unfold probe_scan in E, E'. rewrite X in E. rewrite Y in E'. injection E as <- _. injection E' as <- _. unfold walked.
  destruct (walk_twins T go budget 1 0 sc_empty sc_empty l) as (r & o & s1 & s1' & -> & -> & H). { split; [reflexivity|]. split; [reflexivity|]. split; [cbn [sc_empty sc_blocks]; lia|]. split; reflexivity. }
  apply twins_finalize in H. destruct H as (C & B1 & B2 & B3 & B4). unfold common in C. injection C as C1 C2 C3 C4 C5 C6 C7 C8 C9 C10 C11.
  cbn [conclude rp_stop rp_bytes rp_units rp_frames rp_delims rp_frame_errors rp_subs rp_total rp_blocks rp_block_errors rp_entries rp_details]. rewrite C8, C9, C10, C11. repeat split; auto.
Qed.
