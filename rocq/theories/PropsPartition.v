(* C70: parameter block metadata is partitioned into the temporal units without loss. *)
From Coq Require Import Reals Psatz.
From Flocq Require Import Core BinarySingleNaN.
From Verif Require Import Base WriteBuf ReadBuf Leb BufSpec LebSpec CodecConfig ObuHeader ObuHeaderFacts FrameFacts PropsObu Params MixGain Pcm DoubleEnv PropsParams PropsGain PropsFixed PartitionRamp Partition PartitionFacts.
Open Scope Z_scope.

Section Props.
Context {X H : Type}.
Notation block := (mblock X H).
Notation sub := (msub X).

Lemma total_nonneg : forall l, Forall (fun d => 0 < d) l -> 0 <= total l.
Proof. induction l as [|d l IH]; intros F; unfold total; cbn [fold_right]; [lia|]. inversion F; subst. specialize (IH ltac:(assumption)). unfold total in IH. lia. Qed.
Lemma each_below : forall l n, Forall (fun d => 0 < d) l -> total l < n -> Forall (fun d => 0 < d < n) l.
Proof.
  induction l as [|d l IH]; intros n F T; [constructor|]. inversion F as [|? ? F1 F2]; subst. pose proof (total_nonneg l F2) as N. change (d + total l < n) in T. constructor; [lia|]. apply IH; [exact F2 | lia].
Qed.
Lemma same_spec : forall c l, same_durations c l = true -> l <> [] -> exists n last, l = repeat c n ++ [last] /\ last <= c.
Proof.
  intros c. induction l as [|x l IH]; intros S N; [congruence|]. destruct l as [|y l]; cbn [same_durations] in S.
  - exists O, x. split; [reflexivity | lia].
  - apply andb_true_iff in S. destruct S as (S1 & S2). destruct (IH S2 ltac:(discriminate)) as (n & last & E & L). exists (Datatypes.S n), last. cbn [repeat app]. rewrite E. split; [f_equal; lia | exact L].
Qed.
Lemma constant_spec : forall l, Forall (fun d => 0 < d) l -> l <> [] ->
  constant_duration l = 0 \/ (0 < constant_duration l <= total l /\ exists n last, l = repeat (constant_duration l) n ++ [last] /\ last <= constant_duration l).
Proof.
  intros l F N. unfold constant_duration. destruct l as [|c l]; [congruence|]. destruct (same_durations c (c :: l)) eqn:S; [right | now left]. inversion F as [|? ? F1 F2]; subst. split; [|now apply same_spec]. pose proof (total_nonneg l F2). change (total (c :: l)) with (c + total l). lia.
Qed.
(* one partition *)
Lemma block_facts : forall (full out : block) a b, in_range full -> mb_start full <= a -> b - a < 2^32 -> partition_block full a b = Ok out ->
  a < b /\ exists l, lasting full l /\ mb_id out = mb_id full /\ mb_header out = mb_header full /\ mb_start out = a /\ mb_dur out = b - a /\
    lasting out (map ms_dur (mb_subs out)) /\ forall t, a <= t < b -> pieces a b (mb_start full) (mb_subs full) l (mb_subs out) true t.
Proof.
  intros full out a b R A B E. unfold partition_block in E. destruct (a >=? b) eqn:C; [discriminate|]. assert (AB : a < b) by lia. split; [exact AB|]. pose proof (sched_lasting full R) as S. destruct (meta_sched full) as [s| | | |]; cbn [rbind] in E; try discriminate.
  destruct S as (l & P & L). rb E r Er. destruct (Z.eqb_spec (b - a) (fold_left (fun n x => n + ms_dur x) r 0)) as [T|]; [|discriminate]. injection E as <-. cbn [mb_id mb_header mb_start mb_dur mb_subs].
  rewrite fold_total, Z.add_0_l in T. destruct L as (L1 & L2 & L3 & L4 & L5) eqn:EL. destruct R as (R1 & R2 & R3 & R4 & R5).
  change 0 with (Z.of_nat 0) in Er. rewrite (cut_cut2 s l P a b (mb_subs full) l 0 (mb_start full) true eq_refl (eq_sym L1)) in Er.
  destruct (cut2_facts a b AB _ _ _ _ _ (eq_sym L1) (each_below l (2^32) L3 ltac:(rewrite L4; apply R1)) (proj1 R5) Er) as (I1 & I2 & I3). rewrite (Z.max_l a (mb_start full)) in I3 by lia.
  assert (U : u32 (b - a) = b - a) by (unfold u32; apply Z.mod_small; lia). rewrite U. exists l. split; [exact L|]. split; [reflexivity|]. split; [reflexivity|]. split; [reflexivity|]. split; [reflexivity|]. split; [|apply I3; lia].
  assert (N : r <> []) by (intros ->; unfold total in T; cbn [map fold_right] in T; lia). assert (F : Forall (fun d => 0 < d) (map ms_dur r)) by (rewrite Forall_map; exact I1).
  split; [apply map_length|]. split. { unfold zlen in *. rewrite map_length. destruct r; [congruence|]. cbn [length] in *. lia. }
  split; [exact F|]. split; [symmetry; exact T|]. destruct (constant_spec (map ms_dur r) F ltac:(destruct r; [congruence | discriminate])) as [K | K]; [left; split; [exact K | reflexivity] | right; cbn [mb_const mb_dur]; rewrite <- T in K; exact K].
Qed.
Lemma start_le : forall l i, Forall (fun d => 0 < d) l -> start_of l i <= total l.
Proof. intros l i F. unfold start_of. rewrite <- (firstn_skipn i l) at 2. rewrite total_app. pose proof (total_nonneg (skipn i l)) as N. assert (Forall (fun d => 0 < d) (skipn i l)) by (rewrite <- (firstn_skipn i l) in F; apply Forall_app in F; apply F). specialize (N ltac:(assumption)). lia. Qed.

(* the part of the full block which the [k]-th partition is *)
Definition partition_of (pd : Z) (full : block) (l : list Z) (k : nat) (out : block) : Prop :=
  mb_id out = mb_id full /\ mb_header out = mb_header full /\ mb_start out = mb_start full + pd * Z.of_nat k /\ mb_dur out = pd /\
  lasting out (map ms_dur (mb_subs out)) /\
  forall t, mb_start out <= t < mb_start out + pd -> exists i j x y,
    covers l i (t - mb_start full) /\ covers (map ms_dur (mb_subs out)) j (t - mb_start out) /\
    nth_error (mb_subs full) i = Some x /\ nth_error (mb_subs out) j = Some y /\
    let start := mb_start full + start_of l i in let stop := mb_start full + start_of l (S i) in
    let start' := mb_start out + start_of (map ms_dur (mb_subs out)) j in let stop' := mb_start out + start_of (map ms_dur (mb_subs out)) (S j) in
    start' = Z.max start (mb_start out) /\ stop' = Z.min stop (mb_start out + pd) /\
    cut_down (ms_data x) (ms_data y) start stop start' stop' (j = O).
Lemma lasting_once : forall (b : block) l l', lasting b l -> lasting b l' -> l = l'.
Proof.
  intros b l l' (A1 & A2 & A3 & A4 & A5) (B1 & B2 & B3 & B4 & B5). destruct A5 as [(A5 & A6) | (A5 & n & x & A6 & A7)], B5 as [(B5 & B6) | (B5 & m & y & B6 & B7)]; try lia; [congruence|].
  assert (n = m). { rewrite A6, app_length, repeat_length in A1. rewrite B6, app_length, repeat_length in B1. cbn [length] in *. lia. } subst m.
  assert (x = y). { rewrite A6, total_app, total_repeat in A4. rewrite B6, total_app, total_repeat in B4. unfold total in A4, B4; cbn [fold_right] in *. lia. } congruence.
Qed.
Lemma aligned_facts : forall (full : block) pd l, in_range full -> 0 <= pd < 2^32 -> lasting full l -> forall fuel k outs,
  aligned fuel pd full (mb_start full + mb_dur full) (mb_start full + pd * Z.of_nat k) = Ok outs -> pd * Z.of_nat k <= mb_dur full ->
  mb_dur full = pd * (Z.of_nat k + zlen outs) /\ forall i out, nth_error outs i = Some out -> partition_of pd full l (k + i) out.
Proof.
  intros full pd l R P L. induction fuel as [|fuel IH]; intros k outs E K; cbn [aligned] in E.
  { destruct (_ <? _) eqn:C; [discriminate|]. injection E as <-. split; [unfold zlen; cbn [length]; lia|]. intros [|i] out Hi; discriminate. }
  destruct (_ <? _) eqn:C; [|injection E as <-; split; [unfold zlen; cbn [length]; lia|]; intros [|i] out Hi; discriminate].
  rb E u Eu. apply add64_ok in Eu. subst u. rb E p Ep. rb E r Er. injection E as <-. replace (mb_start full + pd * Z.of_nat k + pd) with (mb_start full + pd * Z.of_nat (S k)) in * by lia.
  destruct (block_facts full p (mb_start full + pd * Z.of_nat k) (mb_start full + pd * Z.of_nat (S k)) R ltac:(nia) ltac:(lia) Ep) as (AB & l' & L' & F1 & F2 & F3 & F4 & F5 & F6). rewrite (lasting_once _ _ _ L' L) in *. clear l' L'.
  assert (D : mb_start full + pd * Z.of_nat (S k) - (mb_start full + pd * Z.of_nat k) = pd) by lia.
  assert (K' : pd * Z.of_nat (S k) <= mb_dur full).
  { destruct (Z.le_gt_cases (pd * Z.of_nat (S k)) (mb_dur full)) as [|G]; [assumption|]. exfalso. destruct (F6 (mb_start full + mb_dur full) ltac:(lia)) as (i & j & x & y & (C1 & C2) & _). destruct L as (L1 & L2 & L3 & L4 & L5). pose proof (start_le l (S i) L3). lia. }
  destruct (IH (S k) r Er K') as (I1 & I2). split; [unfold zlen in *; cbn [length]; lia|]. intros [|i] out Hi; cbn [nth_error] in Hi.
  - injection Hi as <-. rewrite Nat.add_0_r. split; [exact F1|]. split; [exact F2|]. split; [exact F3|]. split; [lia|]. split; [exact F5|]. rewrite F3. intros t Ht. destruct (F6 t ltac:(lia)) as (i & j & x & y & C1 & C2 & C3 & C4 & C5). cbv zeta in *. rewrite (Z.max_l (mb_start full + pd * Z.of_nat k) (mb_start full)) in * by nia.
    exists i, j, x, y. split; [exact C1|]. split; [exact C2|]. split; [exact C3|]. split; [exact C4|]. destruct C5 as (C5 & C6 & C7). replace (mb_start full + pd * Z.of_nat (S k)) with (mb_start full + pd * Z.of_nat k + pd) in * by lia.
    split; [lia|]. split; [lia|]. rewrite C5, C6. destruct (ms_data x); cbn [cut_down] in *; tauto.
  - replace (k + S i)%nat with (S k + i)%nat by lia. now apply I2.
Qed.
(* Every partition is a block of the length asked for, its sub-blocks last as long as a block's must, and at every time the partition which has
   that time has the sub-block of the full block which has it, cut down to the time of the partition. *)
Theorem C70_partition : forall pd (full : block) outs, in_range full -> 0 <= pd < 2^32 -> partition_aligned pd full = Ok outs ->
  (mb_dur full = 0 /\ outs = []) \/
  (mb_dur full = pd * zlen outs /\ exists l, lasting full l /\ forall k out, nth_error outs k = Some out -> partition_of pd full l k out).
Proof.
  intros pd full outs R P E. unfold partition_aligned in E. rb E stop Es. apply add64_ok in Es. subst stop. pose proof R as (R1 & _). unfold u32P in R1.
  destruct (Z.eq_dec (mb_dur full) 0) as [D|D]; [left; split; [exact D|]; rewrite D in E; cbn [Z.to_nat aligned] in E; rewrite Z.add_0_r, Z.ltb_irrefl in E; now injection E as <-|]. right.
  assert (S : exists l, lasting full l). { cbn [aligned] in E. replace (mb_start full <? mb_start full + mb_dur full) with true in E by lia. rb E u Eu. rb E p Ep. unfold partition_block in Ep. destruct (_ >=? _); [discriminate|]. pose proof (sched_lasting full R) as S. destruct (meta_sched full) as [s| | | |]; cbn [rbind] in Ep; try discriminate. destruct S as (l & _ & L). now exists l. }
  destruct S as (l & L). assert (E0 : aligned (Datatypes.S (Z.to_nat (mb_dur full))) pd full (mb_start full + mb_dur full) (mb_start full + pd * Z.of_nat 0) = Ok outs) by (rewrite Z.mul_0_r, Z.add_0_r; exact E).
  destruct (aligned_facts full pd l R P L _ 0 outs E0 ltac:(lia)) as (A1 & A2). split; [rewrite A1; lia|]. exists l. split; [exact L|]. exact A2.
Qed.

(* ----- the values of a linear animation ----- *)
Lemma s32_id : forall n, 0 <= n < 2^31 -> s32 n = n.
Proof. intros n N. unfold s32, sN. cbv zeta. change (2^31) with 2147483648 in N. change (2^32) with 4294967296. change (2^(32-1)) with 2147483648. rewrite Z.mod_small by lia. destruct (n <? 2147483648) eqn:E; lia. Qed.
(* Where it is cut the animation has the value which is in proportion to the time, up to a step of Q7.8 and a little; exactly, at its own ends *)
Theorem C70_ramp : forall v w start stop t, - 2^15 <= v < 2^15 -> - 2^15 <= w < 2^15 -> start <= t <= stop -> 0 < stop - start <= 2^24 ->
  (forall r, ramp_at v w start stop t = Ok r -> - 2^15 <= r < 2^15 /\
     (Rabs (IZR r / 256 - (IZR v + (IZR w - IZR v) * (IZR (t - start) / IZR (stop - start))) / 256) < 1 / 256 + 1 / 16384)%R) /\
  (t = start -> ramp_at v w start stop t = Ok v) /\ (t = stop -> ramp_at v w start stop t = Ok w) /\
  (-32767 <= v <= 32766 -> -32767 <= w <= 32766 -> exists r, ramp_at v w start stop t = Ok r).
Proof.
  intros v w start stop t Hv Hw Ht Hl. unfold ramp_at. change (2^24) with 16777216 in Hl. assert (A : 0 <= t - start < 2^31) by (change (2^31) with 2147483648; lia). assert (B : 0 <= stop - start < 2^31) by (change (2^31) with 2147483648; lia).
  rewrite (s32_id _ A), (s32_id _ B). destruct (ramp_near (t - start) (stop - start) v w ltac:(lia) ltac:(change (2^24) with 16777216; lia) Hv Hw) as (R1 & R2). unfold on_line in R2. set (x := float_linear _ _ _ _) in *. change (bpow radix2 (-14)) with (/ 16384)%R in R2. set (line := ((IZR v + _) / 256)%R) in *.
  destruct (C45_q7_8_in_range_partial x) as (I1 & I2). apply Rabs_le_inv in R2.
  assert (V : forall z, - 2^15 <= z < 2^15 -> (-128 <= IZR z / 256 <= 128 - 1 / 256)%R). { intros z Hz. change (2^15) with 32768 in Hz. change (Z.opp 32768) with (-32768) in Hz. assert (IZR (-32768) <= IZR z <= IZR 32767)%R by (split; apply IZR_le; lia). lra. }
  split; [|split; [|split]].
  - intros r E. destruct (Rlt_dec (B2R x) (-128)) as [N|N]; [rewrite I2 in E by (intros (_ & N1); lra); discriminate|]. destruct (Rlt_dec (128 - 1 / 256) (B2R x)) as [N'|N']; [rewrite I2 in E by (intros (_ & N1); lra); discriminate|].
    destruct I1 as (r' & E1 & E2 & E3 & _); [split; [exact R1 | lra]|]. rewrite E1 in E. injection E as <-. split; [exact E2|]. apply Rabs_def2 in E3. apply Rabs_def1; lra.
  - intros ->. subst x. destruct (ramp_ends (start - start) (stop - start) v w Hl Hv Hw ltac:(left; lia)) as (E1 & E2). set (x := float_linear _ _ _ _) in *. replace (start - start =? 0) with true in E2 by lia.
    destruct (q78_accept x E1) as (E3 & _); [rewrite E2; specialize (V v Hv); lra|]. rewrite E3, E2. f_equal. replace (IZR v / 256 * 256)%R with (IZR v) by lra. apply Ztrunc_IZR.
  - intros ->. subst x. destruct (ramp_ends (stop - start) (stop - start) v w Hl Hv Hw ltac:(right; lia)) as (E1 & E2). set (x := float_linear _ _ _ _) in *. replace (stop - start =? 0) with false in E2 by lia.
    destruct (q78_accept x E1) as (E3 & _); [rewrite E2; specialize (V w Hw); lra|]. rewrite E3, E2. f_equal. replace (IZR w / 256 * 256)%R with (IZR w) by lra. apply Ztrunc_IZR.
  - intros Cv Cw. destruct I1 as (r' & E1 & _); [|exists r'; exact E1]. split; [exact R1|].
    assert (T : (0 <= IZR (t - start) / IZR (stop - start) <= 1)%R). { assert (0 <= IZR (t - start) <= IZR (stop - start))%R by (split; apply IZR_le; lia). assert (0 < IZR (stop - start))%R by (apply IZR_lt; lia). split; [apply Rmult_le_pos; [lra | left; now apply Rinv_0_lt_compat]|]. apply Rmult_le_reg_r with (IZR (stop - start)); [assumption|]. unfold Rdiv. rewrite Rmult_assoc, Rinv_l by lra. lra. }
    subst line. set (tr := (IZR (t - start) / IZR (stop - start))%R) in *. assert (IZR (-32767) <= IZR v <= IZR 32766)%R by (split; apply IZR_le; lia). assert (IZR (-32767) <= IZR w <= IZR 32766)%R by (split; apply IZR_le; lia). assert (-32767 <= IZR v + (IZR w - IZR v) * tr <= 32766)%R by nra. lra.
Qed.

(* ----- every call returns ----- *)
Definition returns {V} (r : res V) : Prop := match r with Ok _ | Err _ => True | _ => False end.
Lemma returns_bind : forall {V W} (r : res V) (k : V -> res W), returns r -> (forall v, r = Ok v -> returns (k v)) -> returns (rbind r k).
Proof. intros V W [v|e| | |] k A B; cbn [rbind returns] in *; auto. Qed.
Lemma gain_returns : forall d start stop t, match d with DStep _ | DLinear _ _ => True | _ => False end -> returns (gain_at d start stop t).
Proof.
  intros d start stop t D. unfold gain_at, interpolate. destruct (_ || _); [exact I|]. assert (F : forall x, returns (float_to_q7_8 x)) by (intro; unfold float_to_q7_8; destruct (_ || _); exact I). destruct d; try contradiction; apply F.
Qed.
Lemma part_returns : forall (x : sdata X) start stop a b first, returns (part_data x start stop a b first).
Proof.
  intros. destruct x; cbn [part_data]; try exact I; try (destruct (_ : bool); exact I).
  - apply returns_bind; [now apply gain_returns | intros; exact I].
  - apply returns_bind; [now apply gain_returns|]. intros. apply returns_bind; [now apply gain_returns | intros; exact I].
Qed.
Lemma add64_in : forall x y, - 2^63 <= x + y < 2^63 -> add64 x y = Ok (x + y).
Proof. intros x y B. unfold add64. replace (_ && _) with true by lia. reflexivity. Qed.
Lemma cut2_returns : forall a b (ls : list sub) ds now first, Forall (fun d => 0 < d) ds -> - 2^63 <= now -> now + total ds < 2^63 -> returns (cut2 a b ls ds now first).
Proof.
  intros a b. induction ls as [|x ls IH]; intros ds now first P N T; cbn [cut2]; [exact I|]. destruct ds as [|d ds]; [exact I|]. inversion P as [|? ? P1 P2]; subst. pose proof (total_nonneg ds P2) as N2. change (total (d :: ds)) with (d + total ds) in T.
  rewrite add64_in by lia. cbn [rbind]. destruct (_ || _); [apply IH; auto; lia|]. cbv zeta. apply returns_bind; [apply part_returns|]. intros y _. destruct (_ >=? _); [exact I|]. apply returns_bind; [apply IH; auto; lia | intros; exact I].
Qed.
Lemma block_returns : forall (full : block) a b, in_range full -> mb_start full + mb_dur full < 2^63 -> returns (partition_block full a b).
Proof.
  intros full a b R T. unfold partition_block. destruct (_ >=? _); [exact I|]. pose proof (sched_lasting full R) as S. destruct (meta_sched full) as [s| | | |]; try exact I; try contradiction. cbn [rbind]. destruct S as (l & P & L1 & L2 & L3 & L4 & L5).
  change 0 with (Z.of_nat 0) at 1. rewrite (cut_cut2 s l P a b (mb_subs full) l 0 (mb_start full) true eq_refl (eq_sym L1)). apply returns_bind; [|intros; destruct (_ =? _); exact I]. apply cut2_returns; [exact L3 | apply R | lia].
Qed.
(* Nothing is undefined and nothing goes on for ever, whatever the block says, as long as its times are within 64 bits. *)
Theorem C70_returns : forall pd (full : block), in_range full -> 0 <= pd < 2^32 -> mb_start full + mb_dur full + pd <= 2^63 -> mb_start full + mb_dur full < 2^63 ->
  match partition_aligned pd full with Ok _ | Err _ => True | _ => False end.
Proof.
  intros pd full R P T T'. change (returns (partition_aligned pd full)). unfold partition_aligned. pose proof R as (R1 & _ & _ & _ & R5). unfold u32P in R1. rewrite add64_in by lia. cbn [rbind].
  assert (G : forall fuel t, mb_start full <= t -> mb_start full + mb_dur full - t < Z.of_nat fuel -> returns (aligned fuel pd full (mb_start full + mb_dur full) t)).
  { induction fuel as [|fuel IH]; intros t A B; cbn [aligned]; [replace (t <? _) with false by lia; exact I|]. destruct (_ <? _) eqn:C; [|exact I]. rewrite add64_in by lia. cbn [rbind]. apply returns_bind; [now apply block_returns|].
    intros p E. destruct (Z.eq_dec pd 0) as [-> | NZ]; [unfold partition_block in E; replace (t >=? t + 0) with true in E by lia; discriminate|]. apply returns_bind; [apply IH; lia | intros; exact I]. }
  apply G; lia.
Qed.

(* ----- what can be partitioned ----- *)
Lemma lasting_sched : forall (b : block) l, in_range b -> lasting b l -> exists s, meta_sched b = Ok s /\ partitioned_as s l.
Proof.
  intros b l (R1 & R2 & R3 & R4 & R5) (L1 & L2 & L3 & L4 & L5). unfold meta_sched. destruct L5 as [(C & L5) | (C & n & last & L5 & L6)].
  - rewrite C. cbn [Z.eqb negb]. assert (F : Forall u32P (map ms_dur (mb_subs b))) by (rewrite Forall_map; exact R3). rewrite <- L5 in F |- *.
    pose proof (C22_variable l F ltac:(change (2^32) with 4294967296; lia)) as V. destruct (create_var l) as [s|e| | |]; try contradiction.
    + cbn [rbind]. destruct V as (V1 & V2 & V3 & V4 & V5). replace (s_dur s =? mb_dur b) with true by lia. exists s. split; [reflexivity|]. exact (conj V1 (conj V2 (conj V3 (conj V4 V5)))).
    + exfalso. destruct V as (_ & [V | [V | [V | V]]]); [subst l; rewrite V in *; unfold zlen in L2; cbn [length] in L2; lia | lia | | unfold u32P in R1; lia]. rewrite Exists_exists in V. destruct V as (d & V1 & V2). rewrite Forall_forall in L3. specialize (L3 d V1). lia.
  - replace (mb_const b =? 0) with false by lia. cbn [negb]. pose proof (C22_constant _ _ R1 R2) as V.
    assert (TL : mb_dur b = mb_const b * Z.of_nat n + last) by (rewrite <- L4, L5, total_app, total_repeat; unfold total; cbn [fold_right]; lia).
    assert (PL : 0 < last) by (rewrite L5 in L3; apply Forall_app in L3; destruct L3 as (_ & L3); now inversion L3).
    assert (ZL : zlen l = Z.of_nat n + 1) by (rewrite L5; unfold zlen; rewrite app_length, repeat_length; cbn [length]; lia).
    destruct (create_const _ _) as [s|e| | |] eqn:E; try contradiction.
    + destruct V as (V1 & V2 & m & x & (P1 & P2 & P3 & P4 & P5) & V4). assert (TM : mb_dur b = mb_const b * Z.of_nat m + x) by (rewrite <- V1, <- P4, total_app, total_repeat; unfold total; cbn [fold_right]; lia).
      assert (m = n /\ x = last) as (-> & ->). { assert (Z.of_nat m = Z.of_nat n) by nia. split; [lia | nia]. } rewrite <- L5 in *. cbn [rbind]. replace (s_num s =? zlen (mb_subs b)) with true by (unfold zlen in *; lia). exists s. split; [reflexivity|]. exact (conj P1 (conj P2 (conj P3 (conj P4 P5)))).
    + exfalso. destruct V as (_ & [V | [V | V]]); [lia | lia | nia].
Qed.
(* sub-block [i] of a block whose partitions last [pd] *)
Definition can_be_cut (pd : Z) (l : list Z) (i : nat) (x : sdata X) : Prop :=
  match x with
  | SStep _ => True
  | SLinear v w => nth i l 0 <= 2^24 /\ -32767 <= s16 v <= 32766 /\ -32767 <= s16 w <= 32766   (* neither the least nor the greatest value *)
  | SBezier _ _ _ _ => exists k, pd * k <= start_of l i /\ start_of l (S i) <= pd * (k + 1)       (* within one partition *)
  | SDemix _ | SRecon _ => exists k, start_of l i = pd * k                                         (* begins with a partition *)
  | SNoAnim | SOther => False
  end.
Lemma s16_range : forall v, - 2^15 <= s16 v < 2^15.
Proof. intro v. unfold s16, sN. cbv zeta. change (2^16) with 65536. change (2^(16-1)) with 32768. change (2^15) with 32768. destruct (v mod 65536 <? 32768) eqn:E; lia. Qed.
Lemma gain_ramp : forall v w start stop t, start <= t <= stop -> gain_at (DLinear v w) start stop t = ramp_at v w start stop t.
Proof. intros v w start stop t T. unfold gain_at, interpolate, ramp_at. replace ((t <? start) || (t >? stop) || (start >? stop)) with false by lia. reflexivity. Qed.
Lemma part_ok : forall pd l i (x : sdata X) now k, 0 < pd -> can_be_cut pd l i x -> 0 < nth i l 0 -> start_of l (S i) = start_of l i + nth i l 0 ->
  let start := now + start_of l i in let stop := now + start_of l (S i) in let a := now + pd * k in let b := now + pd * (k + 1) in
  start < b -> a < stop -> exists y, part_data x start stop (Z.max a start) (Z.min b stop) (start <=? a) = Ok y.
Proof.
  intros pd l i x now k PD C P S. cbv zeta. rewrite S. set (n := nth i l 0) in *. set (z := start_of l i) in *. intros A B. destruct x; cbn [part_data can_be_cut] in *; try contradiction.
  - unfold gain_at, interpolate. replace ((_ <? _) || _ || _) with false by lia. cbn [rbind]. destruct (C45_q7_8_round_trip (s16 s) (s16_range s)) as (_ & _ & Q). rewrite Q. cbn [rbind]. eauto.
  - destruct C as (C1 & C2 & C3). rewrite !gain_ramp by lia.
    destruct (C70_ramp (s16 s) (s16 e) (now + z) (now + (z + n)) (Z.max (now + pd * k) (now + z)) (s16_range s) (s16_range e) ltac:(lia) ltac:(lia)) as (_ & _ & _ & R1).
    destruct (C70_ramp (s16 s) (s16 e) (now + z) (now + (z + n)) (Z.min (now + pd * (k + 1)) (now + (z + n))) (s16_range s) (s16_range e) ltac:(lia) ltac:(lia)) as (_ & _ & _ & R2).
    destruct (R1 C2 C3) as (v & ->). destruct (R2 C2 C3) as (w & ->). cbn [rbind]. eauto.
  - destruct C as (k' & C1 & C2). rewrite S in C2. assert (k' = k) by nia. subst k'. replace (_ && _) with true by lia. eauto.
  - destruct C as (k' & C1). assert (k' <= k) by nia. replace (now + z <=? now + pd * k) with true by nia. eauto.
  - destruct C as (k' & C1). assert (k' <= k) by nia. replace (now + z <=? now + pd * k) with true by nia. eauto.
Qed.
Lemma cut2_ok : forall a b, a < b -> forall (ls : list sub) ds now first, length ls = length ds -> Forall (fun d => 0 < d < 2^32) ds -> - 2^63 <= now -> now + total ds < 2^63 ->
  (forall i x, nth_error ls i = Some x -> now + start_of ds i < b -> a < now + start_of ds (S i) ->
     exists y, part_data (ms_data x) (now + start_of ds i) (now + start_of ds (S i)) (Z.max a (now + start_of ds i)) (Z.min b (now + start_of ds (S i))) (first && (now + start_of ds i <=? Z.max a now)) = Ok y) ->
  exists r, cut2 a b ls ds now first = Ok r /\ total (map ms_dur r) = Z.max 0 (Z.min b (now + total ds) - Z.max a now).
Proof.
  intros a b AB. induction ls as [|x ls IH]; intros ds now first L P N T HP; cbn [cut2].
  { destruct ds; [|discriminate]. exists []. split; [reflexivity|]. unfold total; cbn [map fold_right]. lia. }
  destruct ds as [|d ds]; [discriminate|]. cbn [length] in L. apply Nat.succ_inj in L. inversion P as [|? ? P1 P2]; subst. assert (N2 : 0 <= total ds) by (apply total_nonneg; eapply Forall_impl; [|exact P2]; cbn; intros; lia). change (total (d :: ds)) with (d + total ds) in *.
  rewrite add64_in by lia. cbn [rbind].
  assert (HP' : forall f, f = (if now + d <=? a then first else false) -> now + d < b \/ now + d <= a -> forall i x, nth_error ls i = Some x -> now + d + start_of ds i < b -> a < now + d + start_of ds (S i) ->
     exists y, part_data (ms_data x) (now + d + start_of ds i) (now + d + start_of ds (S i)) (Z.max a (now + d + start_of ds i)) (Z.min b (now + d + start_of ds (S i))) (f && (now + d + start_of ds i <=? Z.max a (now + d))) = Ok y).
  { intros f Hf Hd i x' E1 E2 E3. destruct (HP (S i) x' E1) as (y & Y); [rewrite start_S; lia | rewrite start_S; lia|]. rewrite !start_S in Y. rewrite !Z.add_assoc in Y. exists y. rewrite <- Y. f_equal. subst f. destruct (now + d <=? a) eqn:E4.
    - f_equal. replace (Z.max a (now + d)) with (Z.max a now) by lia. reflexivity.
    - cbn [andb]. assert (0 <= start_of ds i) by (unfold start_of; apply total_nonneg; apply Forall_forall; intros q Hq; rewrite Forall_forall in P2; specialize (P2 q); rewrite <- (firstn_skipn i ds) in P2; specialize (P2 ltac:(apply in_app_iff; now left)); lia).
      replace (now + d + start_of ds i <=? Z.max a now) with false by lia. now rewrite andb_false_r. }
  destruct ((now + d <=? a) || (b <=? now)) eqn:B.
  - destruct (b <=? now) eqn:B2.
    + assert (G : forall ls ds now first, Forall (fun d => 0 < d < 2^32) ds -> b <= now -> - 2^63 <= now -> now + total ds < 2^63 -> cut2 a b (ls : list sub) ds now first = Ok []).
      { clear -AB. induction ls as [|x ls IH]; intros ds now first P A N T; cbn [cut2]; [reflexivity|]. destruct ds as [|d ds]; [reflexivity|]. inversion P as [|? ? P1 P2]; subst. change (total (d :: ds)) with (d + total ds) in T. assert (N2 : 0 <= total ds) by (apply total_nonneg; eapply Forall_impl; [|exact P2]; cbn; intros; lia).
        rewrite add64_in by lia. cbn [rbind]. replace (b <=? now) with true by lia. rewrite orb_true_r. apply IH; [exact P2 | lia | lia | lia]. }
      rewrite G by (try exact P2; lia). exists []. split; [reflexivity|]. unfold total at 1; cbn [map fold_right]. lia.
    + destruct (IH ds (now + d) first L P2 ltac:(lia) ltac:(lia)) as (r & R1 & R2); [apply HP'; [replace (now + d <=? a) with true by lia; reflexivity | lia]|]. exists r. split; [exact R1|]. rewrite R2. lia.
  - cbv zeta. destruct (HP O x eq_refl) as (y & Y); [unfold start_of; cbn [firstn]; unfold total; cbn [fold_right]; lia | rewrite start_S; unfold start_of; cbn [firstn]; unfold total; cbn [fold_right]; lia|]. rewrite start_S in Y. unfold start_of in Y; cbn [firstn] in Y. unfold total in Y; cbn [fold_right] in Y. rewrite !Z.add_0_r in Y.
    replace (now <=? Z.max a now) with true in Y by lia. rewrite andb_true_r in Y. rewrite Y. cbn [rbind].
    assert (U : u32 (Z.min b (now + d) - Z.max a now) = Z.min b (now + d) - Z.max a now) by (unfold u32; apply Z.mod_small; change (2^32) with 4294967296 in *; lia). rewrite U.
    destruct (now + d >=? b) eqn:G; [eexists; split; [reflexivity|]; unfold total at 1; cbn [map fold_right ms_dur]; lia|].
    destruct (IH ds (now + d) false L P2 ltac:(lia) ltac:(lia)) as (r & R1 & R2); [apply HP'; [replace (now + d <=? a) with false by lia; reflexivity | lia]|]. rewrite R1. cbn [rbind]. eexists. split; [reflexivity|].
    cbn [map ms_dur]. match goal with |- total (?q :: ?m) = _ => change (total (q :: m)) with (q + total m) end. rewrite R2. lia.
Qed.
Lemma start_next : forall l i, (i < length l)%nat -> start_of l (S i) = start_of l i + nth i l 0.
Proof.
  induction l as [|d l IH]; intros i I; cbn [length] in I; [lia|]. destruct i as [|i]; [unfold start_of; cbn [firstn nth]; unfold total; cbn [fold_right]; lia|]. rewrite !start_S, IH by lia. cbn [nth]. lia.
Qed.
(* A block whose length is a multiple of that of a partition and whose sub-blocks can be cut is partitioned. *)
Theorem C70_succeeds : forall pd (full : block) l n, in_range full -> 0 < pd < 2^32 -> lasting full l -> mb_dur full = pd * n -> mb_start full + mb_dur full < 2^63 ->
  (forall i x, nth_error (mb_subs full) i = Some x -> can_be_cut pd l i (ms_data x)) ->
  exists outs, partition_aligned pd full = Ok outs.
Proof.
  intros pd full l n R PD L D T HC. unfold partition_aligned. pose proof R as (R1 & _ & _ & _ & R5). unfold u32P in R1. rewrite add64_in by lia. cbn [rbind]. destruct (lasting_sched full l R L) as (s & S1 & S2). pose proof L as (L1 & L2 & L3 & L4 & L5).
  assert (PB : forall k, 0 <= k < n -> exists p, partition_block full (mb_start full + pd * k) (mb_start full + pd * (k + 1)) = Ok p).
  { intros k K. unfold partition_block. replace (_ >=? _) with false by lia. rewrite S1. cbn [rbind]. change 0 with (Z.of_nat 0) at 1. rewrite (cut_cut2 s l S2 _ _ (mb_subs full) l 0 (mb_start full) true eq_refl (eq_sym L1)).
    destruct (cut2_ok (mb_start full + pd * k) (mb_start full + pd * (k + 1)) ltac:(lia) (mb_subs full) l (mb_start full) true (eq_sym L1) (each_below l (2^32) L3 ltac:(lia)) (proj1 R5) ltac:(lia)) as (r & E1 & E2).
    - intros i x Hx A B. assert (I : (i < length l)%nat) by (rewrite L1; apply nth_error_Some; congruence). rewrite (Z.max_l _ (mb_start full)) by nia. cbn [andb]. apply (part_ok pd l i (ms_data x) (mb_start full) k); try assumption; [lia | now apply HC | | now apply start_next].
      rewrite Forall_forall in L3. apply L3. now apply nth_In.
    - rewrite E1. cbn [rbind]. rewrite fold_total, Z.add_0_l, E2. rewrite L4. replace (_ =? _) with true by nia. eauto. }
  assert (G : forall fuel k, 0 <= k <= n -> n - k <= Z.of_nat fuel -> exists outs, aligned fuel pd full (mb_start full + mb_dur full) (mb_start full + pd * k) = Ok outs).
  { induction fuel as [|fuel IH]; intros k K F; cbn [aligned]; [replace (_ <? _) with false by nia; eauto|]. destruct (_ <? _) eqn:C; [|eauto]. assert (K' : k < n) by nia. rewrite add64_in by nia. cbn [rbind]. replace (mb_start full + pd * k + pd) with (mb_start full + pd * (k + 1)) by lia.
    destruct (PB k ltac:(lia)) as (p & ->). cbn [rbind]. destruct (IH (k + 1) ltac:(lia) ltac:(lia)) as (r & ->). cbn [rbind]. eauto. }
  destruct (G (S (Z.to_nat (mb_dur full))) 0 ltac:(nia) ltac:(nia)) as (outs & E). rewrite Z.mul_0_r, Z.add_0_r in E. eauto.
Qed.
(* ----- all the metadata ----- *)
(* The blocks are those of each block of the metadata, in order, cut to the frame size of the first codec config's frames. *)
Theorem C70_metadata : forall profiles frames (l outs : list block), partition_metadata profiles frames l = Ok outs ->
  exists pd rest parts, frames = pd :: rest /\ Forall2 (fun full r => partition_aligned pd full = Ok r) l parts /\ outs = concat parts.
Proof.
  intros profiles frames l outs E. unfold partition_metadata in E. destruct profiles as [|p profiles]; [discriminate|]. destruct frames as [|n frames]; [discriminate|]. unfold partition_duration in E. destruct (_ || _); [|discriminate]. cbn [rbind] in E.
  assert (G : exists parts, Forall2 (fun full r => partition_aligned n full = Ok r) l parts /\ outs = concat parts).
  { revert outs E. induction l as [|b l IH]; intros outs E; cbn [partition_each] in E; [injection E as <-; exists []; split; [constructor | reflexivity]|]. rb E r Er. rb E r2 Er2. injection E as <-. destruct (IH r2 eq_refl) as (parts & P1 & ->). exists (r :: parts). split; [now constructor | reflexivity]. }
  destruct G as (parts & G1 & G2). exists n, frames, parts. auto.
Qed.
End Props.

(* ----- examples ----- *)
Definition ex_sub (n : Z) (d : sdata nat) : msub nat := mkMs n d.
Definition ex_block (n c : Z) (l : list (msub nat)) : mblock nat unit := mkMb 5 n c l 1000 tt.
(* a step of 5 ticks and a ramp from 1 dB to 2 dB of 11 ticks, cut to 8 ticks *)
Lemma ex_two : partition_aligned 8 (ex_block 16 0 [ex_sub 5 (SStep 9); ex_sub 11 (SLinear 256 512)]) =
  Ok [mkMb 5 8 5 [ex_sub 5 (SStep 9); ex_sub 3 (SLinear 256 325)] 1000 tt; mkMb 5 8 8 [ex_sub 8 (SLinear 325 512)] 1008 tt].
Proof. vm_compute. reflexivity. Qed.
Lemma ex_two_meets : in_range (ex_block 16 0 [ex_sub 5 (SStep 9); ex_sub 11 (SLinear 256 512)]) /\ lasting (ex_block 16 0 [ex_sub 5 (SStep 9); ex_sub 11 (SLinear 256 512)]) [5; 11] /\
  forall i x, nth_error [ex_sub 5 (SStep 9); ex_sub 11 (SLinear 256 512)] i = Some x -> can_be_cut 8 [5; 11] i (ms_data x).
Proof.
  assert (R : in_range (ex_block 16 0 [ex_sub 5 (SStep 9); ex_sub 11 (SLinear 256 512)])) by (unfold in_range, ex_block, ex_sub, u32P; cbn; repeat split; try lia; repeat constructor; cbn; lia).
  split; [exact R|]. split.
  - unfold lasting. split; [reflexivity|]. split; [unfold zlen; cbn [length ex_block mb_subs]; lia|]. split; [repeat (constructor; [lia|]); constructor|]. split; [reflexivity|]. left. split; reflexivity.
  - intros [|[|[|i]]] x E; cbn [nth_error] in E; try discriminate; injection E as <-; cbn [ms_data ex_sub can_be_cut]; [exact I|]. vm_compute. repeat split; discriminate.
Qed.
(* F70: a gain which does not change, -2046/256 dB: after the cut it changes.  The product of the float time and an inexact quotient is
   a little off the line and is then rounded towards zero *)
Lemma C70_flat_refuted : partition_aligned 1024 (ex_block 3072 3072 [ex_sub 3072 (SLinear (-2046) (-2046))]) =
  Ok [mkMb 5 1024 1024 [ex_sub 1024 (SLinear (-2046) (-2045))] 1000 tt; mkMb 5 1024 1024 [ex_sub 1024 (SLinear (-2045) (-2046))] 2024 tt; mkMb 5 1024 1024 [ex_sub 1024 (SLinear (-2046) (-2046))] 3048 tt].
Proof. vm_compute. reflexivity. Qed.
(* ... and at the greatest gain the block is refused (over nine frames; over eight it is not) *)
Lemma C70_greatest_refuted : partition_aligned 1024 (ex_block 9216 9216 [ex_sub 9216 (SLinear 32767 32767)]) = Err Unknown /\
  exists outs, partition_aligned 1024 (ex_block 8192 8192 [ex_sub 8192 (SLinear 32767 32767)]) = Ok outs.
Proof. split; [vm_compute; reflexivity|]. eexists. vm_compute. reflexivity. Qed.
(* a block which does not end with a frame is refused, also if it is the last one; so is one with an extension's data *)
Lemma C70_uneven_refuted : partition_aligned 8 (ex_block 20 20 [ex_sub 20 (SStep 9)]) = Err InvalidArgument.
Proof. vm_compute. reflexivity. Qed.
Lemma C70_extension_refuted : partition_aligned 8 (ex_block 8 8 [ex_sub 8 SOther]) = Err InvalidArgument.
Proof. vm_compute. reflexivity. Qed.
(* the end of a block must be a 64 bit time: the sum of its start and its duration is a signed addition which overflows (it is C++'s
   undefined behaviour); one tick before, the block is cut *)
Lemma C70_time_refuted : partition_aligned 8 (mkMb 5 8 8 [ex_sub 8 (SStep 9)] (2^63 - 8) tt) = UB /\
  partition_aligned 8 (mkMb 5 8 8 [ex_sub 8 (SStep 9)] (2^63 - 9) tt) = Ok [mkMb 5 8 8 [ex_sub 8 (SStep 9)] (2^63 - 9) tt].
Proof. split; vm_compute; reflexivity. Qed.
(* a Bezier curve and demixing data *)
Lemma ex_kept : partition_aligned 8 (ex_block 16 0 [ex_sub 8 (SBezier 0 512 256 128); ex_sub 8 (SDemix 7%nat)]) =
  Ok [mkMb 5 8 8 [ex_sub 8 (SBezier 0 512 256 128)] 1000 tt; mkMb 5 8 8 [ex_sub 8 (SDemix 7%nat)] 1008 tt].
Proof. vm_compute. reflexivity. Qed.
Lemma C70_bezier_cut_refuted : partition_aligned 8 (ex_block 16 16 [ex_sub 16 (SBezier 0 512 256 128)]) = Err InvalidArgument.
Proof. vm_compute. reflexivity. Qed.
