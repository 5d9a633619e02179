(* C25: which subblock determines the gain of a tick. *)
From Verif Require Import Base WriteBuf CodecConfig ObuHeader Params PropsParams MixGain.

(* ---- SPEC ---- *)
(* start of subblock i in a block with subblock durations l *)
Definition start_of (l : list Z) (i : nat) : Z := total (firstn i l).
Definition covers (l : list Z) (i : nat) (t : Z) : Prop := (i < length l)%nat /\ start_of l i <= t < start_of l (S i).
Definition is_gain_data (x : option pdata) : Prop :=
  match x with Some (DStep _) | Some (DLinear _ _) | Some (DBezier _ _ _ _) => True | _ => False end.
(* no Bezier curve is longer than 2^30 ticks *)
Definition short_curves (subs : list (option pdata)) (l : list Z) : Prop :=
  forall i s e c t, nth_error subs i = Some (Some (DBezier s e c t)) -> nth i l 0 <= 2^30.
Definition schedule_of (d : pdef) (b : pblock) : option sched :=
  match bl_sched b with Some s => Some s | None => pb_sched (pd_base d) end.

Lemma start_S l i : start_of l (S i) = start_of l i + nth i l 0.
Proof.
  unfold start_of. revert i. induction l as [|x l IH]; intro i; [rewrite !firstn_nil; destruct i; reflexivity|]. destruct i as [|i].
  - cbn [firstn nth]. unfold total. cbn [fold_right]. lia.
  - rewrite !firstn_cons. cbn [nth]. unfold total in *. cbn [fold_right]. rewrite IH. lia.
Qed.
Lemma start_all l n : (length l <= n)%nat -> start_of l n = total l.
Proof. intro H. unfold start_of. rewrite firstn_all2 by exact H. reflexivity. Qed.

Lemma advance_spec dur l : (forall i, (i < length l)%nat -> dur (Z.of_nat i) = Ok (nth i l 0)) -> Forall (fun d => 0 < d) l ->
  forall fuel t i, (i < length l)%nat -> (length l <= fuel + i)%nat -> start_of l i <= t ->
  (exists j, covers l j t /\ advance fuel dur (zlen l) t (Z.of_nat i) (start_of l i) (start_of l (S i)) = Ok (Some (Z.of_nat j, start_of l j, start_of l (S j)))) \/
  (total l <= t /\ advance fuel dur (zlen l) t (Z.of_nat i) (start_of l i) (start_of l (S i)) = Ok None).
Proof.
  intros D P. induction fuel as [|fuel IH]; intros t i Hi Hf Ht; [lia|]. cbn [advance]. destruct (t >=? start_of l (S i)) eqn:C.
  - destruct (Z.of_nat i + 1 >=? zlen l) eqn:N.
    + right. split; [|reflexivity]. rewrite start_all in C by (unfold zlen in N; lia). lia.
    + unfold zlen in N. replace (Z.of_nat i + 1) with (Z.of_nat (S i)) by lia. rewrite D by lia. cbn [rbind]. rewrite <- start_S. apply IH; lia.
  - left. exists i. split; [|reflexivity]. unfold covers. lia.
Qed.
Lemma covers_unique l i j t : Forall (fun d => 0 < d) l -> covers l i t -> covers l j t -> i = j.
Proof.
  intros P. assert (forall a b, (a < b)%nat -> start_of l (S a) <= start_of l b) as M.
  { intros a b H. induction b as [|b IH]; [lia|]. destruct (Nat.eq_dec a b) as [->|]; [lia|]. specialize (IH ltac:(lia)). rewrite (start_S l b).
    assert (0 <= nth b l 0). { destruct (Nat.lt_ge_cases b (length l)) as [L|L]; [|rewrite nth_overflow by exact L; lia]. rewrite Forall_forall in P. specialize (P _ (nth_In l 0 L)). lia. } lia. }
  intros [A1 A2] [B1 B2]. destruct (Nat.lt_trichotomy i j) as [H|[H|H]]; [|exact H|]; specialize (M _ _ H); lia.
Qed.

Section Gains.
Variable F : Type.
Variable step : Z -> F.
Variable linear : Z -> Z -> Z -> Z -> F.
Variable bezier : Z -> Z -> Z -> Z -> Z -> Z -> F.
Variable to_linear : F -> F.
Notation run := (linear_mix_gains F step linear bezier to_linear).
(* the gain of tick t of a subblock that occupies [start, stop): relative time t - start, length stop - start *)
Definition tick_gain (x : option pdata) (start stop t : Z) : option F :=
  match x with
  | Some (DStep s) => Some (to_linear (step s))
  | Some (DLinear s e) => Some (to_linear (linear (t - start) (stop - start) s e))
  | Some (DBezier s e c r) => Some (to_linear (bezier (t - start) (stop - start) s c e r))
  | _ => None
  end.

Lemma s32_small z : 0 <= z < 2^31 -> s32 z = z.
Proof. intro H. unfold s32, sN. change (2^(32-1)) with 2147483648. change (2^32) with 4294967296. change (2^31) with 2147483648 in H. rewrite Z.mod_small by lia. replace (z <? 2147483648) with true by lia. reflexivity. Qed.

(* old: the gains from index t0 on; result: those below the total are computed, the others are unchanged *)
Lemma fill_spec dur l subs : (forall i, (i < length l)%nat -> dur (Z.of_nat i) = Ok (nth i l 0)) -> Forall (fun d => 0 < d) l -> total l < 2^31 ->
  length subs = length l -> Forall is_gain_data subs -> short_curves subs l ->
  forall old t0 i, (i < length l)%nat -> 0 <= start_of l i <= t0 ->
  exists new, fill F step linear bezier to_linear (length l) dur (zlen l) subs old t0 (Z.of_nat i) (start_of l i) (start_of l (S i)) = (Ok tt, new) /\
    length new = length old /\
    forall k, (k < length old)%nat ->
      (forall j, covers l j (t0 + Z.of_nat k) -> nth_error new k = tick_gain (nth j subs None) (start_of l j) (start_of l (S j)) (t0 + Z.of_nat k)) /\
      (total l <= t0 + Z.of_nat k -> nth_error new k = nth_error old k).
Proof.
  intros D P T L G Sh. induction old as [|x old IH]; intros t0 i Hi Ht.
  - exists []. split; [reflexivity|]. split; [reflexivity|]. intros k Hk. cbn [length] in Hk. lia.
  - cbn [fill]. assert (forall n, (n <= length l)%nat -> start_of l n <= total l /\ 0 <= start_of l n) as Bd.
    { intros n Hn. unfold start_of. pose proof P as P'. rewrite <- (firstn_skipn n l) in P'. apply Forall_app in P' as [P1 P2]. rewrite <- (firstn_skipn n l) at 2. rewrite total_app.
      assert (forall m, Forall (fun d => 0 < d) m -> 0 <= total m) as Q by (induction 1; unfold total in *; cbn [fold_right]; lia).
      pose proof (Q _ P1). pose proof (Q _ P2). lia. }
    destruct (advance_spec dur l D P (length l) t0 i Hi ltac:(lia) ltac:(lia)) as [(j & Cj & ->)|[Tt ->]].
    + rewrite Nat2Z.id. pose proof Cj as (Lj & Rj). rewrite (nth_error_nth' subs None) by lia. set (sub := nth j subs None) in *.
      assert (is_gain_data sub) as Gs by (rewrite Forall_forall in G; apply G; apply nth_In; lia).
      destruct sub as [dt|] eqn:Es; [|destruct Gs]. unfold interpolate. pose proof (Bd (S j) ltac:(lia)) as B1. pose proof (Bd j ltac:(lia)) as B0. change (2^31) with 2147483648 in *.
      replace ((t0 <? start_of l j) || (t0 >? start_of l (S j)) || (start_of l j >? start_of l (S j))) with false by lia. cbv zeta.
      rewrite !s32_small by (change (2^31) with 2147483648; lia).
      destruct (IH (t0 + 1) j Lj) as (new & E & Ln & Hn); [lia|].
      assert (exists y, tick_gain (Some dt) (start_of l j) (start_of l (S j)) t0 = Some y /\
         (let '(r, t') := fill F step linear bezier to_linear (length l) dur (zlen l) subs old (t0 + 1) (Z.of_nat j) (start_of l j) (start_of l (S j)) in (r, y :: t')) = (Ok tt, y :: new) /\
         match (match dt with DStep s => Ok (step s) | DLinear s e => Ok (linear (t0 - start_of l j) (start_of l (S j) - start_of l j) s e)
                | DBezier s e c t => if start_of l (S j) - start_of l j >? 2^30 then UB else Ok (bezier (t0 - start_of l j) (start_of l (S j) - start_of l j) s c e t) | _ => UB end) with Ok g => to_linear g = y | _ => False end) as (y & Y1 & Y2 & Y3).
      { rewrite E. destruct dt; try (destruct Gs); eexists; (split; [reflexivity|split; try reflexivity]). rewrite start_S. specialize (Sh j _ _ _ _ ltac:(rewrite (nth_error_nth' subs None) by lia; fold sub; rewrite Es; reflexivity)).
        replace (start_of l j + nth j l 0 - start_of l j >? 2^30) with false by lia. reflexivity. }
      exists (y :: new). split.
      { destruct dt; try (destruct Gs); cbn [is_gain_data] in *; try (rewrite <- Y3 in Y2 |- *; exact Y2). destruct (_ >? _); [destruct Y3|]. rewrite <- Y3 in Y2 |- *; exact Y2. }
      split; [cbn [length]; lia|]. intros k Hk. destruct k as [|k].
      * replace (t0 + Z.of_nat 0) with t0 by lia. split.
        -- intros j' Cj'. assert (j' = j) as -> by (eapply covers_unique; eassumption). cbn [nth_error]. fold sub. rewrite Es, Y1. reflexivity.
        -- intro Q. pose proof (Bd (S j) ltac:(lia)). lia.
      * cbn [length] in Hk. destruct (Hn k ltac:(lia)) as [H1 H2]. replace (t0 + Z.of_nat (S k)) with (t0 + 1 + Z.of_nat k) by lia. cbn [nth_error]. auto.
    + exists (x :: old). split; [reflexivity|]. split; [reflexivity|]. intros k Hk. split; [|reflexivity]. intros j (Lj & Rj). pose proof (Bd (S j) ltac:(lia)). lia.
Qed.

(* Mix gain block with a schedule produced by the library, one mix gain subblock per scheduled subblock, less than 2^31 ticks, Bezier curves
   of at most 2^30:
   the call succeeds, keeps the length of the vector, computes the gain of tick t from the subblock that covers t, with
   times relative to that subblock, and leaves the ticks after the end of the block alone. *)
Theorem C25_tick_gains_partial : forall d b s l old,
  pd_type (pd_kind d) = 0 -> schedule_of d b = Some s -> partitioned_as s l -> total l < 2^31 ->
  length (bl_subs b) = length l -> Forall is_gain_data (bl_subs b) -> short_curves (bl_subs b) l ->
  exists new, run d b old = (Ok tt, new) /\ length new = length old /\
  forall t, (t < length old)%nat ->
    (forall i, covers l i (Z.of_nat t) -> nth_error new t = tick_gain (nth i (bl_subs b) None) (start_of l i) (start_of l (S i)) (Z.of_nat t)) /\
    (total l <= Z.of_nat t -> nth_error new t = nth_error old t).
Proof.
  intros d b s l old Ty Sc Pt Tl Ls Gs Sh. unfold linear_mix_gains. rewrite Ty. change (negb (0 =? 0)) with false. cbn iota.
  destruct Pt as (Ln & Lr & Pos & Tot & Dur).
  assert (forall i, block_duration d b i = subblock_duration s i) as BD.
  { intro i. unfold block_duration, schedule_of in *. destruct (bl_sched b); [injection Sc as ->; reflexivity|]. rewrite Sc. reflexivity. }
  assert (block_num d b = zlen l) as BN.
  { unfold block_num, schedule_of, pb_num in *. destruct (bl_sched b); [injection Sc as ->; auto|]. rewrite Sc. auto. }
  rewrite BD, Dur, BN. replace ((0 <=? 0) && (0 <? zlen l)) with true by lia. cbn iota.
  unfold zlen at 1. rewrite Nat2Z.id. change (Z.to_nat 0) with 0%nat.
  assert (forall i, (i < length l)%nat -> block_duration d b (Z.of_nat i) = Ok (nth i l 0)) as D.
  { intros i Hi. rewrite BD, Dur. unfold zlen. replace ((0 <=? Z.of_nat i) && (Z.of_nat i <? Z.of_nat (length l))) with true by lia. rewrite Nat2Z.id. reflexivity. }
  destruct (fill_spec (block_duration d b) l (bl_subs b) D Pos Tl Ls Gs Sh old 0 0%nat) as (new & E & Lw & H); [unfold zlen in Lr; lia|unfold start_of; cbn [firstn]; unfold total; cbn [fold_right]; lia|].
  exists new. split; [|split; [exact Lw|exact H]]. rewrite <- E. f_equal. rewrite start_S. unfold start_of. cbn [firstn]. unfold total. cbn [fold_right]. lia.
Qed.
(* Any other kind of parameter block is refused, and the vector is left alone. *)
Theorem C25_other_types_refused : forall d b old, pd_type (pd_kind d) <> 0 -> run d b old = (Err InvalidArgument, old).
Proof. intros d b old H. unfold linear_mix_gains. replace (pd_type (pd_kind d) =? 0) with false by lia. reflexivity. Qed.
End Gains.

(* every tick inside the block is covered by exactly one subblock (uniqueness: covers_unique) *)
Theorem C25_every_tick_covered : forall l t, Forall (fun d => 0 < d) l -> 0 <= t < total l -> exists i, covers l i t /\ forall j, covers l j t -> j = i.
Proof.
  intros l t P Ht. destruct l as [|x l']; [unfold total in Ht; cbn [fold_right] in Ht; lia|]. set (l := x :: l') in *.
  destruct (advance_spec (fun i => Ok (nth (Z.to_nat i) l 0)) l) with (fuel := length l) (t := t) (i := 0%nat) as [(j & C & _)|[C _]].
  - intros i _. rewrite Nat2Z.id. reflexivity.
  - exact P.
  - unfold l. cbn [length]. lia.
  - lia.
  - unfold start_of. cbn [firstn]. unfold total. cbn [fold_right]. lia.
  - exists j. split; [exact C|]. intros k Ck. eapply covers_unique; eassumption.
  - lia.
Qed.

Example C25_ex :
  exists s, create_var [2; 1; 3] = Ok s /\
  let d := mkPD (mkPB 1 48000 0 (Some s)) (KMixGain 0) in
  let b := mkBlk 1 None [Some (DStep 10); Some (DLinear 1 2); Some (DStep 30)] in
  linear_mix_gains (Z * Z * Z) (fun s => (s, 0, 0)) (fun n n2 a b => (n, n2, a)) (fun _ _ _ _ _ _ => (0,0,0)) (fun x => x) d b (repeat (7,7,7) 8)
  = (Ok tt, [(10,0,0); (10,0,0); (0,1,1); (30,0,0); (30,0,0); (30,0,0); (7,7,7); (7,7,7)]).
Proof. eexists. split; [reflexivity|]. vm_compute. reflexivity. Qed.

(* Finding: the times are narrowed to int (obu_util.h:82-84).  A linear subblock of 2^31 ticks is evaluated with the length
   -2^31 already at its first tick. *)
Theorem C25_two_to_31_ticks_refuted : exists s, create_const (2^31) (2^31) = Ok s /\
  let d := mkPD (mkPB 1 48000 0 (Some s)) (KMixGain 0) in
  let b := mkBlk 1 None [Some (DLinear 256 0)] in
  fst (linear_mix_gains (Z * Z) (fun s => (s, s)) (fun n n2 _ _ => (n, n2)) (fun _ _ _ _ _ _ => (0,0)) (fun x => x) d b [(7, 7)]) = Ok tt /\
  snd (linear_mix_gains (Z * Z) (fun s => (s, s)) (fun n n2 _ _ => (n, n2)) (fun _ _ _ _ _ _ => (0,0)) (fun x => x) d b [(7, 7)]) = [(0, - 2^31)].
Proof. eexists. split; [vm_compute; reflexivity|]. split; vm_compute; reflexivity. Qed.
(* Finding: 2 * n_1 is an int (obu_util.h:106-107).  A Bezier curve of 2^31 - 1 ticks overflows it already at its first tick. *)
Theorem C25_long_curve_refuted : exists s, create_const (2^31 - 1) (2^31 - 1) = Ok s /\
  let d := mkPD (mkPB 1 48000 0 (Some s)) (KMixGain 0) in
  let b := mkBlk 1 None [Some (DBezier 256 0 0 255)] in
  fst (linear_mix_gains Z (fun s => s) (fun _ _ _ _ => 0) (fun _ _ _ _ _ _ => 0) (fun x => x) d b [7]) = UB.
Proof. eexists. split; [vm_compute; reflexivity|]. vm_compute. reflexivity. Qed.
