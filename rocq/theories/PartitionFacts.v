(* Facts about the partitioner of parameter blocks (Partition.v). *)
From Verif Require Import Base WriteBuf ReadBuf Leb BufSpec LebSpec CodecConfig ObuHeader ObuHeaderFacts FrameFacts PropsObu Params MixGain Pcm DoubleEnv PropsParams PropsGain PropsFixed Partition.
Open Scope Z_scope.
Ltac rb H x E := match type of H with rbind ?r _ = Ok _ => destruct r as [x| | | |] eqn:E; cbn [rbind] in H; try discriminate H end.

(* ---- specification ---- *)
(* [l]: how long the sub-blocks of a block last.  Without a constant duration each has its own; with one they all last that long, the last
   one perhaps less. *)
Definition lasting {X H} (b : mblock X H) (l : list Z) : Prop :=
  length l = length (mb_subs b) /\ 1 <= zlen l <= 192000 /\ Forall (fun d => 0 < d) l /\ total l = mb_dur b /\
  ((mb_const b = 0 /\ l = map ms_dur (mb_subs b)) \/ (0 < mb_const b <= mb_dur b /\ exists n last, l = repeat (mb_const b) n ++ [last] /\ last <= mb_const b)).
(* The value at time [t] of a linear animation of Q7.8 gains, as the code computes it with floats and rounds it to Q7.8: a function of the
   animation, its times and [t] *)
Definition ramp_at (v w start stop t : Z) : res Z := float_to_q7_8 (float_linear (s32 (t - start)) (s32 (stop - start)) v w).
(* [y] is what is left of the data [x] of a sub-block from [start] to [stop] when it is cut down to the time from [a] to [b];
   [first]: it is the first sub-block of its block *)
Definition cut_down {X} (x y : sdata X) (start stop a b : Z) (first : Prop) : Prop :=
  match x with
  | SStep v => y = SStep (s16 v)
  | SLinear v w => exists v' w', y = SLinear v' w' /\ ramp_at (s16 v) (s16 w) start stop a = Ok v' /\ ramp_at (s16 v) (s16 w) start stop b = Ok w'
  | SBezier _ _ _ _ => y = x /\ a = start /\ b = stop
  | SDemix _ | SRecon _ => y = x /\ first
  | SNoAnim | SOther => False
  end.
(* the numbers of the messages are in the range of their types *)
Definition in_range {X H} (b : mblock X H) : Prop :=
  u32P (mb_dur b) /\ u32P (mb_const b) /\ Forall (fun x => u32P (ms_dur x)) (mb_subs b) /\ zlen (mb_subs b) < 2^31 /\ - 2^63 <= mb_start b < 2^63.

Section Facts.
Context {X H : Type}.
Notation block := (mblock X H).
Notation sub := (msub X).

Lemma last_split : forall (c d : Z) n m x y, repeat c n ++ [x] = repeat c m ++ [y] -> n = m /\ x = y.
Proof.
  intros c d n m x y E. apply app_inj_tail in E. destruct E as (E & ->). split; [|reflexivity]. apply (f_equal (@length Z)) in E. now rewrite !repeat_length in E.
Qed.
Lemma sched_lasting : forall (b : block), in_range b ->
  match meta_sched b with
  | Ok s => exists l, partitioned_as s l /\ lasting b l
  | Err e => e = InvalidArgument
  | _ => False
  end.
Proof.
  intros b (R1 & R2 & R3 & R4 & R5). unfold meta_sched, lasting. destruct (mb_const b =? 0) eqn:C; cbn [negb].
  - assert (F : Forall u32P (map ms_dur (mb_subs b))) by (rewrite Forall_map; exact R3). assert (L : zlen (map ms_dur (mb_subs b)) < 2^32) by (unfold zlen in *; rewrite map_length; change (2^32) with 4294967296; change (2^31) with 2147483648 in R4; lia).
    pose proof (C22_variable _ F L) as V. destruct (create_var _) as [s|e| | |]; cbn [rbind]; try contradiction; [|apply V]. destruct (Z.eqb_spec (s_dur s) (mb_dur b)) as [E|E]; [|reflexivity].
    destruct V as (V1 & V2 & V3 & V4 & V5). exists (map ms_dur (mb_subs b)). split; [exact (conj V1 (conj V2 (conj V3 (conj V4 V5))))|]. split; [apply map_length|]. split; [exact V2|]. split; [exact V3|]. split; [lia|]. left. split; [lia | reflexivity].
  - pose proof (C22_constant _ _ R1 R2) as V. destruct (create_const _ _) as [s|e| | |] eqn:E; cbn [rbind]; try contradiction; [|apply V]. destruct (Z.eqb_spec (s_num s) (zlen (mb_subs b))) as [N|N]; [|reflexivity].
    destruct V as (V1 & V2 & n & last & (P1 & P2 & P3 & P4 & P5) & V4). exists (repeat (mb_const b) n ++ [last]). split; [exact (conj P1 (conj P2 (conj P3 (conj P4 P5))))|].
    split; [unfold zlen in *; lia|]. split; [exact P2|]. split; [exact P3|]. split; [lia|]. right. split; [lia|]. exists n, last. split; [reflexivity | lia].
Qed.

(* the loop, over the list of durations *)
Fixpoint cut2 (a b : Z) (l : list sub) (ds : list Z) (now : Z) (first : bool) : res (list sub) :=
  match l, ds with
  | x :: t, d :: ds' =>
      rbind (add64 now d) (fun stop =>
      if (stop <=? a) || (b <=? now) then cut2 a b t ds' stop first
      else
        let a' := Z.max a now in let b' := Z.min b stop in
        rbind (part_data (ms_data x) now stop a' b' first) (fun y =>
        let out := mkMs (u32 (b' - a')) y in
        if stop >=? b then Ok [out] else rbind (cut2 a b t ds' stop false) (fun r => Ok (out :: r))))
  | _, _ => Ok []
  end.
Lemma skip_next : forall {V} k (l : list V) d ds, d :: ds = skipn k l -> skipn (S k) l = ds.
Proof. intros V. induction k as [|k IH]; intros [|x l] d ds E; cbn [skipn] in *; try discriminate; [now injection E as _ <- | apply (IH l d ds E)]. Qed.
Lemma cut_cut2 : forall s l, partitioned_as s l -> forall a b ls ds k now first, ds = skipn k l -> length ls = length ds ->
  cut s a b ls (Z.of_nat k) now first = cut2 a b ls ds now first.
Proof.
  intros s l (P1 & P2 & P3 & P4 & P5) a b. induction ls as [|x ls IH]; intros ds k now first E L; cbn [cut cut2]; [reflexivity|]. destruct ds as [|d ds]; [discriminate|].
  assert (K : (k < length l)%nat) by (destruct (Nat.lt_ge_cases k (length l)); [assumption | rewrite skipn_all2 in E by assumption; discriminate]).
  assert (D : nth k l 0 = d). { rewrite <- (firstn_skipn k l), <- E. rewrite app_nth2; rewrite firstn_length_le by lia; [|lia]. rewrite Nat.sub_diag. reflexivity. }
  assert (E' : ds = skipn (S k) l). { symmetry. now apply (skip_next k l d). }
  rewrite P5. replace ((0 <=? Z.of_nat k) && (Z.of_nat k <? zlen l)) with true by (unfold zlen; lia). cbn [rbind]. rewrite Nat2Z.id, D. cbn [length] in L. apply Nat.succ_inj in L.
  replace (Z.of_nat k + 1) with (Z.of_nat (S k)) by lia.
  destruct (add64 now d) as [stop| | | |]; cbn [rbind]; try reflexivity. rewrite (IH ds (S k) stop first E' L), (IH ds (S k) stop false E' L). reflexivity.
Qed.
Lemma add64_ok : forall x y z, add64 x y = Ok z -> z = x + y.
Proof. intros x y z E. unfold add64 in E. destruct (_ && _); [injection E as <-; reflexivity | discriminate]. Qed.
Lemma fold_total : forall (l : list sub) n, fold_left (fun n x => n + ms_dur x) l n = n + total (map ms_dur l).
Proof. induction l as [|x l IH]; intros n; cbn [fold_left map]; [unfold total; cbn [fold_right]; lia|]. rewrite IH. unfold total; cbn [fold_right]. lia. Qed.
Lemma covers_0 : forall d l t, 0 <= t < d -> covers (d :: l) 0 t.
Proof. intros d l t T. split; [cbn [length]; lia|]. unfold start_of. cbn [firstn]. unfold total; cbn [fold_right]. lia. Qed.
Lemma start_S : forall d l i, start_of (d :: l) (S i) = d + start_of l i.
Proof. intros. unfold start_of. cbn [firstn]. reflexivity. Qed.
Lemma covers_S : forall d l i t, covers l i (t - d) -> covers (d :: l) (S i) t.
Proof. intros d l i t (C1 & C2). split; [cbn [length]; lia|]. rewrite !start_S. lia. Qed.
Lemma part_cut : forall (x : sdata X) start stop a b first y, - 2^63 <= start -> part_data x start stop a b first = Ok y -> cut_down x y start stop a b (first = true).
Proof.
  intros x start stop a b first y _ E. destruct x; cbn [part_data cut_down] in *; try discriminate.
  - unfold gain_at, interpolate in E. destruct (_ || _); [discriminate|]. cbn [rbind] in E. destruct (C45_q7_8_round_trip (s16 s)) as (_ & _ & Q); [unfold s16, sN; cbv zeta; change (2^16) with 65536; change (2^(16-1)) with 32768; change (2^15) with 32768; destruct (s mod 65536 <? 32768) eqn:E1; lia|].
    rewrite Q in E. cbn [rbind] in E. now injection E as <-.
  - unfold gain_at, interpolate in E. destruct ((a <? start) || _ || _); [discriminate|]. cbn [rbind] in E. rb E v Ev. destruct ((b <? start) || _ || _); [discriminate|]. cbn [rbind] in E. rb E w Ew. injection E as <-. exists v, w. auto.
  - destruct (Z.eqb_spec start a) as [<-|]; [|discriminate]. destruct (Z.eqb_spec stop b) as [<-|]; [|discriminate]. injection E as <-. auto.
  - destruct first; [|discriminate]. injection E as <-. auto.
  - destruct first; [|discriminate]. injection E as <-. auto.
Qed.
(* what the sub-blocks [r] of a partition from [a] to [b] are, at a time [t] *)
Definition pieces (a b now : Z) (ls : list sub) (ds : list Z) (r : list sub) (first : bool) (t : Z) : Prop :=
  exists i j x y, covers ds i (t - now) /\ covers (map ms_dur r) j (t - Z.max a now) /\ nth_error ls i = Some x /\ nth_error r j = Some y /\
    let start := now + start_of ds i in let stop := now + start_of ds (S i) in
    Z.max a now + start_of (map ms_dur r) j = Z.max a start /\ Z.max a now + start_of (map ms_dur r) (S j) = Z.min b stop /\
    cut_down (ms_data x) (ms_data y) start stop (Z.max a start) (Z.min b stop) (first = true /\ j = O).
Lemma cut2_facts : forall a b, a < b -> forall ls ds now first r, length ls = length ds -> Forall (fun d => 0 < d < 2^32) ds -> - 2^63 <= now ->
  cut2 a b ls ds now first = Ok r -> Forall (fun x => 0 < ms_dur x) r /\ (length r <= length ds)%nat /\
  (total (map ms_dur r) = b - Z.max a now -> forall t, Z.max a now <= t < b -> pieces a b now ls ds r first t).
Proof.
  intros a b AB. induction ls as [|x ls IH]; intros ds now first r L P N E.
  { destruct ds; [|discriminate]. injection E as <-. split; [constructor|]. split; [cbn; lia|]. unfold total; cbn [map fold_right]. intros T t Ht. lia. }
  destruct ds as [|d ds]; [discriminate|]. cbn [length] in L. apply Nat.succ_inj in L. inversion P as [|? ? P1 P2]; subst. cbn [cut2] in E. rb E stop Es. apply add64_ok in Es. subst stop.
  destruct ((now + d <=? a) || (b <=? now)) eqn:B.
  - destruct (IH ds (now + d) first r L P2 ltac:(lia) E) as (I1 & I2 & I3). split; [exact I1|]. split; [cbn [length]; lia|]. intros T t Ht.
    destruct (b <=? now) eqn:B2; [lia|]. assert (now + d <= a) by lia. assert (M : Z.max a (now + d) = Z.max a now) by lia. rewrite <- M in T. destruct (I3 T t ltac:(lia)) as (i & j & x' & y & C1 & C2 & C3 & C4 & C5).
    exists (S i), j, x', y. cbv zeta in *. rewrite !start_S. rewrite M in *. split; [apply covers_S; replace (t - now - d) with (t - (now + d)) by lia; exact C1|]. split; [exact C2|]. split; [exact C3|]. split; [exact C4|].
    replace (now + (d + start_of ds i)) with (now + d + start_of ds i) by lia. change (start_of (d :: ds) (S (S i))) with (d + start_of ds (S i)). replace (now + (d + start_of ds (S i))) with (now + d + start_of ds (S i)) by lia. exact C5.
  - cbv zeta in E. rb E y Ey. assert (U : u32 (Z.min b (now + d) - Z.max a now) = Z.min b (now + d) - Z.max a now). { unfold u32. apply Z.mod_small. change (2^32) with 4294967296 in *. lia. } rewrite U in E.
    apply part_cut in Ey; [|exact N].
    assert (HD : forall r', r = mkMs (Z.min b (now + d) - Z.max a now) y :: r' -> forall t, Z.max a now <= t < Z.min b (now + d) -> pieces a b now (x :: ls) (d :: ds) r first t).
    { intros r' -> t Ht. exists O, O, x, (mkMs (Z.min b (now + d) - Z.max a now) y). cbn [map ms_dur ms_data nth_error]. split; [apply covers_0; lia|]. split; [apply covers_0; lia|]. split; [reflexivity|]. split; [reflexivity|]. cbv zeta. rewrite !start_S.
      unfold start_of; cbn [firstn]. unfold total; cbn [fold_right]. rewrite !Z.add_0_r. split; [reflexivity|]. split; [lia|].
      destruct (ms_data x); cbn [cut_down] in *; try exact Ey; destruct Ey as (-> & ->); auto. }
    destruct (now + d >=? b) eqn:G.
    + injection E as <-. split; [constructor; [cbn [ms_dur]; lia | constructor]|]. split; [cbn [length]; lia|]. intros _ t Ht. apply (HD [] eq_refl). lia.
    + rb E r' Er. injection E as <-. destruct (IH ds (now + d) false r' L P2 ltac:(lia) Er) as (I1 & I2 & I3). split; [constructor; [cbn [ms_dur]; lia | exact I1]|]. split; [cbn [length]; lia|].
      intros T t Ht. destruct (Z.lt_ge_cases t (now + d)) as [Lt|Ge]; [apply (HD r' eq_refl); lia|]. cbn [map ms_dur] in T. unfold total in T; cbn [fold_right] in T. fold (total (map ms_dur r')) in T.
      assert (M : Z.max a (now + d) = now + d) by lia. rewrite M in I3. destruct (I3 ltac:(lia) t ltac:(lia)) as (i & j & x' & y' & C1 & C2 & C3 & C4 & C5).
      exists (S i), (S j), x', y'. cbn [map ms_dur]. cbv zeta in *. rewrite M in *. rewrite !start_S.
      split; [apply covers_S; replace (t - now - d) with (t - (now + d)) by lia; exact C1|]. split; [apply covers_S; replace (t - Z.max a now - (Z.min b (now + d) - Z.max a now)) with (t - (now + d)) by lia; exact C2|]. split; [exact C3|]. split; [exact C4|].
      replace (now + (d + start_of ds i)) with (now + d + start_of ds i) by lia. replace (now + (d + start_of ds (S i))) with (now + d + start_of ds (S i)) by lia.
      destruct C5 as (C5 & C6 & C7). split; [lia|]. split; [lia|]. destruct (ms_data x'); cbn [cut_down] in *; try exact C7; destruct C7 as (_ & C7 & _); discriminate.
Qed.
End Facts.
