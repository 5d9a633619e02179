(* C22, C23, C24: subblock schedules, parameter definitions, Parameter Block OBUs. *)
From Verif Require Import Base WriteBuf ReadBuf Leb BufSpec LebSpec BitFacts WriteBufFacts ReadBufFacts LebFacts
  ParseFacts EndToEnd ObuHeader ObuHeaderFacts FrameFacts SeqFacts SimpleObus BndFacts CodecConfig PropsObu PropsCodec Params.

(* ---- specification of C22 ---- *)
Definition total (l : list Z) : Z := fold_right Z.add 0 l.
(* The schedule's subblock durations, as GetSubblockDuration reports them, are the list [l]: 1 to 192000 positive numbers
   that add up to GetDuration(); any index outside the list is refused. *)
Definition partitioned_as (s : sched) (l : list Z) : Prop :=
  zlen l = s_num s /\ 1 <= zlen l <= 192000 /\ Forall (fun d => 0 < d) l /\ total l = s_dur s /\
  forall i, subblock_duration s i = if (0 <=? i) && (i <? zlen l) then Ok (nth (Z.to_nat i) l 0) else Err InvalidArgument.

Lemma total_app l1 l2 : total (l1 ++ l2) = total l1 + total l2.
Proof. induction l1 as [|x l1 IH]; cbn [total fold_right app] in *; [reflexivity|]. unfold total in *. rewrite IH. lia. Qed.
Lemma total_repeat c n : total (repeat c n) = c * Z.of_nat n.
Proof. induction n as [|n IH]; cbn [repeat total fold_right]; [lia|]. unfold total in IH. rewrite IH. lia. Qed.

Lemma create_const_ok d c s : u32P d -> u32P c -> create_const d c = Ok s ->
  0 < c <= d /\ s_dur s = d /\ s_const s = c /\ s_list s = [] /\ 1 <= s_num s <= 192000 /\
  (s_num s - 1) * c < d <= s_num s * c.
Proof.
  unfold u32P, create_const, kMaxSub. change (2^32) with 4294967296. intros Hd Hc H.
  destruct (d =? 0) eqn:E1; [discriminate|]. destruct (c =? 0) eqn:E2; [discriminate|]. destruct (c >? d) eqn:E3; [discriminate|].
  apply rthen_ok in H as [V H]. injection H as <-. cbn [s_dur s_const s_num s_list]. apply vcond_ok in V.
  pose proof (Z.div_mod d c ltac:(lia)) as D. pose proof (Z.mod_pos_bound d c ltac:(lia)) as M.
  assert (0 <= d / c <= d) as Q. { split; [apply Z.div_pos; lia|]. apply Z.div_le_upper_bound; nia. }
  set (q := d / c) in *. set (m := d mod c) in *. clearbody q m.
  assert (q + 1 < 2^32 \/ m = 0) as B. { change (2^32) with 4294967296. destruct (Z.eq_dec m 0); [right; lia|left]. nia. }
  change (2^32) with 4294967296 in B. unfold u32 in *. change (2^32) with 4294967296 in *.
  destruct (m =? 0) eqn:Em; cbn [negb] in *; rewrite Z.mod_small in * by lia; repeat split; try lia; nia.
Qed.

Lemma nth_repeat_lt {A} (c d : A) n i : (i < n)%nat -> nth i (repeat c n) d = c.
Proof. revert i. induction n as [|n IH]; intros i H; [lia|]. destruct i; cbn [repeat nth]; [reflexivity|apply IH; lia]. Qed.

(* CreateWithConstantSubblockDuration *)
Theorem C22_constant : forall d c, u32P d -> u32P c ->
  match create_const d c with
  | Ok s => s_dur s = d /\ 0 < c <= d /\
            exists n last, partitioned_as s (repeat c n ++ [last]) /\ 0 < last <= c
  | Err e => e = InvalidArgument /\ (c = 0 \/ d < c \/ 192000 * c < d)
  | _ => False
  end.
Proof.
  intros d c Hd Hc. destruct (create_const d c) as [s|e| | |] eqn:E.
  - destruct (create_const_ok d c s Hd Hc E) as (P & Ed & Ec & El & Hn & Hb). unfold u32P in *. change (2^32) with 4294967296 in *.
    split; [exact Ed|]. split; [exact P|].
    exists (Z.to_nat (s_num s - 1)), (d - (s_num s - 1) * c). split; [|lia].
    assert (zlen (repeat c (Z.to_nat (s_num s - 1)) ++ [d - (s_num s - 1) * c]) = s_num s) as L.
    { unfold zlen. rewrite app_length, repeat_length. cbn [length]. lia. }
    split; [exact L|]. split; [lia|]. split.
    { apply Forall_app. split; [|constructor; [lia|constructor]]. apply Forall_forall. intros x Hx. apply repeat_spec in Hx as ->. lia. }
    split. { rewrite total_app, total_repeat. unfold total. cbn [fold_right]. rewrite Z2Nat.id by lia. rewrite Ed. ring. }
    intro i. rewrite L. unfold subblock_duration. destruct ((i <? 0) || (i >=? s_num s)) eqn:B.
    { replace ((0 <=? i) && (i <? s_num s)) with false by lia. reflexivity. }
    replace ((0 <=? i) && (i <? s_num s)) with true by lia. rewrite Ec, Ed. replace (c =? 0) with false by lia.
    destruct (i =? s_num s - 1) eqn:Ei.
    + rewrite app_nth2 by (rewrite repeat_length; lia). rewrite repeat_length. replace (Z.to_nat i - Z.to_nat (s_num s - 1))%nat with 0%nat by lia.
      cbn [nth]. f_equal. unfold u32. change (2^32) with 4294967296. rewrite (Z.mod_small (s_num s - 1)) by lia.
      rewrite (Z.mod_small ((s_num s - 1) * c)) by nia. rewrite Z.mod_small by nia. reflexivity.
    + rewrite app_nth1 by (rewrite repeat_length; lia). rewrite nth_repeat_lt by lia. reflexivity.
  - unfold create_const in E. unfold u32P in *. change (2^32) with 4294967296 in *.
    destruct (d =? 0) eqn:E1; [injection E as <-; split; [reflexivity|lia]|].
    destruct (c =? 0) eqn:E2; [injection E as <-; split; [reflexivity|lia]|].
    destruct (c >? d) eqn:E3; [injection E as <-; split; [reflexivity|lia]|].
    pose proof (Z.div_mod d c ltac:(lia)) as D. pose proof (Z.mod_pos_bound d c ltac:(lia)) as M.
    assert (1 <= d / c <= d) as Q. { split; [apply Z.div_le_lower_bound; lia|]. apply Z.div_le_upper_bound; nia. }
    set (q := d / c) in *. set (m := d mod c) in *. clearbody q m. unfold vrange, kMaxSub in E.
    assert (q + 1 < 4294967296 \/ m = 0) as B. { destruct (Z.eq_dec m 0); [right; lia|left]. nia. }
    unfold u32 in E. change (2^32) with 4294967296 in E.
    destruct (m =? 0) eqn:Em; cbn [negb] in *; rewrite Z.mod_small in E by lia;
      match type of E with context [vcond ?b] => destruct b eqn:V end; try discriminate; injection E as <-; (split; [reflexivity|nia]).
  - exfalso. revert E. unfold create_const. repeat (match goal with |- context [if ?b then _ else _] => destruct b end; try discriminate);
      cbv zeta; unfold vrange, vcond; destruct (_ && _); discriminate.
  - exfalso. revert E. unfold create_const. repeat (match goal with |- context [if ?b then _ else _] => destruct b end; try discriminate);
      cbv zeta; unfold vrange, vcond; destruct (_ && _); discriminate.
  - exfalso. revert E. unfold create_const. repeat (match goal with |- context [if ?b then _ else _] => destruct b end; try discriminate);
      cbv zeta; unfold vrange, vcond; destruct (_ && _); discriminate.
Qed.

Lemma sum_durations_spec l : Forall u32P l -> forall acc, 0 <= acc < 2^32 ->
  sum_durations l acc = if forallb (fun d => negb (d =? 0)) l && (acc + total l <? 2^32) then Ok (acc + total l) else Err InvalidArgument.
Proof.
  induction 1 as [|d l Hd Hl IH]; intros acc Ha.
  - cbn [sum_durations forallb total fold_right]. replace (acc + 0) with acc by lia. replace (acc <? 2^32) with true by lia. reflexivity.
  - cbn [sum_durations forallb]. change (total (d :: l)) with (d + total l). destruct (d =? 0) eqn:E; [reflexivity|]. cbn [negb andb].
    assert (0 <= total l) as N. { clear -Hl. induction Hl as [|x l Hx Hl IH]; [cbn; lia|]. change (total (x :: l)) with (x + total l). unfold u32P in Hx. lia. }
    unfold u32P in Hd. unfold add_u32_check. destruct (acc + d >? 2^32 - 1) eqn:O; cbn [rbind].
    + replace (acc + (d + total l) <? 2^32) with false by lia. rewrite andb_false_r. reflexivity.
    + rewrite IH by lia. replace (acc + d + total l) with (acc + (d + total l)) by lia. reflexivity.
Qed.

(* CreateWithVariableSubblockDuration; lists of fewer than 2^32 elements (longer ones need 16 GiB) *)
Theorem C22_variable : forall l, Forall u32P l -> zlen l < 2^32 ->
  match create_var l with
  | Ok s => partitioned_as s l
  | Err e => e = InvalidArgument /\ (l = [] \/ 192000 < zlen l \/ Exists (fun d => d = 0) l \/ 2^32 <= total l)
  | _ => False
  end.
Proof.
  intros l Hl Hz. unfold create_var. pose proof (zlen_nonneg l) as Z0. unfold u32. rewrite Z.mod_small by lia.
  unfold vrange, kMaxSub. destruct ((1 <=? zlen l) && (zlen l <=? 192000)) eqn:V; cbn [vcond rthen rbind].
  2:{ split; [reflexivity|]. destruct l; [left; reflexivity|]. right. left. unfold zlen in *. cbn [length] in *. lia. }
  replace (Z.to_nat (zlen l)) with (length l) by (unfold zlen; lia). rewrite firstn_all.
  rewrite sum_durations_spec by (assumption || (change (2^32) with 4294967296; lia)). change (0 + total l) with (total l).
  destruct (forallb _ l) eqn:F; cbn [andb].
  2:{ split; [reflexivity|]. right. right. left. clear -F. induction l as [|x l IH]; [discriminate|]. cbn [forallb] in F.
      destruct (x =? 0) eqn:E; [left; lia|right; apply IH; exact F]. }
  destruct (total l <? 2^32) eqn:T; cbn [rbind].
  2:{ split; [reflexivity|]. right. right. right. lia. }
  unfold partitioned_as. cbn [s_num s_dur]. split; [reflexivity|]. split; [lia|]. split.
  { rewrite Forall_forall in *. rewrite forallb_forall in F. intros x Hx. specialize (F x Hx). specialize (Hl x Hx). unfold u32P in Hl. lia. }
  split; [reflexivity|]. intro i. unfold subblock_duration. cbn [s_num s_const s_list].
  destruct ((i <? 0) || (i >=? zlen l)) eqn:B.
  { replace ((0 <=? i) && (i <? zlen l)) with false by lia. reflexivity. }
  replace ((0 <=? i) && (i <? zlen l)) with true by lia. change (0 =? 0) with true. cbn iota.
  rewrite (nth_error_nth' l 0) by (unfold zlen in *; lia). reflexivity.
Qed.

(* A schedule some factory produced. *)
Definition made (s : sched) : Prop :=
  (exists d c, u32P d /\ u32P c /\ create_const d c = Ok s) \/ (exists l, Forall u32P l /\ zlen l < 2^32 /\ create_var l = Ok s).

Theorem C22_made_partitions : forall s, made s -> exists l, partitioned_as s l.
Proof.
  intros s [(d & c & Hd & Hc & E)|(l & Hl & Hz & E)].
  - pose proof (C22_constant d c Hd Hc) as H. rewrite E in H. destruct H as (_ & _ & n & last & P & _). eauto.
  - pose proof (C22_variable l Hl Hz) as H. rewrite E in H. eauto.
Qed.

Lemma arun_ruleb_range c v c' : cok c -> arun ruleb c = (Ok v, c') -> u32P v /\ cok c' /\ c_bits c' = c_bits c.
Proof.
  intros Hc E. unfold ruleb in E. apply arun_bind_ok in E as ([x k] & c1 & E1 & E2). cbn [arun fst] in E2. injection E2 as <- <-.
  destruct (arun_uleb_ok _ _ _ _ Hc E1) as (l & r & _ & _ & _ & _ & _ & V & _ & B & K). auto.
Qed.
Lemma arun_rlist_inv {A} (p : rprog A) (P : A -> Prop) n :
  (forall c a c', cok c -> arun p c = (Ok a, c') -> P a) ->
  forall c l c', cok c -> arun (rlist n p) c = (Ok l, c') -> length l = n /\ Forall P l.
Proof.
  intro H. induction n as [|n IH]; intros c l c' Hc E; cbn [rlist] in E.
  - cbn [arun] in E. injection E as <- _. split; [reflexivity|constructor].
  - apply arun_bind_ok in E as (a & c1 & E1 & E). pose proof (arun_cok p c Hc) as Hc1. rewrite E1 in Hc1. cbn [snd] in Hc1.
    apply arun_bind_ok in E as (t & c2 & E2 & E). cbn [arun] in E. injection E as <- _.
    destruct (IH _ _ _ Hc1 E2) as [L F]. split; [cbn [length]; lia|constructor; [exact (H _ _ _ Hc E1)|exact F]].
Qed.

Lemma parse_schedule_made {A} (on : rprog A) c s l c' : cok c -> arun (parse_schedule on) c = (Ok (s, l), c') ->
  made s /\ zlen l = s_num s.
Proof.
  intros Hc E. unfold parse_schedule in E. apply arun_bind_ok in E as (d & c1 & E1 & E).
  destruct (arun_ruleb_range _ _ _ Hc E1) as (Hd & K1 & _). apply arun_bind_ok in E as (cs & c2 & E2 & E).
  destruct (arun_ruleb_range _ _ _ K1 E2) as (Hcs & K2 & _). destruct (negb (cs =? 0)) eqn:M.
  - apply arun_rres_ok in E as (s0 & Es & E). apply arun_bind_ok in E as (l0 & c3 & E3 & E). cbn [arun] in E. injection E as <- <- _.
    split; [left; eauto|]. destruct (arun_rlist_inv on (fun _ => True) _ (fun _ _ _ _ _ => I) _ _ _ K2 E3) as [L _].
    destruct (create_const_ok d cs s0 Hd Hcs Es) as (_ & _ & _ & _ & Hn & _). unfold zlen. lia.
  - apply arun_bind_ok in E as (n & c3 & E3 & E). destruct (arun_ruleb_range _ _ _ K2 E3) as (Hn & K3 & _).
    apply arun_rcheck_ok in E as (_ & E). apply arun_rcheck_ok in E as (Hr & E). apply arun_rcheck_ok in E as (_ & E).
    apply arun_bind_ok in E as (ps & c4 & E4 & E). apply arun_rres_ok in E as (s0 & Es & E). apply arun_rcheck_ok in E as (Hq & E).
    cbn [arun] in E. injection E as <- <- _.
    destruct (arun_rlist_inv (d <- ruleb ;; x <- on ;; RRet (d, x)) (fun p => u32P (fst p)) (Z.to_nat n)) with (2 := K3) (3 := E4) as [L F].
    { intros a x b Ha Ex. apply arun_bind_ok in Ex as (dd & b1 & X1 & Ex). apply arun_bind_ok in Ex as (xx & b2 & X2 & Ex).
      cbn [arun] in Ex. injection Ex as <- _. cbn [fst]. apply (arun_ruleb_range _ _ _ Ha X1). }
    unfold kMaxSub in Hr. assert (zlen (map fst ps) = n) as Ln by (unfold zlen; rewrite map_length; lia).
    split.
    + right. exists (map fst ps). split; [apply Forall_map; exact F|]. split; [rewrite Ln; change (2^32) with 4294967296; lia|exact Es].
    + unfold create_var in Es. rewrite Ln in Es. apply rthen_ok in Es as [_ Es].
      destruct (sum_durations _ _); try discriminate. injection Es as <-. cbn [s_num]. unfold zlen. rewrite map_length.
      unfold u32. rewrite Z.mod_small by (change (2^32) with 4294967296; lia). lia.
Qed.

(* Every schedule accepted from arbitrary bytes (alone or interleaved with parameter data read by [on]) partitions its duration,
   and there is one parameter datum per subblock. *)
Theorem C22_read : forall A (on : rprog A) src cap fuel p s l q,
  Forall byteP src -> (1 <= cap)%nat -> (8 <= fuel)%nat -> 0 <= p <= 8 * zlen src ->
  fst (crun fuel (read_at p (parse_schedule on)) (r_create cap src)) = Ok ((s, l), q) ->
  exists durations, partitioned_as s durations /\ length l = length durations.
Proof.
  intros A on src cap fuel p s l q Hs Hc Hf Hp E. rewrite crun_read_at in E by assumption.
  unfold at_result in E. destruct (arun _ _) as [[[s0 l0]|e| | |] d] eqn:R; try discriminate. injection E as -> -> _.
  apply parse_schedule_made in R as [M L]; [|unfold cok, zlen in *; cbn [c_pos c_bits]; rewrite bytes_bits_length; lia].
  destruct (C22_made_partitions s M) as [ds P]. exists ds. split; [exact P|]. destruct P as (P & _). unfold zlen in *. lia.
Qed.

(* ---- schedules: round trip ---- *)
Lemma rtb_list_map {N A B} (w : A -> wprog) (p : rprog B) (f : A -> B) l n :
  n = length l -> (forall x, In x l -> rtn N (w x) p (f x)) -> rtn N (flat_map w l) (rlist n p) (map f l).
Proof.
  intros -> H. induction l as [|x l IH]; [apply rtb_rt, rt_ret|]. cbn [flat_map rlist length map].
  eapply rtb_seq; [apply H; left; reflexivity|]. eapply rtb_last; [apply IH; intros y Hy; apply H; right; exact Hy|].
  apply rtb_rt, rt_ret.
Qed.
Lemma total_ge_length l : Forall (fun d => 0 < d) l -> zlen l <= total l.
Proof.
  induction 1 as [|x l Hx Hl IH]; [reflexivity|]. change (total (x :: l)) with (x + total l). unfold zlen in *. cbn [length]. lia.
Qed.
Lemma made_cases s : made s ->
  (u32P (s_dur s) /\ u32P (s_const s) /\ s_const s <> 0 /\ create_const (s_dur s) (s_const s) = Ok s /\ 1 <= s_num s <= 192000) \/
  (s_const s = 0 /\ Forall u32P (s_list s) /\ zlen (s_list s) = s_num s /\ create_var (s_list s) = Ok s /\
   1 <= s_num s <= 192000 /\ s_num s <= s_dur s < 2^32).
Proof.
  intros [(d & c & Hd & Hc & E)|(l & Hl & Hz & E)].
  - left. destruct (create_const_ok d c s Hd Hc E) as (P & Ed & Ec & El & Hn & _). rewrite Ed, Ec. repeat split; try assumption; lia || apply Hd || apply Hc.
  - right. pose proof (C22_variable l Hl Hz) as P. rewrite E in P. unfold create_var in E.
    assert (u32 (zlen l) = zlen l) as U by (unfold u32; apply Z.mod_small; pose proof (zlen_nonneg l); lia). rewrite U in E.
    apply rthen_ok in E as [V E]. replace (Z.to_nat (zlen l)) with (length l) in E by (unfold zlen; lia). rewrite firstn_all in E.
    rewrite sum_durations_spec in E by (assumption || (change (2^32) with 4294967296; lia)).
    destruct (forallb _ l && _) eqn:B; [|discriminate]. cbn [rbind] in E.
    assert (s = mkS (0 + total l) 0 (zlen l) l) as -> by congruence. cbn [s_const s_list s_num s_dur] in *.
    destruct P as (_ & P & Pos & _ & _). pose proof (total_ge_length l Pos).
    split; [reflexivity|]. split; [exact Hl|]. split; [reflexivity|]. split; [|split; lia].
    unfold create_var. rewrite U, V. cbn [rthen rbind]. replace (Z.to_nat (zlen l)) with (length l) by (unfold zlen; lia). rewrite firstn_all.
    rewrite sum_durations_spec by (assumption || (change (2^32) with 4294967296; lia)). rewrite B. reflexivity.
Qed.

Lemma map_fst_combine {A B} (l : list A) (r : list B) : length l = length r -> map fst (combine l r) = l.
Proof. revert r. induction l as [|x l IH]; intros [|y r] H; cbn in *; try lia; [reflexivity|]. rewrite IH by lia. reflexivity. Qed.
Lemma map_snd_combine {A B} (l : list A) (r : list B) : length l = length r -> map snd (combine l r) = r.
Proof. revert r. induction l as [|x l IH]; intros [|y r] H; cbn in *; try lia; [reflexivity|]. rewrite IH by lia. reflexivity. Qed.

Lemma rt_sched_data {N A B} g (wd : A -> wprog) (on : rprog B) (f : A -> B) s l : lebgen_wf g -> made s -> zlen l = s_num s ->
  (forall x, In x l -> rtn N (wd x) on (f x)) ->
  rtn N (write_sched g wd s (Some l)) (parse_schedule on) (s, map f l).
Proof.
  intros Hg M L H. unfold write_sched, parse_schedule. apply rtb_wcheck. intros _.
  destruct (made_cases s M) as [(Hd & Hc & Nz & E & Hn)|(Hc & Hl & Ll & E & Hn & Hd)].
  - eapply rtb_seq; [apply rtb_rt, rt_uleb; assumption|]. eapply rtb_seq; [apply rtb_rt, rt_uleb; assumption|].
    replace (negb (s_const s =? 0)) with true by lia. eapply rtb_rres; [exact E|].
    rewrite firstn_all2 by (unfold zlen in L; lia).
    eapply rtb_last; [apply rtb_list_map; [unfold zlen in L; lia|exact H]|]. apply rtb_ret_eq. reflexivity.
  - assert (u32P (s_dur s)) as Ud by (unfold u32P; lia). assert (u32P (s_num s)) as Un by (unfold u32P; change (2^32) with 4294967296; lia).
    eapply rtb_seq; [apply rtb_rt, rt_uleb; assumption|].
    eapply rtb_seq; [apply rtb_rt, rt_uleb; [exact Hg|rewrite Hc; split; [lia|reflexivity]]|].
    rewrite Hc. change (negb (0 =? 0)) with false. cbn iota.
    eapply rtb_seq; [apply rtb_rt, rt_uleb; assumption|]. apply rtb_rcheck; [lia|]. apply rtb_rcheck; [unfold kMaxSub; lia|]. apply rtb_rcheck; [lia|].
    assert (length (s_list s) = length l) as LL by (unfold zlen in *; lia).
    rewrite firstn_all2 by (rewrite combine_length; unfold zlen in *; lia).
    eapply rtb_last.
    { apply (rtb_list_map _ _ (fun p => (fst p, f (snd p)))); [rewrite combine_length; unfold zlen in *; lia|].
      intros [d x] Hx. cbn [fst snd]. pose proof (in_combine_l _ _ _ _ Hx) as I1. pose proof (in_combine_r _ _ _ _ Hx) as I2.
      eapply rtb_seq; [apply rtb_rt, rt_uleb; [exact Hg|]; rewrite Forall_forall in Hl; apply Hl; exact I1|].
      eapply rtb_last; [apply H; exact I2|]. apply rtb_ret_eq. reflexivity. }
    rewrite !map_map. cbn [fst snd]. change (fun x : Z * A => fst x) with (@fst Z A). rewrite map_fst_combine by exact LL.
    eapply rtb_rres; [exact E|]. apply rtb_rcheck; [lia|]. apply rtb_ret_eq. f_equal.
    rewrite <- (map_map snd f). rewrite map_snd_combine by exact LL. reflexivity.
Qed.

Lemma rt_schedule {N} g s : lebgen_wf g -> made s -> rtn N (write_sched (A:=unit) g (fun _ => []) s None) read_schedule s.
Proof.
  intros Hg M. unfold read_schedule.
  assert (rtn N (write_sched (A:=unit) g (fun _ => []) s (Some (repeat tt (Z.to_nat (s_num s))))) (parse_schedule (RRet tt))
     (s, map (fun x => x) (repeat tt (Z.to_nat (s_num s))))) as R.
  { assert (1 <= s_num s <= 192000) as Hn by (destruct (made_cases s M) as [(_ & _ & _ & _ & ?)|(_ & _ & _ & _ & ? & _)]; assumption).
    apply rt_sched_data; [exact Hg|exact M|unfold zlen; rewrite repeat_length; lia|]. intros [] _. apply rtb_ret_eq. reflexivity. }
  apply (rtb_last _ _ _ (s, map (fun x => x) (repeat tt (Z.to_nat (s_num s))))); [|apply rtb_ret_eq; reflexivity].
  intros bs E. apply R. revert E.
  assert (1 <= s_num s <= 192000 /\ (s_const s = 0 -> length (s_list s) = Z.to_nat (s_num s))) as (Hn & LL).
  { destruct (made_cases s M) as [(_ & _ & ? & _ & ?)|(_ & _ & ? & _ & ? & _)]; unfold zlen in *; split; lia. }
  unfold write_sched. replace (u32 (zlen (repeat tt (Z.to_nat (s_num s)))) =? s_num s) with true.
  2:{ unfold zlen, u32. rewrite repeat_length, Z2Nat.id by lia. rewrite Z.mod_small by (change (2^32) with 4294967296; lia). lia. }
  cbn [wcheck app]. destruct (negb (s_const s =? 0)) eqn:C.
  - rewrite firstn_all2 by (rewrite repeat_length; lia).
    assert (forall n, flat_map (fun _ : unit => @nil winstr) (repeat tt n) = []) as Z by (induction n; [reflexivity|assumption]).
    rewrite Z. auto.
  - assert (s_const s = 0) as C0 by lia. specialize (LL C0). rewrite (firstn_all2 (s_list s)) by lia.
    rewrite firstn_all2 by (rewrite combine_length, repeat_length; lia).
    assert (forall (l : list Z) , flat_map (fun p : Z * unit => wuleb g (fst p) ++ []) (combine l (repeat tt (length l))) = flat_map (wuleb g) l) as Z.
    { induction l as [|x l IH]; [reflexivity|]. cbn [length repeat combine flat_map fst]. rewrite IH, app_nil_r. reflexivity. }
    rewrite <- LL, Z. auto.
Qed.

Lemma write_sched_wf {A} g (wd : A -> wprog) s data : lebgen_wf g -> made s ->
  (forall l, data = Some l -> forall x, In x l -> Forall winstr_wf (wd x)) -> Forall winstr_wf (write_sched g wd s data).
Proof.
  intros Hg M Hw.
  assert (u32P (s_dur s) /\ u32P (s_const s) /\ u32P (s_num s) /\ (s_const s = 0 -> Forall u32P (s_list s))) as (Hd & Hc & Hn & Hl).
  { unfold u32P. change (2^32) with 4294967296.
    destruct (made_cases s M) as [(D & C & Z & _ & N)|(C & L & _ & _ & N & D)]; unfold u32P in *; change (2^32) with 4294967296 in *;
      (split; [lia|split; [lia|split; [lia|intro; first [exact L|contradiction]]]]). }
  unfold write_sched. wf_split; [|apply wuleb_wf; assumption|apply wuleb_wf; assumption|].
  - destruct data; [apply wcheck_wf|constructor].
  - destruct (negb (s_const s =? 0)) eqn:C.
    + destruct data as [l|]; [|constructor]. apply Forall_flat_map_wf. intros x Hx. apply (Hw l eq_refl).
      rewrite <- (firstn_skipn (Z.to_nat (s_num s)) l). apply in_or_app. left. exact Hx.
    + specialize (Hl ltac:(lia)). wf_split; [apply wuleb_wf; assumption|]. rewrite Forall_forall in Hl. destruct data as [l|].
      * apply Forall_flat_map_wf. intros [d x] Hx. cbn [fst snd].
        assert (In (d, x) (combine (s_list s) l)) as I. { rewrite <- (firstn_skipn (Z.to_nat (s_num s)) (combine _ _)). apply in_or_app. left. exact Hx. }
        wf_split; [apply wuleb_wf; [exact Hg|]; apply Hl; exact (in_combine_l _ _ _ _ I)|apply (Hw l eq_refl); exact (in_combine_r _ _ _ _ I)].
      * apply Forall_flat_map_wf. intros d Hx. apply wuleb_wf; [exact Hg|]. apply Hl.
        rewrite <- (firstn_skipn (Z.to_nat (s_num s)) (s_list s)). apply in_or_app. left. exact Hx.
Qed.

(* ---- C23: parameter definitions ---- *)
Definition s8P (v : Z) := -2^7 <= v < 2^7.
Definition pbase_wf (b : pbase) := u32P (pb_id b) /\ u32P (pb_rate b) /\ u8P (pb_reserved b) /\
  match pb_sched b with Some s => made s | None => True end.
Definition xyz (P : Z -> Prop) (x y z : Z) := P x /\ P y /\ P z.
Definition pkind_wf (k : pkind) : Prop :=
  match k with
  | KMixGain v => s16P v
  | KDemixing m r w r2 => u8P m /\ u8P r /\ u8P w /\ u8P r2
  | KRecon _ => True
  | KPolar a e d => s16P a /\ s8P e /\ u8P d
  | KCart8 x y z => xyz s8P x y z
  | KCart16 x y z => xyz s16P x y z
  | KDualPolar a e d a2 e2 d2 => (s16P a /\ s8P e /\ u8P d) /\ (s16P a2 /\ s8P e2 /\ u8P d2)
  | KDualCart8 x y z x2 y2 z2 => xyz s8P x y z /\ xyz s8P x2 y2 z2
  | KDualCart16 x y z x2 y2 z2 => xyz s16P x y z /\ xyz s16P x2 y2 z2
  | KExtended t b => u32P t /\ Forall byteP b
  end.
Definition pdef_wf (d : pdef) := pbase_wf (pd_base d) /\ pkind_wf (pd_kind d).
(* The object read into: same class; recon gain auxiliary data and extension type are not part of the bitstream. *)
Definition same_class (k0 k : pkind) : Prop :=
  match k0, k with
  | KMixGain _, KMixGain _ | KDemixing _ _ _ _, KDemixing _ _ _ _ | KPolar _ _ _, KPolar _ _ _ | KCart8 _ _ _, KCart8 _ _ _
  | KCart16 _ _ _, KCart16 _ _ _ | KDualPolar _ _ _ _ _ _, KDualPolar _ _ _ _ _ _ | KDualCart8 _ _ _ _ _ _, KDualCart8 _ _ _ _ _ _
  | KDualCart16 _ _ _ _ _ _, KDualCart16 _ _ _ _ _ _ => True
  | KRecon f, KRecon f' => f = f'
  | KExtended t _, KExtended t' _ => t = t'
  | _, _ => False
  end.
(* What comes back: polar angles are clipped to [-180,180] and [-90,90]; an extended definition has no common part. *)
Definition stored_kind (k : pkind) : pkind :=
  match k with
  | KPolar a e d => KPolar (clip3 a (-180) 180) (clip3 e (-90) 90) d
  | KDualPolar a e d a2 e2 d2 => KDualPolar (clip3 a (-180) 180) (clip3 e (-90) 90) d (clip3 a2 (-180) 180) (clip3 e2 (-90) 90) d2
  | _ => k
  end.
Definition is_extended (k : pkind) : bool := match k with KExtended _ _ => true | _ => false end.
Definition stored_pdef (d0 d : pdef) : pdef :=
  if is_extended (pd_kind d) then mkPD (pd_base d0) (pd_kind d) else mkPD (pd_base d) (stored_kind (pd_kind d)).

Ltac pw8 := unfold s8P in *; change (2^7) with 128 in *; pw.
Lemma clip3_idem v lo hi : lo <= hi -> clip3 (clip3 v lo hi) lo hi = clip3 v lo hi.
Proof. unfold clip3. intro H. destruct (v <? lo) eqn:A; [|destruct (hi <? v) eqn:B].
  - replace (lo <? lo) with false by lia. replace (hi <? lo) with false by lia. reflexivity.
  - replace (hi <? lo) with false by lia. replace (hi <? hi) with false by lia. reflexivity.
  - rewrite A, B. reflexivity. Qed.
Lemma rt_demix {N} m r : u8P m -> u8P r -> rtn N (write_demix m r) read_demix (m, r).
Proof.
  intros Hm Hr. unfold write_demix, read_demix. eapply rtb_seq; [lit|]. eapply rtb_seq; [lit|].
  rewrite <- (app_nil_r (wcheck _ _)). apply rtb_wcheck. intro K. apply rtb_rcheck; [exact K|]. apply rtb_ret_eq. reflexivity.
Qed.
Lemma rt_polar {N} a e d : s16P a -> s8P e -> u8P d ->
  rtn N (write_polar a e d) read_polar (clip3 a (-180) 180, clip3 e (-90) 90, d).
Proof.
  intros Ha He Hd. unfold write_polar, read_polar. eapply rtb_seq; [apply rtb_rt, rt_signed9|].
  eapply rtb_seq; [apply rtb_rt, rt_signed8|].
  { unfold clip3. change (2^7) with 128. destruct (e <? -90) eqn:A; [lia|destruct (90 <? e) eqn:B; lia]. }
  eapply rtb_last; [lit|]. apply rtb_ret_eq. rewrite !clip3_idem by lia. reflexivity.
Qed.
Lemma rt_xyz8 {N} x y z : xyz s8P x y z -> rtn N (write_xyz8 x y z) read_xyz8 (x, y, z).
Proof.
  intros (Hx & Hy & Hz). unfold write_xyz8, read_xyz8. do 2 (eapply rtb_seq; [apply rtb_rt, rt_signed8; assumption|]).
  eapply rtb_last; [apply rtb_rt, rt_signed8; assumption|]. apply rtb_ret_eq. reflexivity.
Qed.
Lemma rt_xyz16 {N} x y z : xyz s16P x y z -> rtn N (write_xyz16 x y z) read_xyz16 (x, y, z).
Proof.
  intros (Hx & Hy & Hz). unfold write_xyz16, read_xyz16. do 2 (eapply rtb_seq; [apply rtb_rt, rt_signed16; assumption|]).
  eapply rtb_last; [apply rtb_rt, rt_signed16; assumption|]. apply rtb_ret_eq. reflexivity.
Qed.
Lemma rt_kind {N} k0 k : pkind_wf k -> same_class k0 k -> is_extended k = false ->
  rtn N (write_kind k) (read_kind k0) (stored_kind k).
Proof.
  intros Hk Hs Hx. destruct k; destruct k0; cbn [same_class is_extended] in *; try contradiction; try discriminate;
    cbn [write_kind read_kind stored_kind pkind_wf] in *.
  - eapply rtb_last; [apply rtb_rt, rt_signed16; assumption|apply rtb_ret_eq; reflexivity].
  - destruct Hk as (? & ? & ? & ?). eapply rtb_seq; [apply rt_demix; assumption|]. eapply rtb_seq; [lit|]. eapply rtb_last; [lit|].
    apply rtb_ret_eq. reflexivity.
  - subst. apply rtb_ret_eq. reflexivity.
  - destruct Hk as (? & ? & ?). eapply rtb_last; [apply rt_polar; assumption|apply rtb_ret_eq; reflexivity].
  - eapply rtb_last; [apply rt_xyz8; assumption|apply rtb_ret_eq; reflexivity].
  - eapply rtb_last; [apply rt_xyz16; assumption|apply rtb_ret_eq; reflexivity].
  - destruct Hk as ((? & ? & ?) & (? & ? & ?)). eapply rtb_seq; [apply rt_polar; assumption|].
    eapply rtb_last; [apply rt_polar; assumption|apply rtb_ret_eq; reflexivity].
  - destruct Hk as [? ?]. eapply rtb_seq; [apply rt_xyz8; assumption|]. eapply rtb_last; [apply rt_xyz8; assumption|apply rtb_ret_eq; reflexivity].
  - destruct Hk as [? ?]. eapply rtb_seq; [apply rt_xyz16; assumption|]. eapply rtb_last; [apply rt_xyz16; assumption|apply rtb_ret_eq; reflexivity].
Qed.
Lemma rt_pbase {N} g ty b : lebgen_wf g -> pbase_wf b -> rtn N (write_pbase g ty b) (read_pbase ty) b.
Proof.
  intros Hg (H1 & H2 & H3 & H4). unfold write_pbase, read_pbase, mode0. apply rtb_wres. intro V.
  eapply rtb_seq; [apply rtb_rt, rt_uleb; assumption|]. eapply rtb_seq; [apply rtb_rt, rt_uleb; assumption|].
  destruct b as [id rate r [s|]]; cbn [pb_id pb_rate pb_reserved pb_sched] in *.
  - eapply rtb_seq; [lit|]. eapply rtb_seq; [lit|]. change (negb (0 =? 0)) with false. cbn iota.
    eapply rtb_last; [apply rt_schedule; assumption|]. eapply rtb_rres; [exact V|]. apply rtb_ret_eq. reflexivity.
  - eapply rtb_seq; [lit|]. eapply rtb_seq; [lit|]. change (negb (1 =? 0)) with true. cbn iota. apply rtb_ret_eq. reflexivity.
Qed.
Lemma rt_blob {N A} g b (k : list Z -> rprog A) a : lebgen_wf g -> Forall byteP b -> zlen b <= 2^21 -> rtn N [] (k b) a ->
  rtn N (wuleb g (u32 (zlen b)) ++ wspan b) (n <- ruleb ;; rcheck (negb (n >? 2^21)) InvalidArgument ;;; x <- rspan (Z.to_nat n) ;; k x) a.
Proof.
  intros Hg Hb Hl Hk. pose proof (zlen_nonneg b) as Z0. change (2^21) with 2097152 in *.
  assert (u32 (zlen b) = zlen b) as -> by (unfold u32; apply Z.mod_small; change (2^32) with 4294967296; lia).
  eapply rtb_seq; [apply rtb_rt, rt_uleb; [exact Hg|change (2^32) with 4294967296; lia]|].
  apply rtb_rcheck; [lia|]. eapply rtb_last; [apply rtb_rt, rt_span; [exact Hb|unfold zlen; lia]|exact Hk].
Qed.
Lemma rtb_blob_bound {A} (b : list Z) w (p : rprog A) a : (zlen b <= 2^21 -> rtb (w ++ wspan b) p a) -> rtb (w ++ wspan b) p a.
Proof.
  intros H bs E L. apply (H); [|exact E|exact L]. apply wbits_app_ok in E as (x & y & E1 & E2 & ->). apply wspan_ok in E2 as ->.
  rewrite zlen_app in L. pose proof (zlen_nonneg x). unfold zlen in *. rewrite bytes_bits_length in L.
  change (2^24) with 16777216 in L. change (2^21) with 2097152. lia.
Qed.
Lemma rt_pdef {N} g d0 d : lebgen_wf g -> pdef_wf d -> same_class (pd_kind d0) (pd_kind d) ->
  match pd_kind d with KExtended _ b => zlen b <= 2^21 | _ => True end ->
  rtn N (write_pdef g d) (read_pdef d0) (stored_pdef d0 d).
Proof.
  intros Hg [Hb Hk] Hc Hx. unfold write_pdef, read_pdef, stored_pdef. destruct (is_extended (pd_kind d)) eqn:X.
  - destruct d as [b k]. destruct k; try discriminate. cbn [pd_kind pd_base] in *. destruct d0 as [b0 k0]. cbn [pd_kind pd_base] in *.
    destruct k0; cbn [same_class] in Hc; try contradiction. subst. cbn [pkind_wf] in Hk. destruct Hk.
    apply rt_blob; try assumption. apply rtb_ret_eq. reflexivity.
  - assert (pd_type (pd_kind d0) = pd_type (pd_kind d)) as T.
    { destruct (pd_kind d0), (pd_kind d); cbn [same_class is_extended] in *; try contradiction; try discriminate; reflexivity. }
    pose proof (rt_kind (N:=N) _ _ Hk Hc X) as R. pose proof (rt_pbase (N:=N) g (pd_type (pd_kind d)) (pd_base d) Hg Hb) as Rb.
    assert (rtn N (write_pbase g (pd_type (pd_kind d)) (pd_base d) ++ write_kind (pd_kind d))
              (b <- read_pbase (pd_type (pd_kind d0)) ;; k' <- read_kind (pd_kind d0) ;; RRet (mkPD b k'))
              (mkPD (pd_base d) (stored_kind (pd_kind d)))) as G.
    { rewrite T. eapply rtb_seq; [exact Rb|]. eapply rtb_last; [exact R|]. apply rtb_ret_eq. reflexivity. }
    destruct (pd_kind d) eqn:Kd, (pd_kind d0) eqn:Kd0; cbn [same_class is_extended] in *; try contradiction; try discriminate; exact G.
Qed.
Lemma write_pbase_wf g ty b : lebgen_wf g -> pbase_wf b -> Forall winstr_wf (write_pbase g ty b).
Proof.
  intros Hg (H1 & H2 & H3 & H4). unfold write_pbase.
  wf_split; first [apply wres_wf|apply wuleb_wf; assumption|apply wlit_wf; destruct (mode0 b); pw|apply wlit_wf; pw|idtac].
  destruct (pb_sched b); [apply write_sched_wf; try assumption; discriminate|constructor].
Qed.
Ltac pos_wf := wf_split; first [apply wsigned9_wf|apply wsigned8_wf|apply wsigned16_wf|apply wlit_wf; pw].
Lemma write_demix_wf m r : u8P m -> u8P r -> Forall winstr_wf (write_demix m r).
Proof. intros. unfold write_demix. wf_split; [apply wlit_wf; pw|apply wlit_wf; pw|apply wcheck_wf]. Qed.
Lemma write_kind_wf k : pkind_wf k -> Forall winstr_wf (write_kind k).
Proof.
  intro Hk. destruct k; cbn [write_kind pkind_wf] in *; unfold write_polar, write_xyz8, write_xyz16, xyz in *; try (constructor; fail).
  - apply wsigned16_wf.
  - destruct Hk as (? & ? & ? & ?). wf_split; [apply write_demix_wf; assumption|apply wlit_wf; pw|apply wlit_wf; pw].
  - pos_wf. - pos_wf. - pos_wf. - pos_wf. - pos_wf. - pos_wf.
Qed.
Lemma write_pdef_wf g d : lebgen_wf g -> pdef_wf d -> Forall winstr_wf (write_pdef g d).
Proof.
  intros Hg [Hb Hk]. pose proof (write_kind_wf _ Hk) as W. unfold write_pdef.
  pose proof (fun ty => write_pbase_wf g ty _ Hg Hb) as B.
  destruct (pd_kind d); try (apply Forall_app; split; [apply B|exact W]).
  cbn [pkind_wf] in Hk. wf_split; [apply wuleb_wf; [exact Hg|apply u32_range]|apply wspan_wf; apply Hk].
Qed.

(* Every class of parameter definition, read into any object of the same class.  (An extension blob above 2 MiB cannot be part
   of an OBU and is refused by the reader.) *)
Theorem C23_param_definition_round_trip : forall g d0 d,
  lebgen_wf g -> pdef_wf d -> same_class (pd_kind d0) (pd_kind d) ->
  match pd_kind d with KExtended _ b => zlen b <= 2^21 | _ => True end ->
  reads_back (write_pdef g d) (read_pdef d0) (stored_pdef d0 d).
Proof.
  intros g d0 d Hg Hd Hc Hx. apply rt_reads_back; [apply write_pdef_wf; assumption|]. apply rt_of_rtn. intro B. apply rt_pdef; assumption.
Qed.

(* Reader acceptance on arbitrary data, schedule in the definition: the result satisfies Validate() and its schedule partitions
   its duration.  Missing for the full claim: mode 1 (no schedule), where it is false, see the next theorem. *)
Theorem C23_reader_accepts_valid_partial : forall d0 src cap fuel p d q,
  Forall byteP src -> (1 <= cap)%nat -> (8 <= fuel)%nat -> 0 <= p <= 8 * zlen src ->
  is_extended (pd_kind d0) = false ->
  fst (crun fuel (read_at p (read_pdef d0)) (r_create cap src)) = Ok (d, q) ->
  forall s, pb_sched (pd_base d) = Some s ->
  pd_validate d = Ok tt /\ exists l, partitioned_as s l.
Proof.
  intros d0 src cap fuel p d q Hs Hc Hf Hp Hx E s Es. rewrite crun_read_at in E by assumption.
  unfold at_result in E. destruct (arun _ _) as [[d1|e| | |] c'] eqn:R; try discriminate. injection E as -> _.
  set (c := mkC _ _ _) in R. assert (cok c) as Hcc by (unfold c, cok, zlen in *; cbn [c_pos c_bits]; rewrite bytes_bits_length; lia). clearbody c.
  assert (exists b c1 k', arun (read_pbase (pd_type (pd_kind d0))) c = (Ok b, c1) /\ arun (read_kind (pd_kind d0)) c1 = (Ok k', c') /\ d = mkPD b k') as
    (b & c1 & k' & Rb & Rk & ->).
  { unfold read_pdef in R. destruct (pd_kind d0); try discriminate;
      apply arun_bind_ok in R as (b & c1 & R1 & R); apply arun_bind_ok in R as (k' & c2 & R2 & R); cbn [arun] in R; injection R as <- <-; eauto 6. }
  assert (pd_type k' = pd_type (pd_kind d0)) as T.
  { clear Rb Es. destruct (pd_kind d0); cbn [read_kind] in Rk; try discriminate;
      repeat (match type of Rk with arun (rb _ _) _ = _ => apply arun_bind_ok in Rk as (? & ? & _ & Rk) end);
      repeat (match goal with x : (Z * Z * Z)%type |- _ => destruct x as [[? ?] ?] end); cbn [arun] in Rk; injection Rk as <- _; reflexivity. }
  cbn [pd_base] in Es. unfold pd_validate. cbn [pd_kind pd_base]. rewrite T. unfold read_pbase in Rb.
  apply arun_bind_ok in Rb as (id & c2 & R1 & Rb). destruct (arun_ruleb_range _ _ _ Hcc R1) as (_ & K1 & _).
  apply arun_bind_ok in Rb as (rate & c3 & R2 & Rb). destruct (arun_ruleb_range _ _ _ K1 R2) as (_ & K2 & _).
  apply arun_bind_ok in Rb as (mode & c4 & R3 & Rb). destruct (arun_lit_inv 1 8 c3 mode c4 K2 eq_refl R3) as (_ & _ & K3).
  apply arun_bind_ok in Rb as (r & c5 & R4 & Rb). destruct (arun_lit_inv 7 8 c4 r c5 K3 eq_refl R4) as (_ & _ & K4).
  destruct (negb (mode =? 0)).
  { cbn [arun] in Rb. injection Rb as <- _. discriminate. }
  apply arun_bind_ok in Rb as (s' & c6 & R5 & Rb). apply arun_rres_ok in Rb as ([] & V & Rb). cbn [arun] in Rb. injection Rb as <- _.
  cbn [pb_sched] in Es. injection Es as ->. split; [exact V|].
  unfold read_schedule in R5. apply arun_bind_ok in R5 as ([s1 l1] & c7 & R5 & R6). cbn [arun fst] in R6. injection R6 as -> _.
  apply parse_schedule_made in R5 as [M _]; [|exact K4]. apply C22_made_partitions. exact M.
Qed.

(* FALSE in general (finding F5): with param_definition_mode = 1 the reader returns before Validate().  A demixing definition
   with parameter_rate 0 and no schedule is accepted, though Validate() refuses it. *)
Theorem C23_mode1_not_validated_refuted :
  exists d, fst (crun 8 (read_at 0 (read_pdef (mkPD (mkPB 0 0 0 None) (KDemixing 0 0 0 0)))) (r_create 64 [5; 0; 128; 0; 0])) = Ok (d, 40) /\
    pd_validate d = Err InvalidArgument.
Proof. eexists. split; [vm_compute; reflexivity|reflexivity]. Qed.

Example C23_ex :
  exists s d, create_var [3; 5; 1] = Ok s /\ d = mkPD (mkPB 1000 48000 3 (Some s)) (KPolar 200 (-91) 5) /\ pdef_wf d /\
    is_ok (fst (wrun (write_pdef (LebFixed 5) d) w_empty)) = true.
Proof.
  eexists. eexists. split; [reflexivity|]. split; [reflexivity|]. split; [|reflexivity]. unfold pdef_wf, pbase_wf.
  cbn [pd_base pd_kind pb_id pb_rate pb_reserved pb_sched pkind_wf]. split; [|split; pw8]. split; [pw|]. split; [pw|]. split; [pw|].
  right. exists [3; 5; 1]. split; [repeat constructor; unfold u32P; lia|]. split; reflexivity.
Qed.

(* ---- C24: Parameter Block OBUs ---- *)
Definition elem_wf (e : option (Z * list Z)) : Prop :=
  match e with Some (flag, l) => u32P flag /\ length l = 12%nat /\ Forall u8P l | None => True end.
(* [x] is parameter data of the class the definition creates, with fields in their C++ types *)
Definition data_of (k : pkind) (x : pdata) : Prop :=
  match k, x with
  | KMixGain _, DStep s => s16P s
  | KMixGain _, DLinear s e => s16P s /\ s16P e
  | KMixGain _, DBezier s e c t => s16P s /\ s16P e /\ s16P c /\ u8P t
  | KDemixing _ _ _ _, DDemix m r => u8P m /\ u8P r
  | KRecon f, DRecon f' elems => f' = f /\ Forall elem_wf elems
  | KExtended _ _, DExt b => Forall byteP b
  | _, _ => False
  end.
(* What comes back: a recon gain whose flag bit is not set is not stored and reads as 0, likewise absent layers. *)
Fixpoint stored_gains (flag j : Z) (l : list Z) : list Z :=
  match l with [] => [] | x :: t => (if Z.testbit flag j then x else 0) :: stored_gains flag (j + 1) t end.
Fixpoint stored_layers (flags : list bool) (elems : list (option (Z * list Z))) : list (option (Z * list Z)) :=
  match flags, elems with
  | f :: fs, e :: es => (if f then match e with Some (flag, l) => Some (flag, stored_gains flag 0 l) | None => None end else None) :: stored_layers fs es
  | _, _ => []
  end.
Definition stored_data (x : pdata) : pdata := match x with DRecon f l => DRecon f (stored_layers f l) | _ => x end.

Lemma rt_gains {N} flag l : Forall u8P l -> forall j, rtn N (write_gains flag j l) (read_gains flag j (length l)) (stored_gains flag j l).
Proof.
  induction 1 as [|x l Hx Hl IH]; intro j; cbn [write_gains read_gains stored_gains length]; [apply rtb_ret_eq; reflexivity|].
  eapply rtb_seq; [|eapply rtb_last; [apply IH|apply rtb_ret_eq; reflexivity]].
  destruct (Z.testbit flag j); [lit|apply rtb_ret_eq; reflexivity].
Qed.
Lemma rt_layers {N} g flags : lebgen_wf g -> forall elems, length elems = length flags -> Forall elem_wf elems ->
  rtn N (write_layers g flags elems) (read_layers flags) (stored_layers flags elems).
Proof.
  intro Hg. induction flags as [|f fs IH]; intros [|e es] L He; cbn [length] in L; try lia; cbn [write_layers read_layers stored_layers].
  - apply rtb_ret_eq. reflexivity.
  - apply Forall_cons_iff in He as [He Hes].
    eapply rtb_seq; [|eapply rtb_last; [apply IH; [lia|exact Hes]|apply rtb_ret_eq; reflexivity]].
    destruct f; [|apply rtb_ret_eq; reflexivity]. destruct e as [[flag l]|]; [|apply rtb_wfail].
    destruct He as (Hf & Hl & Hu). eapply rtb_seq; [apply rtb_rt, rt_uleb; assumption|]. rewrite <- Hl.
    eapply rtb_last; [apply rt_gains; exact Hu|]. apply rtb_ret_eq. reflexivity.
Qed.
Lemma rt_pdata g k x : lebgen_wf g -> data_of k x -> rtb (write_pdata g x) (read_pdata k) (stored_data x).
Proof.
  intros Hg H. destruct k, x; cbn [data_of] in H; try contradiction; cbn [write_pdata read_pdata stored_data].
  - eapply rtb_seq; [apply rtb_rt, rt_uleb; [exact Hg|lia]|]. cbn [Z.eqb]. eapply rtb_last; [apply rtb_rt, rt_signed16; assumption|]. apply rtb_ret_eq. reflexivity.
  - destruct H. eapply rtb_seq; [apply rtb_rt, rt_uleb; [exact Hg|lia]|]. cbn [Z.eqb Pos.eqb]. eapply rtb_seq; [apply rtb_rt, rt_signed16; assumption|].
    eapply rtb_last; [apply rtb_rt, rt_signed16; assumption|]. apply rtb_ret_eq. reflexivity.
  - destruct H as (? & ? & ? & ?). eapply rtb_seq; [apply rtb_rt, rt_uleb; [exact Hg|lia]|]. cbn [Z.eqb Pos.eqb].
    do 3 (eapply rtb_seq; [apply rtb_rt, rt_signed16; assumption|]). eapply rtb_last; [lit|]. apply rtb_ret_eq. reflexivity.
  - destruct H. eapply rtb_last; [apply rt_demix; assumption|]. apply rtb_ret_eq. reflexivity.
  - destruct H as [-> He]. apply rtb_wcheck. intro L. eapply rtb_last; [apply rt_layers; [exact Hg|unfold zlen in L; lia|exact He]|].
    apply rtb_ret_eq. reflexivity.
  - apply rtb_blob_bound. intro L. apply rt_blob; try assumption. apply rtb_ret_eq. reflexivity.
Qed.
Lemma write_gains_wf flag l : Forall u8P l -> forall j, Forall winstr_wf (write_gains flag j l).
Proof.
  induction 1 as [|x l Hx Hl IH]; intro j; cbn [write_gains]; [constructor|]. apply Forall_app. split; [|apply IH].
  destruct (Z.testbit flag j); [apply wlit_wf; pw|constructor].
Qed.
Lemma write_layers_wf g flags : lebgen_wf g -> forall elems, Forall elem_wf elems -> Forall winstr_wf (write_layers g flags elems).
Proof.
  intro Hg. induction flags as [|f fs IH]; intros [|e es] He; cbn [write_layers]; try constructor.
  apply Forall_cons_iff in He as [He Hes]. apply Forall_app. split; [|apply IH; exact Hes].
  destruct f; [|constructor]. destruct e as [[flag l]|]; [|repeat constructor]. destruct He as (Hf & _ & Hu).
  wf_split; [apply wuleb_wf; assumption|apply write_gains_wf; exact Hu].
Qed.
Lemma write_pdata_wf g k x : lebgen_wf g -> data_of k x -> Forall winstr_wf (write_pdata g x).
Proof.
  intros Hg H. destruct k, x; cbn [data_of] in H; try contradiction; cbn [write_pdata].
  1-3: wf_split; first [apply wuleb_wf; [exact Hg|unfold u32P; lia]|apply wsigned16_wf|apply wlit_wf; pw].
  - apply write_demix_wf; apply H.
  - wf_split; [apply wcheck_wf|apply write_layers_wf; [exact Hg|apply H]].
  - wf_split; [apply wuleb_wf; [exact Hg|apply u32_range]|apply wspan_wf; exact H].
Qed.

(* A block as the factories build it for definition [d] and the caller fills it in: the schedule is in the block exactly when it
   is not in the definition, one non-null subblock per scheduled subblock, each of the definition's class. *)
Definition fits (d : pdef) (b : pblock) : Prop :=
  bl_id b = pb_id (pd_base d) /\
  (exists s, made s /\ ((pb_sched (pd_base d) = Some s /\ bl_sched b = None) \/ (pb_sched (pd_base d) = None /\ bl_sched b = Some s)) /\
             zlen (bl_subs b) = s_num s) /\
  Forall (fun x => exists y, x = Some y /\ data_of (pd_kind d) y) (bl_subs b).
Definition stored_block (b : pblock) : pblock := mkBlk (bl_id b) (bl_sched b) (map (option_map stored_data) (bl_subs b)).

Lemma rt_pblock g d b h n : lebgen_wf g -> pdef_wf d -> fits d b -> rtb (write_pblock g d b) (read_pblock d h n) (stored_block b).
Proof.
  intros Hg [Hb Hk] (Hid & (s & M & C & Hn) & Hs). unfold write_pblock, read_pblock. destruct Hb as (U1 & _).
  assert (exists l, bl_subs b = map Some l /\ Forall (data_of (pd_kind d)) l) as (l & El & Hl).
  { clear -Hs. induction Hs as [|x l (y & -> & Hy) Hl (r & -> & Hr)]; [exists []; split; [reflexivity|constructor]|].
    exists (y :: r). split; [reflexivity|constructor; assumption]. }
  unfold stored_block. rewrite El, map_map. cbn [option_map].
  intros bs E L. apply wbits_app_ok in E as (ib & r & E1 & E & ->).
  assert (pd_validate d = Ok tt) as V.
  { destruct (pd_validate d) as [[]|e| | |]; cbn [wres app] in E; try discriminate. reflexivity. }
  eapply parses_rres_ok; [exact V|]. rewrite V in E. cbn [wres app] in E.
  eapply parses_bind; [apply (rt_uleb g _ Hg U1); rewrite <- Hid; exact E1| |reflexivity].
  apply parses_check; [lia|]. rewrite zlen_app in L. pose proof (zlen_nonneg ib).
  rewrite Forall_forall in Hl. revert r E L. unfold mode0.
  destruct C as [(C1 & C2)|(C1 & C2)]; rewrite C1, C2; intros r E L.
  - unfold pb_num. rewrite C1.
    refine (rtb_last (N:=2^24) (flat_map (write_sub0 g) (map Some l)) _ _ (map stored_data l) _ _ _ r E ltac:(lia)).
    + rewrite flat_map_concat_map, map_map, <- flat_map_concat_map. cbn [write_sub0].
      apply rtb_list_map; [rewrite El in Hn; unfold zlen in Hn; rewrite map_length in Hn; lia|]. intros x Hx. apply rt_pdata; [exact Hg|apply Hl; exact Hx].
    + apply rtb_ret_eq. rewrite map_map, Hid. reflexivity.
  - assert (no_null (map Some l) = true) as NN by (clear; induction l; [reflexivity|assumption]).
    rewrite NN in E. cbn [orb wcheck app] in E.
    refine (rtb_last (N:=2^24) (write_sched g (write_sub0 g) s (Some (map Some l))) _ _ (s, map stored_data l) _ _ _ r E ltac:(lia)).
    + replace (map stored_data l) with (map (fun o => match o with Some y => stored_data y | None => DPos end) (map Some l)) by (rewrite map_map; reflexivity).
      apply rt_sched_data; [exact Hg|exact M|rewrite <- El; exact Hn|]. intros x Hx. apply in_map_iff in Hx as (y & <- & Hy).
      cbn [write_sub0]. apply rt_pdata; [exact Hg|apply Hl; exact Hy].
    + apply rtb_ret_eq. cbn [fst snd]. rewrite map_map, Hid. reflexivity.
Qed.
Lemma write_pblock_wf g d b : lebgen_wf g -> pdef_wf d -> fits d b -> Forall winstr_wf (write_pblock g d b).
Proof.
  intros Hg [Hb Hk] (Hid & (s & M & C & Hn) & Hs). unfold write_pblock.
  assert (forall x, In x (bl_subs b) -> Forall winstr_wf (write_sub0 g x)) as W.
  { intros x Hx. rewrite Forall_forall in Hs. destruct (Hs x Hx) as (y & -> & Hy). cbn [write_sub0]. eapply write_pdata_wf; eassumption. }
  wf_split; [apply wuleb_wf; [exact Hg|rewrite Hid; apply Hb]|apply wres_wf|].
  destruct C as [(C1 & C2)|(C1 & C2)]; rewrite C2.
  - apply Forall_flat_map_wf. exact W.
  - wf_split; [apply wcheck_wf|]. apply write_sched_wf; [exact Hg|exact M|]. intros l [= <-]. exact W.
Qed.

Theorem C24_parameter_block_round_trip : forall g h d b footer,
  lebgen_wf g -> header_wf h -> pdef_wf d -> fits d b -> Forall byteP footer ->
  reads_back (write_pblock_obu g h d b footer) (read_obu (read_pblock d))
             (norm_header (set_type h kParameterBlock), stored_block b, footer).
Proof.
  intros g h d b footer Hg Hh Hd Hb Hf. apply obu_round_trip_bounded; try assumption.
  - apply set_type_wf'; [exact Hh|unfold kParameterBlock; lia].
  - apply write_pblock_wf; assumption.
  - intro n. apply rt_pblock; assumption.
Qed.
(* stored_block changes nothing for mix gain, demixing and extension data *)
Theorem C24_nothing_lost : forall b, (forall f l, ~ In (Some (DRecon f l)) (bl_subs b)) -> stored_block b = b.
Proof.
  intros [id s l] H. unfold stored_block. cbn [bl_id bl_sched bl_subs] in *. f_equal. rewrite <- (map_id l) at 2. apply map_ext_in.
  intros [x|] Hx; [|reflexivity]. destruct x; try reflexivity. exfalso. exact (H _ _ Hx).
Qed.

(* Whatever bytes are read: an accepted block has the definition's ID, one subblock per scheduled subblock, and its schedule
   (its own or, if the definition has one, the definition's) partitions its duration. *)
Theorem C24_reader_only_accepts_consistent : forall d h n src cap fuel p b q,
  pdef_wf d -> Forall byteP src -> (1 <= cap)%nat -> (8 <= fuel)%nat -> 0 <= p <= 8 * zlen src ->
  fst (crun fuel (read_at p (read_pblock d h n)) (r_create cap src)) = Ok (b, q) ->
  pd_validate d = Ok tt /\ bl_id b = pb_id (pd_base d) /\
  (bl_sched b = None <-> pb_sched (pd_base d) <> None) /\
  forall s, (bl_sched b = Some s \/ pb_sched (pd_base d) = Some s) ->
    exists l, partitioned_as s l /\ length (bl_subs b) = length l.
Proof.
  intros d h n src cap fuel p b q Hd Hs Hc Hf Hp E. rewrite crun_read_at in E by assumption.
  unfold at_result in E. destruct (arun _ _) as [[b1|e| | |] c'] eqn:R; try discriminate. injection E as -> _.
  set (c := mkC _ _ _) in R. assert (cok c) as Hcc by (unfold c, cok, zlen in *; cbn [c_pos c_bits]; rewrite bytes_bits_length; lia). clearbody c.
  unfold read_pblock in R. apply arun_rres_ok in R as ([] & V & R). split; [exact V|].
  apply arun_bind_ok in R as (id & c1 & R1 & R). destruct (arun_ruleb_range _ _ _ Hcc R1) as (_ & K1 & _).
  apply arun_rcheck_ok in R as (I & R). unfold mode0 in R. destruct Hd as ((_ & _ & _ & Hsch) & _).
  destruct (pb_sched (pd_base d)) as [s0|] eqn:S.
  - apply arun_bind_ok in R as (l & c2 & R2 & R). cbn [arun] in R. injection R as <- _. cbn [bl_id bl_sched bl_subs].
    split; [lia|]. split; [split; [discriminate|reflexivity]|]. intros s [D|D]; [discriminate|injection D as <-].
    destruct (C22_made_partitions s0 Hsch) as [ds P]. exists ds. split; [exact P|].
    destruct (arun_rlist_inv _ (fun _ => True) _ (fun _ _ _ _ _ => Logic.I) _ _ _ K1 R2) as [L _]. rewrite map_length, L.
    unfold pb_num. rewrite S. destruct P as (P & _). unfold zlen in P. lia.
  - apply arun_bind_ok in R as ([s1 l] & c2 & R2 & R). cbn [arun fst snd] in R. injection R as <- _. cbn [bl_id bl_sched bl_subs].
    split; [lia|]. split; [split; [discriminate|congruence]|]. intros s [D|D]; [injection D as <-|discriminate].
    apply parse_schedule_made in R2 as [M L]; [|exact K1]. destruct (C22_made_partitions s1 M) as [ds P]. exists ds. split; [exact P|].
    rewrite map_length. destruct P as (P & _). unfold zlen in *. lia.
Qed.

(* Peeking the ID agrees with the block that is then read, and does not move the position. *)
Theorem C24_peek_agrees : forall d h n src cap fuel p b q,
  Forall byteP src -> (1 <= cap)%nat -> (8 <= fuel)%nat -> 0 <= p <= 8 * zlen src ->
  fst (crun fuel (read_at p (read_pblock d h n)) (r_create cap src)) = Ok (b, q) ->
  fst (crun fuel (read_at p peek_parameter_id) (r_create cap src)) = Ok (bl_id b, p).
Proof.
  intros d h n src cap fuel p b q Hs Hc Hf Hp E. rewrite crun_read_at in E by assumption. rewrite crun_read_at by assumption.
  unfold at_result in E. destruct (arun _ _) as [[b1|e| | |] c'] eqn:R; try discriminate. injection E as -> _.
  set (c := mkC _ _ _) in *. assert (cok c) as Hcc by (unfold c, cok, zlen in *; cbn [c_pos c_bits]; rewrite bytes_bits_length; lia).
  unfold read_pblock in R. apply arun_rres_ok in R as ([] & V & R). apply arun_bind_ok in R as (id & c1 & R1 & R).
  apply arun_rcheck_ok in R as (I & R).
  assert (bl_id b = id) as ->.
  { destruct (mode0 _); apply arun_bind_ok in R as (l & c2 & R2 & R); cbn [arun] in R; injection R as <- _; reflexivity. }
  unfold peek_parameter_id, at_result. rewrite arun_bind, arun_rtell, arun_bind, arun_catch. cbn [c_bits c_pos].
  change (mkC (c_bits c) (c_pos c) (Some true)) with c. pose proof (arun_valid ruleb c eq_refl) as [Vd _]. pose proof (arun_bits ruleb c) as B.
  rewrite R1 in Vd, B |- *. destruct c1 as [b1 p1 v1]. cbn [snd c_valid c_bits] in Vd, B. subst v1 b1.
  rewrite arun_bind, arun_rseek_ok by (unfold cok in Hcc; unfold zlen; cbn [c_bits c_pos]; lia). cbn [arun c_pos]. 
  unfold c; cbn [c_pos]; rewrite !Nat2Z.id; rewrite Z2Nat.id by lia; reflexivity.
Qed.

Example C24_ex :
  exists s d b, create_const 10 4 = Ok s /\ d = mkPD (mkPB 7 48000 0 None) (KMixGain (-5)) /\ pdef_wf d /\ fits d b /\
    b = mkBlk 7 (Some s) [Some (DStep (-256)); Some (DLinear 0 100); Some (DBezier 1 2 3 255)] /\
    is_ok (fst (wrun (write_pblock_obu LebMin (mkH 0 false false 0 0 (Some [9])) d b [1;2]) w_empty)) = true.
Proof.
  eexists. eexists. eexists. split; [reflexivity|]. split; [reflexivity|].
  split; [|split; [|split; [reflexivity|]]].
  - unfold pdef_wf, pbase_wf. cbn [pd_base pd_kind pb_id pb_rate pb_reserved pb_sched pkind_wf].
    split; [|pw]. split; [pw|]. split; [pw|]. split; [pw|exact I].
  - unfold fits. cbn [pd_base pd_kind pb_id pb_sched bl_id bl_sched bl_subs]. split; [reflexivity|]. split.
    + eexists. split; [left; exists 10, 4; split; [pw|]; split; [pw|reflexivity]|]. split; [right; split; reflexivity|reflexivity].
    + repeat constructor; eexists; split; try reflexivity; cbn [data_of]; repeat split; pw.
  - vm_compute. reflexivity.
Qed.
(* C22 is not vacuous: a constant schedule with a short last subblock, and a variable one *)
Example C22_ex : is_ok (create_const 10 4) = true /\ is_ok (create_var [3; 5; 1]) = true.
Proof. split; reflexivity. Qed.
