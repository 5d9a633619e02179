(* C38: the interpolated gain, in exact arithmetic: well defined, inside the range of its control points, and on the curve. *)
From Coq Require Import Reals Lra Psatz.
From Verif Require Import Base WriteBuf CodecConfig ObuHeader Params PropsParams MixGain PropsGain MixGainReal.
Open Scope R_scope.

(* ---- SPEC (IAMF 7.3.1) ---- *)
(* quadratic Bezier curve through (0, v0) and (n2, v2) with control point (n1, v1), at parameter a *)
Definition bez (a v0 v1 v2 : R) : R := (1 - a)^2 * v0 + 2 * a * (1 - a) * v1 + a^2 * v2.
Definition db (v : Z) : R := IZR v / 256.
(* n1 is n2 * t / 256 rounded to nearest *)
Definition rounded (n1 n2 t : Z) : Prop := IZR n1 - 1/2 <= IZR n2 * IZR t / 256 < IZR n1 + 1/2.
Definition min3 x y z := Rmin x (Rmin y z).
Definition max3 x y z := Rmax x (Rmax y z).

Lemma control_time_rounded n2 t : rounded (control_time n2 t) n2 t.
Proof.
  unfold rounded, control_time. pose proof (Z.div_mod (2 * n2 * t + 256) 512 ltac:(lia)) as D. pose proof (Z.mod_pos_bound (2 * n2 * t + 256) 512 ltac:(lia)) as B.
  set (q := ((2 * n2 * t + 256) / 512)%Z) in *. assert (512 * q - 256 <= 2 * n2 * t < 512 * q + 256)%Z as [L U] by lia.
  apply IZR_le in L. apply IZR_lt in U. rewrite !mult_IZR in *. rewrite minus_IZR, plus_IZR, !mult_IZR in *. split; lra.
Qed.
Lemma control_time_range n2 t : (0 < n2 -> 0 <= t < 256 -> 0 <= control_time n2 t <= n2)%Z.
Proof. intros H T. unfold control_time. split; [apply Z.div_pos; nia|]. apply Z.lt_succ_r. apply Z.div_lt_upper_bound; nia. Qed.

Lemma quad_root (N N1 N2 : R) : 0 < N2 -> 0 <= N1 <= N2 -> 0 <= N <= N2 -> N2 - 2 * N1 <> 0 ->
  let D := (2 * N1) * (2 * N1) - 4 * (N2 - 2 * N1) * (- N) in
  let a := (- (2 * N1) + sqrt D) / (2 * (N2 - 2 * N1)) in
  0 <= D /\ 0 <= a <= 1 /\ (N2 - 2 * N1) * (a * a) + 2 * N1 * a = N.
Proof.
  intros P H1 H H0 D a. set (al := N2 - 2 * N1) in *.
  assert (0 <= D) as HD. { unfold D, al in *. destruct (Rle_or_lt 0 (N2 - 2 * N1)); nra. }
  split; [exact HD|]. pose proof (sqrt_sqrt D HD) as S. pose proof (sqrt_pos D) as Sp. set (r := sqrt D) in *.
  assert (a * (2 * al) = - (2 * N1) + r) as A by (unfold a; field; exact H0).
  assert (al * (a * a) + 2 * N1 * a = N) as E.
  { assert (4 * al * (al * (a * a) + 2 * N1 * a) = 4 * al * N) as Q; [|apply (Rmult_eq_reg_l (4 * al)); [exact Q|lra]].
    replace (4 * al * (al * (a * a) + 2 * N1 * a)) with ((a * (2 * al) + 2 * N1) * (a * (2 * al) + 2 * N1) - 4 * N1 * N1) by ring.
    rewrite A. replace (- (2 * N1) + r + 2 * N1) with r by ring. rewrite S. unfold D. ring. }
  split; [|exact E].
  destruct (Rtotal_order al 0) as [L|[L|L]]; [|contradiction|].
  - (* al < 0: 2 N1 > N2; r <= 2 N1 and r >= 2 (N1 - N2) + ... *)
    assert (r <= 2 * N1) as R1. { apply Rsqr_incr_0_var; [|unfold al in *; lra]. unfold Rsqr. rewrite S. unfold D. nra. }
    assert (2 * (N2 - N1) <= r) as R2. { apply Rsqr_incr_0_var; [|exact Sp]. unfold Rsqr. rewrite S. unfold D, al in *. nra. }
    split; [|]; unfold al in *; nra.
  - assert (2 * N1 <= r) as R1. { apply Rsqr_incr_0_var; [|exact Sp]. unfold Rsqr. rewrite S. unfold D. nra. }
    assert (r <= 2 * (N2 - N1)) as R2. { apply Rsqr_incr_0_var; [|unfold al in *; lra]. unfold Rsqr. rewrite S. unfold D, al in *. nra. }
    split; [|]; unfold al in *; nra.
Qed.
Lemma bezier_a_ok n n1 n2 : (0 < n2)%Z -> (0 <= n1 <= n2)%Z -> (0 <= n <= n2)%Z ->
  let a := bezier_a n n1 n2 in 0 <= a <= 1 /\ bez a 0 (IZR n1) (IZR n2) = IZR n.
Proof.
  intros P H1 H a. assert (0 < IZR n2) as P' by (apply IZR_lt in P; exact P).
  assert (0 <= IZR n1 <= IZR n2) as H1' by (destruct H1 as [A B]; apply IZR_le in A; apply IZR_le in B; auto).
  assert (0 <= IZR n <= IZR n2) as H' by (destruct H as [A B]; apply IZR_le in A; apply IZR_le in B; auto).
  unfold a, bezier_a. destruct (0 - 2 * n1 + n2 =? 0)%Z eqn:Q.
  - assert (n2 = 2 * n1)%Z as -> by lia. replace (IZR (2 * n1)) with (2 * IZR n1) in * by (rewrite mult_IZR; reflexivity).
    replace (IZR (0 - n)) with (- IZR n) by (rewrite minus_IZR; ring). replace (IZR (2 * (n1 - 0))) with (2 * IZR n1) by (rewrite Z.sub_0_r, mult_IZR; reflexivity).
    rewrite Ropp_involutive. set (a' := IZR n / (2 * IZR n1)). assert (a' * (2 * IZR n1) = IZR n) as A by (unfold a'; field; lra).
    split; [split; nra|]. unfold bez. lra.
  - replace (IZR (0 - 2 * n1 + n2)) with (IZR n2 - 2 * IZR n1) by (rewrite plus_IZR, minus_IZR, mult_IZR; ring).
    replace (IZR (0 - n)) with (- IZR n) by (rewrite minus_IZR; ring). replace (IZR (2 * (n1 - 0))) with (2 * IZR n1) by (rewrite Z.sub_0_r, mult_IZR; reflexivity).
    destruct (quad_root (IZR n) (IZR n1) (IZR n2) P' H1' H') as (_ & Ra & Re).
    + intro E. assert (IZR (n2 - 2 * n1) = 0) as E2 by (rewrite minus_IZR, mult_IZR; exact E). apply eq_IZR_R0 in E2. lia.
    + split; [exact Ra|]. unfold bez. lra.
Qed.
(* the square root is never taken of a negative number, and no division by zero happens *)
Theorem C38_bezier_defined : forall n n1 n2, (0 < n2)%Z -> (0 <= n1 <= n2)%Z -> (0 <= n <= n2)%Z ->
  (n2 <> (2 * n1)%Z -> 0 <= (2 * IZR n1)^2 + 4 * (IZR n2 - 2 * IZR n1) * IZR n) /\ (n2 = (2 * n1)%Z -> 2 * IZR n1 <> 0).
Proof.
  intros n n1 n2 P H1 H. assert (0 < IZR n2) as P' by (apply IZR_lt in P; exact P).
  assert (0 <= IZR n1 <= IZR n2) as H1' by (destruct H1 as [A B]; apply IZR_le in A; apply IZR_le in B; auto).
  assert (0 <= IZR n <= IZR n2) as H' by (destruct H as [A B]; apply IZR_le in A; apply IZR_le in B; auto). split.
  - intros _. destruct (Rle_or_lt 0 (IZR n2 - 2 * IZR n1)); nra.
  - intros ->. rewrite mult_IZR in P'. lra.
Qed.
Lemma bez_hull a v0 v1 v2 : 0 <= a <= 1 -> min3 v0 v1 v2 <= bez a v0 v1 v2 <= max3 v0 v1 v2.
Proof.
  intro H. unfold bez, min3, max3. set (lo := Rmin v0 (Rmin v1 v2)). set (hi := Rmax v0 (Rmax v1 v2)).
  assert (lo <= v0 /\ lo <= v1 /\ lo <= v2) as (L0 & L1 & L2).
  { unfold lo. pose proof (Rmin_l v0 (Rmin v1 v2)). pose proof (Rmin_r v0 (Rmin v1 v2)). pose proof (Rmin_l v1 v2). pose proof (Rmin_r v1 v2). lra. }
  assert (v0 <= hi /\ v1 <= hi /\ v2 <= hi) as (U0 & U1 & U2).
  { unfold hi. pose proof (Rmax_l v0 (Rmax v1 v2)). pose proof (Rmax_r v0 (Rmax v1 v2)). pose proof (Rmax_l v1 v2). pose proof (Rmax_r v1 v2). lra. }
  clearbody lo hi. assert (0 <= (1-a)^2) as Q0 by nra. assert (0 <= 2 * a * (1 - a)) as Q1 by nra. assert (0 <= a^2) as Q2 by nra.
  assert ((1-a)^2 + 2*a*(1-a) + a^2 = 1) as E by ring. split; nra.
Qed.

(* Bezier: the gain is the curve's value at the parameter a in [0, 1] at which the curve's time is the tick; it lies between
   the smallest and the largest control point; it is the start point at the first tick *)
Theorem C38_bezier : forall n n2 p0 p1 p2 t, (0 < n2)%Z -> (0 <= t < 256)%Z -> (0 <= n <= n2)%Z ->
  exists n1 a, rounded n1 n2 t /\ 0 <= a <= 1 /\ bez a 0 (IZR n1) (IZR n2) = IZR n /\ bezier_db n n2 p0 p1 p2 t = bez a (db p0) (db p1) (db p2) /\
  min3 (db p0) (db p1) (db p2) <= bezier_db n n2 p0 p1 p2 t <= max3 (db p0) (db p1) (db p2).
Proof.
  intros n n2 p0 p1 p2 t P T H. destruct (bezier_a_ok n (control_time n2 t) n2 P (control_time_range _ _ P T) H) as [A B].
  exists (control_time n2 t), (bezier_a n (control_time n2 t) n2). split; [apply control_time_rounded|]. split; [exact A|]. split; [exact B|].
  assert (bezier_db n n2 p0 p1 p2 t = bez (bezier_a n (control_time n2 t) n2) (db p0) (db p1) (db p2)) as E by (unfold bezier_db, bez, q7_8, db; cbv zeta; ring).
  split; [exact E|]. rewrite E. apply bez_hull. exact A.
Qed.
(* the curve starts at the start point and would reach the end point at the end of the subblock *)
Theorem C38_bezier_start_end : forall n2 p0 p1 p2 t, (0 < n2)%Z -> (0 <= t < 256)%Z ->
  bezier_db 0 n2 p0 p1 p2 t = db p0 /\ bezier_db n2 n2 p0 p1 p2 t = db p2.
Proof.
  intros n2 p0 p1 p2 t P T. set (n1 := control_time n2 t). pose proof (control_time_range _ _ P T) as H1. fold n1 in H1.
  assert (0 < IZR n2) as P' by (apply IZR_lt in P; exact P).
  assert (0 <= IZR n1 <= IZR n2) as H1' by (destruct H1 as [A B]; apply IZR_le in A; apply IZR_le in B; auto).
  destruct (bezier_a_ok 0 n1 n2 P H1 ltac:(lia)) as [A0 B0]. destruct (bezier_a_ok n2 n1 n2 P H1 ltac:(lia)) as [A2 B2].
  unfold bezier_db. fold n1. cbv zeta. unfold q7_8, db.
  assert (bezier_a n2 n1 n2 = 1) as ->.
  { set (a := bezier_a n2 n1 n2) in *. clearbody a. unfold bez in B2. destruct (Req_dec a 1) as [|N]; [assumption|exfalso]. assert (a < 1) by lra.
    assert ((1 - a) * (IZR n2 * (1 - a) + 2 * a * (IZR n2 - IZR n1)) = 0) as Q by lra. assert (0 < (1 - a) * (IZR n2 * (1 - a))) by (apply Rmult_lt_0_compat; [lra|apply Rmult_lt_0_compat; lra]). assert (0 <= (1 - a) * (2 * a * (IZR n2 - IZR n1))) by (apply Rmult_le_pos; [lra|apply Rmult_le_pos; lra]). lra. }
  split; [|ring].
  assert (0 = bezier_a 0 n1 n2 \/ 0 < bezier_a 0 n1 n2) as [<-|L] by lra; [ring|]. exfalso.
  unfold bez in B0. set (a := bezier_a 0 n1 n2) in *. clearbody a.
  assert (a * (IZR n2 * a) + 2 * a * (1 - a) * IZR n1 = 0) as Q by lra.
  assert (0 < a * (IZR n2 * a)) by (apply Rmult_lt_0_compat; [lra|apply Rmult_lt_0_compat; lra]). assert (0 <= 2 * a * (1 - a) * IZR n1) by (apply Rmult_le_pos; [apply Rmult_le_pos; lra|lra]). lra.
Qed.
(* linear: the straight line through both points *)
Theorem C38_linear : forall n n2 p0 p2, (0 < n2)%Z -> (0 <= n <= n2)%Z ->
  linear_db n n2 p0 p2 = db p0 + (db p2 - db p0) * IZR n / IZR n2 /\
  Rmin (db p0) (db p2) <= linear_db n n2 p0 p2 <= Rmax (db p0) (db p2) /\ linear_db 0 n2 p0 p2 = db p0.
Proof.
  intros n n2 p0 p2 P H. assert (0 < IZR n2) as P' by (apply IZR_lt in P; exact P).
  assert (0 <= IZR n <= IZR n2) as H' by (destruct H as [A B]; apply IZR_le in A; apply IZR_le in B; auto).
  assert (linear_db n n2 p0 p2 = db p0 + (db p2 - db p0) * IZR n / IZR n2) as E by (unfold linear_db, db, q7_8; cbv zeta; field; lra).
  split; [exact E|]. split; [|unfold linear_db, q7_8, db; cbv zeta; field; lra].
  set (a := IZR n / IZR n2). assert (a * IZR n2 = IZR n) as Ea by (unfold a; field; lra). assert (0 <= a <= 1) as Ha by (split; nra).
  assert (linear_db n n2 p0 p2 = (1 - a) * db p0 + a * db p2) as -> by (rewrite E; unfold a; field; lra).
  pose proof (Rmin_l (db p0) (db p2)). pose proof (Rmin_r (db p0) (db p2)). pose proof (Rmax_l (db p0) (db p2)). pose proof (Rmax_r (db p0) (db p2)). split; nra.
Qed.

(* SPEC: the gain in dB at tick n of a subblock of len ticks *)
Definition on_curve (x : option pdata) (n len : Z) (g : R) : Prop :=
  match x with
  | Some (DStep p) => g = db p
  | Some (DLinear p q) => g = db p + (db q - db p) * IZR n / IZR len
  | Some (DBezier s e c t) => exists n1 a, rounded n1 len t /\ 0 <= a <= 1 /\ bez a 0 (IZR n1) (IZR len) = IZR n /\ g = bez a (db s) (db c) (db e)
  | _ => False
  end.
Definition byte_time (x : option pdata) : Prop := match x with Some (DBezier _ _ _ t) => (0 <= t < 256)%Z | _ => True end.
(* Every tick of a mix gain parameter block gets the linear gain 10^(g/20), where g is the specification's curve of the
   subblock that covers the tick; ticks after the block keep their gain. *)
Theorem C38_block_gains : forall d b s l old,
  pd_type (pd_kind d) = 0%Z -> schedule_of d b = Some s -> partitioned_as s l -> (total l < 2^31)%Z ->
  length (bl_subs b) = length l -> Forall is_gain_data (bl_subs b) -> short_curves (bl_subs b) l -> Forall byte_time (bl_subs b) ->
  exists new, real_mix_gains d b old = (Ok tt, new) /\ length new = length old /\
  forall t, (t < length old)%nat ->
    (forall i, covers l i (Z.of_nat t) -> exists g, on_curve (nth i (bl_subs b) None) (Z.of_nat t - start_of l i) (start_of l (S i) - start_of l i) g /\
                                        nth_error new t = Some (Rpower 10 (g / 20))) /\
    ((total l <= Z.of_nat t)%Z -> nth_error new t = nth_error old t).
Proof.
  intros d b s l old Ty Sc Pt Tl Ls Gs Sh Bt. destruct (C25_tick_gains_partial R step_db linear_db bezier_db db_to_linear d b s l old Ty Sc Pt Tl Ls Gs Sh) as (new & E & Ln & H).
  exists new. split; [exact E|]. split; [exact Ln|]. intros t Ht. destruct (H t Ht) as [H1 H2]. split; [|exact H2]. intros i Ci. rewrite (H1 i Ci). destruct Ci as (Li & Ri).
  rewrite Forall_forall in Gs, Bt. assert (In (nth i (bl_subs b) None) (bl_subs b)) as I by (apply nth_In; lia). specialize (Gs _ I). specialize (Bt _ I).
  destruct (nth i (bl_subs b) None) as [[]|]; cbn [is_gain_data] in Gs; try contradiction; cbn [tick_gain on_curve byte_time] in *.
  - eexists. split; reflexivity.
  - eexists. split; [|reflexivity]. apply C38_linear; lia.
  - eexists. split; [|reflexivity]. match goal with |- exists n1 a, _ /\ _ /\ _ /\ bezier_db ?n ?n2 ?p0 ?p1 ?p2 ?t = _ => destruct (C38_bezier n n2 p0 p1 p2 t) as (n1 & a & X1 & X2 & X3 & X4 & _); [lia|lia|lia|] end.
    exists n1, a. auto.
Qed.
Example C38_ex : exists s, create_var [4%Z] = Ok s /\
  let d := mkPD (mkPB 1 48000 0 (Some s)) (KMixGain 0) in let b := mkBlk 1 None [Some (DLinear 256 0)] in
  schedule_of d b = Some s /\ partitioned_as s [4%Z] /\ Forall is_gain_data (bl_subs b) /\
  exists new, real_mix_gains d b [0; 0; 0; 0; 7] = (Ok tt, new) /\ nth_error new 1 = Some (Rpower 10 (3 / 80)) /\ nth_error new 4 = Some 7.
Proof.
  pose proof (C22_variable [4%Z] ltac:(repeat constructor; cbn; lia) ltac:(reflexivity)) as Pt. destruct (create_var [4%Z]) as [s| | | |] eqn:Es; [|exfalso; vm_compute in Es; discriminate..].
  exists s. split; [reflexivity|]. cbv zeta. split; [reflexivity|]. split; [exact Pt|]. split; [repeat constructor|].
  destruct (C38_block_gains (mkPD (mkPB 1 48000 0 (Some s)) (KMixGain 0)) (mkBlk 1 None [Some (DLinear 256 0)]) s [4%Z] [0; 0; 0; 0; 7]) as (new & E & Ln & H);
    [reflexivity|reflexivity|exact Pt|reflexivity|reflexivity|repeat constructor|intros [|[|i]] a e c t Hn; discriminate Hn|repeat constructor|].
  exists new. split; [exact E|]. split.
  - destruct (H 1%nat) as [H1 _]; [cbn [length]; lia|]. destruct (H1 0%nat) as (g & G1 & G2); [split; [cbn [length]; lia|]; vm_compute; split; [discriminate|reflexivity]|].
    rewrite G2. f_equal. f_equal. cbn [nth bl_subs on_curve] in G1. subst g. change (Z.of_nat 1 - start_of [4%Z] 0)%Z with 1%Z. change (start_of [4%Z] 1 - start_of [4%Z] 0)%Z with 4%Z. unfold db. field.
  - destruct (H 4%nat) as [_ H2]; [cbn [length]; lia|]. rewrite H2 by (vm_compute; discriminate). reflexivity.
Qed.
