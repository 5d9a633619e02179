(* C71: the mix gains as they are computed, with floats. *)
From Coq Require Import Reals Psatz.
From Flocq Require Import Core BinarySingleNaN.
From Verif Require Import Base WriteBuf CodecConfig ObuHeader Params PropsParams MixGain PropsGain MixGainReal Pcm FloatFacts PropsFixed PropsGainReal DoubleEnv PartitionRamp.
Open Scope Z_scope.
Global Instance vexp24 : Valid_exp (SpecFloat.fexp 24 128) := FLT_exp_valid (3 - 128 - 24) 24.
Notation fmt := (generic_format radix2 (SpecFloat.fexp 24 128)).

Lemma fmt_int : forall z, Z.abs z <= 2^24 -> fmt (IZR z).
Proof. intros z H. destruct (sgl_int z H) as (E & _). rewrite <- E. apply generic_format_B2R. Qed.
Lemma add_exact53 : forall x y : double, num x -> num y -> generic_format radix2 (SpecFloat.fexp 53 1024) (B2R x + B2R y) -> (Rabs (B2R x + B2R y) < bpow radix2 1024)%R ->
  num (dadd x y) /\ B2R (dadd x y) = (B2R x + B2R y)%R.
Proof.
  intros x y Fx Fy G B. pose proof (Bplus_correct 53 1024 _ _ mode_NE x y Fx Fy) as C. rewrite (round_generic radix2 _ (round_mode mode_NE)) in C by exact G. rewrite (Rlt_bool_true _ _ B) in C. destruct C as (C1 & C2 & _). unfold dadd. auto.
Qed.
Lemma half : num (ddiv (dbl 1 0) (dbl 2 0)) /\ B2R (ddiv (dbl 1 0) (dbl 2 0)) = (/ 2)%R.
Proof.
  set (l := ddiv _ _). assert (S : B2SF l = B2SF (dbl 1 (-1))) by (vm_compute; reflexivity). apply B2SF_inj in S. rewrite S.
  assert (E : F2R (Float radix2 1 (-1)) = (/ 2)%R) by (unfold F2R; cbn [Fnum Fexp]; change (bpow radix2 (-1)) with (/ 2)%R; lra).
  unfold dbl. rewrite <- E. apply and_comm. apply normalize_exact; [lia | lia|]. rewrite E. apply (lt_bpow _ 1); [lia| |lia]. apply Rabs_le. change (2^1) with 2. lra.
Qed.
(* the product of the length and the control time: rounded, and at most the length *)
Lemma product : forall n2 t, 0 < n2 <= 2^23 -> 0 <= t < 256 -> let x := smul (sgl n2 0) (q0_8_to_float t) in
  num x /\ B2R x = rnd (IZR (n2 * t) / 256) /\ (0 <= B2R x <= IZR n2)%R /\ ((n2 * t <= 2^24)%Z -> B2R x = (IZR (n2 * t) / 256)%R).
Proof.
  intros n2 t N T. cbv zeta. destruct (sgl_int n2 ltac:(lia)) as (N1 & N2). destruct (C45_q0_8_round_trip t ltac:(change (2^8) with 256; lia)) as (Q1 & Q2 & _).
  assert (P : (IZR n2 * (IZR t / 256) = IZR (n2 * t) / 256)%R) by (rewrite mult_IZR; field).
  assert (B : (0 <= IZR (n2 * t) / 256 <= IZR n2)%R). { assert (H1 : (0 <= IZR (n2 * t))%R) by (apply IZR_le; nia). assert (H2 : (IZR (n2 * t) <= IZR n2 * 256)%R) by (rewrite <- mult_IZR; apply IZR_le; nia). lra. }
  assert (G : (0 <= rnd (IZR (n2 * t) / 256) <= IZR n2)%R).
  { split; [apply round_ge_generic; [exact vexp24 | apply valid_rnd_N | apply generic_format_0 | apply B] | apply round_le_generic; [exact vexp24 | apply valid_rnd_N | apply fmt_int; lia | apply B]]. }
  assert (L : (IZR n2 <= 8388608)%R) by (apply IZR_le; exact (proj2 N)).
  pose proof (Bmult_correct 24 128 _ _ mode_NE (sgl n2 0) (q0_8_to_float t)) as C. rewrite N1, Q2, P in C. rewrite Rlt_bool_true in C.
  - destruct C as (C1 & C2 & _). rewrite N2, Q1 in C2. split; [exact C2|]. split; [exact C1|]. unfold smul. rewrite C1. split; [exact G|]. intro S. apply round_generic; [apply valid_rnd_N|].
    replace (IZR (n2 * t) / 256)%R with (F2R (Float radix2 (n2 * t) (-8))) by (unfold F2R, Rdiv; cbn [Fnum Fexp]; f_equal). apply fmt_F2R; [exact prec24 | nia | lia].
  - apply (lt_bpow _ 23); [lia| |lia]. change (2^23) with 8388608. apply Rabs_le. lra.
Qed.
(* The control time is rounded to the nearest tick, the greater of two, for up to 65793 ticks; for longer curves it is within the curve. *)
Theorem C71_control : forall n2 t, 0 < n2 <= 2^23 -> 0 <= t < 256 ->
  0 <= float_control n2 t <= n2 /\ (n2 * t <= 2^24 -> rounded (float_control n2 t) n2 t).
Proof.
  intros n2 t N T. unfold float_control. destruct (product n2 t N T) as (X1 & _ & X3 & X4). set (x := smul _ _) in *. clearbody x. destruct (to_double_val x X1) as (D1 & D2). set (y := to_double x) in *. clearbody y. destruct half as (H1 & H2). set (h := ddiv _ _) in *. clearbody h.
  rewrite (trunc_exact 53 1024).
  assert (V53 : Valid_exp (SpecFloat.fexp 53 1024)) by (apply (FLT_exp_valid (3 - 1024 - 53) 53)). assert (NZ : (IZR n2 <= 8388608)%R) by (apply IZR_le; exact (proj2 N)).
  assert (FM : forall m, Z.abs m <= 2^53 -> generic_format radix2 (SpecFloat.fexp 53 1024) (IZR m / 256)).
  { intros m M. replace (IZR m / 256)%R with (F2R (Float radix2 m (-8))) by (unfold F2R, Rdiv; cbn [Fnum Fexp]; f_equal). apply fmt_F2R; [exact prec53 | exact M | lia]. }
  assert (LT : forall r, (Rabs r <= 16777216)%R -> (Rabs r < bpow radix2 1024)%R) by (intros r Hr; apply (lt_bpow r 24); [lia | exact Hr | lia]).
  assert (U1 : (/ 2 <= round radix2 (SpecFloat.fexp 53 1024) (round_mode mode_NE) (B2R y + / 2))%R).
  { apply round_ge_generic; [exact V53 | apply valid_rnd_N | | lra]. replace (/ 2)%R with (IZR 128 / 256)%R by lra. apply FM. lia. }
  assert (U2 : (round radix2 (SpecFloat.fexp 53 1024) (round_mode mode_NE) (B2R y + / 2) <= IZR n2 + / 2)%R).
  { apply round_le_generic; [exact V53 | apply valid_rnd_N | | lra]. replace (IZR n2 + / 2)%R with (IZR (256 * n2 + 128) / 256)%R by (rewrite plus_IZR, mult_IZR; lra). apply FM. lia. }
  pose proof (Bplus_correct 53 1024 _ _ mode_NE y h D1 H1) as C. rewrite H2 in C. rewrite Rlt_bool_true in C by (apply LT, Rabs_le; lra). destruct C as (C1 & C2 & _). unfold dadd. rewrite C1. set (r := round _ _ _ _) in *.
  split.
  - split; [apply Ztrunc_ge; lra|]. rewrite Ztrunc_floor by lra. apply Zlt_succ_le. apply lt_IZR. unfold Z.succ. rewrite plus_IZR. pose proof (Zfloor_lb r). lra.
  - intro S. assert (R : r = (IZR (n2 * t + 128) / 256)%R). { unfold r. rewrite D2, (X4 S). replace (IZR (n2 * t) / 256 + / 2)%R with (IZR (n2 * t + 128) / 256)%R by (rewrite plus_IZR; lra). apply round_generic; [apply valid_rnd_N|]. apply FM. nia. }
    rewrite Ztrunc_floor by lra. rewrite R. rewrite plus_IZR, mult_IZR in R. pose proof (Zfloor_lb (IZR (n2 * t + 128) / 256)) as F1. pose proof (Zfloor_ub (IZR (n2 * t + 128) / 256)) as F2. set (q := Zfloor _) in *. rewrite plus_IZR, mult_IZR in F1, F2. unfold rounded. lra.
Qed.

(* ---- the value of a Bezier curve, in the steps of the code ---- *)
Definition q (v : Z) : single := q7_8_to_float v.
Definition quad (a : single) (p0 p1 p2 : Z) : single :=
  let b := ssub (sgl 1 0) a in sadd (sadd (smul (smul b b) (q p0)) (smul (smul (smul (sgl 2 0) b) a) (q p1))) (smul (smul a a) (q p2)).
Definition root (n n1 n2 : Z) : single :=
  let alpha := sgl (0 - 2 * n1 + n2) 0 in let beta := sgl (2 * (n1 - 0)) 0 in let gamma := sgl (0 - n) 0 in
  if Beqb alpha (sgl 0 0) then sdiv (Bopp gamma) beta
  else sdiv (sadd (Bopp beta) (Bsqrt mode_NE (ssub (smul beta beta) (smul (smul (sgl 4 0) alpha) gamma)))) (smul (sgl 2 0) alpha).
Lemma bezier_steps : forall n n1 n2 p0 p1 p2, float_bezier_at n n1 n2 p0 p1 p2 = quad (root n n1 n2) p0 p1 p2.
Proof. reflexivity. Qed.
Definition gain16 (v : Z) : Prop := - 2^15 <= v < 2^15.
Lemma q_val : forall v, gain16 v -> num (q v) /\ B2R (q v) = db v /\ (Rabs (B2R (q v)) <= bpow radix2 7)%R.
Proof.
  intros v H. destruct (fixed_val v H) as (F1 & F2). unfold q. split; [exact F1|]. split; [exact F2|]. rewrite F2. unfold gain16 in H. change (2^15) with 32768 in H. change (Z.opp 32768) with (-32768) in H. change (bpow radix2 7) with 128%R.
  assert (IZR (-32768) <= IZR v <= IZR 32768)%R by (split; apply IZR_le; lia). apply Rabs_le. lra.
Qed.
Lemma mul_bound : forall x y e f, (Rabs x <= bpow radix2 e)%R -> (Rabs y <= bpow radix2 f)%R -> (Rabs (x * y) <= bpow radix2 (e + f))%R.
Proof. intros. rewrite Rabs_mult, bpow_plus. apply Rmult_le_compat; auto using Rabs_pos. Qed.
Lemma add_bound : forall x y e, (Rabs x <= bpow radix2 e)%R -> (Rabs y <= bpow radix2 e)%R -> (Rabs (x + y) <= bpow radix2 (1 + e))%R.
Proof. intros x y e A B. rewrite bpow_plus. change (bpow radix2 1) with 2%R. eapply Rle_trans; [apply Rabs_triang|]. lra. Qed.
Lemma bpow_mono : forall x e f, (Rabs x <= bpow radix2 e)%R -> e <= f -> (Rabs x <= bpow radix2 f)%R.
Proof. intros x e f A B. eapply Rle_trans; [exact A|]. now apply bpow_le. Qed.
Lemma quad_finite : forall a p0 p1 p2, num a -> (Rabs (B2R a) <= bpow radix2 26)%R -> gain16 p0 -> gain16 p1 -> gain16 p2 -> num (quad a p0 p1 p2).
Proof.
  intros a p0 p1 p2 A1 A2 H0 H1 H2. unfold quad. cbv zeta. destruct (q_val p0 H0) as (P1 & _ & P3), (q_val p1 H1) as (Q1 & _ & Q3), (q_val p2 H2) as (R1 & _ & R3), (sgl_int 1 ltac:(lia)) as (O1 & O2), (sgl_int 2 ltac:(lia)) as (T1 & T2).
  assert (T3 : (Rabs (B2R (sgl 2 0)) <= bpow radix2 1)%R) by (rewrite T1; change (bpow radix2 1) with 2%R; apply Rabs_le; lra).
  destruct (sub_near (sgl 1 0) a 27 O2 A1 ltac:(lia)) as (B1 & _ & B3). { unfold Rminus. apply (add_bound _ _ 26); [rewrite O1; change (bpow radix2 26) with 67108864%R; apply Rabs_le; lra | now rewrite Rabs_Ropp]. }
  set (b := ssub _ _) in *. clearbody b.
  destruct (mul_near b b 54 B1 B1 ltac:(lia) (mul_bound _ _ 27 27 B3 B3)) as (C1 & _ & C3). destruct (mul_near _ (q p0) 61 C1 P1 ltac:(lia) (mul_bound _ _ 54 7 C3 P3)) as (D1 & _ & D3).
  destruct (mul_near (sgl 2 0) b 28 T2 B1 ltac:(lia) (mul_bound _ _ 1 27 T3 B3)) as (E1 & _ & E3). destruct (mul_near _ a 54 E1 A1 ltac:(lia) (mul_bound _ _ 28 26 E3 A2)) as (F1 & _ & F3). destruct (mul_near _ (q p1) 61 F1 Q1 ltac:(lia) (mul_bound _ _ 54 7 F3 Q3)) as (G1 & _ & G3).
  destruct (mul_near a a 52 A1 A1 ltac:(lia) (mul_bound _ _ 26 26 A2 A2)) as (I1 & _ & I3). destruct (mul_near _ (q p2) 59 I1 R1 ltac:(lia) (mul_bound _ _ 52 7 I3 R3)) as (J1 & _ & J3).
  destruct (add_near _ _ 62 D1 G1 ltac:(lia) (add_bound _ _ 61 D3 G3)) as (K1 & _ & K3). exact (proj1 (add_near _ _ 63 K1 J1 ltac:(lia) (add_bound _ _ 62 K3 (bpow_mono _ _ 62 J3 ltac:(lia))))).
Qed.
Lemma mul_rnd : forall x y e, (-100 <= e <= 100)%Z -> (Rabs (B2R x * B2R y) <= bpow radix2 e)%R -> B2R (smul x y) = rnd (B2R x * B2R y).
Proof. intros x y e E B. pose proof (Bmult_correct 24 128 _ _ mode_NE x y) as C. rewrite (below_emax _ e E B) in C. exact (proj1 C). Qed.
Lemma sub_rnd : forall x y e, num x -> num y -> (-100 <= e <= 100)%Z -> (Rabs (B2R x - B2R y) <= bpow radix2 e)%R -> B2R (ssub x y) = rnd (B2R x - B2R y).
Proof. intros x y e Fx Fy E B. pose proof (Bminus_correct 24 128 _ _ mode_NE x y Fx Fy) as C. rewrite (below_emax _ e E B) in C. exact (proj1 C). Qed.
Lemma sqrt_near : forall x e, num x -> (0 <= B2R x)%R -> (-50 <= e <= 50)%Z -> (B2R x <= bpow radix2 (2 * e))%R -> near (Bsqrt mode_NE x) (sqrt (B2R x)) e.
Proof.
  intros x e F P E B. destruct (Bsqrt_correct 24 128 _ _ mode_NE x) as (C1 & C2 & _). unfold near. rewrite C1.
  assert (R : (Rabs (sqrt (B2R x)) <= bpow radix2 e)%R). { rewrite Rabs_pos_eq by apply sqrt_pos. rewrite <- (sqrt_Rsqr (bpow radix2 e)) by apply bpow_ge_0. apply sqrt_le_1_alt. unfold Rsqr. rewrite <- bpow_plus. replace (e + e) with (2 * e) by lia. exact B. }
  split; [|apply rnd_err; [lia | exact R]]. rewrite C2. destruct x as [s| | |[|] m k H]; try discriminate; try reflexivity. exfalso. pose proof (F2R_lt_0 radix2 (Float radix2 (Zneg m) k) ltac:(cbn; lia)) as N. exact (Rlt_not_le _ _ N P).
Qed.
Lemma int_bound : forall z e, 0 <= e -> Z.abs z <= 2^e -> (Rabs (IZR z) <= bpow radix2 e)%R.
Proof. intros z e E A. rewrite <- abs_IZR. change (2^e) with (radix2^e) in A. rewrite <- IZR_Zpower by exact E. now apply IZR_le. Qed.
(* the discriminant *)
Lemma disc_ok : forall n n1 n2, 0 < n2 <= 2^23 -> 0 <= n1 <= n2 -> 0 <= n <= n2 -> let beta := sgl (2 * (n1 - 0)) 0 in let d := ssub (smul beta beta) (smul (smul (sgl 4 0) (sgl (0 - 2 * n1 + n2) 0)) (sgl (0 - n) 0)) in
  num d /\ (0 <= B2R d <= bpow radix2 50)%R.
Proof.
  intros n n1 n2 N N1 M. cbv zeta. change (2^23) with 8388608 in N. destruct (sgl_int (2 * (n1 - 0)) ltac:(lia)) as (B1 & B2), (sgl_int (0 - 2 * n1 + n2) ltac:(lia)) as (A1 & A2), (sgl_int (0 - n) ltac:(lia)) as (G1 & G2), (sgl_int 4 ltac:(lia)) as (F1 & F2).
  set (beta := sgl (2 * (n1 - 0)) 0) in *. set (alpha := sgl (0 - 2 * n1 + n2) 0) in *. set (gamma := sgl (0 - n) 0) in *. set (four := sgl 4 0) in *. clearbody beta alpha gamma four.
  assert (BB : (Rabs (B2R beta) <= bpow radix2 24)%R) by (rewrite B1; apply int_bound; lia). assert (AB : (Rabs (B2R alpha) <= bpow radix2 23)%R) by (rewrite A1; apply int_bound; lia). assert (GB : (Rabs (B2R gamma) <= bpow radix2 23)%R) by (rewrite G1; apply int_bound; lia). assert (FB : (Rabs (B2R four) <= bpow radix2 2)%R) by (rewrite F1; apply int_bound; lia).
  pose proof (mul_bound _ _ 24 24 BB BB) as E1. destruct (mul_near beta beta 48 B2 B2 ltac:(lia) E1) as (P1 & _ & P3). pose proof (mul_rnd beta beta 48 ltac:(lia) E1) as P4.
  pose proof (mul_bound _ _ 2 23 FB AB) as E2. destruct (mul_near four alpha 25 F2 A2 ltac:(lia) E2) as (Q1 & _ & Q3). pose proof (mul_rnd four alpha 25 ltac:(lia) E2) as Q4.
  assert (X : (B2R four * B2R alpha)%R = F2R (Float radix2 (0 - 2 * n1 + n2) 2)) by (rewrite F1, A1; unfold F2R; cbn [Fnum Fexp]; change (bpow radix2 2) with 4%R; lra).
  assert (GX : fmt (B2R four * B2R alpha)) by (rewrite X; apply fmt_F2R; [exact prec24 | lia | lia]). rewrite (round_generic radix2 _ (round_mode mode_NE) _ GX) in Q4.
  pose proof (mul_bound _ _ 25 23 Q3 GB) as E3. destruct (mul_near _ gamma 48 Q1 G2 ltac:(lia) E3) as (S1 & _ & S3). pose proof (mul_rnd _ gamma 48 ltac:(lia) E3) as S4. set (ag := smul (smul four alpha) gamma) in *. set (bb := smul beta beta) in *. clearbody ag bb.
  assert (L : (B2R ag <= B2R bb)%R).
  { rewrite S4, P4. apply round_le; [exact vexp24 | apply valid_rnd_N|]. rewrite Q4, F1, A1, G1, B1. rewrite <- !mult_IZR. apply IZR_le. assert (0 <= n1 - n \/ n1 <= n) by lia. nia. }
  assert (E4 : (Rabs (B2R bb - B2R ag) <= bpow radix2 49)%R) by (apply (add_bound _ _ 48); [exact P3 | now rewrite Rabs_Ropp]).
  destruct (sub_near bb ag 49 P1 S1 ltac:(lia) E4) as (D1 & _ & D3). split; [exact D1|]. split.
  - rewrite (sub_rnd bb ag 49 P1 S1 ltac:(lia) E4). apply round_ge_generic; [exact vexp24 | apply valid_rnd_N | apply generic_format_0 | lra].
  - apply Rabs_le_inv in D3. eapply Rle_trans; [apply D3|]. apply bpow_le. lia.
Qed.

Lemma is0 : forall z, Z.abs z <= 2^24 -> Beqb (sgl z 0) (sgl 0 0) = (z =? 0).
Proof.
  intros z H. destruct (sgl_int z H) as (A1 & A2), (sgl_int 0 ltac:(lia)) as (B1 & B2). rewrite Beqb_correct by assumption. rewrite A1, B1. destruct (Z.eqb_spec z 0) as [->|N]; [now apply Req_bool_true|]. apply Req_bool_false. now apply IZR_neq.
Qed.
Lemma opp_val : forall x : single, num x -> num (Bopp x) /\ B2R (Bopp x) = (- B2R x)%R.
Proof. intros x F. rewrite is_finite_Bopp, B2R_Bopp. auto. Qed.
Lemma quot_bound : forall x y e f, (Rabs x <= bpow radix2 e)%R -> (bpow radix2 f <= Rabs y)%R -> (Rabs (x / y) <= bpow radix2 (e - f))%R.
Proof.
  intros x y e f A B. pose proof (bpow_gt_0 radix2 f) as P. assert (N : y <> 0%R) by (intros ->; rewrite Rabs_R0 in B; lra). unfold Rdiv. rewrite Rabs_mult, Rabs_inv. unfold Zminus. rewrite bpow_plus, bpow_opp. apply Rmult_le_compat; [apply Rabs_pos | left; apply Rinv_0_lt_compat; lra | exact A | apply Rinv_le; lra].
Qed.
Lemma root_ok : forall n n1 n2, 0 < n2 <= 2^23 -> 0 <= n1 <= n2 -> 0 <= n <= n2 -> num (root n n1 n2) /\ (Rabs (B2R (root n n1 n2)) <= bpow radix2 26)%R.
Proof.
  intros n n1 n2 N N1 M. pose proof (disc_ok n n1 n2 N N1 M) as D. cbv zeta in D. change (2^23) with 8388608 in N. unfold root. cbv zeta. rewrite is0 by lia.
  destruct (sgl_int (2 * (n1 - 0)) ltac:(lia)) as (B1 & B2), (sgl_int (0 - 2 * n1 + n2) ltac:(lia)) as (A1 & A2), (sgl_int (0 - n) ltac:(lia)) as (G1 & G2), (sgl_int 2 ltac:(lia)) as (F1 & F2).
  set (beta := sgl (2 * (n1 - 0)) 0) in *. set (alpha := sgl (0 - 2 * n1 + n2) 0) in *. set (gamma := sgl (0 - n) 0) in *. set (two := sgl 2 0) in *.
  assert (BB : (Rabs (B2R beta) <= bpow radix2 24)%R) by (rewrite B1; apply int_bound; lia). assert (AB : (Rabs (B2R alpha) <= bpow radix2 23)%R) by (rewrite A1; apply int_bound; lia). assert (GB : (Rabs (B2R gamma) <= bpow radix2 23)%R) by (rewrite G1; apply int_bound; lia).
  destruct (Z.eqb_spec (0 - 2 * n1 + n2) 0) as [Z0|NZ].
  - destruct (opp_val gamma G2) as (O1 & O2). assert (X : (Rabs (B2R (Bopp gamma) / B2R beta) <= bpow radix2 (23 - 0))%R).
    { apply quot_bound; [now rewrite O2, Rabs_Ropp|]. rewrite B1, <- abs_IZR. change (bpow radix2 0) with 1%R. apply IZR_le. lia. }
    destruct (div_near _ beta 23 O1 ltac:(rewrite B1; apply IZR_neq; lia) ltac:(lia) X) as (R1 & _ & R3). split; [exact R1|]. apply (bpow_mono _ 23); [exact R3 | lia].
  - clearbody beta alpha gamma two. destruct D as (D1 & D2 & D3). set (d := ssub _ _) in *. clearbody d. destruct (sqrt_near d 25 D1 D2 ltac:(lia) D3) as (S1 & _ & S3). destruct (opp_val beta B2) as (O1 & O2).
    destruct (add_near _ _ 26 O1 S1 ltac:(lia)) as (T1 & _ & T3). { apply (add_bound _ _ 25); [|exact S3]. rewrite O2, Rabs_Ropp. apply (bpow_mono _ 24); [exact BB | lia]. }
    assert (E2 : (B2R two * B2R alpha)%R = IZR (2 * (0 - 2 * n1 + n2))) by (rewrite F1, A1, mult_IZR; reflexivity).
    destruct (mult_exact 24 128 two alpha) as (U1 & U2); [rewrite E2; apply fmt_int; lia | rewrite E2; apply (lt_bpow _ 24); [lia | rewrite <- abs_IZR; apply IZR_le; lia | lia]|]. fold (smul two alpha) in U1, U2. rewrite E2 in U1.
    assert (X : (Rabs (B2R (sadd (Bopp beta) (Bsqrt mode_NE d)) / B2R (smul two alpha)) <= bpow radix2 (26 - 1))%R).
    { apply quot_bound; [exact T3|]. rewrite U1, <- abs_IZR. change (bpow radix2 1) with 2%R. apply IZR_le. lia. }
    destruct (div_near _ (smul two alpha) 25 T1 ltac:(rewrite U1; apply IZR_neq; lia) ltac:(lia) X) as (R1 & _ & R3). split; [exact R1|]. apply (bpow_mono _ 25); [exact R3 | lia].
Qed.
(* Every gain is a number: no invalid operation, no overflow *)
Theorem C71_defined : forall n n2 p0 p1 p2 t, 0 < n2 <= 2^23 -> 0 <= n <= n2 -> 0 <= t < 256 -> gain16 p0 -> gain16 p1 -> gain16 p2 ->
  num (q7_8_to_float p0) /\ num (float_linear n n2 p0 p2) /\ num (float_bezier n n2 p0 p1 p2 t).
Proof.
  intros n n2 p0 p1 p2 t N M T H0 H1 H2. split; [apply (q_val p0 H0)|]. split; [apply (ramp_near n n2 p0 p2 M); [lia | exact H0 | exact H2]|].
  unfold float_bezier. rewrite bezier_steps. destruct (root_ok n (float_control n2 t) n2 N (proj1 (C71_control n2 t N T)) M) as (R1 & R2). now apply quad_finite.
Qed.

Lemma bpow_S : forall k, bpow radix2 (k + 1) = (2 * bpow radix2 k)%R.
Proof. intro k. rewrite bpow_plus. change (bpow radix2 1) with 2%R. ring. Qed.
(* The square root of a rounded square is the number itself. *)
Lemma sqrt_sq : forall z, 1 <= z <= 2^24 -> rnd (sqrt (rnd (IZR z * IZR z))) = IZR z.
Proof.
  intros z Hz. set (x := IZR z). assert (X1 : (1 <= x)%R) by (apply IZR_le; lia). assert (FX : fmt x) by (apply fmt_int; lia).
  destruct (mag radix2 x) as (e & He). specialize (He ltac:(lra)). rewrite Rabs_pos_eq in He by lra. destruct He as (L & U).
  assert (E1 : 1 <= e). { destruct (Z.le_gt_cases 1 e) as [|C]; [assumption|]. assert (bpow radix2 e <= bpow radix2 0)%R by (apply bpow_le; lia). change (bpow radix2 0) with 1%R in *. lra. }
  assert (E2 : e <= 25). { assert (bpow radix2 (e - 1) < bpow radix2 25)%R as Q. { eapply Rle_lt_trans; [exact L|]. apply Rle_lt_trans with (bpow radix2 24); [|apply bpow_lt; lia]. change (bpow radix2 24) with (IZR (2^24)). apply IZR_le. lia. } apply (Raux.lt_bpow radix2) in Q. lia. }
  set (r := rnd (x * x)). set (s := sqrt r).
  assert (H : bpow radix2 e = (2 * bpow radix2 (e - 1))%R) by (rewrite <- bpow_S; f_equal; lia).
  set (h := bpow radix2 (e - 1)) in *. assert (HP : (0 < h)%R) by apply bpow_gt_0.
  assert (HH : (h * h)%R = bpow radix2 (2 * e - 2)) by (unfold h; rewrite <- bpow_plus; f_equal; lia).
  assert (R0 : (h * h <= r)%R). { apply round_ge_generic; [exact vexp24 | apply valid_rnd_N | rewrite HH; apply generic_format_bpow; unfold SpecFloat.fexp, SpecFloat.emin; lia | nra]. }
  assert (S2 : (s * s = r)%R) by (apply sqrt_sqrt; nra). assert (S0 : (0 <= s)%R) by apply sqrt_pos. assert (S1 : (h <= s)%R) by nra.
  set (u := bpow radix2 (e - 25)). assert (UP : (0 < u)%R) by apply bpow_gt_0.
  assert (HU : (h = 16777216 * u)%R) by (unfold h, u; replace (e - 1) with (24 + (e - 25)) by lia; rewrite bpow_plus; reflexivity).
  assert (D : (Rabs (s - x) < u)%R).
  { destruct (Rlt_or_le (x * x) (2 * (h * h))) as [C|C].
    - assert (B : (Rabs (x * x) <= bpow radix2 (2 * e - 1))%R) by (rewrite Rabs_pos_eq by nra; replace (2 * e - 1) with (2 * e - 2 + 1) by lia; rewrite bpow_S, <- HH; lra).
      destruct (rnd_err (x * x) (2 * e - 1) ltac:(lia) B) as (Er & _). fold r in Er. replace (bpow radix2 (2 * e - 1 - 25)) with (h * u)%R in Er by (unfold h, u; rewrite <- bpow_plus; f_equal; lia).
      apply Rabs_le_inv in Er. apply Rabs_def1; nra.
    - assert (R1 : (2 * (h * h) <= r)%R). { apply round_ge_generic; [exact vexp24 | apply valid_rnd_N | | lra]. rewrite HH. rewrite <- bpow_S. apply generic_format_bpow. unfold SpecFloat.fexp, SpecFloat.emin. lia. }
      assert (B : (Rabs (x * x) <= bpow radix2 (2 * e))%R) by (rewrite Rabs_pos_eq by nra; replace (2 * e) with (e + e) by lia; rewrite bpow_plus; nra).
      destruct (rnd_err (x * x) (2 * e) ltac:(lia) B) as (Er & _). fold r in Er. replace (bpow radix2 (2 * e - 25)) with (2 * h * u)%R in Er by (unfold h, u; change 2%R with (bpow radix2 1); rewrite <- !bpow_plus; f_equal; lia).
      apply Rabs_le_inv in Er. assert (SX : (2 * h < s + x)%R) by nra. apply Rabs_def1; nra. }
  apply Rabs_def2 in D.
  assert (M : mag radix2 x = e :> Z). { apply mag_unique. rewrite Rabs_pos_eq by lra. split; assumption. }
  assert (UL : ulp radix2 (SpecFloat.fexp 24 128) x = (2 * u)%R). { rewrite ulp_neq_0 by lra. unfold cexp. rewrite M. unfold u. change 2%R with (bpow radix2 1). rewrite <- bpow_plus. f_equal. unfold SpecFloat.fexp, SpecFloat.emin. lia. }
  destruct (Req_dec x h) as [XH|XH].
  - assert (r = x * x)%R as RX. { unfold r. apply round_generic; [apply valid_rnd_N|]. rewrite XH, HH. apply generic_format_bpow. unfold SpecFloat.fexp, SpecFloat.emin. lia. } unfold s. rewrite RX, sqrt_square by lra. apply round_generic; [apply valid_rnd_N | exact FX].
  - apply Rle_antisym.
    + apply round_N_le_midp; [exact vexp24 | exact FX|]. rewrite succ_eq_pos by lra. rewrite UL. lra.
    + apply round_N_ge_midp; [exact vexp24 | exact FX|]. rewrite pred_eq_pos by lra. unfold pred_pos. rewrite M. fold h. rewrite Req_bool_false by exact XH. rewrite UL. lra.
Qed.

(* ---- what the values are ---- *)
Lemma mulx : forall x y v, num x -> num y -> (B2R x * B2R y = v)%R -> fmt v -> (Rabs v <= bpow radix2 100)%R -> num (smul x y) /\ B2R (smul x y) = v.
Proof.
  intros x y v Fx Fy E G B. destruct (mul_near x y 100 Fx Fy ltac:(lia) ltac:(now rewrite E)) as (M1 & _). split; [exact M1|]. rewrite (mul_rnd x y 100 ltac:(lia)) by now rewrite E. rewrite E. apply round_generic; [apply valid_rnd_N | exact G].
Qed.
Lemma subx : forall x y v, num x -> num y -> (B2R x - B2R y = v)%R -> fmt v -> (Rabs v <= bpow radix2 100)%R -> num (ssub x y) /\ B2R (ssub x y) = v.
Proof.
  intros x y v Fx Fy E G B. destruct (sub_near x y 100 Fx Fy ltac:(lia) ltac:(now rewrite E)) as (M1 & _). split; [exact M1|]. rewrite (sub_rnd x y 100 Fx Fy ltac:(lia)) by now rewrite E. rewrite E. apply round_generic; [apply valid_rnd_N | exact G].
Qed.
Lemma addx : forall x y v, num x -> num y -> (B2R x + B2R y = v)%R -> fmt v -> (Rabs v <= bpow radix2 100)%R -> num (sadd x y) /\ B2R (sadd x y) = v.
Proof.
  intros x y v Fx Fy E G B. destruct (add_exact x y Fx Fy) as (A1 & A2); [now rewrite E | rewrite E; eapply Rle_lt_trans; [exact B | apply bpow_lt; lia]|]. split; [exact A1 | now rewrite A2].
Qed.
Lemma root_start : forall n1 n2, 0 < n2 <= 2^23 -> 0 <= n1 <= n2 -> B2R (root 0 n1 n2) = 0%R.
Proof.
  intros n1 n2 N N1. pose proof (disc_ok 0 n1 n2 N N1 ltac:(lia)) as D. cbv zeta in D. change (2^23) with 8388608 in N. unfold root. cbv zeta. rewrite is0 by lia.
  destruct (sgl_int (2 * (n1 - 0)) ltac:(lia)) as (B1 & B2), (sgl_int (0 - 2 * n1 + n2) ltac:(lia)) as (A1 & A2), (sgl_int (0 - 0) ltac:(lia)) as (G1 & G2), (sgl_int 2 ltac:(lia)) as (F1 & F2), (sgl_int 4 ltac:(lia)) as (H1 & H2).
  set (beta := sgl (2 * (n1 - 0)) 0) in *. set (alpha := sgl (0 - 2 * n1 + n2) 0) in *. set (gamma := sgl (0 - 0) 0) in *. set (two := sgl 2 0) in *. set (four := sgl 4 0) in *. change (IZR (0 - 0)) with 0%R in G1.
  assert (B100 : forall z, Z.abs z <= 2^25 -> (Rabs (IZR z) <= bpow radix2 100)%R) by (intros z Hz; apply (bpow_mono _ 25); [apply int_bound; lia | lia]).
  destruct (Z.eqb_spec (0 - 2 * n1 + n2) 0) as [Z0|NZ].
  - destruct (opp_val gamma G2) as (O1 & O2). destruct (div_exact 24 128 (Bopp gamma) beta) as (D1 & _); rewrite ?O2, ?G1, ?B1; try (apply IZR_neq; lia).
    + replace (- 0 / IZR (2 * (n1 - 0)))%R with 0%R by (unfold Rdiv; ring). apply generic_format_0.
    + replace (- 0 / IZR (2 * (n1 - 0)))%R with 0%R by (unfold Rdiv; ring). rewrite Rabs_R0. apply bpow_gt_0.
    + fold (sdiv (Bopp gamma) beta) in D1. rewrite D1, O2, G1. unfold Rdiv. ring.
  - clearbody beta alpha gamma two four. destruct D as (D1 & D2 & D3).
    assert (BB : (Rabs (B2R beta) <= bpow radix2 24)%R) by (rewrite B1; apply int_bound; lia). pose proof (mul_bound _ _ 24 24 BB BB) as E1. destruct (mul_near beta beta 48 B2 B2 ltac:(lia) E1) as (P1 & _ & P3). pose proof (mul_rnd beta beta 48 ltac:(lia) E1) as P4.
    destruct (mul_near four alpha 25 H2 A2 ltac:(lia)) as (Q1 & _). { apply (mul_bound _ _ 2 23); [rewrite H1; apply int_bound; lia | rewrite A1; apply int_bound; lia]. }
    destruct (mulx _ gamma 0 Q1 G2 ltac:(rewrite G1; ring) (generic_format_0 _ _) ltac:(rewrite Rabs_R0; apply bpow_ge_0)) as (S1 & S2).
    destruct (subx (smul beta beta) _ _ P1 S1 eq_refl) as (T1 & T2); [rewrite S2, Rminus_0_r; apply generic_format_B2R | rewrite S2, Rminus_0_r; apply (bpow_mono _ 48); [exact P3 | lia]|]. rewrite S2, Rminus_0_r in T2.
    set (d := ssub _ _) in *. clearbody d. destruct (sqrt_near d 25 D1 D2 ltac:(lia) D3) as (U1 & _). assert (U2 : B2R (Bsqrt mode_NE d) = B2R beta).
    { rewrite (proj1 (Bsqrt_correct 24 128 _ _ mode_NE d)), T2, P4, B1. destruct (Z.eq_dec n1 0) as [-> | NZ1]; [change (IZR (2 * (0 - 0))) with 0%R; rewrite Rmult_0_l, round_0 by apply valid_rnd_N; rewrite sqrt_0, round_0 by apply valid_rnd_N; reflexivity|]. apply sqrt_sq. lia. }
    destruct (opp_val beta B2) as (O1 & O2). destruct (addx _ _ 0 O1 U1 ltac:(rewrite O2, U2; ring) (generic_format_0 _ _) ltac:(rewrite Rabs_R0; apply bpow_ge_0)) as (V1 & V2).
    set (top := sadd _ _) in *. clearbody top.
    assert (E2 : (B2R two * B2R alpha)%R = IZR (2 * (0 - 2 * n1 + n2))) by (rewrite F1, A1, mult_IZR; reflexivity).
    destruct (mulx two alpha _ F2 A2 E2 ltac:(apply fmt_int; lia) ltac:(apply B100; lia)) as (W1 & W2).
    destruct (div_exact 24 128 top (smul two alpha)) as (X1 & _); rewrite ?V2, ?W2; try (apply IZR_neq; lia).
    + unfold Rdiv. rewrite Rmult_0_l. apply generic_format_0.
    + unfold Rdiv. rewrite Rmult_0_l, Rabs_R0. apply bpow_gt_0.
    + fold (sdiv top (smul two alpha)) in X1. rewrite X1, V2. unfold Rdiv. ring.
Qed.
(* The curve starts exactly at the start point, whatever its length and its control point. *)
Theorem C71_bezier_start : forall n2 p0 p1 p2 t, 0 < n2 <= 2^23 -> 0 <= t < 256 -> gain16 p0 -> gain16 p1 -> gain16 p2 ->
  B2R (float_bezier 0 n2 p0 p1 p2 t) = db p0.
Proof.
  intros n2 p0 p1 p2 t N T H0 H1 H2. unfold float_bezier. rewrite bezier_steps. pose proof (proj1 (C71_control n2 t N T)) as C. destruct (root_ok 0 (float_control n2 t) n2 N C ltac:(lia)) as (R1 & _). pose proof (root_start _ n2 N C) as R2. set (a := root _ _ _) in *. clearbody a.
  unfold quad. cbv zeta. destruct (q_val p0 H0) as (P1 & P2 & P3), (q_val p1 H1) as (Q1 & _ & _), (q_val p2 H2) as (S1 & _ & _), (sgl_int 1 ltac:(lia)) as (O1 & O2), (sgl_int 2 ltac:(lia)) as (T1 & T2).
  assert (B1 : (Rabs 1 <= bpow radix2 100)%R) by (apply (bpow_mono _ 0); [change (bpow radix2 0) with 1%R; rewrite Rabs_R1; lra | lia]). assert (B2' : (Rabs 2 <= bpow radix2 100)%R) by (apply (bpow_mono _ 1); [change (bpow radix2 1) with 2%R; apply Rabs_le; lra | lia]). assert (B0 : (Rabs 0 <= bpow radix2 100)%R) by (rewrite Rabs_R0; apply bpow_ge_0).
  assert (G1 : fmt 1) by (apply (fmt_int 1); lia). assert (G2 : fmt 2) by (apply (fmt_int 2); lia). assert (G0 : fmt 0) by apply generic_format_0. assert (GP : fmt (B2R (q p0))) by apply generic_format_B2R. pose proof (bpow_mono _ _ 100 P3 ltac:(lia)) as BP.
  destruct (subx _ a 1 O2 R1 ltac:(rewrite O1, R2; ring) G1 B1) as (X1 & X2). set (b := ssub _ _) in *. clearbody b.
  destruct (mulx b b 1 X1 X1 ltac:(rewrite X2; ring) G1 B1) as (Y1 & Y2). destruct (mulx _ (q p0) _ Y1 P1 ltac:(rewrite Y2; apply Rmult_1_l) GP BP) as (Z1 & Z2).
  destruct (mulx _ b 2 T2 X1 ltac:(rewrite T1, X2; ring) G2 B2') as (U1 & U2). destruct (mulx _ a 0 U1 R1 ltac:(rewrite R2; ring) G0 B0) as (V1 & V2). destruct (mulx _ (q p1) 0 V1 Q1 ltac:(rewrite V2; ring) G0 B0) as (W1 & W2).
  destruct (mulx a a 0 R1 R1 ltac:(rewrite R2; ring) G0 B0) as (K1 & K2). destruct (mulx _ (q p2) 0 K1 S1 ltac:(rewrite K2; ring) G0 B0) as (L1 & L2).
  destruct (addx _ _ _ Z1 W1 ltac:(rewrite Z2, W2; apply Rplus_0_r) GP BP) as (M1 & M2). destruct (addx _ _ _ M1 L1 ltac:(rewrite M2, L2; apply Rplus_0_r) GP BP) as (_ & N2). rewrite N2. exact P2.
Qed.
(* A step has its value exactly; a linear animation is within 1/16384 dB of the straight line, exactly on it at its ends. *)
Theorem C71_linear : forall n n2 p0 p2, 0 < n2 <= 2^23 -> 0 <= n <= n2 -> gain16 p0 -> gain16 p2 ->
  B2R (q7_8_to_float p0) = db p0 /\ (Rabs (B2R (float_linear n n2 p0 p2) - (db p0 + (db p2 - db p0) * IZR n / IZR n2)) <= 1 / 16384)%R /\
  (n = 0 -> B2R (float_linear n n2 p0 p2) = db p0) /\ (n = n2 -> B2R (float_linear n n2 p0 p2) = db p2).
Proof.
  intros n n2 p0 p2 N M H0 H2. split; [apply (q_val p0 H0)|]. split; [|split].
  - destruct (ramp_near n n2 p0 p2 M ltac:(lia) H0 H2) as (_ & R). change (bpow radix2 (-14)) with (/ 16384)%R in R. unfold on_line in R. unfold db.
    match goal with |- (Rabs (?x - ?y) <= _)%R => replace y with ((IZR p0 + (IZR p2 - IZR p0) * (IZR n / IZR n2)) / 256)%R by (unfold Rdiv; ring) end. lra.
  - intros ->. rewrite (proj2 (ramp_ends 0 n2 p0 p2 ltac:(lia) H0 H2 ltac:(now left))). reflexivity.
  - intros ->. rewrite (proj2 (ramp_ends n2 n2 p0 p2 ltac:(lia) H0 H2 ltac:(now right))). replace (n2 =? 0) with false by lia. reflexivity.
Qed.

(* ---- Bezier curves of up to 2048 ticks ---- *)
Lemma root_near : forall n n1 n2, 0 < n2 <= 2048 -> 0 <= n1 <= n2 -> 0 <= n <= n2 -> (Rabs (B2R (root n n1 n2) - bezier_a n n1 n2) <= / 8192 + / 8388608)%R.
Proof.
  intros n n1 n2 N N1 M. destruct (bezier_a_ok n n1 n2 (proj1 N) N1 M) as (A01 & _). pose proof (disc_ok n n1 n2 ltac:(change (2^23) with 8388608; lia) N1 M) as D. cbv zeta in D. unfold root, bezier_a in *. cbv zeta in *. rewrite is0 by lia.
  destruct (sgl_int (2 * (n1 - 0)) ltac:(lia)) as (B1 & B2), (sgl_int (0 - 2 * n1 + n2) ltac:(lia)) as (A1 & A2), (sgl_int (0 - n) ltac:(lia)) as (G1 & G2), (sgl_int 2 ltac:(lia)) as (F1 & F2), (sgl_int 4 ltac:(lia)) as (H1 & H2).
  set (beta := sgl (2 * (n1 - 0)) 0) in *. set (alpha := sgl (0 - 2 * n1 + n2) 0) in *. set (gamma := sgl (0 - n) 0) in *. set (two := sgl 2 0) in *. set (four := sgl 4 0) in *. clearbody beta alpha gamma two four.
  assert (B100 : forall z, Z.abs z <= 2^25 -> (Rabs (IZR z) <= bpow radix2 100)%R) by (intros z Hz; apply (bpow_mono _ 25); [apply int_bound; lia | lia]).
  destruct (Z.eqb_spec (0 - 2 * n1 + n2) 0) as [Z0|NZ].
  - destruct (opp_val gamma G2) as (O1 & O2). rewrite <- B1, <- G1, <- O2 in *. destruct (div_near (Bopp gamma) beta 0 O1) as (_ & R & _); [rewrite B1; apply IZR_neq; lia | lia | change (bpow radix2 0) with 1%R; apply Rabs_le; lra|]. change (bpow radix2 (0 - 25)) with (/ 33554432)%R in R. lra.
  - destruct D as (D1 & D2 & _).
    assert (K1 : 0 <= (2 * (n1 - 0)) * (2 * (n1 - 0)) <= 2^24) by (change (2^24) with 16777216; nia). assert (K2 : Z.abs (4 * (0 - 2 * n1 + n2) * (0 - n)) <= 2^24) by (change (2^24) with 16777216; nia).
    assert (K3 : 0 <= (2 * (n1 - 0)) * (2 * (n1 - 0)) - 4 * (0 - 2 * n1 + n2) * (0 - n) <= 2^24). { change (2^24) with 16777216. assert (0 <= n1 - n \/ n1 <= n) by lia. split; nia. }
    destruct (mulx beta beta _ B2 B2 ltac:(rewrite B1, <- mult_IZR; reflexivity) ltac:(apply fmt_int; lia) ltac:(apply B100; lia)) as (P1 & P2).
    destruct (mulx four alpha _ H2 A2 ltac:(rewrite H1, A1, <- mult_IZR; reflexivity) ltac:(apply fmt_int; lia) ltac:(apply B100; lia)) as (Q1 & Q2).
    destruct (mulx _ gamma _ Q1 G2 ltac:(rewrite Q2, G1, <- mult_IZR; reflexivity) ltac:(apply fmt_int; lia) ltac:(apply B100; lia)) as (S1 & S2).
    destruct (subx _ _ _ P1 S1 ltac:(rewrite P2, S2, <- minus_IZR; reflexivity) ltac:(apply fmt_int; lia) ltac:(apply B100; lia)) as (T1 & T2).
    set (d := ssub _ _) in *. clearbody d.
    replace (IZR (2 * (n1 - 0)) * IZR (2 * (n1 - 0)) - 4 * IZR (0 - 2 * n1 + n2) * IZR (0 - n))%R with (B2R d) in * by (rewrite T2, minus_IZR, !mult_IZR; reflexivity).
    assert (DB : (B2R d <= bpow radix2 (2 * 12))%R) by (rewrite T2; change (bpow radix2 (2 * 12)) with (IZR (2^24)); apply IZR_le; lia).
    destruct (sqrt_near d 12 D1 D2 ltac:(lia) DB) as (U1 & U2 & U3). change (bpow radix2 (12 - 25)) with (/ 8192)%R in U2. change (bpow radix2 12) with 4096%R in U3. 
    assert (SP : (0 <= B2R (Bsqrt mode_NE d))%R). { rewrite (proj1 (Bsqrt_correct 24 128 _ _ mode_NE d)). apply round_ge_generic; [exact vexp24 | apply valid_rnd_N | apply generic_format_0 | apply sqrt_pos]. }
    set (rt := sqrt (B2R d)) in *. set (sq := Bsqrt mode_NE d) in *. clearbody rt sq.
    destruct (opp_val beta B2) as (O1 & O2). assert (BR : (0 <= IZR (2 * (n1 - 0)) <= 4096)%R) by (split; apply IZR_le; lia).
    destruct (add_near (Bopp beta) sq 12 O1 U1 ltac:(lia)) as (V1 & V2 & V3). { rewrite O2, B1. change (bpow radix2 12) with 4096%R. apply Rabs_le_inv in U3. apply Rabs_le. lra. }
    change (bpow radix2 (12 - 25)) with (/ 8192)%R in V2. rewrite O2, B1 in V2. set (top := sadd _ _) in *. clearbody top.
    destruct (mulx two alpha (IZR (2 * (0 - 2 * n1 + n2))) F2 A2 ltac:(rewrite F1, A1, <- mult_IZR; reflexivity) ltac:(apply fmt_int; lia) ltac:(apply B100; lia)) as (W1 & W2). set (den := smul two alpha) in *. clearbody den.
    assert (EX : (2 * IZR (0 - 2 * n1 + n2) = B2R den)%R) by (rewrite W2, mult_IZR; reflexivity). rewrite EX in *.
    assert (DN : (2 <= Rabs (B2R den))%R) by (rewrite W2, <- abs_IZR; apply IZR_le; lia). assert (DNZ : B2R den <> 0%R) by (intros E0; rewrite E0, Rabs_R0 in DN; lra).
    apply Rabs_le_inv in U2, V2.
    assert (TN : (Rabs (B2R top - (- IZR (2 * (n1 - 0)) + rt)) <= / 8192 + / 8192)%R) by (apply Rabs_le; lra).
    assert (QN : (Rabs (B2R top / B2R den - (- IZR (2 * (n1 - 0)) + rt) / B2R den) <= (/ 8192 + / 8192) * / 2)%R).
    { replace (B2R top / B2R den - (- IZR (2 * (n1 - 0)) + rt) / B2R den)%R with ((B2R top - (- IZR (2 * (n1 - 0)) + rt)) * / B2R den)%R by (unfold Rdiv; ring). rewrite Rabs_mult, Rabs_inv. apply Rmult_le_compat; [apply Rabs_pos | left; apply Rinv_0_lt_compat; lra | exact TN | apply Rinv_le; lra]. }
    apply Rabs_le_inv in QN. destruct (div_near top den 1 V1 DNZ ltac:(lia)) as (_ & X2 & _). { change (bpow radix2 1) with 2%R. apply Rabs_le. lra. }
    change (bpow radix2 (1 - 25)) with (/ 16777216)%R in X2. apply Rabs_le_inv in X2. apply Rabs_le. lra.
Qed.

Lemma mul_near_R : forall u v x, (Rabs (u - v) <= / 2000000)%R -> (Rabs x <= 128)%R -> (Rabs (u * x - v * x) <= / 2000000 * 128)%R.
Proof. intros u v x A B. replace (u * x - v * x)%R with ((u - v) * x)%R by ring. rewrite Rabs_mult. apply Rmult_le_compat; auto using Rabs_pos. Qed.
Lemma quad_near : forall a a0 p0 p1 p2, num a -> (0 <= a0 <= 1)%R -> (Rabs (B2R a - a0) <= / 8192 + / 8388608)%R -> gain16 p0 -> gain16 p1 -> gain16 p2 ->
  (Rabs (B2R (quad a p0 p1 p2) - bez a0 (db p0) (db p1) (db p2)) <= / 15)%R.
Proof.
  intros a a0 p0 p1 p2 A1 A0 A2 H0 H1 H2. unfold quad. cbv zeta. destruct (q_val p0 H0) as (P1 & P2 & P3), (q_val p1 H1) as (Q1 & Q2 & Q3), (q_val p2 H2) as (R1 & R2 & R3), (sgl_int 1 ltac:(lia)) as (O1 & O2), (sgl_int 2 ltac:(lia)) as (T1 & T2).
  rewrite <- P2, <- Q2, <- R2. set (x0 := q p0) in *. set (x1 := q p1) in *. set (x2 := q p2) in *. set (one := sgl 1 0) in *. set (two := sgl 2 0) in *. clearbody x0 x1 x2 one two. clear P2 Q2 R2. change (bpow radix2 7) with 128%R in *.
  apply Rabs_le_inv in A2. set (A := B2R a) in *.
  destruct (sub_near one a 1 O2 A1 ltac:(lia)) as (B1 & B2 & _). { rewrite O1. fold A. change (bpow radix2 1) with 2%R. apply Rabs_le. lra. }
  change (bpow radix2 (1 - 25)) with (/ 16777216)%R in B2. rewrite O1 in B2. fold A in B2. set (b := ssub _ _) in *. clearbody b. set (B := B2R b) in *. apply Rabs_le_inv in B2.
  destruct (mul_near b b 1 B1 B1 ltac:(lia)) as (C1 & C2 & C3). { fold B. change (bpow radix2 1) with 2%R. apply Rabs_le. nra. }
  change (bpow radix2 (1 - 25)) with (/ 16777216)%R in C2. change (bpow radix2 1) with 2%R in C3. fold B in C2. set (bb := smul b b) in *. clearbody bb. set (BB := B2R bb) in *.
  destruct (mul_near bb x0 8 C1 P1 ltac:(lia) (mul_bound _ _ 1 7 C3 P3)) as (D1 & D2 & D3). change (bpow radix2 (8 - 25)) with (/ 131072)%R in D2. fold BB in D2. set (u0 := smul bb x0) in *. clearbody u0. set (U0 := B2R u0) in *.
  assert (TB : (B2R two * B = 2 * B)%R) by (rewrite T1; reflexivity).
  destruct (mul_near two b 2 T2 B1 ltac:(lia)) as (E1 & E2 & E3). { fold B. rewrite TB. change (bpow radix2 2) with 4%R. apply Rabs_le. lra. }
  change (bpow radix2 (2 - 25)) with (/ 8388608)%R in E2. change (bpow radix2 2) with 4%R in E3. fold B in E2. rewrite TB in E2. set (tb := smul two b) in *. clearbody tb. set (TBv := B2R tb) in *. apply Rabs_le_inv in E2.
  destruct (mul_near tb a 1 E1 A1 ltac:(lia)) as (F1 & F2 & F3). { fold A TBv. change (bpow radix2 1) with 2%R. apply Rabs_le. nra. }
  change (bpow radix2 (1 - 25)) with (/ 16777216)%R in F2. change (bpow radix2 1) with 2%R in F3. fold A TBv in F2. set (tba := smul tb a) in *. clearbody tba. set (AB := B2R tba) in *.
  destruct (mul_near tba x1 8 F1 Q1 ltac:(lia) (mul_bound _ _ 1 7 F3 Q3)) as (G1 & G2 & G3). change (bpow radix2 (8 - 25)) with (/ 131072)%R in G2. fold AB in G2. set (u1 := smul tba x1) in *. clearbody u1. set (U1 := B2R u1) in *.
  destruct (mul_near a a 1 A1 A1 ltac:(lia)) as (I1 & I2 & I3). { fold A. change (bpow radix2 1) with 2%R. apply Rabs_le. nra. }
  change (bpow radix2 (1 - 25)) with (/ 16777216)%R in I2. change (bpow radix2 1) with 2%R in I3. fold A in I2. set (aa := smul a a) in *. clearbody aa. set (AA := B2R aa) in *.
  destruct (mul_near aa x2 8 I1 R1 ltac:(lia) (mul_bound _ _ 1 7 I3 R3)) as (J1 & J2 & J3). change (bpow radix2 (8 - 25)) with (/ 131072)%R in J2. fold AA in J2. set (u2 := smul aa x2) in *. clearbody u2. set (U2 := B2R u2) in *.
  destruct (add_near u0 u1 9 D1 G1 ltac:(lia) (add_bound _ _ 8 D3 G3)) as (K1 & K2 & K3). change (bpow radix2 (9 - 25)) with (/ 65536)%R in K2. fold U0 U1 in K2. set (s := sadd u0 u1) in *. clearbody s. set (S := B2R s) in *.
  destruct (add_near s u2 10 K1 J1 ltac:(lia) (add_bound _ _ 9 K3 (bpow_mono _ _ 9 J3 ltac:(lia)))) as (_ & L2 & _). change (bpow radix2 (10 - 25)) with (/ 32768)%R in L2. fold S U2 in L2. set (W := B2R (sadd s u2)) in *.
  clearbody A B BB U0 TBv AB U1 AA U2 S W. set (X0 := B2R x0) in *. set (X1 := B2R x1) in *. set (X2 := B2R x2) in *. clearbody X0 X1 X2. clear TB T1 O1.
  apply Rabs_le_inv in C2, D2, F2, G2, I2, J2, K2, L2. clear C3 E3 F3 I3 D3 G3 J3 K3.
  (* the coefficients *)
  assert (BE : (Rabs (BB - (1 - A) * (1 - A)) <= / 2000000)%R). { replace (BB - (1 - A) * (1 - A))%R with ((BB - B * B) + (B - (1 - A)) * (B + (1 - A)))%R by ring. set (y := (B - (1 - A))%R). assert (- / 16777216 <= y <= / 16777216)%R by (unfold y; lra). set (z := (B + (1 - A))%R). assert (-3 <= z <= 3)%R by (unfold z; lra). apply Rabs_le. nra. }
  assert (TE : (Rabs (AB - 2 * (1 - A) * A) <= / 2000000)%R). { replace (AB - 2 * (1 - A) * A)%R with ((AB - TBv * A) + (TBv - 2 * (1 - A)) * A)%R by ring. set (y := (TBv - 2 * (1 - A))%R). assert (- / 4000000 <= y <= / 4000000)%R by (unfold y; lra). apply Rabs_le. nra. }
  assert (AE : (Rabs (AA - A * A) <= / 2000000)%R) by (apply Rabs_le; lra).
  pose proof (mul_near_R _ _ X0 BE P3) as M0. pose proof (mul_near_R _ _ X1 TE Q3) as M1. pose proof (mul_near_R _ _ X2 AE R3) as M2.
  (* the parameter *)
  assert (V : ((1 - A) * (1 - A) * X0 + 2 * (1 - A) * A * X1 + A * A * X2 - bez a0 X0 X1 X2 = (A - a0) * ((2 - A - a0) * (X1 - X0) + (A + a0) * (X2 - X1)))%R) by (unfold bez; ring).
  apply Rabs_le_inv in P3, Q3, R3.
  assert (D0 : (Rabs ((2 - A - a0) * (X1 - X0)) <= (2 - A - a0 + / 2000) * 256)%R). { rewrite Rabs_mult. apply Rmult_le_compat; try apply Rabs_pos; apply Rabs_le; lra. }
  assert (D1' : (Rabs ((A + a0) * (X2 - X1)) <= (A + a0 + / 2000) * 256)%R). { rewrite Rabs_mult. apply Rmult_le_compat; try apply Rabs_pos; apply Rabs_le; lra. }
  assert (DD : (Rabs ((2 - A - a0) * (X1 - X0) + (A + a0) * (X2 - X1)) <= 513)%R) by (eapply Rle_trans; [apply Rabs_triang | lra]).
  assert (VE : (Rabs ((A - a0) * ((2 - A - a0) * (X1 - X0) + (A + a0) * (X2 - X1))) <= (/ 8192 + / 8388608) * 513)%R). { rewrite Rabs_mult. apply Rmult_le_compat; try apply Rabs_pos; [apply Rabs_le; lra | exact DD]. }
  rewrite <- V in VE. apply Rabs_le_inv in VE, M0, M1, M2. apply Rabs_le. lra.
Qed.
(* A curve of up to 2048 ticks: its value is within 1/15 dB of the curve of the specification. *)
Theorem C71_bezier : forall n n2 p0 p1 p2 t, 0 < n2 <= 2048 -> 0 <= n <= n2 -> 0 <= t < 256 -> gain16 p0 -> gain16 p1 -> gain16 p2 ->
  exists n1 a, rounded n1 n2 t /\ (0 <= a <= 1)%R /\ bez a 0 (IZR n1) (IZR n2) = IZR n /\
    (Rabs (B2R (float_bezier n n2 p0 p1 p2 t) - bez a (db p0) (db p1) (db p2)) <= 1 / 15)%R.
Proof.
  intros n n2 p0 p1 p2 t N M T H0 H1 H2. destruct (C71_control n2 t ltac:(change (2^23) with 8388608; lia) T) as (C1 & C2). set (n1 := float_control n2 t) in *.
  destruct (bezier_a_ok n n1 n2 (proj1 N) C1 M) as (A & B). exists n1, (bezier_a n n1 n2). split; [apply C2; change (2^24) with 16777216; nia|]. split; [exact A|]. split; [exact B|].
  unfold float_bezier. fold n1. rewrite bezier_steps. replace (1 / 15)%R with (/ 15)%R by lra. apply quad_near; auto; [apply root_ok; auto; change (2^23) with 8388608; lia | now apply root_near].
Qed.

(* ---- a parameter block ---- *)
(* SPEC: [g] is the gain in dB at tick [n] of a sub-block of [len] ticks, nearly *)
Definition near_curve (x : option pdata) (n len : Z) (g : R) : Prop :=
  match x with
  | Some (DStep p) => g = db p
  | Some (DLinear p e) => (Rabs (g - (db p + (db e - db p) * IZR n / IZR len)) <= 1 / 16384)%R
  | Some (DBezier s e c t) => (n = 0 -> g = db s) /\
      (len <= 2048 -> exists n1 a, rounded n1 len t /\ (0 <= a <= 1)%R /\ bez a 0 (IZR n1) (IZR len) = IZR n /\ (Rabs (g - bez a (db s) (db c) (db e)) <= 1 / 15)%R)
  | _ => False
  end.
Definition int16_gains (x : option pdata) : Prop :=
  match x with Some (DStep s) => gain16 s | Some (DLinear s e) => gain16 s /\ gain16 e | Some (DBezier s e c t) => gain16 s /\ gain16 e /\ gain16 c /\ 0 <= t < 256 | _ => True end.
(* Whatever the parameter block, the gain of each of its ticks is made from a number of dB, which is near the curve of the sub-block which covers the
   tick; [pow]: what std::pow makes of it *)
Theorem C71_block_gains : forall (pow : single -> single) d b s l old,
  pd_type (pd_kind d) = 0 -> schedule_of d b = Some s -> partitioned_as s l -> total l <= 2^23 ->
  length (bl_subs b) = length l -> Forall is_gain_data (bl_subs b) -> Forall int16_gains (bl_subs b) ->
  exists new, linear_mix_gains single q7_8_to_float float_linear float_bezier pow d b old = (Ok tt, new) /\ length new = length old /\
  forall t, (t < length old)%nat ->
    (forall i, covers l i (Z.of_nat t) -> exists g, num g /\ near_curve (nth i (bl_subs b) None) (Z.of_nat t - start_of l i) (start_of l (S i) - start_of l i) (B2R g) /\ nth_error new t = Some (pow g)) /\
    (total l <= Z.of_nat t -> nth_error new t = nth_error old t).
Proof.
  intros pow d b s l old Ty Sc Pt Tl Ls Gs Ig. pose proof Pt as (_ & _ & Pos & Tot & _). change (2^23) with 8388608 in Tl.
  assert (SL : forall i, start_of l i <= total l). { intro i. unfold start_of. rewrite <- (firstn_skipn i l) at 2. rewrite total_app. assert (F : Forall (fun d => 0 < d) (skipn i l)) by (rewrite <- (firstn_skipn i l) in Pos; apply Forall_app in Pos; apply Pos). assert (0 <= total (skipn i l)); [|lia]. clear - F. induction F as [|x m H F IH]; unfold total; cbn [fold_right]; [lia|]. unfold total in IH. lia. }
  assert (S0 : forall i, 0 <= start_of l i). { intro i. unfold start_of. assert (F : Forall (fun d => 0 < d) (firstn i l)) by (rewrite <- (firstn_skipn i l) in Pos; apply Forall_app in Pos; apply Pos). clear - F. induction F as [|x m H F IH]; unfold total; cbn [fold_right]; [lia|]. unfold total in IH. lia. }
  assert (SS : forall i, (i < length l)%nat -> start_of l (S i) = start_of l i + nth i l 0). { clear. induction l as [|x m IH]; intros i I; cbn [length] in I; [lia|]. destruct i as [|i]; [unfold start_of; cbn [firstn nth]; unfold total; cbn [fold_right]; lia|]. specialize (IH i ltac:(lia)). unfold start_of in *. cbn [firstn nth]. change (x + total (firstn (S i) m) = x + total (firstn i m) + nth i m 0). lia. }
  assert (Sh : short_curves (bl_subs b) l). { intros i x e c t Hi. assert (I : (i < length l)%nat) by (rewrite <- Ls; apply nth_error_Some; congruence). pose proof (SS i I). pose proof (SL (S i)). pose proof (S0 i). change (2^30) with 1073741824. lia. }
  destruct (C25_tick_gains_partial single q7_8_to_float float_linear float_bezier pow d b s l old Ty Sc Pt ltac:(change (2^31) with 2147483648; lia) Ls Gs Sh) as (new & E & Ln & H).
  exists new. split; [exact E|]. split; [exact Ln|]. intros t Ht. destruct (H t Ht) as [H1 H2]. split; [|exact H2]. intros i Ci. rewrite (H1 i Ci). destruct Ci as (Li & Ri). pose proof (SL (S i)) as B1. pose proof (S0 i) as B0.
  rewrite Forall_forall in Gs, Ig. assert (I : In (nth i (bl_subs b) None) (bl_subs b)) by (apply nth_In; lia). specialize (Gs _ I). specialize (Ig _ I).
  destruct (nth i (bl_subs b) None) as [[]|]; cbn [is_gain_data] in Gs; try contradiction; cbn [tick_gain near_curve int16_gains] in *.
  - eexists. split; [|split; [|reflexivity]]; now apply q_val.
  - eexists. split; [|split; [|reflexivity]].
    + apply ramp_near; [lia | change (2^24) with 16777216; lia | apply Ig | apply Ig].
    + apply C71_linear; [change (2^23) with 8388608; lia | lia | apply Ig | apply Ig].
  - destruct Ig as (I1 & I2 & I3 & I4). eexists. split; [|split; [|reflexivity]].
    + match goal with |- num (float_bezier ?n ?n2 ?p0 ?p1 ?p2 ?t) => apply (C71_defined n n2 p0 p1 p2 t); auto; [change (2^23) with 8388608; lia | lia] end.
    + split; [intros ->; apply C71_bezier_start; auto; change (2^23) with 8388608; lia|]. intro Q. apply C71_bezier; auto; lia.
Qed.

(* ---- examples ---- *)
(* the middle of a curve of 960 ticks from 0 dB to 50 dB with a control point of 100 dB: 66.312 dB *)
Lemma ex_curve : Btrunc (smul (float_bezier 480 960 0 25600 12800 64) (sgl 65536 0)) = 4345816 /\ float_control 960 64 = 240.
Proof. vm_compute. auto. Qed.
Lemma ex_block71 : exists s new, create_var [960; 1088] = Ok s /\
  let d := mkPD (mkPB 1 48000 0 (Some s)) (KMixGain 0) in let b := mkBlk 1 None [Some (DLinear 256 0); Some (DBezier 0 12800 25600 64)] in
  pd_type (pd_kind d) = 0 /\ schedule_of d b = Some s /\ partitioned_as s [960; 1088] /\ total [960; 1088] <= 2^23 /\ length (bl_subs b) = 2%nat /\ Forall is_gain_data (bl_subs b) /\ Forall int16_gains (bl_subs b) /\
  linear_mix_gains single q7_8_to_float float_linear float_bezier (fun x => x) d b (repeat (sgl 0 0) 2000) = (Ok tt, new) /\ covers [960; 1088] 1 (Z.of_nat 961).
Proof.
  pose proof (C22_variable [960; 1088] ltac:(repeat constructor; cbn; lia) ltac:(reflexivity)) as Pt. destruct (create_var [960; 1088]) as [s| | | |] eqn:Es; [|exfalso; vm_compute in Es; discriminate..].
  assert (Gd : Forall is_gain_data [Some (DLinear 256 0); Some (DBezier 0 12800 25600 64)]) by (repeat constructor).
  assert (Ig : Forall int16_gains [Some (DLinear 256 0); Some (DBezier 0 12800 25600 64)]) by (repeat constructor; unfold gain16; lia).
  destruct (C71_block_gains (fun x => x) (mkPD (mkPB 1 48000 0 (Some s)) (KMixGain 0)) (mkBlk 1 None [Some (DLinear 256 0); Some (DBezier 0 12800 25600 64)]) s [960; 1088] (repeat (sgl 0 0) 2000) eq_refl eq_refl Pt ltac:(vm_compute; discriminate) eq_refl Gd Ig) as (new & E & _ & _).
  exists s, new. split; [reflexivity|]. cbv zeta. split; [reflexivity|]. split; [reflexivity|]. split; [exact Pt|]. split; [vm_compute; discriminate|]. split; [reflexivity|]. split; [exact Gd|]. split; [exact Ig|]. split; [exact E|].
  split; [cbn [length]; lia|]. vm_compute. split; [discriminate | reflexivity].
Qed.
(* F71: a long curve whose control time is next to the middle.  The square is rounded, and the difference of two nearly equal numbers is divided
   by a small one: 100 dB where the curve has less than 92 *)
Lemma C71_long_curve_refuted : B2R (float_bezier 2000000 2097153 0 0 25600 128) = 100%R /\ (bezier_db 2000000 2097153 0 0 25600 128 < 92)%R.
Proof.
  split.
  - assert (S : B2SF (float_bezier 2000000 2097153 0 0 25600 128) = B2SF (sgl 100 0)) by (vm_compute; reflexivity). apply B2SF_inj in S. rewrite S. apply (sgl_int 100). lia.
  - destruct (C38_bezier 2000000 2097153 0 0 25600 128 ltac:(lia) ltac:(lia) ltac:(lia)) as (n1 & a & R & A & B & V & _). rewrite V. unfold rounded in R.
    assert (n1 = 1048577) as ->. { destruct R as (R1 & R2). assert (IZR n1 < IZR 1048578)%R by lra. assert (IZR 1048576 < IZR n1)%R by lra. apply lt_IZR in H, H0. lia. }
    unfold bez in *. unfold db. assert (U : (a <= 9540 / 10000)%R) by nra. nra.
Qed.
(* ... and the control time of a long curve is rounded twice, to the next tick here *)
Lemma C71_long_control_refuted : float_control 8388481 255 = control_time 8388481 255 + 1.
Proof. vm_compute. reflexivity. Qed.
