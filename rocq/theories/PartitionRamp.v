(* How exact the interpolated value of a linear animation is (DoubleEnv.float_linear). *)
From Coq Require Import Reals Psatz.
From Flocq Require Import Core BinarySingleNaN.
From Verif Require Import Base WriteBuf CodecConfig Pcm FloatFacts PropsFixed DoubleEnv.
Open Scope Z_scope.

Notation num x := (is_finite x = true).
Notation rnd := (round radix2 (SpecFloat.fexp 24 128) (round_mode mode_NE)).
Lemma rnd_err : forall x e, (-100 <= e)%Z -> (Rabs x <= bpow radix2 e)%R -> (Rabs (rnd x - x) <= bpow radix2 (e - 25))%R /\ (Rabs (rnd x) <= bpow radix2 e)%R.
Proof.
  intros x e E B. assert (G : generic_format radix2 (SpecFloat.fexp 24 128) (bpow radix2 e)).
  { apply generic_format_bpow. unfold SpecFloat.fexp, SpecFloat.emin. lia. }
  assert (V : Valid_exp (SpecFloat.fexp 24 128)) by (apply (FLT_exp_valid (3 - 128 - 24) 24)).
  split; [|apply abs_round_le_generic; [exact V | apply valid_rnd_N | exact G | exact B]].
  destruct (Req_dec x 0) as [-> | N]; [rewrite round_0 by apply valid_rnd_N; rewrite Rminus_0_r, Rabs_R0; apply bpow_ge_0|].
  destruct (Rle_lt_or_eq_dec _ _ B) as [B' | B'].
  - eapply Rle_trans; [apply error_le_half_ulp; exact V|]. rewrite ulp_neq_0 by exact N. unfold cexp. assert (M : (mag radix2 x <= e)%Z) by (apply mag_le_bpow; assumption).
    assert (L : (bpow radix2 (SpecFloat.fexp 24 128 (mag radix2 x)) <= bpow radix2 (e - 24))%R) by (apply bpow_le; unfold SpecFloat.fexp, SpecFloat.emin; lia).
    replace (bpow radix2 (e - 25)) with (/ 2 * bpow radix2 (e - 24))%R; [lra|]. replace (e - 24) with (1 + (e - 25)) by lia. rewrite bpow_plus. change (bpow radix2 1) with 2%R. field.
  - assert (GX : generic_format radix2 (SpecFloat.fexp 24 128) x) by (apply generic_format_abs_inv; rewrite B'; exact G). rewrite round_generic by (try exact GX; apply valid_rnd_N). rewrite Rminus_diag_eq, Rabs_R0 by reflexivity. apply bpow_ge_0.
Qed.
Lemma below_emax : forall x e, (-100 <= e <= 100)%Z -> (Rabs x <= bpow radix2 e)%R -> Rlt_bool (Rabs (rnd x)) (bpow radix2 128) = true.
Proof. intros x e E B. apply Rlt_bool_true. eapply Rle_lt_trans; [apply (rnd_err x e); [lia | exact B]|]. apply bpow_lt. lia. Qed.
(* [z] is the float [x] op [y] which is at most 2^e *)
Definition near (z : single) (r : R) (e : Z) : Prop := num z /\ (Rabs (B2R z - r) <= bpow radix2 (e - 25))%R /\ (Rabs (B2R z) <= bpow radix2 e)%R.
Lemma add_near : forall x y e, num x -> num y -> (-100 <= e <= 100)%Z -> (Rabs (B2R x + B2R y) <= bpow radix2 e)%R -> near (sadd x y) (B2R x + B2R y) e.
Proof.
  intros x y e Fx Fy E B. pose proof (Bplus_correct 24 128 _ _ mode_NE x y Fx Fy) as C. rewrite (below_emax _ e E B) in C. destruct C as (C1 & C2 & _). unfold near, sadd. rewrite C1. split; [exact C2|]. apply rnd_err; [lia | exact B].
Qed.
Lemma sub_near : forall x y e, num x -> num y -> (-100 <= e <= 100)%Z -> (Rabs (B2R x - B2R y) <= bpow radix2 e)%R -> near (ssub x y) (B2R x - B2R y) e.
Proof.
  intros x y e Fx Fy E B. pose proof (Bminus_correct 24 128 _ _ mode_NE x y Fx Fy) as C. rewrite (below_emax _ e E B) in C. destruct C as (C1 & C2 & _). unfold near, ssub. rewrite C1. split; [exact C2|]. apply rnd_err; [lia | exact B].
Qed.
Lemma mul_near : forall x y e, num x -> num y -> (-100 <= e <= 100)%Z -> (Rabs (B2R x * B2R y) <= bpow radix2 e)%R -> near (smul x y) (B2R x * B2R y) e.
Proof.
  intros x y e Fx Fy E B. pose proof (Bmult_correct 24 128 _ _ mode_NE x y) as C. rewrite (below_emax _ e E B) in C. destruct C as (C1 & C2 & _). unfold near, smul. rewrite C1, C2, Fx, Fy. split; [reflexivity|]. apply rnd_err; [lia | exact B].
Qed.
Lemma div_near : forall x y e, num x -> B2R y <> 0%R -> (-100 <= e <= 100)%Z -> (Rabs (B2R x / B2R y) <= bpow radix2 e)%R -> near (sdiv x y) (B2R x / B2R y) e.
Proof.
  intros x y e Fx Fy E B. pose proof (Bdiv_correct 24 128 _ _ mode_NE x y Fy) as C. rewrite (below_emax _ e E B) in C. destruct C as (C1 & C2 & _). unfold near, sdiv. rewrite C1, C2, Fx. split; [reflexivity|]. apply rnd_err; [lia | exact B].
Qed.
(* the value of a linear animation: the start value and the end value in proportion *)
Definition on_line (n n2 p0 p2 : Z) : R := (IZR p0 + (IZR p2 - IZR p0) * (IZR n / IZR n2)) / 256.
Lemma ramp_near : forall n n2 p0 p2, 0 <= n <= n2 -> 0 < n2 <= 2^24 -> - 2^15 <= p0 < 2^15 -> - 2^15 <= p2 < 2^15 ->
  num (float_linear n n2 p0 p2) /\ (Rabs (B2R (float_linear n n2 p0 p2) - on_line n n2 p0 p2) <= bpow radix2 (-14))%R.
Proof.
  intros n n2 p0 p2 Hn Hn2 Hp0 Hp2. unfold float_linear. cbv zeta. destruct (sgl_int n ltac:(lia)) as (N1 & N2), (sgl_int n2 ltac:(lia)) as (M1 & M2), (sgl_int 1 ltac:(lia)) as (O1 & O2).
  destruct (fixed_val p0 Hp0) as (P1 & P2), (fixed_val p2 Hp2) as (Q1 & Q2).
  assert (T : (0 <= IZR n / IZR n2 <= 1)%R). { assert (0 <= IZR n <= IZR n2)%R by (split; apply IZR_le; lia). assert (0 < IZR n2)%R by (apply IZR_lt; lia). split; [apply Rmult_le_pos; [lra | left; now apply Rinv_0_lt_compat]|]. apply Rmult_le_reg_r with (IZR n2); [assumption|]. unfold Rdiv. rewrite Rmult_assoc, Rinv_l by lra. lra. }
  set (tr := (IZR n / IZR n2)%R) in *.
  destruct (div_near (sgl n 0) (sgl n2 0) 0) as (A1 & A2 & A3); [exact N2 | rewrite M1; apply IZR_neq; lia | lia | rewrite N1, M1; fold tr; change (bpow radix2 0) with 1%R; apply Rabs_le; lra|].
  rewrite N1, M1 in A2. fold tr in A2. set (a := sdiv _ _) in *. clearbody a. change (bpow radix2 0) with 1%R in A3.
  change (bpow radix2 (0 - 25)) with (/ 33554432)%R in A2.
  assert (B0 : (-128 <= IZR p0 / 256 <= 128)%R). { change (2^15) with 32768 in *. change (Z.opp 32768) with (-32768) in *. assert (IZR (-32768) <= IZR p0 <= IZR 32768)%R by (split; apply IZR_le; lia). lra. }
  assert (B2 : (-128 <= IZR p2 / 256 <= 128)%R). { change (2^15) with 32768 in *. change (Z.opp 32768) with (-32768) in *. assert (IZR (-32768) <= IZR p2 <= IZR 32768)%R by (split; apply IZR_le; lia). lra. }
  assert (L : on_line n n2 p0 p2 = ((1 - tr) * (IZR p0 / 256) + tr * (IZR p2 / 256))%R) by (unfold on_line; fold tr; field). rewrite L. clear L. clearbody tr. rewrite <- P2, <- Q2 in *. set (x0 := q7_8_to_float p0) in *. set (x2 := q7_8_to_float p2) in *. clearbody x0 x2.
  apply Rabs_le_inv in A2. apply Rabs_le_inv in A3.
  destruct (sub_near (sgl 1 0) a 1 O2 A1 ltac:(lia)) as (C1 & C2 & C3). { rewrite O1. change (bpow radix2 1) with 2%R. apply Rabs_le; lra. }
  rewrite O1 in C2. change (bpow radix2 (1 - 25)) with (/ 16777216)%R in C2. change (bpow radix2 1) with 2%R in C3. set (c := ssub _ _) in *. clearbody c. apply Rabs_le_inv in C2. apply Rabs_le_inv in C3.
  assert (E1 : (Rabs (B2R c * B2R x0) <= 256)%R). { rewrite Rabs_mult. assert (Rabs (B2R c) <= 2)%R by (apply Rabs_le; lra). assert (Rabs (B2R x0) <= 128)%R by (apply Rabs_le; lra). pose proof (Rabs_pos (B2R c)). pose proof (Rabs_pos (B2R x0)). nra. }
  assert (E2 : (Rabs (B2R a * B2R x2) <= 128)%R). { rewrite Rabs_mult. assert (Rabs (B2R a) <= 1)%R by (apply Rabs_le; lra). assert (Rabs (B2R x2) <= 128)%R by (apply Rabs_le; lra). pose proof (Rabs_pos (B2R a)). pose proof (Rabs_pos (B2R x2)). nra. }
  destruct (mul_near c x0 8 C1 P1 ltac:(lia) E1) as (D1 & D2 & D3). change (bpow radix2 (8 - 25)) with (/ 131072)%R in D2. change (bpow radix2 8) with 256%R in D3. set (u := smul c x0) in *. clearbody u.
  destruct (mul_near a x2 7 A1 Q1 ltac:(lia) E2) as (F1 & F2 & F3). change (bpow radix2 (7 - 25)) with (/ 262144)%R in F2. change (bpow radix2 7) with 128%R in F3. set (v := smul a x2) in *. clearbody v.
  apply Rabs_le_inv in D2, D3, F2, F3.
  destruct (add_near u v 9 D1 F1 ltac:(lia)) as (G1 & G2 & G3). { change (bpow radix2 9) with 512%R. apply Rabs_le; lra. }
  change (bpow radix2 (9 - 25)) with (/ 65536)%R in G2. split; [exact G1|]. apply Rabs_le_inv in G2. change (bpow radix2 (-14)) with (/ 16384)%R.
  assert (W : (Rabs (B2R c - (1 - tr)) <= / 16777216 + / 33554432)%R) by (apply Rabs_le; lra). assert (W' : (Rabs (B2R a - tr) <= / 33554432)%R) by (apply Rabs_le; lra).
  assert (Y : (Rabs ((B2R c - (1 - tr)) * B2R x0) <= (/ 16777216 + / 33554432) * 128)%R). { rewrite Rabs_mult. apply Rmult_le_compat; try apply Rabs_pos; [exact W | apply Rabs_le; lra]. }
  assert (Y' : (Rabs ((B2R a - tr) * B2R x2) <= / 33554432 * 128)%R). { rewrite Rabs_mult. apply Rmult_le_compat; try apply Rabs_pos; [exact W' | apply Rabs_le; lra]. }
  apply Rabs_le_inv in Y, Y'. apply Rabs_le. lra.
Qed.

(* at the ends the value is exact *)
Lemma add_exact : forall x y : single, num x -> num y -> generic_format radix2 (SpecFloat.fexp 24 128) (B2R x + B2R y) -> (Rabs (B2R x + B2R y) < bpow radix2 128)%R ->
  num (sadd x y) /\ B2R (sadd x y) = (B2R x + B2R y)%R.
Proof.
  intros x y Fx Fy G B. pose proof (Bplus_correct 24 128 _ _ mode_NE x y Fx Fy) as C. rewrite (round_generic radix2 _ (round_mode mode_NE)) in C by exact G. rewrite (Rlt_bool_true _ _ B) in C. destruct C as (C1 & C2 & _). unfold sadd. auto.
Qed.
Lemma sub_exact : forall x y : single, num x -> num y -> generic_format radix2 (SpecFloat.fexp 24 128) (B2R x - B2R y) -> (Rabs (B2R x - B2R y) < bpow radix2 128)%R ->
  num (ssub x y) /\ B2R (ssub x y) = (B2R x - B2R y)%R.
Proof.
  intros x y Fx Fy G B. pose proof (Bminus_correct 24 128 _ _ mode_NE x y Fx Fy) as C. rewrite (round_generic radix2 _ (round_mode mode_NE)) in C by exact G. rewrite (Rlt_bool_true _ _ B) in C. destruct C as (C1 & C2 & _). unfold ssub. auto.
Qed.
Lemma ramp_ends : forall n n2 p0 p2, 0 < n2 <= 2^24 -> - 2^15 <= p0 < 2^15 -> - 2^15 <= p2 < 2^15 -> n = 0 \/ n = n2 ->
  num (float_linear n n2 p0 p2) /\ B2R (float_linear n n2 p0 p2) = (IZR (if n =? 0 then p0 else p2) / 256)%R.
Proof.
  intros n n2 p0 p2 Hn2 Hp0 Hp2 Hn. unfold float_linear. cbv zeta. destruct (sgl_int n ltac:(lia)) as (N1 & N2), (sgl_int n2 ltac:(lia)) as (M1 & M2), (sgl_int 1 ltac:(lia)) as (O1 & O2).
  destruct (fixed_val p0 Hp0) as (P1 & P2), (fixed_val p2 Hp2) as (Q1 & Q2).
  assert (NZ : (IZR n2 <> 0)%R) by (apply IZR_neq; lia).
  assert (G0 : generic_format radix2 (SpecFloat.fexp 24 128) 0) by apply generic_format_0.
  assert (G1 : generic_format radix2 (SpecFloat.fexp 24 128) 1) by (rewrite <- O1; apply generic_format_B2R).
  assert (GP : forall x : single, generic_format radix2 (SpecFloat.fexp 24 128) (B2R x)) by (intro; apply generic_format_B2R).
  assert (LT : forall x : single, (Rabs (B2R x) < bpow radix2 128)%R) by (intro; apply abs_B2R_lt_emax).
  assert (L0 : (Rabs 0 < bpow radix2 128)%R) by (rewrite Rabs_R0; apply bpow_gt_0). assert (L1 : (Rabs 1 < bpow radix2 128)%R) by (rewrite <- O1; apply LT).
  unfold sdiv, smul. set (x0 := q7_8_to_float p0) in *. set (x2 := q7_8_to_float p2) in *.
  assert (D : let a := Bdiv mode_NE (sgl n 0) (sgl n2 0) in num a /\ B2R a = (if n =? 0 then 0 else 1)%R).
  { cbv zeta. assert (Q : (IZR n / IZR n2)%R = (if n =? 0 then 0 else 1)%R). { destruct Hn as [-> | ->]; [cbn [Z.eqb]; unfold Rdiv; apply Rmult_0_l|]. replace (n2 =? 0) with false by lia. now apply Rinv_r. }
    destruct (div_exact 24 128 (sgl n 0) (sgl n2 0)) as (D1 & D2); rewrite ?N1, ?M1, ?Q; try assumption; try (destruct (n =? 0); assumption). rewrite D1, D2, N1, M1, Q. auto. }
  cbv zeta in D. destruct D as (D1 & D2). set (a := Bdiv _ _ _) in *. clearbody a.
  destruct (sub_exact (sgl 1 0) a O2 D1) as (C1 & C2); [rewrite O1, D2; destruct (n =? 0); [rewrite Rminus_0_r | rewrite Rminus_diag_eq by reflexivity]; assumption | rewrite O1, D2; destruct (n =? 0); [rewrite Rminus_0_r | rewrite Rminus_diag_eq by reflexivity]; assumption|].
  rewrite O1, D2 in C2. set (c := ssub _ _) in *. clearbody c.
  assert (U : (B2R c * B2R x0)%R = (if n =? 0 then B2R x0 else 0)%R) by (rewrite C2; destruct (n =? 0); lra).
  assert (V : (B2R a * B2R x2)%R = (if n =? 0 then 0 else B2R x2)%R) by (rewrite D2; destruct (n =? 0); lra).
  destruct (mult_exact 24 128 c x0) as (U1 & U2); [rewrite U; destruct (n =? 0); auto | rewrite U; destruct (n =? 0); auto|].
  destruct (mult_exact 24 128 a x2) as (V1 & V2); [rewrite V; destruct (n =? 0); auto | rewrite V; destruct (n =? 0); auto|].
  rewrite U in U1. rewrite V in V1. rewrite C1, P1 in U2. rewrite D1, Q1 in V2. set (u := Bmult mode_NE c x0) in *. set (v := Bmult mode_NE a x2) in *. clearbody u v.
  assert (W : (B2R u + B2R v)%R = (if n =? 0 then B2R x0 else B2R x2)%R) by (rewrite U1, V1; destruct (n =? 0); lra).
  destruct (add_exact u v U2 V2) as (W1 & W2); [rewrite W; destruct (n =? 0); auto | rewrite W; destruct (n =? 0); auto|]. split; [exact W1|]. rewrite W2, W. destruct (n =? 0); assumption.
Qed.
