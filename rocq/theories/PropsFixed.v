(* Fixed point conversions: C45. *)
From Coq Require Import Reals Psatz.
From Flocq Require Import Core BinarySingleNaN.
From Verif Require Import Base Pcm FloatFacts.
Open Scope Z_scope.

Notation num x := (is_finite x = true).
Lemma to_double_val x : num x -> num (to_double x) /\ B2R (to_double x) = B2R x.
Proof.
  intro F. destruct x as [s|s| |s m e Hm]; try discriminate; [split; reflexivity|]. unfold to_double.
  set (z := if s then Zneg m else Zpos m). assert (B2R (B754_finite s m e Hm) = F2R (Float radix2 z e)) as E by (unfold z; destruct s; reflexivity).
  pose proof (generic_format_B2R 24 128 (B754_finite s m e Hm)) as G.
  pose proof (abs_B2R_lt_emax 24 128 (B754_finite s m e Hm)) as A.
  assert (generic_format radix2 (SpecFloat.fexp 53 1024) (B2R (B754_finite s m e Hm))) as G'.
  { apply (FLT_format_generic radix2 (-149) 24) in G. destruct G as [[m0 e0] G1 G2 G3]. rewrite G1. cbn [Fnum Fexp] in *.
    apply fmt_F2R; [exact prec53| |lia]. change (Zpower radix2 24) with (2^24) in G2. lia. }
  rewrite E in *. pose proof (binary_normalize_correct 53 1024 prec53 emax1024 mode_NE z e s) as C. cbv zeta in C.
  rewrite (round_generic radix2 _ (round_mode mode_NE)) in C by exact G'.
  rewrite Rlt_bool_true in C.
  - destruct C as (C1 & C2 & _). auto.
  - eapply Rlt_trans; [exact A|]. apply bpow_lt. lia.
Qed.
Lemma q78_limit : let l := Bminus mode_NE (dbl 128 0) (Bdiv mode_NE (dbl 1 0) (dbl 256 0)) in num l /\ B2R l = (32767 / 256)%R.
Proof.
  cbv zeta. set (l := Bminus _ _ _). assert (B2SF l = B2SF (dbl 32767 (-8))) as S by (vm_compute; reflexivity).
  assert (l = dbl 32767 (-8)) as -> by (apply B2SF_inj; exact S). clear S.
  assert (F2R (Float radix2 32767 (-8)) = (32767 / 256)%R) as E by (unfold F2R, Rdiv; cbn [Fnum Fexp]; f_equal).
  unfold dbl. rewrite <- E. apply and_comm. apply normalize_exact; [lia|lia|]. rewrite E. apply (lt_bpow _ 8); [lia| |lia]. apply Rabs_le. change (2^8) with 256. lra.
Qed.
Lemma fixed_val v : - 2^15 <= v < 2^15 -> num (q7_8_to_float v) /\ B2R (q7_8_to_float v) = (IZR v / 256)%R.
Proof.
  intro H. unfold q7_8_to_float. destruct (sgl_int v ltac:(lia)) as [A1 A2], (sgl_int 1 ltac:(lia)) as [B1 B2], (sgl_int 256 ltac:(lia)) as [C1 C2].
  destruct (mult_exact 24 128 (sgl v 0) (sgl 1 0)) as [M1 M2].
  { rewrite B1, Rmult_1_r. apply generic_format_B2R. }
  { rewrite B1, Rmult_1_r. apply abs_B2R_lt_emax. }
  rewrite A2, B2 in M2. cbn [andb] in M2. rewrite A1, B1, Rmult_1_r in M1. set (m := Bmult mode_NE (sgl v 0) (sgl 1 0)) in *.
  assert (IZR v / 256 = F2R (Float radix2 v (-8)))%R as E by (unfold F2R, Rdiv; cbn [Fnum Fexp]; f_equal).
  destruct (div_exact 24 128 m (sgl 256 0)) as [D1 D2].
  - rewrite C1. lra.
  - rewrite M1, C1, E. apply fmt_F2R; [exact prec24|lia|lia].
  - rewrite M1, C1. apply (lt_bpow _ 8); [lia| |lia]. change (2^8) with 256. change (2^15) with 32768 in H. change (Z.opp 32768) with (-32768) in H.
    assert (IZR (-32768) <= IZR v <= IZR 32768)%R as [] by (split; apply IZR_le; lia). apply Rabs_le. lra.
  - rewrite D1, D2, M1, C1. auto.
Qed.
Lemma q78_accept x : num x -> (-128 <= B2R x <= 32767 / 256)%R -> float_to_q7_8 x = Ok (Ztrunc (B2R x * 256)) /\ - 2^15 <= Ztrunc (B2R x * 256) < 2^15.
Proof.
  intros F [H1 H2]. destruct q78_limit as [L1 L2]. destruct (to_double_val x F) as [D1 D2]. destruct (sgl_int (-128) ltac:(lia)) as [A1 A2], (sgl_int 256 ltac:(lia)) as [C1 C2].
  unfold float_to_q7_8. replace (is_nan x) with false by (destruct x; try discriminate; reflexivity). rewrite !Bltb_correct by assumption. rewrite A1, L2, D2.
  rewrite (Rlt_bool_false (B2R x)) by lra. rewrite Rlt_bool_false by lra. cbn [orb].
  destruct (mult_exact 24 128 x (sgl 256 0)) as [M1 M2].
  { rewrite C1. change 256%R with (bpow radix2 8). apply scale_fmt; [apply generic_format_B2R|lia]. }
  { rewrite C1. apply (lt_bpow _ 16); [lia| |lia]. change (2^16) with 65536. apply Rabs_le. lra. }
  rewrite (trunc_exact 24 128), M1, C1. assert (-32768 <= Ztrunc (B2R x * 256)) by (apply Ztrunc_ge; lra). assert (Ztrunc (B2R x * 256) <= 32767) by (apply Ztrunc_le_int; lra).
  split; [|lia]. f_equal. unfold s16, sN. cbv zeta. change (2^16) with 65536. change (2^(16-1)) with 32768. set (t := Ztrunc _) in *. destruct (t mod 65536 <? 32768) eqn:E; lia.
Qed.
Lemma trunc_near r : (Rabs (IZR (Ztrunc r) - r) < 1)%R /\ ((0 <= r)%R -> Ztrunc r = Zfloor r) /\ ((r <= 0)%R -> Ztrunc r = Zceil r).
Proof.
  split; [|split; [apply Ztrunc_floor|apply Ztrunc_ceil]]. destruct (Rle_dec 0 r) as [P|P].
  - rewrite Ztrunc_floor by lra. pose proof (Zfloor_lb r). pose proof (Zfloor_ub r). apply Rabs_def1; lra.
  - rewrite Ztrunc_ceil by lra. pose proof (Zceil_ub r). pose proof (Zceil_lb r). apply Rabs_def1; lra.
Qed.

(* Every Q7.8 value is exact as a float and comes back unchanged. *)
Theorem C45_q7_8_round_trip : forall v, - 2^15 <= v < 2^15 ->
  num (q7_8_to_float v) /\ B2R (q7_8_to_float v) = (IZR v / 256)%R /\ float_to_q7_8 (q7_8_to_float v) = Ok v.
Proof.
  intros v H. destruct (fixed_val v H) as [F E]. split; [exact F|]. split; [exact E|].
  change (2^15) with 32768 in H. change (Z.opp 32768) with (-32768) in H.
  assert (IZR (-32768) <= IZR v <= IZR 32767)%R as [] by (split; apply IZR_le; lia).
  destruct (q78_accept _ F) as [A _]; [rewrite E; lra|]. rewrite A, E. f_equal. replace (IZR v / 256 * 256)%R with (IZR v) by lra. apply Ztrunc_IZR.
Qed.
(* A float is accepted exactly when it lies in the Q7.8 range, and the result is within one step, towards zero. *)
Theorem C45_q7_8_in_range_partial : forall x,
  (num x /\ (-128 <= B2R x <= 128 - 1 / 256)%R -> exists v, float_to_q7_8 x = Ok v /\ - 2^15 <= v < 2^15 /\ (Rabs (IZR v / 256 - B2R x) < 1 / 256)%R /\
     ((0 <= B2R x)%R -> v = Zfloor (B2R x * 256)) /\ ((B2R x <= 0)%R -> v = Zceil (B2R x * 256))) /\
  (~ (num x /\ (-128 <= B2R x <= 128 - 1 / 256)%R) -> float_to_q7_8 x = Err Unknown).
Proof.
  intro x. split.
  - intros [F H]. destruct (q78_accept x F) as [A B]; [lra|]. eexists. split; [exact A|]. split; [exact B|].
    destruct (trunc_near (B2R x * 256)) as (N & P & Q). split; [|split; intro; [apply P|apply Q]; lra].
    apply Rabs_def2 in N. apply Rabs_def1; lra.
  - intro H. destruct (is_finite x) eqn:F.
    + destruct q78_limit as [L1 L2]. destruct (to_double_val x F) as [D1 D2]. destruct (sgl_int (-128) ltac:(lia)) as [A1 A2].
      unfold float_to_q7_8. rewrite !Bltb_correct by assumption. rewrite A1, L2, D2.
      destruct (Rlt_bool_spec (B2R x) (-128)); [rewrite orb_true_r; reflexivity|]. destruct (Rlt_bool_spec (32767 / 256) (B2R x)); [rewrite orb_true_r; reflexivity|].
      exfalso. apply H. split; [reflexivity|lra].
    + destruct x as [s|s| |]; try discriminate; [destruct s|]; vm_compute; reflexivity.
Qed.
(* The documentation says the result is floored; for negative values it is not (F27). *)
Theorem C45_q7_8_is_floored_refuted : exists x, num x /\ (-128 <= B2R x <= 128 - 1 / 256)%R /\ float_to_q7_8 x = Ok 0 /\ Zfloor (B2R x * 256) = -1.
Proof.
  exists (sgl (-1) (-9)). split; [vm_compute; reflexivity|].
  assert (F2R (Float radix2 (-1) (-9)) = (-1 / 512)%R) as E0 by (unfold F2R, Rdiv; cbn [Fnum Fexp]; f_equal).
  assert (B2R (sgl (-1) (-9)) = (-1 / 512)%R) as E.
  { rewrite <- E0. apply (normalize_exact 24 128); [lia|lia|]. rewrite E0. apply (lt_bpow _ 8); [lia| |lia]. apply Rabs_le. change (2^8) with 256. lra. }
  rewrite E. split; [lra|]. split; [vm_compute; reflexivity|]. apply Zfloor_imp. change (-1 + 1) with 0. split; lra.
Qed.
(* Q0.8 is floored, since it is never negative. *)
Theorem C45_q0_8_in_range : forall x,
  (num x /\ (0 <= B2R x < 1)%R -> exists v, float_to_q0_8 x = Ok v /\ 0 <= v < 2^8 /\ v = Zfloor (B2R x * 256)) /\
  (~ (num x /\ (0 <= B2R x < 1)%R) -> float_to_q0_8 x = Err Unknown).
Proof.
  intro x. destruct (sgl_int 0 ltac:(lia)) as [A1 A2], (sgl_int 1 ltac:(lia)) as [B1 B2], (sgl_int 256 ltac:(lia)) as [C1 C2]. split.
  - intros [F [H1 H2]]. unfold float_to_q0_8. replace (is_nan x) with false by (destruct x; try discriminate; reflexivity).
    rewrite Bltb_correct, Bleb_correct by assumption. rewrite A1, B1. rewrite Rlt_bool_false, Rle_bool_false by lra. cbn [orb].
    destruct (mult_exact 24 128 x (sgl 256 0)) as [M1 M2].
    { rewrite C1. change 256%R with (bpow radix2 8). apply scale_fmt; [apply generic_format_B2R|lia]. }
    { rewrite C1. apply (lt_bpow _ 16); [lia| |lia]. change (2^16) with 65536. apply Rabs_le. lra. }
    rewrite (trunc_exact 24 128), M1, C1, Ztrunc_floor by lra. exists (Zfloor (B2R x * 256)).
    assert (0 <= Zfloor (B2R x * 256)) by (apply Zfloor_lub; lra). assert (Zfloor (B2R x * 256) < 256) by (apply lt_IZR; eapply Rle_lt_trans; [apply Zfloor_lb|lra]).
    split; [f_equal; unfold u8; change (2^8) with 256; apply Z.mod_small; lia|]. split; [lia|reflexivity].
  - intro H. destruct (is_finite x) eqn:F.
    + unfold float_to_q0_8. rewrite Bltb_correct, Bleb_correct by assumption. rewrite A1, B1.
      destruct (Rlt_bool_spec (B2R x) 0); [rewrite orb_true_r; reflexivity|]. destruct (Rle_bool_spec 1 (B2R x)); [rewrite orb_true_r; reflexivity|].
      exfalso. apply H. split; [reflexivity|lra].
    + destruct x as [s|s| |]; try discriminate; [destruct s|]; vm_compute; reflexivity.
Qed.
Theorem C45_q0_8_round_trip : forall v, 0 <= v < 2^8 ->
  num (q0_8_to_float v) /\ B2R (q0_8_to_float v) = (IZR v / 256)%R /\ float_to_q0_8 (q0_8_to_float v) = Ok v.
Proof.
  intros v H. destruct (fixed_val v ltac:(lia)) as [F E]. change (q7_8_to_float v) with (q0_8_to_float v) in *. split; [exact F|]. split; [exact E|].
  change (2^8) with 256 in H. assert (IZR 0 <= IZR v <= IZR 255)%R as [] by (split; apply IZR_le; lia).
  destruct (C45_q0_8_in_range (q0_8_to_float v)) as [A _]. destruct A as (w & A & _ & ->); [split; [exact F|rewrite E; lra]|].
  rewrite A, E. f_equal. replace (IZR v / 256 * 256)%R with (IZR v) by lra. apply Zfloor_IZR.
Qed.
Example C45_ex : float_to_q7_8 (sgl 3 (-1)) = Ok 384 /\ float_to_q7_8 (sgl (-385) (-8)) = Ok (-385) /\ float_to_q7_8 (sgl 128 0) = Err Unknown /\
  float_to_q7_8 (sgl (-128) 0) = Ok (-32768) /\ float_to_q0_8 (sgl 1 (-1)) = Ok 128 /\ float_to_q0_8 (sgl 1 0) = Err Unknown /\ float_to_q0_8 B754_nan = Err Unknown.
Proof. vm_compute. auto 10. Qed.
