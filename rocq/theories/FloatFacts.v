(* Exactness of the floating point operations in Pcm.v. *)
From Coq Require Import Reals Psatz.
From Flocq Require Import Core BinarySingleNaN Mult_error.
From Verif Require Import Base Pcm.
Open Scope Z_scope.

Section Gen.
Context (prec emax : Z) {Hp : FLX.Prec_gt_0 prec} {He : Prec_lt_emax prec emax}.
Notation fmt := (generic_format radix2 (SpecFloat.fexp prec emax)).
Lemma fmt_F2R m e : Z.abs m <= 2^prec -> 3 - emax - prec <= e -> fmt (F2R (Float radix2 m e)).
Proof.
  intros Hm Hx. pose proof Hp as Hp0. unfold FLX.Prec_gt_0 in Hp0. destruct (Z.eq_dec (Z.abs m) (2^prec)) as [E|E].
  - assert (fmt (bpow radix2 (prec + e))) as B.
    { apply generic_format_bpow. unfold SpecFloat.fexp, SpecFloat.emin. lia. }
    assert (F2R (Float radix2 m e) = bpow radix2 (prec + e) \/ F2R (Float radix2 m e) = - bpow radix2 (prec + e))%R as [X|X].
    { unfold F2R. cbn [Fnum Fexp]. rewrite bpow_plus, <- (IZR_Zpower radix2 prec) by lia. cbn [radix_val radix2].
      destruct (Z.abs_eq_or_opp m) as [A|A]; [left|right].
      - replace m with (2^prec) by lia. reflexivity.
      - replace m with (- 2^prec) by lia. rewrite opp_IZR. change (IZR (2 ^ prec)) with (IZR (2 ^ prec)). rewrite <- Ropp_mult_distr_l. reflexivity. }
    + rewrite X. exact B.
    + rewrite X. apply generic_format_opp. exact B.
  - apply generic_format_FLT. exists (Float radix2 m e); [reflexivity|cbn [Fnum]; change (Zpower radix2 prec) with (2^prec); lia|cbn [Fexp]; exact Hx].
Qed.
Lemma normalize_exact m e s : Z.abs m <= 2^prec -> 3 - emax - prec <= e -> (Rabs (F2R (Float radix2 m e)) < bpow radix2 emax)%R ->
  B2R (binary_normalize prec emax Hp He mode_NE m e s) = F2R (Float radix2 m e) /\ is_finite (binary_normalize prec emax Hp He mode_NE m e s) = true.
Proof.
  intros H1 H2 H3. pose proof (binary_normalize_correct prec emax Hp He mode_NE m e s) as C. cbv zeta in C.
  rewrite (round_generic radix2 _ (round_mode mode_NE)) in C by (apply fmt_F2R; assumption).
  rewrite Rlt_bool_true in C by exact H3. destruct C as (A & B & _). auto.
Qed.
Lemma mult_exact (x y : binary_float prec emax) : fmt (B2R x * B2R y) -> (Rabs (B2R x * B2R y) < bpow radix2 emax)%R ->
  B2R (Bmult mode_NE x y) = (B2R x * B2R y)%R /\ is_finite (Bmult mode_NE x y) = is_finite x && is_finite y.
Proof.
  intros H1 H2. pose proof (Bmult_correct prec emax Hp He mode_NE x y) as C.
  rewrite (round_generic radix2 _ (round_mode mode_NE)) in C by exact H1. rewrite Rlt_bool_true in C by exact H2. destruct C as (A & B & _). auto.
Qed.
Lemma div_exact (x y : binary_float prec emax) : B2R y <> 0%R -> fmt (B2R x / B2R y) -> (Rabs (B2R x / B2R y) < bpow radix2 emax)%R ->
  B2R (Bdiv mode_NE x y) = (B2R x / B2R y)%R /\ is_finite (Bdiv mode_NE x y) = is_finite x.
Proof.
  intros H0 H1 H2. pose proof (Bdiv_correct prec emax Hp He mode_NE x y H0) as C.
  rewrite (round_generic radix2 _ (round_mode mode_NE)) in C by exact H1. rewrite Rlt_bool_true in C by exact H2. destruct C as (A & B & _). auto.
Qed.
Lemma trunc_exact (x : binary_float prec emax) : Btrunc x = Ztrunc (B2R x).
Proof.
  apply eq_IZR. rewrite Btrunc_correct. 2: exact He. unfold round, F2R, scaled_mantissa, cexp, FIX_exp. cbn [Fnum Fexp]. 
  cbn [bpow Z.opp]. rewrite !Rmult_1_r. reflexivity.
Qed.
Lemma scale_fmt x e : fmt x -> 0 <= e -> fmt (x * bpow radix2 e).
Proof. intros H1 H2. apply (mult_bpow_pos_exact_FLT radix2 (3 - emax - prec) prec); assumption. Qed.
End Gen.
Lemma F2R_0 m : F2R (Float radix2 m 0) = IZR m.
Proof. unfold F2R. cbn [Fnum Fexp bpow]. apply Rmult_1_r. Qed.
Lemma lt_bpow x p : (0 <= p)%Z -> (Rabs x <= IZR (2^p))%R -> forall q, p < q -> (Rabs x < bpow radix2 q)%R.
Proof.
  intros H0 H q Hq. eapply Rle_lt_trans; [exact H|]. change (2^p) with (radix2 ^ p). rewrite IZR_Zpower by lia. apply bpow_lt. exact Hq.
Qed.
Lemma dbl_int z : Z.abs z <= 2^53 -> B2R (dbl z 0) = IZR z /\ is_finite (dbl z 0) = true.
Proof.
  intro H. rewrite <- F2R_0. apply normalize_exact; [exact H|lia|]. rewrite F2R_0.
  apply (lt_bpow _ 53); [lia| |lia]. rewrite <- abs_IZR. apply IZR_le. lia.
Qed.
Lemma sgl_int z : Z.abs z <= 2^24 -> B2R (sgl z 0) = IZR z /\ is_finite (sgl z 0) = true.
Proof.
  intro H. rewrite <- F2R_0. apply normalize_exact; [exact H|lia|]. rewrite F2R_0.
  apply (lt_bpow _ 24); [lia| |lia]. rewrite <- abs_IZR. apply IZR_le. lia.
Qed.
Lemma two31_val : B2R two31 = IZR (2^31) /\ is_finite two31 = true.
Proof.
  unfold two31, dbl. assert (F2R (Float radix2 1 31) = IZR (2^31)) as E by (unfold F2R; cbn [Fnum Fexp]; rewrite <- (IZR_Zpower radix2) by lia; rewrite Rmult_1_l; reflexivity).
  rewrite <- E. apply normalize_exact; [lia|lia|]. rewrite E. apply (lt_bpow _ 31); [lia| |lia]. rewrite <- abs_IZR. apply IZR_le. lia.
Qed.
Lemma bpow31 : IZR (2^31) = bpow radix2 31.
Proof. change (2^31) with (radix2^31). apply IZR_Zpower. lia. Qed.
Lemma clamp_val x : is_finite x = true -> let y := clamp x (dbl (-1) 0) (dbl 1 0) in
  is_finite y = true /\ B2R y = Rmax (-1) (Rmin 1 (B2R x)).
Proof.
  intros F y. destruct (dbl_int (-1) ltac:(lia)) as [A1 A2], (dbl_int 1 ltac:(lia)) as [B1 B2]. unfold y, clamp.
  rewrite !Bltb_correct by assumption. rewrite A1, B1. destruct (Rlt_bool_spec (B2R x) (-1)) as [H|H].
  - split; [exact A2|]. rewrite A1, Rmin_right, Rmax_left by lra. reflexivity.
  - destruct (Rlt_bool_spec 1 (B2R x)) as [H1|H1].
    + split; [exact B2|]. rewrite B1, Rmin_left, Rmax_right by lra. reflexivity.
    + split; [exact F|]. rewrite Rmin_right, Rmax_right by lra. reflexivity.
Qed.
Lemma Ztrunc_ge z x : (IZR z <= x)%R -> z <= Ztrunc x.
Proof. intro H. rewrite <- (Ztrunc_IZR z). apply Ztrunc_le. exact H. Qed.
Lemma Ztrunc_le_int z x : (x <= IZR z)%R -> Ztrunc x <= z.
Proof. intro H. rewrite <- (Ztrunc_IZR z). apply Ztrunc_le. exact H. Qed.
(* saturated conversion of a real number *)
Definition to_pcm32 (x : R) : Z := Z.max (- 2^31) (Z.min (2^31 - 1) (Ztrunc (x * IZR (2^31)))).
Lemma double_to_int32_val x : is_finite x = true -> double_to_int32 x = Ok (to_pcm32 (B2R x)).
Proof.
  intro F. unfold double_to_int32. rewrite F. replace (is_nan x) with false by (destruct x; try discriminate; reflexivity). cbn [orb negb].
  destruct (clamp_val x F) as [Fc Ec]. set (y := clamp x (dbl (-1) 0) (dbl 1 0)) in *. destruct two31_val as [T1 T2].
  assert (-1 <= B2R y <= 1)%R as Hy. { rewrite Ec. split; [apply Rmax_l|]. apply Rmax_lub; [lra|apply Rmin_l]. }
  destruct (mult_exact 53 1024 y two31) as [M1 M2].
  { rewrite T1, bpow31. apply scale_fmt; [apply generic_format_B2R|lia]. }
  { rewrite T1. apply (lt_bpow _ 31); [lia| |lia]. rewrite Rabs_mult. rewrite <- (Rmult_1_l (IZR (2^31))) at 2. rewrite <- abs_IZR. change (Z.abs (2^31)) with (2^31).
    apply Rmult_le_compat_r; [apply IZR_le; lia|]. apply Rabs_le. exact Hy. }
  rewrite Fc, T2 in M2. cbn [andb] in M2. set (p := Bmult mode_NE y two31) in *. rewrite T1 in M1.
  unfold clip_to_int32. replace (is_nan p) with false by (destruct p; try discriminate; reflexivity).
  destruct (dbl_int (2^31 - 1) ltac:(lia)) as [A1 A2], (dbl_int (- 2^31) ltac:(lia)) as [B1 B2].
  rewrite !Bltb_correct by assumption. rewrite A1, B1, (trunc_exact 53 1024), M1. unfold to_pcm32. rewrite Ec.
  change (2^31) with 2147483648 in *. change (2147483648 - 1) with 2147483647 in *. change (Z.opp 2147483648) with (-2147483648) in *.
  set (r := B2R x) in *. destruct (Rlt_bool_spec (IZR 2147483647) (Rmax (-1) (Rmin 1 r) * IZR 2147483648)) as [H|H].
  - f_equal. assert (2147483647 <= Ztrunc (r * IZR 2147483648)); [|lia].
    rewrite <- (Ztrunc_IZR 2147483647). apply Ztrunc_le. destruct (Rle_dec r (-1)); [rewrite Rmin_right, Rmax_left in H by lra; lra|].
    destruct (Rle_dec r 1); [rewrite Rmin_right, Rmax_right in H by lra; lra|]. lra.
  - destruct (Rlt_bool_spec (Rmax (-1) (Rmin 1 r) * IZR 2147483648) (IZR (-2147483648))) as [H1|H1].
    + exfalso. pose proof (Rmax_l (-1) (Rmin 1 r)). lra.
    + f_equal. destruct (Rle_dec r (-1)).
      * rewrite Rmin_right, Rmax_left by lra. replace (-1 * IZR 2147483648)%R with (IZR (-2147483648)) by lra. rewrite Ztrunc_IZR.
        assert (Ztrunc (r * IZR 2147483648) <= -2147483648) by (apply Ztrunc_le_int; lra). lia.
      * destruct (Rle_dec r 1).
        -- rewrite Rmin_right, Rmax_right by lra. rewrite Rmin_right, Rmax_right in H, H1 by lra.
           assert (-2147483648 <= Ztrunc (r * IZR 2147483648)) by (apply Ztrunc_ge; lra).
           assert (Ztrunc (r * IZR 2147483648) <= 2147483647) by (apply Ztrunc_le_int; lra). lia.
        -- exfalso. rewrite Rmin_left, Rmax_right in H by lra. lra.
Qed.
Lemma int32_to_double_val v : - 2^31 <= v < 2^31 -> is_finite (int32_to_double v) = true /\ B2R (int32_to_double v) = (IZR v / IZR (2^31))%R.
Proof.
  intro H. unfold int32_to_double. destruct two31_val as [T1 T2], (dbl_int v ltac:(lia)) as [A1 A2].
  assert (IZR (2^31) <> 0)%R as Nz by (apply not_0_IZR; lia).
  assert (IZR v / IZR (2^31) = F2R (Float radix2 v (-31)))%R as E.
  { unfold F2R, Rdiv. cbn [Fnum Fexp]. f_equal. }
  destruct (div_exact 53 1024 (dbl v 0) two31) as [M1 M2].
  - rewrite T1. exact Nz.
  - rewrite A1, T1, E. apply fmt_F2R; [exact prec53|lia|lia].
  - rewrite A1, T1. apply (lt_bpow _ 0); [lia| |lia]. apply Rabs_le. change (2^31) with 2147483648 in *. change (2^0) with 1. 
    assert (IZR (- 2147483648) <= IZR v <= IZR 2147483648)%R as [V1 V2] by (split; apply IZR_le; lia).
    change (Z.opp 2147483648) with (-2147483648) in V1. split; unfold Rdiv; lra.
  - rewrite M2, A2, M1, A1, T1. auto.
Qed.
Lemma int32_round_trip v : - 2^31 <= v < 2^31 -> double_to_int32 (int32_to_double v) = Ok v.
Proof.
  intro H. destruct (int32_to_double_val v H) as [F E]. rewrite double_to_int32_val, E by exact F. f_equal. unfold to_pcm32.
  unfold Rdiv. rewrite Rmult_assoc, Rinv_l, Rmult_1_r by (apply not_0_IZR; lia). rewrite Ztrunc_IZR. lia.
Qed.
Lemma to_pcm32_mono x y : (x <= y)%R -> to_pcm32 x <= to_pcm32 y.
Proof.
  intro H. unfold to_pcm32. assert (Ztrunc (x * IZR (2^31)) <= Ztrunc (y * IZR (2^31))); [|lia].
  apply Ztrunc_le. apply Rmult_le_compat_r; [apply IZR_le; lia|exact H].
Qed.
Lemma to_pcm32_range x : - 2^31 <= to_pcm32 x < 2^31.
Proof. unfold to_pcm32. lia. Qed.
