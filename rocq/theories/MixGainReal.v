(* The interpolation formulas of InterpolateMixGainValue (common/utils/obu_util.h:82-115) over exact real arithmetic (the code
   uses float; rounding is not modelled). *)
From Coq Require Import Reals Lra.
From Verif Require Import Base WriteBuf CodecConfig ObuHeader Params MixGain.
Open Scope R_scope.

(* MODELS numeric_utils.cc Q7_8ToFloat: value / 2^8 *)
Definition q7_8 (v : Z) : R := IZR v / 256.
(* MODELS obu_util.h:88 *)
Definition step_db (p0 : Z) : R := q7_8 p0.
(* MODELS obu_util.h:91-94 *)
Definition linear_db (n n2 p0 p2 : Z) : R := let a := IZR n / IZR n2 in (1 - a) * q7_8 p0 + a * q7_8 p2.
(* MODELS obu_util.h:96-99: round(end_time * t / 2^8) *)
Definition control_time (n2 t : Z) : Z := ((2 * n2 * t + 256) / 512)%Z.
(* MODELS obu_util.h:105-111, with n_0 = 0 *)
Definition bezier_a (n n1 n2 : Z) : R :=
  let alpha := IZR (0 - 2 * n1 + n2) in let beta := IZR (2 * (n1 - 0)) in let gamma := IZR (0 - n) in
  if (0 - 2 * n1 + n2 =? 0)%Z then - gamma / beta else (- beta + sqrt (beta * beta - 4 * alpha * gamma)) / (2 * alpha).
(* MODELS obu_util.h:101-113 *)
Definition bezier_db (n n2 p0 p1 p2 t : Z) : R :=
  let a := bezier_a n (control_time n2 t) n2 in
  (1 - a) * (1 - a) * q7_8 p0 + 2 * (1 - a) * a * q7_8 p1 + a * a * q7_8 p2.
(* MODELS parameter_block.cc:217: std::pow(10.0, gain_db / 20) *)
Definition db_to_linear (g : R) : R := Rpower 10 (g / 20).
(* GetLinearMixGains with exact arithmetic *)
Definition real_mix_gains (d : pdef) (b : pblock) (old : list R) : res unit * list R :=
  linear_mix_gains R step_db linear_db bezier_db db_to_linear d b old.
