(* The arithmetic of the decoder as it is compiled: double samples, float gains, the LPCM decoder of the repository.
   SIMPLIFIED: no excess precision and no fused operations (FLT_EVAL_METHOD 0, -ffp-contract=off); std::pow(10.0f, x / 20.0f) is a
   parameter, as are the precomputed gain matrices, the binaural library and the codecs other than LPCM. *)
From Verif Require Import Base WriteBuf ObuHeader SimpleObus CodecConfig Params AudioElement MixPresentation AeData MixGain Pcm PropsPcm Demix PropsDemix Render RenderFacts RenderSafe.
From Flocq Require Import Core BinarySingleNaN.
Open Scope Z_scope.

(* The literals of the code are correctly rounded decimal fractions; n / d of two exactly represented integers is the same double. *)
Definition dadd : double -> double -> double := Bplus mode_NE.
Definition dsub : double -> double -> double := Bminus mode_NE.
Definition dmul : double -> double -> double := Bmult mode_NE.
Definition ddiv : double -> double -> double := Bdiv mode_NE.
Definition double_arith : arith double :=
  mkArith double dadd dsub dmul ddiv (fun n d => ddiv (dbl n 0) (dbl d 0)) (fun x => Bltb (Babs x) (ddiv (dbl 1 0) (dbl 100000 0))).

Definition sadd : single -> single -> single := Bplus mode_NE.
Definition ssub : single -> single -> single := Bminus mode_NE.
Definition smul : single -> single -> single := Bmult mode_NE.
Definition sdiv : single -> single -> single := Bdiv mode_NE.
(* MODELS common/utils/obu_util.h:90-96 *)
Definition float_linear (n n2 p0 p2 : Z) : single :=
  let a := sdiv (sgl n 0) (sgl n2 0) in
  sadd (smul (ssub (sgl 1 0) a) (q7_8_to_float p0)) (smul a (q7_8_to_float p2)).
(* MODELS common/utils/obu_util.h:98-101: the product is a float, the sum a double; std::floor and the conversion to int (the value is not
   negative, and the model of interpolation has bounded it: MixGain.v) *)
Definition float_control (n2 t : Z) : Z :=
  Btrunc (dadd (to_double (smul (sgl n2 0) (q0_8_to_float t))) (ddiv (dbl 1 0) (dbl 2 0))).
Definition float_bezier_at (n n1 n2 p0 p1 p2 : Z) : single :=
  let q0 := q7_8_to_float p0 in let q1 := q7_8_to_float p1 in let q2 := q7_8_to_float p2 in
  let alpha := sgl (0 - 2 * n1 + n2) 0 in let beta := sgl (2 * (n1 - 0)) 0 in let gamma := sgl (0 - n) 0 in
  let a := if Beqb alpha (sgl 0 0) then sdiv (Bopp gamma) beta
           else sdiv (sadd (Bopp beta) (Bsqrt mode_NE (ssub (smul beta beta) (smul (smul (sgl 4 0) alpha) gamma)))) (smul (sgl 2 0) alpha) in
  let b := ssub (sgl 1 0) a in
  sadd (sadd (smul (smul b b) q0) (smul (smul (smul (sgl 2 0) b) a) q1)) (smul (smul a a) q2).
(* MODELS common/utils/obu_util.h:97-115 *)
Definition float_bezier (n n2 p0 p1 p2 t : Z) : single := float_bezier_at n (float_control n2 t) n2 p0 p1 p2.

(* ---- decoders ---- *)
Record lpcm_dec := mkLd { ld_channels : Z; ld_spf : Z; ld_little : bool; ld_bytes : Z }.
(* MODELS lpcm_decoder.cc:38-58 LpcmDecoder::Create (lpcm_decoder_config.cc:80-85 IsLittleEndian: the flags are 1) *)
Definition lpcm_create (d : lpcm) (channels spf : Z) : res lpcm_dec :=
  lpcm_validate 0 d >>> vcond (lpcm_size_ok (lp_size d)) >>> vcond (lp_size d mod 8 =? 0) >>>
  Ok (mkLd channels spf (lp_flags d =? 1) (lp_size d / 8)).

Section Env.
Context {B C : Type}.
(* what is outside the model *)
Record outside := mkOutside {
  x_pow : single -> single;
  x_table : Z + Z -> Z -> res (list (list double));
  x_obr_new : aelem -> Z -> Z -> option B; x_obr : B -> list (list double) -> res (list (list double)) * B;
  x_newdec : codec_config -> Z -> res C; x_decode : C -> list Z -> res (list (list double)) * C }.
Variable X : outside.
(* MODELS audio_frame_decoder.cc:53-92 CreateDecoder *)
Definition new_decoder (c : codec_config) (n : Z) : res (lpcm_dec + C) :=
  if cc_codec c =? kIdLpcm then match cc_dec c with DLpcm d => map_res inl (lpcm_create d n (cc_frame c)) | _ => Err InvalidArgument end
  else map_res inr (x_newdec X c n).
Definition decode_with (d : lpcm_dec + C) (bytes : list Z) : res (list (list double)) * (lpcm_dec + C) :=
  match d with
  | inl l => (lpcm_decode (ld_channels l) (ld_spf l) (ld_bytes l) (ld_little l) bytes, inl l)
  | inr c => let '(r, c1) := x_decode X c bytes in (r, inr c1)
  end.
(* x *= gain: a double and a float *)
Definition cpp (trim_begin trim_end : bool) : renv double single B (lpcm_dec + C) :=
  mkRenv double_arith q7_8_to_float float_linear float_bezier (x_pow X) (fun x g => dmul x (to_double g)) (x_table X) (x_obr_new X) (x_obr X)
         new_decoder decode_with trim_begin trim_end.
End Env.
Arguments outside : clear implicits.

(* ================= the parts outside the model ================= *)
Record tame_outside {B C} (X : @outside B C) (K : C -> Prop) : Prop := mkTameOutside {
  tx_table : forall i k, ends (x_table X i k) /\ forall g, x_table X i k = Ok g -> rect g;
  tx_obr : forall b ins, ends (fst (x_obr X b ins)) /\ forall o, fst (x_obr X b ins) = Ok o -> Forall (fun s => (first_ticks ins <= length s)%nat) o;
  tx_newdec : forall c n, ends (x_newdec X c n) /\ forall d, x_newdec X c n = Ok d -> K d;
  tx_decode : forall c x, K c -> ends (fst (x_decode X c x)) /\ K (snd (x_decode X c x)) }.
Definition fine {C} (K : C -> Prop) (d : lpcm_dec + C) : Prop := match d with inl l => 2 <= ld_bytes l <= 4 | inr c => K c end.

Lemma res_list_ends {A} (l : list (res A)) : Forall ends l -> ends (res_list l).
Proof. induction 1 as [|r l Hr _ IH]; cbn [res_list]; [apply ends_ok|]. apply ends_bind; [exact Hr|]. intros a _. apply ends_bind; [exact IH|]. intros; apply ends_ok. Qed.
Lemma lpcm_decode_ends channels spf bps little data : 1 <= bps <= 4 -> ends (lpcm_decode channels spf bps little data).
Proof.
  intro Hb. unfold lpcm_decode. destruct (_ || _) eqn:M; [apply ends_err|]. cbv zeta. destruct (_ >? _); [apply ends_err|]. apply res_list_ends. apply Forall_forall. intros r Hr. apply in_map_iff in Hr as (c & <- & Hc).
  apply in_map_iff in Hc as (c0 & <- & Hc). apply in_seq in Hc. apply res_list_ends. apply Forall_forall. intros q Hq. apply in_map_iff in Hq as (t & <- & Ht). apply in_map_iff in Ht as (t0 & <- & Ht). apply in_seq in Ht.
  pose proof (Zle_0_nat (length data)) as Hl. fold (zlen data) in Hl. assert (zlen data mod bps = 0) as M1 by lia. assert ((zlen data / bps) mod channels = 0) as M2 by lia.
  assert (zlen data = bps * (zlen data / bps)) as E1 by (rewrite (Z.div_mod (zlen data) bps) at 1 by lia; lia). set (q1 := zlen data / bps) in *. assert (q1 = channels * (q1 / channels)) as E2 by (rewrite (Z.div_mod q1 channels) at 1 by lia; lia). set (q2 := q1 / channels) in *.
  unfold lpcm_sample. assert ((Z.of_nat t0 * channels + Z.of_nat c0) * bps + bps <= zlen data) as B.
  { assert (Z.of_nat t0 + 1 <= q2) as A1 by lia. assert (Z.of_nat c0 + 1 <= channels) as A2 by lia. assert (Z.of_nat t0 * channels + Z.of_nat c0 + 1 <= channels * q2) as A3 by nia. rewrite E1, E2. nia. }
  assert (0 <= (Z.of_nat t0 * channels + Z.of_nat c0) * bps) as B0 by nia. replace (_ || _) with false by nia.
  set (x := firstn _ _). assert (zlen x = bps) as Lx by (unfold x, zlen; rewrite firstn_length, skipn_length; unfold zlen in B; nia).
  assert (forall y, zlen y = bps -> exists v, le_to_int32 y = Ok v) as L by (intros y Hy; unfold le_to_int32; replace ((zlen y >? 4) || (zlen y <? 1)) with false by lia; eauto).
  destruct little; [destruct (L x Lx) as [v ->]|unfold be_to_int32; destruct (L (rev x)) as [v ->]; [unfold zlen in *; rewrite rev_length; exact Lx|]]; apply ends_ok.
Qed.
(* The decoder as it is compiled satisfies what is asked of the parameters of Render.v. *)
Lemma cpp_tame {B C} (X : @outside B C) K tb te : tame_outside X K -> tame (cpp X tb te) (fine K).
Proof.
  intros [H1 H2 H3 H4]. split; [exact H1|exact H2| |].
  - intros c n. cbn [r_newdec cpp]. unfold new_decoder. destruct (cc_codec c =? kIdLpcm).
    + destruct (cc_dec c) as [| | |d]; try (split; [apply ends_err|discriminate]). unfold lpcm_create, rthen. split.
      * unfold map_res, vcond. destruct (lpcm_validate 0 d) as [[]|e| | |] eqn:V; cbn [rbind]; try apply ends_err; try (unfold lpcm_validate, rthen, veq, vcond in V; repeat (match type of V with context[if ?b then _ else _] => destruct b end; cbn [rbind] in V; try discriminate V)).
        all: repeat (match goal with |- context[if ?b then _ else _] => destruct b end; cbn [rbind]); first [apply ends_ok|apply ends_err].
      * intros x Hx. unfold map_res in Hx. destruct (lpcm_validate 0 d); cbn [rbind] in Hx; try discriminate Hx. unfold vcond in Hx. destruct (lpcm_size_ok (lp_size d)) eqn:S; cbn [rbind] in Hx; [|discriminate Hx]. destruct (lp_size d mod 8 =? 0); cbn [rbind] in Hx; [|discriminate Hx].
        injection Hx as <-. cbn [fine ld_bytes]. unfold lpcm_size_ok in S. assert (lp_size d = 16 \/ lp_size d = 24 \/ lp_size d = 32) as [-> |[-> | ->]] by lia; split; discriminate.
    + destruct (H3 c n) as [N1 N2]. destruct (x_newdec X c n) as [x|e| | |]; try (destruct N1 as [[? N1]|[? N1]]; discriminate N1); unfold map_res; cbn [rbind]; [|split; [apply ends_err|discriminate]]. split; [apply ends_ok|]. intros d Hd. injection Hd as <-. exact (N2 x eq_refl).
  - intros [l|c] x Hk; cbn [r_decode cpp decode_with]; cbn [fine] in Hk; [cbn [fst snd]; split; [apply lpcm_decode_ends; lia|exact Hk]|]. destruct (H4 c x Hk) as [D1 D2]. destruct (x_decode X c x). exact (conj D1 D2).
Qed.
