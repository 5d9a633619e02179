(* C36: PCM sample bytes.  C33: PCM output frames.  C44: LPCM coding is lossless.  C45: fixed point conversions. *)
From Coq Require Import Reals Psatz.
From Flocq Require Import Core BinarySingleNaN.
From Verif Require Import Base WriteBuf CodecConfig Pcm FloatFacts.
Open Scope Z_scope.

(* ================= SPEC ================= *)
(* A left-justified 32-bit sample as [n] bytes: its upper n bytes, least significant first; big endian: the reverse. *)
Definition sample_bytes (n : Z) (be : bool) (v : Z) : list Z :=
  let le := map (fun i => (v / 2^(32 - 8 * n + 8 * Z.of_nat i)) mod 256) (seq 0 (Z.to_nat n)) in if be then rev le else le.
(* The sample with all but its upper n bytes cleared. *)
Definition upper (n v : Z) : Z := v / 2^(32 - 8 * n) * 2^(32 - 8 * n).
Definition int32 (v : Z) : Prop := - 2^31 <= v < 2^31.
Definition bytes_to_int32 (be : bool) (l : list Z) : res Z := if be then be_to_int32 l else le_to_int32 l.

(* ---- facts ---- *)
Lemma four n : 1 <= n <= 4 -> n = 1 \/ n = 2 \/ n = 3 \/ n = 4. Proof. lia. Qed.
Lemma sample_bytes_len n be v : 0 <= n -> zlen (sample_bytes n be v) = n.
Proof. intro H. unfold sample_bytes, zlen. destruct be; rewrite ?rev_length, map_length, seq_length; lia. Qed.
Lemma sample_bytes_ok n be v : Forall byteP (sample_bytes n be v).
Proof.
  assert (Forall byteP (sample_bytes n false v)) as H.
  { apply Forall_forall. intros x Hx. cbn [sample_bytes] in Hx. apply in_map_iff in Hx as (i & <- & _). unfold byteP. apply Z.mod_pos_bound. lia. }
  destruct be; [|exact H]. apply Forall_rev. exact H.
Qed.
Fixpoint loop_bytes (n : nat) (sample size : Z) (be : bool) (shift : Z) : list Z :=
  match n with
  | O => []
  | S n' => (if be then Z.land (Z.shiftr sample ((32 - size) + (32 - (shift + 8)))) 255 else Z.land (Z.shiftr sample shift) 255)
            :: loop_bytes n' sample size be (shift + 8)
  end.
Lemma loop_bytes_len n sample size be : forall shift, length (loop_bytes n sample size be shift) = n.
Proof. induction n as [|n IH]; intro shift; cbn [loop_bytes length]; [reflexivity|]. rewrite IH. reflexivity. Qed.
Definition splice (buf : list Z) (pos : nat) (l : list Z) : list Z := firstn pos buf ++ l ++ skipn (pos + length l) buf.
Lemma splice_len buf pos l : (pos + length l <= length buf)%nat -> length (splice buf pos l) = length buf.
Proof. intro H. unfold splice. rewrite !app_length, firstn_length, skipn_length. lia. Qed.
Lemma splice_nil buf pos : splice buf pos [] = buf.
Proof. unfold splice. cbn [app length]. rewrite Nat.add_0_r. apply firstn_skipn. Qed.
Lemma splice_splice buf pos a b : (pos + length a + length b <= length buf)%nat -> splice (splice buf pos a) (pos + length a) b = splice buf pos (a ++ b).
Proof.
  intro H. assert (splice buf pos a = (firstn pos buf ++ a) ++ skipn (pos + length a) buf) as E by (unfold splice; apply app_assoc).
  assert (length (firstn pos buf ++ a) = pos + length a)%nat as L by (rewrite app_length, firstn_length; lia).
  rewrite E. unfold splice. rewrite <- L at 1. rewrite firstn_app, Nat.sub_diag, firstn_O, app_nil_r, firstn_all.
  rewrite skipn_app, L. rewrite (skipn_all2 (firstn pos buf ++ a)) by lia. cbn [app].
  replace (pos + length a + length b - (pos + length a))%nat with (length b) by lia. rewrite <- !app_assoc. do 3 f_equal.
  rewrite app_length, Nat.add_assoc.
  clear. revert buf. induction (pos + length a)%nat as [|k IH]; intro buf; [reflexivity|]. destruct buf; [cbn [skipn]; rewrite !skipn_nil; reflexivity|]. cbn [skipn Nat.add]. apply IH.
Qed.
Lemma put_splice buf pos v : 0 <= pos < zlen buf -> buf_put buf pos v = Ok (splice buf (Z.to_nat pos) [v]).
Proof.
  intro H. unfold buf_put. replace ((0 <=? pos) && (pos <? zlen buf)) with true by lia. unfold splice. cbn [length app]. rewrite Nat.add_1_r. reflexivity.
Qed.
Lemma pcm_loop_ok n sample size be : forall shift buf pos, 0 <= pos -> pos + Z.of_nat n <= zlen buf ->
  pcm_loop n sample size be shift buf pos = (Ok tt, splice buf (Z.to_nat pos) (loop_bytes n sample size be shift), pos + Z.of_nat n).
Proof.
  induction n as [|n IH]; intros shift buf pos H0 H1; cbn [pcm_loop loop_bytes].
  - rewrite splice_nil. f_equal. lia.
  - rewrite put_splice by lia. unfold zlen in *. rewrite IH; [|lia|rewrite splice_len; cbn [length]; lia].
    f_equal; [|lia]. f_equal. replace (Z.to_nat (pos + 1)) with (Z.to_nat pos + length [if be then Z.land (Z.shiftr sample ((32 - size) + (32 - (shift + 8)))) 255 else Z.land (Z.shiftr sample shift) 255])%nat by (cbn [length]; lia).
    rewrite splice_splice; [reflexivity|]. rewrite loop_bytes_len. cbn [length]. lia.
Qed.
Lemma byte_of v k : 0 <= k <= 24 -> Z.land (Z.shiftr (u32 v) k) 255 = (v / 2^k) mod 256.
Proof.
  intro H. rewrite Z.shiftr_div_pow2 by lia. change 255 with (Z.ones 8). rewrite Z.land_ones by lia. change (2^8) with 256. unfold u32.
  assert (2^32 = 2^k * 2^(32-k)) as E by (rewrite <- Z.pow_add_r by lia; f_equal; lia).
  assert (2^(32-k) = 256 * 2^(24-k)) as E2 by (change 256 with (2^8); rewrite <- Z.pow_add_r by lia; f_equal; lia).
  assert (0 < 2^k) as P1 by (apply Z.pow_pos_nonneg; lia). assert (0 < 2^(24-k)) as P2 by (apply Z.pow_pos_nonneg; lia). assert (0 < 2^(32-k)) as P3 by lia.
  rewrite E, Z.rem_mul_r by lia.
  rewrite (Z.mul_comm (2^k)), Z.div_add by lia. rewrite Z.div_small by (apply Z.mod_pos_bound; lia).
  rewrite Z.add_0_l, E2. symmetry. apply Znumtheory.Zmod_div_mod; [lia|lia|exists (2^(24-k)); lia].
Qed.
Lemma loop_bytes_spec n be v : 1 <= n <= 4 -> loop_bytes (Z.to_nat n) (u32 v) (8 * n) be (32 - 8 * n) = sample_bytes n be v.
Proof.
  intro H. destruct (four n H) as [E|[E|[E|E]]]; rewrite E.
  - change (Z.to_nat 1) with 1%nat. destruct be; cbn [loop_bytes]; rewrite !byte_of by lia; reflexivity.
  - change (Z.to_nat 2) with 2%nat. destruct be; cbn [loop_bytes]; rewrite !byte_of by lia; reflexivity.
  - change (Z.to_nat 3) with 3%nat. destruct be; cbn [loop_bytes]; rewrite !byte_of by lia; reflexivity.
  - change (Z.to_nat 4) with 4%nat. destruct be; cbn [loop_bytes]; rewrite !byte_of by lia; reflexivity.
Qed.
Lemma write_pcm_ok v n be buf pos : 1 <= n <= 4 -> 0 <= pos -> pos + n <= zlen buf ->
  write_pcm (u32 v) (8 * n) be buf pos = (Ok tt, splice buf (Z.to_nat pos) (sample_bytes n be v), pos + n).
Proof.
  intros Hn H0 H1. unfold write_pcm. replace (negb (8 * n mod 8 =? 0) || (8 * n >? 32)) with false by lia. cbv iota.
  replace (8 * n / 8) with n by lia. rewrite pcm_loop_ok by lia. rewrite Z2Nat.id by lia. rewrite loop_bytes_spec by exact Hn. reflexivity.
Qed.

Lemma lor_high a m k : 0 <= k -> 0 <= a < 2^k -> Z.lor a (m * 2^k) = a + m * 2^k.
Proof.
  intros Hk Ha. assert (Z.land a (m * 2^k) = 0) as L.
  { apply Z.bits_inj'. intros i Hi. rewrite Z.land_spec, Z.bits_0. destruct (Z.lt_ge_cases i k).
    - rewrite Z.mul_pow2_bits_low by lia. apply andb_false_r.
    - replace (Z.testbit a i) with false; [reflexivity|]. symmetry. destruct (Z.eq_dec a 0) as [->|]; [apply Z.bits_0|].
      apply Z.bits_above_log2; [lia|]. assert (Z.log2 a < k) by (apply Z.log2_lt_pow2; lia). lia. }
  rewrite <- Z.lxor_lor by exact L. symmetry. apply Z.add_nocarry_lxor. exact L.
Qed.
(* the number the bytes b_0 .. b_{n-1} stand for *)
Definition sbyte (b : Z) : Z := if b <? 128 then b else b - 256.
Fixpoint le_sum (l : list Z) (k : Z) : Z :=
  match l with [] => 0 | [b] => sbyte b * 2^k | b :: t => b * 2^k + le_sum t (k + 8) end.
Lemma s32_low b k : byteP b -> 0 <= k <= 16 -> s32 (Z.shiftl b k) = b * 2^k.
Proof.
  intros Hb Hk. rewrite Z.shiftl_mul_pow2 by lia. unfold s32, sN. assert (0 <= b * 2^k < 2^24) as R.
  { unfold byteP in Hb. split; [apply Z.mul_nonneg_nonneg; lia|]. assert (2^k <= 2^16) by (apply Z.pow_le_mono_r; lia). change (2^16) with 65536 in *. change (2^24) with 16777216. nia. }
  change (2^24) with 16777216 in R. change (2^32) with 4294967296. change (2^(32-1)) with 2147483648. rewrite Z.mod_small by lia.
  replace (b * 2^k <? 2147483648) with true by lia. reflexivity.
Qed.
Lemma s32_high b : byteP b -> s32 (Z.shiftl b 24) = sbyte b * 2^24.
Proof.
  intros Hb. unfold byteP in Hb. rewrite Z.shiftl_mul_pow2 by lia. unfold s32, sN, sbyte. change (2^24) with 16777216. change (2^32) with 4294967296. change (2^(32-1)) with 2147483648.
  rewrite Z.mod_small by lia. destruct (b <? 128) eqn:E; [replace (b * 16777216 <? 2147483648) with true by lia; lia|replace (b * 16777216 <? 2147483648) with false by lia; lia].
Qed.
Lemma le_loop_sum n : forall l i acc, Forall byteP l -> l <> [] -> n <= 4 -> 0 <= i -> i + zlen l = n -> 0 <= acc < 2^(8 * ((4 - n) + i)) ->
  le_loop l n i acc = acc + le_sum l (8 * ((4 - n) + i)).
Proof.
  induction l as [|b l IH]; intros i acc Hl Hne Hn Hi Hlen Ha; [contradiction|]. apply Forall_cons_iff in Hl as [Hb Hl]. cbn [le_loop].
  destruct l as [|b' l].
  - cbn [le_loop le_sum]. unfold zlen in Hlen. cbn [length] in Hlen. replace (8 * (4 - n + i)) with 24 in * by lia.
    rewrite s32_high by exact Hb. apply lor_high; lia.
  - unfold zlen in Hlen. cbn [length] in Hlen. rewrite s32_low by (try exact Hb; lia). rewrite lor_high by lia.
    rewrite IH; [|exact Hl|discriminate|exact Hn|lia|unfold zlen; cbn [length]; lia|].
    + cbn [le_sum]. replace (8 * (4 - n + (i + 1))) with (8 * (4 - n + i) + 8) by lia. destruct l; lia.
    + replace (8 * (4 - n + (i + 1))) with (8 * (4 - n + i) + 8) by lia. rewrite Z.pow_add_r by lia. change (2^8) with 256. unfold byteP in Hb. nia.
Qed.
Lemma le_value l : Forall byteP l -> 1 <= zlen l <= 4 -> le_to_int32 l = Ok (le_sum l (32 - 8 * zlen l)).
Proof.
  intros Hl Hn. unfold le_to_int32. replace ((zlen l >? 4) || (zlen l <? 1)) with false by lia. f_equal.
  rewrite le_loop_sum; [|exact Hl|intros ->; unfold zlen in Hn; cbn [length] in Hn; lia|lia|lia|lia|split; [lia|apply Z.pow_pos_nonneg; lia]].
  rewrite Z.add_0_l. f_equal. lia.
Qed.
Lemma read_sample n v : int32 v -> 1 <= n <= 4 -> le_to_int32 (sample_bytes n false v) = Ok (upper n v).
Proof.
  intros Hv Hn. rewrite le_value by (try apply sample_bytes_ok; rewrite sample_bytes_len; lia). rewrite sample_bytes_len by lia. f_equal.
  unfold int32 in Hv. change (2^31) with 2147483648 in Hv. unfold upper, sample_bytes.
  destruct (four n Hn) as [E|[E|[E|E]]]; rewrite E.
  - change (Z.to_nat 1) with 1%nat. cbn [seq map le_sum]. unfold sbyte.
    change (32 - 8 * 1 + 8 * Z.of_nat 0) with 24. change (32 - 8 * 1) with 24. change (2^24) with 16777216. destruct (_ <? 128) eqn:X; lia.
  - change (Z.to_nat 2) with 2%nat. cbn [seq map le_sum]. unfold sbyte.
    change (32 - 8 * 2 + 8 * Z.of_nat 0) with 16. change (32 - 8 * 2 + 8 * Z.of_nat 1) with 24. change (32 - 8 * 2) with 16. change (16 + 8) with 24.
    change (2^16) with 65536. change (2^24) with 16777216. destruct (_ <? 128) eqn:X; lia.
  - change (Z.to_nat 3) with 3%nat. cbn [seq map le_sum]. unfold sbyte.
    change (32 - 8 * 3 + 8 * Z.of_nat 0) with 8. change (32 - 8 * 3 + 8 * Z.of_nat 1) with 16. change (32 - 8 * 3 + 8 * Z.of_nat 2) with 24. change (32 - 8 * 3) with 8. change (8 + 8 + 8) with 24. change (8 + 8) with 16.
    change (2^8) with 256. change (2^16) with 65536. change (2^24) with 16777216. destruct (_ <? 128) eqn:X; lia.
  - change (Z.to_nat 4) with 4%nat. cbn [seq map le_sum]. unfold sbyte.
    change (32 - 8 * 4 + 8 * Z.of_nat 0) with 0. change (32 - 8 * 4 + 8 * Z.of_nat 1) with 8. change (32 - 8 * 4 + 8 * Z.of_nat 2) with 16. change (32 - 8 * 4 + 8 * Z.of_nat 3) with 24. change (32 - 8 * 4) with 0.
    change (0 + 8 + 8 + 8) with 24. change (0 + 8 + 8) with 16. change (0 + 8) with 8.
    change (2^0) with 1. change (2^8) with 256. change (2^16) with 65536. change (2^24) with 16777216. destruct (_ <? 128) eqn:X; lia.
Qed.
Lemma splice_read buf pos l : (pos + length l <= length buf)%nat -> firstn pos (splice buf pos l) = firstn pos buf /\
  firstn (length l) (skipn pos (splice buf pos l)) = l /\ skipn (pos + length l) (splice buf pos l) = skipn (pos + length l) buf.
Proof.
  intro H. unfold splice. assert (length (firstn pos buf) = pos) as L by (rewrite firstn_length; lia).
  repeat split.
  - rewrite <- L at 1. rewrite firstn_app, Nat.sub_diag, firstn_O, app_nil_r, firstn_all. reflexivity.
  - rewrite skipn_app, L, Nat.sub_diag. rewrite (skipn_all2 (firstn pos buf)) by lia. cbn [app skipn]. rewrite firstn_app, Nat.sub_diag, firstn_O, app_nil_r. apply firstn_all.
  - rewrite app_assoc, skipn_app. rewrite skipn_all2 by (rewrite app_length; lia). rewrite app_length, L, Nat.sub_diag. reflexivity.
Qed.

(* ================= C36 ================= *)
(* One sample of n bytes: exactly the n bytes at the write position change, and they read back as the sample's upper n bytes. *)
Theorem C36_sample_round_trip : forall v n be buf pos,
  int32 v -> 1 <= n <= 4 -> 0 <= pos -> pos + n <= zlen buf ->
  exists buf', write_pcm (u32 v) (8 * n) be buf pos = (Ok tt, buf', pos + n) /\
    zlen buf' = zlen buf /\
    firstn (Z.to_nat pos) buf' = firstn (Z.to_nat pos) buf /\ skipn (Z.to_nat (pos + n)) buf' = skipn (Z.to_nat (pos + n)) buf /\
    firstn (Z.to_nat n) (skipn (Z.to_nat pos) buf') = sample_bytes n be v /\
    bytes_to_int32 be (firstn (Z.to_nat n) (skipn (Z.to_nat pos) buf')) = Ok (upper n v).
Proof.
  intros v n be buf pos Hv Hn H0 H1. exists (splice buf (Z.to_nat pos) (sample_bytes n be v)).
  split; [apply write_pcm_ok; assumption|]. pose proof (sample_bytes_len n be v ltac:(lia)) as L.
  assert (length (sample_bytes n be v) = Z.to_nat n) as L2 by (unfold zlen in L; lia).
  assert (Z.to_nat pos + length (sample_bytes n be v) <= length buf)%nat as Hb by (unfold zlen in *; lia).
  destruct (splice_read buf (Z.to_nat pos) (sample_bytes n be v) Hb) as (A & B & C).
  split; [unfold zlen; rewrite splice_len by exact Hb; reflexivity|]. split; [exact A|].
  replace (Z.to_nat (pos + n)) with (Z.to_nat pos + length (sample_bytes n be v))%nat by lia. split; [exact C|].
  rewrite L2 in B. rewrite B. split; [reflexivity|].
  destruct be; cbn [bytes_to_int32]; [|apply read_sample; assumption].
  unfold be_to_int32, sample_bytes. rewrite rev_involutive. apply (read_sample n v Hv Hn).
Qed.
(* Any n bytes read to a sample whose n bytes they are: nothing is lost in that direction. *)
Lemma upper_full v : upper 4 v = v.
Proof. unfold upper. change (32 - 8 * 4) with 0. change (2^0) with 1. lia. Qed.
Lemma le_bytes_back l : Forall byteP l -> 1 <= zlen l <= 4 -> int32 (le_sum l (32 - 8 * zlen l)) /\ sample_bytes (zlen l) false (le_sum l (32 - 8 * zlen l)) = l.
Proof.
  intros Hl Hn. unfold int32. change (2^31) with 2147483648.
  destruct l as [|a [|b [|c [|d [|e l]]]]]; unfold zlen in *; cbn [length] in *; try lia;
    repeat match goal with H : Forall _ (_ :: _) |- _ => apply Forall_cons_iff in H as [? ?] end; unfold byteP in *; unfold sample_bytes.
  - change (Z.of_nat 1) with 1. change (Z.to_nat 1) with 1%nat. cbn [seq map le_sum]. change (32 - 8 * 1 + 8 * Z.of_nat 0) with 24. change (32 - 8 * 1) with 24. change (2^24) with 16777216.
    unfold sbyte. destruct (a <? 128) eqn:X; (split; [lia|]; repeat f_equal; lia).
  - change (Z.of_nat 2) with 2. change (Z.to_nat 2) with 2%nat. cbn [seq map le_sum]. change (32 - 8 * 2 + 8 * Z.of_nat 0) with 16. change (32 - 8 * 2 + 8 * Z.of_nat 1) with 24. change (32 - 8 * 2) with 16. change (16 + 8) with 24.
    change (2^16) with 65536. change (2^24) with 16777216. unfold sbyte. destruct (b <? 128) eqn:X; (split; [lia|]; repeat f_equal; lia).
  - change (Z.of_nat 3) with 3. change (Z.to_nat 3) with 3%nat. cbn [seq map le_sum]. change (32 - 8 * 3 + 8 * Z.of_nat 0) with 8. change (32 - 8 * 3 + 8 * Z.of_nat 1) with 16. change (32 - 8 * 3 + 8 * Z.of_nat 2) with 24. change (32 - 8 * 3) with 8.
    change (8 + 8 + 8) with 24. change (8 + 8) with 16.
    change (2^8) with 256. change (2^16) with 65536. change (2^24) with 16777216. unfold sbyte. destruct (c <? 128) eqn:X; (split; [lia|]; repeat f_equal; lia).
  - change (Z.of_nat 4) with 4. change (Z.to_nat 4) with 4%nat. cbn [seq map le_sum]. change (32 - 8 * 4 + 8 * Z.of_nat 0) with 0. change (32 - 8 * 4 + 8 * Z.of_nat 1) with 8. change (32 - 8 * 4 + 8 * Z.of_nat 2) with 16. change (32 - 8 * 4 + 8 * Z.of_nat 3) with 24. change (32 - 8 * 4) with 0.
    change (0 + 8 + 8 + 8) with 24. change (0 + 8 + 8) with 16. change (0 + 8) with 8.
    change (2^0) with 1. change (2^8) with 256. change (2^16) with 65536. change (2^24) with 16777216. unfold sbyte. destruct (d <? 128) eqn:X; (split; [lia|]; repeat f_equal; lia).
Qed.
Theorem C36_bytes_round_trip : forall be l, Forall byteP l -> 1 <= zlen l <= 4 ->
  exists v, bytes_to_int32 be l = Ok v /\ int32 v /\ upper (zlen l) v = v /\
    write_pcm (u32 v) (8 * zlen l) be (repeat 0 (length l)) 0 = (Ok tt, l, zlen l).
Proof.
  assert (forall l, Forall byteP l -> 1 <= zlen l <= 4 -> exists v, le_to_int32 l = Ok v /\ int32 v /\ sample_bytes (zlen l) false v = l) as LE.
  { intros l Hl Hn. exists (le_sum l (32 - 8 * zlen l)). split; [apply le_value; assumption|]. apply le_bytes_back; assumption. }
  assert (forall be l v, 1 <= zlen l <= 4 -> sample_bytes (zlen l) be v = l -> write_pcm (u32 v) (8 * zlen l) be (repeat 0 (length l)) 0 = (Ok tt, l, zlen l)) as W.
  { intros be l v Hn E. rewrite write_pcm_ok by (unfold zlen in *; rewrite ?repeat_length; lia). f_equal. f_equal. rewrite E. change (Z.to_nat 0) with O.
    unfold splice. cbn [firstn app Nat.add]. rewrite skipn_all2 by (rewrite repeat_length; lia). apply app_nil_r. }
  assert (forall l v, 1 <= zlen l <= 4 -> int32 v -> le_to_int32 l = Ok v -> sample_bytes (zlen l) false v = l -> upper (zlen l) v = v) as U.
  { intros l v Hn Hv E1 E2. pose proof (read_sample (zlen l) v Hv Hn) as R. rewrite E2 in R. congruence. }
  intros be l Hl Hn. destruct be.
  - assert (zlen (rev l) = zlen l) as Lr by (unfold zlen; rewrite rev_length; reflexivity).
    destruct (LE (rev l) ltac:(apply Forall_rev; exact Hl) ltac:(lia)) as (v & E & Hv & Eb). exists v. split; [exact E|]. split; [exact Hv|].
    split; [rewrite <- Lr; apply (U (rev l)); try assumption; lia|]. apply W; [exact Hn|]. rewrite Lr in Eb. unfold sample_bytes in *. rewrite Eb. apply rev_involutive.
  - destruct (LE l Hl Hn) as (v & E & Hv & Eb). exists v. split; [exact E|]. split; [exact Hv|]. split; [apply (U l); assumption|]. apply W; assumption.
Qed.
(* Other widths are refused and nothing is written or read. *)
Theorem C36_other_widths_are_refused : forall v size be buf pos l,
  (size mod 8 <> 0 \/ 32 < size -> write_pcm v size be buf pos = (Err InvalidArgument, buf, pos)) /\
  (zlen l = 0 \/ 4 < zlen l -> bytes_to_int32 be l = Err InvalidArgument).
Proof.
  intros. split; intro H.
  - unfold write_pcm. replace (negb (size mod 8 =? 0) || (size >? 32)) with true by lia. reflexivity.
  - assert (forall x, zlen x = zlen l -> le_to_int32 x = Err InvalidArgument) as L by (intros x E; unfold le_to_int32; replace ((zlen x >? 4) || (zlen x <? 1)) with true by lia; reflexivity).
    destruct be; [apply L; unfold zlen; rewrite rev_length; reflexivity|apply L; reflexivity].
Qed.
Example C36_ex : write_pcm (u32 (-2)) 24 true [1; 2; 3; 4; 5] 1 = (Ok tt, [1; 255; 255; 255; 5], 4) /\ upper 3 (-2) = -256 /\
  write_pcm (u32 (-300000000)) 16 false [1; 2; 3; 4; 5] 1 = (Ok tt, [1; 30; 238; 4; 5], 3) /\ upper 2 (-300000000) = -4578 * 65536.
Proof. vm_compute. auto. Qed.

(* ================= C33 ================= *)
(* SPEC: the bytes of a frame: for each tick, for each channel, the sample's n bytes. *)
Definition frame_bytes {A} (n : Z) (be : bool) (value : A -> Z) (d : A) (frame : list (list A)) (ticks : Z) : list Z :=
  flat_map (fun t => flat_map (fun ch => sample_bytes n be (value (nth t ch d))) frame) (seq 0 (Z.to_nat ticks)).
Definition same_ticks {A} (frame : list (list A)) (ticks : Z) : Prop := Forall (fun ch => zlen ch = ticks) frame.
(* A finite sample times 2^31, rounded towards zero and saturated to [-2^31, 2^31 - 1]. *)
Definition pcm_value (x : double) : Z := to_pcm32 (B2R x).
Definition finite (x : double) : Prop := is_finite x = true.

Fixpoint order_bytes {A} (n : Z) (be : bool) (value : A -> Z) (frame : list (list A)) (order : list (nat * nat)) : list Z :=
  match order with
  | [] => []
  | (t, c) :: rest => (match at_ct frame c t with Ok a => sample_bytes n be (value a) | _ => [] end) ++ order_bytes n be value frame rest
  end.
Lemma write_samples_ok {A} (conv : A -> res Z) value (frame : list (list A)) n be : 1 <= n <= 4 -> forall order buf pos,
  Forall (fun p => exists a, at_ct frame (snd p) (fst p) = Ok a /\ conv a = Ok (value a)) order -> 0 <= pos -> pos + n * zlen order <= zlen buf ->
  write_samples conv frame (8 * n) be order buf pos =
    (Ok tt, splice buf (Z.to_nat pos) (order_bytes n be value frame order), pos + n * zlen order) /\
  zlen (order_bytes n be value frame order) = n * zlen order.
Proof.
  intro Hn. induction order as [|[t c] order IH]; intros buf pos Ho H0 H1; cbn [write_samples order_bytes].
  - rewrite splice_nil. unfold zlen. cbn [length]. split; [f_equal; lia|lia].
  - apply Forall_cons_iff in Ho as [(a & Ea & Ev) Ho]. cbn [fst snd] in Ea. rewrite Ea. cbn [rbind]. rewrite Ev.
    assert (zlen ((t, c) :: order) = 1 + zlen order) as El by (unfold zlen; cbn [length]; lia). rewrite El in *.
    assert (0 <= zlen order) as Hz by (unfold zlen; lia).
    rewrite write_pcm_ok by (try exact Hn; nia). pose proof (sample_bytes_len n be (value a) ltac:(lia)) as Lb.
    assert (Z.to_nat pos + length (sample_bytes n be (value a)) <= length buf)%nat as Hb by (unfold zlen in *; nia).
    destruct (IH (splice buf (Z.to_nat pos) (sample_bytes n be (value a))) (pos + n) Ho ltac:(lia)) as [E L].
    { unfold zlen. rewrite splice_len by exact Hb. fold (zlen buf). fold (zlen order). nia. }
    rewrite E. split.
    + f_equal; [|lia]. f_equal. replace (Z.to_nat (pos + n)) with (Z.to_nat pos + length (sample_bytes n be (value a)))%nat by (unfold zlen in Lb; lia).
      apply splice_splice. unfold zlen in *. nia.
    + unfold zlen in *. rewrite app_length. lia.
Qed.
Lemma order_app {A} n be (value : A -> Z) frame a b : order_bytes n be value frame (a ++ b) = order_bytes n be value frame a ++ order_bytes n be value frame b.
Proof. induction a as [|[t c] a IH]; [reflexivity|]. cbn [app order_bytes]. rewrite IH. apply app_assoc. Qed.
Lemma at_ct_in {A} (frame : list (list A)) c t ch d : nth_error frame c = Some ch -> (t < length ch)%nat -> at_ct frame c t = Ok (nth t ch d).
Proof. intros E H. unfold at_ct. rewrite E, (nth_error_nth' _ d H). reflexivity. Qed.
Lemma tick_bytes {A} n be (value : A -> Z) (frame : list (list A)) d T t : same_ticks frame T -> Z.of_nat t < T ->
  order_bytes n be value frame (map (fun c => (t, c)) (seq 0 (length frame))) = flat_map (fun ch => sample_bytes n be (value (nth t ch d))) frame.
Proof.
  intros Hs Ht. enough (forall pre rest, frame = pre ++ rest -> order_bytes n be value frame (map (fun c => (t, c)) (seq (length pre) (length rest))) =
    flat_map (fun ch => sample_bytes n be (value (nth t ch d))) rest) as X by (apply (X []); reflexivity).
  intros pre rest. revert pre. induction rest as [|ch rest IH]; intros pre E; [reflexivity|]. cbn [length seq map order_bytes flat_map].
  assert (nth_error frame (length pre) = Some ch) as En by (rewrite E, nth_error_app2, Nat.sub_diag by lia; reflexivity).
  assert (zlen ch = T) as Lc by (unfold same_ticks in Hs; rewrite Forall_forall in Hs; apply Hs; eapply nth_error_In; exact En).
  rewrite (at_ct_in frame _ t ch d En) by (unfold zlen in Lc; lia). f_equal.
  specialize (IH (pre ++ [ch])). rewrite app_length in IH. cbn [length] in IH. rewrite Nat.add_1_r in IH. apply IH. rewrite <- app_assoc. exact E.
Qed.
Lemma order_frame {A} n be (value : A -> Z) (frame : list (list A)) d T : same_ticks frame T ->
  order_bytes n be value frame (tick_order (Z.to_nat T) (length frame)) = frame_bytes n be value d frame T.
Proof.
  intro Hs. unfold tick_order, frame_bytes. assert (forall ts, Forall (fun t => Z.of_nat t < T) ts ->
    order_bytes n be value frame (flat_map (fun t => map (fun c => (t, c)) (seq 0 (length frame))) ts) =
    flat_map (fun t => flat_map (fun ch => sample_bytes n be (value (nth t ch d))) frame) ts) as X.
  { induction ts as [|t ts IH]; intro H; [reflexivity|]. apply Forall_cons_iff in H as [H1 H2]. cbn [flat_map]. rewrite order_app, (IH H2), (tick_bytes n be value frame d T t Hs H1). reflexivity. }
  apply X. apply Forall_forall. intros t Ht. apply in_seq in Ht. lia.
Qed.
Lemma tick_order_len a b : zlen (tick_order a b) = Z.of_nat a * Z.of_nat b.
Proof.
  unfold tick_order, zlen. assert (forall ts, length (flat_map (fun t : nat => map (fun c => (t, c)) (seq 0 b)) ts) = (length ts * b)%nat) as X.
  { induction ts as [|t ts IH]; [reflexivity|]. cbn [flat_map]. rewrite app_length, map_length, seq_length, IH. cbn [length]. lia. }
  rewrite X, seq_length. lia.
Qed.
Lemma tick_order_in a b t c : In (t, c) (tick_order a b) -> (t < a /\ c < b)%nat.
Proof. unfold tick_order. rewrite in_flat_map. intros (x & Hx & H). apply in_map_iff in H as (y & E & Hy). injection E as -> ->. apply in_seq in Hx, Hy. lia. Qed.
Lemma order_fetch {A} (frame : list (list A)) T t c : same_ticks frame T -> In (t, c) (tick_order (Z.to_nat T) (length frame)) ->
  exists ch a, In ch frame /\ In a ch /\ at_ct frame c t = Ok a.
Proof.
  intros Hs H. apply tick_order_in in H as [Ht Hc]. destruct (nth_error frame c) as [ch|] eqn:E; [|apply nth_error_None in E; lia].
  pose proof (nth_error_In _ _ E) as Hin. unfold same_ticks in Hs. rewrite Forall_forall in Hs. specialize (Hs _ Hin).
  destruct (nth_error ch t) as [a|] eqn:Ea; [|apply nth_error_None in Ea; unfold zlen in Hs; lia].
  exists ch, a. split; [exact Hin|]. split; [eapply nth_error_In; exact Ea|]. unfold at_ct. rewrite E, Ea. reflexivity.
Qed.

Lemma overflow_check M C n b : 0 <= C -> 0 <= n -> 1 <= b -> 0 < M ->
  if negb (n =? 0) && (C >? (M - 1) / n / b) then M <= C * n * b else C * n * b < M.
Proof.
  intros HC Hn Hb HM. destruct (Z.eq_dec n 0) as [->|N]; [change (0 =? 0) with true; cbn [negb andb]; rewrite Z.mul_0_r; lia|]. replace (n =? 0) with false by lia. cbn [negb andb].
  assert (0 < n * b) as P by nia. rewrite Z.div_div by lia. destruct (C >? (M - 1) / (n * b)) eqn:E.
  - apply Z.gtb_lt in E. apply Z.nlt_ge. intro X. assert (C <= (M - 1) / (n * b)); [|lia]. apply Z.div_le_lower_bound; lia.
  - assert (C <= (M - 1) / (n * b)) as X by (clear -E; destruct (Z.gtb_spec C ((M - 1) / (n * b))); [discriminate|lia]).
    pose proof (Z.mul_div_le (M - 1) (n * b) P) as Y. assert (n * b * C <= n * b * ((M - 1) / (n * b))) by (apply Z.mul_le_mono_nonneg_l; lia). lia.
Qed.
Lemma validate_cases (frame : list (list double)) s span : zlen span < 2^64 ->
  (validate_span frame s span = Ok tt /\ frame <> [] /\ s <> OtherType /\ same_ticks frame (ticks_of frame) /\
     zlen frame * ticks_of frame * bytes_per_sample s <= zlen span) \/
  (validate_span frame s span = Err Unknown /\
     (frame = [] \/ s = OtherType \/ ~ same_ticks frame (ticks_of frame) \/ zlen span < zlen frame * ticks_of frame * bytes_per_sample s)).
Proof.
  intro Hspan. unfold validate_span. destruct frame as [|ch0 frame0] eqn:Ef; [right; auto|]. rewrite <- Ef.
  assert (frame <> []) as Hne by (rewrite Ef; discriminate). change (2^64) with 18446744073709551616 in *. unfold u64. change (2^64) with 18446744073709551616.
  destruct s; cbn [bytes_per_sample]; try (right; split; [reflexivity|tauto]);
  [replace (2 =? 0) with false by reflexivity; set (b := 2)|replace (4 =? 0) with false by reflexivity; set (b := 4)]; cbv iota;
  (destruct (forallb (fun ch => zlen ch =? ticks_of frame) frame) eqn:E; cbn [negb];
   [|right; split; [reflexivity|]; right; right; left; intro Hs; unfold same_ticks in Hs;
     assert (forallb (fun ch => zlen ch =? ticks_of frame) frame = true) by (apply forallb_forall; intros x Hx; rewrite Forall_forall in Hs; specialize (Hs _ Hx); lia); congruence]);
  (assert (same_ticks frame (ticks_of frame)) as Hs by (unfold same_ticks; apply Forall_forall; intros x Hx; rewrite forallb_forall in E; specialize (E _ Hx); lia));
  (assert (0 <= ticks_of frame) as Ht by (unfold ticks_of; destruct frame; unfold zlen; lia)); assert (0 <= zlen frame) as Hf by (unfold zlen; lia);
  set (n := ticks_of frame) in *; set (C := zlen frame) in *;
  pose proof (overflow_check 18446744073709551616 C n b Hf Ht ltac:(unfold b; lia) ltac:(lia)) as Hov;
  (destruct (negb (n =? 0) && (C >? (18446744073709551616 - 1) / n / b)) eqn:Eo; [right; split; [reflexivity|]; right; right; right; fold b; lia|]);
  (assert (0 <= C * n <= C * n * b) as Hcn by (unfold b; nia));
  rewrite (Z.mod_small (C * n)) by lia; rewrite (Z.mod_small (C * n * b)) by lia;
  (destruct (zlen span <? C * n * b) eqn:Es; [right; split; [reflexivity|]; right; right; right; lia|left; repeat (split; [assumption || reflexivity || discriminate|]); lia]).
Qed.

(* A well-shaped frame of finite samples and a large enough span: exactly the frame's bytes are written, the rest of the span is kept. *)
Theorem C33_frame_is_written : forall frame s span bw ticks d,
  frame <> [] -> s <> OtherType -> same_ticks frame ticks -> Forall (Forall finite) frame ->
  zlen frame * ticks * bytes_per_sample s <= zlen span -> zlen span < 2^64 ->
  let bytes := frame_bytes (bytes_per_sample s) false pcm_value d frame ticks in
  write_frame_to_span frame s span bw = (Ok tt, bytes ++ skipn (length bytes) span, zlen frame * ticks * bytes_per_sample s) /\
  zlen bytes = zlen frame * ticks * bytes_per_sample s.
Proof.
  intros frame s span bw ticks d Hne Hs Ht Hfin Hlen H64 bytes.
  assert (ticks_of frame = ticks) as Et.
  { destruct frame as [|ch f]; [contradiction|]. cbn [ticks_of]. apply Forall_cons_iff in Ht as [-> _]. reflexivity. }
  unfold write_frame_to_span. destruct (validate_cases frame s span H64) as [(V & _)|(V & Bad)].
  2:{ exfalso. rewrite Et in Bad. destruct Bad as [?|[?|[?|?]]]; try contradiction. lia. }
  rewrite V. rewrite Et.
  assert (1 <= bytes_per_sample s <= 4) as Hb by (destruct s; cbn [bytes_per_sample]; try lia; contradiction).
  assert (0 <= ticks) as H0 by (rewrite <- Et; unfold ticks_of; destruct frame; unfold zlen; lia).
  pose proof (tick_order_len (Z.to_nat ticks) (length frame)) as Lo. rewrite Z2Nat.id in Lo by exact H0. fold (zlen frame) in Lo.
  destruct (write_samples_ok double_to_int32 pcm_value frame (bytes_per_sample s) false Hb (tick_order (Z.to_nat ticks) (length frame)) span 0) as [E L].
  - apply Forall_forall. intros [t c] Hin. destruct (order_fetch frame ticks t c Ht Hin) as (ch & a & I1 & I2 & Ea). exists a. split; [exact Ea|].
    apply double_to_int32_val. rewrite Forall_forall in Hfin. specialize (Hfin _ I1). rewrite Forall_forall in Hfin. apply Hfin. exact I2.
  - lia.
  - rewrite Lo. lia.
  - rewrite Z.mul_comm with (n := bytes_per_sample s) (m := 8) || rewrite (Z.mul_comm (bytes_per_sample s) 8). rewrite E, Lo. rewrite (order_frame _ _ _ frame d ticks Ht) in *. fold bytes in L |- *.
    split; [|rewrite L, Lo; lia]. change (Z.to_nat 0) with O. unfold splice. cbn [firstn app Nat.add]. f_equal. lia.
Qed.
(* Whatever the frame and the span: no crash and no write outside of the span; a refused frame (wrong shape, unknown type, or a span
   that is too small) leaves the span and bytes_written alone. *)
Lemma put_len buf p v b : buf_put buf p v = Ok b -> zlen b = zlen buf.
Proof.
  intro H. assert (0 <= p < zlen buf) as R by (unfold buf_put in H; destruct ((0 <=? p) && (p <? zlen buf)) eqn:E; [lia|discriminate]).
  rewrite put_splice in H by exact R. injection H as <-. unfold zlen in *. rewrite splice_len; cbn [length]; lia.
Qed.
Lemma pcm_loop_len n sample size be : forall shift buf pos, match pcm_loop n sample size be shift buf pos with (_, b, _) => zlen b = zlen buf end.
Proof.
  induction n as [|n IH]; intros shift buf pos; cbn [pcm_loop]; [reflexivity|].
  destruct (buf_put buf pos _) as [b| | | |] eqn:E; try reflexivity. apply put_len in E. specialize (IH (shift + 8) b (pos + 1)).
  destruct (pcm_loop n sample size be (shift + 8) b (pos + 1)) as [[r x] p]. congruence.
Qed.
Lemma write_samples_len {A} (conv : A -> res Z) frame size be : forall order buf pos,
  match write_samples conv frame size be order buf pos with (_, b, _) => zlen b = zlen buf end.
Proof.
  induction order as [|[t c] order IH]; intros buf pos; cbn [write_samples]; [reflexivity|].
  destruct (rbind (at_ct frame c t) conv) as [v| | | |]; try reflexivity.
  assert (match write_pcm (u32 v) size be buf pos with (_, b, _) => zlen b = zlen buf end) as W by (unfold write_pcm; destruct (_ || _); [reflexivity|apply pcm_loop_len]).
  destruct (write_pcm (u32 v) size be buf pos) as [[r b] p]. destruct r; try exact W. specialize (IH b p). destruct (write_samples conv frame size be order b p) as [[r2 b2] p2]. congruence.
Qed.
Lemma double_to_int32_calm x : (exists v, double_to_int32 x = Ok v) \/ double_to_int32 x = Err InvalidArgument.
Proof. unfold double_to_int32, clip_to_int32. destruct (_ || _); [auto|]. destruct (is_nan _); [auto|]. destruct (Bltb _ _); [eauto|]. destruct (Bltb _ _); eauto. Qed.
Lemma write_samples_calm (frame : list (list double)) n be : 1 <= n <= 4 -> forall order buf pos,
  Forall (fun p => exists a, at_ct frame (snd p) (fst p) = Ok a) order -> 0 <= pos -> pos + n * zlen order <= zlen buf ->
  match write_samples double_to_int32 frame (8 * n) be order buf pos with (Ok _, _, _) => True | (Err _, _, _) => True | _ => False end.
Proof.
  intro Hn. induction order as [|[t c] order IH]; intros buf pos Ho H0 H1; cbn [write_samples]; [exact I|].
  apply Forall_cons_iff in Ho as [(a & Ea) Ho]. cbn [fst snd] in Ea. rewrite Ea. cbn [rbind].
  assert (zlen ((t, c) :: order) = 1 + zlen order) as El by (unfold zlen; cbn [length]; lia). rewrite El in *. assert (0 <= zlen order) as Hz by (unfold zlen; lia).
  destruct (double_to_int32_calm a) as [[v ->]|E]; [|rewrite E; exact I].
  rewrite write_pcm_ok by (try exact Hn; nia). apply IH; [exact Ho|lia|].
  pose proof (sample_bytes_len n be v ltac:(lia)) as Lb. unfold zlen in *. rewrite splice_len; nia.
Qed.
Theorem C33_any_frame_is_safe : forall frame s span bw, zlen span < 2^64 ->
  exists r span' bw', write_frame_to_span frame s span bw = (r, span', bw') /\ zlen span' = zlen span /\
    (r = Ok tt \/ r = Err Unknown /\ bw' = bw) /\
    (frame = [] \/ s = OtherType \/ ~ same_ticks frame (ticks_of frame) \/ zlen span < zlen frame * ticks_of frame * bytes_per_sample s ->
       r = Err Unknown /\ span' = span /\ bw' = bw).
Proof.
  intros frame s span bw H64. unfold write_frame_to_span. destruct (validate_cases frame s span H64) as [(V & Hne & Hs & Ht & Hlen)|(V & Bad)]; rewrite V.
  2:{ eexists _, _, _. split; [reflexivity|]. split; [reflexivity|]. split; [right; split; reflexivity|]. intros _. repeat split. }
  assert (1 <= bytes_per_sample s <= 4) as Hb by (destruct s; cbn [bytes_per_sample]; try lia; contradiction).
  assert (0 <= ticks_of frame) as H0 by (unfold ticks_of; destruct frame; unfold zlen; lia).
  pose proof (tick_order_len (Z.to_nat (ticks_of frame)) (length frame)) as Lo. rewrite Z2Nat.id in Lo by exact H0. fold (zlen frame) in Lo.
  rewrite (Z.mul_comm (bytes_per_sample s) 8).
  pose proof (write_samples_calm frame (bytes_per_sample s) false Hb (tick_order (Z.to_nat (ticks_of frame)) (length frame)) span 0) as W.
  pose proof (write_samples_len double_to_int32 frame (8 * bytes_per_sample s) false (tick_order (Z.to_nat (ticks_of frame)) (length frame)) span 0) as WL.
  assert (frame = [] \/ s = OtherType \/ ~ same_ticks frame (ticks_of frame) \/ zlen span < zlen frame * ticks_of frame * bytes_per_sample s -> False) as NB.
  { intros [?|[?|[?|?]]]; try contradiction. lia. }
  assert (Forall (fun p => exists a, at_ct frame (snd p) (fst p) = Ok a) (tick_order (Z.to_nat (ticks_of frame)) (length frame))) as Ord.
  { apply Forall_forall. intros [t c] Hin. destruct (order_fetch frame _ t c Ht Hin) as (ch & a & _ & _ & Ea). eauto. }
  specialize (W Ord ltac:(lia) ltac:(rewrite Lo; lia)).
  destruct (write_samples double_to_int32 frame (8 * bytes_per_sample s) false _ span 0) as [[r b] p].
  destruct r; try contradiction; eexists _, _, _; (split; [reflexivity|]); (split; [exact WL|]); (split; [auto|]); intro X; contradiction (NB X).
Qed.
(* Samples are saturated, never wrapped: the value is in range, monotone, and within one step of the exact product unless clipped. *)
Theorem C33_samples_are_saturated : forall x y, finite x -> finite y ->
  int32 (pcm_value x) /\ double_to_int32 x = Ok (pcm_value x) /\
  ((B2R x <= B2R y)%R -> pcm_value x <= pcm_value y) /\
  ((1 <= B2R x)%R -> pcm_value x = 2^31 - 1) /\ ((B2R x <= -1)%R -> pcm_value x = - 2^31) /\
  ((-1 <= B2R x < 1)%R -> (Rabs (IZR (pcm_value x) - B2R x * IZR (2^31)) < 1)%R).
Proof.
  intros x y Hx Hy. split; [apply to_pcm32_range|]. split; [apply double_to_int32_val; exact Hx|]. split; [apply to_pcm32_mono|].
  unfold pcm_value, to_pcm32. change (2^31) with 2147483648. change (2147483648 - 1) with 2147483647. change (Z.opp 2147483648) with (-2147483648). set (r := B2R x).
  split; [|split].
  - intro H. assert (2147483648 <= Ztrunc (r * 2147483648)) by (apply Ztrunc_ge; lra). lia.
  - intro H. assert (Ztrunc (r * 2147483648) <= -2147483648) by (apply Ztrunc_le_int; lra). lia.
  - intro H. assert (-2147483648 <= Ztrunc (r * 2147483648)) by (apply Ztrunc_ge; lra).
    assert (Ztrunc (r * 2147483648) <= 2147483647) as U.
    { destruct (Rle_dec 0 r) as [P|P]; [|assert (Ztrunc (r * 2147483648) <= 0); [apply Ztrunc_le_int; lra|lia]].
      rewrite Ztrunc_floor by lra. assert (Zfloor (r * 2147483648) < 2147483648); [|lia]. apply lt_IZR. eapply Rle_lt_trans; [apply Zfloor_lb|]. lra. }
    replace (Z.max (-2147483648) (Z.min 2147483647 (Ztrunc (r * 2147483648)))) with (Ztrunc (r * 2147483648)) by lia.
    destruct (Rle_dec 0 r) as [P|P].
    + rewrite Ztrunc_floor by lra. pose proof (Zfloor_lb (r * 2147483648)). pose proof (Zfloor_ub (r * 2147483648)). apply Rabs_def1; lra.
    + rewrite Ztrunc_ceil by lra. pose proof (Zceil_ub (r * 2147483648)). pose proof (Zceil_lb (r * 2147483648)). apply Rabs_def1; lra.
Qed.
(* the hypotheses are met; clipping, rounding towards zero, interleaving *)
Definition dfrac (m e : Z) : double := dbl m e.
Example C33_ex : let frame := [[dfrac 1 (-1); dfrac 3 0]; [dfrac (-1) (-1); dfrac (-1) (-20)]] in
  frame <> [] /\ same_ticks frame 2 /\ Forall (Forall finite) frame /\
  write_frame_to_span frame Int16LE (repeat 7 10) 0 = (Ok tt, [0; 64; 0; 192; 255; 127; 255; 255; 7; 7], 8) /\
  write_frame_to_span frame Int32LE (repeat 7 15) 0 = (Err Unknown, repeat 7 15, 0) /\
  double_to_int32 (B754_infinity false) = Err InvalidArgument.
Proof. cbv zeta. split; [discriminate|]. split; [repeat constructor|]. split; [repeat constructor|]. vm_compute. auto. Qed.

(* ================= C44 ================= *)
Lemma res_list_ok {A B} (f : A -> res B) g l : (forall x, In x l -> f x = Ok (g x)) -> res_list (map f l) = Ok (map g l).
Proof.
  induction l as [|a l IH]; intro H; [reflexivity|]. cbn [map res_list]. rewrite (H a (or_introl eq_refl)). cbn [rbind]. rewrite IH by (intros; apply H; right; assumption). reflexivity.
Qed.
Lemma map_nth_seq {A B} (h : A -> B) (l : list A) d : map (fun i => h (nth i l d)) (seq 0 (length l)) = map h l.
Proof.
  induction l as [|a l IH]; [reflexivity|]. cbn [length seq map nth]. f_equal. rewrite <- seq_shift, map_map. exact IH.
Qed.
Lemma block_at {A} n (blocks : list (list A)) i b : Forall (fun x => length x = n) blocks -> nth_error blocks i = Some b ->
  firstn n (skipn (i * n) (concat blocks)) = b /\ (i * n + n <= length (concat blocks))%nat.
Proof.
  revert i. induction blocks as [|a blocks IH]; intros i H E; [destruct i; discriminate|]. apply Forall_cons_iff in H as [Ha H]. cbn [concat]. rewrite app_length, Ha.
  destruct i as [|i]; cbn [nth_error] in E.
  - injection E as ->. change (0 * n)%nat with O. cbn [skipn]. split; [|lia]. rewrite <- Ha. rewrite firstn_app, Nat.sub_diag, firstn_O, app_nil_r. apply firstn_all.
  - destruct (IH i H E) as [X Y]. split; [|lia]. replace (S i * n)%nat with (length a + i * n)%nat by lia. rewrite skipn_app.
    rewrite skipn_all2 by lia. replace (length a + i * n - length a)%nat with (i * n)%nat by lia. exact X.
Qed.
Lemma nth_flat {A B} (g : A -> list B) C ts i c t : (forall x, length (g x) = C) -> nth_error ts i = Some t -> (c < C)%nat ->
  nth_error (flat_map g ts) (i * C + c) = nth_error (g t) c.
Proof.
  intros HC. revert i. induction ts as [|a ts IH]; intros i E Hc; [destruct i; discriminate|]. cbn [flat_map]. destruct i as [|i]; cbn [nth_error] in E.
  - injection E as ->. change (0 * C + c)%nat with c. apply nth_error_app1. rewrite HC. exact Hc.
  - rewrite nth_error_app2 by (rewrite HC; lia). rewrite HC. replace (S i * C + c - C)%nat with (i * C + c)%nat by lia. apply IH; assumption.
Qed.
Lemma concat_flat {A B} (g : A -> list (list B)) l : concat (flat_map g l) = flat_map (fun x => concat (g x)) l.
Proof. induction l as [|a l IH]; [reflexivity|]. cbn [flat_map]. rewrite concat_app, IH. reflexivity. Qed.
Lemma frame_block n be (frame : list (list Z)) T c t ch : 1 <= n -> 0 <= T -> same_ticks frame T -> nth_error frame c = Some ch -> (Z.of_nat t < T) ->
  let data := frame_bytes n be (fun v => v) 0 frame T in
  let offset := (Z.of_nat t * zlen frame + Z.of_nat c) * n in
  firstn (Z.to_nat n) (skipn (Z.to_nat offset) data) = sample_bytes n be (nth t ch 0) /\ 0 <= offset /\ offset + n <= zlen data.
Proof.
  intros Hn HT Hs Ec Ht data offset.
  set (blocks := flat_map (fun t => map (fun ch => sample_bytes n be (nth t ch 0)) frame) (seq 0 (Z.to_nat T))).
  assert (data = concat blocks) as Ed.
  { unfold data, blocks, frame_bytes. rewrite concat_flat. apply flat_map_ext. intro x. apply flat_map_concat_map. }
  assert (Forall (fun x => length x = Z.to_nat n) blocks) as Hb.
  { apply Forall_forall. intros x Hx. unfold blocks in Hx. apply in_flat_map in Hx as (t0 & _ & Hx). apply in_map_iff in Hx as (ch0 & <- & _).
    pose proof (sample_bytes_len n be (nth t0 ch0 0) ltac:(lia)). unfold zlen in *. lia. }
  assert (c < length frame)%nat as Hc by (apply nth_error_Some; rewrite Ec; discriminate).
  assert (nth_error blocks (t * length frame + c) = Some (sample_bytes n be (nth t ch 0))) as E.
  { unfold blocks. rewrite (nth_flat _ (length frame) _ t c t); [|intro; apply map_length| |exact Hc].
    - rewrite nth_error_map, Ec. reflexivity.
    - rewrite (nth_error_nth' _ O) by (rewrite seq_length; lia). rewrite seq_nth by lia. reflexivity. }
  destruct (block_at _ _ _ _ Hb E) as [X Y]. assert (Z.to_nat offset = (t * length frame + c) * Z.to_nat n)%nat as Eo by (unfold offset, zlen; nia).
  rewrite Eo, Ed. split; [exact X|]. unfold offset, zlen. split; [nia|]. nia.
Qed.
Lemma frame_bytes_len {A} n be (value : A -> Z) d (frame : list (list A)) T : 0 <= n -> 0 <= T -> zlen (frame_bytes n be value d frame T) = zlen frame * T * n.
Proof.
  intros Hn HT. unfold frame_bytes, zlen. assert (forall ts, Z.of_nat (length (flat_map (fun t => flat_map (fun ch => sample_bytes n be (value (nth t ch d))) frame) ts)) = Z.of_nat (length frame) * Z.of_nat (length ts) * n) as X.
  { assert (forall t fr, Z.of_nat (length (flat_map (fun ch => sample_bytes n be (value (nth t ch d))) fr)) = Z.of_nat (length fr) * n) as Y.
    { induction fr as [|ch fr IH]; [reflexivity|]. cbn [flat_map length]. rewrite app_length. pose proof (sample_bytes_len n be (value (nth t ch d)) Hn) as L. unfold zlen in L. lia. }
    induction ts as [|t ts IH]; [cbn [flat_map length]; lia|]. cbn [flat_map length]. rewrite app_length, Nat2Z.inj_add, Y, IH. lia. }
  rewrite X, seq_length. lia.
Qed.
Lemma lpcm_sample_ok n be (frame : list (list Z)) T c t ch : 1 <= n <= 4 -> 0 <= T -> same_ticks frame T -> Forall (Forall int32) frame ->
  nth_error frame c = Some ch -> Z.of_nat t < T ->
  lpcm_sample (negb be) n (frame_bytes n be (fun v => v) 0 frame T) ((Z.of_nat t * zlen frame + Z.of_nat c) * n) = Ok (int32_to_double (upper n (nth t ch 0))).
Proof.
  intros Hn HT Hs Hi Ec Ht. destruct (frame_block n be frame T c t ch ltac:(lia) HT Hs Ec Ht) as (E & O1 & O2). unfold lpcm_sample.
  match goal with |- (if ?x then _ else _) = _ => replace x with false by lia end. rewrite E.
  assert (int32 (nth t ch 0)) as Hv.
  { rewrite Forall_forall in Hi. specialize (Hi ch (nth_error_In _ _ Ec)). rewrite Forall_forall in Hi. apply Hi. apply nth_In.
    unfold same_ticks in Hs. rewrite Forall_forall in Hs. specialize (Hs ch (nth_error_In _ _ Ec)). unfold zlen in Hs. lia. }
  pose proof (read_sample n (nth t ch 0) Hv Hn) as R. unfold map_res. destruct be; cbn [negb].
  - unfold be_to_int32, sample_bytes. rewrite rev_involutive. unfold sample_bytes in R. rewrite R. reflexivity.
  - rewrite R. reflexivity.
Qed.
Lemma write_pcm_frame_ok n be (samples : list (list Z)) T : 1 <= n <= 4 -> 0 <= T -> same_ticks samples T -> 1 <= zlen samples ->
  write_pcm_frame samples (8 * n) be = Ok (frame_bytes n be (fun v => v) 0 samples T).
Proof.
  intros Hn HT Hs HL. pose proof (frame_bytes_len n be (fun v : Z => v) 0 samples T ltac:(lia) HT) as Ld. set (data := frame_bytes n be (fun v => v) 0 samples T) in *.
  unfold write_pcm_frame. replace (8 * n mod 8) with 0 by lia. change (0 =? 0) with true. cbn [negb]. replace (8 * n / 8) with n by lia.
  enough (forall ch : list Z, zlen ch = T -> (let num := zlen samples * zlen ch in
     let buf := repeat 0 (Z.to_nat (num * n)) in
     if num =? 0 then Ok buf else match write_samples (fun v => Ok v) samples (8 * n) be (tick_order (length ch) (length samples)) buf 0 with
                | (Ok _, b, _) => Ok b
                | (Err e, _, _) => Err e | (Abort, _, _) => Abort | (UB, _, _) => UB | (Diverge, _, _) => Diverge
                end) = Ok data) as X.
  { destruct samples as [|ch rest]; [unfold zlen in HL; cbn in HL; lia|]. apply X. apply Forall_cons_iff in Hs as [? _]; assumption. }
  intros ch Ec. cbv zeta. rewrite Ec. destruct (zlen samples * T =? 0) eqn:E0.
  - f_equal. assert (T = 0) as -> by nia. rewrite Z.mul_0_r, Z.mul_0_l in *. change (Z.to_nat 0) with O. cbn [repeat]. destruct data; [reflexivity|unfold zlen in Ld; cbn [length] in Ld; lia].
  - pose proof (tick_order_len (length ch) (length samples)) as Lo.
    destruct (write_samples_ok (fun v => Ok v) (fun v : Z => v) samples n be Hn (tick_order (length ch) (length samples)) (repeat 0 (Z.to_nat (zlen samples * T * n))) 0) as [E _].
    + apply Forall_forall. intros [t c] Hin. replace (length ch) with (Z.to_nat T) in Hin by (unfold zlen in Ec; lia).
      destruct (order_fetch samples T t c Hs Hin) as (ch0 & a & _ & _ & Ea). exists a. split; [exact Ea|reflexivity].
    + lia.
    + rewrite Lo. unfold zlen in *. rewrite repeat_length. nia.
    + rewrite E. f_equal. replace (length ch) with (Z.to_nat T) by (unfold zlen in Ec; lia). rewrite (order_frame n be (fun v : Z => v) samples 0 T Hs). fold data.
      unfold splice. change (Z.to_nat 0) with O. cbn [firstn app Nat.add]. rewrite skipn_all2; [apply app_nil_r|]. rewrite repeat_length, <- Ld. unfold zlen. lia.
Qed.
(* SPEC: what decoding an encoded LPCM frame must give: every sample with all but its upper n bytes cleared, over 2^31. *)
Theorem C44_lpcm_round_trip : forall channels spf n little samples,
  1 <= channels -> 1 <= n <= 4 -> zlen samples = channels -> same_ticks samples spf -> Forall (Forall int32) samples ->
  exists data decoded, lpcm_encode channels spf (8 * n) little samples = Ok data /\
    data = frame_bytes n (negb little) (fun v => v) 0 samples spf /\ zlen data = channels * spf * n /\
    lpcm_decode channels spf n little data = Ok decoded /\
    decoded = map (map (fun v => int32_to_double (upper n v))) samples /\
    Forall (Forall (fun v => finite (int32_to_double (upper n v)) /\ B2R (int32_to_double (upper n v)) = (IZR (upper n v) / IZR (2^31))%R /\
                             pcm_value (int32_to_double (upper n v)) = upper n v)) samples.
Proof.
  intros C T n little samples HC Hn HL Hs Hi.
  assert (0 <= T) as HT by (destruct samples as [|ch r]; [unfold zlen in HL; cbn in HL; lia|apply Forall_cons_iff in Hs as [<- _]; unfold zlen; lia]).
  set (be := negb little). set (data := frame_bytes n be (fun v => v) 0 samples T).
  pose proof (frame_bytes_len n be (fun v : Z => v) 0 samples T ltac:(lia) HT) as Ld. fold data in Ld. rewrite HL in Ld.
  exists data, (map (map (fun v => int32_to_double (upper n v))) samples). split; [|split; [reflexivity|split; [exact Ld|split; [|split; [reflexivity|]]]]].
  - unfold lpcm_encode. replace (zlen samples =? C) with true by lia. cbn [negb].
    pose proof (write_pcm_frame_ok n be samples T Hn HT Hs ltac:(lia)) as W. fold be. fold data in W.
    destruct samples as [|ch rest] eqn:Es; [unfold zlen in HL; cbn in HL; lia|].
    assert (zlen ch = T) as Ec by (apply Forall_cons_iff in Hs as [? _]; assumption). replace (zlen ch =? T) with true by lia. exact W.
  - unfold lpcm_decode. rewrite Ld. replace (C * T * n mod n) with 0 by (symmetry; apply Z_mod_mult). rewrite Z.div_mul by lia. replace (C * T mod C) with 0 by (rewrite Z.mul_comm; symmetry; apply Z_mod_mult).
    change (0 =? 0) with true. cbn [negb orb]. cbv iota. rewrite (Z.mul_comm C T), Z.div_mul by lia. replace (T >? T) with false by lia. cbv iota.
    assert (little = negb be) as El by (unfold be; rewrite negb_involutive; reflexivity).
    rewrite map_map.
    rewrite (res_list_ok _ (fun c => map (fun v => int32_to_double (upper n v)) (nth c samples []))).
    + f_equal. replace (Z.to_nat C) with (length samples) by (unfold zlen in HL; lia). apply map_nth_seq.
    + intros c Hc. apply in_seq in Hc. rewrite map_map.
      destruct (nth_error samples c) as [ch|] eqn:Ec; [|apply nth_error_None in Ec; unfold zlen in HL; lia]. rewrite (nth_error_nth _ _ [] Ec).
      assert (length ch = Z.to_nat T) as Lc by (unfold same_ticks in Hs; rewrite Forall_forall in Hs; specialize (Hs ch (nth_error_In _ _ Ec)); unfold zlen in Hs; lia).
      rewrite (res_list_ok _ (fun t => int32_to_double (upper n (nth t ch 0)))).
      * f_equal. rewrite <- Lc. apply (map_nth_seq (fun v => int32_to_double (upper n v))).
      * intros t Ht. apply in_seq in Ht. rewrite <- HL, El. apply lpcm_sample_ok; try assumption. lia.
  - eapply Forall_impl; [|exact Hi]. intros ch Hch. eapply Forall_impl; [|exact Hch]. intros v Hv.
    assert (int32 (upper n v)) as Hu.
    { unfold int32, upper in *. assert (1 <= 2^(32 - 8*n)) by (assert (0 < 2^(32 - 8*n)) by (apply Z.pow_pos_nonneg; lia); lia).
      pose proof (Z.mul_div_le v (2^(32 - 8*n)) ltac:(lia)). assert (2^31 = 2^(8*n - 1) * 2^(32-8*n)) as E by (rewrite <- Z.pow_add_r by lia; f_equal; lia).
      split; [|lia]. assert (- 2^(8*n-1) <= v / 2^(32 - 8*n)) by (apply Z.div_le_lower_bound; lia). nia. }
    destruct (int32_to_double_val _ Hu) as [F E]. split; [exact F|]. split; [exact E|].
    pose proof (int32_round_trip _ Hu) as R. rewrite double_to_int32_val in R by exact F. injection R as R. exact R.
Qed.
(* 16-bit little endian LPCM data, decoded and written as 16-bit PCM (or 32-bit as 32-bit), comes out byte for byte. *)
Theorem C44_lpcm_passes_through : forall channels spf s samples span bw,
  1 <= channels -> s <> OtherType -> zlen samples = channels -> same_ticks samples spf -> Forall (Forall int32) samples ->
  channels * spf * bytes_per_sample s <= zlen span < 2^64 ->
  exists data decoded, lpcm_encode channels spf (8 * bytes_per_sample s) true samples = Ok data /\
    lpcm_decode channels spf (bytes_per_sample s) true data = Ok decoded /\
    write_frame_to_span decoded s span bw = (Ok tt, data ++ skipn (length data) span, zlen data).
Proof.
  intros C T s samples span bw HC Hs HL Ht Hi [Hsp H64].
  assert (1 <= bytes_per_sample s <= 4) as Hb by (destruct s; cbn [bytes_per_sample]; try lia; contradiction).
  destruct (C44_lpcm_round_trip C T (bytes_per_sample s) true samples HC Hb HL Ht Hi) as (data & decoded & E1 & Ed & Ld & E2 & Edec & Hv).
  exists data, decoded. split; [exact E1|]. split; [exact E2|].
  set (n := bytes_per_sample s) in *. set (h := fun v => int32_to_double (upper n v)) in *.
  assert (zlen decoded = C) as Lc by (rewrite Edec; unfold zlen; rewrite map_length; exact HL).
  destruct (C33_frame_is_written decoded s span bw T (h 0)) as [W L].
  - intros ->. unfold zlen in Lc. cbn in Lc. lia.
  - exact Hs.
  - unfold same_ticks in *. rewrite Edec. apply Forall_map. eapply Forall_impl; [|exact Ht]. intros ch Hch. unfold zlen in *. rewrite map_length. exact Hch.
  - rewrite Edec. apply Forall_map. eapply Forall_impl; [|exact Hv]. intros ch Hch. apply Forall_map. eapply Forall_impl; [|exact Hch]. intros v (F & _). exact F.
  - rewrite Lc. exact Hsp.
  - exact H64.
  - cbv zeta in W. fold n in W.
    assert (frame_bytes n false pcm_value (h 0) decoded T = data) as E.
    { rewrite Ed. cbn [negb]. rewrite Edec. unfold frame_bytes. 
      assert (forall ts, Forall (fun t => Z.of_nat t < T) ts -> flat_map (fun t => flat_map (fun ch => sample_bytes n false (pcm_value (nth t ch (h 0)))) (map (map h) samples)) ts =
        flat_map (fun t => flat_map (fun ch => sample_bytes n false (nth t ch 0)) samples) ts) as X.
      { induction ts as [|t ts IH]; intro H; [reflexivity|]. apply Forall_cons_iff in H as [H1 H2]. cbn [flat_map]. rewrite (IH H2). f_equal.
        clear - H1 Ht Hv Hb. induction samples as [|ch r IH]; [reflexivity|]. apply Forall_cons_iff in Ht as [Hc Hr]. apply Forall_cons_iff in Hv as [Hv1 Hv2]. cbn [map flat_map].
        rewrite (IH Hr Hv2). f_equal. rewrite map_nth. rewrite Forall_forall in Hv1.
        destruct (Hv1 (nth t ch 0)) as (_ & _ & P); [apply nth_In; unfold zlen in Hc; lia|]. unfold h. rewrite P.
        unfold sample_bytes. apply map_ext_in. intros i Hin. apply in_seq in Hin. unfold upper.
        rewrite Z.pow_add_r by lia. rewrite <- !Z.div_div by (try apply Z.pow_nonzero; try apply Z.pow_pos_nonneg; lia).
        rewrite Z.div_mul by (apply Z.pow_nonzero; lia). reflexivity. }
      apply X. apply Forall_forall. intros t Hin. apply in_seq in Hin. lia. }
    rewrite E in W. rewrite W. f_equal. rewrite Ld, Lc. reflexivity.
Qed.
(* Data of a wrong size is refused; a shorter frame is accepted with fewer ticks. *)
Theorem C44_wrong_sizes_are_refused : forall channels spf n little data, 1 <= channels -> 1 <= n ->
  (zlen data mod (n * channels) <> 0 \/ spf * n * channels < zlen data) -> lpcm_decode channels spf n little data = Err InvalidArgument.
Proof.
  intros C T n little data HC Hn H. unfold lpcm_decode.
  destruct (Z.eq_dec (zlen data mod n) 0) as [E1|E1]; [|replace (zlen data mod n =? 0) with false by lia; reflexivity].
  destruct (Z.eq_dec (zlen data / n mod C) 0) as [E2|E2]; [|replace (zlen data / n mod C =? 0) with false by lia; rewrite orb_true_r; reflexivity].
  rewrite E1, E2. change (0 =? 0) with true. cbn [negb orb].
  assert (zlen data = n * (C * (zlen data / n / C))) as E.
  { rewrite (Z.div_mod (zlen data) n) at 1 by lia. rewrite (Z.div_mod (zlen data / n) C) at 1 by lia. lia. }
  set (q := zlen data / n / C) in *. destruct H as [H|H].
  - exfalso. apply H. rewrite E. replace (n * (C * q)) with (q * (n * C)) by lia. apply Z_mod_mult.
  - replace (q >? T) with true; [reflexivity|]. symmetry. apply Z.gtb_lt. destruct (Z.lt_ge_cases T q) as [|G]; [assumption|]. assert (q * (n * C) <= T * (n * C)) by (apply Z.mul_le_mono_nonneg_r; [nia|exact G]). lia.
Qed.
Example C44_ex : lpcm_encode 2 2 24 false [[1000; -1]; [-2147483648; 65536]] = Ok [0; 0; 3; 128; 0; 0; 255; 255; 255; 0; 1; 0] /\
  exists d, lpcm_decode 2 2 3 false [0; 0; 3; 128; 0; 0; 255; 255; 255; 0; 1; 0] = Ok d /\ map (map double_to_int32) d = [[Ok 768; Ok (-256)]; [Ok (-2147483648); Ok 65536]].
Proof. split; [vm_compute; reflexivity|]. eexists. split; [reflexivity|]. vm_compute. reflexivity. Qed.
