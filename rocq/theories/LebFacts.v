From Verif Require Import Base BitFacts WriteBuf Leb LebSpec.

Lemma land_0_disjoint a b k : 0 <= k -> 0 <= a < 2^k -> Z.land a (b * 2^k) = 0.
Proof.
  intros Hk Ha. apply Z.bits_inj'. intros n Hn. rewrite Z.land_spec, Z.bits_0.
  destruct (Z.lt_ge_cases n k).
  - rewrite Z.mul_pow2_bits_low by lia. apply andb_false_r.
  - rewrite <- (Z.mod_small a (2^k)) by lia. rewrite Z.mod_pow2_bits_high by lia. reflexivity.
Qed.
Lemma lor_disjoint a b k : 0 <= k -> 0 <= a < 2^k -> Z.lor a (b * 2^k) = a + b * 2^k.
Proof.
  intros Hk Ha. pose proof (land_0_disjoint a b k Hk Ha) as E.
  rewrite <- Z.lxor_lor by exact E. symmetry. apply Z.add_nocarry_lxor, E.
Qed.

Lemma lor_128 t : Z.lor 128 (Z.land t 127) = 128 + t mod 128.
Proof.
  change 127 with (Z.ones 7). rewrite Z.land_ones by lia. change (2^7) with 128.
  rewrite Z.lor_comm. change 128 with (1 * 2^7) at 2. rewrite lor_disjoint by (change (2^7) with 128; lia).
  change (1 * 2^7) with 128. lia.
Qed.

Lemma land_127 b : Z.land b 127 = b mod 128.
Proof. change 127 with (Z.ones 7). rewrite Z.land_ones by lia. reflexivity. Qed.

Lemma shiftr7 t : Z.shiftr t 7 = t / 128.
Proof. rewrite Z.shiftr_div_pow2 by lia. reflexivity. Qed.

(* bit 6 of a byte, as arithmetic; finite sweep over bytes *)
Lemma land_64_sweep : forallb (fun b => Bool.eqb (Z.land b 64 =? 0) (b mod 128 <? 64)) (map Z.of_nat (seq 0 256)) = true.
Proof. vm_compute. reflexivity. Qed.
Lemma land_64 b : byteP b -> (Z.land b 64 =? 0) = (b mod 128 <? 64).
Proof.
  intro H. pose proof land_64_sweep as S. rewrite forallb_forall in S.
  apply Bool.eqb_prop. apply (S b). apply in_map_iff. exists (Z.to_nat b). unfold byteP in H.
  split; [lia|]. apply in_seq. lia.
Qed.
Lemma land_128_sweep : forallb (fun b => Bool.eqb (Z.land b 128 =? 0) (b <? 128)) (map Z.of_nat (seq 0 256)) = true.
Proof. vm_compute. reflexivity. Qed.
Lemma land_128 b : byteP b -> (Z.land b 128 =? 0) = (b <? 128).
Proof.
  intro H. pose proof land_128_sweep as S. rewrite forallb_forall in S.
  apply Bool.eqb_prop. apply (S b). apply in_map_iff. exists (Z.to_nat b). unfold byteP in H.
  split; [lia|]. apply in_seq. lia.
Qed.

(* ---- the generator loop ---- *)
Section Gen.
Variable signed : bool.
Variable v : Z.
Hypothesis Hv : if signed then -2^31 <= v < 2^31 else 0 <= v < 2^32.

Definition w (j : nat) : Z := v / 128 ^ Z.of_nat j.
Definition digit (j : nat) : Z := 128 + w j mod 128.
(* v fits in j+1 bytes *)
Definition fitsb (j : nat) : bool := if signed then (-64 <=? w j) && (w j <? 64) else (w j <? 128).
Definition digits (i n : nat) : list Z := map digit (seq i n).

Lemma pow128_pos j : 0 < 128 ^ Z.of_nat j. Proof. apply Z.pow_pos_nonneg; lia. Qed.
Lemma w_S j : w (S j) = w j / 128.
Proof.
  unfold w. pose proof (pow128_pos j). rewrite Nat2Z.inj_succ, Z.pow_succ_r by lia.
  rewrite Z.mul_comm, Z.div_div by lia. reflexivity.
Qed.
Lemma w_range j : if signed then -2^31 <= w j < 2^31 else 0 <= w j < 2^32.
Proof.
  induction j as [|j IH]; [unfold w; change (Z.of_nat 0) with 0; rewrite Z.pow_0_r, Z.div_1_r; exact Hv|].
  rewrite w_S. destruct signed; lia.
Qed.
Definition negb' : bool := signed && (v <? 0).
Lemma w_neg j : signed = true -> (v <? 0) = (w j <? 0).
Proof.
  intro Hs. induction j as [|j IH]; [unfold w; change (Z.of_nat 0) with 0; rewrite Z.pow_0_r, Z.div_1_r; reflexivity|].
  rewrite w_S, IH. lia.
Qed.

Lemma step_t j : (if negb' then Z.lor (Z.shiftr (u32 (w j)) 7) 4261412864 else Z.shiftr (u32 (w j)) 7) = u32 (w (S j)).
Proof.
  pose proof (w_range j) as R. rewrite shiftr7, w_S. unfold negb', u32.
  destruct signed eqn:Es; cbn [andb].
  - rewrite (w_neg j Es). destruct (w j <? 0) eqn:N.
    + change 4261412864 with (127 * 2^25). rewrite lor_disjoint.
      * change (127 * 2^25) with 4261412864. change (2^32) with 4294967296 in *. change (2^31) with 2147483648 in *. lia.
      * lia.
      * change (2^25) with 33554432. change (2^32) with 4294967296 in *. change (2^31) with 2147483648 in *. lia.
    + change (2^32) with 4294967296 in *. change (2^31) with 2147483648 in *. lia.
  - change (2^32) with 4294967296 in *. lia.
Qed.

Lemma step_byte j : Z.lor 128 (Z.land (u32 (w j)) 127) = digit j.
Proof. rewrite lor_128. unfold digit, u32. change (2^32) with 4294967296. lia. Qed.

Lemma digit_byte j : byteP (digit j). Proof. unfold digit, byteP. lia. Qed.
Lemma digit_mod j : digit j mod 128 = w j mod 128. Proof. unfold digit. lia. Qed.

Lemma step_end j :
  (u32 (w (S j)) =? (if signed && negb (Z.land (digit j) 64 =? 0) then 2^32 - 1 else 0)) = fitsb j.
Proof.
  pose proof (w_range j) as R. rewrite w_S, land_64, digit_mod by apply digit_byte.
  unfold fitsb, u32. change (2^32) with 4294967296 in *. change (2^31) with 2147483648 in *.
  destruct signed; cbn [andb].
  - destruct (w j mod 128 <? 64) eqn:E; cbn [negb]; lia.
  - lia.
Qed.

Lemma fitsb_mono j : fitsb j = true -> fitsb (S j) = true.
Proof. pose proof (w_range j) as R. unfold fitsb. rewrite w_S. destruct signed; lia. Qed.
Lemma fitsb_mono' j k : (j <= k)%nat -> fitsb j = true -> fitsb k = true.
Proof. induction 1; auto using fitsb_mono. Qed.
Lemma fitsb_4 : fitsb 4 = true.
Proof.
  pose proof (w_range 0) as R. unfold fitsb. rewrite !w_S. unfold w in *. change (Z.of_nat 0) with 0 in *.
  rewrite Z.pow_0_r, Z.div_1_r in *.
  change (2^32) with 4294967296 in *. change (2^31) with 2147483648 in *. destruct signed; lia.
Qed.

Lemma loop_fixed n i rbuf st :
  leb_loop n negb' signed false (u32 (w i)) rbuf st =
  mkLeb (rev (digits i n) ++ rbuf) (st || existsb fitsb (seq i n)).
Proof.
  revert i rbuf st. induction n as [|n IH]; intros i rbuf st.
  - cbn. rewrite orb_false_r. reflexivity.
  - cbn [leb_loop]. rewrite step_byte, step_t, step_end.
    unfold digits. cbn [seq map rev existsb].
    destruct (fitsb i); rewrite IH; rewrite <- app_assoc; cbn [app orb].
    + rewrite orb_true_r. reflexivity.
    + reflexivity.
Qed.

Lemma loop_min n i rbuf st :
  fitsb (i + n) = true ->
  exists m, (m <= n)%nat /\ fitsb (i + m) = true /\ (forall m', (m' < m)%nat -> fitsb (i + m') = false) /\
    leb_loop (S n) negb' signed true (u32 (w i)) rbuf st = mkLeb (rev (digits i (S m)) ++ rbuf) true.
Proof.
  revert i rbuf st. induction n as [|n IH]; intros i rbuf st H.
  - exists O. rewrite Nat.add_0_r in *. split; [lia|]. split; [exact H|]. split; [lia|].
    cbn [leb_loop]. rewrite step_byte, step_t, step_end, H. reflexivity.
  - cbn [leb_loop]. rewrite step_byte, step_t, step_end.
    destruct (fitsb i) eqn:F.
    + exists O. rewrite Nat.add_0_r. split; [lia|]. split; [exact F|]. split; [lia|]. reflexivity.
    + destruct (IH (S i) (digit i :: rbuf) st) as (m & M1 & M2 & M3 & M4).
      { replace (S i + n)%nat with (i + S n)%nat by lia. exact H. }
      exists (S m). split; [lia|]. split; [replace (i + S m)%nat with (S i + m)%nat by lia; exact M2|]. split.
      * intros [|m'] Hm'; [rewrite Nat.add_0_r; exact F|].
        replace (i + S m')%nat with (S i + m')%nat by lia. apply M3. lia.
      * cbn [leb_loop] in M4. rewrite M4. unfold digits.
        rewrite <- (cons_seq (S m) i). cbn [map rev]. rewrite <- !app_assoc. reflexivity.
Qed.

(* the bytes finally produced for n+1 digits *)
Definition enc (n : nat) : list Z := digits 0 n ++ [w n mod 128].

Lemma mask_digits n : match rev (digits 0 (S n)) ++ [] with [] => None | b :: t => Some (rev (Z.land b 127 :: t)) end = Some (enc n).
Proof.
  rewrite app_nil_r. unfold digits. rewrite seq_S, map_app, rev_app_distr. cbn [map rev app].
  rewrite rev_involutive. unfold enc, digits. rewrite land_127. cbn [Nat.add]. rewrite digit_mod. reflexivity.
Qed.

Lemma enc_is_leb_from i n : is_leb (digits i n ++ [w (i + n) mod 128]).
Proof.
  revert i. induction n as [|n IH]; intro i; cbn.
  - lia.
  - specialize (IH (S i)). unfold digits in IH. replace (S i + n)%nat with (i + S n)%nat in IH by lia.
    destruct (map digit (seq (S i) n) ++ [w (i + S n) mod 128]) eqn:E.
    + destruct (map digit (seq (S i) n)); discriminate.
    + split; [unfold digit; lia|exact IH].
Qed.
Lemma enc_is_leb n : is_leb (enc n). Proof. apply (enc_is_leb_from 0). Qed.
Lemma enc_length n : length (enc n) = S n.
Proof. unfold enc, digits. rewrite app_length, map_length, seq_length. cbn. lia. Qed.

Lemma enc_value_from i n :
  uleb_value (digits i n ++ [w (i + n) mod 128]) = w i mod 128 ^ Z.of_nat (S n).
Proof.
  revert i. induction n as [|n IH]; intro i.
  - cbn [digits seq map app uleb_value]. rewrite Nat.add_0_r. change (128 ^ Z.of_nat 1) with 128. lia.
  - unfold digits. cbn [seq map app uleb_value]. fold (digits (S i) n).
    replace (i + S n)%nat with (S i + n)%nat by lia. rewrite IH, digit_mod, w_S.
    rewrite (Nat2Z.inj_succ (S n)), Z.pow_succ_r by lia.
    pose proof (pow128_pos (S n)). rewrite Z.rem_mul_r by lia. reflexivity.
Qed.
Lemma enc_value n : uleb_value (enc n) = v mod 128 ^ Z.of_nat (S n).
Proof.
  unfold enc. pose proof (enc_value_from 0 n) as E. cbn [Nat.add] in E. rewrite E. unfold w. change (Z.of_nat 0) with 0. rewrite Z.pow_0_r, Z.div_1_r. reflexivity.
Qed.

Lemma enc_last n : last (enc n) 0 = w n mod 128.
Proof. unfold enc. apply last_last. Qed.

Lemma gen_fixed k : 1 <= k <= 8 ->
  leb128_to_bytes signed v k false =
  if fitsb (Z.to_nat k - 1) then Ok (enc (Z.to_nat k - 1)) else Err InvalidArgument.
Proof.
  intro Hk. unfold leb128_to_bytes. replace ((k <? 1) || (8 <? k)) with false by lia.
  fold negb'. replace (u32 v) with (u32 (w 0)) by (unfold w; change (Z.of_nat 0) with 0; rewrite Z.pow_0_r, Z.div_1_r; reflexivity).
  rewrite loop_fixed. set (n := (Z.to_nat k - 1)%nat). replace (Z.to_nat k) with (S n) by lia.
  pose proof (mask_digits n) as M. cbn [l_buf l_ok].
  destruct (rev (digits 0 (S n)) ++ []) as [|b t]; [discriminate|]. injection M as M.
  replace (existsb fitsb (seq 0 (S n))) with (fitsb n).
  - cbn [orb]. destruct (fitsb n); [f_equal; exact M|reflexivity].
  - destruct (fitsb n) eqn:F.
    + symmetry. apply existsb_exists. exists n. split; [apply in_seq; lia|exact F].
    + symmetry. apply not_true_is_false. intro X. apply existsb_exists in X as (x & Hx & Fx). apply in_seq in Hx.
      assert (fitsb n = true); [|congruence]. apply (fitsb_mono' x); [lia|exact Fx].
Qed.

Lemma gen_min :
  exists n, (n <= 4)%nat /\ fitsb n = true /\ (forall m, (m < n)%nat -> fitsb m = false) /\
            leb128_to_bytes signed v 8 true = Ok (enc n).
Proof.
  destruct (loop_min 7 0 [] false) as (m & M1 & M2 & M3 & M4).
  { apply (fitsb_mono' 4); [lia|exact fitsb_4]. }
  cbn [Nat.add] in *. exists m. split.
  { destruct (le_lt_dec m 4) as [|G]; [assumption|]. specialize (M3 4%nat G). rewrite fitsb_4 in M3. discriminate. }
  split; [exact M2|]. split; [exact M3|].
  unfold leb128_to_bytes. change ((8 <? 1) || (8 <? 8)) with false. cbv iota. fold negb'.
  replace (u32 v) with (u32 (w 0)) by (unfold w; change (Z.of_nat 0) with 0; rewrite Z.pow_0_r, Z.div_1_r; reflexivity).
  change (Z.to_nat 8) with 8%nat. rewrite M4. pose proof (mask_digits m) as M. cbn [l_buf l_ok].
  destruct (rev (digits 0 (S m)) ++ []) as [|b t]; [discriminate|]. injection M as M. f_equal. exact M.
Qed.
End Gen.

(* ---- unsigned: fits ---- *)
Lemma fits_u v j : 0 <= v -> fitsb false v j = (v <? 128 ^ Z.of_nat (S j)).
Proof.
  intro Hv. unfold fitsb, w. pose proof (pow128_pos j). rewrite Nat2Z.inj_succ, Z.pow_succ_r by lia.
  destruct (v <? 128 * 128 ^ Z.of_nat j) eqn:E.
  - assert (v / 128 ^ Z.of_nat j < 128); [|lia]. apply Z.div_lt_upper_bound; lia.
  - assert (128 <= v / 128 ^ Z.of_nat j); [|lia]. apply Z.div_le_lower_bound; lia.
Qed.

Lemma uleb_value_nonneg l : 0 <= uleb_value l < 128 ^ zlen l.
Proof.
  induction l as [|b l IH]; [cbv; split; congruence|]. cbn [uleb_value]. rewrite zlen_cons.
  rewrite Z.pow_add_r by (pose proof (zlen_nonneg l); lia). lia.
Qed.

Lemma uleb_enc_value v n : 0 <= v < 128 ^ Z.of_nat (S n) -> uleb_value (enc v n) = v.
Proof. intro H. rewrite enc_value. apply Z.mod_small, H. Qed.

Lemma sleb_enc_value v n : -64 <= w v n < 64 -> sleb_value (enc v n) = v.
Proof.
  intro H. unfold sleb_value. rewrite enc_last, enc_value. unfold zlen. rewrite enc_length.
  assert (v mod 128 ^ Z.of_nat (S n) = v - 128 ^ Z.of_nat (S n) * (w v n / 128)) as E.
  { rewrite Z.mod_eq by (pose proof (pow128_pos (S n)); lia). do 2 f_equal.
    rewrite <- w_S. reflexivity. }
  rewrite E. rewrite Z.mod_mod by lia.
  destruct (64 <=? w v n mod 128) eqn:B.
  - replace (w v n / 128) with (-1) by lia. lia.
  - replace (w v n / 128) with 0 by lia. lia.
Qed.

Lemma uleb_min_spec v : 0 <= v < 2^32 ->
  exists l, uleb_bytes LebMin v = Ok l /\ is_leb l /\ uleb_value l = v /\ (1 <= length l <= 5)%nat /\
            forall l', uleb_value l' = v -> l' <> [] -> (length l <= length l')%nat.
Proof.
  intro Hv. destruct (gen_min false v Hv) as (n & N1 & N2 & N3 & N4).
  exists (enc v n). cbn [uleb_bytes]. split; [exact N4|]. split; [apply enc_is_leb|].
  rewrite fits_u in N2 by lia. split; [apply uleb_enc_value; lia|]. rewrite enc_length. split; [lia|].
  intros l' Hl' Hne. destruct (le_lt_dec (S n) (length l')) as [|G]; [assumption|exfalso].
  destruct l' as [|b t]; [congruence|]. cbn [length] in G.
  specialize (N3 (length t)). rewrite fits_u in N3 by lia.
  pose proof (uleb_value_nonneg (b :: t)) as B. rewrite Hl' in B. unfold zlen in B. cbn [length] in B.
  assert (v <? 128 ^ Z.of_nat (S (length t)) = false) by (apply N3; lia). lia.
Qed.

Lemma uleb_fixed_spec v k : 0 <= v < 2^32 -> 1 <= k <= 8 ->
  (v < 128 ^ k -> exists l, uleb_bytes (LebFixed k) v = Ok l /\ is_leb l /\ uleb_value l = v /\ zlen l = k) /\
  (128 ^ k <= v -> uleb_bytes (LebFixed k) v = Err InvalidArgument).
Proof.
  intros Hv Hk. cbn [uleb_bytes]. rewrite (gen_fixed false v Hv k Hk). rewrite fits_u by lia.
  replace (Z.of_nat (S (Z.to_nat k - 1))) with k by lia. split; intro H.
  - replace (v <? 128 ^ k) with true by lia. eexists. split; [reflexivity|]. split; [apply enc_is_leb|].
    split; [apply uleb_enc_value; replace (Z.of_nat (S (Z.to_nat k - 1))) with k by lia; lia|].
    unfold zlen. rewrite enc_length. lia.
  - replace (v <? 128 ^ k) with false by lia. reflexivity.
Qed.

Definition lebgen_wf (g : lebgen) : Prop := match g with LebMin => True | LebFixed k => 1 <= k <= 8 end.

Lemma uleb_ok g v l : lebgen_wf g -> 0 <= v < 2^32 -> uleb_bytes g v = Ok l ->
  is_leb l /\ uleb_value l = v /\ (1 <= length l <= 8)%nat.
Proof.
  intros Hg Hv E. destruct g as [|k].
  - destruct (uleb_min_spec v Hv) as (l' & E' & H1 & H2 & H3 & _). rewrite E in E'. injection E' as <-.
    split; [exact H1|]. split; [exact H2|]. lia.
  - cbn [lebgen_wf] in Hg. destruct (uleb_fixed_spec v k Hv Hg) as [A B].
    destruct (Z.lt_ge_cases v (128 ^ k)) as [L|L].
    + destruct (A L) as (l' & E' & H1 & H2 & H3). rewrite E in E'. injection E' as <-.
      unfold zlen in H3. split; [exact H1|]. split; [exact H2|]. lia.
    + rewrite (B L) in E. discriminate.
Qed.

Lemma is_leb_bytes l : is_leb l -> Forall byteP l.
Proof.
  induction l as [|b l IH]; [constructor|]. cbn [is_leb]. destruct l as [|b' l].
  - intro H. constructor; [unfold byteP; lia|constructor].
  - intros [H1 H2]. constructor; [unfold byteP; lia|apply IH, H2].
Qed.

Lemma uleb_status g v : lebgen_wf g -> 0 <= v < 2^32 ->
  (exists l, uleb_bytes g v = Ok l) \/ uleb_bytes g v = Err InvalidArgument.
Proof.
  intros Hg Hv. destruct g as [|k].
  - destruct (uleb_min_spec v Hv) as (l & E & _). eauto.
  - destruct (uleb_fixed_spec v k Hv Hg) as [A B]. destruct (Z.lt_ge_cases v (128^k)); [destruct A as (l & E & _); eauto|auto].
Qed.

(* ---- signed ---- *)
Lemma sleb_spec g v l : lebgen_wf g -> -2^31 <= v < 2^31 -> sleb_bytes g v = Ok l ->
  is_leb l /\ sleb_value l = v.
Proof.
  intros Hg Hv E. destruct g as [|k]; cbn [sleb_bytes] in E.
  - destruct (gen_min true v Hv) as (n & N1 & N2 & N3 & N4). rewrite N4 in E. injection E as <-.
    split; [apply enc_is_leb|]. apply sleb_enc_value. unfold fitsb in N2. lia.
  - cbn [lebgen_wf] in Hg. rewrite (gen_fixed true v Hv k Hg) in E.
    destruct (fitsb true v (Z.to_nat k - 1)) eqn:F; [|discriminate]. injection E as <-.
    split; [apply enc_is_leb|]. apply sleb_enc_value. unfold fitsb in F. lia.
Qed.

Lemma fits_s v j : fitsb true v j = (- 64 * 128 ^ Z.of_nat j <=? v) && (v <? 64 * 128 ^ Z.of_nat j).
Proof.
  unfold fitsb, w. pose proof (pow128_pos j) as P. set (q := 128 ^ Z.of_nat j) in *. clearbody q.
  pose proof (Z.div_mod v q) as D. pose proof (Z.mod_pos_bound v q P) as M.
  destruct (-64 <=? v / q) eqn:A; destruct (v / q <? 64) eqn:B; cbn [andb]; symmetry;
    rewrite ?andb_true_iff, ?andb_false_iff; nia.
Qed.

Lemma sleb_fixed_spec v k : -2^31 <= v < 2^31 -> 1 <= k <= 8 ->
  (-64 * 128 ^ (k-1) <= v < 64 * 128 ^ (k-1) -> exists l, sleb_bytes (LebFixed k) v = Ok l /\ zlen l = k) /\
  (~ (-64 * 128 ^ (k-1) <= v < 64 * 128 ^ (k-1)) -> sleb_bytes (LebFixed k) v = Err InvalidArgument).
Proof.
  intros Hv Hk. cbn [sleb_bytes]. rewrite (gen_fixed true v Hv k Hk), fits_s.
  replace (Z.of_nat (Z.to_nat k - 1)) with (k - 1) by lia. split; intro H.
  - replace ((-64 * 128 ^ (k - 1) <=? v) && (v <? 64 * 128 ^ (k - 1))) with true by lia.
    eexists. split; [reflexivity|]. unfold zlen. rewrite enc_length. lia.
  - replace ((-64 * 128 ^ (k - 1) <=? v) && (v <? 64 * 128 ^ (k - 1))) with false by lia. reflexivity.
Qed.

Lemma sleb_min_spec v : -2^31 <= v < 2^31 ->
  exists l, sleb_bytes LebMin v = Ok l /\ (1 <= length l <= 5)%nat /\
    (forall k, 1 <= k < zlen l -> ~ (-64 * 128 ^ (k-1) <= v < 64 * 128 ^ (k-1))).
Proof.
  intro Hv. destruct (gen_min true v Hv) as (n & N1 & N2 & N3 & N4). exists (enc v n).
  split; [exact N4|]. unfold zlen. rewrite enc_length. split; [lia|].
  intros k Hk H. specialize (N3 (Z.to_nat (k-1))). rewrite fits_s in N3.
  replace (Z.of_nat (Z.to_nat (k - 1))) with (k - 1) in N3 by lia. lia.
Qed.

(* ---- ISO 14496-1 ---- *)
Lemma iso_value_app l b : iso_value (l ++ [b]) = iso_value l * 128 + b mod 128.
Proof. unfold iso_value. rewrite fold_left_app. reflexivity. Qed.

(* after the loop: all bytes have the continuation bit; the value is the prefix value *)
Lemma iso_loop_spec f v buf : 0 <= v < 128 ^ Z.of_nat f -> (0 < f)%nat ->
  exists l, iso_loop f v buf = Ok (l ++ buf) /\ l <> [] /\ (length l <= f)%nat /\
            Forall (fun b => 128 <= b < 256) l /\ iso_value l = v.
Proof.
  revert v buf. induction f as [|f IH]; intros v buf Hv Hf; [lia|].
  cbn [iso_loop]. rewrite shiftr7. set (b := Z.lor (Z.land v 127) 128).
  assert (b = 128 + v mod 128) as Eb by (unfold b; rewrite Z.lor_comm; apply lor_128). clearbody b.
  destruct (v / 128 >? 0) eqn:E.
  - destruct (IH (v / 128) (b :: buf)) as (l & L1 & L2 & L3 & L4 & L5).
    { rewrite Nat2Z.inj_succ, Z.pow_succ_r in Hv by lia.
      split; [apply Z.div_pos; lia|apply Z.div_lt_upper_bound; lia]. }
    { destruct f; [change (128 ^ Z.of_nat 1) with 128 in Hv; lia|lia]. }
    exists (l ++ [b]). split; [rewrite L1, <- app_assoc; reflexivity|].
    split; [destruct l; discriminate|]. split; [rewrite app_length; cbn [length]; lia|].
    split; [apply Forall_app; split; [exact L4|]; constructor; [lia|constructor]|].
    rewrite iso_value_app, L5. lia.
  - exists [b]. split; [reflexivity|]. split; [discriminate|]. split; [cbn; lia|].
    split; [constructor; [lia|constructor]|]. unfold iso_value. cbn [fold_left]. lia.
Qed.

Lemma is_leb_snoc l b : Forall (fun b => 128 <= b < 256) l -> 0 <= b < 128 -> is_leb (l ++ [b]).
Proof.
  induction 1 as [|x l Hx Hl IH]; intro Hb; [exact Hb|]. cbn [app is_leb].
  destruct (l ++ [b]) eqn:E; [destruct l; discriminate|]. auto.
Qed.

Lemma iso_bytes_spec v : 0 <= v < 2^32 ->
  exists l, iso_bytes v = Ok l /\ is_leb l /\ iso_value l = v /\ (1 <= length l <= 5)%nat.
Proof.
  intro Hv. destruct (iso_loop_spec 5 v []) as (l & L1 & L2 & L3 & L4 & L5).
  { change (128 ^ Z.of_nat 5) with 34359738368. change (2^32) with 4294967296 in Hv. lia. } { lia. }
  unfold iso_bytes. rewrite L1, app_nil_r. cbn [rbind].
  destruct (exists_last L2) as (l0 & b & ->). rewrite app_length in L3. cbn [length] in L3.
  unfold mask_last. rewrite rev_app_distr. cbn [rev app]. rewrite rev_involutive.
  apply Forall_app in L4 as [L4 L6]. inversion L6 as [|x y Hb _]; subst x y.
  eexists. split; [reflexivity|]. rewrite land_127. split; [apply is_leb_snoc; [exact L4|lia]|].
  split; [|rewrite app_length; cbn [length]; lia].
  rewrite iso_value_app in *. rewrite Z.mod_mod by lia. exact L5.
Qed.
