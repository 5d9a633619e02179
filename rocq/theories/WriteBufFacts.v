(* The concrete write buffer refines "bits appended". *)
From Verif Require Import Base BitFacts WriteBuf BufSpec.

Lemma set_nth_app {A} (a : list A) x y b : set_nth (length a) y (a ++ x :: b) = Some (a ++ y :: b).
Proof. induction a as [|h a IH]; [reflexivity|]. simpl. rewrite IH. reflexivity. Qed.

Lemma nth_split_at {A} (l : list A) i : (i < length l)%nat -> exists a x b, l = a ++ x :: b /\ length a = i.
Proof.
  intro H. exists (firstn i l). destruct (skipn i l) as [|x b] eqn:E.
  - apply (f_equal (@length A)) in E. rewrite skipn_length in E. simpl in E. lia.
  - exists x, b. split; [rewrite <- E; symmetry; apply firstn_skipn|].
    rewrite firstn_length. lia.
Qed.

(* off bits written, k zero bits of slack *)
Definition wrel (w : wbuf) (bs : list bool) (k : nat) : Prop :=
  w_off w = zlen bs /\ Forall byteP (w_bytes w) /\ bytes_bits (w_bytes w) = bs ++ repeat false k.

Lemma wrel_len w bs k : wrel w bs k -> (8 * length (w_bytes w) = length bs + k)%nat.
Proof.
  intros (_ & _ & E). apply (f_equal (@length bool)) in E.
  rewrite bytes_bits_length, app_length, repeat_length in E. exact E.
Qed.

Lemma holds_wrel w bs : holds w bs <-> exists k, (k < 8)%nat /\ wrel w bs k.
Proof.
  unfold holds, wrel. split.
  - intros [Hb Ho]. destruct (pack_spec bs) as [Hp (k & Hk & E)]. exists k. rewrite Hb. auto.
  - intros (k & Hk & Ho & Hb & E). split; [|exact Ho]. eapply pack_unique; eassumption.
Qed.

Lemma resize_rel n w bs k :
  0 <= n -> wrel w bs k ->
  exists k', wrel (mkW (maybe_resize n (w_off w) (w_bytes w)) (w_off w)) bs k' /\ (Z.to_nat n <= k')%nat /\
             ((k < 8)%nat -> (k' < Z.to_nat n + 8)%nat) /\ ((Z.to_nat n <= k)%nat -> k' = k).
Proof.
  intros Hn R. pose proof (wrel_len _ _ _ R) as L. destruct R as (Ho & Hb & E).
  unfold maybe_resize. destruct (w_off w + n <=? zlen (w_bytes w) * 8) eqn:C.
  - exists k. split; [split; [exact Ho|split; assumption]|]. unfold zlen in *. lia.
  - set (req := (w_off w + n) / 8 + (if (w_off w + n) mod 8 =? 0 then 0 else 1)).
    assert (0 <= 8 * req - (w_off w + n) < 8) as Hreq.
    { unfold req. destruct ((w_off w + n) mod 8 =? 0) eqn:M; lia. }
    clearbody req. unfold zlen in *.
    assert (length (w_bytes w) <= Z.to_nat req)%nat as Hle by lia.
    rewrite firstn_all2 by exact Hle.
    exists (k + 8 * (Z.to_nat req - length (w_bytes w)))%nat. split; [|lia].
    split; [exact Ho|]. cbn [w_bytes]. split.
    + apply Forall_app. split; [exact Hb|]. apply Forall_forall. intros x Hx. apply repeat_spec in Hx.
      subst. unfold byteP. lia.
    + rewrite bytes_bits_app, E, <- app_assoc. f_equal.
      rewrite repeat_app. f_equal.
      generalize (Z.to_nat req - length (w_bytes w))%nat. intro m.
      induction m as [|m IH]; [reflexivity|].
      replace (8 * S m)%nat with (8 + 8 * m)%nat by lia.
      rewrite repeat_app. cbn [repeat]. rewrite bytes_bits_cons, IH. reflexivity.
Qed.

Lemma testbit_1 j : Z.testbit 1 j = (j =? 0).
Proof.
  destruct (Z.lt_trichotomy j 0) as [H|[->|H]]; [rewrite Z.testbit_neg_r by exact H; lia|reflexivity|].
  rewrite Z.bits_above_log2; [lia|lia|exact H].
Qed.

Definition set_bit_of (v : bool) (b q : Z) : Z :=
  if v then u8 (Z.lor b (Z.shiftl 1 q)) else u8 (Z.land b (Z.lnot (Z.shiftl 1 q))).
Lemma byte_set_bit b q (v : bool) :
  byteP b -> 0 <= q < 8 ->
  byteP (set_bit_of v b q) /\
  (forall i, 0 <= i < 8 -> Z.testbit (set_bit_of v b q) i = if i =? q then v else Z.testbit b i).
Proof.
  intros Hb Hq. set (b' := set_bit_of v b q). split.
  - unfold b', set_bit_of, byteP, u8. change 256 with (2^8). destruct v; apply Z.mod_pos_bound; lia.
  - intros i Hi. unfold b', set_bit_of, u8.
    destruct v; rewrite Z.mod_pow2_bits_low by lia.
    + rewrite Z.lor_spec, Z.shiftl_spec, testbit_1 by lia.
      replace (i - q =? 0) with (i =? q) by lia.
      destruct (i =? q); [apply orb_true_r|apply orb_false_r].
    + rewrite Z.land_spec, Z.lnot_spec, Z.shiftl_spec, testbit_1 by lia.
      replace (i - q =? 0) with (i =? q) by lia.
      destruct (i =? q); [apply andb_false_r|apply andb_true_r].
Qed.

(* bits of a byte around position q *)
Lemma bits_around b j : (j < 8)%nat ->
  bits 8 b = bits j (b / 2 ^ Z.of_nat (8 - j)) ++ Z.testbit b (Z.of_nat (7 - j)) :: bits (7 - j) b.
Proof.
  intro H. replace 8%nat with (j + (8 - j))%nat at 1 by lia. rewrite bits_app. f_equal.
  replace (8 - j)%nat with (S (7 - j)) by lia. reflexivity.
Qed.

Lemma write_bit_rel v w bs k :
  wrel w bs (S k) -> exists w', write_bit v w = (Ok tt, w') /\ wrel w' (bs ++ [v]) k.
Proof.
  intros R. pose proof (wrel_len _ _ _ R) as L. destruct R as (Ho & Hb & E).
  unfold write_bit. rewrite Ho. unfold zlen.
  replace (Z.of_nat (length bs) <? 0) with false by lia.
  rewrite Z.shiftr_div_pow2 by lia. change (2^3) with 8.
  change 7 with (Z.ones 3). rewrite Z.land_ones by lia. change (2^3) with 8. change (Z.ones 3) with 7.
  set (p := Z.to_nat (Z.of_nat (length bs) / 8)).
  set (j := (length bs mod 8)%nat).
  assert (length bs = 8 * p + j /\ j < 8)%nat as [Hd Hj] by (unfold p, j; lia).
  replace (7 - Z.of_nat (length bs) mod 8) with (Z.of_nat (7 - j)) by (unfold j; lia).
  clearbody p j.
  destruct (nth_split_at (w_bytes w) p) as (la & b & lb & El & Hla); [lia|].
  rewrite El. rewrite nth_error_app2 by lia. rewrite Hla, Nat.sub_diag. cbn [nth_error].
  rewrite <- Hla, set_nth_app.
  eexists. split; [reflexivity|].
  rewrite El in Hb. apply Forall_app in Hb as [Ha Hb]. inversion Hb as [|x y Hb0 Hb1]; subst x y.
  destruct (byte_set_bit b (Z.of_nat (7 - j)) v Hb0) as [B1 B2]; [lia|].
  fold (set_bit_of v b (Z.of_nat (7 - j))). set (b' := set_bit_of _ _ _) in *. clearbody b'.
  split; [|split].
  - cbn [w_off]. rewrite zlen_app. reflexivity.
  - cbn [w_bytes]. apply Forall_app. split; [exact Ha|]. constructor; assumption.
  - cbn [w_bytes].
    rewrite El in E. rewrite !bytes_bits_app, !bytes_bits_cons in E |- *.
    rewrite (bits_around b j Hj) in E. rewrite (bits_around b' j Hj).
    rewrite B2 by lia. rewrite Z.eqb_refl.
    assert (bits (7 - j) b' = bits (7 - j) b) as E1.
    { apply bits_ext. intros i Hi. rewrite B2 by lia. replace (i =? Z.of_nat (7 - j)) with false by lia. reflexivity. }
    assert (bits j (b' / 2 ^ Z.of_nat (8 - j)) = bits j (b / 2 ^ Z.of_nat (8 - j))) as E2.
    { apply bits_ext. intros i Hi. rewrite <- !Z.shiftr_div_pow2 by lia. rewrite !Z.shiftr_spec by lia.
      rewrite B2 by lia. replace (i + Z.of_nat (8 - j) =? Z.of_nat (7 - j)) with false by lia. reflexivity. }
    rewrite E1, E2. clear E1 E2 B1 B2. set (m := (7 - j)%nat) in *. clearbody m.
    set (x := bytes_bits la ++ bits j (b / 2 ^ Z.of_nat (8 - j))) in *.
    assert (length x = length bs) as Lx.
    { unfold x. rewrite app_length, bytes_bits_length, bits_length. lia. }
    rewrite <- app_assoc, app_assoc in E. fold x in E. rewrite <- app_assoc, app_assoc. fold x.
    cbn [app] in E |- *.
    assert (x = bs) as ->.
    { apply (f_equal (firstn (length bs))) in E. rewrite !firstn_app in E.
      rewrite Lx, Nat.sub_diag, !firstn_O, !app_nil_r in E.
      rewrite !firstn_all2 in E by lia. exact E. }
    apply app_inv_head in E. cbn [repeat] in E. injection E as _ E.
    rewrite <- app_assoc. cbn [app]. rewrite E. reflexivity.
Qed.

Lemma write_bits_loop_rel n data w bs k :
  wrel w bs (n + k) -> exists w', write_bits_loop n data w = (Ok tt, w') /\ wrel w' (bs ++ bits n data) k.
Proof.
  revert w bs. induction n as [|n IH]; intros w bs R.
  - exists w. split; [reflexivity|]. simpl. rewrite app_nil_r. exact R.
  - cbn [write_bits_loop]. destruct (write_bit_rel (Z.testbit data (Z.of_nat n)) w bs (n + k) R) as (w1 & E1 & R1).
    rewrite E1. destruct (IH w1 _ R1) as (w2 & E2 & R2). exists w2. split; [exact E2|].
    cbn [bits]. rewrite <- app_assoc in R2. exact R2.
Qed.

Lemma write_byte_rel b w bs k :
  byteP b -> wrel w bs (8 + k) -> (length bs mod 8 = 0)%nat ->
  exists l, set_nth (Z.to_nat (w_off w / 8)) b (w_bytes w) = Some l /\           wrel (mkW l (w_off w + 8)) (bs ++ bits 8 b) k.
Proof.
  intros Hbyte R Hm. pose proof (wrel_len _ _ _ R) as L. destruct R as (Ho & Hb & E).
  rewrite Ho. unfold zlen. set (p := Z.to_nat (Z.of_nat (length bs) / 8)).
  assert (length bs = 8 * p)%nat as Hd by (unfold p; lia). clearbody p.
  destruct (nth_split_at (w_bytes w) p) as (la & c & lb & El & Hla); [lia|].
  rewrite El, <- Hla, set_nth_app. eexists. split; [reflexivity|].
  rewrite El in Hb. apply Forall_app in Hb as [Ha Hb]. inversion Hb as [|x y Hb0 Hb1]; subst x y.
  split; [|split].
  - cbn [w_off]. rewrite zlen_app. unfold zlen. rewrite bits_length. lia.
  - cbn [w_bytes]. apply Forall_app. split; [exact Ha|]. constructor; assumption.
  - cbn [w_bytes]. rewrite El in E. rewrite !bytes_bits_app, !bytes_bits_cons in E |- *.
    assert (bytes_bits la = bs) as Eb.
    { apply (f_equal (firstn (length bs))) in E. rewrite !firstn_app in E.
      rewrite bytes_bits_length, Hla, <- Hd, Nat.sub_diag, !firstn_O, !app_nil_r in E.
      rewrite !firstn_all2 in E by (rewrite ?bytes_bits_length; lia). exact E. }
    rewrite Eb in *. apply app_inv_head in E. rewrite <- app_assoc. f_equal. f_equal.
    apply (f_equal (skipn 8)) in E. rewrite repeat_app, !skipn_app, bits_length, repeat_length in E.
    rewrite !skipn_all2 in E by (rewrite ?bits_length, ?repeat_length; lia). exact E.
Qed.

Lemma write_bytes_loop_rel n data w bs k :
  wrel w bs (8 * n + k) -> (length bs mod 8 = 0)%nat ->
  exists w', write_bytes_loop n data w = (Ok tt, w') /\ wrel w' (bs ++ bits (8 * n) data) k.
Proof.
  revert w bs. induction n as [|n IH]; intros w bs R Hm.
  - exists w. split; [reflexivity|]. simpl. rewrite app_nil_r. exact R.
  - cbn [write_bytes_loop].
    set (b := Z.land (Z.shiftr data (Z.of_nat n * 8)) 255).
    assert (b = (data / 2 ^ Z.of_nat (8 * n)) mod 2 ^ 8) as Eb.
    { unfold b. change 255 with (Z.ones 8). rewrite Z.land_ones by lia. rewrite Z.shiftr_div_pow2 by lia.
      do 3 f_equal. lia. }
    assert (byteP b) as Hb. { rewrite Eb. unfold byteP. change 256 with (2^8). apply Z.mod_pos_bound. lia. }
    destruct (write_byte_rel b w bs (8 * n + k) Hb) as (l & El & Rl).
    { replace (8 + (8 * n + k))%nat with (8 * S n + k)%nat by lia. exact R. }
    { exact Hm. }
    rewrite El. destruct (IH _ _ Rl) as (w2 & E2 & R2).
    { rewrite app_length, bits_length. lia. }
    exists w2. split; [exact E2|].
    replace (8 * S n)%nat with (8 + 8 * n)%nat by lia. rewrite bits_app.
    rewrite <- app_assoc in R2. rewrite Eb in R2. rewrite bits_mod in R2 by lia. exact R2.
Qed.

Definition lit_ok (max data n : Z) : bool := (0 <=? n) && ((n =? 0) || ((n <=? max) && (max <=? 64) && (data <? 2 ^ n))).

Lemma shiftr_zero_iff data n : 0 <= data -> 0 <= n -> (Z.shiftr data n =? 0) = (data <? 2 ^ n).
Proof.
  intros Hd Hn. rewrite Z.shiftr_div_pow2 by lia. assert (0 < 2^n) by (apply Z.pow_pos_nonneg; lia).
  destruct (data <? 2^n) eqn:E.
  - rewrite Z.div_small by lia. reflexivity.
  - assert (1 <= data / 2^n) by (apply Z.div_le_lower_bound; lia). lia.
Qed.

Lemma iwu_fail max data n w :
  0 <= data < 2 ^ 64 -> lit_ok max data n = false ->
  internal_write_unsigned max data n w = (Err InvalidArgument, w).
Proof.
  intros Hd H. unfold lit_ok in H. unfold internal_write_unsigned.
  destruct (n <? 0) eqn:E1; [reflexivity|]. destruct (n =? 0) eqn:E2; [lia|].
  destruct (max >? 64) eqn:E3; [reflexivity|]. destruct (n >? max) eqn:E4; [reflexivity|].
  rewrite shiftr_zero_iff by lia.
  assert (data <? 2^n = false) as Hn by lia.
  assert (n <> 64) by (intro; subst n; lia).
  rewrite Hn. replace (n =? 64) with false by lia. reflexivity.
Qed.

Lemma iwu_rel max data n w bs k :
  0 <= data < 2 ^ 64 -> lit_ok max data n = true -> wrel w bs k ->
  exists w' k', internal_write_unsigned max data n w = (Ok tt, w') /\   wrel w' (bs ++ bits (Z.to_nat n) data) k' /\   ((k < 8)%nat -> (k' < 8)%nat) /\ ((Z.to_nat n <= k)%nat -> k = (Z.to_nat n + k')%nat).
Proof.
  intros Hd H R. unfold lit_ok in H. unfold internal_write_unsigned.
  destruct (n <? 0) eqn:E1; [lia|]. destruct (n =? 0) eqn:E2.
  - exists w, k. assert (n = 0) by lia. subst n. cbn [Z.to_nat bits]. rewrite app_nil_r. split; [reflexivity|]. split; [exact R|]. lia.
  - destruct (max >? 64) eqn:E3; [lia|]. destruct (n >? max) eqn:E4; [lia|].
    rewrite shiftr_zero_iff by lia. replace (data <? 2^n) with true by lia. rewrite andb_false_r.
    destruct (resize_rel n w bs k) as (k1 & R1 & H1 & H2 & H3); [lia|exact R|].
    cbv zeta. set (w1 := mkW _ _) in *.
    pose proof R as (Ho & _ & _). unfold zlen in Ho.
    destruct ((w_off w mod 8 =? 0) && (n mod 8 =? 0)) eqn:E5.
    + replace k1 with (8 * Z.to_nat (n / 8) + (k1 - Z.to_nat n))%nat in R1 by lia.
      destruct (write_bytes_loop_rel (Z.to_nat (n / 8)) data w1 bs (k1 - Z.to_nat n) R1) as (w2 & Ew & R2); [lia|].
      exists w2, (k1 - Z.to_nat n)%nat. split; [exact Ew|]. split; [|lia].
      replace (Z.to_nat n) with (8 * Z.to_nat (n / 8))%nat at 1 by lia. exact R2.
    + replace k1 with (Z.to_nat n + (k1 - Z.to_nat n))%nat in R1 by lia.
      destruct (write_bits_loop_rel (Z.to_nat n) data w1 bs (k1 - Z.to_nat n) R1) as (w2 & Ew & R2).
      exists w2, (k1 - Z.to_nat n)%nat. split; [exact Ew|]. split; [exact R2|]. lia.
Qed.

Lemma byte_lit_ok b : byteP b -> lit_ok 32 b 8 = true.
Proof. unfold byteP, lit_ok. intro H. change (2^8) with 256. lia. Qed.

Lemma write_span_loop_rel d w bs k :
  Forall byteP d -> wrel w bs (8 * length d + k) ->
  exists w', write_span_loop d w = (Ok tt, w') /\ wrel w' (bs ++ bytes_bits d) k.
Proof.
  intro Hd. revert w bs. induction Hd as [|b d Hb Hd IH]; intros w bs R.
  - exists w. split; [reflexivity|]. cbn. rewrite app_nil_r. exact R.
  - cbn [write_span_loop].
    destruct (iwu_rel 32 b 8 w bs (8 * length (b :: d) + k)) as (w1 & k1 & E1 & R1 & _ & Hk1).
    { unfold byteP in Hb. lia. } { apply byte_lit_ok, Hb. } { exact R. }
    rewrite E1. change (Z.to_nat 8) with 8%nat in *. cbn [length] in Hk1.
    replace k1 with (8 * length d + k)%nat in R1 by lia.
    destruct (IH _ _ R1) as (w2 & E2 & R2). exists w2. split; [exact E2|].
    rewrite bytes_bits_cons, app_assoc. exact R2.
Qed.

Lemma write_span_rel d w bs k :
  Forall byteP d -> (k < 8)%nat -> wrel w bs k ->
  exists w' k', write_uint8_span d w = (Ok tt, w') /\ wrel w' (bs ++ bytes_bits d) k' /\ (k' < 8)%nat.
Proof.
  intros Hd Hk R. pose proof (wrel_len _ _ _ R) as L. pose proof R as (Ho & Hb & E).
  unfold write_uint8_span. destruct (w_off w mod 8 =? 0) eqn:M.
  - assert (k = O) by (unfold zlen in *; lia). subst k. cbn [repeat] in E. rewrite app_nil_r in E.
    eexists. exists O. split; [reflexivity|]. split; [|lia].
    split; [|split]; cbn [w_off w_bytes].
    + rewrite Ho, zlen_app. unfold zlen. rewrite bytes_bits_length. lia.
    + apply Forall_app. auto.
    + rewrite bytes_bits_app, E. cbn [repeat]. rewrite app_nil_r. reflexivity.
  - destruct (resize_rel (zlen d * 8) w bs k) as (k1 & R1 & H1 & H2 & H3); [pose proof (zlen_nonneg d); lia|exact R|].
    unfold zlen in *.
    replace k1 with (8 * length d + (k1 - 8 * length d))%nat in R1 by lia.
    destruct (write_span_loop_rel d _ bs _ Hd R1) as (w2 & E2 & R2).
    exists w2, (k1 - 8 * length d)%nat. split; [exact E2|]. split; [exact R2|]. lia.
Qed.

Lemma winstr_run_spec i w bs :
  winstr_wf i -> holds w bs ->
  fst (winstr_run i w) = status_of (wspec i) /\ holds (snd (winstr_run i w)) (bs ++ ok_bits (wspec i)) /\ (is_ok (wspec i) = false -> snd (winstr_run i w) = w).
Proof.
  intros Hwf H. destruct i as [max data n|d|c]; cbn [winstr_run wspec winstr_wf] in *.
  - fold (lit_ok max data n). destruct (lit_ok max data n) eqn:L.
    + apply holds_wrel in H as (k & Hk & R).
      destruct (iwu_rel max data n w bs k Hwf L R) as (w' & k' & E & R' & Hk' & _).
      rewrite E. cbn [fst snd ok_bits is_ok]. split; [reflexivity|]. split; [|discriminate].
      apply holds_wrel. exists k'. auto.
    + rewrite iwu_fail by assumption. cbn [fst snd ok_bits is_ok]. rewrite app_nil_r. auto.
  - apply holds_wrel in H as (k & Hk & R).
    destruct (write_span_rel d w bs k Hwf Hk R) as (w' & k' & E & R' & Hk').
    rewrite E. cbn [fst snd ok_bits is_ok]. split; [reflexivity|]. split; [|discriminate].
    apply holds_wrel. eauto.
  - cbn [fst snd ok_bits is_ok]. rewrite app_nil_r. auto.
Qed.

(* All calls made, errors ignored by the caller: exactly the successful ones leave their bits. *)
Lemma wrun_all_spec p w bs :
  Forall winstr_wf p -> holds w bs ->
  fst (wrun_all p w) = map (fun i => status_of (wspec i)) p /\ holds (snd (wrun_all p w)) (bs ++ flat_map (fun i => ok_bits (wspec i)) p).
Proof.
  intro Hp. revert w bs. induction Hp as [|i p Hi Hp IH]; intros w bs H.
  - cbn. rewrite app_nil_r. auto.
  - cbn [wrun_all]. destruct (winstr_run_spec i w bs Hi H) as (E1 & H1 & _).
    destruct (winstr_run i w) as [r w1]. cbn [fst snd] in *.
    destruct (IH _ _ H1) as (E2 & H2). destruct (wrun_all p w1) as [rs w2]. cbn [fst snd map flat_map] in *.
    rewrite app_assoc. split; [congruence|exact H2].
Qed.

(* A writer succeeds on the buffer exactly when wbits says so, and then appends wbits. *)
Lemma wrun_spec p w bs :
  Forall winstr_wf p -> holds w bs ->
  fst (wrun p w) = status_of (wbits p) /\ forall b, wbits p = Ok b -> holds (snd (wrun p w)) (bs ++ b).
Proof.
  intro Hp. revert w bs. induction Hp as [|i p Hi Hp IH]; intros w bs H.
  - cbn. split; [reflexivity|]. intros b [= <-]. rewrite app_nil_r. exact H.
  - cbn [wrun wbits]. destruct (winstr_run_spec i w bs Hi H) as (E1 & H1 & _).
    destruct (winstr_run i w) as [r w1]. cbn [fst snd] in *.
    destruct (wspec i) as [a|c| | |] eqn:Ei; cbn [status_of rbind] in *; subst r; cbn [fst]; try (split; [reflexivity|discriminate]).
    cbn [ok_bits] in H1. destruct (IH _ _ H1) as (E2 & H2).
    split; [rewrite E2; destruct (wbits p); reflexivity|].
    intros b Hb. destruct (wbits p) as [b2|c| | |]; try discriminate Hb. cbn in Hb. injection Hb as <-.
    rewrite app_assoc. apply H2. reflexivity.
Qed.

Lemma holds_empty : holds w_empty []. Proof. split; reflexivity. Qed.

(* ---- algebra of wbits ---- *)
Lemma wbits_app p q : wbits (p ++ q) = rbind (wbits p) (fun a => rbind (wbits q) (fun b => Ok (a ++ b))).
Proof.
  induction p as [|i p IH]; cbn [app wbits rbind].
  - destruct (wbits q); reflexivity.
  - rewrite IH. destruct (wspec i); try reflexivity. cbn [rbind].
    destruct (wbits p); try reflexivity. cbn [rbind]. destruct (wbits q); try reflexivity. cbn [rbind].
    rewrite app_assoc. reflexivity.
Qed.

Lemma wbits_app_ok p q bs :
  wbits (p ++ q) = Ok bs <-> exists a b, wbits p = Ok a /\ wbits q = Ok b /\ bs = a ++ b.
Proof.
  rewrite wbits_app. destruct (wbits p) as [a|c| | |]; cbn [rbind].
  2-5: split; [discriminate|intros (a & b & H & _); discriminate].
  destruct (wbits q) as [b|c| | |]; cbn [rbind].
  2-5: split; [discriminate|intros (a' & b & _ & H & _); discriminate].
  split.
  - intros [= <-]. eauto.
  - intros (a' & b' & [= <-] & [= <-] & ->). reflexivity.
Qed.

Lemma wbits_cons_ok i q bs :
  wbits (i :: q) = Ok bs <-> exists a b, wspec i = Ok a /\ wbits q = Ok b /\ bs = a ++ b.
Proof.
  change (i :: q) with ([i] ++ q). rewrite wbits_app_ok. cbn [wbits].
  split; intros (a & b & H1 & H2 & H3).
  - destruct (wspec i) as [x|c| | |]; try discriminate. cbn in H1. injection H1 as <-.
    rewrite app_nil_r in *. eauto.
  - exists a, b. rewrite H1. cbn. rewrite app_nil_r. auto.
Qed.

Lemma wbits_nil_ok bs : wbits [] = Ok bs <-> bs = [].
Proof. cbn. split; congruence. Qed.

Lemma wlit_ok data n bs :
  wbits (wlit data n) = Ok bs -> 0 <= n <= 32 /\ (n = 0 \/ data < 2 ^ n) /\ bs = bits (Z.to_nat n) data.
Proof.
  unfold wlit. intro H. apply wbits_cons_ok in H as (a & b & H1 & H2 & ->).
  cbn in H2. injection H2 as <-. rewrite app_nil_r. cbn [wspec] in H1.
  destruct ((0 <=? n) && ((n =? 0) || ((n <=? 32) && (32 <=? 64) && (data <? 2 ^ n)))) eqn:E; [|discriminate].
  injection H1 as <-. split; [lia|]. split; [lia|reflexivity].
Qed.

Lemma wcheck_ok b c bs : wbits (wcheck b c) = Ok bs -> b = true /\ bs = [].
Proof. destruct b; cbn; [|discriminate]. intros [= <-]. auto. Qed.
Lemma wbool_ok b bs : wbits (wbool b) = Ok bs -> bs = [b].
Proof. destruct b; vm_compute; intros [= <-]; reflexivity. Qed.
Lemma wspan_ok d bs : wbits (wspan d) = Ok bs -> bs = bytes_bits d.
Proof. unfold wspan. cbn [wbits wspec rbind]. rewrite app_nil_r. congruence. Qed.
