(* Lemmas about bits, bytes and packing (no modelled code). *)
From Verif Require Import Base.

Lemma zlen_nil {A} : zlen (@nil A) = 0. Proof. reflexivity. Qed.
Lemma zlen_cons {A} (x : A) l : zlen (x :: l) = 1 + zlen l.
Proof. unfold zlen; simpl length; lia. Qed.
Lemma zlen_app {A} (a b : list A) : zlen (a ++ b) = zlen a + zlen b.
Proof. unfold zlen; rewrite app_length; lia. Qed.
Lemma zlen_nonneg {A} (l : list A) : 0 <= zlen l. Proof. unfold zlen; lia. Qed.

Lemma bits_length n v : length (bits n v) = n.
Proof. induction n as [|n IH]; simpl; congruence. Qed.

Lemma fold_ofbits_acc l a :
  fold_left (fun a (b : bool) => 2 * a + Z.b2z b) l a = a * 2 ^ zlen l + ofbits l.
Proof.
  unfold ofbits. revert a. induction l as [|b l IH]; intro a; cbn [fold_left].
  - rewrite zlen_nil. rewrite Z.pow_0_r. lia.
  - rewrite IH, (IH (2 * 0 + Z.b2z b)). rewrite zlen_cons, Z.pow_add_r by (pose proof (zlen_nonneg l); lia).
    change (2^1) with 2. destruct b; cbn [Z.b2z]; nia.
Qed.

Lemma ofbits_nil : ofbits [] = 0. Proof. reflexivity. Qed.
Lemma ofbits_cons b l : ofbits (b :: l) = Z.b2z b * 2 ^ zlen l + ofbits l.
Proof. unfold ofbits at 1. cbn [fold_left]. rewrite fold_ofbits_acc. destruct b; reflexivity. Qed.
Lemma ofbits_app a b : ofbits (a ++ b) = ofbits a * 2 ^ zlen b + ofbits b.
Proof. unfold ofbits at 1. rewrite fold_left_app. apply fold_ofbits_acc. Qed.

Lemma ofbits_range l : 0 <= ofbits l < 2 ^ zlen l.
Proof.
  induction l as [|b l IH]; [cbv; split; congruence|].
  rewrite ofbits_cons, zlen_cons, Z.pow_add_r by (pose proof (zlen_nonneg l); lia).
  change (2^1) with 2. destruct b; cbn [Z.b2z]; lia.
Qed.

Lemma testbit_div_mod v k : 0 <= k -> Z.b2z (Z.testbit v k) = (v / 2^k) mod 2.
Proof. intro H. rewrite Z.testbit_spec' by assumption. reflexivity. Qed.

Lemma mod_pow_succ v k : 0 <= k -> v mod 2^(k+1) = Z.b2z (Z.testbit v k) * 2^k + v mod 2^k.
Proof.
  intro H. rewrite testbit_div_mod by assumption.
  rewrite Z.pow_add_r by lia. change (2^1) with 2.
  assert (0 < 2^k) by (apply Z.pow_pos_nonneg; lia).
  rewrite Z.rem_mul_r by lia. lia.
Qed.

Lemma ofbits_bits n v : ofbits (bits n v) = v mod 2 ^ Z.of_nat n.
Proof.
  induction n as [|n IH]; [cbn; symmetry; apply Z.mod_1_r|].
  simpl bits. rewrite ofbits_cons, IH. unfold zlen. rewrite bits_length.
  rewrite Nat2Z.inj_succ. unfold Z.succ. rewrite mod_pow_succ by lia. reflexivity.
Qed.

Lemma ofbits_bits_small n v : 0 <= v < 2 ^ Z.of_nat n -> ofbits (bits n v) = v.
Proof. intro H. rewrite ofbits_bits. apply Z.mod_small; assumption. Qed.

Lemma bits_ext n v w :
  (forall i, 0 <= i < Z.of_nat n -> Z.testbit v i = Z.testbit w i) -> bits n v = bits n w.
Proof.
  induction n as [|n IH]; intro H; [reflexivity|]. simpl. f_equal.
  - apply H; lia.
  - apply IH. intros i Hi; apply H; lia.
Qed.

Lemma bits_mod n v k : Z.of_nat n <= k -> bits n (v mod 2^k) = bits n v.
Proof. intro H. apply bits_ext. intros i Hi. apply Z.mod_pow2_bits_low; lia. Qed.

Lemma bits_app n m v : bits (n + m) v = bits n (v / 2 ^ Z.of_nat m) ++ bits m v.
Proof.
  induction n as [|n IH]; [reflexivity|]. simpl. f_equal; [|apply IH].
  rewrite <- Z.shiftr_div_pow2 by lia. rewrite Z.shiftr_spec by lia.
  f_equal. lia.
Qed.

Lemma ofbits_inj a b : length a = length b -> ofbits a = ofbits b -> a = b.
Proof.
  revert b. induction a as [|x a IH]; intros [|y b] Hl He; simpl in Hl; try discriminate; [reflexivity|].
  rewrite !ofbits_cons in He. injection Hl as Hl.
  assert (zlen a = zlen b) as Hz by (unfold zlen; congruence).
  rewrite Hz in He. pose proof (ofbits_range a) as Ra. pose proof (ofbits_range b) as Rb. rewrite Hz in Ra.
  assert (x = y /\ ofbits a = ofbits b) as [-> E]
    by (destruct x, y; cbn [Z.b2z] in He; (split; [try reflexivity; exfalso|]); lia).
  f_equal. apply IH; assumption.
Qed.

Lemma bits_ofbits l : bits (length l) (ofbits l) = l.
Proof.
  apply ofbits_inj; [apply bits_length|]. rewrite ofbits_bits. apply Z.mod_small, ofbits_range.
Qed.

Lemma bits_ofbits' n l : length l = n -> bits n (ofbits l) = l.
Proof. intros <-; apply bits_ofbits. Qed.

Lemma bits_0 n : bits n 0 = repeat false n.
Proof. induction n; simpl; [reflexivity|]. rewrite Z.testbit_0_l. congruence. Qed.

Lemma ofbits_repeat_false n : ofbits (repeat false n) = 0.
Proof. rewrite <- bits_0, ofbits_bits. apply Z.mod_0_l. apply Z.pow_nonzero; lia. Qed.

Lemma bits_inj n v w : 0 <= v < 2^Z.of_nat n -> 0 <= w < 2^Z.of_nat n -> bits n v = bits n w -> v = w.
Proof. intros Hv Hw E. rewrite <- (ofbits_bits_small n v), <- (ofbits_bits_small n w) by assumption. congruence. Qed.

(* ---- bytes ---- *)
Lemma bytes_bits_app a b : bytes_bits (a ++ b) = bytes_bits a ++ bytes_bits b.
Proof. unfold bytes_bits. apply flat_map_app. Qed.
Lemma bytes_bits_cons a b : bytes_bits (a :: b) = bits 8 a ++ bytes_bits b.
Proof. reflexivity. Qed.
Lemma bytes_bits_length l : length (bytes_bits l) = (8 * length l)%nat.
Proof.
  induction l as [|b l IH]; [reflexivity|]. rewrite bytes_bits_cons, app_length, bits_length, IH. simpl length. lia.
Qed.

Lemma bytes_bits_skipn n l : bytes_bits (skipn n l) = skipn (8 * n) (bytes_bits l).
Proof.
  revert l. induction n as [|n IH]; intro l; [reflexivity|].
  destruct l as [|b l]; [rewrite !skipn_nil; reflexivity|].
  rewrite bytes_bits_cons. cbn [skipn]. rewrite IH.
  replace (8 * S n)%nat with (8 * n + 8)%nat by lia.
  rewrite skipn_app, bits_length.
  rewrite (skipn_all2 (bits 8 b)) by (rewrite bits_length; lia).
  cbn [app]. f_equal. lia.
Qed.

Lemma bytes_bits_firstn n l : bytes_bits (firstn n l) = firstn (8 * n) (bytes_bits l).
Proof.
  revert l. induction n as [|n IH]; intro l; [reflexivity|].
  destruct l as [|b l]; [cbn [firstn]; unfold bytes_bits; simpl flat_map; rewrite firstn_nil; reflexivity|].
  cbn [firstn]. rewrite !bytes_bits_cons. rewrite IH.
  replace (8 * S n)%nat with (8 + 8 * n)%nat by lia.
  rewrite firstn_app, bits_length.
  rewrite (firstn_all2 (bits 8 b)) by (rewrite bits_length; lia).
  f_equal. f_equal. lia.
Qed.

Lemma bytes_bits_inj a b : Forall byteP a -> Forall byteP b -> bytes_bits a = bytes_bits b -> a = b.
Proof.
  intros Ha. revert b. induction Ha as [|x a Hx Ha IH]; intros b Hb E.
  - destruct b; [reflexivity|]. rewrite bytes_bits_cons in E. discriminate E.
  - destruct Hb as [|y b Hy Hb]; [discriminate E|].
    rewrite !bytes_bits_cons in E.
    assert (bits 8 x = bits 8 y /\ bytes_bits a = bytes_bits b) as [E1 E2].
    { apply (f_equal (firstn 8)) in E as E1. apply (f_equal (skipn 8)) in E as E2.
      rewrite !firstn_app, !skipn_app, !bits_length, !firstn_all2, !skipn_all2 in * by (rewrite bits_length; lia).
      cbn [Nat.sub firstn skipn app] in *. rewrite !app_nil_r in E1. split; assumption. }
    f_equal; [|apply IH; assumption].
    apply (bits_inj 8); assumption.
Qed.

Lemma byte_ok_iff b : byte_ok b = true <-> byteP b.
Proof. unfold byte_ok, byteP. lia. Qed.
Lemma bytes_ok_iff l : bytes_ok l = true <-> Forall byteP l.
Proof.
  unfold bytes_ok. rewrite forallb_forall, Forall_forall.
  split; intros H x Hx; apply byte_ok_iff; auto.
Qed.

(* ---- pack ---- *)
Lemma pack_fuel_enough f g l : (length l <= f)%nat -> (length l <= g)%nat -> pack_fuel f l = pack_fuel g l.
Proof.
  revert g l. induction f as [|f IH]; intros g l Hf Hg.
  - destruct l; [|simpl in Hf; lia]. destruct g; reflexivity.
  - destruct l as [|b l]; [destruct g; reflexivity|].
    destruct g as [|g]; [simpl in Hg; lia|].
    cbn [pack_fuel]. f_equal. apply IH; rewrite skipn_length; simpl length in *; lia.
Qed.

Lemma pack_step l : l <> [] -> pack l = ofbits (firstn 8 (l ++ repeat false 8)) :: pack (skipn 8 l).
Proof.
  intro H. unfold pack. destruct l as [|b l]; [congruence|].
  change (length (b :: l)) with (S (length l)). cbn [pack_fuel]. f_equal.
  apply pack_fuel_enough; [|lia]. rewrite skipn_length. cbn [length]. lia.
Qed.

Lemma pack_byte b l : byteP b -> pack (bits 8 b ++ l) = b :: pack l.
Proof.
  intro H. rewrite pack_step by (simpl; discriminate).
  assert (length (bits 8 b) = 8%nat) as L by apply bits_length.
  rewrite <- app_assoc, firstn_app, L, firstn_all2 by lia.
  cbn [Nat.sub firstn]. rewrite app_nil_r.
  rewrite ofbits_bits_small by exact H.
  rewrite skipn_app, L, skipn_all2 by lia. reflexivity.
Qed.

Lemma pack_bytes_app a l : Forall byteP a -> pack (bytes_bits a ++ l) = a ++ pack l.
Proof.
  induction 1 as [|b a Hb Ha IH]; [reflexivity|].
  rewrite bytes_bits_cons, <- app_assoc, pack_byte, IH by assumption. reflexivity.
Qed.
Lemma pack_bytes a : Forall byteP a -> pack (bytes_bits a) = a.
Proof. intro H. rewrite <- (app_nil_r (bytes_bits a)), pack_bytes_app by assumption. apply app_nil_r. Qed.

Lemma pack_spec_fuel n l : (length l <= n)%nat -> Forall byteP (pack l) /\
  exists k, (k < 8)%nat /\ bytes_bits (pack l) = l ++ repeat false k.
Proof.
  revert l. induction n as [|n IH]; intros l Hn.
  - destruct l; [|simpl in Hn; lia]. split; [constructor|]. exists O. split; [lia|reflexivity].
  - destruct l as [|b l']; [split; [constructor|]; exists O; split; [lia|reflexivity]|].
    remember (b :: l') as l eqn:El.
    rewrite pack_step by (subst; discriminate).
    destruct (IH (skipn 8 l)) as [Hb (k & Hk & E)].
    { rewrite skipn_length. subst; simpl length in *; lia. }
    set (c := firstn 8 (l ++ repeat false 8)).
    assert (length c = 8%nat) as Lc.
    { unfold c. rewrite firstn_length, app_length, repeat_length. clear. apply Nat.min_l. lia. }
    pose proof (ofbits_range c) as Rc. unfold zlen in Rc. rewrite Lc in Rc. change (2^Z.of_nat 8) with 256 in Rc.
    split; [constructor; [exact Rc|exact Hb]|].
    rewrite bytes_bits_cons, bits_ofbits' by exact Lc. rewrite E.
    destruct (le_lt_dec 8 (length l)) as [Hge|Hlt].
    + exists k. split; [exact Hk|]. unfold c. rewrite firstn_app.
      replace (8 - length l)%nat with O by lia. rewrite firstn_O, app_nil_r.
      rewrite app_assoc, firstn_skipn. reflexivity.
    + exists (8 - length l)%nat. split; [subst; simpl length; lia|].
      rewrite skipn_all2 in E |- * by lia. unfold pack in E. simpl in E.
      rewrite <- E. cbn [app]. rewrite app_nil_r.
      unfold c. rewrite firstn_app, firstn_all2 by lia. f_equal.
      clear. set (m := (8 - length l)%nat). assert (m <= 8)%nat by lia. clearbody m.
      replace 8%nat with (m + (8 - m))%nat by lia.
      rewrite repeat_app, firstn_app, repeat_length, Nat.sub_diag, firstn_all2 by (rewrite repeat_length; lia).
      cbn [firstn]. apply app_nil_r.
Qed.

Lemma pack_spec l : Forall byteP (pack l) /\ exists k, (k < 8)%nat /\ bytes_bits (pack l) = l ++ repeat false k.
Proof. apply (pack_spec_fuel (length l)); lia. Qed.

Lemma pack_unique bytes l k :
  Forall byteP bytes -> (k < 8)%nat -> bytes_bits bytes = l ++ repeat false k -> bytes = pack l.
Proof.
  intros Hb Hk E. destruct (pack_spec l) as [Hp (k' & Hk' & E')].
  apply bytes_bits_inj; try assumption. rewrite E, E'.
  f_equal. f_equal.
  apply (f_equal (@length bool)) in E. apply (f_equal (@length bool)) in E'.
  rewrite bytes_bits_length, app_length, repeat_length in *. lia.
Qed.

Lemma pack_length l : length (pack l) = ((length l + 7) / 8)%nat.
Proof.
  destruct (pack_spec l) as [_ (k & Hk & E)]. apply (f_equal (@length bool)) in E.
  rewrite bytes_bits_length, app_length, repeat_length in E.
  lia.
Qed.

Lemma pack_aligned l : Nat.modulo (length l) 8 = 0%nat -> bytes_bits (pack l) = l.
Proof.
  intro H. destruct (pack_spec l) as [_ (k & Hk & E)]. pose proof E as E2.
  apply (f_equal (@length bool)) in E2.
  rewrite bytes_bits_length, app_length, repeat_length in E2.
  assert (k = O) by lia. subst. rewrite E. apply app_nil_r.
Qed.
