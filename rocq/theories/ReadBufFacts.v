(* The concrete read buffer refines the cursor. *)
From Verif Require Import Base BitFacts ReadBuf BufSpec.

Lemma skipn_skipn' {A} (a b : nat) (l : list A) : skipn a (skipn b l) = skipn (b + a) l.
Proof.
  revert l. induction b as [|b IH]; intro l; [reflexivity|].
  destruct l as [|x l]; [rewrite !skipn_nil; reflexivity|]. cbn [skipn Nat.add]. apply IH.
Qed.

Lemma firstn_skipn_split {A} (a b p : nat) (l : list A) :
  firstn (a + b) (skipn p l) = firstn a (skipn p l) ++ firstn b (skipn (p + a) l).
Proof.
  rewrite <- skipn_skipn'.
  generalize (skipn p l). clear l. intro l.
  revert l. induction a as [|a IH]; intro l; [reflexivity|].
  destruct l as [|x l]; [cbn; rewrite !firstn_nil; reflexivity|].
  cbn [Nat.add firstn skipn app]. rewrite IH. reflexivity.
Qed.

Lemma nth_bytes_bits l i j : (j < 8)%nat ->
  nth_error (bytes_bits l) (8 * i + j) =
  match nth_error l i with Some b => Some (Z.testbit b (7 - Z.of_nat j)) | None => None end.
Proof.
  intro Hj. revert i. induction l as [|b l IH]; intro i.
  - unfold bytes_bits. simpl flat_map. destruct i; cbn [nth_error]; destruct (8 * _ + j)%nat; reflexivity.
  - rewrite bytes_bits_cons. destruct i as [|i].
    + rewrite nth_error_app1 by (rewrite bits_length; lia).
      do 8 (destruct j as [|j]; [reflexivity|]). lia.
    + rewrite nth_error_app2 by (rewrite bits_length; lia). rewrite bits_length.
      replace (8 * S i + j - 8)%nat with (8 * i + j)%nat by lia. cbn [nth_error]. apply IH.
Qed.

Lemma skipn_nth {A} (l : list A) p x : nth_error l p = Some x -> skipn p l = x :: skipn (S p) l.
Proof.
  revert l. induction p as [|p IH]; intros [|y l] H; try discriminate H.
  - injection H as ->. reflexivity.
  - cbn [skipn]. apply IH. exact H.
Qed.

Ltac cbr := cbn [c_bits c_pos c_valid r_src r_ssize r_bsize r_win r_soff r_boff r_valid set_boff set_valid fst snd].

Record rrel_at (nb so : nat) (r : rbuf) (c : cur) : Prop := mkRR {
  rr_bits : c_bits c = bytes_bits (r_src r);
  rr_bytes : Forall byteP (r_src r);
  rr_ssize : r_ssize r = 8 * zlen (r_src r);
  rr_bsize : r_bsize r = 8 * Z.of_nat nb;
  rr_cap : (nb <= length (r_win r))%nat;
  rr_soff : r_soff r = 8 * Z.of_nat so;
  rr_sole : (so <= length (r_src r))%nat;
  rr_boff : 0 <= r_boff r <= r_bsize r;
  rr_pos : Z.of_nat (c_pos c) = r_soff r - r_bsize r + r_boff r;
  rr_valid : c_valid c = r_valid r;
  rr_window : forall i, (i < nb)%nat -> (nb <= so + i)%nat ->
                nth_error (r_win r) i = nth_error (r_src r) (so + i - nb) }.
Definition rrel (r : rbuf) (c : cur) : Prop :=
  (1 <= length (r_win r))%nat /\ exists nb so, rrel_at nb so r c.

Lemma rrel_create cap src : (1 <= cap)%nat -> Forall byteP src ->
  rrel (r_create cap src) (mkC (bytes_bits src) 0 None).
Proof.
  intros Hc Hs. split; [cbn; rewrite repeat_length; exact Hc|].
  exists O, O. unfold r_create.
  split; cbn [c_bits c_pos c_valid r_src r_ssize r_bsize r_win r_soff r_boff r_valid]; try lia; try assumption; try reflexivity.
Qed.

Lemma rrel_len r c : rrel r c -> (length (c_bits c) = 8 * length (r_src r))%nat.
Proof. intros (_ & nb & so & R). rewrite (rr_bits _ _ _ _ R). apply bytes_bits_length. Qed.

Lemma rrel_pos_le r c : rrel r c -> (c_pos c <= length (c_bits c))%nat.
Proof. intro H. pose proof (rrel_len _ _ H). destruct H as (_ & nb & so & []). unfold zlen in *. lia. Qed.

Definition set_cv (c : cur) (v : option bool) : cur := mkC (c_bits c) (c_pos c) v.
Definition move (c : cur) (n : nat) : cur := mkC (c_bits c) (c_pos c + n) (c_valid c).

Lemma rrel_tell r c : rrel r c ->
  fst (r_tell r) = Z.of_nat (c_pos c) /\ rrel (snd (r_tell r)) (set_cv c (Some true)).
Proof.
  intros (Hc & nb & so & []). cbn. split; [unfold r_tell_val; lia|].
  split; [exact Hc|]. exists nb, so. split; cbn; assumption || reflexivity.
Qed.

Lemma nth_error_firstn {A} n i (l : list A) : (i < n)%nat -> nth_error (firstn n l) i = nth_error l i.
Proof.
  revert n l. induction i as [|i IH]; intros [|n] [|x l] H; try lia; try reflexivity.
  cbn [firstn nth_error]. apply IH. lia.
Qed.
Lemma nth_error_skipn {A} n i (l : list A) : nth_error (skipn n l) i = nth_error l (n + i).
Proof.
  revert l. induction n as [|n IH]; intros l; [reflexivity|].
  destruct l as [|x l]; [rewrite skipn_nil; destruct i; reflexivity|]. cbn [skipn Nat.add nth_error]. apply IH.
Qed.

(* Seek on a valid position, in both branches (inside the window / reload). *)
Lemma r_seek_ok r c p :
  rrel r c -> r_valid r = Some true -> 0 <= p <= zlen (c_bits c) ->
  exists r', r_seek p r = (Ok tt, r') /\ rrel r' (mkC (c_bits c) (Z.to_nat p) (Some true)) /\
             r_src r' = r_src r /\ (p < zlen (c_bits c) -> r_boff r' < r_bsize r').
Proof.
  intros H Hv Hp. pose proof (rrel_len _ _ H) as L. unfold zlen in Hp.
  destruct H as (Hc & nb & so & R). pose proof R as [Rb Rby Rss Rbs Rcap Rso Rsole Rbo Rpos Rval Rw].
  unfold r_seek. rewrite Hv. unfold zlen in *.
  replace (p <? 0) with false by lia. replace (p >? r_ssize r) with false by lia.
  destruct ((r_soff r - r_bsize r <=? p) && (p <? r_soff r)) eqn:W.
  - eexists. split; [reflexivity|]. split; [|cbr; split; [reflexivity|lia]].
    split; [exact Hc|]. exists nb, so. split; cbr; try assumption; try lia. symmetry; exact Hv.
  - cbv zeta. unfold r_load.
    set (start := p / 8). set (num := Z.min (Z.of_nat (length (r_win r))) (r_ssize r / 8 - start)).
    unfold zlen.
    replace ((start <? 0) || (num <? 0) || (num >? Z.of_nat (length (r_win r)))) with false by lia.
    replace ((start >? Z.of_nat (length (r_src r))) || (start + num >? Z.of_nat (length (r_src r)))) with false by lia.
    eexists. split; [reflexivity|].
    assert (0 <= num /\ 0 <= start /\ start + num <= Z.of_nat (length (r_src r))) as (N1 & N2 & N3) by lia.
    assert (num <= Z.of_nat (length (r_win r))) as N4 by lia.
    assert (length (firstn (Z.to_nat num) (skipn (Z.to_nat start) (r_src r))) = Z.to_nat num) as Lf.
    { rewrite firstn_length, skipn_length. lia. }
    split; [|cbr; split; [reflexivity|]; lia].
    split; [cbn; rewrite app_length, Lf, skipn_length; lia|].
    exists (Z.to_nat num), (Z.to_nat (start + num)).
    split; cbn [r_win r_boff r_bsize r_src r_ssize r_soff r_valid c_bits c_pos c_valid]; try assumption; try lia.
    + rewrite app_length, Lf, skipn_length. lia.
    + reflexivity.
    + intros i Hi _. rewrite nth_error_app1 by lia.
      rewrite nth_error_firstn by lia. rewrite nth_error_skipn. f_equal. lia.
Qed.

Lemma r_seek_tell_ok r c :
  rrel r c ->
  exists r', r_seek_tell r = (Ok tt, r') /\ rrel r' (set_cv c (Some true)) /\
             ((c_pos c < length (c_bits c))%nat -> r_boff r' < r_bsize r').
Proof.
  intro H. pose proof (rrel_pos_le _ _ H) as Hp. destruct (rrel_tell _ _ H) as [E R].
  unfold r_seek_tell. destruct (r_tell r) as [t r1] eqn:T. cbn [fst snd] in *. subst t.
  destruct (r_seek_ok r1 _ (Z.of_nat (c_pos c)) R) as (r' & E' & R' & _ & Hlt).
  - unfold r_tell in T. injection T as _ <-. reflexivity.
  - cbn. unfold zlen. lia.
  - exists r'. split; [exact E'|]. cbn [set_cv c_bits] in *. rewrite Nat2Z.id in R'.
    split; [exact R'|]. unfold zlen in Hlt. lia.
Qed.

(* The window shows the source bits. *)
Lemma window_bit nb so r c off :
  rrel_at nb so r c -> 0 <= off < r_bsize r -> 0 <= r_soff r - r_bsize r + off ->
  exists b, get_upper_bit off (r_win r) = Some b /\
            nth_error (c_bits c) (Z.to_nat (r_soff r - r_bsize r + off)) = Some b /\
            off / 8 < zlen (r_win r).
Proof.
  intros [Rb Rby Rss Rbs Rcap Rso Rsole Rbo Rpos Rval Rw] H1 H2. unfold get_upper_bit, zlen.
  set (i := Z.to_nat (off / 8)). set (j := Z.to_nat (off mod 8)).
  assert (off = 8 * Z.of_nat i + Z.of_nat j /\ (j < 8)%nat) as [Ho Hj] by (unfold i, j; lia).
  assert (i < nb)%nat as Hi by lia. assert (nb <= so + i)%nat as Hs by lia.
  specialize (Rw i Hi Hs). rewrite Rw.
  replace (Z.to_nat (r_soff r - r_bsize r + off)) with (8 * (so + i - nb) + j)%nat by lia.
  rewrite Rb, nth_bytes_bits by exact Hj.
  destruct (nth_error (r_src r) (so + i - nb)) as [b|] eqn:E.
  - exists (Z.testbit b (7 - off mod 8)). split; [reflexivity|]. split; [|lia]. do 2 f_equal. lia.
  - apply nth_error_None in E. lia.
Qed.

Lemma u64_small v : 0 <= v < 2^64 -> u64 v = v.
Proof. intro H. unfold u64. apply Z.mod_small, H. Qed.

Lemma ofbits_lt_64 l : (length l <= 64)%nat -> 0 <= ofbits l < 2^64.
Proof.
  intro H. pose proof (ofbits_range l) as R. assert (2 ^ zlen l <= 2^64); [|lia].
  apply Z.pow_le_mono_r; unfold zlen; lia.
Qed.

Lemma ofbits_snoc acc b : ofbits (acc ++ [b]) = 2 * ofbits acc + Z.b2z b.
Proof. unfold ofbits. rewrite fold_left_app. reflexivity. Qed.

Lemma read_bits_loop_ok nb so r c k off acc :
  rrel_at nb so r c -> 0 <= off -> off + Z.of_nat k <= r_bsize r -> 0 <= r_soff r - r_bsize r + off ->
  (length acc + k <= 64)%nat ->
  read_bits_loop k (r_win r) (r_bsize r) off (ofbits acc) =
  Ok (0, off + Z.of_nat k,
      ofbits (acc ++ firstn k (skipn (Z.to_nat (r_soff r - r_bsize r + off)) (c_bits c)))).
Proof.
  intro R. revert off acc. induction k as [|k IH]; intros off acc H1 H2 H3 H4.
  - cbn [read_bits_loop firstn]. rewrite app_nil_r, Z.add_0_r. reflexivity.
  - cbn [read_bits_loop].
    destruct (window_bit nb so r c off R) as (b & E1 & E2 & E3); [lia|exact H3|].
    replace ((off / 8 <? zlen (r_win r)) && (off <? r_bsize r)) with true by lia.
    rewrite E1.
    assert (u64 (2 * ofbits acc + Z.b2z b) = ofbits (acc ++ [b])) as ->.
    { rewrite <- ofbits_snoc. apply u64_small, ofbits_lt_64. rewrite app_length; cbn [length]; lia. }
    rewrite IH by (try lia; rewrite app_length; cbn [length]; lia).
    rewrite (skipn_nth _ _ _ E2). cbn [firstn].
    replace (Z.to_nat (r_soff r - r_bsize r + (off + 1))) with (S (Z.to_nat (r_soff r - r_bsize r + off))) by lia.
    rewrite <- app_assoc. cbn [app]. do 3 f_equal. lia.
Qed.

Lemma read_bits_loop_ok0 nb so r c k off :
  rrel_at nb so r c -> 0 <= off -> off + Z.of_nat k <= r_bsize r -> 0 <= r_soff r - r_bsize r + off ->
  (k <= 64)%nat ->
  read_bits_loop k (r_win r) (r_bsize r) off 0 =
  Ok (0, off + Z.of_nat k, ofbits (firstn k (skipn (Z.to_nat (r_soff r - r_bsize r + off)) (c_bits c)))).
Proof. intros. apply (read_bits_loop_ok nb so r c k off []); assumption. Qed.

Lemma window_byte nb so r c off :
  rrel_at nb so r c -> 0 <= off < r_bsize r -> 0 <= r_soff r - r_bsize r + off -> off mod 8 = 0 ->
  exists b, nth_error (r_win r) (Z.to_nat (off / 8)) = Some b /\ byteP b /\
            firstn 8 (skipn (Z.to_nat (r_soff r - r_bsize r + off)) (c_bits c)) = bits 8 b /\
            off / 8 < zlen (r_win r).
Proof.
  intros [Rb Rby Rss Rbs Rcap Rso Rsole Rbo Rpos Rval Rw] H1 H2 H3. unfold zlen.
  set (i := Z.to_nat (off / 8)).
  assert (off = 8 * Z.of_nat i) as Ho by (unfold i; lia).
  assert (i < nb)%nat as Hi by lia. assert (nb <= so + i)%nat as Hs by lia.
  specialize (Rw i Hi Hs). rewrite Rw.
  replace (Z.to_nat (r_soff r - r_bsize r + off)) with (8 * (so + i - nb))%nat by lia.
  destruct (nth_error (r_src r) (so + i - nb)) as [b|] eqn:E.
  - exists b. split; [reflexivity|]. split.
    + rewrite Forall_forall in Rby. apply Rby. eapply nth_error_In, E.
    + split; [|lia]. rewrite Rb, <- bytes_bits_skipn, (skipn_nth _ _ _ E), bytes_bits_cons.
      rewrite firstn_app, bits_length, Nat.sub_diag, firstn_O, app_nil_r.
      apply firstn_all2. rewrite bits_length. lia.
  - apply nth_error_None in E. lia.
Qed.

Lemma lor_shift_byte a b : 0 <= a -> byteP b -> Z.lor (Z.shiftl a 8) b = a * 256 + b.
Proof.
  intros Ha Hb. unfold byteP in Hb. rewrite Z.shiftl_mul_pow2 by lia. change (2^8) with 256.
  rewrite <- Z.lxor_lor.
  - rewrite <- Z.add_nocarry_lxor; [reflexivity|].
    apply Z.bits_inj'. intros n Hn. rewrite Z.land_spec, Z.bits_0. change 256 with (2^8).
    destruct (Z.lt_ge_cases n 8).
    + rewrite Z.mul_pow2_bits_low by lia. reflexivity.
    + rewrite <- (Z.mod_small b (2^8)) by (change (2^8) with 256; lia).
      rewrite Z.mod_pow2_bits_high by lia. apply andb_false_r.
  - apply Z.bits_inj'. intros n Hn. rewrite Z.land_spec, Z.bits_0. change 256 with (2^8).
    destruct (Z.lt_ge_cases n 8).
    + rewrite Z.mul_pow2_bits_low by lia. reflexivity.
    + rewrite <- (Z.mod_small b (2^8)) by (change (2^8) with 256; lia).
      rewrite Z.mod_pow2_bits_high by lia. apply andb_false_r.
Qed.

Lemma read_bytes_loop_ok nb so r c k off acc :
  rrel_at nb so r c -> 0 <= off -> off + 8 * Z.of_nat k <= r_bsize r -> 0 <= r_soff r - r_bsize r + off ->
  off mod 8 = 0 -> (length acc + 8 * k <= 64)%nat ->
  read_bytes_loop k (r_win r) off (ofbits acc) =
  Ok (off + 8 * Z.of_nat k,
      ofbits (acc ++ firstn (8 * k) (skipn (Z.to_nat (r_soff r - r_bsize r + off)) (c_bits c)))).
Proof.
  intro R. revert off acc. induction k as [|k IH]; intros off acc H1 H2 H3 H4 H5.
  - cbn [read_bytes_loop]. replace (8 * 0)%nat with O by lia. rewrite firstn_O, app_nil_r.
    do 2 f_equal. lia.
  - cbn [read_bytes_loop].
    destruct (window_byte nb so r c off R) as (b & E1 & Hb & E2 & E3); [lia|exact H3|exact H4|].
    replace (off / 8 <? zlen (r_win r)) with true by lia.
    rewrite E1.
    assert (Z.lor (u64 (Z.shiftl (ofbits acc) 8)) b = ofbits (acc ++ bits 8 b)) as ->.
    { assert (0 <= ofbits acc < 2 ^ 56) as Ra.
      { pose proof (ofbits_range acc) as Q. assert (2 ^ zlen acc <= 2^56); [|lia].
        apply Z.pow_le_mono_r; unfold zlen; lia. }
      rewrite u64_small.
      2: { rewrite Z.shiftl_mul_pow2 by lia. change (2^8) with 256. change (2^64) with (2^56 * 256). lia. }
      rewrite lor_shift_byte by (lia || assumption). rewrite ofbits_app.
      rewrite ofbits_bits_small by exact Hb. unfold zlen. rewrite bits_length. reflexivity. }
    rewrite IH by (try lia; rewrite app_length, bits_length; lia).
    replace (8 * S k)%nat with (8 + 8 * k)%nat by lia. rewrite firstn_skipn_split, E2, app_assoc.
    replace (Z.to_nat (r_soff r - r_bsize r + (off + 8))) with (Z.to_nat (r_soff r - r_bsize r + off) + 8)%nat by lia.
    do 2 f_equal. lia.
Qed.

Lemma rrel_set_boff nb so r c n :
  rrel_at nb so r c -> r_boff r + Z.of_nat n <= r_bsize r ->
  rrel_at nb so (set_boff r (r_boff r + Z.of_nat n)) (move c n).
Proof. intros [] H. split; cbn [move c_bits c_pos c_valid r_src r_ssize r_bsize r_win r_soff r_boff r_valid set_boff]; try assumption; lia. Qed.

Lemma move_move c a b : move (move c a) b = move c (a + b).
Proof. unfold move; cbn. f_equal. lia. Qed.
Lemma move_0 c : move c 0 = c.
Proof. destruct c; unfold move; cbn. f_equal. lia. Qed.
Lemma set_cv_same c : set_cv c (c_valid c) = c.
Proof. destruct c; reflexivity. Qed.

Lemma read_whole_ok fuel rem acc r c :
  rrel r c -> c_valid c = Some true -> (c_pos c mod 8 = 0)%nat \/ (rem < 8)%nat ->
  (c_pos c + rem <= length (c_bits c))%nat -> (length acc + rem <= 64)%nat -> (rem / 8 <= fuel)%nat ->
  exists r', read_whole fuel (Z.of_nat rem) (ofbits acc) r =
    (Ok (Z.of_nat (rem mod 8), ofbits (acc ++ firstn (8 * (rem / 8)) (skipn (c_pos c) (c_bits c)))), r') /\
    rrel r' (move c (8 * (rem / 8))).
Proof.
  revert rem acc r c. induction fuel as [|f IH]; intros rem acc r c R Hv Hm Hle Hac Hf.
  - assert (rem < 8)%nat by lia. cbn [read_whole]. replace (Z.of_nat rem >=? 8) with false by lia.
    exists r. replace (rem / 8)%nat with O by lia. rewrite Nat.mul_0_r, move_0, firstn_O, app_nil_r.
    split; [|exact R]. do 2 f_equal. f_equal. lia.
  - cbn [read_whole]. destruct (Z.of_nat rem >=? 8) eqn:E.
    2: { exists r. replace (rem / 8)%nat with O by lia. rewrite Nat.mul_0_r, move_0, firstn_O, app_nil_r.
         split; [|exact R]. do 2 f_equal. f_equal. lia. }
    destruct (r_seek_tell_ok r c R) as (r1 & E1 & (Hcap & nb & so & R1) & Hlt). rewrite E1.
    pose proof R1 as [Rb Rby Rss Rbs Rcap Rso Rsole Rbo Rpos Rval Rw].
    cbn [set_cv c_bits c_pos c_valid] in *.
    set (n := Z.min (r_bsize r1 - r_boff r1) (Z.of_nat rem / 8 * 8)).
    set (k := Z.to_nat (n / 8)).
    assert (n = 8 * Z.of_nat k /\ (1 <= k)%nat /\ (8 * k <= rem)%nat /\ r_boff r1 mod 8 = 0
            /\ r_boff r1 + 8 * Z.of_nat k <= r_bsize r1) as (En & K1 & K2 & K3 & K4) by (unfold k; lia).
    clearbody n k. subst n.
    replace ((r_boff r1 mod 8 =? 0) && (8 * Z.of_nat k mod 8 =? 0)) with true by lia.
    replace (Z.to_nat (8 * Z.of_nat k / 8)) with k by lia.
    rewrite (read_bytes_loop_ok nb so r1 _ k (r_boff r1) acc R1) by lia.
    cbn [set_cv c_bits].
    replace (Z.to_nat (r_soff r1 - r_bsize r1 + r_boff r1)) with (c_pos c) by lia.
    replace (r_boff r1 + 8 * Z.of_nat k) with (r_boff r1 + Z.of_nat (8 * k)) by lia.
    pose proof (rrel_set_boff nb so r1 _ (8 * k) R1 ltac:(lia)) as R2.
    set (acc2 := acc ++ firstn (8 * k) (skipn (c_pos c) (c_bits c))) in *.
    assert (length acc2 = length acc + 8 * k)%nat as La.
    { unfold acc2. rewrite app_length, firstn_length, skipn_length. lia. }
    replace (Z.of_nat rem - 8 * Z.of_nat k) with (Z.of_nat (rem - 8 * k)) by lia.
    destruct (IH (rem - 8 * k)%nat acc2 (set_boff r1 (r_boff r1 + Z.of_nat (8 * k)))
                (move (set_cv c (Some true)) (8 * k))) as (r3 & E3 & R3).
    + split; [exact Hcap|]. exists nb, so. exact R2.
    + reflexivity.
    + left. change (c_pos (move (set_cv c (Some true)) (8 * k))) with (c_pos c + 8 * k)%nat. destruct Hm; lia.
    + cbn [move set_cv c_pos c_bits]. lia.
    + lia.
    + lia.
    + exists r3. rewrite E3.
      replace ((rem - 8 * k) mod 8)%nat with (rem mod 8)%nat by lia.
      replace ((rem - 8 * k) / 8)%nat with (rem / 8 - k)%nat by lia.
      replace ((rem - 8 * k) / 8)%nat with (rem / 8 - k)%nat in R3 by lia.
      split.
      * f_equal. f_equal. f_equal. unfold acc2. rewrite <- app_assoc. f_equal. f_equal.
        replace (8 * (rem / 8))%nat with (8 * k + 8 * (rem / 8 - k))%nat by lia.
        rewrite firstn_skipn_split. reflexivity.
      * rewrite move_move in R3. replace (8 * k + 8 * (rem / 8 - k))%nat with (8 * (rem / 8))%nat in R3 by lia.
        rewrite <- Hv, set_cv_same in R3. exact R3.
Qed.

(* The central lemma: a literal read is the cursor's. *)
Lemma r_lit_internal_ok fuel n max r c :
  (8 <= fuel)%nat -> rrel r c -> 0 <= n <= max -> max <= 64 ->
  (c_pos c + Z.to_nat n <= length (c_bits c))%nat ->
  exists r', r_lit_internal fuel n max r =
    (Ok (ofbits (firstn (Z.to_nat n) (skipn (c_pos c) (c_bits c)))), r') /\
    rrel r' (move (set_cv c (Some true)) (Z.to_nat n)).
Proof.
  intros Hf R Hn Hmax Hle. pose proof (rrel_len _ _ R) as L.
  unfold r_lit_internal. replace (n >? max) with false by lia. replace (n <? 0) with false by lia.
  replace (r_boff r <? 0) with false by (destruct R as (_ & nb & so & []); lia).
  destruct (rrel_tell _ _ R) as [Et R0]. destruct (r_tell r) as [t0 r0] eqn:T. cbn [fst snd] in *. subst t0.
  assert (r_ssize r0 = 8 * zlen (r_src r)) as Hs.
  { destruct R as (_ & nb & so & []). unfold r_tell in T. injection T as _ <-. cbn. assumption. }
  unfold zlen in Hs. replace (Z.of_nat (c_pos c) + n >? r_ssize r0) with false by lia.
  destruct (n =? 0) eqn:N0.
  { assert (n = 0) by lia. subst n. exists r0. cbn [Z.to_nat]. rewrite firstn_O, move_0. split; [reflexivity|exact R0]. }
  destruct (r_seek_tell_ok _ _ R0) as (r1 & E1 & R1 & Hlt). rewrite E1.
  destruct (rrel_tell _ _ R1) as [Et1 R1']. destruct (r_tell r1) as [t1 r1'] eqn:T1. cbn [fst snd] in *. subst t1.
  assert (r_win r1' = r_win r1 /\ r_bsize r1' = r_bsize r1 /\ r_boff r1' = r_boff r1) as (Ew & Ebs & Ebo).
  { unfold r_tell in T1. injection T1 as _ <-. auto. }
  cbn [set_cv c_bits c_pos c_valid] in *.
  change (mkC (c_bits c) (c_pos c) (Some true)) with (set_cv c (Some true)) in *.
  clear T1 T E1. rewrite <- Ebs, <- Ebo in Hlt.
  destruct R1' as (Hcap & nb & so & Ra). pose proof Ra as [Rb Rby Rss Rbs Rcap Rso Rsole Rbo Rpos Rval Rw].
  cbn [set_cv c_bits c_pos c_valid] in *.
  assert (r_boff r1' < r_bsize r1') as Hlt' by lia.
  destruct ((Z.of_nat (c_pos c) + n) / 8 =? Z.of_nat (c_pos c) / 8) eqn:Same.
  - rewrite (read_bits_loop_ok0 nb so r1' _ (Z.to_nat n) (r_boff r1') Ra) by lia.
    cbn [app set_cv c_bits]. replace (0 =? 0) with true by lia.
    eexists. split.
    + replace (Z.to_nat (r_soff r1' - r_bsize r1' + r_boff r1')) with (c_pos c) by lia. reflexivity.
    + split; [exact Hcap|]. exists nb, so. apply rrel_set_boff; [exact Ra|lia].
  - assert (exists m r2 acc,
      (if r_boff r1' mod 8 =? 0 then Ok (n, 0, r1')
       else
         let na := 8 - r_boff r1' mod 8 in
         match read_bits_loop (Z.to_nat na) (r_win r1') (r_bsize r1') (r_boff r1') 0 with
         | Ok (_, off', out) => Ok (n - na, out, set_boff r1' off')
         | Err c => Err c | Abort => Abort | UB => UB | Diverge => Diverge
         end) = Ok (n - Z.of_nat m, ofbits acc, r2) /\
      rrel r2 (move (set_cv c (Some true)) m) /\ ((c_pos c + m) mod 8 = 0)%nat /\ (m <= Z.to_nat n)%nat /\
      acc = firstn m (skipn (c_pos c) (c_bits c)) /\ length acc = m) as (m & r2 & acc & Epre & R2 & M1 & M2 & Ea & La).
    { destruct (r_boff r1' mod 8 =? 0) eqn:Al.
      - exists O, r1', []. rewrite move_0. split; [f_equal; f_equal; f_equal; lia|].
        split; [split; [exact Hcap|exists nb, so; exact Ra]|]. cbn [length firstn]. repeat split; lia.
      - cbv zeta. set (m := Z.to_nat (8 - r_boff r1' mod 8)).
        assert (m < 8 /\ (c_pos c + m) mod 8 = 0 /\ m <= Z.to_nat n)%nat as (M0 & M1 & M2) by (unfold m; lia).
        assert (r_boff r1' + Z.of_nat m <= r_bsize r1') as M3 by (unfold m; lia).
        exists m, (set_boff r1' (r_boff r1' + Z.of_nat m)), (firstn m (skipn (c_pos c) (c_bits c))).
        rewrite (read_bits_loop_ok0 nb so r1' _ m (r_boff r1') Ra) by lia.
        cbn [app set_cv c_bits].
        replace (Z.to_nat (r_soff r1' - r_bsize r1' + r_boff r1')) with (c_pos c) by lia.
        split; [f_equal; f_equal; f_equal; unfold m; lia|].
        split; [split; [exact Hcap|]; exists nb, so; apply rrel_set_boff; [exact Ra|exact M3]|].
        split; [exact M1|]. split; [exact M2|]. split; [reflexivity|]. rewrite firstn_length, skipn_length. lia. }
    cbv zeta in Epre |- *. rewrite Epre. clear Epre.
    replace (n - Z.of_nat m) with (Z.of_nat (Z.to_nat n - m)) by lia.
    destruct (read_whole_ok fuel (Z.to_nat n - m) acc r2 (move (set_cv c (Some true)) m) R2) as (r3 & E3 & R3);
      [reflexivity|cbn [move set_cv c_pos c_bits]; lia|cbn [move set_cv c_pos c_bits]; lia|lia|lia|].
    rewrite E3. rewrite move_move in R3. cbn [move set_cv c_pos c_bits] in E3.
    set (q := (Z.to_nat n - m)%nat) in *.
    set (pos3 := (m + 8 * (q / 8))%nat) in *.
    unfold read_tail.
    destruct (r_seek_tell_ok _ _ R3) as (r4 & E4 & R4 & Hlt4). rewrite E4.
    assert ((Z.of_nat (c_pos c) + n) mod 8 = Z.of_nat (q mod 8)) as Ef by (unfold q; lia).
    rewrite Ef, Nat2Z.id.
    cbn [move set_cv c_pos c_bits c_valid] in *.
    assert (length (acc ++ firstn (8 * (q / 8)) (skipn (c_pos c + m) (c_bits c))) = pos3) as La3.
    { rewrite app_length, firstn_length, skipn_length. unfold pos3. lia. }
    destruct R4 as (Hcap4 & nb4 & so4 & Ra4).
    pose proof Ra4 as [Rb4 Rby4 Rss4 Rbs4 Rcap4 Rso4 Rsole4 Rbo4 Rpos4 Rval4 Rw4].
    cbn [set_cv move c_bits c_pos c_valid] in *.
    rewrite (read_bits_loop_ok nb4 so4 r4 _ (q mod 8) (r_boff r4) _ Ra4); [|lia| |lia|].
    + rewrite Z.sub_diag, Z.eqb_refl. eexists. split.
      * cbn [set_cv move c_bits c_pos]. f_equal. f_equal. f_equal.
        replace (Z.to_nat (r_soff r4 - r_bsize r4 + r_boff r4)) with (c_pos c + pos3)%nat by lia.
        rewrite Ea, <- app_assoc.
        replace (Z.to_nat n) with (m + (8 * (q / 8) + q mod 8))%nat by (unfold q; lia).
        rewrite firstn_skipn_split. f_equal. rewrite firstn_skipn_split. f_equal. f_equal. f_equal.
        unfold pos3. lia.
      * split; [exact Hcap4|]. exists nb4, so4.
        pose proof (rrel_set_boff nb4 so4 r4 _ (q mod 8) Ra4) as R5.
        unfold move in R5 |- *. cbn [set_cv c_bits c_pos c_valid] in R5 |- *.
        replace (c_pos c + Z.to_nat n)%nat with (c_pos c + pos3 + q mod 8)%nat by (unfold pos3, q; lia).
        apply R5. 
        destruct (Nat.eq_dec (q mod 8) 0); [lia|].
        assert (r_boff r4 < r_bsize r4) by (apply Hlt4; unfold pos3, q; lia).
        assert (r_boff r4 mod 8 = 0) by (unfold pos3 in *; lia). lia.
    + destruct (Nat.eq_dec (q mod 8) 0); [lia|].
      assert (r_boff r4 < r_bsize r4) by (apply Hlt4; unfold pos3, q; lia).
      assert (r_boff r4 mod 8 = 0) by (unfold pos3 in *; lia). lia.
    + rewrite La3. unfold pos3, q. lia.
Qed.

Lemma cop_refines fuel o r c :
  (8 <= fuel)%nat -> rrel r c ->
  fst (cop fuel o r) = fst (aop o c) /\ rrel (snd (cop fuel o r)) (snd (aop o c)).
Proof.
  intros Hf R. pose proof (rrel_len _ _ R) as L. pose proof (rrel_pos_le _ _ R) as P.
  destruct o as [n max| |p|]; cbn [cop aop].
  - unfold r_lit, legal_width, c_left.
    destruct ((0 <=? n) && (n <=? Z.min max 64)) eqn:W.
    + destruct (Z.to_nat n <=? length (c_bits c) - c_pos c)%nat eqn:A.
      * destruct (r_lit_internal_ok fuel n (Z.min max 64) r c Hf R) as (r' & E & R'); [lia|lia|lia|].
        rewrite E. cbn [fst snd]. split; [|exact R'].
        f_equal. apply Z.mod_small.
        pose proof (ofbits_range (firstn (Z.to_nat n) (skipn (c_pos c) (c_bits c)))) as Q.
        unfold zlen in Q. rewrite firstn_length, skipn_length in Q.
        assert (2 ^ Z.of_nat (Nat.min (Z.to_nat n) (length (c_bits c) - c_pos c)) <= 2 ^ Z.min max 64).
        { apply Z.pow_le_mono_r; lia. }
        lia.
      * unfold r_lit_internal. replace (n >? Z.min max 64) with false by lia. replace (n <? 0) with false by lia.
        replace (r_boff r <? 0) with false by (destruct R as (_ & nb & so & []); lia).
        destruct (rrel_tell _ _ R) as [Et R0]. destruct (r_tell r) as [t0 r0] eqn:T. cbn [fst snd] in *. subst t0.
        assert (r_ssize r0 = 8 * zlen (r_src r)) as Hs.
        { destruct R as (_ & nb & so & []). unfold r_tell in T. injection T as _ <-. cbn. assumption. }
        unfold zlen in Hs. replace (Z.of_nat (c_pos c) + n >? r_ssize r0) with true by lia.
        cbn [fst snd]. auto.
    + unfold r_lit_internal. destruct (n >? Z.min max 64) eqn:G; [cbn; auto|].
      destruct (n <? 0) eqn:G2; [cbn; auto|lia].
  - destruct (rrel_tell _ _ R) as [Et R0]. destruct (r_tell r) as [t r0]. cbn [fst snd] in *. split; [congruence|exact R0].
  - assert (c_valid c = r_valid r) as Hv by (destruct R as (_ & nb & so & []); assumption).
    assert (r_ssize r = 8 * zlen (r_src r)) as Hs by (destruct R as (_ & nb & so & []); assumption).
    unfold zlen in *.
    rewrite Hv. destruct (r_valid r) as [[|]|] eqn:V.
    + destruct (p <? 0) eqn:P1.
      { unfold r_seek. rewrite V, P1. cbn. auto. }
      destruct (p >? Z.of_nat (length (c_bits c))) eqn:P2.
      { unfold r_seek. rewrite V, P1. replace (p >? r_ssize r) with true by lia. cbn. auto. }
      destruct (r_seek_ok r c p R V) as (r' & E & R' & _); [unfold zlen; lia|].
      rewrite E. cbn [fst snd]. auto.
    + unfold r_seek. rewrite V. cbn. auto.
    + unfold r_seek. rewrite V. cbn. auto.
  - cbn [fst snd]. split; [|exact R]. unfold r_avail, c_left, zlen in *.
    destruct R as (_ & nb & so & []). unfold zlen in *.
    replace ((r_soff r >=? 0) && (r_soff r <=? r_ssize r)) with true by lia.
    replace ((r_boff r >=? 0) && (r_boff r <=? r_bsize r)) with true by lia.
    f_equal. lia.
Qed.

(* For every reader program: same outcome, related states. *)
Lemma crun_refines {A} fuel (p : rprog A) : (8 <= fuel)%nat -> forall r c, rrel r c ->
  fst (crun fuel p r) = fst (arun p c) /\ rrel (snd (crun fuel p r)) (snd (arun p c)).
Proof.
  intro Hf. induction p as [a|e|o k IH]; intros r c R; cbn [crun arun].
  - auto.
  - auto.
  - destruct (cop_refines fuel o r c Hf R) as [E R']. destruct (cop fuel o r) as [x r']. destruct (aop o c) as [y c'].
    cbn [fst snd] in *. subst y. destruct x; auto.
Qed.
