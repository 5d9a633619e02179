From Verif Require Import Base BitFacts ReadBuf BufSpec ReadBufFacts StreamSpec.

(* the cursor seen by the concrete buffer for a spec state *)
Definition view (s : stream) : cur :=
  mkC (skipn (8 * st_base s) (st_all s)) (st_pos s - 8 * st_base s) (st_valid s).
Definition swf (s : stream) : Prop :=
  (8 * st_base s <= st_pos s)%nat /\ (st_pos s <= length (st_all s))%nat /\
  Nat.modulo (length (st_all s)) 8 = 0%nat /\ (length (st_all s) / 8 - st_base s <= Z.to_nat (2^22))%nat.

Definition srel (r : rbuf) (s : stream) : Prop := rrel r (view s) /\ swf s.

Lemma srel_src r s : srel r s -> zlen (r_src r) = zlen (st_all s) / 8 - Z.of_nat (st_base s).
Proof.
  intros [R W]. pose proof (rrel_len _ _ R) as L. unfold view in L. cbn [c_bits] in L. rewrite skipn_length in L.
  unfold swf in W. unfold zlen. lia.
Qed.

Lemma rrel_push r c b r' :
  rrel r c -> Forall byteP b ->
  r' = mkR (r_win r) (r_boff r) (r_bsize r) (r_src r ++ b) (r_ssize r + zlen b * 8) (r_soff r) (r_valid r) ->
  rrel r' (mkC (c_bits c ++ bytes_bits b) (c_pos c) (c_valid c)).
Proof.
  intros (Hc & nb & so & []) Hb ->. split; [exact Hc|]. exists nb, so.
  split; cbn [c_bits c_pos c_valid r_src r_ssize r_bsize r_win r_soff r_boff r_valid]; try assumption; try lia.
  - rewrite rr_bits, bytes_bits_app. reflexivity.
  - apply Forall_app. auto.
  - rewrite zlen_app. lia.
  - rewrite app_length. lia.
  - intros i H1 H2. rewrite rr_window by assumption. symmetry. apply nth_error_app1. lia.
Qed.

Lemma rrel_flush r c :
  rrel r c ->
  exists r', r_flush r = (Ok tt, r') /\
             rrel r' (mkC (skipn (8 * (c_pos c / 8)) (c_bits c)) (c_pos c mod 8) (Some false)).
Proof.
  intro R. pose proof (rrel_len _ _ R) as L. pose proof (rrel_pos_le _ _ R) as P.
  destruct (rrel_tell _ _ R) as [Et R0]. unfold r_flush. destruct (r_tell r) as [t r0]. cbn [fst snd] in *. subst t.
  destruct R0 as (Hc & nb & so & Ra). pose proof Ra as []. cbn [set_cv c_bits c_pos c_valid] in *.
  assert (length (r_src r0) = length (r_src r)) as Ls.
  { rewrite rr_bits in L. rewrite bytes_bits_length in L. lia. }
  unfold zlen in *. set (k := Z.to_nat (Z.of_nat (c_pos c) / 8)).
  assert (c_pos c = 8 * k + c_pos c mod 8)%nat as Ek by (unfold k; lia).
  replace (Z.of_nat (c_pos c) / 8 <=? Z.of_nat (length (r_src r0))) with true by lia.
  eexists. split; [reflexivity|]. split; [exact Hc|].
  replace (c_pos c / 8)%nat with k by (unfold k; lia).
  exists nb, (so - k)%nat.
  split; cbn [c_bits c_pos c_valid r_src r_ssize r_bsize r_win r_soff r_boff r_valid]; try assumption; try reflexivity.
  - rewrite bytes_bits_skipn, rr_bits. reflexivity.
  - apply Forall_forall. intros x Hx. rewrite Forall_forall in rr_bytes. apply rr_bytes.
    rewrite <- (firstn_skipn k (r_src r0)). apply in_or_app. right. exact Hx.
  - unfold zlen. rewrite skipn_length. unfold k; lia.
  - lia.
  - rewrite skipn_length. lia.
  - lia.
  - intros i H1 H2. rewrite rr_window by lia. rewrite nth_error_skipn. f_equal. lia.
Qed.

Lemma srel_init cap : (1 <= cap)%nat -> srel (r_stream cap) s_empty.
Proof.
  intro H. split.
  - apply (rrel_create cap []); [exact H|constructor].
  - unfold swf, s_empty; cbn [st_all st_pos st_base length]. change (Z.to_nat (2^22)) with (Z.to_nat (2^22)). repeat split; lia.
Qed.

Lemma u64_sub a : 0 <= a <= 2^22 -> u64 (2^22 - a) = 2^22 - a.
Proof. intro H. apply u64_small. change (2^64) with 18446744073709551616. change (2^22) with 4194304 in *. lia. Qed.

Lemma skipn_app_le {A} n (a b : list A) : (n <= length a)%nat -> skipn n (a ++ b) = skipn n a ++ b.
Proof. intro H. rewrite skipn_app. replace (n - length a)%nat with O by lia. reflexivity. Qed.

Lemma sstep_refines fuel o r s :
  (8 <= fuel)%nat -> sop_wf o -> srel r s ->
  fst (sstep fuel o r) = fst (spec_step o s) /\ srel (snd (sstep fuel o r)) (snd (spec_step o s)).
Proof.
  intros Hf Hwf SR. pose proof (srel_src _ _ SR) as Hsrc. destruct SR as [R W].
  pose proof W as (W1 & W2 & W3 & W4).
  destruct o as [b| |o]; cbn [sstep spec_step].
  - unfold r_push. cbn [sop_wf] in Hwf.
    assert (0 <= zlen (r_src r) <= 2^22) as Hr.
    { rewrite Hsrc. unfold zlen. change (2^22) with 4194304 in *. lia. }
    rewrite u64_sub by exact Hr. rewrite Hsrc.
    destruct (zlen b >? 2 ^ 22 - (zlen (st_all s) / 8 - Z.of_nat (st_base s))) eqn:E.
    + replace (zlen (st_all s) / 8 - Z.of_nat (st_base s) + zlen b >? 2 ^ 22) with true by lia.
      cbn [fst snd ures rbind]. split; [reflexivity|]. split; assumption.
    + replace (zlen (st_all s) / 8 - Z.of_nat (st_base s) + zlen b >? 2 ^ 22) with false by lia.
      cbn [fst snd ures rbind]. split; [reflexivity|]. split.
      * unfold view; cbn [st_all st_pos st_base st_valid].
        rewrite skipn_app_le by lia. eapply (rrel_push r (view s) b); [exact R|exact Hwf|reflexivity].
      * unfold swf; cbn [st_all st_pos st_base]. rewrite app_length, bytes_bits_length.
        unfold zlen in E. change (2^22) with 4194304 in *. lia.
  - destruct (rrel_flush r (view s) R) as (r' & E & R'). rewrite E. cbn [fst snd ures rbind].
    split; [reflexivity|]. split.
    + unfold view in *. cbn [st_all st_pos st_base st_valid c_bits c_pos] in *.
      rewrite skipn_skipn' in R'.
      replace (8 * st_base s + 8 * ((st_pos s - 8 * st_base s) / 8))%nat with (8 * (st_pos s / 8))%nat in R' by lia.
      replace ((st_pos s - 8 * st_base s) mod 8)%nat with (st_pos s - 8 * (st_pos s / 8))%nat in R' by lia.
      exact R'.
    + unfold swf in *. cbn [st_all st_pos st_base]. lia.
  - destruct (cop_refines fuel o r (view s) Hf R) as [E R']. rewrite E. 
    unfold view in *. cbn [st_all st_pos st_base st_valid] in *.
    set (B := (8 * st_base s)%nat) in *.
    destruct o as [n max| |p|]; cbn [aop c_bits c_pos c_valid] in *.
    + unfold legal_width, c_left in *. cbn [c_bits c_pos] in *. rewrite skipn_length in *.
      destruct ((0 <=? n) && (n <=? Z.min max 64)); [|cbn [fst snd] in *; split; [reflexivity|split; [exact R'|exact W]]].
      replace (Z.to_nat n <=? length (st_all s) - B - (st_pos s - B))%nat
        with (st_pos s + Z.to_nat n <=? length (st_all s))%nat in * by lia.
      destruct (st_pos s + Z.to_nat n <=? length (st_all s))%nat eqn:Q; cbn [fst snd] in *.
      * rewrite skipn_skipn'. replace (B + (st_pos s - B))%nat with (st_pos s) by lia.
        split; [reflexivity|]. split; [|unfold swf; cbn [st_all st_pos st_base]; lia].
        unfold view; cbn [st_all st_pos st_base st_valid]. fold B.
        replace (st_pos s + Z.to_nat n - B)%nat with (st_pos s - B + Z.to_nat n)%nat by lia. exact R'.
      * split; [reflexivity|]. split; [exact R'|exact W].
    + cbn [fst snd] in *. split; [f_equal; lia|]. split; [exact R'|exact W].
    + destruct (st_valid s) as [[|]|] eqn:V; cbn [fst snd] in *;
        try (split; [reflexivity|]; split; [unfold view; rewrite V; exact R'|exact W]).
      unfold zlen in *. rewrite skipn_length in *.
      destruct (p <? 0) eqn:P1; cbn [fst snd] in *; [split; [reflexivity|]; split; [unfold view; rewrite V; exact R'|exact W]|].
      replace (p >? Z.of_nat (length (st_all s) - B)) with (p + 8 * Z.of_nat (st_base s) >? Z.of_nat (length (st_all s))) in * by lia.
      destruct (p + 8 * Z.of_nat (st_base s) >? Z.of_nat (length (st_all s))) eqn:P2; cbn [fst snd] in *.
      * split; [reflexivity|]; split; [unfold view; rewrite V; exact R'|exact W].
      * split; [reflexivity|]. split; [|unfold swf; cbn [st_all st_pos st_base]; lia].
        unfold view; cbn [st_all st_pos st_base st_valid]. fold B.
        replace (Z.to_nat (p + 8 * Z.of_nat (st_base s)) - B)%nat with (Z.to_nat p) by lia. exact R'.
    + cbn [fst snd] in *. unfold c_left. cbn [c_bits c_pos]. rewrite skipn_length. split; [f_equal; f_equal; lia|].
      split; assumption.
Qed.

Lemma srun_refines fuel h r s :
  (8 <= fuel)%nat -> Forall sop_wf h -> srel r s ->
  fst (srun fuel h r) = fst (spec_run h s) /\ srel (snd (srun fuel h r)) (snd (spec_run h s)).
Proof.
  intros Hf Hh. revert r s. induction Hh as [|o h Ho Hh IH]; intros r s SR; cbn [srun spec_run].
  - auto.
  - destruct (sstep_refines fuel o r s Hf Ho SR) as [E SR1].
    destruct (sstep fuel o r) as [x r1]. destruct (spec_step o s) as [y s1]. cbn [fst snd] in *. subst y.
    destruct (IH r1 s1 SR1) as [E2 SR2]. destruct (srun fuel h r1) as [xs r2]. destruct (spec_run h s1) as [ys s2].
    cbn [fst snd] in *. subst ys. auto.
Qed.

(* Bits read = a prefix of the bits pushed. *)
Lemma spec_prefix h s :
  forallb no_seek h = true -> swf s ->
  let '(rs, s') := spec_run h s in
  st_all s' = st_all s ++ bytes_bits (bytes_pushed h rs) /\
  skipn (st_pos s) (st_all s') = bits_read h rs ++ skipn (st_pos s') (st_all s') /\
  (st_pos s' <= length (st_all s'))%nat.
Proof.
  revert s. induction h as [|o h IH]; intros s Hn W.
  - cbn. rewrite app_nil_r. destruct W as (_ & W2 & _). auto.
  - cbn [forallb] in Hn. apply andb_prop in Hn as [Ho Hn]. cbn [spec_run].
    destruct (spec_step o s) as [x s1] eqn:E. specialize (IH s1 Hn).
    assert (swf s1 /\ st_all s1 = st_all s ++ bytes_bits (match o, x with SPush b, Ok _ => b | _, _ => [] end) /\
            (st_pos s <= st_pos s1)%nat /\
            firstn (st_pos s1 - st_pos s) (skipn (st_pos s) (st_all s1)) =
              match o, x with SOp (OLit n _), Ok v => bits (Z.to_nat n) v | _, _ => [] end /\
            (st_pos s1 <= length (st_all s1))%nat) as (W1 & A1 & A2 & A3 & A4).
    { pose proof W as (X1 & X2 & X3 & X4). destruct o as [b| |[n max| |p|]]; cbn [spec_step] in E.
      - destruct (_ >? _) eqn:Q in E; injection E as <- <-; cbn [st_all st_pos st_base] in *.
        + rewrite app_nil_r, Nat.sub_diag, firstn_O. auto.
        + unfold swf. cbn [st_all st_pos st_base]. rewrite app_length, bytes_bits_length, Nat.sub_diag, firstn_O.
          unfold zlen in Q. change (2^22) with 4194304 in *. repeat split; lia.
      - injection E as <- <-. unfold swf. cbn [st_all st_pos st_base]. rewrite app_nil_r, Nat.sub_diag, firstn_O.
        repeat split; lia.
      - destruct ((0 <=? n) && (n <=? Z.min max 64)).
        2: { injection E as <- <-. rewrite app_nil_r, Nat.sub_diag, firstn_O. auto. }
        destruct (st_pos s + Z.to_nat n <=? length (st_all s))%nat eqn:Q; injection E as <- <-;
          unfold swf; cbn [st_all st_pos st_base]; rewrite app_nil_r.
        + replace (st_pos s + Z.to_nat n - st_pos s)%nat with (Z.to_nat n) by lia.
          split; [repeat split; lia|]. split; [reflexivity|]. split; [lia|]. split; [|lia].
          symmetry. apply bits_ofbits'. rewrite firstn_length, skipn_length. lia.
        + rewrite Nat.sub_diag, firstn_O. repeat split; lia.
      - injection E as <- <-. unfold swf. cbn [st_all st_pos st_base]. rewrite app_nil_r, Nat.sub_diag, firstn_O.
        repeat split; lia.
      - discriminate Ho.
      - injection E as <- <-. rewrite app_nil_r, Nat.sub_diag, firstn_O. auto. }
    specialize (IH W1). destruct (spec_run h s1) as [rs s2]. destruct IH as (B1 & B2 & B3).
    split; [|split; [|exact B3]].
    + rewrite B1, A1, <- app_assoc, <- bytes_bits_app. f_equal. f_equal.
      destruct o as [b| |[n max| |p|]]; cbn [bytes_pushed]; try reflexivity. destruct x; reflexivity.
    + transitivity (match o, x with SOp (OLit n _), Ok v => bits (Z.to_nat n) v | _, _ => [] end ++
                    bits_read h rs ++ skipn (st_pos s2) (st_all s2)).
      * rewrite <- B2, <- A3.
        replace (skipn (st_pos s1) (st_all s2)) with (skipn (st_pos s1 - st_pos s) (skipn (st_pos s) (st_all s2)))
          by (rewrite skipn_skipn'; f_equal; lia).
        replace (firstn (st_pos s1 - st_pos s) (skipn (st_pos s) (st_all s1)))
          with (firstn (st_pos s1 - st_pos s) (skipn (st_pos s) (st_all s2))).
        { symmetry. apply firstn_skipn. }
        rewrite B1. rewrite skipn_app_le by lia. rewrite firstn_app.
        replace (st_pos s1 - st_pos s - length (skipn (st_pos s) (st_all s1)))%nat with O by (rewrite skipn_length; lia).
        rewrite firstn_O, app_nil_r. reflexivity.
      * destruct o as [b| |[n max| |p|]]; cbn [bits_read]; try reflexivity; destruct x; try reflexivity.
        rewrite app_assoc. reflexivity.
Qed.

Lemma stream_reads_prefix fuel cap h :
  (8 <= fuel)%nat -> (1 <= cap)%nat -> Forall sop_wf h -> forallb no_seek h = true ->
  let rs := fst (srun fuel h (r_stream cap)) in
  exists unread, bytes_bits (bytes_pushed h rs) = bits_read h rs ++ unread.
Proof.
  intros Hf Hc Hw Hn rs.
  pose proof (srel_init cap Hc) as SR. destruct (srun_refines fuel h _ _ Hf Hw SR) as [E _].
  pose proof (spec_prefix h s_empty Hn) as P. destruct SR as [_ W]. specialize (P W).
  unfold rs. rewrite E. destruct (spec_run h s_empty) as [ys s']. cbn [fst].
  destruct P as (P1 & P2 & _). exists (skipn (st_pos s') (st_all s')).
  cbn [s_empty st_pos st_all skipn app] in P1, P2. rewrite <- P1. exact P2.
Qed.
