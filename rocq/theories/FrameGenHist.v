(* The audio frame generator: what the frames of one substream hold, from the start *)
From Verif Require Import PropsLabels.
From Verif Require Import Base WriteBuf CodecConfig Params AudioElement Timing ParamManager AeData Demix SubFrames SubFramesFacts FrameGen FrameGenFacts.
From Coq Require Import Lia.

Section Hist.
Context {T P : Type}.
Variable A : arith T.
Variable lin : Z -> T.
Variable quant : T -> res Z.
Variable code : Z -> list (list Z) -> res P.
Notation smap := (@smap T).
Notation zt := (a_lit A 0 1).
Variable n : Z.
Hypothesis n_pos : 0 < n.
Notation nn := (Z.to_nat n).
Notation gen := (gen T P).
Notation oframe := (oframe T P).
Notation av := (@av T).
Notation st := (@st T P).
(* the delay of all coders, the delay of this coder, the trim at the start which the user asked for (and the delay), the first timestamp *)
Variable D d U c0 : Z.
Hypothesis d_ok : 0 <= d <= D.
Hypothesis U_ok : 0 <= U < 2 ^ 32.
Hypothesis n_small : 3 * n < 2 ^ 32.

(* channel c of the blocks, one after the other *)
Definition catc {X} (c : nat) (bs : list (list (list X))) : list X := concat (map (fun b => nth c b []) bs).
Lemma catc_app : forall {X} c (a b : list (list (list X))), catc c (a ++ b) = catc c a ++ catc c b.
Proof. intros. unfold catc. now rewrite map_app, concat_app. Qed.
Lemma catc_one : forall {X} c (b : list (list X)), catc c [b] = nth c b [].
Proof. intros. unfold catc. cbn [map concat]. now rewrite app_nil_r. Qed.
(* the samples to trim at the start of the i-th frame, of u samples *)
Definition sched (u : Z) (i : nat) : Z := Z.min n (Z.max 0 (u - Z.of_nat i * n)).
Fixpoint stamp (i : nat) : Z := match i with O => c0 | S j => s64 (stamp j + n) end.
Definition block {X} (k : nat) (b : list (list X)) : Prop := length b = k /\ Forall (fun c => length c = nn) b.

Record hist (sid : Z) (k : nat) (fr : nat -> list T) (fe : nat -> list Z) (ps : list dmix) (pad pe : Z) (x : st) (outs : list oframe) (ins : list (list (list Z))) : Prop := {
  h_code : Forall2 (fun f i => code sid i = Ok (o_data f)) (outs ++ x_q x) ins;
  h_shape : Forall (fun f => o_id f = sid /\ block k (o_raw f)) (outs ++ x_q x);
  h_ins : Forall (block k) ins;
  h_raw : forall c, (c < k)%nat -> catc c (map o_raw (outs ++ x_q x)) ++ nth c (a_obu (x_av x)) [] = repeat zt (Z.to_nat D) ++ fr c ++ repeat zt (Z.to_nat pad);
  h_enc : forall c, (c < k)%nat -> catc c ins ++ nth c (a_enc (x_av x)) [] = repeat 0 (Z.to_nat (D - d)) ++ fe c ++ repeat 0 (Z.to_nat (pad + pe));
  h_start : a_start (x_av x) = Z.max 0 (D - zlen (outs ++ x_q x) * n);
  h_left : tr_start (x_tr x) = Z.max 0 (U - zlen outs * n);
  h_out : map o_start outs = map (sched U) (seq 0 (length outs));
  h_queue : map o_start (x_q x) = map (sched D) (seq (length outs) (length (x_q x)));
  h_flag : Forall (fun f => o_flag f = negb (o_end f =? 0) || negb (o_start f =? 0)) (outs ++ x_q x);
  h_t0 : map o_t0 (outs ++ x_q x) = map stamp (seq 0 (length (outs ++ x_q x)));
  h_t1 : map o_t1 (outs ++ x_q x) = map (fun i => stamp (S i)) (seq 0 (length (outs ++ x_q x)));
  h_clk : x_clk x = stamp (length (outs ++ x_q x));
  h_dm : map o_dm (outs ++ x_q x) = map Some ps
}.

Lemma nth_zipapp : forall {X} (a b : list (list X)) c, length a = length b -> nth c (zipapp a b) [] = nth c a [] ++ nth c b [].
Proof.
  induction a as [|x a IH]; intros [|y b] c L; cbn in L; try discriminate; [now destruct c|]. rewrite zipapp_cons. destruct c; cbn [nth]; [reflexivity|]. apply IH. lia.
Qed.
Lemma nth_map' : forall {X Y} (f : list X -> list Y) l c, f [] = [] -> nth c (map f l) [] = f (nth c l []).
Proof. intros X Y f l c H. rewrite <- H at 1. apply map_nth. Qed.
Lemma nth_zeros : forall {X} (z : X) k l c, (c < length l)%nat -> nth c (zeros z k l) [] = nth c l [] ++ repeat z (Z.to_nat k).
Proof. intros X z k l c H. unfold zeros. set (f := fun c0 => c0 ++ repeat z (Z.to_nat k)). rewrite (nth_indep (map f l) [] (f [])) by (now rewrite map_length). now rewrite map_nth. Qed.
Lemma zlen_app1 : forall {X} (l : list X) y, zlen (l ++ [y]) = zlen l + 1.
Proof. intros. unfold zlen. rewrite app_length. cbn [length]. lia. Qed.
Lemma seq_snoc : forall a b, seq a (S b) = seq a b ++ [(a + b)%nat].
Proof. intros. now rewrite seq_S. Qed.

Definition pad_of (t : nat) : Z := if Z.of_nat t <? n then n - Z.of_nat t else 0.
Definition more_of (t e : nat) : Z := let e2 := fill_len n (Z.of_nat t) (Z.of_nat e) in if e2 <? n then n - e2 else 0.

Lemma hist_feed : forall sid k fr fe ps p pe x outs ins rs t e f,
  hist sid k fr fe ps 0 pe x outs ins -> 0 <= pe -> length rs = k -> a_end (x_av x) = 0 ->
  (pe = 0 \/ Forall (fun c => c = []) (map snd rs)) ->
  even k t e (fed rs (x_av x)) -> length (a_obu (x_av x)) = k -> length (a_enc (x_av x)) = k ->
  made code n sid (Some p) (fill A n true t e rs x) f ->
  let x' := emit n f (fill A n true t e rs x) in
  exists i, hist sid k (fun c => fr c ++ nth c (map fst rs) []) (fun c => fe c ++ nth c (map snd rs) []) (ps ++ [p]) (pad_of t) (pe + more_of t e) x' outs (ins ++ [i]) /\
    o_end f = pad_of t /\ x_q x' = x_q x ++ [f] /\ a_end (x_av x') = 0 /\ x_tr x' = fill_tr n (Z.of_nat t) (x_tr x).
Proof.
  intros sid k fr fe ps p pe x outs ins rs t e f H Hpe Hrs He0 Hor HE L1 L2 (M1 & M2 & M3 & M4 & M5 & M6 & M7 & M8 & M9) x'.
  set (y := fill A n true t e rs x) in *.
  pose proof (fill_even A lin quant code n n_pos true k t e rs x HE) as (Y1 & Y2 & Y3 & Y4). fold y in Y1, Y2, Y3, Y4.
  assert (EO : forall c, (c < k)%nat -> nth c (a_obu (x_av y)) [] = nth c (a_obu (x_av x)) [] ++ nth c (map fst rs) [] ++ repeat zt (Z.to_nat (pad_of t))).
  { intros c Hc. unfold y, fill, fill_enc, fill_obu, pad_of. cbn [x_av]. cbv beta.
    assert (F1 : nth c (a_obu (fed rs (x_av x))) [] = nth c (a_obu (x_av x)) [] ++ nth c (map fst rs) []).
    { unfold fed. cbn [a_obu]. apply nth_zipapp. now rewrite map_length, Hrs. }
    destruct HE as (E1 & _). destruct (true && _); cbn [a_obu]; destruct (Z.of_nat t <? n); cbn [a_obu];
      rewrite ?nth_zeros by lia; rewrite F1; cbn [Z.to_nat repeat]; now rewrite ?app_nil_r, ?app_assoc. }
  assert (EZ : forall c, (c < k)%nat -> nth c (a_enc (x_av y)) [] = nth c (a_enc (x_av x)) [] ++ nth c (map snd rs) [] ++ repeat 0 (Z.to_nat (pad_of t + more_of t e))).
  { intros c Hc. unfold y, fill, fill_enc, fill_obu, pad_of, more_of. cbn [x_av]. cbv beta zeta.
    assert (F1 : nth c (a_enc (fed rs (x_av x))) [] = nth c (a_enc (x_av x)) [] ++ nth c (map snd rs) []).
    { unfold fed. cbn [a_enc]. apply nth_zipapp. now rewrite map_length, Hrs. }
    destruct HE as (_ & E1 & _). cbn [andb]. destruct (Z.ltb_spec (Z.of_nat t) n); destruct (Z.ltb_spec (fill_len n (Z.of_nat t) (Z.of_nat e)) n); cbn [a_enc];
      rewrite ?nth_zeros by (rewrite ?map_length; unfold zeros; rewrite ?map_length; lia); rewrite F1; rewrite <- ?app_assoc; f_equal; f_equal.
    - rewrite <- repeat_app. f_equal. lia.
    - f_equal. lia.
    - now rewrite app_nil_r. }
  exists (map (firstn nn) (a_enc (x_av y))).
  assert (XQ : x_q x' = x_q x ++ [f]) by reflexivity.
  assert (OX : outs ++ x_q x' = (outs ++ x_q x) ++ [f]) by (rewrite XQ; apply app_assoc).
  assert (PO : 0 <= pad_of t) by (unfold pad_of; destruct (Z.ltb_spec (Z.of_nat t) n); lia).
  assert (PM : 0 <= more_of t e) by (unfold more_of; cbv zeta; destruct (Z.ltb_spec (fill_len n (Z.of_nat t) (Z.of_nat e)) n); lia).
  assert (AE : a_end (x_av y) = pad_of t).
  { unfold y, fill, fill_enc, fill_obu, pad_of. cbn [x_av]. destruct (true && _); cbn [a_end]; destruct (Z.of_nat t <? n); cbn [a_end]; auto. }
  assert (AS : a_start (x_av y) = a_start (x_av x)).
  { unfold y, fill, fill_enc, fill_obu. cbn [x_av]. destruct (true && _); cbn [a_start]; destruct (Z.of_nat t <? n); cbn [a_start]; reflexivity. }
  assert (OE : o_end f = pad_of t). { rewrite M4, AE. unfold pad_of. destruct (Z.ltb_spec (Z.of_nat t) n); lia. }
  assert (LZ : zlen (outs ++ x_q x) = zlen outs + zlen (x_q x)) by (unfold zlen; rewrite app_length; lia).
  split; [|split; [exact OE|split; [exact XQ|split]]].
  2: { cbn [x' emit x_av cut_av a_end]. rewrite AE. unfold pad_of. destruct (Z.ltb_spec (Z.of_nat t) n); lia. }
  2: reflexivity.
  destruct H. constructor.
  - rewrite OX. apply Forall2_app; [assumption|]. constructor; [exact M3 | constructor].
  - rewrite OX. apply Forall_app. split; [assumption|]. constructor; [|constructor]. split; [exact M1|]. rewrite M2. split; [now rewrite map_length|].
    apply Forall_map. eapply Forall_impl; [|exact Y3]. intros q Hq. cbv beta in *. rewrite firstn_length. lia.
  - apply Forall_app. split; [assumption|]. constructor; [|constructor]. split; [now rewrite map_length|].
    apply Forall_map. eapply Forall_impl; [|exact Y4]. intros q Hq. cbv beta in *. rewrite firstn_length. lia.
  - intros c Hc. rewrite OX, map_app, catc_app. cbn [map]. rewrite catc_one, M2. cbn [x' emit x_av cut_av a_obu].
    rewrite (nth_map' (firstn nn)) by apply firstn_nil. rewrite (nth_map' (skipn nn)) by apply skipn_nil. rewrite <- app_assoc, firstn_skipn.
    rewrite EO by exact Hc. rewrite app_assoc, h_raw0 by exact Hc. cbn [Z.to_nat repeat]. rewrite app_nil_r. now rewrite !app_assoc.
  - intros c Hc. rewrite catc_app, catc_one. cbn [x' emit x_av cut_av a_enc].
    rewrite (nth_map' (firstn nn)) by apply firstn_nil. rewrite (nth_map' (skipn nn)) by apply skipn_nil. rewrite <- app_assoc, firstn_skipn.
    rewrite EZ by exact Hc. rewrite app_assoc, h_enc0 by exact Hc. replace (0 + pe) with pe by lia. rewrite <- !app_assoc. f_equal. f_equal.
    replace (Z.to_nat (pad_of t + (pe + more_of t e))) with (Z.to_nat pe + Z.to_nat (pad_of t + more_of t e))%nat by lia. rewrite repeat_app.
    destruct Hor as [-> | Hor]; [reflexivity|].
    assert (N0 : nth c (map snd rs) [] = []).
    { rewrite Forall_forall in Hor. destruct (Nat.ltb_spec c (length (map snd rs))); [apply Hor; now apply nth_In | now apply nth_overflow]. }
    rewrite N0. reflexivity.
  - cbn [x' emit x_av cut_av a_start]. rewrite XQ, AS, h_start0, app_assoc, zlen_app1. lia.
  - cbn [x' emit x_tr]. unfold y, fill. cbn [x_tr]. unfold fill_tr, left_of. destruct (Z.of_nat t <? n); cbn [tr_start]; assumption.
  - assumption.
  - rewrite XQ, map_app, app_length. cbn [map length]. rewrite Nat.add_1_r, seq_snoc, map_app. apply f_equal2; [assumption|]. cbn [map]. f_equal.
    rewrite M5, AS, h_start0. unfold sched. f_equal. f_equal. f_equal. f_equal. rewrite LZ. unfold zlen. lia.
  - rewrite OX. apply Forall_app. split; [assumption|]. constructor; [exact M7 | constructor].
  - rewrite OX, map_app, app_length. cbn [map length]. rewrite Nat.add_1_r, seq_snoc, (map_app stamp). apply f_equal2; [assumption|]. cbn [map]. f_equal. rewrite M8. exact h_clk0.
  - rewrite OX, map_app, app_length. cbn [map length]. rewrite Nat.add_1_r, seq_snoc, (map_app (fun i => stamp (S i))). apply f_equal2; [assumption|]. cbn [map stamp Nat.add]. f_equal. rewrite M9. f_equal. f_equal. exact h_clk0.
  - rewrite OX, app_length. cbn [length]. rewrite Nat.add_1_r. cbn [stamp x' emit x_clk]. rewrite M9. f_equal. f_equal. exact h_clk0.
  - rewrite OX, map_app, (map_app Some). apply f_equal2; [assumption|]. cbn [map]. now rewrite M6.
Qed.

Definition popped (x : st) (tr : trims) (q : list oframe) : st := mkSt (x_av x) tr q (x_clk x).
Lemma hist_pop : forall sid k fr fe ps pad pe x outs ins f q last tr' f',
  hist sid k fr fe ps pad pe x outs ins -> x_q x = f :: q -> 0 <= o_end f -> 0 <= tr_end (x_tr x) < 2 ^ 32 ->
  apply_trim n last (x_tr x) f = Ok (tr', f') ->
  hist sid k fr fe ps pad pe (popped x tr' q) (outs ++ [f']) ins /\ o_id f' = sid /\ tr_inc tr' = tr_inc (x_tr x) /\
  (last = false -> o_end f' = o_end f /\ tr_end tr' = tr_end (x_tr x)) /\
  (last = true -> o_end f' = tr_end (x_tr x) /\ o_end f <= tr_end (x_tr x) <= n).
Proof.
  intros sid k fr fe ps pad pe x outs ins f q last tr' f' H Hq He Ht R.
  assert (OS : o_start f = sched D (length outs)).
  { pose proof (h_queue _ _ _ _ _ _ _ _ _ _ H) as X. rewrite Hq in X. cbn [map length seq] in X. now injection X. }
  assert (S0 : 0 <= sched D (length outs)) by (unfold sched; lia).
  assert (FL : o_flag f = negb (o_end f =? 0) || negb (o_start f =? 0)).
  { pose proof (h_flag _ _ _ _ _ _ _ _ _ _ H) as X. rewrite Hq in X. apply Forall_app in X. destruct X as (_ & X). now inversion X. }
  pose proof (h_left _ _ _ _ _ _ _ _ _ _ H) as HL.
  unfold apply_trim, user_trim in R. cbv zeta in R.
  assert (UL : u32 (tr_start (x_tr x)) = tr_start (x_tr x)) by (unfold u32; apply Z.mod_small; rewrite HL; unfold zlen; lia).
  rewrite UL in R. set (ks := Z.min n (tr_start (x_tr x))) in *.
  assert (KS : ks = sched U (length outs)) by (unfold ks, sched; rewrite HL; reflexivity).
  destruct (Z.ltb_spec ks (o_start f)) as [|Hks]; [discriminate|]. rewrite andb_false_r in R. cbn [rbind] in R.
  assert (LF : tr_start (x_tr x) - ks = Z.max 0 (U - (zlen outs + 1) * n)) by (unfold ks; rewrite HL; unfold zlen; lia).
  assert (Q : o_id f' = sid /\ o_raw f' = o_raw f /\ o_data f' = o_data f /\ o_t0 f' = o_t0 f /\ o_t1 f' = o_t1 f /\ o_dm f' = o_dm f /\ o_start f' = ks /\
              o_flag f' = negb (o_end f' =? 0) || negb (o_start f' =? 0) /\ tr_start tr' = tr_start (x_tr x) - ks /\ tr_inc tr' = tr_inc (x_tr x) /\
              (last = false -> o_end f' = o_end f /\ tr_end tr' = tr_end (x_tr x)) /\ (last = true -> o_end f' = tr_end (x_tr x) /\ o_end f <= tr_end (x_tr x) <= n)).
  { assert (ID : o_id f = sid).
    { pose proof (h_shape _ _ _ _ _ _ _ _ _ _ H) as X. rewrite Hq in X. apply Forall_app in X. destruct X as (_ & X). inversion X as [|? ? (X1 & _)]. exact X1. }
    assert (F1 : (if ks =? 0 then o_flag f else true) = negb (o_end f =? 0) || negb (ks =? 0)).
    { destruct (Z.eqb_spec ks 0) as [K0|K0]; cbn [negb]; [|now rewrite orb_true_r]. rewrite FL. replace (o_start f) with 0 by lia. reflexivity. }
    destruct last.
    - assert (UE : u32 (tr_end (x_tr x)) = tr_end (x_tr x)) by (unfold u32; now apply Z.mod_small). rewrite UE in R. set (ke := Z.min n (tr_end (x_tr x))) in *.
      destruct (Z.ltb_spec ke (o_end f)) as [|Hke]; [discriminate|]. cbn [negb] in R. rewrite andb_true_r in R.
      destruct (Z.ltb_spec 0 (tr_end (x_tr x) - ke)) as [|Hl]; [discriminate|]. cbn [rbind] in R. injection R as <- <-.
      cbn [o_id o_raw o_data o_t0 o_t1 o_dm o_start o_flag o_end tr_start tr_inc]. repeat split; auto; try discriminate; try (unfold ke in *; lia).
      rewrite F1. destruct (Z.eqb_spec ke 0) as [K0|K0]; cbn [negb orb]; [|reflexivity]. replace (o_end f) with 0 by lia. reflexivity.
    - injection R as <- <-. cbn [o_id o_raw o_data o_t0 o_t1 o_dm o_start o_flag o_end tr_start tr_end tr_inc]. repeat split; auto; discriminate. }
  clear R. destruct Q as (Q1 & Q2 & Q3 & Q4 & Q5 & Q6 & Q7 & Q8 & Q9 & Q10 & Q11 & Q12). split; [|split; [exact Q1|split; [exact Q10|split; [exact Q11|exact Q12]]]].
  assert (LEN : length ((outs ++ [f']) ++ q) = length (outs ++ f :: q)) by (rewrite !app_length; cbn [length]; lia).
  assert (ZLEN : zlen ((outs ++ [f']) ++ q) = zlen (outs ++ f :: q)) by (unfold zlen; now rewrite LEN).
  assert (MAPS : forall B (h : oframe -> B), h f' = h f -> map h ((outs ++ [f']) ++ q) = map h (outs ++ f :: q)).
  { intros B h E. rewrite <- app_assoc, !map_app. cbn [map app]. now rewrite E. }
  destruct H. rewrite Hq in *. constructor; cbn [popped x_q x_av x_tr x_clk]; auto.
  - rewrite <- app_assoc. cbn [app]. apply Forall2_app_inv_l in h_code0. destruct h_code0 as (i1 & i2 & C1 & C2 & ->). apply Forall2_app; [exact C1|].
    inversion C2; subst. constructor; [rewrite Q3; assumption | assumption].
  - rewrite <- app_assoc. cbn [app]. apply Forall_app in h_shape0. destruct h_shape0 as (C1 & C2). apply Forall_app. split; [exact C1|]. inversion C2 as [|? ? (C3 & C4) C5]; subst. constructor; [|exact C5]. now rewrite Q2.
  - rewrite (MAPS _ o_raw Q2). exact h_raw0.
  - rewrite ZLEN. exact h_start0.
  - rewrite Q9, LF. now rewrite zlen_app1.
  - rewrite map_app, app_length. cbn [map length]. rewrite Nat.add_1_r, seq_snoc, map_app. apply f_equal2; [assumption|]. cbn [map Nat.add]. now rewrite Q7, KS.
  - rewrite app_length. cbn [length]. rewrite Nat.add_1_r. cbn [map length seq] in h_queue0. now injection h_queue0.
  - rewrite <- app_assoc. cbn [app]. apply Forall_app in h_flag0. destruct h_flag0 as (C1 & C2). apply Forall_app. split; [exact C1|]. inversion C2; subst. constructor; assumption.
  - rewrite (MAPS _ o_t0 Q4), LEN. exact h_t2.
  - rewrite (MAPS _ o_t1 Q5), LEN. exact h_t3.
  - rewrite LEN. exact h_clk0.
  - rewrite (MAPS _ o_dm Q6). exact h_dm0.
Qed.
End Hist.
