(* Every call of the frame generator returns (PropsReturns): the loops of the queues and of the generator end, whatever was called
   before. *)
From Verif Require Import PropsTU PropsLabels PropsUnit.
From Verif Require PropsDemix.
From Verif Require Import Base WriteBuf CodecConfig Params AudioElement Timing ParamManager AeData Demix SubFrames FrameGen FrameGenFacts FrameGenSpec.
From Coq Require Import Lia.

Ltac rb H x E := match type of H with rbind ?r _ = Ok _ => destruct r as [x| | | |] eqn:E; cbn [rbind] in H; try discriminate H end.
Ltac rs H E := unfold rthen in H at 1; match type of H with rbind ?r _ = Ok _ => destruct r as [[]| | | |] eqn:E; cbn [rbind] in H; try discriminate H end.
(* the result is there, be it an error *)
Definition back {X} (r : res X) : Prop := r <> Diverge.
Lemma back_bind : forall {X Y} (r : res X) (k : X -> res Y), back r -> (forall x, r = Ok x -> back (k x)) -> back (rbind r k).
Proof. intros X Y r k H1 H2. destruct r; cbn [rbind]; unfold back in *; try discriminate; [now apply H2 | contradiction]. Qed.
Lemma back_then : forall {Y} (r : res unit) (k : res Y), back r -> back k -> back (r >>> k).
Proof. intros Y r k H1 H2. unfold rthen. apply back_bind; auto. Qed.

(* ----- the queue ----- *)
Section Queue.
Context {X : Type}.
Variable zero : X.
Variable n : nat.
Notation sframes := (sframes X).
(* how many samples the first channel has, frame by frame *)
Definition col (s : sframes) : list nat := map (fun fr => length (hd [] fr)) (sf_frames s).
Definition steady (s : sframes) : Prop :=
  sf_n s = n /\ (0 < sf_nch s)%nat /\
  (sf_frames s = [] \/ forall p, nth_error (sf_at s) 0 = Some (Some p) -> exists x k, (x <= n)%nat /\ col s = repeat n p ++ x :: repeat 0%nat k).
Definition full (s : sframes) : Prop := (n <= hd 0%nat (col s))%nat.
Lemma col_append : forall s, (0 < sf_nch s)%nat -> col (append_empty s) = col s ++ [0%nat].
Proof. intros s H. unfold col, append_empty. cbn [sf_frames]. rewrite map_app. cbn [map]. destruct (sf_nch s); [lia | reflexivity]. Qed.
Lemma ensure_steady : forall s, steady s -> steady (ensure s) /\ sf_frames (ensure s) <> [] /\ col (ensure s) = (if FrameGen.nil (sf_frames s) then [0%nat] else col s).
Proof.
  intros s (H1 & H2 & H3). unfold ensure. destruct (sf_frames s) as [|f fs] eqn:E.
  - cbn [FrameGen.nil]. unfold append_empty. cbn [sf_frames app]. rewrite E. cbn [app]. assert (C : col (mkSf (sf_nch s) (sf_n s) [repeat [] (sf_nch s)] (map (fun _ => Some 0%nat) (sf_at s))) = [0%nat]).
    { unfold col. cbn [sf_frames map]. destruct (sf_nch s); [lia | reflexivity]. }
    split; [|split; [cbn [sf_frames]; discriminate | exact C]]. split; [exact H1|]. split; [exact H2|]. right. intros p Hp. cbn [sf_at] in Hp. rewrite C.
    destruct (sf_at s) as [|a l]; cbn [map nth_error] in Hp; [discriminate|]. injection Hp as <-. exists 0%nat, 0%nat. split; [lia | reflexivity].
  - cbn [FrameGen.nil]. split; [|split; [congruence | reflexivity]]. split; [exact H1|]. split; [exact H2|]. now rewrite E.
Qed.
Lemma rep_snoc : forall {Y} (y : Y) k, repeat y k ++ [y] = repeat y (S k).
Proof. intros Y y k. induction k as [|k IH]; [reflexivity|]. cbn [repeat app]. now rewrite IH. Qed.
Lemma nth_upd_same : forall {Y} i (f : Y -> Y) l, nth_error (upd_at i f l) i = match nth_error l i with Some y => Some (f y) | None => None end.
Proof. intros Y i f l. revert i. induction l as [|y l IH]; intros [|i]; cbn [upd_at nth_error]; auto. Qed.
Lemma nth_upd_zero : forall {Y} i (f : Y -> Y) l, nth_error (upd_at (S i) f l) 0 = nth_error l 0.
Proof. intros Y i f [|y l]; reflexivity. Qed.
Lemma repeat_nth : forall p x k (l : list nat) y, l = repeat n p ++ x :: repeat 0%nat k -> nth_error l p = Some y -> x = y.
Proof. intros p x k l y -> H. rewrite nth_error_app2 in H by (rewrite repeat_length; lia). rewrite repeat_length, Nat.sub_diag in H. cbn [nth_error] in H. congruence. Qed.
(* the channel which was looked for has room *)
Lemma seek_steady : forall c s s', (0 < n)%nat -> steady s -> sf_seek c s = Ok s' ->
  steady s' /\ (c = 0%nat -> exists p x k, nth_error (sf_at s') 0 = Some (Some p) /\ (x < n)%nat /\ col s' = repeat n p ++ x :: repeat 0%nat k) /\
  (exists k, col s' = col (ensure s) ++ repeat 0%nat k) /\ sf_frames s' <> [].
Proof.
  intros c s0 s' Hn HS H. destruct (ensure_steady _ HS) as ((S1 & S2 & S3) & SF & SC). unfold sf_seek in H. cbv zeta in H. set (s := ensure s0) in *. clearbody s. destruct S3 as [S3 | S3]; [contradiction|].
  destruct (nth_error (sf_at s) c) as [[p|]|] eqn:Ea; try discriminate. destruct (nth_error (sf_frames s) p) as [fr|] eqn:Ef; [|discriminate]. destruct (nth_error fr c) as [ch|] eqn:Ec; [|discriminate].
  assert (C0 : c = 0%nat -> nth_error (col s) p = Some (length ch)).
  { intros ->. unfold col. erewrite map_nth_error by exact Ef. destruct fr; cbn [nth_error hd] in *; congruence. }
  destruct (Nat.eqb_spec (length ch) (sf_n s)) as [L | L].
  - set (s2 := if Nat.eqb p (length (sf_frames s) - 1) then append_empty s else s) in *. injection H as <-.
    assert (A : sf_nch s2 = sf_nch s /\ sf_n s2 = sf_n s /\ sf_at s2 = sf_at s /\ sf_frames s2 <> [] /\ exists k, col s2 = col s ++ repeat 0%nat k /\ (p = length (sf_frames s) - 1 -> k = 1)%nat).
    { unfold s2. destruct (Nat.eqb_spec p (length (sf_frames s) - 1)) as [Q | Q].
      - repeat (split; [reflexivity|]). split; [cbn [append_empty sf_frames]; intro Y; now apply app_eq_nil in Y|]. exists 1%nat. split; [now rewrite col_append | auto].
      - repeat (split; [reflexivity|]). split; [exact SF|]. exists 0%nat. split; [cbn [repeat]; now rewrite app_nil_r | easy]. }
    destruct A as (A1 & A2 & A3 & A4 & k0 & A5 & A6). change (col (mkSf _ _ (sf_frames s2) _)) with (col s2).
    assert (Z : c = 0%nat -> exists k, col s2 = repeat n (S p) ++ 0%nat :: repeat 0%nat k).
    { intro Q. destruct (S3 p ltac:(now rewrite <- Q)) as (x & k & X1 & X2). specialize (C0 Q). pose proof (repeat_nth _ _ _ _ _ X2 C0) as ->. rewrite L, S1 in X2.
      assert (E2 : col s = repeat n (S p) ++ repeat 0%nat k) by (rewrite X2; cbn [repeat]; change (n :: repeat 0%nat k) with ([n] ++ repeat 0%nat k); rewrite app_assoc, rep_snoc; reflexivity).
      destruct k as [|k].
      - assert (LF : length (col s) = S p) by (rewrite X2, app_length, repeat_length; cbn [length repeat]; lia). unfold col in LF. rewrite map_length in LF.
        rewrite (A6 ltac:(lia)) in A5. exists 0%nat. rewrite A5, E2, <- app_assoc. reflexivity.
      - exists (k + k0)%nat. rewrite A5, E2, <- app_assoc, <- repeat_app. reflexivity. }
    split; [|split; [|split; [exists k0; exact A5 | cbn [sf_frames]; exact A4]]].
    + split; [cbn [sf_n]; congruence|]. split; [cbn [sf_nch]; lia|]. right. cbn [sf_at]. intros q Hq. change (col (mkSf _ _ (sf_frames s2) _)) with (col s2). rewrite A3 in Hq. destruct c as [|c].
      * rewrite nth_upd_same, Ea in Hq. injection Hq as <-. destruct (Z eq_refl) as (k & Zk). exists 0%nat, k. split; [lia | exact Zk].
      * rewrite nth_upd_zero in Hq. destruct (S3 q Hq) as (x & k & X1 & X2). exists x, (k + k0)%nat. split; [exact X1|]. rewrite A5, X2, <- app_assoc. cbn [app]. now rewrite <- repeat_app.
    + intro Q. destruct (Z Q) as (k & Zk). exists (S p), 0%nat, k. subst c. cbn [sf_at]. rewrite A3, nth_upd_same, Ea. split; [reflexivity|]. split; [lia | exact Zk].
  - injection H as <-. split; [split; [exact S1|]; split; [exact S2|]; now right|]. split; [|split; [exists 0%nat; cbn [repeat]; now rewrite app_nil_r | exact SF]].
    intro Q. destruct (S3 p ltac:(now rewrite <- Q)) as (x & k & X1 & X2). pose proof (repeat_nth _ _ _ _ _ X2 (C0 Q)) as ->. exists p, (length ch), k. subst c. split; [exact Ea|]. split; [rewrite S1 in L; lia | exact X2].
Qed.
(* samples are added to the channel which was looked for *)
Lemma extend_none : forall c y s, (forall x, sf_channel c s <> Ok x) -> sf_extend c y s = (s : sframes).
Proof.
  assert (U1 : forall Y i (f : Y -> Y) l, nth_error l i = None -> upd_at i f l = l).
  { intros Y i f l. revert i. induction l as [|a l IH]; intros [|i] H; cbn [upd_at nth_error] in *; try reflexivity; [discriminate|]. now rewrite IH. }
  assert (U2 : forall Y i (f : Y -> Y) l a, nth_error l i = Some a -> f a = a -> upd_at i f l = l).
  { intros Y i f l. revert i. induction l as [|b l IH]; intros [|i] a H F; cbn [upd_at nth_error] in *; try reflexivity; [injection H as ->; now rewrite F|]. now rewrite (IH _ _ H). }
  intros c y s H. unfold sf_extend, sf_channel in *. destruct s as [nch m frames at']; cbn [sf_nch sf_n sf_frames sf_at] in *.
  destruct (nth_error at' c) as [[p|]|] eqn:Ea; [|reflexivity|reflexivity]. f_equal. destruct (nth_error frames p) as [fr|] eqn:Ef; [|now apply U1]. apply (U2 _ _ _ _ _ Ef). apply U1.
  destruct (nth_error fr c) as [ch|]; [now destruct (H ch) | reflexivity].
Qed.
Lemma col_extend : forall c y s x p, nth_error (sf_at s) c = Some (Some p) -> sf_channel c s = Ok x ->
  col (sf_extend c y s) = (if Nat.eqb c 0 then upd_at p (fun k => (k + length y)%nat) (col s) else col s) /\ (c = 0%nat -> nth_error (col s) p = Some (length x)).
Proof.
  intros c y s x p Ea Hx. unfold sf_extend, sf_channel in *. rewrite Ea in *. destruct (nth_error (sf_frames s) p) as [fr|] eqn:Ef; [|discriminate]. destruct (nth_error fr c) as [ch|] eqn:Ec; [|discriminate]. injection Hx as ->.
  unfold col. cbn [sf_frames]. split.
  - clear Ea. revert p Ef. induction (sf_frames s) as [|f fs IH]; intros [|p] Ef; cbn [nth_error] in Ef; try discriminate; cbn [upd_at map].
    + injection Ef as ->. destruct c as [|c]; cbn [Nat.eqb]; [|destruct fr; reflexivity]. destruct fr as [|ch fr]; [discriminate|]. cbn [upd_at hd]. now rewrite app_length.
    + rewrite (IH _ Ef). destruct (Nat.eqb c 0); reflexivity.
  - intros ->. erewrite map_nth_error by exact Ef. destruct fr; cbn [nth_error hd] in *; congruence.
Qed.
Lemma upd_add : forall p x k d, upd_at p (fun m => (m + d)%nat) (repeat n p ++ x :: repeat 0%nat k) = repeat n p ++ (x + d)%nat :: repeat 0%nat k.
Proof. intros p x k d. induction p as [|p IH]; cbn [repeat app upd_at]; [reflexivity | now rewrite IH]. Qed.
Lemma grow : forall c y s s1, (0 < n)%nat -> steady s -> sf_seek c s = Ok s1 ->
  (c = 0%nat -> forall x, sf_channel 0 s1 = Ok x -> (length x < n)%nat) /\ ((c = 0%nat -> forall x, sf_channel 0 s1 = Ok x -> (length x + length y <= n)%nat) ->
   steady (sf_extend c y s1) /\ (full s -> full (sf_extend c y s1)) /\ (c = 0%nat -> (hd 0%nat (col (ensure s)) < n)%nat -> forall x, sf_channel 0 s1 = Ok x -> length x = hd 0%nat (col (ensure s)) /\ hd 0%nat (col (sf_extend c y s1)) = (length x + length y)%nat)).
Proof.
  intros c y s s1 Hn HS H. destruct (seek_steady _ _ _ Hn HS H) as (S1 & S2 & (k1 & S3) & SF).
  assert (NE : col (ensure s) <> []) by (destruct (ensure_steady _ HS) as (_ & F & _); unfold col; now destruct (sf_frames (ensure s))).
  assert (HD : hd 0%nat (col s1) = hd 0%nat (col (ensure s))) by (rewrite S3; now destruct (col (ensure s))).
  assert (FU : full s -> (n <= hd 0%nat (col s1))%nat).
  { intro F. rewrite HD. destruct (ensure_steady _ HS) as (_ & _ & ->). unfold full in F. destruct (sf_frames s) eqn:E; [unfold col in F; rewrite E in F; cbn [map hd] in F; lia | exact F]. }
  destruct c as [|c].
  - destruct (S2 eq_refl) as (p & x & k & A1 & A2 & A3).
    assert (LX : forall z, sf_channel 0 s1 = Ok z -> length z = x) by (intros z Hz; destruct (col_extend 0 y _ _ _ A1 Hz) as (_ & Q); specialize (Q eq_refl); symmetry; exact (repeat_nth _ _ _ _ _ A3 Q)).
    split; [intros _ z Hz; rewrite (LX z Hz); exact A2|]. intro HL. specialize (HL eq_refl). destruct S1 as (T1 & T2 & T3).
    destruct (sf_channel 0 s1) as [z| | | |] eqn:Ez; try (rewrite extend_none by (intros z; congruence); split; [split; [exact T1|]; split; [exact T2 | exact T3]|]; split; [intro F; exact (FU F) | intros _ _ z; congruence]; fail).
    destruct (col_extend 0 y _ _ _ A1 Ez) as (C1 & _). cbn [Nat.eqb] in C1. rewrite A3, upd_add in C1. specialize (HL z eq_refl). rewrite (LX z eq_refl) in HL. specialize (LX z eq_refl).
    assert (E : sf_extend 0 y s1 = mkSf (sf_nch s1) (sf_n s1) (sf_frames (sf_extend 0 y s1)) (sf_at s1)) by (unfold sf_extend; now rewrite A1).
    split; [|split].
    + rewrite E. split; [exact T1|]. split; [exact T2|]. right. cbn [sf_at]. intros q Hq. rewrite A1 in Hq. injection Hq as <-. change (col (mkSf _ _ (sf_frames (sf_extend 0 y s1)) _)) with (col (sf_extend 0 y s1)). rewrite C1. exists (x + length y)%nat, k. auto.
    + intro F. specialize (FU F). unfold full. rewrite C1. rewrite A3 in FU. destruct p as [|p]; cbn [repeat app hd] in *; lia.
    + intros _ HH z' Hz'. injection Hz' as <-. rewrite <- HD, A3 in HH. rewrite C1, <- HD, A3, LX. destruct p as [|p]; cbn [repeat app hd] in *; [auto | lia].
  - split; [discriminate|]. intros _. destruct S1 as (T1 & T2 & T3).
    assert (E : sf_n (sf_extend (S c) y s1) = sf_n s1 /\ sf_nch (sf_extend (S c) y s1) = sf_nch s1 /\ sf_at (sf_extend (S c) y s1) = sf_at s1) by (unfold sf_extend; destruct (nth_error (sf_at s1) (S c)) as [[p|]|]; auto).
    assert (C : col (sf_extend (S c) y s1) = col s1).
    { destruct (sf_channel (S c) s1) as [z| | | |] eqn:Ez; try (rewrite extend_none by (intros z; congruence); reflexivity). pose proof Ez as Ez'. unfold sf_channel in Ez'. destruct (nth_error (sf_at s1) (S c)) as [[p|]|] eqn:Ea; try discriminate.
      destruct (col_extend (S c) y _ _ _ Ea Ez) as (Q & _). exact Q. }
    destruct E as (E1 & E2 & E3). split; [|split; [intro F; unfold full; rewrite C; exact (FU F) | discriminate]].
    split; [congruence|]. split; [lia|]. right. intros p Hp. rewrite E3 in Hp. rewrite C. destruct T3 as [T3 | T3]; [contradiction | exact (T3 p Hp)].
Qed.
(* PushSample *)
Lemma push_steady : forall xs c s s', (0 < n)%nat -> steady s -> push_all c xs s = Ok s' -> steady s' /\ (full s -> full s').
Proof.
  induction xs as [|x xs IH]; intros c s s' Hn HS H; cbn [push_all] in H; [injection H as <-; auto|]. rb H s1 E. unfold sf_push in E. destruct (Nat.ltb c (sf_nch s)); [|discriminate]. rb E s0 E0. injection E as <-.
  destruct (grow c [x] _ _ Hn HS E0) as (G1 & G2). destruct G2 as (G2 & G3 & _); [intros Q z Hz; specialize (G1 Q z Hz); cbn [length]; lia|]. destruct (IH _ _ _ Hn G2 H) as (I1 & I2). auto.
Qed.
Lemma push_back : forall xs c (s : sframes), back (push_all c xs s).
Proof.
  induction xs as [|x xs IH]; intros c s; cbn [push_all]; [discriminate|]. apply back_bind; [|intros; apply IH]. unfold sf_push. destruct (Nat.ltb c (sf_nch s)); [|discriminate]. apply back_bind; [|discriminate].
  unfold sf_seek. cbv zeta. destruct (nth_error _ c) as [[p|]|]; try discriminate. destruct (nth_error _ p); try discriminate. destruct (nth_error _ c); try discriminate. destruct (Nat.eqb _ _); discriminate.
Qed.
(* PadZeros *)
Lemma seek_same : forall c (s s' : sframes), sf_seek c s = Ok s' -> sf_nch s' = sf_nch s.
Proof.
  intros c s s' H. assert (E : sf_nch (ensure s) = sf_nch s) by (unfold ensure; destruct (sf_frames s); reflexivity). unfold sf_seek in H. cbv zeta in H.
  destruct (nth_error _ c) as [[p|]|]; try discriminate. destruct (nth_error _ p); try discriminate. destruct (nth_error _ c); try discriminate. destruct (Nat.eqb (length _) _); injection H as <-; [|exact E]. destruct (Nat.eqb _ _); exact E.
Qed.
Lemma row_facts : forall k c want m s m' s', (0 < n)%nat -> (0 < want)%nat -> steady s -> sf_pad_row zero k c want m s = Ok (m', s') ->
  steady s' /\ (full s -> full s') /\ ((0 < k)%nat -> (1 <= m' <= want)%nat) /\ (c = 0%nat -> (0 < k)%nat -> (hd 0%nat (col (ensure s)) < n)%nat -> (hd 0%nat (col (ensure s)) + want = n)%nat -> full s').
Proof.
  induction k as [|k IH]; intros c want m s m' s' Hn Hw HS H; cbn [sf_pad_row] in H; [injection H as <- <-; repeat split; auto; try lia; apply HS|].
  rb H s1 E1. rb H ch E2. cbv zeta in H. destruct (Nat.eqb_spec (Nat.min (sf_n s1 - length ch) want) 0) as [Q | Q]; [discriminate|].
  set (d := Nat.min (sf_n s1 - length ch) want) in *. destruct (seek_steady _ _ _ Hn HS E1) as ((S1 & _) & _).
  destruct (grow c (repeat zero d) _ _ Hn HS E1) as (G1 & G2). destruct G2 as (G2 & G3 & G4).
  { intros -> z Hz. specialize (G1 eq_refl z Hz). rewrite E2 in Hz. injection Hz as <-. rewrite repeat_length. unfold d. lia. }
  destruct (IH _ _ _ _ _ _ Hn Hw G2 H) as (I1 & I2 & I3 & _). split; [exact I1|]. split; [auto|]. split.
  - intros _. destruct k as [|k]; [cbn [sf_pad_row] in H; injection H as <- _; unfold d; lia | apply I3; lia].
  - intros -> _ HH HW. apply I2. destruct (G4 eq_refl HH _ E2) as (L1 & L2). unfold full. rewrite L2, repeat_length. unfold d. lia.
Qed.
Lemma row_back : forall k c want m s, back (sf_pad_row zero k c want m s : res (nat * sframes)).
Proof.
  induction k as [|k IH]; intros c want m s; cbn [sf_pad_row]; [discriminate|]. apply back_bind; [|intros s1 _; apply back_bind; [|intros ch _; cbv zeta; destruct (Nat.eqb _ 0); [discriminate | apply IH]]].
  - unfold sf_seek. cbv zeta. destruct (nth_error _ c) as [[p|]|]; try discriminate. destruct (nth_error _ p); try discriminate. destruct (nth_error _ c); try discriminate. destruct (Nat.eqb _ _); discriminate.
  - unfold sf_channel. destruct (nth_error _ c) as [[p|]|]; try discriminate. destruct (nth_error _ p); try discriminate. destruct (nth_error _ c); discriminate.
Qed.
Lemma pad_loop_facts : forall fuel want s, (0 < n)%nat -> steady s -> (want <= fuel)%nat ->
  back (sf_pad_loop zero fuel want s) /\ forall s', sf_pad_loop zero fuel want s = Ok s' -> steady s' /\ (full s -> full s').
Proof.
  induction fuel as [|fuel IH]; intros want s Hn HS Hw; (destruct want as [|want]; cbn [sf_pad_loop]; [split; [discriminate|]; intros s' H; injection H as <-; auto|]); [lia|].
  destruct (sf_pad_row zero (sf_nch s) 0 (S want) 0 s) as [(m', s1)| | | |] eqn:E; cbn [rbind fst snd]; try (split; [discriminate | intros s' H; discriminate]); [|exfalso; now apply row_back in E].
  destruct (row_facts _ _ _ _ _ _ _ Hn (Nat.lt_0_succ _) HS E) as (R1 & R2 & R3 & _). specialize (R3 ltac:(apply HS)). destruct (IH (S want - m')%nat s1 Hn R1 ltac:(lia)) as (I1 & I2). split; [exact I1|].
  intros s' H. destruct (I2 s' H) as (J1 & J2). auto.
Qed.
Lemma pad_facts : forall k s, (0 < n)%nat -> steady s ->
  back (sf_pad zero k s) /\ forall s', sf_pad zero k s = Ok s' -> steady s' /\ (full s -> full s') /\ ((hd 0%nat (col (ensure s)) < n)%nat -> (Z.of_nat (hd 0%nat (col (ensure s))) + k = Z.of_nat n)%Z -> full s').
Proof.
  intros k s Hn HS. unfold sf_pad. destruct (Z.ltb_spec k 0); [split; [discriminate | intros; discriminate]|]. destruct (pad_loop_facts (Z.to_nat k) (Z.to_nat k) s Hn HS (le_n _)) as (P1 & P2). split; [exact P1|]. intros s' H'. destruct (P2 s' H') as (P3 & P4). split; [exact P3|]. split; [exact P4|].
  intros L1 L2. destruct (Z.to_nat k) as [|w] eqn:Ek; [lia|]. cbn [sf_pad_loop] in H'. rb H' r Er. destruct r as (m', s1). cbn [fst snd] in H'.
  destruct (row_facts _ _ _ _ _ _ _ Hn (Nat.lt_0_succ _) HS Er) as (R1 & R2 & R3 & R4). assert (NC : (0 < sf_nch s)%nat) by apply HS. specialize (R3 NC). specialize (R4 eq_refl NC L1 ltac:(lia)).
  destruct (pad_loop_facts w (S w - m')%nat s1 Hn R1 ltac:(lia)) as (_ & I2). destruct (I2 s' H') as (_ & I3). auto.
Qed.
(* PopFront *)
Lemma pop_steady : forall s, steady s -> steady (sf_pop (ensure s)).
Proof.
  intros s HS. destruct (ensure_steady _ HS) as ((S1 & S2 & S3) & SF & _). set (e := ensure s) in *. clearbody e. destruct S3 as [|S3]; [contradiction|]. unfold sf_pop. destruct (sf_frames e) as [|f fs] eqn:E; [contradiction|].
  split; [exact S1|]. split; [exact S2|]. right. cbn [sf_at]. intros p Hp. destruct (sf_at e) as [|a l] eqn:Ea; cbn [map nth_error] in Hp; [discriminate|]. destruct a as [[|q]|]; try discriminate. injection Hp as ->.
  destruct (S3 (S p) eq_refl) as (x & k & X1 & X2). exists x, k. split; [exact X1|]. unfold col in *. rewrite E in X2. cbn [map repeat app] in X2. cbn [sf_frames]. now injection X2.
Qed.
Lemma new_steady : forall nch, (0 < nch)%nat -> steady (sf_new nch n).
Proof.
  intros nch H. unfold sf_new. apply ensure_steady. split; [reflexivity|]. split; [exact H|]. now left.
Qed.
(* the samples of the front *)
Lemma front_ticks : forall s h, steady s -> ticks (sf_front s) = Ok h -> h = Z.of_nat (hd 0%nat (col (ensure s))).
Proof.
  intros s h HS H. destruct (ensure_steady _ HS) as (_ & SF & _). unfold sf_front, col in *. destruct (sf_frames (ensure s)) as [|f fs]; [contradiction|]. cbn [hd map] in *. destruct f as [|ch f]; [discriminate|]. cbn [ticks hd] in *. injection H as <-. reflexivity.
Qed.
Lemma full_front : forall s, (0 < n)%nat -> steady s -> full s -> (n <= hd 0%nat (col (ensure s)))%nat.
Proof.
  intros s Hn HS F. destruct (ensure_steady _ HS) as (_ & _ & ->). unfold full in F. destruct (sf_frames s) eqn:E; [unfold col in F; rewrite E in F; cbn [map hd] in F; lia | exact F].
Qed.
End Queue.

(* ----- the parts which are not loops ----- *)
Lemma rmap_back : forall {X Y} (f : X -> res Y) l, (forall x, back (f x)) -> back (rmap f l).
Proof. intros X Y f l H. induction l as [|x l IH]; cbn [rmap]; [discriminate|]. apply back_bind; [apply H|]. intros y _. apply back_bind; [exact IH | discriminate]. Qed.
Lemma veq_back : forall a b, back (veq a b).
Proof. intros. unfold veq, vcond. destruct (_ =? _); discriminate. Qed.
Lemma mode_back : forall a b r, back (mode_to_params a b r).
Proof. intros. unfold mode_to_params. destruct (m_find a mode_table) as [((((?, ?), ?), ?), ?)|]; [|discriminate]. cbv zeta. destruct (m_find _ w_table); discriminate. Qed.
Lemma mixing_back : forall m id, back (fst (get_down_mixing m id)).
Proof.
  intros m id. unfold get_down_mixing. destruct (m_find id (pm_ds m)) as [s|]; [|discriminate]. destruct (m_find _ (pm_db m)) as [[b|]|]; [|cbn [fst]; apply mode_back|discriminate].
  pose proof (veq_back (ds_next s) (p_start b)) as V. unfold compare_timestamps. destruct (veq (ds_next s) (p_start b)); try discriminate; [|contradiction]. destruct (p_subs b) as [|[[]|] ?]; try discriminate.
  pose proof (mode_back mode (ds_prev s) (ds_rule s)) as M. destruct (mode_to_params _ _ _); cbn [fst]; try discriminate. contradiction.
Qed.
Lemma update_back : forall m id t, back (fst (update_demixing m id t)).
Proof.
  intros m id t. unfold update_demixing. destruct (m_find id (pm_ds m)) as [s|]; [|discriminate]. unfold update_parameter. destruct (m_find _ (pm_db m)) as [[b|]|]; try discriminate.
  destruct (compare_timestamps _ _); discriminate.
Qed.
Lemma audio_back : forall c sid n, back (fst (fst (fst (next_audio c sid n)))).
Proof. intros. unfold next_audio, get_timestamps. destruct (m_find sid _); discriminate. Qed.
Lemma in_set : forall {V} k (v : V) m j x, In (j, x) (Timing.m_set k v m) -> x = v /\ j = k \/ In (j, x) m.
Proof. intros V k v. induction m as [|(i, w) m IH]; intros j x H; cbn [Timing.m_set] in H; [now right|]. destruct (Z.eqb_spec i k) as [-> | D]; cbn [In] in *; destruct H as [H | H]; [injection H as <- <-; now left | auto | auto |]. destruct (IH _ _ H); auto. Qed.
Lemma find_set : forall {V} k (v : V) m j, m_find j (Timing.m_set k v m) = if k =? j then match m_find j m with Some _ => Some v | None => None end else m_find j m.
Proof.
  intros V k v. induction m as [|(i, w) m IH]; intros j; cbn [Timing.m_set m_find]; [destruct (k =? j); reflexivity|]. destruct (Z.eqb_spec i k) as [-> | D]; cbn [m_find].
  - destruct (k =? j); reflexivity.
  - rewrite IH. destruct (Z.eqb_spec i j) as [-> | D2]; [|reflexivity]. destruct (Z.eqb_spec k j); [congruence | reflexivity].
Qed.

Section Gen.
Context {T P : Type}.
Variable A : arith T.
Variable lin : Z -> T.
Variable quant : T -> res Z.
Variable code : Z -> list (list Z) -> res P.
Notation smap := (@smap T).
Notation gen := (gen T P).
Notation sub := (sub T).
Hypothesis quant_back : forall x, back (quant x).
Hypothesis code_back : forall sid fr, back (code sid fr).
(* the frame size of each substream *)
Variable nn : Z -> nat.
Hypothesis nn_pos : forall j, (0 < nn j)%nat.
Definition sound (j : Z) (sd : sub) : Prop := steady (nn j) (s_obu sd) /\ steady (nn j) (s_enc sd).
Definition sane (subs : list (Z * sub)) : Prop := forall j sd, In (j, sd) subs -> sound j sd.
Definition of_size (el : elem) : Prop := forall j, In j (map fst (el_subs el)) -> el_n el = Z.of_nat (nn j).
Definition ready_to_code (j : Z) (subs : list (Z * sub)) : Prop := exists sd, m_find j subs = Some sd /\ full (nn j) (s_enc sd).

Lemma downmixers_back : forall p l m, back (run_downmixers A p l m).
Proof.
  intros p. induction l as [|k l IH]; intros m; cbn [run_downmixers]; [discriminate|]. apply back_bind; [|intros; apply IH].
  assert (TB : forall ls, back (take ls m)) by (intro ls; unfold take; apply back_bind; [induction ls as [|x ls IHl]; cbn [get_all]; [discriminate|]; destruct (sm_find (Orig x) m); [apply back_bind; [exact IHl | discriminate] | discriminate] | intros r _; apply back_bind; [|discriminate]; unfold common_ticks; destruct r; [discriminate|]; destruct (forallb _ _); discriminate]).
  destruct k; cbn [run_downmixer]; (apply back_bind; [apply TB|]); intros r _; repeat (destruct r as [|? r]; try discriminate).
Qed.
Lemma channel_back : forall gains m l, back (channel_out A lin quant gains m l).
Proof. intros. unfold channel_out. cbv zeta. match goal with |- context [sm_find ?k m] => destruct (sm_find k m) end; [|discriminate]. apply back_bind; [apply rmap_back; intro; apply quant_back | discriminate]. Qed.
Lemma feed_channels_facts : forall gains m j ls c sd, back (feed_channels A lin quant gains m c ls sd) /\
  forall sd', sound j sd -> feed_channels A lin quant gains m c ls sd = Ok sd' -> sound j sd'.
Proof.
  intros gains m j. induction ls as [|l ls IH]; intros c sd; cbn [feed_channels]; [split; [discriminate|]; intros sd' H E; injection E as <-; exact H|].
  split.
  - apply back_bind; [apply channel_back|]. intros r _. apply back_bind; [apply push_back|]. intros o _. apply back_bind; [apply push_back|]. intros e _. apply IH.
  - intros sd' (S1 & S2) H. rb H r Er. rb H o Eo. rb H e Ee. destruct (push_steady _ _ _ _ _ (nn_pos j) S1 Eo) as (P1 & _). destruct (push_steady _ _ _ _ _ (nn_pos j) S2 Ee) as (P2 & _).
    apply (proj2 (IH (S c) (FrameGen.mkSub o e (s_end sd) (s_start sd)))) in H; [exact H | split; assumption].
Qed.
Lemma sane_set : forall j sd subs, sane subs -> sound j sd -> sane (Timing.m_set j sd subs).
Proof. intros j sd subs HS Hd i x H. apply in_set in H. destruct H as [(-> & ->) | H]; auto. Qed.
Lemma feed_facts : forall gains m ls subs, back (feed_subs A lin quant gains m ls subs) /\
  forall subs', sane subs -> feed_subs A lin quant gains m ls subs = Ok subs' -> sane subs'.
Proof.
  intros gains m. induction ls as [|(sid, l) ls IH]; intros subs; cbn [feed_subs]; [split; [discriminate|]; intros ? H E; injection E as <-; exact H|].
  destruct (m_find sid subs) as [sd|] eqn:F; [|split; [discriminate | intros; discriminate]]. destruct (feed_channels_facts gains m sid l 0 sd) as (F1 & F2). split.
  - apply back_bind; [exact F1|]. intros. apply IH.
  - intros subs' HS H. rb H sd' E. apply (proj2 (IH _)) in H; [exact H|]. apply sane_set; [exact HS|]. apply F2; [apply HS; now apply m_find_In | first [exact E | reflexivity]].
Qed.
Lemma mix_facts : forall el p m subs, back (mix_in A lin quant el p m subs) /\ forall subs', sane subs -> mix_in A lin quant el p m subs = Ok subs' -> sane subs'.
Proof.
  intros. unfold mix_in. split; [apply back_bind; [apply downmixers_back|]; intros; apply feed_facts|]. intros subs' HS H. rb H m' E. eapply (proj2 (feed_facts _ _ _ _)); eassumption.
Qed.
Lemma ticks_back : forall {X} (fr : list (list X)), back (ticks fr).
Proof. intros X []; discriminate. Qed.
Lemma to_pad_back : forall k tr, back (num_to_pad k tr).
Proof. intros. unfold num_to_pad. cbv zeta. destruct (_ <? _); discriminate. Qed.
Lemma pad_sub_facts : forall j n none sd tr, n = Z.of_nat (nn j) -> sound j sd ->
  back (pad_sub A n none sd tr) /\ forall sd' tr', pad_sub A n none sd tr = Ok (sd', tr') -> sound j sd' /\ (full (nn j) (s_enc sd) \/ none = true -> full (nn j) (s_enc sd')).
Proof.
  intros j n none sd tr Hn (S1 & S2). unfold pad_sub.
  assert (B1 : forall have, back (if have <? n then rbind (num_to_pad (n - have) tr) (fun r => rbind (sf_pad (a_lit A 0 1) (fst r) (s_obu sd)) (fun o => rbind (sf_pad 0 (fst r) (s_enc sd)) (fun e => Ok (FrameGen.mkSub o e (fst r) (s_start sd), snd r)))) else Ok (sd, tr))).
  { intro have. destruct (have <? n); [|discriminate]. apply back_bind; [apply to_pad_back|]. intros r _. apply back_bind; [apply (pad_facts (a_lit A 0 1) _ (fst r) _ (nn_pos j) S1)|]. intros o _. apply back_bind; [apply (pad_facts 0 _ (fst r) _ (nn_pos j) S2) | discriminate]. }
  assert (B2 : forall have sd1 tr1, (if have <? n then rbind (num_to_pad (n - have) tr) (fun r => rbind (sf_pad (a_lit A 0 1) (fst r) (s_obu sd)) (fun o => rbind (sf_pad 0 (fst r) (s_enc sd)) (fun e => Ok (FrameGen.mkSub o e (fst r) (s_start sd), snd r)))) else Ok (sd, tr)) = Ok (sd1, tr1) ->
    sound j sd1 /\ (full (nn j) (s_enc sd) -> full (nn j) (s_enc sd1))).
  { intros have sd1 tr1 H. destruct (have <? n); [|injection H as <- <-; split; [split; assumption | auto]]. rb H r Er. rb H o Eo. rb H e Ee. injection H as <- _.
    destruct (proj2 (pad_facts _ _ _ _ (nn_pos j) S1) _ Eo) as (O1 & _). destruct (proj2 (pad_facts _ _ _ _ (nn_pos j) S2) _ Ee) as (E1 & E2 & _). split; [split; assumption | exact E2]. }
  split.
  - apply back_bind; [apply ticks_back|]. intros have _. apply back_bind; [apply B1|]. intros (sd1, tr1) E1. destruct (B2 _ _ _ E1) as ((Q1 & Q2) & _). apply back_bind; [apply ticks_back|]. intros h2 _.
    destruct (none && (h2 <? n)); [|discriminate]. apply back_bind; [apply (pad_facts 0 _ (n - h2) _ (nn_pos j) Q2) | discriminate].
  - intros sd' tr' H. rb H have E0. rb H r Er. destruct r as (sd1, tr1). destruct (B2 _ _ _ Er) as ((Q1 & Q2) & Q3). rb H h2 E2. pose proof (front_ticks _ _ _ Q2 E2) as L2.
    destruct (none && (h2 <? n)) eqn:C.
    + rb H e Ee. injection H as <- _. destruct (proj2 (pad_facts _ _ _ _ (nn_pos j) Q2) _ Ee) as (E1 & E3 & E4). split; [split; assumption|]. intros _. cbn [s_enc]. apply andb_true_iff in C. destruct C as (_ & C). apply Z.ltb_lt in C. apply E4; lia.
    + injection H as <- _. split; [split; assumption|]. intros [F | ->]; [auto|]. cbn [andb] in C. apply Z.ltb_ge in C. unfold full. destruct (ensure_steady _ _ Q2) as (_ & _ & EC). rewrite EC in L2. pose proof (nn_pos j).
      destruct (FrameGen.nil (sf_frames (s_enc sd1))); [cbn [hd] in L2; lia | lia].
Qed.
Lemma pad_all_facts : forall n none ls subs trs, (forall j, In j (map fst ls) -> n = Z.of_nat (nn j)) -> sane subs ->
  back (pad_subs A n none ls subs trs) /\ forall subs' trs', pad_subs A n none ls subs trs = Ok (subs', trs') -> sane subs' /\
    (forall j, In j (map fst ls) -> none = true -> ready_to_code j subs') /\ (forall j, ready_to_code j subs -> ready_to_code j subs').
Proof.
  intros n none. induction ls as [|(sid, l) ls IH]; intros subs trs HN HS; cbn [pad_subs].
  - split; [discriminate|]. intros subs' trs' H. injection H as <- _. split; [exact HS|]. split; [intros j []|auto].
  - destruct (m_find sid subs) as [sd|] eqn:F; [|split; [discriminate | intros; discriminate]]. destruct (m_find sid trs) as [tr|]; [|split; [discriminate | intros; discriminate]].
    destruct (pad_sub_facts sid n none sd tr (HN sid (or_introl eq_refl)) (HS _ _ (m_find_In _ _ _ F))) as (P1 & P2).
    assert (HN' : forall j, In j (map fst ls) -> n = Z.of_nat (nn j)) by (intros; apply HN; now right).
    destruct (pad_sub A n none sd tr) as [(sd1, tr1)| | | |] eqn:E; cbn [rbind fst snd]; try (split; [discriminate | intros; discriminate]); [|contradiction].
    destruct (P2 _ _ eq_refl) as (Q1 & Q2). destruct (IH (Timing.m_set sid sd1 subs) (Timing.m_set sid tr1 trs) HN' (sane_set _ _ _ HS Q1)) as (I1 & I2). split; [exact I1|].
    intros subs' trs' H. destruct (I2 _ _ H) as (J1 & J2 & J3). split; [exact J1|].
    assert (K : forall j, ready_to_code j subs -> ready_to_code j (Timing.m_set sid sd1 subs)).
    { intros j (x & X1 & X2). unfold ready_to_code. rewrite find_set, X1. destruct (Z.eqb_spec sid j) as [-> | D]; [|eauto]. exists sd1. split; [reflexivity|]. apply Q2. left. congruence. }
    split; [|auto]. intros j [<- | Hj] Hnone; [|auto]. apply J3. exists sd1. cbn [fst]. rewrite find_set, F, Z.eqb_refl. split; [reflexivity|]. apply Q2. now right.
Qed.
Lemma next_facts : forall id el m g dm, of_size el -> sane (g_subs g) ->
  back (next_frame A lin quant id el m (g : gen) dm) /\ forall g' dm', next_frame A lin quant id el m g dm = Ok (g', dm') -> sane (g_subs g') /\
    (forallb (fun e => FrameGen.nil (snd e)) m = true -> forallb (fun e => sf_empty (s_obu (snd e))) (g_subs g') = true \/ forall j, In j (map fst (el_subs el)) -> ready_to_code j (g_subs g')).
Proof.
  intros id el m g dm HO HS. unfold next_frame. cbv zeta. set (none := forallb (fun e : lkey * list T => FrameGen.nil (snd e)) m). match goal with |- context [if ?b then _ else _] => destruct b eqn:C end.
  - split; [discriminate|]. intros g' dm' H. injection H as <- <-. split; [exact HS|]. intros _. left. now apply andb_true_iff in C.
  - pose proof (mixing_back (g_pm g) id) as MB. destruct (get_down_mixing (g_pm g) id) as (r, pm'). cbn [fst] in MB. split.
    + apply back_bind; [exact MB|]. intros p _. apply back_bind; [apply mix_facts|]. intros subs E. apply (proj2 (mix_facts _ _ _ _) _ HS) in E. apply back_bind; [apply pad_all_facts; [exact HO | exact E] | discriminate].
    + intros g' dm' H. rb H p Ep. rb H subs E. apply (proj2 (mix_facts _ _ _ _) _ HS) in E. rb H q Eq1. destruct q as (subs2, trs2). injection H as <- _. cbn [g_subs fst].
      destruct (proj2 (pad_all_facts _ _ _ _ _ HO E) _ _ Eq1) as (P1 & P2 & _). split; [exact P1|]. intro N. right. intros j Hj. now apply P2.
Qed.
(* ----- encoding ----- *)
Lemma frame_back : forall sid n fr mk c, back (@encode_frame T P code sid n fr mk c).
Proof.
  intros. unfold encode_frame. destruct (finished c); [discriminate|]. apply back_then.
  - unfold valid_input. apply back_then; [apply veq_back|]. destruct fr; [discriminate|]. destruct (_ =? _); discriminate.
  - apply back_bind; [apply code_back | discriminate].
Qed.
Lemma one_facts : forall n sid dm g ts more, n = Z.of_nat (nn sid) -> sane (g_subs g) ->
  back (encode_one code n sid dm ((g : gen), ts, more)) /\ forall g' ts' more', encode_one code n sid dm (g, ts, more) = Ok (g', ts', more') -> sane (g_subs g') /\
    (ts <> None -> ts' <> None) /\ (ts = None -> more = false -> (forallb (fun e => sf_empty (s_obu (snd e))) (g_subs g) = true \/ ready_to_code sid (g_subs g)) -> ts' <> None \/ g' = g /\ more' = false).
Proof.
  intros n sid dm g ts more Hn HS. unfold encode_one. destruct (m_find sid (g_subs g)) as [sd|] eqn:F.
  2: { destruct more; [split; [discriminate | intros; discriminate]|]. split; [discriminate|]. intros g' ts' more' H. injection H as <- <- <-. split; [exact HS|]. split; [auto|]. intros _ _ _. now right. }
  destruct (sf_empty (s_obu sd)) eqn:E.
  { split; [discriminate|]. intros g' ts' more' H. injection H as <- <- <-. split; [exact HS|]. split; [auto|]. intros _ -> _. now right. }
  cbv zeta. destruct (HS _ _ (m_find_In _ _ _ F)) as (S1 & S2). pose proof (audio_back (g_clock g) sid n) as AB. destruct (next_audio (g_clock g) sid n) as (((r, t0), t1), clock). cbn [fst] in AB. split.
  - apply back_bind; [apply ticks_back|]. intros have _. destruct (have <? n); [destruct ts; discriminate|]. apply back_then; [exact AB|]. apply back_then; [destruct ts; [destruct (_ =? _)|]; discriminate|].
    destruct (m_find sid (g_coders g)); [|discriminate]. apply back_bind; [apply frame_back | discriminate].
  - intros g' ts' more' H. rb H have Eh. pose proof (front_ticks _ _ _ S2 Eh) as L. destruct (Z.ltb_spec have n) as [Q | Q].
    + destruct ts; [discriminate|]. injection H as <- <- <-. split; [exact HS|]. split; [auto|]. intros _ _ [X | (x & X1 & X2)]; exfalso.
      * rewrite forallb_forall in X. specialize (X _ (m_find_In _ _ _ F)). cbn [snd] in X. congruence.
      * assert (x = sd) by congruence. subst x. pose proof (full_front _ _ (nn_pos sid) S2 X2). lia.
    + rs H E1. rs H E2. destruct (m_find sid (g_coders g)) as [c|]; [|discriminate]. rb H c' Ec. injection H as <- <- <-. cbn [g_subs]. split; [|split; [discriminate | intros; left; discriminate]].
      apply sane_set; [exact HS|]. split; cbn [s_obu s_enc]; apply pop_steady; assumption.
Qed.
Lemma all_facts : forall n dm ls g ts more, (forall j, In j (map fst ls) -> n = Z.of_nat (nn j)) -> sane (g_subs g) ->
  back (encode_all code n ls dm ((g : gen), ts, more)) /\ forall g' ts' more', encode_all code n ls dm (g, ts, more) = Ok (g', ts', more') -> sane (g_subs g') /\
    (ts <> None -> ts' <> None) /\ (ts = None -> more = false -> (forallb (fun e => sf_empty (s_obu (snd e))) (g_subs g) = true \/ forall j, In j (map fst ls) -> ready_to_code j (g_subs g)) -> ts' <> None \/ g' = g /\ more' = false).
Proof.
  intros n dm. induction ls as [|(sid, l) ls IH]; intros g ts more HN HS; cbn [encode_all].
  - split; [discriminate|]. intros g' ts' more' H. injection H as <- <- <-. split; [exact HS|]. split; [auto|]. intros _ -> _. now right.
  - destruct (one_facts n sid dm g ts more (HN sid (or_introl eq_refl)) HS) as (O1 & O2). assert (HN' : forall j, In j (map fst ls) -> n = Z.of_nat (nn j)) by (intros; apply HN; now right).
    destruct (encode_one code n sid dm (g, ts, more)) as [((g1, ts1), more1)| | | |]; cbn [rbind]; try (split; [discriminate | intros; discriminate]); [|contradiction].
    destruct (O2 _ _ _ eq_refl) as (Q1 & Q2 & Q3). destruct (IH g1 ts1 more1 HN' Q1) as (I1 & I2). split; [exact I1|]. intros g' ts' more' H. destruct (I2 _ _ _ H) as (J1 & J2 & J3). split; [exact J1|]. split; [auto|].
    intros Hts Hm HX. assert (HX1 : forallb (fun e => sf_empty (s_obu (snd e))) (g_subs g) = true \/ ready_to_code sid (g_subs g)) by (destruct HX as [X | X]; [now left | right; apply X; now left]).
    destruct (Q3 Hts Hm HX1) as [X | (-> & ->)]; [left; auto|]. destruct ts1; [left; apply J2; discriminate|]. apply J3; [reflexivity | reflexivity|]. destruct HX as [X | X]; [now left | right; intros; apply X; now right].
Qed.
Lemma loop_facts : forall id el, of_size el -> forall fuel m g dm, sane (g_subs g) -> (2 <= fuel)%nat \/ (1 <= fuel)%nat /\ forallb (fun e => FrameGen.nil (snd e)) m = true ->
  back (encode_loop A lin quant code fuel id el m dm (g : gen)) /\ forall g' o, encode_loop A lin quant code fuel id el m dm g = Ok (g', o) -> sane (g_subs g').
Proof.
  intros id el HO. induction fuel as [|fuel IH]; intros m g dm HS HF; [lia|]. cbn [encode_loop]. destruct (next_facts id el m g dm HO HS) as (N1 & N2).
  destruct (next_frame A lin quant id el m g dm) as [(g1, dm1)| | | |]; cbn [rbind fst snd]; try (split; [discriminate | intros; discriminate]); [|contradiction]. destruct (N2 _ _ eq_refl) as (M1 & M2).
  destruct (all_facts (el_n el) dm1 (el_subs el) g1 None false HO M1) as (A1 & A2). destruct (encode_all code (el_n el) (el_subs el) dm1 (g1, None, false)) as [((g2, ts), more)| | | |]; cbn [rbind]; try (split; [discriminate | intros; discriminate]); [|contradiction].
  destruct (A2 _ _ _ eq_refl) as (B1 & B2 & B3). destruct ts as [t|]; [split; [discriminate|]; intros g' o H; injection H as <- _; exact B1|]. destruct more; [|split; [discriminate|]; intros g' o H; injection H as <- _; exact B1].
  assert (EM : forallb (fun e => FrameGen.nil (snd e)) (emptied m) = true) by (unfold emptied; rewrite forallb_forall; intros e He; apply in_map_iff in He; destruct He as (x & <- & _); reflexivity).
  apply IH; [exact B1|]. destruct HF as [HF | (_ & HF)]; [right; split; [lia | exact EM]|]. exfalso. destruct (B3 eq_refl eq_refl (M2 HF)) as [X | (_ & X)]; [now apply X | discriminate].
Qed.
Lemma maybe_facts : forall id el labels g, of_size el -> sane (g_subs g) ->
  back (maybe_encode A lin quant code id el labels (g : gen)) /\ forall g', maybe_encode A lin quant code id el labels g = Ok g' -> sane (g_subs g').
Proof.
  intros id el labels g HO HS. unfold maybe_encode. destruct (ready None _ labels); cbn [negb]; [|split; [discriminate|]; intros g' H; injection H as <-; exact HS]. destruct (_ =? _); cbn [negb]; [|split; [discriminate | intros; discriminate]].
  destruct (loop_facts id el HO 3 (in_of id g) g None HS ltac:(left; lia)) as (L1 & L2). destruct (encode_loop _ _ _ _ _ _ _ _ _ _) as [(g1, o)| | | |]; cbn [rbind fst snd]; try (split; [discriminate | intros; discriminate]); [|contradiction].
  specialize (L2 _ _ eq_refl). cbv zeta. destruct o as [t|]; [|split; [discriminate|]; intros g' H; injection H as <-; exact L2].
  pose proof (update_back (g_pm (set_in id (emptied (in_of id g)) g1)) id (s64 (t + el_n el))) as U. destruct (update_demixing _ _ _) as (q, pm'). cbn [fst] in U. split; [apply back_then; [exact U | discriminate]|].
  intros g' H. rs H E. injection H as <-. exact L2.
Qed.
(* ----- the calls ----- *)
Variable cf : cfg.
Hypothesis sizes : forall id el, In (id, el) (cf_elems cf) -> of_size el.
Lemma add_facts : forall id l xs g, sane (g_subs g) ->
  back (add_samples A lin quant code cf id l xs (g : gen)) /\ forall g', add_samples A lin quant code cf id l xs g = Ok g' -> sane (g_subs g').
Proof.
  intros id l xs g HS. unfold add_samples. destruct (g_stage g); try (split; [discriminate|]; intros g' H; injection H as <-; exact HS). destruct (FrameGen.nil xs); [split; [discriminate | intros; discriminate]|].
  destruct (m_find id (cf_labels cf)); [|split; [discriminate | intros; discriminate]]. destruct (m_find id (cf_elems cf)) as [el|] eqn:F; [|split; [discriminate | intros; discriminate]].
  apply maybe_facts; [eapply sizes, m_find_In, F | exact HS].
Qed.
Lemma flush_facts : forall ls g, (forall id el, In (id, el) ls -> of_size el) -> sane (g_subs g) ->
  back (flush_elems A lin quant code cf ls (g : gen)) /\ forall g', flush_elems A lin quant code cf ls g = Ok g' -> sane (g_subs g').
Proof.
  induction ls as [|(id, el) ls IH]; intros g HO HS; cbn [flush_elems]; [split; [discriminate|]; intros g' H; injection H as <-; exact HS|]. destruct (m_find id (cf_labels cf)) as [labels|]; [|split; [discriminate | intros; discriminate]].
  destruct (maybe_facts id el labels g (HO _ _ (or_introl eq_refl)) HS) as (M1 & M2). destruct (maybe_encode _ _ _ _ _ _ _ _) as [g1| | | |]; cbn [rbind]; try (split; [discriminate | intros; discriminate]); [|contradiction].
  apply IH; [intros; eapply HO; right; eassumption | now apply M2].
Qed.
Lemma del_sub : forall {V} k (m : list (Z * V)) e, In e (m_del k m) -> In e m.
Proof. intros V k. induction m as [|(i, v) m IH]; intros e H; cbn [m_del] in H; [exact H|]. destruct (i =? k); [now right|]. destruct H as [H | H]; [now left | right; auto]. Qed.
Lemma finish_sub : forall l subs e, In e (snd (finish_coders (l : list (Z * coder T P)) (subs : list (Z * sub)))) -> In e subs.
Proof.
  induction l as [|(sid, c) l IH]; intros subs e H; cbn [finish_coders] in H; [exact H|]. destruct (m_find sid subs) as [sd|]; [destruct (sf_empty (s_obu sd))|].
  - destruct (finish_coders l (m_del sid subs)) as (cs, ss) eqn:E. cbn [snd] in H. apply (del_sub sid). apply IH. rewrite E. exact H.
  - destruct (finish_coders l subs) as (cs, ss) eqn:E. cbn [snd] in H. apply IH. rewrite E. exact H.
  - destruct (finish_coders l subs) as (cs, ss) eqn:E. cbn [snd] in H. apply IH. rewrite E. exact H.
Qed.
Lemma user_back : forall b n l t f, back (user_trim b n l t f).
Proof. intros. unfold user_trim. cbv zeta. destruct (_ <? _); [discriminate|]. destruct (_ && _); discriminate. Qed.
Lemma trim_back : forall n b tr f, back (@apply_trim T P n b tr f).
Proof.
  intros. unfold apply_trim. apply back_bind; [apply user_back|]. intros ((ls, ks), fl) _. destruct b; [|discriminate]. apply back_bind; [apply user_back|]. intros ((le, ke), fl2) _. discriminate.
Qed.
Lemma n_of_back : forall l sid, back (n_of l sid).
Proof. induction l as [|(i, el) l IH]; intros sid; cbn [n_of]; [discriminate|]. destruct (m_find sid _); [discriminate | apply IH]. Qed.
Lemma pop_all_back : forall l trs, back (pop_all cf (l : list (Z * coder T P)) trs).
Proof.
  induction l as [|(sid, c) l IH]; intros trs; cbn [pop_all]; [discriminate|]. destruct (c_queue c) as [|f q]; [discriminate|]. destruct (m_find sid trs) as [tr|]; [|discriminate]. cbv zeta.
  apply back_bind; [apply n_of_back|]. intros n _. apply back_bind; [apply trim_back|]. intros a _. apply back_bind; [apply IH|]. intros ((cs, t2), fs) _. discriminate.
Qed.
Lemma output_facts : forall g, sane (g_subs g) ->
  back (output_frames A lin quant code cf (g : gen)) /\ forall g' fs, output_frames A lin quant code cf g = Ok (g', fs) -> sane (g_subs g').
Proof.
  intros g HS. unfold output_frames.
  assert (B : back (match g_stage g with Flushing => flush_elems A lin quant code cf (cf_elems cf) g | Finalized => Ok (mkGen Flushing (g_in g) (g_subs g) (g_trims g) (g_coders g) (g_pm g) (g_clock g)) | Taking => Ok g end) /\
    forall g1, match g_stage g with Flushing => flush_elems A lin quant code cf (cf_elems cf) g | Finalized => Ok (mkGen Flushing (g_in g) (g_subs g) (g_trims g) (g_coders g) (g_pm g) (g_clock g)) | Taking => Ok g end = Ok g1 -> sane (g_subs g1)).
  { destruct (g_stage g); [split; [discriminate|]; intros g1 H; injection H as <-; exact HS | split; [discriminate|]; intros g1 H; injection H as <-; exact HS | apply flush_facts; [exact sizes | exact HS]]. }
  destruct B as (B1 & B2). split.
  - apply back_bind; [exact B1|]. intros g1 _. destruct (match g_stage g1 with Flushing => _ | _ => _ end) as (cs, subs). apply back_bind; [|intros ((cs2, trs), fs) _; discriminate]. destruct (forallb _ cs); [apply pop_all_back | discriminate].
  - intros g' fs H. rb H g1 E1. specialize (B2 _ eq_refl). destruct (match g_stage g1 with Flushing => _ | _ => _ end) as (cs, subs) eqn:Ef. rb H r Er. destruct r as ((cs2, trs), fs2). injection H as <- _. cbn [g_subs].
    intros j sd Hin. apply B2. destruct (g_stage g1); try (injection Ef as _ <-; exact Hin). apply (finish_sub (g_coders g1)). rewrite Ef. exact Hin.
Qed.
Lemma session_back : forall cs g fs, sane (g_subs g) -> back (session A lin quant code cf cs ((g : gen), fs)).
Proof.
  induction cs as [|c cs IH]; intros g fs HS; cbn [session]; [discriminate|]. destruct c as [id l xs | | | m times]; cbn [call_step fst snd].
  - destruct (add_facts id l xs g HS) as (F1 & F2). destruct (add_samples _ _ _ _ _ _ _ _ _) as [g1| | | |]; cbn [rbind]; try discriminate; [apply IH; now apply F2 | contradiction].
  - cbn [rbind]. apply IH. unfold finalize. destruct (g_stage g); exact HS.
  - destruct (output_facts g HS) as (F1 & F2). destruct (output_frames _ _ _ _ _ _) as [(g1, fs1)| | | |]; cbn [rbind fst snd]; try discriminate; [apply IH; now apply (F2 g1 fs1) | contradiction].
  - cbn [rbind]. apply IH. exact HS.
Qed.
End Gen.

(* ----- Create ----- *)
Section Create.
Context {T P : Type}.
Variable A : arith T.
Variable nn : Z -> nat.
Hypothesis nn_pos : forall j, (0 < nn j)%nat.
Variable delay : Z -> res Z.
Hypothesis delay_back : forall j, back (delay j).
Notation sane := (@sane T nn).
Lemma makes_facts : forall ls cs, back (@make_coders T P delay ls cs) /\ forall cs', @make_coders T P delay ls cs = Ok cs' -> forall j l, In (j, l) ls -> (0 < length l)%nat.
Proof.
  induction ls as [|(sid, l) ls IH]; intros cs; cbn [make_coders]; [split; [discriminate | intros ? _ j l []]|].
  destruct ((zlen l =? 1) || (zlen l =? 2)) eqn:C; [|split; [discriminate | intros; discriminate]]. assert (0 < length l)%nat by (destruct l; [discriminate C | cbn [length]; lia]). split.
  - apply back_bind; [apply delay_back|]. intros d _. apply IH.
  - intros cs' H' j l' [Q | Q]; [injection Q as <- <-; assumption|]. rb H' d Ed. exact (proj2 (IH _) _ H' j l' Q).
Qed.
Lemma coders_facts : forall elems ms cs, back (@coders_of T P delay elems ms cs) /\
  forall cs', @coders_of T P delay elems ms cs = Ok cs' -> forall me el, In me ms -> m_find (me_id me) elems = Some el -> forall j l, In (j, l) (el_subs el) -> (0 < length l)%nat.
Proof.
  intros elems. induction ms as [|me ms IH]; intros cs; cbn [coders_of]; [split; [discriminate | intros ? _ ? ? []]|].
  destruct (m_find (me_id me) elems) as [el|] eqn:F; [|split; [discriminate | intros; discriminate]]. destruct (makes_facts (el_subs el) cs) as (M1 & M2). split.
  - apply back_bind; [exact M1|]. intros. apply IH.
  - intros cs' H me' el' [<- | Hin] F' j l Hj; rb H c1 E1; [|exact (proj2 (IH _) _ H me' el' Hin F' j l Hj)]. rewrite F in F'. injection F' as <-. exact (M2 _ eq_refl j l Hj).
Qed.
Lemma insert_in : forall {V} k (v : V) m e, In e (m_insert k v m) -> e = (k, v) \/ In e m.
Proof. intros V k v m e H. unfold m_insert in H. destruct (m_find k m); [now right|]. apply in_app_iff in H. destruct H as [H | [<- | []]]; auto. Qed.
Lemma init_facts : forall d me n (cs : list (Z * coder T P)) ls subs, (forall j l, In (j, l) ls -> n = Z.of_nat (nn j) /\ (0 < length l)%nat) -> sane subs ->
  back (init_subs A d me n cs ls subs) /\ forall subs', init_subs A d me n cs ls subs = Ok subs' -> sane subs'.
Proof.
  intros d me n cs. induction ls as [|(sid, l) ls IH]; intros subs HN HS; cbn [init_subs]; [split; [discriminate|]; intros s' H; injection H as <-; exact HS|].
  destruct (me_start_delay me && (me_start me <? d)); [split; [discriminate | intros; discriminate]|]. cbv zeta. set (new := FrameGen.mkSub _ _ _ _). set (subs1 := m_insert sid new subs).
  destruct (HN sid l (or_introl eq_refl)) as (N1 & N2). assert (HN' : forall j l, In (j, l) ls -> n = Z.of_nat (nn j) /\ (0 < length l)%nat) by (intros; apply HN; now right).
  assert (S1 : sane subs1).
  { intros j sd Hin. apply insert_in in Hin. destruct Hin as [Q | Hin]; [injection Q as -> ->|now apply HS]. unfold new. rewrite N1, Nat2Z.id. split; cbn [s_obu s_enc]; now apply new_steady. }
  destruct (m_find sid subs1) as [sd|] eqn:F; [|split; [discriminate | intros; discriminate]]. destruct (m_find sid cs) as [c|]; [|split; [discriminate | intros; discriminate]].
  destruct (S1 _ _ (m_find_In _ _ _ F)) as (Q1 & Q2). destruct (pad_facts (a_lit A 0 1) _ d _ (nn_pos sid) Q1) as (O1 & O2). destruct (pad_facts 0 _ (d - c_delay c) _ (nn_pos sid) Q2) as (E1 & E2).
  assert (NX : forall o e, sf_pad (a_lit A 0 1) d (s_obu sd) = Ok o -> sf_pad 0 (d - c_delay c) (s_enc sd) = Ok e -> sane (Timing.m_set sid (FrameGen.mkSub o e (s_end sd) (s_start sd)) subs1)).
  { intros o e Eo Ee. apply sane_set; [exact S1|]. destruct (O2 _ Eo) as (R1 & _), (E2 _ Ee) as (R2 & _). split; assumption. }
  split.
  - apply back_bind; [exact O1|]. intros o Eo. destruct (d <? c_delay c); [discriminate|]. apply back_bind; [exact E1|]. intros e Ee. apply IH; [exact HN' | now apply NX].
  - intros subs' H. rb H o Eo. destruct (d <? c_delay c); [discriminate|]. rb H e Ee. exact (proj2 (IH _ HN' (NX _ _ eq_refl eq_refl)) _ H).
Qed.
Lemma fill_back : forall ls out, back (fill_labels ls out).
Proof. induction ls as [|l ls IH]; intros out; cbn [fill_labels]; [discriminate|]. destruct (lab_in l out); [discriminate | apply IH]. Qed.
Lemma metas_facts : forall typed m d first elems (cs : list (Z * coder T P)) ms labs subs trs,
  (forall me el j l, In me ms -> m_find (me_id me) elems = Some el -> In (j, l) (el_subs el) -> el_n el = Z.of_nat (nn j) /\ (0 < length l)%nat) -> sane subs ->
  back (init_metas A typed m d first elems cs ms (labs, subs, trs)) /\
  forall labs' subs' trs', init_metas A typed m d first elems cs ms (labs, subs, trs) = Ok (labs', subs', trs') -> sane subs'.
Proof.
  intros typed m d first elems cs. induction ms as [|me ms IH]; intros labs subs trs HN HS; cbn [init_metas]; [split; [discriminate|]; intros ? ? ? H; injection H as _ <- _; exact HS|].
  pose proof (fill_back (me_labels me) (match m_find (me_id me) labs with Some l => l | None => [] end)) as FB. destruct (fill_labels _ _) as [ls| | | |]; cbn [rbind]; try (split; [discriminate | intros; discriminate]); [|contradiction].
  destruct (m_find (me_id me) elems) as [el|] eqn:F; [|split; [discriminate | intros; discriminate]]. destruct (el_n el <? me_end me); [split; [discriminate | intros; discriminate]|].
  destruct (init_facts d me (el_n el) cs (el_subs el) subs (fun j l Hj => HN me el j l (or_introl eq_refl) F Hj) HS) as (I1 & I2).
  destruct (init_subs A d me (el_n el) cs (el_subs el) subs) as [subs1| | | |]; cbn [rbind]; try (split; [discriminate | intros; discriminate]); [|contradiction].
  destruct (_ && _); [split; [discriminate | intros; discriminate]|]. destruct (negb (share first me)); [split; [discriminate | intros; discriminate]|].
  apply IH; [intros; eapply HN; [right|..]; eassumption | now apply I2].
Qed.
Lemma create_facts : forall typed elems ms m clock, (forall id el j, In (id, el) elems -> In j (map fst (el_subs el)) -> el_n el = Z.of_nat (nn j)) ->
  back (@create T P A delay typed elems ms m clock) /\
  forall cf g, @create T P A delay typed elems ms m clock = Ok (cf, g) -> sane (g_subs g) /\ (cf_elems cf = elems \/ cf_elems cf = []).
Proof.
  intros typed elems ms m clock HN. unfold create. destruct ms as [|first ms0]; [split; [discriminate|]; intros cf g H; injection H as <- <-; split; [intros ? ? [] | now right]|]. set (ms := first :: ms0). clearbody ms.
  destruct (coders_facts elems ms []) as (C1 & C2). destruct (coders_of delay elems ms []) as [cs| | | |]; cbn [rbind]; try (split; [discriminate | intros; discriminate]); [|contradiction]. cbv zeta.
  assert (HX : forall me el j l, In me ms -> m_find (me_id me) elems = Some el -> In (j, l) (el_subs el) -> el_n el = Z.of_nat (nn j) /\ (0 < length l)%nat).
  { intros me el j l Hin F Hj. split; [|exact (C2 _ eq_refl me el Hin F j l Hj)]. apply (HN (me_id me) el j (m_find_In _ _ _ F)). now apply (in_map fst) in Hj. }
  destruct (metas_facts typed m (max_delay cs) first elems cs ms [] [] [] HX ltac:(intros ? ? [])) as (M1 & M2).
  destruct (init_metas _ _ _ _ _ _ _ _ _) as [((labs, subs), trs)| | | |]; cbn [rbind]; try (split; [discriminate | intros; discriminate]); [|contradiction].
  split; [discriminate|]. intros cf g H. injection H as <- <-. cbn [g_subs cf_elems]. split; [exact (M2 _ _ _ eq_refl) | now left].
Qed.
End Create.
(* the frame size of a substream *)
Fixpoint size_of (elems : list (Z * elem)) (j : Z) : nat :=
  match elems with [] => 1%nat | (_, el) :: t => if existsb (Z.eqb j) (map fst (el_subs el)) then Z.to_nat (el_n el) else size_of t j end.
Lemma exb : forall j l, existsb (Z.eqb j) l = true <-> In j l.
Proof. intros j l. rewrite existsb_exists. split; [intros (x & H & E); apply Z.eqb_eq in E; now subst | intro H; exists j; split; [exact H | apply Z.eqb_refl]]. Qed.
Lemma size_facts : forall elems, (forall id el, In (id, el) elems -> 0 < el_n el) ->
  (forall id el id' el' j, In (id, el) elems -> In (id', el') elems -> In j (map fst (el_subs el)) -> In j (map fst (el_subs el')) -> el_n el = el_n el') ->
  (forall j, (0 < size_of elems j)%nat) /\ forall id el j, In (id, el) elems -> In j (map fst (el_subs el)) -> el_n el = Z.of_nat (size_of elems j).
Proof.
  induction elems as [|(i, e) t IH]; intros HP HA; [split; [intro; cbn [size_of]; lia | intros ? ? ? []]|]. cbn [size_of].
  destruct IH as (I1 & I2); [intros; eapply HP; right; eassumption | intros; eapply HA; [right; eassumption | right; eassumption | eassumption | eassumption]|].
  pose proof (HP i e (or_introl eq_refl)) as P0. split.
  - intro j. destruct (existsb (Z.eqb j) (map fst (el_subs e))); [lia | apply I1].
  - intros id el j Hin Hj. destruct (existsb (Z.eqb j) (map fst (el_subs e))) eqn:E.
    + apply exb in E. rewrite (HA id el i e j Hin (or_introl eq_refl) Hj E). lia.
    + destruct Hin as [Q | Hin]; [injection Q as <- <-; exfalso; apply exb in Hj; congruence | now apply (I2 id)].
Qed.
