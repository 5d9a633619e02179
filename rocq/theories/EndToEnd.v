(* End-to-end vocabulary: what "write, then read back" means on the concrete buffers. *)
From Verif Require Import Base WriteBuf ReadBuf BufSpec BitFacts WriteBufFacts ReadBufFacts ParseFacts.

(* Tell, Seek to bit [p], run [k], Tell again. *)
Definition read_at {A} (p : Z) (k : rprog A) : rprog (A * Z) :=
  rtell ;;; rseek p ;;; x <- k ;; t <- rtell ;; RRet (x, t).

(* SPEC: [w] reads back as [a] through [k]: whatever had been written before (any alignment), if writing [w] succeeds,
   then a reader of any capacity over the finished buffer, followed by any more bytes, positioned where [w] started,
   returns [a] and ends exactly where the writer ended. *)
Definition reads_back {A} (w : wprog) (k : rprog A) (a : A) : Prop :=
  forall (before : wprog) (w1 w2 : wbuf) (after : list Z) (cap fuel : nat),
    Forall winstr_wf before -> wrun before w_empty = (Ok tt, w1) -> wrun w w1 = (Ok tt, w2) ->
    Forall byteP after -> (1 <= cap)%nat -> (8 <= fuel)%nat ->
    fst (crun fuel (read_at (w_off w1) k) (r_create cap (w_bytes w2 ++ after))) = Ok (a, w_off w2).

Definition at_result {A} (r : res A * cur) : res (A * Z) :=
  match r with
  | (Ok x, c) => Ok (x, Z.of_nat (c_pos c))
  | (Err e, _) => Err e | (Abort, _) => Abort | (UB, _) => UB | (Diverge, _) => Diverge
  end.

Lemma arun_rtell c : arun rtell c = (Ok (Z.of_nat (c_pos c)), mkC (c_bits c) (c_pos c) (Some true)).
Proof. reflexivity. Qed.

Lemma arun_rseek_ok bs pos p : 0 <= p <= zlen bs ->
  arun (rseek p) (mkC bs pos (Some true)) = (Ok tt, mkC bs (Z.to_nat p) (Some true)).
Proof.
  intro H. unfold rseek, rop1. cbn [rb arun aop c_valid c_bits].
  replace (p <? 0) with false by lia. replace (p >? zlen bs) with false by lia. reflexivity.
Qed.

Lemma arun_read_at {A} p (k : rprog A) bs pos v : 0 <= p <= zlen bs ->
  fst (arun (read_at p k) (mkC bs pos v)) = at_result (arun k (mkC bs (Z.to_nat p) (Some true))).
Proof.
  intro H. unfold read_at. rewrite arun_bind, arun_rtell. cbn [c_bits c_pos].
  rewrite arun_bind, arun_rseek_ok by exact H. rewrite arun_bind.
  destruct (arun k (mkC bs (Z.to_nat p) (Some true))) as [[x|e| | |] c']; reflexivity.
Qed.

Lemma crun_read_at {A} p (k : rprog A) src cap fuel :
  (1 <= cap)%nat -> (8 <= fuel)%nat -> Forall byteP src -> 0 <= p <= 8 * zlen src ->
  fst (crun fuel (read_at p k) (r_create cap src)) = at_result (arun k (mkC (bytes_bits src) (Z.to_nat p) (Some true))).
Proof.
  intros Hc Hf Hs Hp. pose proof (rrel_create cap src Hc Hs) as R.
  destruct (crun_refines fuel (read_at p k) Hf _ _ R) as [E _]. rewrite E. apply arun_read_at.
  unfold zlen in *. rewrite bytes_bits_length. lia.
Qed.

Lemma wrun_holds p w1 : Forall winstr_wf p -> wrun p w_empty = (Ok tt, w1) ->
  exists bs, wbits p = Ok bs /\ holds w1 bs.
Proof.
  intros Hw E. destruct (wrun_spec p w_empty [] Hw holds_empty) as [E1 E2]. rewrite E in E1, E2. cbn [fst snd] in *.
  destruct (wbits p) as [bs| | | |]; try discriminate. exists bs. split; [reflexivity|]. apply (E2 bs eq_refl).
Qed.

Lemma holds_bits w bs : holds w bs -> Forall byteP (w_bytes w) /\ exists k, bytes_bits (w_bytes w) = bs ++ repeat false k.
Proof.
  intros [E _]. rewrite E. destruct (pack_spec bs) as [H (k & _ & Hk)]. split; [exact H|]. exists k. exact Hk.
Qed.

Lemma holds_off w bs : holds w bs -> w_off w = zlen bs. Proof. intros [_ H]. exact H. Qed.

Theorem reads_back_intro {A} (w : wprog) (k : rprog A) (a : A) :
  Forall winstr_wf w -> (forall bs, wbits w = Ok bs -> parses k bs a) -> reads_back w k a.
Proof.
  intros Hw Hp before w1 w2 after cap fuel Hb E1 E2 Ha Hc Hf.
  destruct (wrun_holds _ _ Hb E1) as (pre & _ & H1).
  destruct (wrun_spec w w1 pre Hw H1) as [S1 S2]. rewrite E2 in S1, S2. cbn [fst snd] in *.
  destruct (wbits w) as [bs| | | |] eqn:Ew; try discriminate. specialize (S2 bs eq_refl).
  destruct (holds_bits _ _ S2) as [B2 (kk & K2)]. specialize (Hp bs eq_refl).
  rewrite (holds_off _ _ H1), (holds_off _ _ S2).
  assert (bytes_bits (w_bytes w2 ++ after) = pre ++ bs ++ (repeat false kk ++ bytes_bits after)) as Eb.
  { rewrite bytes_bits_app, K2, <- !app_assoc. reflexivity. }
  rewrite crun_read_at; try assumption.
  - rewrite Eb. destruct (Hp pre (repeat false kk ++ bytes_bits after) (Some true)) as [v' E].
    unfold zlen at 1. rewrite Nat2Z.id, E. unfold at_result. cbn [c_pos]. do 2 f_equal. unfold zlen. rewrite app_length. lia.
  - apply Forall_app. auto.
  - pose proof (f_equal (@length bool) Eb) as L. rewrite bytes_bits_length, !app_length in L. unfold zlen. rewrite app_length. lia.
Qed.

(* A cursor never aborts or diverges, and is undefined only by a Seek before the first Tell or read. *)
Lemma arun_no_abort {A} (p : rprog A) c : fst (arun p c) <> Abort /\ fst (arun p c) <> Diverge.
Proof.
  revert c. induction p as [a|e|o k IH]; intro c; cbn [arun]; try (split; discriminate).
  destruct (aop o c) as [[v|e| | |] c'] eqn:E; try (apply IH); try (split; discriminate).
  - exfalso. destruct o; cbn [aop] in E; repeat (destruct (_ : bool) in E; try discriminate);
      try destruct (c_valid c) as [[|]|]; try discriminate; repeat (destruct (_ : bool) in E; try discriminate).
  - exfalso. destruct o; cbn [aop] in E; repeat (destruct (_ : bool) in E; try discriminate);
      try destruct (c_valid c) as [[|]|]; try discriminate; repeat (destruct (_ : bool) in E; try discriminate).
Qed.

(* The source is never changed by reading. *)
Lemma arun_bits {A} (p : rprog A) c : c_bits (snd (arun p c)) = c_bits c.
Proof.
  revert c. induction p as [a|e|o k IH]; intro c; cbn [arun]; try reflexivity.
  assert (c_bits (snd (aop o c)) = c_bits c) as Eo.
  { destruct o; cbn [aop];
      repeat match goal with |- context[match ?b with _ => _ end] => destruct b end; reflexivity. }
  destruct (aop o c) as [[v|e| | |] c']; cbn [snd] in *; rewrite ?IH; assumption.
Qed.
