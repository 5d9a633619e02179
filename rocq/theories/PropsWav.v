(* C72: the writer of WAV files. *)
From Flocq Require Import Core BinarySingleNaN.
From Verif Require Import Base WriteBuf CodecConfig Pcm FloatFacts PropsPcm PropsDemix WavWriter.
Open Scope Z_scope.

(* ================= SPEC ================= *)
(* the bytes which a call gives for the file: the samples interleaved, each little-endian in the upper bits of its 32 bit value *)
Definition given (bits : Z) (c : wcall) : list Z :=
  match c with WPush f => frame_bytes (bits / 8) false pcm_value (B754_zero false) f (ticks_of f) | WWrite b => b | _ => [] end.
(* the bytes of the calls which were successful *)
Fixpoint accepted (bits : Z) (l : list wcall) (rs : list (res unit)) : list Z :=
  match l, rs with c :: t, r :: q => (match r with Ok _ => given bits c | _ => [] end) ++ accepted bits t q | _, _ => [] end.
(* a frame which fits: a channel for each of the writer, all of them as long, of at most [max] samples which are all numbers *)
Definition good_frame (nch max : Z) (f : list (list double)) : Prop :=
  zlen f = nch /\ same_ticks f (ticks_of f) /\ ticks_of f <= max /\ Forall (Forall finite) f.
(* bytes which fit: whole samples for all channels, at most [max] of each *)
Definition good_bytes (nch bits max : Z) (b : list Z) : Prop := exists n, 0 <= n <= max /\ zlen b = n * nch * (bits / 8).
Definition flushed (l : list wcall) : bool := existsb (fun c => match c with WFlush => true | _ => false end) l.
Definition no_abort (l : list wcall) : Prop := Forall (fun c => c <> WAbort) l.

Section Wav.
Variable hdr : Z -> list Z.
Hypothesis Hhdr : forall n, length (hdr n) = length (hdr 0).
Notation head w n := (if w_header w then hdr n else []).
Record ok_wav (nch bits max : Z) (h : bool) (w : wav) (data : list Z) : Prop := mkOk {
  k_nch : w_nch w = nch; k_bits : w_bits w = bits; k_max : w_max w = max; k_h : w_header w = h;
  k_state : w_taking w = w_open w;
  k_buf : zlen (w_buf w) = nch * max * (bits / 8);
  k_total : w_total w * (bits / 8) = zlen data;
  k_disk : w_disk w = Some ((if h then hdr (if w_open w then 0 else w_total w) else []) ++ data) }.
Definition pos_conf (nch bits max : Z) : Prop := 1 <= nch /\ 0 <= max /\ (bits = 16 \/ bits = 24 \/ bits = 32).

Lemma bits_of nch bits max : pos_conf nch bits max -> exists n, 1 <= n <= 4 /\ bits / 8 = n /\ bits = 8 * n /\ bits * nch / 8 = n * nch.
Proof.
  intros (A & B & [-> | [-> | ->]]); [exists 2|exists 3|exists 4]; (split; [lia|]; split; [reflexivity|]; split; [reflexivity|]).
  - replace (16 * nch) with (2 * nch * 8) by ring. apply Z.div_mul. lia.
  - replace (24 * nch) with (3 * nch * 8) by ring. apply Z.div_mul. lia.
  - replace (32 * nch) with (4 * nch * 8) by ring. apply Z.div_mul. lia.
Qed.
Lemma write_ok nch bits max h w data b r w' : pos_conf nch bits max -> ok_wav nch bits max h w data -> write_internal b w = (r, w') ->
  (r = Ok tt /\ w_open w = true /\ good_bytes nch bits max b /\ ok_wav nch bits max h w' (data ++ b) /\ w_open w' = true \/
   (exists c, r = Err c) /\ w' = w /\ (w_open w = false \/ ~ good_bytes nch bits max b)).
Proof.
  intros P K. destruct (bits_of _ _ _ P) as (n & Hn & E1 & E2 & E3). destruct P as (P1 & P2 & _). unfold write_internal, good_bytes. rewrite (k_nch _ _ _ _ _ _ K), (k_bits _ _ _ _ _ _ K), (k_max _ _ _ _ _ _ K), E1, E3.
  destruct (w_open w) eqn:Eo; cbn [negb]; [|intro H; injection H as <- <-; right; eauto].
  destruct (Z.eqb_spec (zlen b) 0) as [Z0|Z0].
  { intro H. injection H as <- <-. left. split; [reflexivity|]. split; [reflexivity|]. split; [exists 0; lia|]. assert (b = []) as -> by (destruct b; [reflexivity|unfold zlen in Z0; cbn [length] in Z0; lia]). rewrite app_nil_r. auto. }
  replace (n * nch =? 0) with false by nia. destruct (Z.eqb_spec (zlen b mod (n * nch)) 0) as [M|M]; cbn [negb].
  2:{ intro H. injection H as <- <-. right. split; [eauto|]. split; [reflexivity|]. right. intros (k & _ & Q). apply M. rewrite Q. replace (k * nch * n) with (k * (n * nch)) by ring. apply Z.mod_mul. nia. }
  assert (exists q, zlen b = q * (n * nch)) as (q & Q). { exists (zlen b / (n * nch)). pose proof (Z.div_mod (zlen b) (n * nch) ltac:(nia)). lia. }
  assert (zlen b / n = q * nch) as D1 by (rewrite Q; replace (q * (n * nch)) with (q * nch * n) by ring; apply Z.div_mul; lia). rewrite D1, Z.div_mul by lia.
  assert (0 <= zlen b) as Lb by (unfold zlen; lia). assert (0 <= q) as Q0 by nia.
  destruct (Z.gtb_spec q max) as [G|G]; intro H; injection H as <- <-.
  - right. split; [eauto|]. split; [reflexivity|]. right. intros (k & K1 & K2). assert (k * (n * nch) = q * (n * nch)) by nia. assert (k = q) by nia. lia.
  - left. split; [reflexivity|]. split; [reflexivity|]. split; [exists q; split; [lia|nia]|]. split; [|reflexivity]. destruct K as [k1 k2 k3 k4 k5 k6 k7 k8]. constructor; cbn [w_nch w_bits w_max w_header w_taking w_open w_disk w_total w_buf]; auto; try congruence.
    + rewrite E1 in *. unfold zlen in *. rewrite app_length, Nat2Z.inj_add. nia.
    + rewrite k8, Eo, app_assoc. reflexivity.
Qed.
Lemma samples_good {A} (conv : A -> res Z) frame size be : forall order buf pos b p, write_samples conv frame size be order buf pos = (Ok tt, b, p) ->
  Forall (fun q => exists a v, at_ct frame (snd q) (fst q) = Ok a /\ conv a = Ok v) order.
Proof.
  induction order as [|[t c] order IH]; intros buf pos b p H; cbn [write_samples] in H; [constructor|]. destruct (at_ct frame c t) as [a| | | |] eqn:Ea; cbn [rbind] in H; try discriminate H. destruct (conv a) as [v| | | |] eqn:Ev; try discriminate H.
  destruct (write_pcm _ _ _ _ _) as [[r1 b1] p1]. destruct r1 as [[]| | | |]; try discriminate H. constructor; [exists a, v; auto|]. eapply IH. exact H.
Qed.
Lemma finite_of x v : double_to_int32 x = Ok v -> finite x.
Proof. unfold double_to_int32, finite. destruct x; cbn; intro H; try discriminate H; reflexivity. Qed.
Lemma tick_order_all a b t c : (t < a)%nat -> (c < b)%nat -> In (t, c) (tick_order a b).
Proof. intros. unfold tick_order. apply in_flat_map. exists t. split; [apply in_seq; lia|]. apply in_map. apply in_seq. lia. Qed.
Lemma push_ok nch bits max h w data f r w' : pos_conf nch bits max -> ok_wav nch bits max h w data -> push_frame f w = (r, w') ->
  (r = Ok tt /\ w_open w = true /\ good_frame nch max f /\ ok_wav nch bits max h w' (data ++ given bits (WPush f)) /\ w_open w' = true \/
   (exists c, r = Err c) /\ ok_wav nch bits max h w' data /\ w_open w' = w_open w /\ (w_open w = false \/ ~ good_frame nch max f)).
Proof.
  intros P K H. destruct (bits_of _ _ _ P) as (n & Hn & E1 & E2 & E3). pose proof P as (P1 & P2 & _). unfold push_frame in H. rewrite (k_state _ _ _ _ _ _ K), (k_nch _ _ _ _ _ _ K), (k_max _ _ _ _ _ _ K) in H.
  destruct (w_open w) eqn:Eo; cbn [negb] in H; [|injection H as <- <-; right; split; [eauto|]; rewrite Eo; auto].
  destruct (Z.eqb_spec (zlen f) nch) as [L|L]; cbn [negb] in H; [|injection H as <- <-; right; split; [eauto|]; split; [exact K|]; split; [exact Eo|]; right; intros (Q & _); auto].
  destruct (forallb _ f) eqn:F; cbn [negb] in H.
  2:{ injection H as <- <-. right. split; [eauto|]. split; [exact K|]. split; [exact Eo|]. right. intros (_ & S & M & _). assert (forallb (fun ch : list double => (zlen ch =? ticks_of f) && (zlen ch <=? max)) f = true) as X; [|congruence].
      apply forallb_forall. intros ch Hc. unfold same_ticks in S. rewrite Forall_forall in S. rewrite (S ch Hc). lia. }
  rewrite forallb_forall in F. assert (S : same_ticks f (ticks_of f)) by (apply Forall_forall; intros ch Hc; specialize (F ch Hc); cbv beta in F; lia).
  assert (T0 : 0 <= ticks_of f) by (unfold ticks_of; destruct f; unfold zlen; lia). assert (M : ticks_of f <= max). { destruct f as [|ch f]; [exact P2|]. specialize (F ch ltac:(now left)). cbn [ticks_of] in *. lia. }
  unfold push_derived in H. replace (forallb (fun ch => zlen ch =? ticks_of f) f) with true in H by (symmetry; apply forallb_forall; intros ch Hc; specialize (F ch Hc); cbv beta in F; lia). cbn [negb] in H. rewrite (k_bits _ _ _ _ _ _ K) in H.
  pose proof (tick_order_len (Z.to_nat (ticks_of f)) (length f)) as Lo. rewrite Z2Nat.id in Lo by exact T0. fold (zlen f) in Lo. rewrite L in Lo.
  assert (Bo : 0 + n * zlen (tick_order (Z.to_nat (ticks_of f)) (length f)) <= zlen (w_buf w)) by (rewrite Lo, (k_buf _ _ _ _ _ _ K), E1; nia).
  assert (Or : Forall (fun p => exists a, at_ct f (snd p) (fst p) = Ok a) (tick_order (Z.to_nat (ticks_of f)) (length f))).
  { apply Forall_forall. intros [t c] Hin. destruct (order_fetch f _ t c S Hin) as (ch & a & _ & _ & Ea). eauto. }
  pose proof (write_samples_calm f n false Hn _ (w_buf w) 0 Or ltac:(lia) Bo) as C. pose proof (write_samples_len double_to_int32 f bits false (tick_order (Z.to_nat (ticks_of f)) (length f)) (w_buf w) 0) as Lw. rewrite <- E2 in C.
  destruct (write_samples double_to_int32 f bits false _ (w_buf w) 0) as [[r0 b] p] eqn:W. assert (K' : forall d, ok_wav nch bits max h w d -> ok_wav nch bits max h (mkWav (w_nch w) bits (w_max w) (w_header w) (w_taking w) (w_open w) (w_disk w) (w_total w) b) d).
  { intros d [k1 k2 k3 k4 k5 k6 k7 k8]. constructor; cbn [w_nch w_bits w_max w_header w_taking w_open w_disk w_total w_buf]; auto. lia. }
  destruct r0 as [[]|c| | |]; try contradiction.
  - pose proof (samples_good _ _ _ _ _ _ _ _ _ W) as G. assert (Fin : Forall (Forall finite) f).
    { apply Forall_forall. intros ch Hc. apply Forall_forall. intros x Hx. apply In_nth_error in Hc as (c & Hc). apply In_nth_error in Hx as (t & Hx). rewrite Forall_forall in G.
      assert (t < length ch)%nat as Lt by (apply nth_error_Some; congruence). assert (c < length f)%nat as Lc by (apply nth_error_Some; congruence). assert (zlen ch = ticks_of f) as Lch. { unfold same_ticks in S. rewrite Forall_forall in S. apply S. exact (nth_error_In _ _ Hc). }
      destruct (G (t, c)) as (a & v & A1 & A2); [apply tick_order_all; [unfold zlen in Lch; lia|exact Lc]|]. cbn [fst snd] in A1. unfold at_ct in A1. rewrite Hc, Hx in A1. injection A1 as <-. exact (finite_of _ _ A2). }
    destruct (write_samples_ok double_to_int32 pcm_value f n false Hn (tick_order (Z.to_nat (ticks_of f)) (length f)) (w_buf w) 0) as [E L']; [|lia|exact Bo|].
    { apply Forall_forall. intros [t c] Hin. destruct (order_fetch f _ t c S Hin) as (ch & a & I1 & I2 & Ea). exists a. split; [exact Ea|]. apply double_to_int32_val. rewrite Forall_forall in Fin. specialize (Fin _ I1). rewrite Forall_forall in Fin. apply Fin. exact I2. }
    rewrite <- E2, W, (order_frame _ _ _ f (B754_zero false) _ S) in E. rewrite (order_frame _ _ _ f (B754_zero false) _ S) in L'. injection E as Eb Ep. set (bytes := frame_bytes n false pcm_value (B754_zero false) f (ticks_of f)) in *.
    assert (Fb : firstn (Z.to_nat p) b = bytes). { rewrite Eb, Ep. change (Z.to_nat 0) with O. unfold splice. cbn [firstn app Nat.add]. replace (Z.to_nat (0 + _)) with (length bytes) by (unfold zlen in *; lia). apply firstn_app_l || (rewrite firstn_app, Nat.sub_diag, firstn_all; cbn [firstn]; apply app_nil_r). }
    rewrite Fb in H. destruct (write_ok _ _ _ _ _ _ _ _ _ P (K' _ K) H) as [(-> & A1 & A2 & A3 & A4)|((c & ->) & -> & [A|A])].
    + left. split; [reflexivity|]. split; [reflexivity|]. split; [repeat split; auto|]. unfold given. rewrite E1. auto.
    + cbn [w_open] in A. congruence.
    + contradiction A. exists (ticks_of f). split; [lia|]. rewrite L', Lo, E1. ring.
  - injection H as <- <-. right. split; [eauto|]. split; [apply K'; exact K|]. split; [reflexivity || exact Eo|]. right. intros (_ & _ & _ & Fin).
    destruct (write_samples_ok double_to_int32 pcm_value f n false Hn (tick_order (Z.to_nat (ticks_of f)) (length f)) (w_buf w) 0) as [E _]; [|lia|exact Bo|rewrite <- E2, W in E; discriminate E].
    apply Forall_forall. intros [t c'] Hin. destruct (order_fetch f _ t c' S Hin) as (ch & a & I1 & I2 & Ea). exists a. split; [exact Ea|]. apply double_to_int32_val. rewrite Forall_forall in Fin. specialize (Fin _ I1). rewrite Forall_forall in Fin. apply Fin. exact I2.
Qed.
Lemma skip_head (a b : list Z) : skipn (length a) (a ++ b) = b.
Proof. rewrite skipn_app, Nat.sub_diag, skipn_all. reflexivity. Qed.
Lemma finalize_ok nch bits max h w data : ok_wav nch bits max h w data -> ok_wav nch bits max h (finalize_file hdr (mkWav (w_nch w) (w_bits w) (w_max w) (w_header w) false (w_open w) (w_disk w) (w_total w) (w_buf w))) data.
Proof.
  intros [k1 k2 k3 k4 k5 k6 k7 k8]. unfold finalize_file. cbn [w_nch w_bits w_max w_header w_taking w_open w_disk w_total w_buf]. destruct (w_open w) eqn:Eo; constructor; cbn [w_nch w_bits w_max w_header w_taking w_open w_disk w_total w_buf]; auto.
  - rewrite k8, k4. f_equal. destruct h; [|reflexivity]. f_equal. rewrite (Hhdr (w_total w)). apply skip_head.
Qed.
Lemma call_ok nch bits max h w data c r w' : pos_conf nch bits max -> ok_wav nch bits max h w data -> c <> WAbort -> wav_call hdr c w = (r, w') ->
  (r = Ok tt \/ exists e, r = Err e) /\ ok_wav nch bits max h w' (data ++ match r with Ok _ => given bits c | _ => [] end) /\
  w_open w' = w_open w && negb (match c with WFlush => true | _ => false end) /\
  (r = Ok tt <-> w_open w = true /\ match c with WPush f => good_frame nch max f | WWrite b => good_bytes nch bits max b | _ => True end).
Proof.
  intros P K N H. destruct c as [f|b| |]; cbn [wav_call] in H; [| | |congruence].
  - destruct (push_ok _ _ _ _ _ _ _ _ _ P K H) as [(-> & A1 & A2 & A3 & A4)|((e & ->) & A1 & A2 & A3)].
    + rewrite A1, A4. split; [auto|]. split; [exact A3|]. split; [reflexivity|]. split; auto.
    + rewrite app_nil_r, A2. split; [eauto|]. split; [exact A1|]. split; [destruct (w_open w); reflexivity|]. split; [discriminate|]. intros (B1 & B2). destruct A3; [congruence|contradiction].
  - destruct (write_ok _ _ _ _ _ _ _ _ _ P K H) as [(-> & A1 & A2 & A3 & A4)|((e & ->) & -> & A3)].
    + rewrite A1, A4. split; [auto|]. split; [exact A3|]. split; [reflexivity|]. split; auto.
    + rewrite app_nil_r. split; [eauto|]. split; [exact K|]. split; [destruct (w_open w); reflexivity|]. split; [discriminate|]. intros (B1 & B2). destruct A3; [congruence|contradiction].
  - unfold wav_flush in H. rewrite (k_state _ _ _ _ _ _ K) in H. destruct (w_open w) eqn:Eo; cbn [negb] in H; injection H as <- <-.
    + cbn [given]. rewrite app_nil_r. pose proof (finalize_ok _ _ _ _ _ _ K) as F. rewrite Eo in F. split; [auto|]. split; [exact F|]. split; [reflexivity|]. tauto.
    + rewrite app_nil_r, Eo. split; [eauto|]. split; [exact K|]. split; [reflexivity|]. split; [discriminate|]. intros (B1 & _). discriminate B1.
Qed.
Lemma run_ok nch bits max h : pos_conf nch bits max -> forall l w data rs w', ok_wav nch bits max h w data -> no_abort l -> wav_run hdr l w = (rs, w') ->
  Forall (fun r => r = Ok tt \/ exists e, r = Err e) rs /\ length rs = length l /\ ok_wav nch bits max h w' (data ++ accepted bits l rs) /\ w_open w' = w_open w && negb (flushed l).
Proof.
  intro P. induction l as [|c l IH]; intros w data rs w' K N H; cbn [wav_run] in H.
  - injection H as <- <-. cbn [accepted flushed existsb]. rewrite app_nil_r, andb_true_r. auto.
  - inversion N as [|? ? N1 N2]; subst. destruct (wav_call hdr c w) as [r w1] eqn:E1. destruct (wav_run hdr l w1) as [rs1 w2] eqn:E2. injection H as <- <-.
    destruct (call_ok _ _ _ _ _ _ _ _ _ P K N1 E1) as (A1 & A2 & A3 & _). destruct (IH _ _ _ _ A2 N2 E2) as (B1 & B2 & B3 & B4).
    split; [constructor; auto|]. split; [cbn [length]; congruence|]. cbn [accepted]. rewrite <- app_assoc in B3. split; [exact B3|]. rewrite B4, A3. cbn [flushed existsb]. unfold flushed. destruct c, (w_open w); reflexivity.
Qed.
Lemma created nch bits max h w : pos_conf nch bits max -> wav_create hdr nch bits max h = Some w -> ok_wav nch bits max h w [] /\ w_open w = true.
Proof.
  intros P H. destruct (bits_of _ _ _ P) as (n & Hn & E1 & _). destruct P as (P1 & P2 & _). unfold wav_create in H. destruct (_ || _); [|discriminate H]. injection H as <-. split; [|reflexivity].
  constructor; cbn [w_nch w_bits w_max w_header w_taking w_open w_disk w_total w_buf]; auto.
  - unfold zlen. rewrite repeat_length, E1. rewrite Z2Nat.id by nia. reflexivity.
  - rewrite app_nil_r. reflexivity.
Qed.
(* Whatever is called (but Abort): the file is a header for the samples of the successful calls, and these samples in order. *)
Theorem C72_file : forall nch bits max h w0 l rs w, pos_conf nch bits max -> wav_create hdr nch bits max h = Some w0 -> no_abort l -> wav_run hdr l w0 = (rs, w) ->
  let data := accepted bits l rs in
  length rs = length l /\ Forall (fun r => r = Ok tt \/ exists e, r = Err e) rs /\
  exists n, n * (bits / 8) = zlen data /\ w_disk (wav_destroy hdr w) = Some ((if h then hdr n else []) ++ data) /\
    (flushed l = true -> w_disk w = Some ((if h then hdr n else []) ++ data)).
Proof.
  intros nch bits max h w0 l rs w P C N R. cbv zeta. destruct (created _ _ _ _ _ P C) as (K & O0). destruct (run_ok _ _ _ _ P _ _ _ _ _ K N R) as (A1 & A2 & A3 & A4). rewrite O0 in A4. cbn [app andb] in *.
  split; [exact A2|]. split; [exact A1|]. exists (w_total w). split; [exact (k_total _ _ _ _ _ _ A3)|]. split.
  - unfold wav_destroy. pose proof (k_disk _ _ _ _ _ _ (finalize_ok _ _ _ _ _ _ A3)) as F. unfold finalize_file in *. cbn [w_nch w_bits w_max w_header w_taking w_open w_disk w_total w_buf] in F.
    destruct (w_open w) eqn:Eo; cbn [w_disk w_open w_total] in *; [exact F|]. rewrite (k_disk _ _ _ _ _ _ A3), Eo. reflexivity.
  - intro Fl. rewrite Fl in A4. cbn [negb] in A4. rewrite (k_disk _ _ _ _ _ _ A3), A4. reflexivity.
Qed.
(* Which calls are successful: before Flush, those whose samples fit. *)
Theorem C72_accepts : forall nch bits max h w0 l rs w c, pos_conf nch bits max -> wav_create hdr nch bits max h = Some w0 -> no_abort (l ++ [c]) -> wav_run hdr l w0 = (rs, w) ->
  (fst (wav_call hdr c w) = Ok tt <-> flushed l = false /\ match c with WPush f => good_frame nch max f | WWrite b => good_bytes nch bits max b | _ => True end).
Proof.
  intros nch bits max h w0 l rs w c P C N R. apply Forall_app in N as (N1 & N2). inversion N2 as [|? ? N3 _]; subst. destruct (created _ _ _ _ _ P C) as (K & O0). destruct (run_ok _ _ _ _ P _ _ _ _ _ K N1 R) as (_ & _ & A3 & A4). rewrite O0 in A4. cbn [andb] in A4.
  destruct (wav_call hdr c w) as [r w'] eqn:E. destruct (call_ok _ _ _ _ _ _ _ _ _ P A3 N3 E) as (_ & _ & _ & Q). cbn [fst]. rewrite Q, A4. destruct (flushed l); cbn [negb]; intuition congruence.
Qed.
(* After Abort the file is gone, and stays so; samples are refused. *)
Definition dead (nch bits max : Z) (w : wav) : Prop :=
  w_nch w = nch /\ w_bits w = bits /\ w_max w = max /\ w_open w = false /\ w_disk w = None /\ zlen (w_buf w) = nch * max * (bits / 8).
Lemma dead_call nch bits max w c r w' : pos_conf nch bits max -> dead nch bits max w -> c <> WAbort -> wav_call hdr c w = (r, w') ->
  dead nch bits max w' /\ (c = WFlush /\ r = Ok tt \/ exists e, r = Err e).
Proof.
  intros P D N H. destruct (bits_of _ _ _ P) as (n & Hn & E1 & E2 & E3). destruct P as (P1 & P2 & _). pose proof D as (D1 & D2 & D3 & D4 & D5 & D6). destruct c as [f|b| |]; cbn [wav_call] in H; [| | |congruence].
  - unfold push_frame in H. destruct (w_taking w); cbn [negb] in H; [|injection H as <- <-; eauto]. destruct (zlen f =? w_nch w) eqn:L; cbn [negb] in H; [|injection H as <- <-; eauto].
    destruct (forallb _ f) eqn:F; cbn [negb] in H; [|injection H as <- <-; eauto]. rewrite forallb_forall in F. unfold push_derived in H. destruct (forallb (fun ch => zlen ch =? ticks_of f) f) eqn:F2; cbn [negb] in H; [|injection H as <- <-; eauto].
    assert (S : same_ticks f (ticks_of f)) by (apply Forall_forall; intros ch Hc; rewrite forallb_forall in F2; specialize (F2 ch Hc); cbv beta in F2; lia).
    assert (T0 : 0 <= ticks_of f) by (unfold ticks_of; destruct f; unfold zlen; lia). assert (M : ticks_of f <= max). { destruct f as [|ch f]; [exact P2|]. specialize (F ch ltac:(now left)). cbn [ticks_of] in *. lia. }
    pose proof (tick_order_len (Z.to_nat (ticks_of f)) (length f)) as Lo. rewrite Z2Nat.id in Lo by exact T0. fold (zlen f) in Lo. rewrite D2 in H.
    assert (Bo : 0 + n * zlen (tick_order (Z.to_nat (ticks_of f)) (length f)) <= zlen (w_buf w)) by (rewrite Lo, D6, E1; nia).
    assert (Or : Forall (fun p => exists a, at_ct f (snd p) (fst p) = Ok a) (tick_order (Z.to_nat (ticks_of f)) (length f))).
    { apply Forall_forall. intros [t c] Hin. destruct (order_fetch f _ t c S Hin) as (ch & a & _ & _ & Ea). eauto. }
    pose proof (write_samples_calm f n false Hn _ (w_buf w) 0 Or ltac:(lia) Bo) as C. rewrite <- E2 in C. pose proof (write_samples_len double_to_int32 f bits false (tick_order (Z.to_nat (ticks_of f)) (length f)) (w_buf w) 0) as Lw.
    destruct (write_samples double_to_int32 f bits false _ (w_buf w) 0) as [[r0 b] p]. destruct r0 as [[]|e| | |]; try contradiction.
    + unfold write_internal in H. cbn [w_open] in H. rewrite D4 in H. cbn [negb] in H. injection H as <- <-. split; [|eauto]. repeat split; cbn [w_nch w_bits w_max w_open w_disk w_buf]; auto; lia.
    + injection H as <- <-. split; [|eauto]. repeat split; cbn [w_nch w_bits w_max w_open w_disk w_buf]; auto; lia.
  - unfold write_internal in H. rewrite D4 in H. cbn [negb] in H. injection H as <- <-. eauto.
  - unfold wav_flush in H. destruct (w_taking w); cbn [negb] in H; injection H as <- <-; [|eauto]. unfold finalize_file. cbn [w_open]. rewrite D4. split; [|auto]. repeat split; auto.
Qed.
Theorem C72_abort : forall nch bits max h w0 l rs w l2 rs2 w2, pos_conf nch bits max -> wav_create hdr nch bits max h = Some w0 -> no_abort l -> flushed l = false -> wav_run hdr l w0 = (rs, w) ->
  fst (wav_abort w) = Ok tt /\ (no_abort l2 -> wav_run hdr l2 (snd (wav_abort w)) = (rs2, w2) ->
  w_disk w2 = None /\ w_disk (wav_destroy hdr w2) = None /\ Forall2 (fun c r => c = WFlush /\ r = Ok tt \/ exists e, r = Err e) l2 rs2).
Proof.
  intros nch bits max h w0 l rs w l2 rs2 w2 P C N Fl R. destruct (created _ _ _ _ _ P C) as (K & O0). destruct (run_ok _ _ _ _ P _ _ _ _ _ K N R) as (_ & _ & A3 & A4). rewrite O0, Fl in A4. cbn [andb negb] in A4.
  unfold wav_abort. rewrite A4. cbn [fst snd]. split; [reflexivity|]. intros N2 R2.
  assert (D : dead nch bits max (mkWav (w_nch w) (w_bits w) (w_max w) (w_header w) (w_taking w) false None (w_total w) (w_buf w))) by (destruct A3; repeat split; cbn [w_nch w_bits w_max w_open w_disk w_buf]; auto).
  set (wd := mkWav _ _ _ _ _ _ _ _ _) in *. clearbody wd. clear - Hhdr P D N2 R2. revert wd rs2 w2 D N2 R2. induction l2 as [|c l2 IH]; intros wd rs2 w2 D N2 R2; cbn [wav_run] in R2.
  - injection R2 as <- <-. destruct D as (_ & _ & _ & D4 & D5 & _). unfold wav_destroy, finalize_file. rewrite D4. auto.
  - inversion N2 as [|? ? N3 N4]; subst. destruct (wav_call hdr c wd) as [r w1] eqn:E1. destruct (wav_run hdr l2 w1) as [rs1 w3] eqn:E2. injection R2 as <- <-. destruct (dead_call _ _ _ _ _ _ _ P D N3 E1) as (D' & Q). destruct (IH _ _ _ D' N4 E2) as (B1 & B2 & B3). auto.
Qed.
End Wav.
(* ---- examples ---- *)
Definition ex_hdr (n : Z) : list Z := [82; n mod 256].
Definition ex_frame : list (list double) := [[dbl 1 (-1); dbl (-1) 0]; [dbl 1 (-2); dbl 3 0]].
Lemma ex_hdr_length : forall n, length (ex_hdr n) = length (ex_hdr 0).
Proof. reflexivity. Qed.
Lemma ex_wav : exists w0 w, wav_create ex_hdr 2 16 4 true = Some w0 /\ pos_conf 2 16 4 /\ no_abort [WPush ex_frame; WPush [[]]; WWrite [1; 2; 3; 4]; WWrite [1; 2]; WFlush; WWrite [5; 6; 7; 8]] /\
  wav_run ex_hdr [WPush ex_frame; WPush [[]]; WWrite [1; 2; 3; 4]; WWrite [1; 2]; WFlush; WWrite [5; 6; 7; 8]] w0 =
    ([Ok tt; Err InvalidArgument; Ok tt; Err InvalidArgument; Ok tt; Err FailedPrecondition], w) /\
  w_disk w = Some [82; 6; 0; 64; 0; 32; 0; 128; 255; 127; 1; 2; 3; 4].
Proof.
  eexists _, _. split; [reflexivity|]. split; [unfold pos_conf; lia|]. split; [repeat constructor; discriminate|]. split; vm_compute; reflexivity.
Qed.
(* Abort of a writer which is closed passes a null pointer to std::fclose; a writer for no channels divides by 0 *)
Lemma C72_abort_closed_refuted : exists w0 rs w, wav_create ex_hdr 2 16 4 true = Some w0 /\ wav_run ex_hdr [WFlush; WAbort] w0 = (rs, w) /\ rs = [Ok tt; UB].
Proof. eexists _, _, _. split; [reflexivity|]. split; reflexivity. Qed.
Lemma C72_no_channels_refuted : exists w0, wav_create ex_hdr 0 16 4 true = Some w0 /\ fst (wav_call ex_hdr (WWrite [1]) w0) = UB.
Proof. eexists. split; reflexivity. Qed.
