(* C13-C20: OBU header, framing and the simple OBUs. *)
From Verif Require Import Base WriteBuf ReadBuf Leb BufSpec LebSpec BitFacts WriteBufFacts ReadBufFacts LebFacts
  ParseFacts EndToEnd ObuHeader ObuHeaderFacts FrameFacts SeqFacts SimpleObus.

(* ------------------------------------------------------------------ C13 *)
(* [norm_header h] is h with the trims zeroed when the header does not carry them (ObuHeaderFacts.v). *)
Theorem C13_header_round_trip : forall g h payload_size,
  lebgen_wf g -> header_wf h ->
  reads_back (write_header g h payload_size) read_header (norm_header h, payload_size).
Proof.
  intros g h n Hg Hh. apply reads_back_intro; [apply write_header_wf; assumption|].
  intros bs E. eapply parses_header; eassumption.
Qed.

(* The same header comes back whenever the trimming flag applies, or it carried no trims. *)
Theorem C13_nothing_lost : forall h,
  (is_audio_frame (h_type h) = true /\ h_flag h = true) \/ (h_trim_end h = 0 /\ h_trim_start h = 0) -> norm_header h = h.
Proof.
  intros h H. unfold norm_header, trimming_flag. destruct H as [[-> ->]|[E1 E2]]; [reflexivity|].
  destruct (is_audio_frame (h_type h)); [destruct (h_flag h) eqn:F; [reflexivity|]|]; destruct h; cbn in *; congruence.
Qed.

Example C13_ex :
  let h := mkH 7 false true 300 5 (Some [1; 2; 3]) in
  let w2 := snd (wrun (write_header (LebFixed 2) h 1000) w_empty) in
  header_wf h /\ wrun (write_header (LebFixed 2) h 1000) w_empty = (Ok tt, w2) /\ w_off w2 = 96 /\
  fst (crun 8 (read_at 0 read_header) (r_create 3 (w_bytes w2))) = Ok (h, 1000, 96).
Proof. split; [repeat split; try (cbn; lia); repeat constructor; lia|]. vm_compute. repeat split. Qed.

(* ------------------------------------------------------------------ C14 *)
(* Whatever the payload writer: a written OBU is a first byte (type and flags), the ULEB128 of obu_size, and exactly
   obu_size more bytes; all of it within 2 MiB. *)
Theorem C14_obu_size_exact : forall g h payload footer before w1 w2,
  lebgen_wf g -> header_wf h -> Forall winstr_wf payload -> Forall byteP footer ->
  Forall winstr_wf before -> wrun before w_empty = (Ok tt, w1) ->
  wrun (write_obu g h payload footer) w1 = (Ok tt, w2) ->
  exists size_bytes rest,
    skipn (Z.to_nat (w_off w1)) (firstn (Z.to_nat (w_off w2)) (bytes_bits (w_bytes w2))) =
      bits 5 (h_type h) ++ [h_red h; h_flag h; ext_flag h] ++ bytes_bits size_bytes ++ rest /\
    is_leb size_bytes /\ zlen rest = 8 * uleb_value size_bytes /\
    w_off w2 - w_off w1 = 8 * (1 + zlen size_bytes + uleb_value size_bytes) /\
    1 + zlen size_bytes + uleb_value size_bytes <= 2^21.
Proof.
  intros g h payload footer before w1 w2 Hg Hh Hp Hf Hb E1 E2.
  destruct (wrun_holds _ _ Hb E1) as (pre & _ & H1).
  pose proof (write_obu_wf g h payload footer Hg Hh Hp Hf) as Hw.
  destruct (wrun_spec _ w1 pre Hw H1) as [S1 S2]. rewrite E2 in S1, S2. cbn [fst snd] in *.
  destruct (wbits (write_obu g h payload footer)) as [bs| | | |] eqn:Ew; try discriminate. specialize (S2 bs eq_refl).
  destruct (holds_bits _ _ S2) as [_ (k & Bk)].
  destruct (write_obu_ok _ _ _ _ _ Hp Hf Ew) as (pb & hb & _ & Hm & Eh & ->).
  destruct (write_header_ok _ _ _ _ Hg Hh Eh) as (te & ts & ls & lb & lo & _ & _ & Elo & Hn & _ & -> & Hle & _).
  set (tail := te ++ ts ++ ls ++ lb) in *. pose proof Elo as (_ & L & V & _).
  exists lo, (bytes_bits tail ++ pb ++ bytes_bits footer).
  rewrite (holds_off _ _ H1), (holds_off _ _ S2), Bk. unfold zlen. rewrite !Nat2Z.id, firstn_app_exact, skipn_app_exact.
  rewrite V. unfold zlen in *. unfold first_byte in *. rewrite !app_length, !bytes_bits_length, bits_length in *. cbn [length] in *.
  split; [rewrite <- !app_assoc; reflexivity|]. split; [exact L|]. split; [lia|]. split; [lia|]. lia.
Qed.

Example C14_ex :
  fst (wrun (write_obu LebMin (mkH 4 false false 0 0 None) [] (repeat 7 200)) w_empty) = Ok tt /\
  w_off (snd (wrun (write_obu LebMin (mkH 4 false false 0 0 None) [] (repeat 7 200)) w_empty)) = 8 * (1 + 2 + 200).
Proof. vm_compute. split; reflexivity. Qed.

(* ------------------------------------------------------------------ C15 *)
Lemma arun_peek c : cok c ->
  arun peek_header c =
  match arun fill_header_metadata (mkC (c_bits c) (c_pos c) (Some true)) with
  | (Ok x, _) => (Ok x, mkC (c_bits c) (c_pos c) (Some true))
  | (Err e, _) => (Err e, mkC (c_bits c) (c_pos c) (Some true))
  | (Abort, c') => (Abort, c') | (UB, c') => (UB, c') | (Diverge, c') => (Diverge, c')
  end.
Proof.
  intro Hc. unfold peek_header. rewrite arun_bind, arun_rtell, arun_bind, arun_catch.
  set (c0 := mkC (c_bits c) (c_pos c) (Some true)).
  destruct (arun_valid fill_header_metadata c0 eq_refl) as [V _]. pose proof (arun_bits fill_header_metadata c0) as B.
  destruct (arun fill_header_metadata c0) as [[x|e| | |] [b p v]]; try reflexivity; cbn [snd c_valid c_bits] in V, B; subst v b;
    rewrite arun_bind, arun_rseek_ok by (unfold cok in Hc; unfold zlen, c0; cbn [c_bits c_pos]; lia); rewrite Nat2Z.id; reflexivity.
Qed.

(* Peeking never moves the reading position, at any reachable state of a reader of any capacity, whatever the outcome. *)
Theorem C15_peek_consumes_nothing : forall (A : Type) (p : rprog A) src cap fuel,
  Forall byteP src -> (1 <= cap)%nat -> (8 <= fuel)%nat ->
  let r := snd (crun fuel p (r_create cap src)) in
  fst (r_tell (snd (crun fuel peek_header r))) = fst (r_tell r).
Proof.
  intros A p src cap fuel Hs Hc Hf r. pose proof (rrel_create cap src Hc Hs) as R0.
  destruct (crun_refines fuel p Hf _ _ R0) as [_ R]. fold r in R. set (c := snd (arun p _)) in R.
  destruct (crun_refines fuel peek_header Hf _ _ R) as [_ R2].
  destruct (rrel_tell _ _ R) as [-> _]. destruct (rrel_tell _ _ R2) as [-> _]. f_equal.
  rewrite arun_peek by (exact (rrel_pos_le _ _ R)).
  destruct (arun_valid fill_header_metadata (mkC (c_bits c) (c_pos c) (Some true)) eq_refl) as [_ V].
  destruct (arun fill_header_metadata _) as [[x|e| | |] c1]; cbn [fst snd c_pos] in *; try reflexivity;
    destruct V as [[a V]|[e V]]; discriminate.
Qed.

Lemma arun_fill c : cok c -> (8 <= length (c_bits c) - c_pos c)%nat ->
  arun fill_header_metadata c =
  match arun ruleb_sz (mkC (c_bits c) (c_pos c + 8) (Some true)) with
  | (Ok x, c') => (Ok (ofbits (firstn 5 (skipn (c_pos c) (c_bits c))), u32 (fst x + snd x + 1)), c')
  | (Err e, c') => (Err e, c') | (Abort, c') => (Abort, c') | (UB, c') => (UB, c') | (Diverge, c') => (Diverge, c')
  end.
Proof.
  intros Hc H8. unfold fill_header_metadata, cok in *.
  rewrite arun_bind, arun_lit by (try assumption; reflexivity). change (Z.to_nat 5) with 5%nat.
  replace (5 <=? length (c_bits c) - c_pos c)%nat with true by lia.
  unfold rbool.
  rewrite arun_bind, arun_bind, arun_lit by (unfold cok; cbn [c_bits c_pos]; try reflexivity; lia). cbn [c_bits c_pos].
  change (Z.to_nat 1) with 1%nat. replace (1 <=? length (c_bits c) - (c_pos c + 5))%nat with true by lia. cbn [arun].
  rewrite arun_bind, arun_bind, arun_lit by (unfold cok; cbn [c_bits c_pos]; try reflexivity; lia). cbn [c_bits c_pos].
  change (Z.to_nat 1) with 1%nat. replace (1 <=? length (c_bits c) - (c_pos c + 5 + 1))%nat with true by lia. cbn [arun].
  rewrite arun_bind, arun_bind, arun_lit by (unfold cok; cbn [c_bits c_pos]; try reflexivity; lia). cbn [c_bits c_pos].
  change (Z.to_nat 1) with 1%nat. replace (1 <=? length (c_bits c) - (c_pos c + 5 + 1 + 1))%nat with true by lia. cbn [arun].
  rewrite arun_bind. replace (c_pos c + 5 + 1 + 1 + 1)%nat with (c_pos c + 8)%nat by lia.
  destruct (arun ruleb_sz (mkC (c_bits c) (c_pos c + 8) (Some true))) as [[[o k]|e| | |] c']; reflexivity.
Qed.

(* All outcomes of peeking at bit position [p] of arbitrary data.  "truncated": fewer than 8 bits remain, or after the
   first byte the data ends inside the size field. *)
Theorem C15_peek_outcomes : forall src cap fuel p,
  Forall byteP src -> (1 <= cap)%nat -> (8 <= fuel)%nat -> 0 <= p <= 8 * zlen src ->
  let outcome := fst (crun fuel (read_at p peek_header) (r_create cap src)) in
  let rem := skipn (Z.to_nat p) (bytes_bits src) in
  (outcome = Err ResourceExhausted /\
     ((length rem < 8)%nat \/ exists l rest, skipn 8 rem = bytes_bits l ++ rest /\ (length rest < 8)%nat /\ (length l < 8)%nat /\
                                             Forall (fun b => 128 <= b < 256) l)) \/
  (outcome = Err InvalidArgument /\ (8 <= length rem)%nat) \/
  (exists l rest, (8 <= length rem)%nat /\ skipn 8 rem = bytes_bits l ++ rest /\ is_leb l /\ (length l <= 8)%nat /\ uleb_value l < 2^32 /\
     outcome = Ok ((ofbits (firstn 5 rem), (1 + zlen l + uleb_value l) mod 2^32), p)).
Proof.
  intros src cap fuel p Hs Hcap Hf Hp outcome rem. unfold outcome. rewrite crun_read_at by assumption.
  set (c := mkC (bytes_bits src) (Z.to_nat p) (Some true)).
  assert (cok c) as Hc by (unfold cok, c, zlen in *; cbn [c_bits c_pos]; rewrite bytes_bits_length; lia).
  assert (length rem = (length (c_bits c) - c_pos c)%nat) as Lr by (unfold rem, c; cbn [c_bits c_pos]; rewrite skipn_length; reflexivity).
  rewrite arun_peek by exact Hc. change (mkC (c_bits c) (c_pos c) (Some true)) with c.
  destruct (Nat.lt_ge_cases (length rem) 8) as [Hlt|Hge].
  - left. split; [|left; exact Hlt].
    assert (exists c', arun fill_header_metadata c = (Err ResourceExhausted, c')) as [c' ->]; [|reflexivity].
    unfold fill_header_metadata, cok in *. rewrite Lr in Hlt.
    rewrite arun_bind, arun_lit by (try assumption; reflexivity). change (Z.to_nat 5) with 5%nat.
    destruct (5 <=? length (c_bits c) - c_pos c)%nat eqn:E5; [|eauto]. unfold rbool.
    rewrite arun_bind, arun_bind, arun_lit by (unfold cok; cbn [c_bits c_pos]; try reflexivity; lia). cbn [c_bits c_pos].
    change (Z.to_nat 1) with 1%nat. destruct (1 <=? length (c_bits c) - (c_pos c + 5))%nat eqn:E6; [|eauto]. cbn [arun].
    rewrite arun_bind, arun_bind, arun_lit by (unfold cok; cbn [c_bits c_pos]; try reflexivity; lia). cbn [c_bits c_pos].
    change (Z.to_nat 1) with 1%nat. destruct (1 <=? length (c_bits c) - (c_pos c + 5 + 1))%nat eqn:E7; [|eauto]. cbn [arun].
    rewrite arun_bind, arun_bind, arun_lit by (unfold cok; cbn [c_bits c_pos]; try reflexivity; lia). cbn [c_bits c_pos].
    change (Z.to_nat 1) with 1%nat. replace (1 <=? length (c_bits c) - (c_pos c + 5 + 1 + 1))%nat with false by lia. eauto.
  - rewrite arun_fill by (try exact Hc; lia).
    set (c8 := mkC (c_bits c) (c_pos c + 8) (Some true)).
    assert (cok c8) as Hc8 by (unfold cok, c8 in *; cbn [c_bits c_pos]; lia).
    assert (skipn 8 rem = skipn (c_pos c8) (c_bits c8)) as E8.
    { unfold rem, c8, c. cbn [c_bits c_pos]. rewrite skipn_skipn'. f_equal. }
    destruct (arun_uleb c8 Hc8) as [(l & rest & v & Er & Hl & L & V & R)|[(l & rest & c2 & Er & Lr2 & Ll & F & R)|(c2 & R)]];
      rewrite R; cbn [at_result c_pos fst snd].
    + right. right. exists l, rest. rewrite E8. split; [lia|]. split; [exact Er|]. split; [exact Hl|]. split; [lia|]. split; [lia|].
      unfold u32. replace (uleb_value l + zlen l + 1) with (1 + zlen l + uleb_value l) by lia.
      unfold c. cbn [c_pos c_bits]. rewrite Z2Nat.id by lia. reflexivity.
    + left. split; [reflexivity|]. right. exists l, rest. rewrite E8. auto.
    + right. left. split; [reflexivity|exact Hge].
Qed.

(* On any OBU produced by the writer: its type and its exact extent. *)
Theorem C15_peek_of_written_obu : forall g h payload footer before w1 w2 after cap fuel,
  lebgen_wf g -> header_wf h -> Forall winstr_wf payload -> Forall byteP footer ->
  Forall winstr_wf before -> wrun before w_empty = (Ok tt, w1) ->
  wrun (write_obu g h payload footer) w1 = (Ok tt, w2) ->
  Forall byteP after -> (1 <= cap)%nat -> (8 <= fuel)%nat ->
  fst (crun fuel (read_at (w_off w1) peek_header) (r_create cap (w_bytes w2 ++ after)))
  = Ok ((h_type h, (w_off w2 - w_off w1) / 8), w_off w1).
Proof.
  intros g h payload footer before w1 w2 after cap fuel Hg Hh Hp Hf Hb E1 E2 Ha Hcap Hfuel.
  destruct (wrun_holds _ _ Hb E1) as (pre & _ & H1).
  pose proof (write_obu_wf g h payload footer Hg Hh Hp Hf) as Hw.
  destruct (wrun_spec _ w1 pre Hw H1) as [S1 S2]. rewrite E2 in S1, S2. cbn [fst snd] in *.
  destruct (wbits (write_obu g h payload footer)) as [bs| | | |] eqn:Ew; try discriminate. specialize (S2 bs eq_refl).
  destruct (holds_bits _ _ S2) as [B2 (k & Bk)].
  destruct (write_obu_ok _ _ _ _ _ Hp Hf Ew) as (pb & hb & _ & Hm & Eh & ->).
  destruct (write_header_ok _ _ _ _ Hg Hh Eh) as (te & ts & ls & lb & lo & _ & _ & Elo & Hn & _ & -> & Hle & _).
  set (tail := te ++ ts ++ ls ++ lb) in *. pose proof Elo as (_ & L & V & N).
  assert (bytes_bits (w_bytes w2 ++ after) =
     pre ++ first_byte h ++ bytes_bits lo ++ (bytes_bits tail ++ pb ++ bytes_bits footer ++ repeat false k ++ bytes_bits after)) as Eb.
  { rewrite bytes_bits_app, Bk, <- !app_assoc. reflexivity. }
  assert (zlen pre <= 8 * zlen (w_bytes w2 ++ after)) as Hle2.
  { pose proof (f_equal (@length bool) Eb) as Q. rewrite bytes_bits_length, (app_length pre) in Q. unfold zlen. lia. }
  rewrite (holds_off _ _ H1), (holds_off _ _ S2). rewrite crun_read_at; try assumption;
    [|apply Forall_app; auto|split; [apply zlen_nonneg|exact Hle2]].
  rewrite Eb. unfold zlen at 1. rewrite Nat2Z.id.
  set (X := bytes_bits tail ++ pb ++ bytes_bits footer ++ repeat false k ++ bytes_bits after).
  assert (length (first_byte h) = 8%nat) as L8 by (unfold first_byte; rewrite app_length, bits_length; reflexivity).
  rewrite arun_peek by (unfold cok; cbn [c_bits c_pos]; rewrite app_length; lia). cbn [c_bits c_pos].
  rewrite arun_fill by (unfold cok; cbn [c_bits c_pos]; rewrite !app_length; lia). cbn [c_bits c_pos].
  pose proof Hle as Hle'. pose proof (zlen_nonneg tail) as Zt. pose proof (zlen_nonneg lo) as Zlo.
  pose proof (zlen_nonneg pb) as Zp. pose proof (zlen_nonneg footer) as Zf.
  set (os := zlen tail + (zlen pb / 8 + zlen footer)) in *.
  destruct (parses_enc_sz g os lo ltac:(change (2^32) with 4294967296; change (2^21) with 2097152 in *; lia) Elo (pre ++ first_byte h) X (Some true)) as [v' P].
  rewrite app_length, L8 in P. rewrite <- !app_assoc in P. rewrite P. cbn [fst snd].
  rewrite skipn_app_exact. unfold first_byte at 1. rewrite <- !app_assoc.
  assert (forall x Y, firstn 5 (bits 5 x ++ Y) = bits 5 x) as F5.
  { intros x Y. pose proof (firstn_app_exact (bits 5 x) Y) as Q. rewrite bits_length in Q. exact Q. }
  rewrite F5.
  pose proof Hh as (Ht & _). rewrite ofbits_bits_small by (change (2^Z.of_nat 5) with 32; exact Ht).
  cbn [at_result c_pos]. do 3 f_equal.
  unfold u32. change (2^32) with 4294967296. change (2^21) with 2097152 in *. rewrite Z.mod_small by lia.
  unfold os, zlen in *. rewrite !app_length, !bytes_bits_length, L8. lia.
Qed.

(* FALSE as stated for arbitrary data (finding F4): the total is computed modulo 2^32.  Five bytes claiming
   obu_size = 2^32 - 1 are reported as an OBU of total size 5 < 1 + 5 + obu_size. *)
Theorem C15_total_size_refuted :
  fst (crun 8 (read_at 0 peek_header) (r_create 8 [0; 255; 255; 255; 255; 15])) = Ok ((0, 5), 0) /\
  is_leb [255; 255; 255; 255; 15] /\ 1 + 5 + uleb_value [255; 255; 255; 255; 15] = 4294967301.
Proof. split; [vm_compute; reflexivity|]. split; [cbn; lia|reflexivity]. Qed.

(* ------------------------------------------------------------------ C16 *)
Lemma arun_rres_ok {A B} (r : res A) (k : A -> rprog B) c b c' :
  arun (rb (rres r) k) c = (Ok b, c') -> exists a, r = Ok a /\ arun (k a) c = (Ok b, c').
Proof. destruct r; cbn [rres rb arun]; try discriminate. eauto. Qed.
Lemma arun_rcheck_ok {B} b e (k : rprog B) c x c' :
  arun (rb (rcheck b e) (fun _ => k)) c = (Ok x, c') -> b = true /\ arun k c = (Ok x, c').
Proof. destruct b; cbn [rcheck rb arun]; [auto|discriminate]. Qed.
Lemma arun_lit_inv n max c v c' : cok c -> legal_width n max = true -> arun (rlit n max) c = (Ok v, c') ->
  c_bits c' = c_bits c /\ c_pos c' = (c_pos c + Z.to_nat n)%nat /\ cok c'.
Proof.
  intros Hc Hw E. rewrite arun_lit in E by assumption. destruct (_ <=? _)%nat eqn:El in E; [|discriminate].
  injection E as <- <-. apply Nat.leb_le in El. unfold cok in *. cbn [c_bits c_pos]. repeat split. lia.
Qed.
Lemma arun_bool_inv c v c' : cok c -> arun rbool c = (Ok v, c') ->
  c_bits c' = c_bits c /\ c_pos c' = (c_pos c + 1)%nat /\ cok c'.
Proof.
  intros Hc E. unfold rbool in E. apply arun_bind_ok in E as (a & c1 & E1 & E2). cbn [arun] in E2. injection E2 as <- <-.
  apply (arun_lit_inv 1 64 c a c1 Hc eq_refl E1).
Qed.

(* The true part: an accepted header whose extension is shorter than 2^32 - 24 bytes fits in obu_size: the bytes of the
   header after the size field plus the reported payload size are exactly obu_size (at most 2 MiB in total). *)
Lemma accepted_headers_fit : forall c h payload c',
  (c_pos c <= length (c_bits c))%nat ->
  arun read_header c = (Ok (h, payload), c') ->
  match h_ext h with Some e => zlen e < 2^32 - 24 | None => True end ->
  exists size_bytes, is_leb size_bytes /\ 0 <= payload /\
    Z.of_nat (c_pos c') - Z.of_nat (c_pos c) = 8 * (1 + zlen size_bytes + (uleb_value size_bytes - payload)) /\
    1 + zlen size_bytes + uleb_value size_bytes <= 2^21.
Proof.
  intros c h payload c' Hc E Hx. unfold read_header in E.
  apply arun_bind_ok in E as (t & c1 & E1 & E). apply (arun_lit_inv 5 64 c t c1 Hc eq_refl) in E1 as (B1 & P1 & K1).
  apply arun_bind_ok in E as (red & c2 & E2 & E). apply (arun_bool_inv _ _ _ K1) in E2 as (B2 & P2 & K2).
  apply arun_bind_ok in E as (flag & c3 & E3 & E). apply (arun_bool_inv _ _ _ K2) in E3 as (B3 & P3 & K3).
  apply arun_bind_ok in E as (ext & c4 & E4 & E). apply (arun_bool_inv _ _ _ K3) in E4 as (B4 & P4 & K4).
  apply arun_bind_ok in E as ([os k] & c5 & E5 & E).
  destruct (arun_uleb_ok _ _ _ _ K4 E5) as (lo & r5 & _ & Llo & Vo & Vk & Hk & Ho & P5 & B5 & K5). cbn [fst snd] in E.
  apply arun_rres_ok in E as ([] & Etwo & E). rewrite two_mb_ok in Etwo by lia.
  destruct (os <=? 2^21 - 1 - k) eqn:Elim; [|discriminate].
  apply arun_bind_ok in E as ([[te ke] [ts ks]] & c6 & E6 & E). cbn [fst snd] in E.
  assert (0 <= ke <= 8 /\ 0 <= ks <= 8 /\ Z.of_nat (c_pos c6) = Z.of_nat (c_pos c5) + 8 * (ke + ks) /\ c_bits c6 = c_bits c5 /\ cok c6)
    as (Hke & Hks & P6 & B6 & K6).
  { destruct (trimming_flag _) in E6.
    - apply arun_bind_ok in E6 as ([x kx] & d1 & D1 & E6). apply arun_bind_ok in E6 as ([y ky] & d2 & D2 & E6).
      cbn [arun] in E6. injection E6 as <- <- <- <- <-.
      destruct (arun_uleb_ok _ _ _ _ K5 D1) as (l1 & ? & _ & _ & _ & N1 & H1 & _ & Q1 & S1 & K1').
      destruct (arun_uleb_ok _ _ _ _ K1' D2) as (l2 & ? & _ & _ & _ & N2 & H2 & _ & Q2 & S2 & K2').
      unfold zlen in *. repeat split; try lia; [congruence|exact K2'].
    - cbn [arun] in E6. injection E6 as <- <- <- <- <-. repeat split; try lia. exact K5. }
  apply arun_bind_ok in E as ([xs kx] & c7 & E7 & E). cbn [fst snd] in E.
  assert (0 <= kx <= 8 /\ 0 <= xs < 2^32 /\ Z.of_nat (c_pos c7) = Z.of_nat (c_pos c6) + 8 * kx /\ c_bits c7 = c_bits c6 /\ cok c7 /\
          (ext = false -> xs = 0)) as (Hkx & Hxs & P7 & B7 & K7 & X0).
  { destruct ext.
    - destruct (arun_uleb_ok _ _ _ _ K6 E7) as (l1 & ? & _ & _ & _ & N1 & H1 & V1 & Q1 & S1 & K1').
      unfold zlen in *. repeat split; try lia; [congruence|exact K1'].
    - cbn [arun] in E7. injection E7 as <- <- <-. repeat split; try lia. exact K6. }
  apply arun_rcheck_ok in E as (Eneg & E).
  apply arun_bind_ok in E as (eb & c8 & E8 & E).
  apply arun_rres_ok in E as ([] & _ & E). cbn [arun] in E. injection E as <- <- <-. cbn [h_ext] in Hx.
  assert (match eb with Some e => zlen e = xs | None => xs = 0 end /\
          Z.of_nat (c_pos c8) = Z.of_nat (c_pos c7) + 8 * xs) as (Xe & P8).
  { destruct ext.
    - apply arun_bind_ok in E8 as (b & d & D & E8). cbn [arun] in E8. injection E8 as <- <-.
      pose proof (arun_span (Z.to_nat xs) c7 K7) as S. destruct (_ <=? _)%nat in S.
      + destruct S as (l & v & R & Ll & _). rewrite R in D. injection D as <- <-. cbn [c_pos]. unfold zlen. lia.
      + destruct S as [d' R]. rewrite R in D. discriminate.
    - cbn [arun] in E8. injection E8 as <- <-. rewrite X0 by reflexivity. lia. }
  exists lo. split; [exact Llo|].
  assert (xs + 24 < 2^32) as Hsm by (destruct eb; lia).
  unfold obu_payload_size, u32 in *. change (2^32) with 4294967296 in *. change (2^21) with 2097152 in *.
  rewrite Z.mod_small in * by lia. rewrite <- Vo, <- Vk. 
  change (Z.to_nat 5) with 5%nat in P1. unfold zlen in Vk. lia.
Qed.

Theorem C16_accepted_headers_fit_partial : forall src cap fuel p h payload q,
  Forall byteP src -> (1 <= cap)%nat -> (8 <= fuel)%nat -> 0 <= p <= 8 * zlen src ->
  fst (crun fuel (read_at p read_header) (r_create cap src)) = Ok ((h, payload), q) ->
  match h_ext h with Some e => zlen e < 2^32 - 24 | None => True end ->
  exists size_bytes, is_leb size_bytes /\ 0 <= payload /\
    q - p = 8 * (1 + zlen size_bytes + (uleb_value size_bytes - payload)) /\
    1 + zlen size_bytes + uleb_value size_bytes <= 2^21.
Proof.
  intros src cap fuel p h payload q Hs Hc Hf Hp E Hx. rewrite crun_read_at in E by assumption.
  set (c := mkC (bytes_bits src) (Z.to_nat p) (Some true)) in E.
  destruct (arun read_header c) as [[[h0 n0]|e| | |] c'] eqn:R; cbn [at_result] in E; try discriminate.
  injection E as <- <- <-.
  assert ((c_pos c <= length (c_bits c))%nat) as Hcc by (unfold c, zlen in *; cbn [c_bits c_pos]; rewrite bytes_bits_length; lia).
  destruct (accepted_headers_fit c h0 n0 c' Hcc R Hx) as (l & L & N & Q & M).
  exists l. split; [exact L|]. split; [exact N|]. split; [|exact M].
  rewrite <- Q. unfold c. cbn [c_pos]. rewrite Z2Nat.id by lia. reflexivity.
Qed.

(* FALSE in general (finding F3): an extension size near 2^32 wraps the plausibility check.  obu_size = 10 but the
   extension claims 4294967292 bytes.  The header is not refused: the reader reads on, and either reports "need more data"
   or, given 4 GiB, accepts it with payload size 9. *)
Definition huge_ext_header : list Z := [1; 10; 252; 255; 255; 255; 15].
Theorem C16_huge_extension_refuted : forall tail cap fuel,
  Forall byteP tail -> (1 <= cap)%nat -> (8 <= fuel)%nat ->
  let outcome := fst (crun fuel (read_at 0 read_header) (r_create cap (huge_ext_header ++ tail))) in
  (zlen tail < 4294967292 -> outcome = Err ResourceExhausted) /\
  (4294967292 <= zlen tail -> exists e t, outcome = Ok ((mkH 0 false false 0 0 (Some e), 9), t) /\ zlen e = 4294967292).
Proof.
  intros tail cap fuel Ht Hc Hf outcome. unfold outcome.
  assert (Forall byteP (huge_ext_header ++ tail)) as Hb by (apply Forall_app; split; [repeat constructor; lia|exact Ht]).
  rewrite crun_read_at; try assumption; [|split; [lia|]; pose proof (zlen_nonneg (huge_ext_header ++ tail)); lia].
  set (bt := bytes_bits tail). change (Z.to_nat 0) with 0%nat.
  assert (exists v, arun read_header (mkC (bytes_bits (huge_ext_header ++ tail)) 0 (Some true)) =
    arun (eb <- (b <- rspan (Z.to_nat 4294967292) ;; RRet (Some b)) ;;
          (rres (header_validate (mkH 0 false false 0 0 eb)) ;;; RRet (mkH 0 false false 0 0 eb, 9)))
         (mkC (bytes_bits (huge_ext_header ++ tail)) 56 v)) as [v ->].
  { rewrite bytes_bits_app. fold bt.
    change (bytes_bits huge_ext_header) with
      (bits 5 0 ++ [false] ++ [false] ++ [true] ++ bytes_bits [10] ++ bytes_bits [252; 255; 255; 255; 15]).
    rewrite <- !app_assoc. unfold read_header.
    set (S := bits 5 0 ++ [false] ++ [false] ++ [true] ++ bytes_bits [10] ++ bytes_bits [252; 255; 255; 255; 15] ++ bt).
    assert (forall A B (q : rprog A) (f : A -> rprog B) (R : option bool -> res B * cur) a pre b rest, parses q b a -> S = pre ++ b ++ rest ->
              (forall v', exists v, arun (f a) (mkC S (length (pre ++ b)) v') = R v) ->
              forall v0, exists v, arun (rb q f) (mkC S (length pre) v0) = R v) as STEP.
    { intros A B q f R a pre b rest P E K v0. destruct (P pre rest v0) as [v' Q]. destruct (K v') as [v K']. exists v.
      rewrite arun_bind. rewrite E in *. rewrite Q. rewrite app_length in K'. exact K'. }
    change 0%nat with (length (@nil bool)) at 1.
    eapply STEP; [exact (parses_lit 5 64 0 eq_refl ltac:(lia))|reflexivity|intro v1; cbn beta].
    eapply STEP; [exact (parses_bool false)|reflexivity|intro v2; cbn beta].
    eapply STEP; [exact (parses_bool false)|reflexivity|intro v3; cbn beta].
    eapply STEP; [exact (parses_bool true)|reflexivity|intro v4; cbn beta].
    eapply STEP; [exact (parses_uleb_sz [10] ltac:(cbn; lia) ltac:(cbn; lia) ltac:(cbn; lia))|reflexivity|intro v5; cbn beta].
    change (under_two_megabytes (fst (uleb_value [10], zlen [10])) (snd (uleb_value [10], zlen [10]))) with (@Ok unit tt). cbn [rres rb].
    change (trimming_flag (mkH 0 false false 0 0 None)) with false. cbn iota. cbn [rb].
    eapply STEP; [exact (parses_uleb_sz [252; 255; 255; 255; 15] ltac:(cbn; lia) ltac:(cbn; lia) ltac:(cbn; lia))|reflexivity|intro v6; cbn beta].
    change (obu_payload_size _ _ _ _ _) with 9. change (negb (9 <? 0)) with true. cbn [rcheck rb fst snd].
    exists v6. reflexivity. }
  rewrite arun_bind, arun_bind.
  set (c := mkC (bytes_bits (huge_ext_header ++ tail)) 56 v).
  assert (length (c_bits c) = (8 * (7 + length tail))%nat) as Lc.
  { unfold c. cbn [c_bits]. rewrite bytes_bits_length, app_length. reflexivity. }
  assert (cok c) as Hcc by (unfold cok; rewrite Lc; unfold c; cbn [c_pos]; lia).
  pose proof (arun_span (Z.to_nat 4294967292) c Hcc) as S. rewrite Lc in S. change (c_pos c) with 56%nat in S.
  unfold zlen. split; intro H.
  - replace (8 * Z.to_nat 4294967292 <=? 8 * (7 + length tail) - 56)%nat with false in S by lia.
    destruct S as [c' ->]. reflexivity.
  - replace (8 * Z.to_nat 4294967292 <=? 8 * (7 + length tail) - 56)%nat with true in S by lia.
    destruct S as (l & v' & -> & L & _). cbn [arun]. exists l. eexists. split; [reflexivity|]. rewrite L. lia.
Qed.

(* ------------------------------------------------------------------ C17 *)
(* For ANY payload parser and any starting point: success consumes exactly the declared size, the footer is exactly the
   unread tail, in order; so a parser that reads past the payload makes the read fail. *)
Theorem C17_payload_framing : forall (A : Type) (derived : rprog A) (q : rprog unit) src cap fuel n a footer,
  Forall byteP src -> (1 <= cap)%nat -> (8 <= fuel)%nat ->
  let r := snd (crun fuel q (r_create cap src)) in
  fst (crun fuel (read_payload n derived) r) = Ok (a, footer) ->
  let before := fst (r_tell r) in
  let middle := fst (r_tell (snd (crun fuel derived (snd (r_tell r))))) in
  let after := fst (r_tell (snd (crun fuel (read_payload n derived) r))) in
  after = before + 8 * n /\ middle <= after /\
  fst (crun fuel derived (snd (r_tell r))) = Ok a /\
  bytes_bits footer = firstn (Z.to_nat (after - middle)) (skipn (Z.to_nat middle) (bytes_bits src)).
Proof.
  intros A derived q src cap fuel n a footer Hs Hc Hf r E before middle after.
  pose proof (rrel_create cap src Hc Hs) as R0. destruct (crun_refines fuel q Hf _ _ R0) as [_ R]. fold r in R.
  set (c := snd (arun q (mkC (bytes_bits src) 0 None))) in R.
  assert (c_bits c = bytes_bits src) as Eb by apply arun_bits.
  destruct (crun_refines fuel (read_payload n derived) Hf _ _ R) as [E1 R1]. rewrite E in E1.
  destruct (arun (read_payload n derived) c) as [x c'] eqn:Ea. cbn [fst snd] in *. subst x.
  destruct (read_payload_ok n derived c a footer c' (rrel_pos_le _ _ R) Ea) as (c1 & D & B & P & Le & F & BF).
  destruct (rrel_tell _ _ R) as [T0 RT]. destruct (rrel_tell _ _ R1) as [T1 _].
  destruct (crun_refines fuel derived Hf _ _ RT) as [Ed Rd]. unfold set_cv in Ed, Rd.
  rewrite D in Ed, Rd. cbn [fst snd] in Ed, Rd. destruct (rrel_tell _ _ Rd) as [T2 _].
  unfold before, middle, after. rewrite T0, T1, T2, Ed. repeat split; try lia.
  rewrite BF, Eb, Nat2Z.id. f_equal. lia.
Qed.

(* Write an OBU with any payload and footer; read it with any parser that parses the payload: same header, payload and
   footer, ending at the end of the OBU. *)
Theorem C17_obu_round_trip_with_footer : forall (A : Type) g h payload footer (derived : header -> Z -> rprog A) (a : A),
  lebgen_wf g -> header_wf h -> Forall winstr_wf payload -> Forall byteP footer ->
  (forall n, rt payload (derived (norm_header h) n) a) ->
  reads_back (write_obu g h payload footer) (read_obu derived) (norm_header h, a, footer).
Proof.
  intros A g h payload footer derived a Hg Hh Hp Hf H. apply reads_back_intro; [apply write_obu_wf; assumption|].
  intros bs E. eapply parses_obu_simple; try eassumption. intros pb Epb _. apply H. exact Epb.
Qed.

Example C17_ex :
  (* 3-byte payload: parser reads one byte, two are kept; a parser that wants four bytes fails *)
  fst (crun 8 (read_payload 3 (rlit 8 8)) (r_create 2 [1; 2; 3; 4])) = Ok (1, [2; 3]) /\
  fst (crun 8 (read_payload 3 (rlit 32 32)) (r_create 2 [1; 2; 3; 4])) = Err InvalidArgument.
Proof. vm_compute. split; reflexivity. Qed.

(* ------------------------------------------------------------------ C18 *)
Definition seqhdr_wf (s : seqhdr) : Prop := byteP (sq_primary s) /\ byteP (sq_additional s).
Lemma write_seqhdr_wf s : seqhdr_wf s -> Forall winstr_wf (write_seqhdr s).
Proof.
  intros [[] []]. unfold write_seqhdr. wf_split; try apply wcheck_wf; apply wlit_wf; unfold kIaCode; change (2^64) with 18446744073709551616; lia.
Qed.
Lemma rt_seqhdr s : seqhdr_wf s -> rt (write_seqhdr s) read_seqhdr s.
Proof.
  intros [[] []]. unfold write_seqhdr, read_seqhdr. apply rt_wcheck. intro Hp.
  eapply rt_seq; [apply rt_lit; unfold kIaCode; lia|]. apply rt_rcheck; [reflexivity|].
  eapply rt_seq; [apply rt_lit; lia|]. eapply rt_last; [apply rt_lit; lia|].
  apply rt_rcheck; [exact Hp|]. apply rt_ret_eq. destruct s; reflexivity.
Qed.

Theorem C18_sequence_header_round_trip : forall g h s footer,
  lebgen_wf g -> header_wf h -> seqhdr_wf s -> Forall byteP footer ->
  reads_back (write_obu g h (write_seqhdr s) footer) (read_obu (fun _ _ => read_seqhdr)) (norm_header h, s, footer).
Proof.
  intros g h s footer Hg Hh Hs Hf. apply C17_obu_round_trip_with_footer; try assumption; [apply write_seqhdr_wf; exact Hs|].
  intros _. apply rt_seqhdr. exact Hs.
Qed.

(* The writer accepts exactly primary profiles 0..5 ... *)
Theorem C18_writer_accepts_exactly : forall s, seqhdr_wf s ->
  (is_ok (wbits (write_seqhdr s)) = true <-> 0 <= sq_primary s <= 5).
Proof.
  intros [p a] [[Hp0 Hp1] [Ha0 Ha1]]. cbn [sq_primary sq_additional] in *. unfold write_seqhdr, wcheck, profile_ok. cbn [sq_primary sq_additional].
  destruct ((0 <=? p) && (p <=? 5)) eqn:E; [|split; [discriminate|lia]]. split; [lia|]. intros _.
  cbn [app wlit wbits wspec rbind]. change ((0 <=? 32) && ((32 =? 0) || (32 <=? 32) && (32 <=? 64) && (kIaCode <? 2 ^ 32))) with true.
  change (2^8) with 256. replace (p <? 256) with true by lia. replace (a <? 256) with true by lia. reflexivity.
Qed.

(* ... and the reader accepts exactly the code 'iamf' followed by a primary profile 0..5. *)
Theorem C18_reader_accepts_exactly : forall b0 b1 b2 b3 b4 b5 rest cap fuel,
  Forall byteP (b0 :: b1 :: b2 :: b3 :: b4 :: b5 :: rest) -> (1 <= cap)%nat -> (8 <= fuel)%nat ->
  fst (crun fuel (read_at 0 read_seqhdr) (r_create cap (b0 :: b1 :: b2 :: b3 :: b4 :: b5 :: rest))) =
  if (b0 =? 105) && (b1 =? 97) && (b2 =? 109) && (b3 =? 102) && (b4 <=? 5)
  then Ok (mkSeq b4 b5, 48) else Err InvalidArgument.
Proof.
  intros b0 b1 b2 b3 b4 b5 rest cap fuel Hb Hc Hf. rewrite crun_read_at; try assumption;
    [|split; [lia|]; pose proof (zlen_nonneg (b0 :: b1 :: b2 :: b3 :: b4 :: b5 :: rest)); lia].
  change (Z.to_nat 0) with 0%nat.
  assert (byteP b0 /\ byteP b1 /\ byteP b2 /\ byteP b3 /\ byteP b4 /\ byteP b5) as (H0 & H1 & H2 & H3 & H4 & H5).
  { repeat match goal with H : Forall _ (_ :: _) |- _ => inversion H; clear H; subst end. auto 10. }
  set (code := ((b0 * 256 + b1) * 256 + b2) * 256 + b3).
  assert (0 <= code < 2^32) as Hcode. { unfold code, byteP in *. change (2^32) with 4294967296. lia. }
  assert (bytes_bits (b0 :: b1 :: b2 :: b3 :: b4 :: b5 :: rest) = bits 32 code ++ bits 8 b4 ++ bits 8 b5 ++ bytes_bits rest) as EB.
  { rewrite !bytes_bits_cons.
    assert (bits 32 code = bits 8 b0 ++ bits 8 b1 ++ bits 8 b2 ++ bits 8 b3) as ->.
    { replace 32%nat with (8 + (8 + (8 + 8)))%nat by reflexivity. rewrite (bits_app 8), (bits_app 8), (bits_app 8).
      assert (forall a b k, byteP a -> (Z.of_nat k >= 8) -> bits 8 ((b * 2 ^ Z.of_nat k + a)) = bits 8 a) as M.
      { intros a b k Ha Hk. rewrite <- (bits_mod 8 (b * 2 ^ Z.of_nat k + a) 8) by lia. f_equal.
        replace (Z.of_nat k) with (8 + (Z.of_nat k - 8)) by lia. rewrite Z.pow_add_r by lia.
        replace (b * (2 ^ 8 * 2 ^ (Z.of_nat k - 8)) + a) with (a + (b * 2 ^ (Z.of_nat k - 8)) * 2 ^ 8) by ring.
        rewrite Z.mod_add by lia. apply Z.mod_small. exact Ha. }
      unfold byteP in *. f_equal; [|f_equal; [|f_equal]].
      - f_equal. unfold code. change (2 ^ Z.of_nat (8 + (8 + 8))) with 16777216. lia.
      - transitivity (bits 8 (b0 * 2 ^ Z.of_nat 8 + b1)); [|apply M; unfold byteP; lia].
        f_equal. unfold code. change (2 ^ Z.of_nat (8 + 8)) with 65536. change (2 ^ Z.of_nat 8) with 256. lia.
      - transitivity (bits 8 ((b0 * 256 + b1) * 2 ^ Z.of_nat 8 + b2)); [|apply M; unfold byteP; lia].
        f_equal. unfold code. change (2 ^ Z.of_nat 8) with 256. lia.
      - transitivity (bits 8 (((b0 * 256 + b1) * 256 + b2) * 2 ^ Z.of_nat 8 + b3)); [|apply M; unfold byteP; lia].
        f_equal. }
    rewrite <- !app_assoc. reflexivity. }
  rewrite EB. unfold read_seqhdr.
  destruct (parses_lit 32 32 code eq_refl Hcode [] (bits 8 b4 ++ bits 8 b5 ++ bytes_bits rest) (Some true)) as [v1 Q1].
  cbn [length app] in Q1. change (Z.to_nat 32) with 32%nat in Q1. rewrite arun_bind, Q1. rewrite bits_length.
  assert ((code =? kIaCode) = (b0 =? 105) && (b1 =? 97) && (b2 =? 109) && (b3 =? 102)) as ->.
  { unfold code, kIaCode, byteP in *. lia. }
  destruct ((b0 =? 105) && (b1 =? 97) && (b2 =? 109) && (b3 =? 102)); [|reflexivity]. cbn [rcheck rb andb].
  destruct (parses_u8 b4 H4 (bits 32 code) (bits 8 b5 ++ bytes_bits rest) v1) as [v2 Q2].
  rewrite !bits_length in Q2. rewrite arun_bind. change (0 + 32)%nat with 32%nat. rewrite Q2.
  destruct (parses_u8 b5 H5 (bits 32 code ++ bits 8 b4) (bytes_bits rest) v2) as [v3 Q3].
  rewrite app_length, !bits_length in Q3. rewrite <- !app_assoc in Q3. rewrite arun_bind, Q3.
  unfold profile_ok. unfold byteP in H4. replace (0 <=? b4) with true by lia. cbn [andb].
  destruct (b4 <=? 5); reflexivity.
Qed.

(* ------------------------------------------------------------------ C19 *)
Definition aframe_wf (f : aframe) : Prop := u32P (af_id f) /\ Forall byteP (af_bytes f).

(* Type chosen by the constructor. *)
Theorem C19_type_of_id : forall id, 0 <= id -> audio_frame_type id = if id <=? 17 then 6 + id else 5.
Proof. intros id H. unfold audio_frame_type, kAudioFrameId17, kAudioFrameId0, kAudioFrame. destruct (id <=? 17) eqn:E; destruct (id >? 23 - 6) eqn:F; lia. Qed.

Lemma audio_type_range id : 0 <= id -> 0 <= audio_frame_type id < 32.
Proof. intro H. rewrite C19_type_of_id by exact H. destruct (id <=? 17) eqn:E; lia. Qed.

Lemma set_type_wf h t : header_wf h -> 0 <= t < 32 -> header_wf (set_type h t).
Proof. intros (Ht & He & Hs & Hx) H. split; [exact H|]. split; [exact He|]. split; [exact Hs|exact Hx]. Qed.

Lemma norm_type h : h_type (norm_header h) = h_type h.
Proof. unfold norm_header. destruct (trimming_flag h); reflexivity. Qed.

(* A footer on an Audio Frame OBU is indistinguishable from frame bytes: it is read back as part of them. *)
Theorem C19_audio_frame_round_trip : forall g h f footer,
  lebgen_wf g -> header_wf h -> aframe_wf f -> Forall byteP footer ->
  reads_back (write_aframe_obu g h f footer) (read_obu read_aframe)
    (norm_header (set_type h (audio_frame_type (af_id f))), mkAF (af_id f) (af_bytes f ++ footer), []).
Proof.
  intros g h f footer Hg (Ht & He & Hs & Hx) [Hid Hb] Hf. unfold write_aframe_obu.
  set (h' := set_type h (audio_frame_type (af_id f))).
  pose proof (audio_type_range (af_id f) ltac:(destruct Hid; lia)) as Hty.
  assert (header_wf h') as Hh' by (repeat split; cbn; try assumption; try lia; apply He || apply Hs).
  assert (Forall winstr_wf (write_aframe g h' f)) as Hw.
  { unfold write_aframe. wf_split; [|apply wspan_wf; exact Hb]. destruct (h_type h' =? kAudioFrame); [|constructor].
    apply wuleb_wf; assumption. }
  apply reads_back_intro; [apply write_obu_wf; assumption|]. intros bs E.
  eapply parses_obu; try eassumption. intros pb Epb Hm. unfold write_aframe in Epb.
  apply wbits_app_ok in Epb as (ib & sb & Ei & Es & ->). apply wspan_ok in Es as ->.
  exists (ib ++ bytes_bits (af_bytes f ++ footer)). rewrite bytes_bits_app.
  split; [cbn [bytes_bits flat_map]; rewrite app_nil_r, <- app_assoc; reflexivity|]. split; [constructor|].
  rewrite <- bytes_bits_app.
  assert (forall sz, zlen ib = 8 * sz -> 0 <= sz -> 
     rcheck (negb ((zlen (ib ++ bytes_bits (af_bytes f)) / 8 + zlen footer <? 0) ||
                   (zlen (ib ++ bytes_bits (af_bytes f)) / 8 + zlen footer <? sz))) InvalidArgument = RRet tt /\
     Z.to_nat (zlen (ib ++ bytes_bits (af_bytes f)) / 8 + zlen footer - sz) = length (af_bytes f ++ footer)) as SZ.
  { intros sz Hsz Hsz0. unfold zlen in *. rewrite !app_length, bytes_bits_length in *.
    replace (_ || _) with false by lia. split; [reflexivity|]. lia. }
  unfold read_aframe. rewrite norm_type.
  assert (Forall byteP (af_bytes f ++ footer)) as Hbf by (apply Forall_app; auto).
  destruct (h_type h' =? kAudioFrame) eqn:Ety.
  - destruct (wuleb_enc _ _ _ Hg Hid Ei) as (l & El & ->).
    destruct (SZ (zlen l)) as [S1 S2]; [unfold zlen; rewrite bytes_bits_length; lia|apply zlen_nonneg|].
    eapply parses_bind; [eapply parses_enc_sz; [exact Hid|exact El]| |reflexivity]. cbn [fst snd]. rewrite S1, S2. cbn [rb].
    eapply parses_map; [apply parses_span; exact Hbf|]. reflexivity.
  - apply wbits_nil_ok in Ei as ->. destruct (SZ 0) as [S1 S2]; [reflexivity|lia|]. cbn [app] in *.
    eapply (parses_bind _ _ []); [apply parses_ret| |reflexivity]. cbn [fst snd]. rewrite S1, S2. cbn [rb].
    eapply parses_map; [apply parses_span; exact Hbf|]. f_equal.
    assert (h_type h' = 6 + af_id f /\ af_id f <= 17) as [Eh Hle].
    { change (h_type h') with (audio_frame_type (af_id f)) in *. rewrite C19_type_of_id in * by (destruct Hid; lia).
      destruct (af_id f <=? 17) eqn:E17; [lia|discriminate]. }
    rewrite Eh. unfold u32, kAudioFrameId0, u32P in *. change (2^32) with 4294967296. lia.
Qed.

Example C19_ex :
  let f := mkAF 18 [10; 20; 30] in
  let h := mkH 0 false true 8 0 None in
  let w2 := snd (wrun (write_aframe_obu LebMin h f []) w_empty) in
  w_bytes w2 = [42; 6; 8; 0; 18; 10; 20; 30] /\
  fst (crun 8 (read_at 0 (read_obu read_aframe)) (r_create 4 (w_bytes w2))) =
    Ok ((mkH 5 false true 8 0 None, f, []), 64).
Proof. vm_compute. split; reflexivity. Qed.

(* ------------------------------------------------------------------ C20 *)
Theorem C20_temporal_delimiter_round_trip : forall g h footer,
  lebgen_wf g -> header_wf h -> Forall byteP footer ->
  reads_back (write_td_obu g h footer) (read_obu read_td) (norm_header (set_type h kTemporalDelimiter), tt, footer).
Proof.
  intros g h footer Hg (Ht & He & Hs & Hx) Hf. apply C17_obu_round_trip_with_footer; try assumption.
  - apply set_type_wf; [repeat split; try apply He; try apply Hs; try apply Ht; exact Hx|]. unfold kTemporalDelimiter; lia.
  - constructor.
  - intros n. apply rt_ret.
Qed.

Definition tag_wf (t : list Z * list Z) : Prop := Forall byteP (fst t) /\ Forall byteP (snd t).
Definition metadata_wf (m : metadata) : Prop :=
  match m with
  | MT35 c e p => byteP c /\ match e with Some x => byteP x | None => True end /\ Forall byteP p
  | MTags tags => Forall tag_wf tags /\ zlen tags < 2^32
  | MOther t => u32P t /\ t <> 1 /\ t <> 2
  end.
(* What is transmitted of a metadata value: a country code extension byte only exists for country code 0xFF, and the
   T.35 payload extends to the end of the OBU (so it absorbs the footer). *)
Definition metadata_read_back (m : metadata) (footer : list Z) : metadata * list Z :=
  match m with
  | MT35 c e p => (MT35 c (if c =? 255 then e else None) (p ++ footer), [])
  | _ => (m, footer)
  end.

Lemma write_metadata_wf g m : lebgen_wf g -> metadata_wf m -> Forall winstr_wf (write_metadata g m).
Proof.
  intros Hg Hm. unfold write_metadata. wf_split.
  - apply wuleb_wf; [exact Hg|]. destruct m; cbn [metadata_type]; try (change (2^32) with 4294967296; lia). apply Hm.
  - destruct m as [c e p|tags|t]; [| |constructor].
    + destruct Hm as ([Hc0 Hc1] & He & Hp). unfold write_t35. wf_split; [apply wlit_wf; change (2^64) with 18446744073709551616; lia| |apply wspan_wf; exact Hp].
      destruct (c =? 255); [|constructor]. destruct e as [x|]; [|repeat constructor]. destruct He. apply wlit_wf. change (2^64) with 18446744073709551616; lia.
    + destruct Hm as [Ht _]. unfold write_tags. wf_split.
      * apply wlit_wf. pose proof (u32_range (zlen tags)). change (2^32) with 4294967296 in *. change (2^64) with 18446744073709551616. lia.
      * apply Forall_flat_map_wf. intros x Hx. rewrite Forall_forall in Ht. destruct (Ht x Hx).
        wf_split; apply wstring_wf; assumption.
Qed.

Lemma rt_tags tags : Forall tag_wf tags ->
  rt (flat_map (fun t => wstring (fst t) ++ wstring (snd t)) tags) (read_tags_loop (length tags)) tags.
Proof.
  intro H. induction H as [|[a b] l [Ha Hb] Hl IH]; [apply rt_ret|]. cbn [flat_map length read_tags_loop fst snd] in *.
  apply rt_assoc. eapply rt_seq; [apply rt_string; exact Ha|]. eapply rt_seq; [apply rt_string; exact Hb|].
  eapply rt_last; [exact IH|]. apply rt_ret.
Qed.

Theorem C20_metadata_round_trip : forall g h m footer,
  lebgen_wf g -> header_wf h -> metadata_wf m -> Forall byteP footer ->
  reads_back (write_metadata_obu g h m footer) (read_obu read_metadata)
    (norm_header (set_type h kMetadata), fst (metadata_read_back m footer), snd (metadata_read_back m footer)).
Proof.
  intros g h m footer Hg (Ht & He & Hs & Hx) Hm Hf. unfold write_metadata_obu.
  set (h' := set_type h kMetadata).
  assert (header_wf h') as Hh' by (apply set_type_wf; [repeat split; try apply He; try apply Hs; try apply Ht; exact Hx|unfold kMetadata; lia]).
  pose proof (write_metadata_wf g m Hg Hm) as Hw.
  apply reads_back_intro; [apply write_obu_wf; assumption|]. intros bs E.
  eapply parses_obu; try eassumption. intros pb Epb Hmod. unfold write_metadata in Epb.
  apply wbits_app_ok in Epb as (tb & mb & Et & Em & ->).
  assert (u32P (metadata_type m)) as Htype by (destruct m; cbn; unfold u32P; try lia; apply Hm).
  destruct (wuleb_enc _ _ _ Hg Htype Et) as (l & El & ->). pose proof (zlen_nonneg l) as Zl.
  unfold read_metadata. destruct m as [c e p|tags|t]; cbn [metadata_read_back fst snd metadata_type] in *.
  - (* T.35 *)
    destruct Hm as ([Hc0 Hc1] & Hex & Hp). unfold write_t35 in Em.
    apply wbits_app_ok in Em as (cb & r & Ec & Em & ->). apply wbits_app_ok in Em as (eb & sb & Ee & Es & ->).
    apply wspan_ok in Es as ->.
    exists (bytes_bits l ++ cb ++ eb ++ bytes_bits (p ++ footer)).
    split; [rewrite bytes_bits_app; cbn [bytes_bits flat_map]; rewrite app_nil_r, <- !app_assoc; reflexivity|].
    split; [constructor|].
    eapply parses_bind; [eapply parses_enc_sz; [exact Htype|exact El]| |reflexivity]. cbn [fst snd].
    change (1 =? 1) with true. cbn iota.
    pose proof Ec as Ec'. apply wlit_ok in Ec' as (_ & _ & Ecb). change (Z.to_nat 8) with 8%nat in Ecb.
    assert (length cb = 8%nat) as Lcb by (rewrite Ecb; apply bits_length).
    assert (length eb = if c =? 255 then 8%nat else 0%nat) as Leb.
    { destruct (c =? 255); [|apply wbits_nil_ok in Ee as ->; reflexivity]. destruct e as [x|]; [|discriminate].
      apply wlit_ok in Ee as (_ & _ & ->). rewrite bits_length. reflexivity. }
    set (n := zlen (bytes_bits l ++ cb ++ eb ++ bytes_bits p) / 8 + zlen footer).
    assert (n = zlen l + (if c =? 255 then 2 else 1) + zlen (p ++ footer)) as En.
    { unfold n, zlen in *. rewrite !app_length, !bytes_bits_length, Lcb, Leb. destruct (c =? 255); lia. }
    pose proof (zlen_nonneg (p ++ footer)) as Zpf.
    apply parses_check; [destruct (c =? 255); lia|]. unfold read_t35.
    eapply parses_bind; [eapply parses_wlit; [exact Ec|lia..]| |reflexivity].
    eapply (parses_bind _ _ eb _ _ (if c =? 255 then e else None)); [| |reflexivity].
    { destruct (c =? 255).
      - destruct e as [x|]; [|discriminate]. destruct Hex. eapply parses_map; [eapply parses_wlit; [exact Ee|lia..]|]. reflexivity.
      - apply wbits_nil_ok in Ee as ->. apply parses_ret. }
    apply parses_check; [destruct (c =? 255); lia|].
    replace (Z.to_nat (n - (zlen l + (if c =? 255 then 2 else 1)))) with (length (p ++ footer)) by (unfold zlen in *; destruct (c =? 255); lia).
    eapply parses_map; [apply parses_span; apply Forall_app; auto|]. reflexivity.
  - (* tags *)
    destruct Hm as [Htags Hlen]. exists (bytes_bits l ++ mb). split; [reflexivity|]. split; [exact Hf|].
    eapply parses_bind; [eapply parses_enc_sz; [exact Htype|exact El]| |reflexivity]. cbn [fst snd].
    change (2 =? 1) with false. change (2 =? 2) with true. cbn iota. revert mb Em Hmod E. intros mb Em _ _.
    assert (u32 (zlen tags) = zlen tags) as Eu.
    { unfold u32. pose proof (zlen_nonneg tags). apply Z.mod_small. lia. }
    unfold write_tags in Em. rewrite Eu in Em. revert mb Em. 
    eapply rt_seq; [apply rt_lit; try lia; apply zlen_nonneg|].
    eapply rt_last; [|apply rt_ret]. unfold zlen. rewrite Nat2Z.id. apply rt_tags. exact Htags.
  - apply wbits_nil_ok in Em as ->. exists (bytes_bits l ++ []). split; [reflexivity|]. split; [exact Hf|].
    eapply parses_bind; [eapply parses_enc_sz; [exact Htype|exact El]| |reflexivity]. cbn [fst snd].
    destruct Hm as (_ & N1 & N2). replace (t =? 1) with false by lia. replace (t =? 2) with false by lia. apply parses_ret.
Qed.

(* So: equal, whenever the footer is empty and the extension byte is only set for country code 0xFF. *)
Theorem C20_metadata_equal : forall m,
  match m with MT35 c e _ => c = 255 \/ e = None | _ => True end -> metadata_read_back m [] = (m, []).
Proof.
  intros [c e p|tags|t] H; try reflexivity. cbn [metadata_read_back]. rewrite app_nil_r.
  destruct H as [->| ->]; [reflexivity|]. destruct (c =? 255); reflexivity.
Qed.

Example C20_ex :
  let m := MTags [([97], [98; 99])] in
  let w2 := snd (wrun (write_metadata_obu LebMin (mkH 0 false false 0 0 None) m []) w_empty) in
  w_bytes w2 = [192; 7; 2; 1; 97; 0; 98; 99; 0] /\
  fst (crun 8 (read_at 0 (read_obu read_metadata)) (r_create 4 (w_bytes w2))) = Ok ((mkH 24 false false 0 0 None, m, []), 72).
Proof. vm_compute. split; reflexivity. Qed.

Print Assumptions C13_header_round_trip.
Print Assumptions C14_obu_size_exact.
Print Assumptions C15_peek_of_written_obu.
Print Assumptions C16_huge_extension_refuted.
Print Assumptions C17_payload_framing.
Print Assumptions C18_reader_accepts_exactly.
Print Assumptions C19_audio_frame_round_trip.
Print Assumptions C20_metadata_round_trip.
