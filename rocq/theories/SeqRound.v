(* Facts for C55: the descriptor parser on what the sequencer writes. *)
From Verif Require Import TempUnit Base WriteBuf ReadBuf Leb BufSpec LebSpec BitFacts WriteBufFacts ReadBufFacts LebFacts
  ParseFacts EndToEnd ObuHeader ObuHeaderFacts FrameFacts SeqFacts BndFacts PureFacts SimpleObus CodecConfig Params AudioElement MixPresentation
  Timing ParamManager AeData Profile MixSelect Processor PropsObu PropsCodec PropsAE PropsMix ProcFacts Session Reorder Pcm DecoderApi Descriptors DescFacts Sequencer.
From Verif Require PropsDesc.

(* An OBU read by [read_obu]: its header and its payload. *)
Lemma parsed_obu {A} (d : header -> Z -> rprog A) bs h a f pre rest : parses (read_obu d) bs (h, a, f) ->
  exists n hl, let at_ k := mkC (pre ++ bs ++ rest) (length pre + k) (Some true) in
    arun read_header (at_ O) = (Ok (h, n), at_ hl) /\ arun (read_payload n (d h n)) (at_ hl) = (Ok (a, f), at_ (length bs)) /\
    Z.of_nat hl + 8 * n = zlen bs.
Proof.
  intro P. specialize (P pre rest (Some true)) as (v & E). set (c := mkC _ _ _) in E.
  assert (cok c) as K by (unfold c, cok; cbn [c_pos c_bits]; rewrite !app_length; lia).
  unfold read_obu in E. apply arun_bind_ok in E as ([h0 n] & c1 & E1 & E). cbn [fst snd] in E. apply arun_bind_ok in E as ([a0 f0] & c2 & E2 & E). cbn [fst snd arun] in E.
  injection E as <- <- <- E. pose proof (arun_bits read_header c) as B1. destruct (arun_valid read_header c eq_refl) as [V1 _]. rewrite E1 in B1, V1. cbn [snd] in B1, V1.
  assert (cok c1) as K1 by (pose proof (arun_cok read_header c K) as X; rewrite E1 in X; exact X).
  destruct (arun_valid (read_payload n (d h0 n)) c1 V1) as [V2 _]. rewrite E2 in V2. cbn [snd] in V2.
  pose proof (read_payload_ok _ _ _ _ _ _ K1 E2) as (_ & _ & _ & P2 & _).
  assert (length pre <= c_pos c1)%nat as M1.
  { pose proof (arun_prun _ pure_header c K) as Q. rewrite E1 in Q. destruct (prun read_header (skipn (c_pos c) (c_bits c))) as [|er|[h1 n1] r] eqn:EP; [destruct Q as [? Q]; discriminate|destruct Q as [? Q]; discriminate|].
    destruct Q as [v' Q]. injection Q as _ _ Q. apply prun_rest_len in EP. rewrite Q. cbn [c_pos c_bits c] in *. rewrite skipn_length in EP. subst c. cbn [c_pos c_bits] in *. rewrite !app_length in *. lia. }
  exists n, (c_pos c1 - length pre)%nat. cbv beta zeta. rewrite Nat.add_0_r. subst c2.
  assert (c1 = mkC (pre ++ bs ++ rest) (length pre + (c_pos c1 - length pre)) (Some true)) as EC.
  { destruct c1 as [b1 p1 v1]. cbn [c_bits c_pos c_valid c] in *. subst b1 v1. f_equal. lia. }
  cbn [c_valid] in V2. subst v. cbn [c_pos] in P2. rewrite <- EC. split; [exact E1|]. split; [exact E2|]. unfold zlen. lia.
Qed.

(* ---- one turn of the loop ---- *)
Section Loop.
Variables (bits start : Z) (s : list Z).
Hypothesis small : zlen s < 2^32 - 64.

Definition turns (o : dobus) (h : header) (n : Z) (q q' : nat) (o' : dobus) : Prop :=
  arun (get_obu bits o h n) (at_byte s q) = (Ok (VStatus (Ok o')), at_byte s q') \/
  (exists e c, arun (get_obu bits o h n) (at_byte s q) = (Ok (VStatus (Err e)), c)) /\ o' = o.
Lemma header_facts p h n q : (p <= length s)%nat -> arun read_header (at_byte s p) = (Ok (h, n), at_byte s q) ->
  exists total r', prun fill_header_metadata (bytes_bits (skipn p s)) = POk (h_type h, total) r' /\ 0 <= n /\ Z.of_nat q + n = Z.of_nat p + total /\ (p < q <= length s)%nat.
Proof.
  intros Hp E. pose proof (arun_header s p Hp) as P. destruct (prun read_header (bytes_bits (skipn p s))) as [|er|[h1 n1] r] eqn:EP;
    [destruct P as (? & ? & P); congruence|destruct P as (? & ? & P); congruence|]. rewrite E in P. injection P as <- <- P.
  pose proof (header_consumes _ _ _ EP) as HC.
  assert (length (bytes_bits (skipn p s)) = 8 * (length s - p))%nat as L by (rewrite bytes_bits_length, skipn_length; lia).
  destruct (header_shape _ _ _ _ EP) as (t & total & r' & F & -> & Hn & Ht & H1 & H2); [unfold zlen in small; lia|]. exists total, r'. split; [exact F|]. split; [exact Hn|]. lia.
Qed.
Lemma loop_step k exact p o h n q o' : (p <= length s)%nat -> arun read_header (at_byte s p) = (Ok (h, n), at_byte s q) ->
  Z.of_nat q + n <= zlen s -> temporal_unit_type (h_type h) = false -> turns o h n q (q + Z.to_nat n) o' -> do_seq o' <> None ->
  arun (descriptor_loop (S k) bits exact start o) (at_byte s p) =
  if exact && (length s <=? q + Z.to_nat n)%nat then (Ok (Ok o', false), at_byte s (q + Z.to_nat n)) else arun (descriptor_loop k bits exact start o') (at_byte s (q + Z.to_nat n)).
Proof.
  intros Hp E Hq T TU NS. destruct (header_facts p h n q Hp E) as (total & r' & F & Hn & Et & Hpq). unfold zlen in *.
  cbn [descriptor_loop]. rewrite arun_bind, arun_rcatch, (arun_peek _ (at_byte_cok s p Hp)).
  replace (mkC (c_bits (at_byte s p)) (c_pos (at_byte s p)) (Some true)) with (at_byte s p) by reflexivity.
  pose proof (arun_prun _ pure_fill _ (at_byte_cok s p Hp)) as P. rewrite at_byte_skip, F in P. destruct P as [v P]. rewrite P. clear P v. rewrite T.
  rewrite arun_bind, (arun_avail s p Hp). replace (Z.of_nat (length s - p) <? total) with false by lia.
  rewrite arun_bind, arun_rtell. replace (mkC (c_bits (at_byte s p)) (c_pos (at_byte s p)) (Some true)) with (at_byte s p) by reflexivity.
  rewrite arun_bind, E. cbn [fst snd]. rewrite arun_bind. set (q' := (q + Z.to_nat n)%nat) in *. assert (q' <= length s)%nat as Lq by lia.
  assert (forall o1, do_seq o1 <> None -> arun (match do_seq o1 with
               | None => RFail InvalidArgument
               | Some _ => b <- ravail ;;
                   if exact && negb (b >? 0) then RRet (Ok o1, false)
                   else descriptor_loop k bits exact start o1
               end) (at_byte s q') =
         if exact && (length s <=? q')%nat then (Ok (Ok o1, false), at_byte s q') else arun (descriptor_loop k bits exact start o1) (at_byte s q')) as PR.
  { intros o1 N. destruct (do_seq o1); [|congruence]. rewrite arun_bind, (arun_avail s q' Lq). replace (negb (Z.of_nat (length s - q') >? 0)) with (length s <=? q')%nat by lia.
    destruct (exact && _); reflexivity. }
  destruct TU as [G|[(e & c & G) ->]].
  - rewrite G. apply PR. exact NS.
  - pose proof (arun_bits (get_obu bits o h n) (at_byte s q)) as B. destruct (arun_valid (get_obu bits o h n) (at_byte s q) eq_refl) as [V _]. rewrite G in B, V |- *.
    destruct c as [b2 p2 v2]. cbn [snd c_bits c_valid at_byte] in B, V. subst b2 v2. cbn [c_pos at_byte].
    rewrite arun_bind, arun_rseek_ok by (unfold zlen; rewrite bytes_bits_length; lia). rewrite arun_bind, arun_rignore by (unfold zlen; rewrite ?bytes_bits_length; lia).
    replace (mkC (bytes_bits s) (Z.to_nat (Z.of_nat (Z.to_nat (Z.of_nat (8 * p))) + 8 * total)) (Some true)) with (at_byte s q') by (unfold at_byte, q'; f_equal; lia).
    apply PR. exact NS.
Qed.
End Loop.

(* The effect of an OBU, given by its bits, on the descriptors read so far, wherever it is. *)
Definition effect (bits : Z) (bs : list bool) (o o' : dobus) : Prop :=
  forall pre rest, exists h n hl, let at_ k := mkC (pre ++ bs ++ rest) (length pre + k) (Some true) in
    arun read_header (at_ O) = (Ok (h, n), at_ hl) /\ temporal_unit_type (h_type h) = false /\ Z.of_nat hl + 8 * n = zlen bs /\
    (arun (get_obu bits o h n) (at_ hl) = (Ok (VStatus (Ok o')), at_ (length bs)) \/
     (exists e c, arun (get_obu bits o h n) (at_ hl) = (Ok (VStatus (Err e)), c)) /\ o' = o /\ h_type h <> kMixPresentation).
Inductive chain (bits : Z) : list (list bool) -> dobus -> dobus -> Prop :=
| Ch_nil o : chain bits [] o o
| Ch_cons bs l o o1 o2 : effect bits bs o o1 -> (length bs mod 8 = 0)%nat -> do_seq o1 <> None -> chain bits l o1 o2 -> chain bits (bs :: l) o o2.
Lemma chain_app bits a b : forall o o1 o2, chain bits a o o1 -> chain bits b o1 o2 -> chain bits (a ++ b) o o2.
Proof. induction a as [|x a IH]; intros o o1 o2 H1 H2; inversion H1; subst; [exact H2|]. cbn [app]. econstructor; try eassumption. eapply IH; eassumption. Qed.
Lemma pos_at s p hl : (hl mod 8 = 0)%nat -> mkC (bytes_bits s) (8 * p + hl) (Some true) = at_byte s (p + hl / 8).
Proof. intro H. unfold at_byte. f_equal. pose proof (Nat.div_mod hl 8 ltac:(lia)). lia. Qed.
Lemma loop_chain bits exact start s (small : zlen s < 2^32 - 64) l : forall o o' pre rest p k, chain bits l o o' ->
  bytes_bits s = pre ++ concat l ++ rest -> length pre = (8 * p)%nat ->
  exists p', (length pre + length (concat l) = 8 * p')%nat /\ (p' <= length s)%nat /\
  arun (descriptor_loop (length l + k) bits exact start o) (at_byte s p) =
  match l, rest, exact with
  | _ :: _, [], true => (Ok (Ok o', false), at_byte s p')
  | _, _, _ => arun (descriptor_loop k bits exact start o') (at_byte s p')
  end.
Proof.
  induction l as [|bs l IH]; intros o o' pre rest p k C E Lp.
  { inversion C; subst. exists p. cbn [concat length] in *. assert (length (bytes_bits s) = length (pre ++ rest)) as L by (rewrite E; reflexivity). rewrite bytes_bits_length, app_length in L.
    split; [lia|]. split; [lia|reflexivity]. }
  inversion C as [|? ? ? o1 ? EF M8 NS C']; subst. cbn [concat] in E. rewrite <- app_assoc in E.
  destruct (EF pre (concat l ++ rest)) as (h & n & hl & E1 & T & LN & G). cbv beta zeta in *. rewrite <- E, Lp in E1, G. rewrite Nat.add_0_r in E1.
  change (mkC (bytes_bits s) (8 * p) (Some true)) with (at_byte s p) in E1.
  assert (length (bytes_bits s) = 8 * p + (length bs + length (concat l ++ rest)))%nat as L by (rewrite E, !app_length; lia). rewrite bytes_bits_length in L.
  assert (hl mod 8 = 0)%nat as H8.
  { unfold zlen in LN. apply Nat2Z.inj. rewrite Nat2Z.inj_mod. change (Z.of_nat 8) with 8. change (Z.of_nat 0) with 0. assert (Z.of_nat (length bs) mod 8 = 0) as Z8 by (rewrite <- (Nat2Z.inj_mod _ 8), M8; reflexivity).
    replace (Z.of_nat hl) with (Z.of_nat (length bs) + (- n) * 8) by lia. rewrite Z.mod_add by lia. exact Z8. }
  rewrite (pos_at s p hl H8) in E1, G. rewrite (pos_at s p (length bs) M8) in G. set (q := (p + hl / 8)%nat) in *.
  destruct (header_facts s small p h n q ltac:(lia) E1) as (total & r' & F & Hn & Et & Hpq).
  pose proof (Nat.div_mod hl 8 ltac:(lia)) as D1. pose proof (Nat.div_mod (length bs) 8 ltac:(lia)) as D2. unfold zlen in LN.
  assert (q + Z.to_nat n = p + length bs / 8)%nat as Eq by (unfold q; lia).
  rewrite <- Eq in G. cbn [length Nat.add]. assert (turns bits s o h n q (q + Z.to_nat n) o1) as G' by (unfold turns; tauto). rewrite (loop_step bits start s small (length l + k) exact p o h n q o1 ltac:(lia) E1 ltac:(unfold zlen; lia) T G' NS).
  destruct (IH o1 o' (pre ++ bs) rest (q + Z.to_nat n)%nat k C') as (p' & P1 & P2 & P3).
  { rewrite <- app_assoc. exact E. }
  { rewrite app_length. lia. }
  exists p'. cbn [concat]. rewrite app_length in P1 |- *. split; [lia|]. split; [exact P2|].
  destruct (length s <=? q + Z.to_nat n)%nat eqn:LE.
  - assert (concat l ++ rest = []) as N by (apply length_zero_iff_nil; lia). apply app_eq_nil in N as [N1 N2]. subst rest.
    assert (l = []) as ->.
    { destruct l as [|b2 l2]; [reflexivity|]. exfalso. cbn [concat] in N1. apply app_eq_nil in N1 as [-> _]. inversion C' as [|? ? ? ? ? EF2 _ _ _]; subst.
      destruct (EF2 (bytes_bits s) []) as (h2 & n2 & hl2 & X & _). cbv beta zeta in X. cbn [app] in X. rewrite app_nil_r, Nat.add_0_r in X.
      change (mkC (bytes_bits s) (length (bytes_bits s)) (Some true)) with (mkC (bytes_bits s) (length (bytes_bits s)) (Some true)) in X.
      pose proof (arun_header s (length s) ltac:(lia)) as AH. unfold at_byte in AH. rewrite bytes_bits_length in X. rewrite X in AH. rewrite skipn_all in AH.
      destruct (prun read_header (bytes_bits [])) eqn:PP; [destruct AH as (? & ? & AH); discriminate|destruct AH as (? & ? & AH); discriminate|]. apply header_consumes in PP. cbn in PP. lia. }
    inversion C'; subst. cbn [concat length] in P1. assert (p' = q + Z.to_nat n)%nat as -> by lia. rewrite andb_true_r. destruct exact; [reflexivity|exact P3].
  - rewrite andb_false_r. rewrite P3. destruct l as [|b2 l2]; [|reflexivity]. inversion C'; subst. destruct rest as [|x rest]; [|reflexivity]. cbn [concat app length] in L. lia.
Qed.

(* ---- the effect of what the sequencer writes ---- *)
Lemma header_aligned g h n hb : lebgen_wf g -> header_wf h -> wbits (write_header g h n) = Ok hb -> (length hb mod 8 = 0)%nat /\ 0 <= n.
Proof.
  intros Hg Hh E. destruct (write_header_ok _ _ _ _ Hg Hh E) as (te & ts & ls & lb & lo & _ & _ & _ & Hn & _ & -> & _). split; [|exact Hn].
  assert (length (first_byte h) = 8)%nat as L by (unfold first_byte; rewrite app_length; cbn [length]; rewrite ?bits_of_length; reflexivity).
  rewrite !app_length, L, !bytes_bits_length. set (k := length (te ++ ts ++ ls ++ lb)). replace (8 + (8 * length lo + 8 * k))%nat with ((1 + length lo + k) * 8)%nat by lia. apply Nat.mod_mul. lia.
Qed.
Lemma obu_aligned g h payload footer bs : lebgen_wf g -> header_wf h -> Forall winstr_wf payload -> Forall byteP footer ->
  wbits (write_obu g h payload footer) = Ok bs -> (length bs mod 8 = 0)%nat.
Proof.
  intros Hg Hh Hp Hf E. destruct (write_obu_ok g h payload footer bs Hp Hf E) as (pb & hb & _ & M & E2 & ->). destruct (header_aligned _ _ _ _ Hg Hh E2) as [H8 _].
  rewrite !app_length, bytes_bits_length. apply Nat.mod_divides in M as [a ->]; [|lia]. apply Nat.mod_divides in H8 as [b ->]; [|lia].
  replace (8 * b + (8 * a + 8 * length footer))%nat with ((b + a + length footer) * 8)%nat by lia. apply Nat.mod_mul. lia.
Qed.
Lemma effect_of_write {A} bits g h payload footer bs (d : header -> Z -> rprog A) (a : A) o o' :
  lebgen_wf g -> header_wf h -> Forall winstr_wf payload -> Forall byteP footer -> wbits (write_obu g h payload footer) = Ok bs ->
  parses (read_obu d) bs (norm_header h, a, footer) -> temporal_unit_type (h_type h) = false ->
  (forall pb c c', wbits payload = Ok pb -> let n := zlen pb / 8 + zlen footer in
     arun (read_payload n (d (norm_header h) n)) c = (Ok (a, footer), c') -> arun (get_obu bits o (norm_header h) n) c = (Ok (VStatus (Ok o')), c')) ->
  effect bits bs o o'.
Proof.
  intros Hg Hh Hp Hf E P T G pre rest. destruct (parsed_obu d bs (norm_header h) a footer pre rest P) as (n & hl & E1 & E2 & L). cbv beta zeta in *.
  exists (norm_header h), n, hl. split; [exact E1|]. rewrite norm_type. split; [exact T|]. split; [exact L|]. left.
  destruct (write_obu_ok g h payload footer bs Hp Hf E) as (pb & hb & Ep & M & Eh & ->).
  destruct (parses_header _ _ _ _ Hg Hh Eh pre ((pb ++ bytes_bits footer) ++ rest) (Some true)) as [v X]. rewrite Nat.add_0_r in E1. rewrite <- app_assoc in E1. rewrite E1 in X. injection X as -> _.
  apply (G pb _ _ Ep). cbv zeta. exact E2.
Qed.
Lemma catch_ok p c r c' : arun p c = (Ok r, c') -> arun (catch_status p) c = (Ok (VStatus r), c').
Proof. intro E. unfold catch_status. rewrite arun_bind, arun_rcatch, E. reflexivity. Qed.
Lemma norm_red h : h_red (norm_header h) = h_red h.
Proof. unfold norm_header. destruct (trimming_flag h); reflexivity. Qed.

(* OBUs which are skipped *)
Lemma effect_skipped bits g h payload footer bs o : lebgen_wf g -> header_wf h -> Forall winstr_wf payload -> Forall byteP footer ->
  wbits (write_obu g h payload footer) = Ok bs -> h_type h = kMetadata \/ 25 <= h_type h <= 30 -> effect bits bs o o.
Proof.
  intros Hg Hh Hp Hf E T pre rest. destruct (write_obu_ok g h payload footer bs Hp Hf E) as (pb & hb & Ep & M & Eh & ->).
  pose proof (arun_valid read_header (mkC (pre ++ (hb ++ pb ++ bytes_bits footer) ++ rest) (length pre) (Some true)) eq_refl) as [V _].
  destruct (parses_header _ _ _ _ Hg Hh Eh pre ((pb ++ bytes_bits footer) ++ rest) (Some true)) as [v X]. rewrite app_assoc with (l := hb) in X. rewrite X in V. cbn [snd c_valid] in V. subst v.
  exists (norm_header h), (zlen pb / 8 + zlen footer), (length hb). cbv beta zeta. rewrite Nat.add_0_r. split; [exact X|]. rewrite norm_type.
  split; [unfold temporal_unit_type, is_audio_frame, kMetadata, kTemporalDelimiter, kAudioFrame, kAudioFrameId0, kAudioFrameId17, kParameterBlock in *; lia|].
  split; [apply Nat.mod_divides in M as [k M]; [|lia]; unfold zlen; rewrite !app_length, bytes_bits_length, M, Nat2Z.inj_mul; replace (Z.of_nat 8 * Z.of_nat k / 8) with (Z.of_nat k) by (change (Z.of_nat 8) with 8; rewrite Z.mul_comm, Z.div_mul by lia; reflexivity); lia|].
  right. split; [|split; [reflexivity|unfold kMetadata, kMixPresentation in *; lia]]. exists Unimplemented. eexists. unfold get_obu. rewrite norm_type. unfold kMetadata, kSequenceHeader, kCodecConfig, kAudioElement, kMixPresentation in *.
  destruct T as [T|T].
  - rewrite T. reflexivity.
  - replace (h_type h =? 31) with false by lia. replace (h_type h =? 0) with false by lia. replace (h_type h =? 1) with false by lia. replace (h_type h =? 2) with false by lia.
    destruct (_ =? _); [reflexivity|]. replace ((25 <=? h_type h) && (h_type h <=? 30)) with true by lia. reflexivity.
Qed.

Lemma effect_seqhdr bits g h s footer bs o : lebgen_wf g -> header_wf h -> seqhdr_wf s -> Forall byteP footer ->
  wbits (write_obu g (set_type h kSequenceHeader) (write_seqhdr s) footer) = Ok bs -> do_seq o = None ->
  effect bits bs o (mkDO (Some (h_red h, s)) (do_codecs o) (do_aes o) (do_mixes o)).
Proof.
  intros Hg Hh Hs Hf E No. assert (header_wf (set_type h kSequenceHeader)) as Hh' by (apply set_type_wf'; [exact Hh|unfold kSequenceHeader; lia]).
  pose proof (write_seqhdr_wf s Hs) as W.
  eapply (effect_of_write bits g _ _ _ _ (fun _ _ => read_seqhdr)); try eassumption; [|reflexivity|].
  - eapply parses_obu_simple; try eassumption. intros pb Epb _. apply (rt_seqhdr s Hs pb Epb).
  - intros pb c c' _ n R. unfold get_obu. rewrite norm_type. cbn [set_type h_type]. rewrite Z.eqb_refl, No, arun_bind, R, norm_red. reflexivity.
Qed.
Lemma effect_codec bits g h c st footer bs o : lebgen_wf g -> header_wf h -> codec_wf c -> Forall byteP footer -> at_most_128_flac_blocks (cc_dec c) ->
  finish_codec_config bits c = Ok (c, st) ->
  wbits (write_codec_config_obu g h c footer) = Ok bs ->
  effect bits bs o (mkDO (do_seq o) (m_insert (cc_id c) (c, st) (do_codecs o)) (do_aes o) (do_mixes o)).
Proof.
  intros Hg Hh Hc Hf K F E. unfold write_codec_config_obu in E. assert (header_wf (set_type h kCodecConfig)) as Hh' by (apply set_type_wf'; [exact Hh|unfold kCodecConfig; lia]).
  pose proof (write_codec_config_wf g c Hg Hc) as W.
  eapply (effect_of_write bits g _ _ _ _ read_codec_config); try eassumption; [|reflexivity|].
  - apply (parses_obu_bounded g _ (write_codec_config g c)); try assumption. intros n. pose proof Hc as (H1 & H2 & H3 & H4 & H5). unfold write_codec_config, read_codec_config.
    eapply rtb_seq; [apply rtb_rt, rt_uleb; assumption|]. eapply rtb_seq; [lit|]. apply rtb_wcheck. intro Fs.
    eapply rtb_seq; [apply rtb_rt, rt_uleb; assumption|]. apply rtb_rcheck; [exact Fs|].
    eapply rtb_seq; [apply rtb_rt, rt_signed16; pw|]. eapply rtb_last; [apply rt_dconf; assumption|].
    apply rtb_ret_eq. destruct c; reflexivity.
  - intros pb cu c' Ep n R. unfold get_obu. rewrite norm_type. cbn [set_type h_type].
    replace (kCodecConfig =? kSequenceHeader) with false by reflexivity. rewrite Z.eqb_refl. apply catch_ok. unfold get_codec_config.
    assert (8 <= n) as N.
    { subst n. pose proof Hc as (H1 & H2 & H3 & H4 & H5). unfold write_codec_config in Ep. apply wbits_app_ok in Ep as (b1 & r1 & E1 & Ep & ->). apply wbits_app_ok in Ep as (b2 & r2 & E2 & Ep & ->).
      apply wbits_app_ok in Ep as (b3 & r3 & E3 & Ep & ->). apply wbits_app_ok in Ep as (b4 & r4 & E4 & Ep & ->). apply wbits_app_ok in Ep as (b5 & r5 & E5 & Ep & ->).
      pose proof (wuleb_len g _ b1 Hg H1 E1). pose proof (wuleb_len g _ b4 Hg H3 E4). pose proof (zlen_nonneg b3). pose proof (zlen_nonneg r5). pose proof (zlen_nonneg footer).
      assert (zlen b2 = 32) as L2 by (apply wlit_ok in E2 as (_ & _ & ->); unfold zlen; rewrite bits_length; reflexivity).
      assert (zlen b5 = 16) as L5 by (destruct (wsigned16_total (cc_roll c)) as (x & X & Lx); rewrite E5 in X; injection X as ->; unfold zlen; lia).
      rewrite !zlen_app. assert (8 <= (zlen b1 + (zlen b2 + (zlen b3 + (zlen b4 + (zlen b5 + zlen r5))))) / 8) by (apply Z.div_le_lower_bound; lia). lia. }
    replace (n <? 8) with false by lia. rewrite arun_bind, R. cbn [fst]. rewrite F. reflexivity.
Qed.
Lemma effect_aelem bits g h a footer bs o : lebgen_wf g -> header_wf h -> aelem_wf (ad_obu a) -> small_conf (ae_conf (ad_obu a)) -> Forall byteP footer ->
  generate_ae (do_codecs o) (stored_aelem (ad_obu a)) = Ok a -> m_find (ae_id (ad_obu a)) (do_aes o) = None ->
  wbits (write_aelem_obu g h (ad_obu a) footer) = Ok bs ->
  effect bits bs o (mkDO (do_seq o) (do_codecs o) (do_aes o ++ [(ae_id (ad_obu a), a)]) (do_mixes o)).
Proof.
  intros Hg Hh Ha Hs Hf G N E. unfold write_aelem_obu in E. assert (header_wf (set_type h kAudioElement)) as Hh' by (apply set_type_wf'; [exact Hh|unfold kAudioElement; lia]).
  pose proof (write_aelem_wf g (ad_obu a) Hg Ha) as W.
  eapply (effect_of_write bits g _ _ _ _ read_aelem); try eassumption; [|reflexivity|].
  - apply (parses_obu_bounded g _ (write_aelem g (ad_obu a))); try assumption. intros n. apply rt_aelem; assumption.
  - intros pb cu c' Ep n R. unfold get_obu. rewrite norm_type. cbn [set_type h_type].
    replace (kAudioElement =? kSequenceHeader) with false by reflexivity. replace (kAudioElement =? kCodecConfig) with false by reflexivity. rewrite Z.eqb_refl. apply catch_ok. unfold get_audio_element.
    rewrite arun_bind, R. cbn [fst]. rewrite G. cbn [rbind]. rewrite N. reflexivity.
Qed.
Lemma known_stored aes h m : known_elements aes (stored_mixp h m) = known_elements aes m.
Proof.
  unfold known_elements, stored_mixp. cbn [mp_subs]. induction (mp_subs m) as [|x l IH]; [reflexivity|]. cbn [map forallb]. rewrite IH. f_equal.
  unfold stored_submix. cbn [sm_elems]. induction (sm_elems x) as [|e t IHt]; [reflexivity|]. cbn [map forallb]. rewrite IHt. reflexivity.
Qed.
Lemma effect_mixp bits g h m footer bs o : lebgen_wf g -> header_wf h -> mixp_wf m -> Forall byteP footer ->
  mp_count m <= 256 -> zlen (mp_subs m) <= 28 -> (mp_tags m = None -> footer = []) -> known_elements (do_aes o) m = true ->
  wbits (write_mixp_obu g h m footer) = Ok bs ->
  effect bits bs o (mkDO (do_seq o) (do_codecs o) (do_aes o) (do_mixes o ++ [stored_mixp h m])).
Proof.
  intros Hg Hh Hm Hf Hc Hs Ht KN E. unfold write_mixp_obu in E. set (h' := set_type h kMixPresentation) in *. assert (header_wf h') as Hh' by (apply set_type_wf'; [exact Hh|unfold kMixPresentation; lia]).
  pose proof (write_mixp_wf g h' m Hg Hm) as W.
  eapply (effect_of_write bits g _ _ _ _ read_mixp (stored_mixp h m)); try eassumption; [|reflexivity|].
  - eapply parses_obu_simple; try eassumption. intros pb Epb Hmod.
    assert (zlen pb <= 2^24) as L.
    { destruct (write_obu_ok g h' _ footer bs W Hf E) as (pb' & hb & E1 & _ & E2 & _). rewrite Epb in E1. injection E1 as <-.
      destruct (write_header_ok _ _ _ _ Hg Hh' E2) as (te & ts & ls & lb & lo & _ & _ & _ & _ & _ & _ & Hle & _).
      pose proof (zlen_nonneg (te ++ ts ++ ls ++ lb)). pose proof (zlen_nonneg lo). pose proof (zlen_nonneg footer).
      change (2^21) with 2097152 in Hle. change (2^24) with 16777216. unfold zlen in *. lia. }
    replace (stored_mixp h m) with (stored_mixp (norm_header h') m) by reflexivity.
    apply (parses_mixp g); try assumption; reflexivity.
  - intros pb cu c' Ep n R. unfold get_obu. rewrite norm_type. cbn [h' set_type h_type].
    replace (kMixPresentation =? kSequenceHeader) with false by reflexivity. replace (kMixPresentation =? kCodecConfig) with false by reflexivity. replace (kMixPresentation =? kAudioElement) with false by reflexivity.
    rewrite Z.eqb_refl. apply catch_ok. unfold get_mix_presentation.
    rewrite arun_bind, R. cbn [fst]. rewrite known_stored, KN. reflexivity.
Qed.

(* ---- which audio elements a mix presentation uses ---- *)
Lemma gather_known aes l : forall m lp x, gather aes l m lp = Some x -> forallb (fun e => match m_find (sa_id e) aes with Some _ => true | None => false end) l = true.
Proof. induction l as [|e t IH]; intros m lp x E; [reflexivity|]. cbn [gather forallb] in *. destruct (m_find _ aes) as [a|]; [|discriminate]. cbn [andb]. eapply IH. exact E. Qed.
Lemma gather_all_known aes l : forall first m lp x, gather_all aes first l m lp = Some x ->
  forallb (fun s => forallb (fun e => match m_find (sa_id e) aes with Some _ => true | None => false end) (sm_elems s)) l = true.
Proof.
  induction l as [|e t IH]; intros first m lp x E; [reflexivity|]. cbn [gather_all forallb] in *. destruct (gather aes (sm_elems e) m lp) as [[m1 l1]|] eqn:G; [|discriminate].
  rewrite (gather_known _ _ _ _ _ G). destruct (_ && _); [discriminate|]. cbn [andb]. eapply IH. exact E.
Qed.
Lemma filter_mix_known aes m ps : fst (filter_mix aes m ps) = Ok tt -> known_elements aes m = true.
Proof.
  intro E. unfold filter_mix in E. unfold and_then at 1 in E. destruct (fst (filter_num_submixes _ ps)) eqn:E1 in E; try congruence.
  unfold and_then at 1 in E. destruct (fst (filter_headphones _ _)) eqn:E2 in E; try congruence.
  unfold and_then at 1 in E. destruct (fst (filter_codecs _ _ _)) eqn:E3 in E; try congruence.
  unfold filter_codecs in E3. destruct (gather_all aes true (mp_subs m) [] false) as [[i lp]|] eqn:G; [|discriminate]. exact (gather_all_known _ _ _ _ _ _ G).
Qed.

(* ---- a second sequence ---- *)
Lemma loop_stop bits start s (small : zlen s < 2^32 - 64) k p o h n q : (p <= length s)%nat -> arun read_header (at_byte s p) = (Ok (h, n), at_byte s q) ->
  Z.of_nat q + n <= zlen s -> temporal_unit_type (h_type h) = false -> arun (get_obu bits o h n) (at_byte s q) = (Ok VStop, at_byte s q) -> do_seq o <> None ->
  arun (descriptor_loop (S k) bits false start o) (at_byte s p) = (Ok (Ok o, false), at_byte s p).
Proof.
  intros Hp E Hq T G NS. destruct (header_facts s small p h n q Hp E) as (total & r' & F & Hn & Et & Hpq). unfold zlen in *.
  cbn [descriptor_loop]. rewrite arun_bind, arun_rcatch, (arun_peek _ (at_byte_cok s p Hp)).
  replace (mkC (c_bits (at_byte s p)) (c_pos (at_byte s p)) (Some true)) with (at_byte s p) by reflexivity.
  pose proof (arun_prun _ pure_fill _ (at_byte_cok s p Hp)) as P. rewrite at_byte_skip, F in P. destruct P as [v P]. rewrite P. clear P v. rewrite T.
  rewrite arun_bind, (arun_avail s p Hp). replace (Z.of_nat (length s - p) <? total) with false by lia.
  rewrite arun_bind, arun_rtell. replace (mkC (c_bits (at_byte s p)) (c_pos (at_byte s p)) (Some true)) with (at_byte s p) by reflexivity.
  rewrite arun_bind, E. cbn [fst snd]. rewrite arun_bind, G. cbn [c_pos at_byte]. unfold at_byte at 1.
  rewrite arun_bind, arun_rseek_ok by (unfold zlen; rewrite bytes_bits_length; lia).
  replace (mkC (bytes_bits s) (Z.to_nat (Z.of_nat (8 * p))) (Some true)) with (at_byte s p) by (unfold at_byte; f_equal; lia).
  destruct (do_seq o); [|congruence]. rewrite arun_bind, (arun_avail s p Hp). reflexivity.
Qed.
(* The sequence header OBU at the beginning of descriptors *)
Lemma seqhdr_first g h s footer bs pre rest : lebgen_wf g -> header_wf h -> seqhdr_wf s -> Forall byteP footer ->
  wbits (write_obu g (set_type h kSequenceHeader) (write_seqhdr s) footer) = Ok bs ->
  exists n hl, let at_ k := mkC (pre ++ bs ++ rest) (length pre + k) (Some true) in
    arun read_header (at_ O) = (Ok (norm_header (set_type h kSequenceHeader), n), at_ hl) /\ Z.of_nat hl + 8 * n = zlen bs.
Proof.
  intros Hg Hh Hs Hf E. assert (header_wf (set_type h kSequenceHeader)) as Hh' by (apply set_type_wf'; [exact Hh|unfold kSequenceHeader; lia]).
  pose proof (write_seqhdr_wf s Hs) as W.
  assert (parses (read_obu (fun _ _ => read_seqhdr)) bs (norm_header (set_type h kSequenceHeader), s, footer)) as P.
  { eapply parses_obu_simple; try eassumption. intros pb Epb _. apply (rt_seqhdr s Hs pb Epb). }
  destruct (parsed_obu _ _ _ _ _ pre rest P) as (n & hl & E1 & _ & L). exists n, hl. auto.
Qed.
Lemma effect_seqhdr_again bits g h s footer bs o r0 s0 : lebgen_wf g -> header_wf h -> seqhdr_wf s -> Forall byteP footer ->
  wbits (write_obu g (set_type h kSequenceHeader) (write_seqhdr s) footer) = Ok bs -> do_seq o = Some (r0, s0) -> r0 || h_red h = true ->
  effect bits bs o (mkDO (Some (h_red h, s)) (do_codecs o) (do_aes o) (do_mixes o)).
Proof.
  intros Hg Hh Hs Hf E No R0. assert (header_wf (set_type h kSequenceHeader)) as Hh' by (apply set_type_wf'; [exact Hh|unfold kSequenceHeader; lia]).
  pose proof (write_seqhdr_wf s Hs) as W.
  eapply (effect_of_write bits g _ _ _ _ (fun _ _ => read_seqhdr)); try eassumption; [|reflexivity|].
  - eapply parses_obu_simple; try eassumption. intros pb Epb _. apply (rt_seqhdr s Hs pb Epb).
  - intros pb c c' _ n R. unfold get_obu. rewrite norm_type. cbn [set_type h_type]. rewrite Z.eqb_refl, No, norm_red.
    destruct r0; cbn [orb] in R0.
    + rewrite arun_bind, R. reflexivity.
    + cbn [set_type h_red]. rewrite R0, arun_bind, R. reflexivity.
Qed.
(* An audio element which is there already *)
Lemma effect_aelem_again bits g h a footer bs o a1 a2 : lebgen_wf g -> header_wf h -> aelem_wf (ad_obu a) -> small_conf (ae_conf (ad_obu a)) -> Forall byteP footer ->
  generate_ae (do_codecs o) (stored_aelem (ad_obu a)) = Ok a1 -> m_find (ae_id (ad_obu a)) (do_aes o) = Some a2 ->
  wbits (write_aelem_obu g h (ad_obu a) footer) = Ok bs -> effect bits bs o o.
Proof.
  intros Hg Hh Ha Hs Hf G N E pre rest. unfold write_aelem_obu in E. set (h' := set_type h kAudioElement) in *. assert (header_wf h') as Hh' by (apply set_type_wf'; [exact Hh|unfold kAudioElement; lia]).
  pose proof (write_aelem_wf g (ad_obu a) Hg Ha) as W.
  assert (parses (read_obu read_aelem) bs (norm_header h', stored_aelem (ad_obu a), footer)) as P.
  { apply (parses_obu_bounded g _ (write_aelem g (ad_obu a))); try assumption. intros n. apply rt_aelem; assumption. }
  destruct (parsed_obu _ bs (norm_header h') _ footer pre rest P) as (n & hl & E1 & E2 & L). cbv beta zeta in *.
  exists (norm_header h'), n, hl. split; [exact E1|]. rewrite norm_type. split; [reflexivity|]. split; [exact L|]. right. split; [|split; [reflexivity|discriminate]].
  exists InvalidArgument. eexists. unfold get_obu. rewrite norm_type. cbn [h' set_type h_type].
  replace (kAudioElement =? kSequenceHeader) with false by reflexivity. replace (kAudioElement =? kCodecConfig) with false by reflexivity. rewrite Z.eqb_refl.
  apply catch_ok. unfold get_audio_element. rewrite arun_bind, E2. cbn [fst arun]. rewrite G. cbn [rbind].
  apply PropsDesc.generate_ae_codec in G as [-> _]. cbn [stored_aelem ae_id]. rewrite N. reflexivity.
Qed.

(* Something other than a sequence header first *)
Lemma loop_refused bits start s (small : zlen s < 2^32 - 64) k exact p o h n q : (p <= length s)%nat -> arun read_header (at_byte s p) = (Ok (h, n), at_byte s q) ->
  Z.of_nat q + n <= zlen s -> temporal_unit_type (h_type h) = false -> turns bits s o h n q (q + Z.to_nat n) o -> do_seq o = None ->
  exists c, arun (descriptor_loop (S k) bits exact start o) (at_byte s p) = (Err InvalidArgument, c).
Proof.
  intros Hp E Hq T TU NS. destruct (header_facts s small p h n q Hp E) as (total & r' & F & Hn & Et & Hpq). unfold zlen in *.
  cbn [descriptor_loop]. rewrite arun_bind, arun_rcatch, (arun_peek _ (at_byte_cok s p Hp)).
  replace (mkC (c_bits (at_byte s p)) (c_pos (at_byte s p)) (Some true)) with (at_byte s p) by reflexivity.
  pose proof (arun_prun _ pure_fill _ (at_byte_cok s p Hp)) as P. rewrite at_byte_skip, F in P. destruct P as [v P]. rewrite P. clear P v. rewrite T.
  rewrite arun_bind, (arun_avail s p Hp). replace (Z.of_nat (length s - p) <? total) with false by lia.
  rewrite arun_bind, arun_rtell. replace (mkC (c_bits (at_byte s p)) (c_pos (at_byte s p)) (Some true)) with (at_byte s p) by reflexivity.
  rewrite arun_bind, E. cbn [fst snd]. rewrite arun_bind.
  destruct TU as [G|[(e & c & G) _]].
  - rewrite G, NS. eexists. reflexivity.
  - pose proof (arun_bits (get_obu bits o h n) (at_byte s q)) as B. destruct (arun_valid (get_obu bits o h n) (at_byte s q) eq_refl) as [V _]. rewrite G in B, V |- *.
    destruct c as [b2 p2 v2]. cbn [snd c_bits c_valid at_byte] in B, V. subst b2 v2. cbn [c_pos at_byte].
    rewrite arun_bind, arun_rseek_ok by (unfold zlen; rewrite bytes_bits_length; lia). rewrite arun_bind, arun_rignore by (unfold zlen; rewrite ?bytes_bits_length; lia).
    rewrite NS. eexists. reflexivity.
Qed.
