(* C58: what a decoder makes of a file the sequencers wrote. *)
From Coq Require Import Reals Permutation.
From Flocq Require Import Core BinarySingleNaN.
From Verif Require Import TempUnit PropsTU Base WriteBuf ReadBuf Leb BufSpec LebSpec BitFacts WriteBufFacts ReadBufFacts LebFacts
  ParseFacts EndToEnd ObuHeader ObuHeaderFacts FrameFacts SeqFacts BndFacts PureFacts SimpleObus CodecConfig Params AudioElement MixPresentation
  Timing PropsTiming ParamManager PropsPM AeData Profile PropsProfile MixSelect PropsMixSelect Processor PropsObu PropsCodec PropsAE PropsMix PropsParams ProcFacts StreamSpec StreamFacts
  Session SessionFacts PropsProc PropsSession DecoderFacts Reorder Pcm PropsPcm PropsLoss DecoderApi PropsApiSafe PropsDecoder PropsDecoderStream Descriptors DescFacts MixStable PropsDesc PropsInit PropsLabels
  PropsCreate PropsDescStream PropsDescModes PropsReport Sequencer PropsSeq SeqRound PropsSeqDesc UnitRound PropsSeqUnits.
Local Open Scope Z_scope.

(* ================= SPEC ================= *)
(* The first temporal unit begins with its temporal delimiter, parameter block or audio frame. *)
Definition first_unit (delims : bool) (us : list tunit) : Prop :=
  match us with
  | [] => False
  | u :: _ => delims = true \/ Forall (fun a => ar_hook a <> BeforeBlocks /\ (tu_blocks u = [] -> ar_hook a <> AfterBlocks)) (tu_arb u)
  end.
(* The order of channels asked for applies to loudspeaker layouts. *)
Definition order_of (sch : scheme) (l : res (Z * speclay)) : option (scheme * Z) :=
  match l with Ok (_, LSs ss _) => Some (sch, ss) | _ => None end.

(* ================= proofs ================= *)
(* ---- the mix presentations that are read are those which are kept ---- *)
Lemma catch_is p c r c' : arun (catch_status p) c = (Ok (VStatus (Ok r)), c') -> arun p c = (Ok (Ok r), c').
Proof.
  unfold catch_status. rewrite arun_bind, arun_rcatch. destruct (arun p c) as [[x|er| | |] c1]; cbn [arun]; intro H; try discriminate H. injection H as -> <-. reflexivity.
Qed.
Lemma get_obu_mixes bits o h n c o' c' : arun (get_obu bits o h n) c = (Ok (VStatus (Ok o')), c') -> incl (do_mixes o) (do_mixes o').
Proof.
  unfold get_obu. cbv zeta. destruct (_ =? kSequenceHeader).
  { destruct (do_seq o) as [[[] ?]|], (h_red h); intro E; try discriminate E; apply arun_bind_ok in E as (x & c1 & _ & E); cbn [arun] in E; injection E as <- _; cbn [do_mixes]; apply incl_refl. }
  destruct (_ =? kCodecConfig).
  { intro E. apply catch_is in E. unfold get_codec_config in E. destruct (n <? 8).
    - apply arun_bind_ok in E as (x & c1 & _ & E). cbn [arun] in E. injection E as <- _. apply incl_refl.
    - apply arun_bind_ok in E as (x & c1 & _ & E). cbn [arun] in E. destruct (finish_codec_config _ _); cbn [rbind] in E; try discriminate E. injection E as <- _. apply incl_refl. }
  destruct (_ =? kAudioElement).
  { intro E. apply catch_is in E. unfold get_audio_element in E. apply arun_bind_ok in E as (x & c1 & _ & E). cbn [arun] in E. destruct (generate_ae _ _); cbn [rbind] in E; try discriminate E.
    destruct (m_find _ _); try discriminate E. injection E as <- _. apply incl_refl. }
  destruct (_ =? kMixPresentation).
  { intro E. apply catch_is in E. unfold get_mix_presentation in E. apply arun_bind_ok in E as (x & c1 & _ & E). cbn [arun] in E. destruct (known_elements _ _); try discriminate E. injection E as <- _. apply incl_appl, incl_refl. }
  destruct (_ =? kMetadata); [discriminate|]. destruct (_ && _); discriminate.
Qed.
Lemma effect_mixes bits bs o o' : effect bits bs o o' -> incl (do_mixes o) (do_mixes o').
Proof. intro E. destruct (E [] []) as (h & n & hl & _ & _ & _ & [G|(_ & -> & _)]); [exact (get_obu_mixes _ _ _ _ _ _ _ G)|apply incl_refl]. Qed.
Lemma chain_mixes_incl bits l o o' : chain bits l o o' -> incl (do_mixes o) (do_mixes o').
Proof. induction 1 as [|bs l o o1 o2 E _ _ _ IH]; [apply incl_refl|]. eapply incl_tran; [eapply effect_mixes; exact E|exact IH]. Qed.
Lemma chain_split bits l1 : forall bs l2 o o', chain bits (l1 ++ bs :: l2) o o' ->
  exists o1 o2, chain bits l1 o o1 /\ effect bits bs o1 o2 /\ chain bits l2 o2 o' /\ (length bs mod 8 = 0)%nat.
Proof.
  induction l1 as [|b l1 IH]; intros bs l2 o o' C; inversion C as [|? ? ? oo ? E M N C']; subst.
  - exists o, oo. split; [constructor|]. auto.
  - destruct (IH _ _ _ _ C') as (o1 & o2 & C1 & E2 & C2 & M2). exists o1, o2. split; [econstructor; eassumption|]. auto.
Qed.
Lemma header_type_is l h n r : prun read_header l = POk (h, n) r -> exists r', prun (rlit 5 64) l = POk (h_type h) r'.
Proof.
  unfold read_header. rewrite prun_bind. destruct (prun (rlit 5 64) l) as [|er|t r0]; try discriminate. intro E. exists r0. f_equal.
  repeat (rewrite prun_bind in E; match type of E with context [prun ?p ?x] => destruct (prun p x) as [|?|? ?] end; try discriminate E).
  cbn [prun] in E. injection E as <- _ _. reflexivity.
Qed.
Lemma fill_type_is l t total r : prun fill_header_metadata l = POk (t, total) r -> exists r', prun (rlit 5 64) l = POk t r'.
Proof.
  unfold fill_header_metadata. rewrite prun_bind. destruct (prun (rlit 5 64) l) as [|er|t0 r0]; try discriminate. intro E. exists r0. f_equal.
  repeat (rewrite prun_bind in E; match type of E with context [prun ?p ?x] => destruct (prun p x) as [|?|? ?] end; try discriminate E).
  cbn [prun] in E. injection E as <- _ _. reflexivity.
Qed.
Lemma app_same_length {A} (a : list A) : forall b x y, length a = length b -> a ++ x = b ++ y -> a = b /\ x = y.
Proof.
  induction a as [|c a IH]; intros [|d b] x y L E; try discriminate L; [auto|]. cbn [app length] in *. injection E as -> E. destruct (IH b x y ltac:(lia) E) as [-> ->]. auto.
Qed.
Lemma header_not_back s p h n q : (p <= length s)%nat -> arun read_header (at_byte s p) = (Ok (h, n), at_byte s q) -> (p < q)%nat.
Proof.
  intros Hp E. pose proof (arun_header s p Hp) as P. destruct (prun read_header (bytes_bits (skipn p s))) as [|er|[h1 n1] r] eqn:EP;
    [destruct P as (? & ? & P); congruence|destruct P as (? & ? & P); congruence|]. rewrite E in P. injection P as _ _ P. apply header_consumes in EP. rewrite bytes_bits_length, skipn_length in EP. lia.
Qed.
(* The OBUs of a file begin where they were written. *)
Section Starts.
Variables (bits : Z) (bl : list (list bool)) (o o' : dobus) (s rest : list Z).
Hypotheses (C : chain bits bl o o') (Eb : bytes_bits s = concat bl ++ bytes_bits rest) (Hu : begins_unit rest).
Lemma at_boundary l1 bs l2 p : bl = l1 ++ bs :: l2 -> (8 * p = length (concat l1))%nat ->
  exists h n hl o1 o2, let q := (p + hl / 8)%nat in arun read_header (at_byte s p) = (Ok (h, n), at_byte s q) /\ (0 <= n -> (8 * (q + Z.to_nat n) = length (concat (l1 ++ [bs])))%nat /\
    temporal_unit_type (h_type h) = false /\ incl (do_mixes o2) (do_mixes o') /\
    (arun (get_obu bits o1 h n) (at_byte (firstn (q + Z.to_nat n) s) q) = (Ok (VStatus (Ok o2)), at_byte (firstn (q + Z.to_nat n) s) (q + Z.to_nat n)) \/ h_type h <> kMixPresentation)).
Proof.
  intros El Lp. pose proof C as C0. rewrite El in C0. destruct (chain_split _ _ _ _ _ _ C0) as (o1 & o2 & C1 & E & C2 & M8).
  destruct (E (concat l1) []) as (h & n & hl & E1 & T & LN & G). cbv beta zeta in *. rewrite app_nil_r, Nat.add_0_r in *.
  pose proof (chain_aligned _ _ _ _ C1) as M1. pose proof Eb as Es. rewrite El, concat_app in Es. cbn [concat] in Es. rewrite <- !app_assoc in Es.
  pose proof (Nat.div_mod (length bs) 8 ltac:(lia)) as D2.
  set (p2 := (p + length bs / 8)%nat). set (tr := firstn p2 s).
  assert (8 * length s = 8 * p + (length bs + (length (concat l2) + 8 * length rest)))%nat as Ls by (rewrite <- bytes_bits_length, Es, !app_length, bytes_bits_length; lia).
  assert (length tr = p2) as Lt by (unfold tr; rewrite firstn_length; lia).
  assert (bytes_bits tr = concat l1 ++ bs) as Et.
  { assert (bytes_bits tr ++ bytes_bits (skipn p2 s) = (concat l1 ++ bs) ++ (concat l2 ++ bytes_bits rest)) as X by (rewrite <- bytes_bits_app; unfold tr; rewrite firstn_skipn, Es, <- app_assoc; reflexivity).
    assert (length (bytes_bits tr) = length (concat l1 ++ bs)) as L by (rewrite bytes_bits_length, app_length, Lt; lia).
    exact (proj1 (app_same_length _ _ _ _ L X)). }
  rewrite <- Et, <- Lp in E1, G. change (mkC (bytes_bits tr) (8 * p) (Some true)) with (at_byte tr p) in E1.
  assert (hl mod 8 = 0)%nat as H8.
  { unfold zlen in LN. apply Nat2Z.inj. rewrite Nat2Z.inj_mod. change (Z.of_nat 8) with 8. change (Z.of_nat 0) with 0. assert (Z.of_nat (length bs) mod 8 = 0) as Z8 by (rewrite <- (Nat2Z.inj_mod _ 8), M8; reflexivity).
    replace (Z.of_nat hl) with (Z.of_nat (length bs) + (- n) * 8) by lia. rewrite Z.mod_add by lia. exact Z8. }
  rewrite (pos_at tr p hl H8) in E1, G. rewrite (pos_at tr p (length bs) M8) in G.
  pose proof (Nat.div_mod hl 8 ltac:(lia)) as D1. unfold zlen in LN.
  exists h, n, hl, o1, o2. cbv zeta. set (q := (p + hl / 8)%nat) in *.
  split; [|intro Hn; assert (q + Z.to_nat n = p2)%nat as Eq by (unfold q, p2; lia); split; [|split; [exact T|split; [eapply chain_mixes_incl; exact C2|]]]].
  - pose proof (fw_ext read_header (fw_pure _ pure_header) (at_byte tr p) (bytes_bits (skipn p2 s)) (at_byte_cok tr p ltac:(lia))) as X. rewrite E1, <- !at_byte_ext in X. unfold tr in X. rewrite firstn_skipn in X. exact X.
  - rewrite Eq, concat_app, app_length. cbn [concat]. rewrite app_nil_r. unfold p2. lia.
  - rewrite Eq. fold tr. destruct G as [G|(_ & _ & G)]; [left; exact G|right; exact G].
Qed.
Lemma boundaries p : desc_start s p -> exists l1 l2, bl = l1 ++ l2 /\ (8 * p = length (concat l1))%nat.
Proof.
  induction 1 as [|p h n q Hd (l1 & l2 & El & Lp) (E1 & Hn & Hq) Ht]; [exists [], bl; auto|].
  destruct l2 as [|bs l2].
  - exfalso. rewrite app_nil_r in El. subst l1. assert (length (bytes_bits s) = 8 * p + 8 * length rest)%nat as Ls by (rewrite Eb, app_length, bytes_bits_length; lia). rewrite bytes_bits_length in Ls.
    pose proof (arun_header s p ltac:(lia)) as P. rewrite <- at_byte_skip in P. unfold at_byte in P. cbn [c_pos c_bits] in P. rewrite Eb, Lp, skipn_app, skipn_all, Nat.sub_diag in P. cbn [skipn app] in P.
    destruct (begins_fill rest Hu) as (t & total & r & F & T). destruct (fill_type_is _ _ _ _ F) as (r1 & F1).
    destruct (prun read_header (bytes_bits rest)) as [|er|[h1 n1] r2] eqn:EP; [|destruct P as (? & ? & P)|].
    + destruct P as (? & ? & P). unfold at_byte in E1. rewrite Eb, Lp in E1. congruence.
    + unfold at_byte in E1. rewrite Eb, Lp in E1. congruence.
    + unfold at_byte in E1. rewrite Eb, Lp, P in E1. injection E1 as -> _ _. destruct (header_type_is _ _ _ _ EP) as (r3 & F3). congruence.
  - destruct (at_boundary l1 bs l2 p El Lp) as (h1 & n1 & hl & o1 & o2 & X1 & X2). cbv zeta in *. rewrite E1 in X1. injection X1 as <- <- X1. specialize (X2 Hn) as (X2 & _).
    exists (l1 ++ [bs]), l2. split; [rewrite <- app_assoc; exact El|]. rewrite <- X2. assert (q = p + hl / 8)%nat by lia. subst q. reflexivity.
Qed.
Lemma chain_known : (forall m, In m (do_mixes o') -> extensions_known m) -> mixes_known s.
Proof.
  intros K p h n q m f c1 Hd (E1 & Hn & Hq) Ht R. destruct (boundaries p Hd) as (l1 & l2 & El & Lp). destruct l2 as [|bs l2].
  - exfalso. (* a temporal unit *)
    assert (desc_start s (q + Z.to_nat n)) as Hd' by (apply (DS_next s p h n q); [exact Hd|split; auto|rewrite Ht; reflexivity]).
    destruct (boundaries _ Hd') as (l3 & l4 & El4 & Lp4). rewrite app_nil_r in El. subst l1.
    assert (length (concat bl) = length (concat l3) + length (concat l4))%nat as L by (rewrite El4, concat_app, app_length; reflexivity).
    pose proof (header_not_back s p h n q (desc_start_le _ _ Hd) E1). lia.
  - destruct (at_boundary l1 bs l2 p El Lp) as (h1 & n1 & hl & o1 & o2 & X1 & X2). cbv zeta in *. rewrite E1 in X1. injection X1 as <- <- X1. specialize (X2 Hn) as (X2 & X4 & X5 & X6).
    assert (q = p + hl / 8)%nat as Eq by lia. rewrite <- Eq in X6. destruct X6 as [G|N]; [|congruence].
    unfold get_obu in G. rewrite Ht in G. replace (kMixPresentation =? kSequenceHeader) with false in G by reflexivity. replace (kMixPresentation =? kCodecConfig) with false in G by reflexivity. replace (kMixPresentation =? kAudioElement) with false in G by reflexivity.
    rewrite Z.eqb_refl in G. apply catch_is in G. unfold get_mix_presentation in G. rewrite arun_bind, R in G. cbn [arun fst] in G. destruct (known_elements _ _); [|discriminate G]. injection G as <- _.
    apply K, X5. cbn [do_mixes]. apply in_elt.
Qed.
End Starts.

(* ---- the first OBU of the units ---- *)
Lemma begins_obu g h payload footer bs x l : lebgen_wf g -> header_wf h -> Forall winstr_wf payload -> Forall byteP footer -> wbits (write_obu g h payload footer) = Ok bs ->
  temporal_unit_type (h_type h) = true -> Forall byteP l -> bytes_bits l = bs ++ x -> begins_unit l.
Proof.
  intros Hg Hh Hp Hf E T Fl El. destruct (write_obu_ok g h payload footer bs Hp Hf E) as (pb & hb & Ep & M & Eh & Eb).
  destruct (write_header_ok _ _ _ _ Hg Hh Eh) as (te & ts & ls & lb & lo & T1 & X1 & Elo & Hn & Fx & Ehb & Hle & V).
  subst bs hb. rewrite <- !app_assoc in El. set (y := bytes_bits (te ++ _) ++ _) in El. cbv zeta in *.
  assert (length (first_byte h) = 8)%nat as L8 by (unfold first_byte; rewrite app_length; cbn [length]; rewrite ?bits_of_length; reflexivity).
  destruct l as [|b0 l]. { exfalso. apply (f_equal (@length _)) in El. rewrite app_length, L8 in El. cbn in El. lia. }
  inversion Fl as [|? ? B0 Fl']; subst. change (b0 :: l) with ([b0] ++ l) in El. rewrite bytes_bits_app in El.
  assert (length (bytes_bits [b0]) = length (first_byte h)) as L0 by (rewrite L8; reflexivity). destruct (app_same_length _ _ _ _ L0 El) as [E0 E1].
  assert (enc_of g (zlen (te ++ ts ++ ls ++ lb) + (zlen pb / 8 + zlen footer)) lo) as Elo' by exact Elo.
  set (k := length lo). assert (8 * length l = 8 * k + length y)%nat as Ll by (rewrite <- bytes_bits_length, E1, app_length, bytes_bits_length; reflexivity).
  assert (bytes_bits (firstn k l) = bytes_bits lo) as E2.
  { pose proof E1 as E1'. rewrite <- (firstn_skipn k l), bytes_bits_app in E1'. refine (proj1 (app_same_length _ _ _ _ _ E1')). rewrite !bytes_bits_length, firstn_length. lia. }
  pose proof Elo' as (_ & Q1 & Q3 & Q2).
  apply bytes_bits_inj in E2; [|rewrite <- (firstn_skipn k l) in Fl'; apply Forall_app in Fl'; apply Fl'|apply is_leb_bytes; exact Q1].
  exists b0, lo, (skipn k l). split; [rewrite <- E2 at 1; rewrite firstn_skipn; reflexivity|]. split; [exact B0|]. split; [exact Q1|].
  split; [unfold zlen; lia|]. split; [rewrite Q3; change (2^21) with 2097152 in *; pose proof (zlen_nonneg lo); lia|].
  rewrite <- T. f_equal. change (bytes_bits [b0]) with (bits (5 + 3) b0 ++ []) in E0. rewrite app_nil_r, bits_app in E0. unfold first_byte in E0.
  assert (length (bits 5 (b0 / 2 ^ Z.of_nat 3)) = length (bits 5 (h_type h))) as L5 by (rewrite !bits_length; reflexivity). destruct (app_same_length _ _ _ _ L5 E0) as [E5 _]. change (2 ^ Z.of_nat 3) with 8 in E5.
  apply (bits_inj 5) in E5; [exact E5| |]; change (2 ^ Z.of_nat 5) with 32.
  - unfold byteP in B0. split; [apply Z.div_pos; lia|apply Z.div_lt_upper_bound; lia].
  - destruct Hh as (Hh & _). exact Hh.
Qed.
Lemma begins_short l : begins_unit l -> exists w x, l = w ++ x /\ begins_unit w /\ (length w <= 9)%nat.
Proof.
  intros (b0 & size & tail & -> & H1 & H2 & H3 & H4 & H5). exists (b0 :: size), tail. split; [reflexivity|]. split.
  - exists b0, size, []. rewrite app_nil_r. auto 10.
  - unfold zlen in H3. cbn [length]. lia.
Qed.
Lemma begins_units g delims D n us bs : lebgen_wf g -> playable D n us -> flat_map ai_subs (d_aes D) <> [] -> written_units g delims us bs -> first_unit delims us -> begins_unit (concat bs).
Proof.
  intros Hg P Ne W H. destruct us as [|u us]; [destruct H|]. inversion W as [|? b ? bs' E W']; subst. cbn [concat first_unit] in *.
  pose proof (P [] u us eq_refl) as Hu. destruct (aligned_bits _ _ (write_unit_wf g delims D n [] u Hg Hu) E) as [Ew Fb].
  assert (Forall byteP (concat bs')) as Fc.
  { apply (units_bits g delims us bs' W'). intros v Hv. apply in_split in Hv as (l1 & l2 & ->). eapply write_unit_wf; [exact Hg|]. apply (P (u :: l1) v l2). reflexivity. }
  destruct Hu as (U1 & U2 & U3 & U4 & U5 & U6). unfold write_unit in Ew. destruct delims.
  - apply wbits_app_ok in Ew as (b1 & r & E1 & _ & Eb). unfold write_td_obu in E1. refine (begins_obu g _ _ _ b1 (r ++ bytes_bits (concat bs')) _ Hg _ _ _ E1 _ _ _).
    + apply set_type_wf'; [|unfold kTemporalDelimiter; lia]. unfold header_wf, default_header, u32P. cbn [h_type h_trim_end h_trim_start h_ext]. change (2^32) with 4294967296. lia.
    + constructor.
    + constructor.
    + reflexivity.
    + apply Forall_app; auto.
    + rewrite bytes_bits_app, Eb, <- app_assoc. reflexivity.
  - destruct H as [H|H]; [discriminate H|]. cbn [app] in Ew. apply wbits_app_ok in Ew as (b2 & r2 & E2 & Ew & Eb).
    assert (forall k b', Forall (fun a => ar_hook a <> k) (tu_arb u) -> wbits (with_hook g k (tu_arb u)) = Ok b' -> b' = []) as No.
    { clear. intros k b' H E2. rewrite with_hook_filter in E2. replace (filter _ (tu_arb u)) with (@nil arbitrary) in E2; [cbn [flat_map wbits] in E2; congruence|].
      symmetry. clear E2. induction H as [|a l Ha _ IH]; [reflexivity|]. cbn [filter]. destruct (hook_eq_dec _ _); [contradiction|exact IH]. }
    assert (b2 = []) as -> by (apply (No BeforeBlocks); [eapply Forall_impl; [|exact H]; intros a Ha; apply Ha|exact E2]).
    cbn [app] in Eb. apply wbits_app_ok in Ew as (b3 & r3 & E3 & Ew & ->). apply wbits_app_ok in Ew as (b4 & r4 & E4 & Ew & ->). apply wbits_app_ok in Ew as (b5 & r5 & E5 & _ & ->).
    destruct (tu_blocks u) as [|p ps].
    + cbn [flat_map wbits] in E3. injection E3 as <-. cbn [app] in Eb.
      assert (b4 = []) as -> by (apply (No AfterBlocks); [eapply Forall_impl; [|exact H]; intros a Ha; apply Ha; reflexivity|exact E4]).
      destruct (tu_frames u) as [|f fs]. { cbn [map] in U2. apply Permutation_nil in U2. contradiction. }
      cbn [flat_map] in E5. apply wbits_app_ok in E5 as (b6 & r6 & E6 & _ & ->). inversion U3 as [|? ? (V1 & (V2 & V3) & V5) _]; subst.
      unfold write_aframe_obu in E6. refine (begins_obu g _ _ _ b6 (r6 ++ r5 ++ bytes_bits (concat bs')) _ Hg _ _ _ E6 _ _ _).
      * apply set_type_wf'; [exact V1|apply audio_type_range; destruct V2; lia].
      * unfold write_aframe. wf_split; [|apply wspan_wf; exact V3]. destruct (_ =? kAudioFrame); [|constructor]. apply wuleb_wf; assumption.
      * exact V5.
      * cbn [set_type h_type]. rewrite C19_type_of_id by (destruct V2; lia). destruct (_ <=? 17) eqn:Eq; [|reflexivity].
        unfold temporal_unit_type, is_audio_frame, kAudioFrameId0, kAudioFrameId17. apply orb_true_intro. left. apply orb_true_intro. left. apply orb_true_intro. left. destruct V2. lia.
      * apply Forall_app; auto.
      * rewrite bytes_bits_app, Eb. cbn [app]. rewrite <- !app_assoc. reflexivity.
    + cbn [flat_map] in E3. apply wbits_app_ok in E3 as (b6 & r6 & E6 & _ & ->). inversion U5 as [|? ? (V1 & (V2 & V3 & V4 & _) & V5) _]; subst.
      unfold write_pblock_obu in E6. refine (begins_obu g _ _ _ b6 (r6 ++ b4 ++ b5 ++ r5 ++ bytes_bits (concat bs')) _ Hg _ _ _ E6 _ _ _).
      * apply set_type_wf'; [exact V1|unfold kParameterBlock; lia].
      * apply write_pblock_wf; assumption.
      * exact V5.
      * reflexivity.
      * apply Forall_app; auto.
      * rewrite bytes_bits_app, Eb, <- !app_assoc. reflexivity.
Qed.

(* ---- descriptors, then units ---- *)
Lemma stored_known h m : extensions_known m -> extensions_known (stored_mixp h m).
Proof.
  intros K s x Hs Hx. unfold stored_mixp in Hs. cbn [mp_subs] in Hs. apply in_map_iff in Hs as (s0 & <- & Hs). unfold stored_submix in Hx. cbn [sm_elems] in Hx. apply in_map_iff in Hx as (x0 & <- & Hx).
  specialize (K s0 x0 Hs Hx). unfold stored_subelem, stored_rconf, extension_known in *. cbn [sa_conf rc_defs rc_ego rc_ext]. destruct K as [K|[K|K]]; [left|auto|auto]. destruct (rc_defs (sa_conf x0)); [congruence|discriminate].
Qed.
Lemma stream_known g bits d b rest : lebgen_wf g -> encodable bits d -> (forall m, In m (de_mixes d) -> extensions_known (ob_v m)) ->
  serialize (serialize_descriptors g d) false = Ok b -> begins_unit rest -> mixes_known (b ++ rest).
Proof.
  intros Hg He K E Hu. destruct (written g d bits b Hg He E) as (Fb & bl & B & N & C & L). refine (chain_known bits bl do_empty (found d) (b ++ rest) rest C _ Hu _).
  - rewrite bytes_bits_app, B. reflexivity.
  - intros m Hm. unfold found in Hm. cbn [Descriptors.do_mixes] in Hm. apply in_map_iff in Hm as (m0 & <- & Hm). apply stored_known, K, Hm.
Qed.
Lemma stream_scan g bits d b rest fuel cap k : lebgen_wf g -> encodable bits d -> (forall m, In m (de_mixes d) -> extensions_known (ob_v m)) ->
  serialize (serialize_descriptors g d) false = Ok b -> Forall byteP rest -> begins_unit rest -> (8 <= fuel)%nat -> (1 <= cap)%nat ->
  zlen b + 9 < Z.of_nat k -> zlen b + 9 < 2^32 - 64 ->
  dscan k bits false (b ++ rest) 0 do_empty = DDone (found d) (length b) /\ consistent (found d).
Proof.
  intros Hg He K E Hr Hu Hf Hc Hk Hz. destruct (begins_short rest Hu) as (w & x & -> & Hw & Lw). apply Forall_app in Hr as [Fw Fx].
  destruct (written g d bits b Hg He E) as (Fb & _). assert (Forall byteP (b ++ w)) as Fa by (apply Forall_app; auto).
  assert (zlen (b ++ w) <= zlen b + 9) as Lb by (unfold zlen; rewrite app_length; lia).
  pose proof (C55_followed_by_units g bits d b w fuel cap k Hg He E Fw Hw Hf Hc ltac:(unfold zlen in *; lia) ltac:(lia)) as P.
  split; [|exact (parsed_consistent fuel cap k bits false _ _ _ _ Hf Hc Fa ltac:(lia) ltac:(lia) P)].
  pose proof (parse_dscan fuel cap k bits false (b ++ w) Hf Hc Fa (stream_known g bits d b w Hg He K E Hw) ltac:(lia) ltac:(lia)) as X. rewrite P in X.
  destruct (dscan_ext k bits (b ++ w) x 0 do_empty ltac:(lia)) as [Y|Y].
  - rewrite Y in X. discriminate X.
  - rewrite app_assoc, Y. destruct (dscan k bits false (b ++ w) 0 do_empty) as [| |o p|]; [discriminate X|destruct X as [? X]; discriminate X| |contradiction].
    injection X as <- X. f_equal. unfold zlen in X. lia.
Qed.

(* ---- everything the client gets ---- *)
Lemma played : forall R (configure : aemap -> mixp -> res R) ps bits render fuel cap k q sch ty L0 more o p D s0 os its s1 ca x cb rs d2 n,
  let e := real_env configure ps bits k render in
  (8 <= fuel)%nat -> (1 <= cap)%nat -> 2^22 < Z.of_nat k ->
  dscan k bits false L0 0 do_empty = DDone o p -> (p <= length L0)%nat -> initialize o = Ok (D, s0) ->
  decoded fuel cap D s0 os its s1 -> concat os = skipn p (L0 ++ more) -> dense false its -> Forall byteP (L0 ++ more) -> mixes_known (L0 ++ more) ->
  calls fuel k e (ca ++ CDecode x :: cb) (create q sch ty) = (rs, d2) -> all_ok rs -> complete (snd (calls fuel k e ca (create q sch ty))) = true ->
  pushed (ca ++ CDecode x :: cb) = L0 ++ more -> existsb is_reset (ca ++ CDecode x :: cb) = false -> existsb is_end cb = true ->
  available d2 = false -> ty <> OtherType -> large_buffers n (ca ++ CDecode x :: cb) ->
  Forall (fun f => some_channels f = true /\ good_frame f /\ byte_size ty f <= n) (flat_map r_rendered rs) ->
  exists np frames r1, creation configure ps q o = Ok (Some np, false) /\ renders e (order_of sch (np_layout np)) (np_R np) (group false None its) frames r1 /\
    deliveries fuel k e (ca ++ CDecode x :: cb) (create q sch ty) = map (out_bytes ty) frames.
Proof.
  intros R configure ps bits render fuel cap k q sch ty L0 more o p D s0 os its s1 ca x cb rs d2 n e Hf Hc Hk Eds Hp Ei Hd Eos Hdn Bl Hm E Oks Cc Ep Nr He Hav Hty Lb HF. subst e.
  destruct (@waiting_create R fuel Hf q sch ty) as [W0 F0].
  destruct (calls_split _ _ _ _ _ _ _ _ E Oks) as (ra & dm & rb & Ea & Eb & -> & Ed). rewrite Ea in Cc. cbn [snd] in Cc.
  apply Forall_app in Oks as Oks'. destruct Oks' as [Oa Ob]. rewrite pushed_app in Ep.
  rewrite existsb_app in Nr. apply orb_false_iff in Nr as [Na Nb].
  pose proof Hm as Hm'. rewrite <- Ep in Hm'. pose proof Bl as Bl'. rewrite <- Ep in Bl'. apply Forall_app in Bl' as [Ba Bb].
  destruct (first_complete configure ps bits fuel k render Hf q sch ty ca _ [] ra dm W0 F0 Na (Forall_nil _) Ba (known_prefix _ _ Hm') Ea Oa) as [Y|(cs0 & x0 & cs1 & o1 & p1 & np & dm0 & rs1 & Eca & Y1 & Y2 & Y3 & Y4 & Y5 & Y6 & Y7 & Y8 & Y9)]; [congruence|].
  rewrite app_nil_l in Y1, Y3, Y4. set (l1 := pushed cs0 ++ x0) in *.
  assert (pushed ca = l1 ++ pushed cs1) as Epa.
  { rewrite Eca, pushed_app. unfold l1. rewrite <- app_assoc. reflexivity. }
  assert (o1 = o /\ p1 = p) as [-> ->].
  { assert (dscan k bits false (L0 ++ more) 0 do_empty = DDone o p) as A.
    { destruct (dscan_ext k bits L0 more 0 do_empty ltac:(lia)) as [Z|Z]; congruence. }
    rewrite <- Ep, Epa, <- app_assoc in A. destruct (dscan_ext k bits l1 (pushed cs1 ++ pushed (CDecode x :: cb)) 0 do_empty ltac:(lia)) as [Z|Z]; [congruence|].
    rewrite A, Y1 in Z. injection Z as <- <-. auto. }
  assert (np_D np = D /\ np_s np = s0) as [ED Es].
  { unfold creation in Y2. rewrite Ei in Y2. cbn [rbind] in Y2. destruct (prepare_rendering configure ps q o) as [[[mix lay] r]| | | |]; cbn [rbind] in Y2; try discriminate Y2. injection Y2 as <-. auto. }
  destruct (calls_join _ _ _ _ _ _ _ _ _ _ Y6 Y7 Eb) as [Ej Dj].
  assert (existsb is_reset (cs1 ++ CDecode x :: cb) = false) as Nj.
  { rewrite Eca, existsb_app in Na. apply orb_false_iff in Na as [_ Na]. cbn [existsb is_reset orb] in Na. rewrite existsb_app, Na, Nb. reflexivity. }
  assert (large_buffers n (cs1 ++ CDecode x :: cb)) as Lj.
  { apply Forall_app in Lb as [La Lb]. rewrite Eca in La. apply Forall_app in La as [_ La]. apply Forall_cons_iff in La as [_ La]. apply Forall_app. auto. }
  destruct (strip_gets configure ps bits fuel k render n cs1 x cb dm0 _ _ _ _ _ _ (made_fresh _ _ _ _ Y4) Nj Lj Ej ltac:(apply Forall_app; auto)) as (x' & cs' & rs' & Z1 & Z2 & Z3 & Z4 & Z5 & Z6 & Z7 & Z8).
  assert (pushed (cs1 ++ CDecode x :: cb) = pushed cs1 ++ pushed (CDecode x :: cb)) as Epj by apply pushed_app.
  assert (skipn p l1 ++ pushed (CDecode x' :: cs') = concat os) as Ez.
  { rewrite Z5, Epj, <- skipn_app_le by exact Y3. rewrite Eos, <- Ep, Epa, app_assoc. reflexivity. }
  destruct Y5 as (G1 & G2 & G3 & G4). rewrite <- ED, <- Es in Hd.
  destruct (C31_bytes_of_the_stream_partial _ _ fuel cap k _ _ _ _ _ dm0 x' cs' rs' d2 os its s1 n Hf Hc Hk (made_fresh _ _ _ _ Y4) Z1 Z3 Z2) as (frames & r1 & Rn & De); try assumption.
  - rewrite Z5, Epj. apply Forall_app. split; [|exact Bb]. rewrite Epa in Ba. apply Forall_app in Ba. apply Ba.
  - rewrite Z7, existsb_app. cbn [existsb is_end orb]. rewrite He. apply orb_true_r.
  - rewrite G3. exact Hty.
  - rewrite G3, Z6. rewrite flat_map_app in HF |- *. rewrite <- Y8. exact HF.
  - exists np, frames, r1. split; [exact Y2|]. split.
    + replace (order_of sch (np_layout np)) with (reorderer_for dm0); [exact Rn|]. unfold reorderer_for, order_of. rewrite G2, G4.
      destruct Y4 as (_ & _ & _ & _ & _ & _ & mixb & layb & B7 & B8 & B9). rewrite B8, B9. destruct layb as [? [|]]; reflexivity.
    + rewrite Ed, Y9, <- Dj, <- Z8, De, G3. reflexivity.
Qed.

Lemma units_of_events g delims us es : Forall2 (unit_event g delims) us es -> written_units g delims us (map event_bytes es).
Proof. induction 1 as [|u ev us es (b & key & E & _ & ->) _ IH]; [constructor|]. cbn [map event_bytes]. constructor; assumption. Qed.
Lemma ready_some D s : ready D s -> flat_map ai_subs (d_aes D) <> [].
Proof. intros [[_ H] _ _ _ _]. exact H. Qed.

(* ================= C58 ================= *)
(* A file the sequencer wrote is read back: from its descriptors those it was given last, from the rest of it all temporal units. *)
Theorem C58_file_read_back : forall g delims answer d us d' (upd : bool) bits n D s b fuel cap k,
  let last := if upd then d' else d in
  let '(rs, q) := sq_calls g delims false answer (PushDescriptors d :: map PushUnit us ++ [if upd then UpdateAndClose d' else Close]) sq_new in
  all_succeed rs ->
  lebgen_wf g -> encodable bits last -> (forall m, In m (de_mixes last) -> extensions_known (ob_v m)) ->
  serialize (serialize_descriptors g last) false = Ok b -> zlen b + 9 <= 2^22 ->
  initialize (found last) = Ok (D, s) -> decodable (found last) n -> 0 < n -> zlen us * n < 2^62 -> playable D n us -> first_unit delims us ->
  (8 <= fuel)%nat -> (1 <= cap)%nat -> 2^22 < Z.of_nat k ->
  exists file, file_of (q_log q) = mkF false (Some (b ++ file)) /\
    (zlen (b ++ file) < 2^32 - 64 -> parse_at fuel cap k bits false (b ++ file) = Ok (Ok (found last), false, 8 * zlen b)) /\
    forall chunks, Forall (Forall byteP) chunks -> concat chunks = file -> Forall (fun x => zlen x <= 2^21 - 8) chunks ->
      exists units_out s_out pending, whole_session fuel k D chunks s = (units_out, Finished, s_out, pending) /\ Forall2 (read_as D) us units_out.
Proof.
  intros g delims answer d us d' upd bits n D s b fuel cap k last. pose proof (C54_file g delims answer d us d' upd) as F. destruct (sq_calls _ _ _ _ _ _) as [rs q].
  intros A Hg He K Eb Hz Ei Hd Hn Hu P H1 Hf Hc Hk. destruct (F A) as (b1 & es & E1 & Ev & ->). fold last in E1. rewrite Eb in E1. injection E1 as <-.
  pose proof (units_of_events _ _ _ _ Ev) as W. set (bs := map event_bytes es) in *. change (2^22) with 4194304 in *. change (2^32) with 4294967296 in *.
  exists (concat bs). split; [reflexivity|].
  assert (Forall byteP (concat bs)) as Fr.
  { apply (units_bits g delims us bs W). intros u Hu'. apply in_split in Hu' as (l1 & l2 & Hu'). eapply write_unit_wf; [exact Hg|]. exact (P l1 u l2 Hu'). }
  assert (consistent (found last)) as C.
  { pose proof (C55_descriptors_read_back g bits last b fuel cap k Hg He Eb Hf Hc ltac:(lia) ltac:(change (2^32) with 4294967296; lia)) as X. destruct (written g last bits b Hg He Eb) as (Fb & _).
    eapply (parsed_consistent fuel cap k bits true b); [exact Hf|exact Hc|exact Fb|change (2^32) with 4294967296; lia|lia|exact X]. }
  destruct (C57_ready _ _ _ _ C Ei Hd) as [Rd _].
  pose proof (begins_units g delims D n us bs Hg P (ready_some _ _ Rd) W H1) as Hbu.
  split.
  - intro Hl. apply (C55_followed_by_units g bits last b (concat bs) fuel cap k Hg He Eb Fr Hbu Hf Hc); [lia|change (2^32) with 4294967296; exact Hl].
  - intros chunks Hb Ec Hs. exact (C57_small_chunks fuel cap k (found last) D s n g delims us bs chunks Hf Hc ltac:(change (2^22) with 4194304; exact Hk) Hg C Ei Hd Hn Hu P W Hb Ec Hs).
Qed.

(* And played: whoever gives the bytes of the file to a decoder, cut in any way, and every call succeeds, gets PCM for every temporal
   unit: what the renderer made for the selected mix presentation and layout of the descriptors makes of the unit, in the channel
   order and sample format asked for.  (Arbitrary OBUs must not be temporal delimiters: F24.) *)
Theorem C58_played_partial : forall R (configure : aemap -> mixp -> res R) ps bits render fuel cap k q sch ty g delims answer d us d' (upd : bool) n D s b ca x cb rs d2 size,
  let e := real_env configure ps bits k render in
  let last := if upd then d' else d in
  (forall aes m, answers (configure aes m)) -> Forall profile ps ->
  (8 <= fuel)%nat -> (1 <= cap)%nat -> 2^22 < Z.of_nat k ->
  (* what was written *)
  let '(ws, f) := sq_calls g delims false answer (PushDescriptors d :: map PushUnit us ++ [if upd then UpdateAndClose d' else Close]) sq_new in
  all_succeed ws ->
  lebgen_wf g -> encodable bits last -> (forall m, In m (de_mixes last) -> extensions_known (ob_v m)) ->
  serialize (serialize_descriptors g last) false = Ok b -> zlen b + 9 <= 2^22 ->
  initialize (found last) = Ok (D, s) -> decodable (found last) n -> 0 < n -> zlen us * n < 2^62 -> playable D n us -> first_unit delims us -> Forall undelimited us ->
  (* how it is read *)
  calls fuel k e (ca ++ CDecode x :: cb) (create q sch ty) = (rs, d2) -> all_ok rs -> complete (snd (calls fuel k e ca (create q sch ty))) = true ->
  file_of (q_log f) = mkF false (Some (pushed (ca ++ CDecode x :: cb))) -> existsb is_reset (ca ++ CDecode x :: cb) = false -> existsb is_end cb = true ->
  available d2 = false -> ty <> OtherType -> large_buffers size (ca ++ CDecode x :: cb) ->
  Forall (fun f => some_channels f = true /\ good_frame f /\ byte_size ty f <= size) (flat_map r_rendered rs) ->
  exists np units frames r1, reports configure ps q (found last) np /\ Forall2 (read_as D) us units /\
    renders e (order_of sch (np_layout np)) (np_R np) units frames r1 /\
    deliveries fuel k e (ca ++ CDecode x :: cb) (create q sch ty) = map (out_bytes ty) frames.
Proof.
  intros R configure ps bits render fuel cap k q sch ty g delims answer d us d' upd n D s b ca x cb rs d2 size e last Hcf Hps Hf Hc Hk.
  pose proof (C54_file g delims answer d us d' upd) as F. destruct (sq_calls _ _ _ _ _ _) as [ws f].
  intros A Hg He K Eb Hz Ei Hd Hn Hu P H1 Hun E Oks Cc Ep Nr Hend Hav Hty Lb HF. destruct (F A) as (b1 & es & E1 & Ev & Ef). fold last in E1. rewrite Eb in E1. injection E1 as <-.
  rewrite Ef in Ep. injection Ep as Ep. symmetry in Ep.
  pose proof (units_of_events _ _ _ _ Ev) as W. set (bs := map event_bytes es) in *.
  destruct (written g last bits b Hg He Eb) as (Fb & _).
  assert (consistent (found last)) as C.
  { pose proof (C55_descriptors_read_back g bits last b fuel cap k Hg He Eb Hf Hc ltac:(change (2^22) with 4194304 in *; lia) ltac:(change (2^22) with 4194304 in *; change (2^32) with 4294967296; lia)) as X.
    eapply (parsed_consistent fuel cap k bits true b); [exact Hf|exact Hc|exact Fb|change (2^22) with 4194304 in *; change (2^32) with 4294967296; lia|lia|exact X]. }
  destruct (C57_ready _ _ _ _ C Ei Hd) as [Rd Hspf].
  pose proof (begins_units g delims D n us bs Hg P (ready_some _ _ Rd) W H1) as Hbu.
  destruct (units_decoded fuel cap D s n g delims us bs Hf Hc Hg Rd Hn Hspf Hu P W) as (os & its & s1 & Dc & Eo & Fr & G & Dn).
  destruct (stream_scan g bits last b (concat bs) fuel cap k Hg He K Eb Fr Hbu Hf Hc) as [Ds _]; [change (2^22) with 4194304 in *; lia|change (2^22) with 4194304 in *; change (2^32) with 4294967296; lia|].
  destruct (played R configure ps bits render fuel cap k q sch ty (b ++ concat bs) [] (found last) (length b) D s os its s1 ca x cb rs d2 size Hf Hc Hk Ds) as (np & frames & r1 & Ecr & Rn & De); try assumption.
  - rewrite app_length. lia.
  - rewrite app_nil_r, skipn_app, skipn_all, Nat.sub_diag. cbn [skipn app]. exact Eo.
  - apply Dn, Hun.
  - rewrite app_nil_r. apply Forall_app. auto.
  - rewrite app_nil_r. eapply stream_known; eassumption.
  - rewrite app_nil_r. exact Ep.
  - exists np, (group false None its), frames, r1. split; [|auto].
    destruct (creation_reports configure ps Hcf Hps q (found last) C) as [(np' & E' & Rp)|[E' _]]; [|congruence]. rewrite Ecr in E'. injection E' as <-. exact Rp.
Qed.

(* ================= example ================= *)
Definition strip (u : tunit) : tunit := mkTU (tu_blocks u) (tu_frames u) (filter (fun a => negb (ar_type a =? kTemporalDelimiter)) (tu_arb u)) (tu_start u) 0 (tu_un u).
Lemma strip_playable D n us : playable D n us -> playable D n (map strip us).
Proof.
  intros P earlier u later E. assert (exists e0 u0 l0, us = e0 ++ u0 :: l0 /\ earlier = map strip e0 /\ u = strip u0) as (e0 & u0 & l0 & E0 & -> & ->).
  { apply map_eq_app in E as (e0 & r0 & -> & <- & E). destruct r0 as [|u0 l0]; [discriminate E|]. cbn [map] in E. injection E as <- _. eauto 10. }
  destruct (P _ _ _ E0) as (U1 & U2 & U3 & U4 & U5 & U6). unfold unit_ok. cbn [strip Sequencer.tu_start Sequencer.tu_frames Sequencer.tu_blocks Sequencer.tu_arb].
  assert (zlen (map strip e0) = zlen e0) as -> by (unfold zlen; rewrite map_length; reflexivity).
  assert (forall i, lasting i (map strip e0) = lasting i e0) as L by (intro i; unfold lasting; rewrite !flat_map_concat_map, map_map; reflexivity).
  split; [exact U1|]. split; [exact U2|]. split; [exact U3|]. split; [exact U4|]. split.
  - eapply Forall_impl; [|exact U5]. intros x (V1 & V2 & V3). split; [exact V1|]. split; [|exact V3]. cbv beta in *. rewrite L. exact V2.
  - rewrite Forall_forall in *. intros a Ha. apply filter_In in Ha as [Ha _]. exact (U6 a Ha).
Qed.
Definition fx : list tunit := map strip ux.
Definition fx_calls : list scall := PushDescriptors (dx false) :: map PushUnit fx ++ [Close].
Definition fx_file : list Z := match f_bytes (file_of (q_log (snd (sq_calls LebMin true false yes fx_calls sq_new)))) with Some b => b | None => [] end.
Definition fx_conf (_ : aemap) (m : mixp) : res Z := Ok (mp_id m).
Definition fx_env : env request Z := real_env fx_conf [0; 1; 2] 16 it_k (fun r u _ => (Ok (ex_frame_at (un_time u)), [], r + 1)).
Definition fx_new : dstate request Z := create (mkReq None None) DefaultNoOp Int16LE.
Definition fx_ca : list (call request) := [CDecode (firstn 50 fx_file); CDecode (firstn 70 (skipn 50 fx_file))].
Definition fx_cb : list (call request) := [CGet (repeat 0 4); CEnd; CGet (repeat 0 4); CGet (repeat 0 4)].
Example C58_ex : exists rs d2,
  lebgen_wf LebMin /\ encodable 16 (dx false) /\ (forall m, In m (de_mixes (dx false)) -> extensions_known (ob_v m)) /\ initialize (found (dx false)) = Ok ux_start /\
  decodable (found (dx false)) 8 /\ playable (fst ux_start) 8 fx /\ first_unit true fx /\ Forall undelimited fx /\ all_succeed (fst (sq_calls LebMin true false yes fx_calls sq_new)) /\
  calls 8 it_k fx_env (fx_ca ++ CDecode (skipn 120 fx_file) :: fx_cb) fx_new = (rs, d2) /\ all_ok rs /\ complete (snd (calls 8 it_k fx_env fx_ca fx_new)) = true /\
  file_of (q_log (snd (sq_calls LebMin true false yes fx_calls sq_new))) = mkF false (Some (pushed (fx_ca ++ CDecode (skipn 120 fx_file) :: fx_cb))) /\ available d2 = false /\
  deliveries 8 it_k fx_env (fx_ca ++ CDecode (skipn 120 fx_file) :: fx_cb) fx_new = [[0; 64; 0; 32]; [0; 32; 0; 64]; [0; 16; 0; 16]].
Proof.
  eexists (fst (calls 8 it_k fx_env (fx_ca ++ CDecode (skipn 120 fx_file) :: fx_cb) fx_new)), (snd (calls 8 it_k fx_env (fx_ca ++ CDecode (skipn 120 fx_file) :: fx_cb) fx_new)).
  split; [exact I|]. split; [apply dx_encodable|]. split.
  { intros m [<-|[]] s x [<-|[]] [<-|[<-|[]]]; right; right; reflexivity. }
  split; [vm_compute; reflexivity|]. split; [|split; [exact (strip_playable _ _ _ ux_playable)|]].
  { split; [exists 3, (dx_ae 3 0), 0; vm_compute; auto|intros i a [H|[H|[]]]; injection H as <- <-; (split; [reflexivity|]); (split; [left; reflexivity|]); intros d p mode w []]. }
  split; [left; reflexivity|]. split; [repeat (apply Forall_cons; [unfold undelimited; vm_compute; repeat (first [apply Forall_nil|apply Forall_cons; [discriminate|]])|]); apply Forall_nil|].
  split; [vm_compute; repeat (first [apply Forall_nil|apply Forall_cons; [reflexivity|]])|].
  split; [apply surjective_pairing|].
  split; [vm_compute; repeat (first [apply Forall_nil|apply Forall_cons; [reflexivity|]])|].
  split; [run|]. split; [run|]. split; [run|]. run.
Qed.
