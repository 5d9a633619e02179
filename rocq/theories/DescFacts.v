(* Facts about parsing descriptor OBUs: what more data behind an OBU can and cannot change. *)
From Verif Require Import Base WriteBuf ReadBuf Leb BufSpec LebSpec BitFacts WriteBufFacts ReadBufFacts LebFacts
  ParseFacts EndToEnd ObuHeader ObuHeaderFacts FrameFacts SeqFacts PureFacts SimpleObus CodecConfig Params AudioElement MixPresentation
  Timing ParamManager AeData Profile MixSelect Processor PropsObu ProcFacts Session Reorder Pcm DecoderApi Descriptors.

(* ---- programs which read forward and may ask for the position ---- *)
Inductive fw {A} : rprog A -> Prop :=
| F_ret a : fw (RRet a)
| F_fail c : fw (RFail c)
| F_lit n m k : k (inl ResourceExhausted) = RFail ResourceExhausted -> (forall x, fw (k x)) -> fw (ROp (OLit n m) k)
| F_tell k : (forall v, fw (k (inr v))) -> fw (ROp OTell k).

Lemma fw_pure {A} (p : rprog A) : pure p -> fw p.
Proof. intro H. induction H as [a|c|n m k E _ IH]; constructor; assumption. Qed.
Lemma fw_bind {A B} (p : rprog A) (f : A -> rprog B) : fw p -> (forall a, fw (f a)) -> fw (rb p f).
Proof.
  intros Hp Hf. induction Hp as [a|c|n m k E _ IH|k _ IH]; cbn [rb]; [apply Hf|constructor| |].
  - constructor; [rewrite E; reflexivity|exact IH].
  - constructor. exact IH.
Qed.
Lemma fw_rtell : fw rtell. Proof. unfold rtell, rop1. constructor. intro v. constructor. Qed.
Lemma fw_if {A} (b : bool) (p q : rprog A) : fw p -> fw q -> fw (if b then p else q).
Proof. destruct b; auto. Qed.
Lemma fw_rlist {A} n (p : rprog A) : fw p -> fw (rlist n p).
Proof.
  intro Hp. induction n as [|n IH]; cbn [rlist]; [constructor|]. apply fw_bind; [exact Hp|]. intro a.
  apply fw_bind; [exact IH|]. intro; constructor.
Qed.
Lemma fw_rleb k le mx i acc : fw (rleb_loop k le mx i acc). Proof. apply fw_pure, pure_rleb. Qed.
Ltac fw_tac := repeat (intros; cbv zeta; match goal with
  | |- fw (rb _ _) => apply fw_bind
  | |- fw (RRet _) => constructor
  | |- fw (RFail _) => constructor
  | |- fw (rlit _ _) => apply fw_pure, pure_rlit
  | |- fw rbool => apply fw_pure, pure_rbool
  | |- fw ruleb_sz => apply fw_pure, pure_ruleb_sz
  | |- fw ruleb => apply fw_pure, pure_ruleb
  | |- fw (riso _) => unfold riso
  | |- fw (rleb_loop _ _ _ _ _) => apply fw_rleb
  | |- fw rsigned16 => apply fw_pure, pure_rsigned16
  | |- fw (rspan _) => apply fw_pure, pure_rspan
  | |- fw rtell => apply fw_rtell
  | |- fw (rlist _ _) => apply fw_rlist
  | |- fw (rcheck _ _) => apply fw_pure, pure_rcheck
  | |- fw (rres _) => apply fw_pure, pure_rres
  | |- fw (if _ then _ else _) => apply fw_if
  | |- fw (match ?x with _ => _ end) => destruct x
  end).
Lemma fw_seqhdr : fw read_seqhdr. Proof. unfold read_seqhdr. fw_tac. Qed.
Lemma fw_aac r : fw (read_aac r).
Proof. unfold read_aac, expected_position, advance_to, read_asc. fw_tac. Qed.
Lemma fw_fblocks k : fw (read_fblocks k).
Proof. induction k as [|k IH]; cbn [read_fblocks]; unfold read_fblock, read_sinfo; fw_tac; apply IH. Qed.
Lemma fw_codec_config h n : fw (read_codec_config h n).
Proof. unfold read_codec_config, read_dconf, read_opus, read_lpcm, read_flac. fw_tac; try apply fw_aac; apply fw_fblocks. Qed.
Lemma fw_pdef d : fw (read_pdef d).
Proof.
  unfold read_pdef, read_pbase, read_kind, read_schedule, parse_schedule, read_demix, read_polar, read_xyz8, read_xyz16. fw_tac;
    unfold rsigned9, rsigned8; fw_tac.
Qed.
Lemma fw_aelem h n : fw (read_aelem h n).
Proof.
  unfold read_aelem, read_aconf, read_ae_param, read_obj, read_ambi, read_scalable, read_layer. fw_tac; apply fw_pdef.
Qed.

(* ---- more data ---- *)
Definition ext (e : list bool) (c : cur) : cur := mkC (c_bits c ++ e) (c_pos c) (c_valid c).

Lemma fw_mono {A} (p : rprog A) : fw p -> forall c, (c_pos c <= c_pos (snd (arun p c)))%nat.
Proof.
  intro H. induction H as [a|er|n m k E _ IH|k _ IH]; intro c; cbn [arun snd]; try lia.
  - cbn [aop]. destruct (legal_width n m); [|apply (IH (inl InvalidArgument) c)]. destruct (_ <=? _)%nat.
    + eapply Nat.le_trans; [|apply IH]. cbn [c_pos]. lia.
    + rewrite E. cbn [arun snd c_pos]. lia.
  - cbn [aop]. eapply Nat.le_trans; [|apply IH]. cbn [c_pos]. lia.
Qed.

Lemma fw_ext {A} (p : rprog A) : fw p -> forall c e, cok c ->
  match arun p c with
  | (Ok a, c1) => arun p (ext e c) = (Ok a, ext e c1)
  | (Err er, c1) => match arun p (ext e c) with (Ok _, c2) => (length (c_bits c) < c_pos c2)%nat | (Err _, _) => True | _ => False end
  | _ => False
  end.
Proof.
  intro H. induction H as [a|er|n m k E Fk IH|k _ IH]; intros c e K; cbn [arun].
  - reflexivity.
  - exact I.
  - cbn [aop]. destruct (legal_width n m) eqn:W; [|apply (IH (inl InvalidArgument) c e K)].
    unfold c_left, cok in *. cbn [c_pos c_bits ext]. rewrite app_length.
    destruct (Z.to_nat n <=? length (c_bits c) - c_pos c)%nat eqn:L.
    + replace (Z.to_nat n <=? length (c_bits c) + length e - c_pos c)%nat with true by lia.
      rewrite skipn_app, firstn_app, skipn_length. replace (Z.to_nat n - (length (c_bits c) - c_pos c))%nat with O by lia.
      cbn [firstn]. rewrite app_nil_r.
      specialize (IH (inr (ofbits (firstn (Z.to_nat n) (skipn (c_pos c) (c_bits c))))) (mkC (c_bits c) (c_pos c + Z.to_nat n) (Some true)) e).
      cbn [c_pos c_bits] in IH. apply IH. lia.
    + rewrite E. cbn [arun]. destruct (Z.to_nat n <=? length (c_bits c) + length e - c_pos c)%nat eqn:L2.
      * set (k1 := k (inr _)). set (c1 := mkC _ _ _). 
        destruct (arun_valid k1 c1 eq_refl) as [_ Hr]. pose proof (fw_mono k1 (Fk _) c1) as Mo.
        destruct (arun k1 c1) as [[a|er| | |] c2]; cbn [fst snd] in *;
          try exact I; try (destruct Hr as [[? Hr]|[? Hr]]; discriminate Hr). cbn [c_pos c1] in Mo. lia.
      * rewrite E. cbn [arun]. exact I.
  - cbn [aop]. cbn [c_pos c_bits ext]. apply (IH (Z.of_nat (c_pos c)) (mkC (c_bits c) (c_pos c) (Some true)) e). exact K.
Qed.

(* Whatever follows the data of [c]: the program gives the same value and stops at the same place, or fails. *)
Definition stable {A} (p : rprog A) (c : cur) : Prop :=
  forall e, match arun p c, arun p (ext e c) with
            | (Ok a, c1), (Ok b, c2) => a = b /\ c2 = ext e c1
            | (Err _, _), (Err _, _) => True
            | _, _ => False
            end.

Lemma read_payload_fw {A} (d : rprog A) n : fw d -> fw (read_payload n d).
Proof. intro H. unfold read_payload. fw_tac. exact H. Qed.

(* At the end of its OBU, the payload of a forward parser is stable. *)
Lemma stable_fw {A} (d : rprog A) n c : fw d -> cok c -> 0 <= n -> zlen (c_bits c) = Z.of_nat (c_pos c) + 8 * n -> stable (read_payload n d) c.
Proof.
  intros Hd K Hn Hl e. pose proof (fw_ext _ (read_payload_fw d n Hd) c e K) as X.
  destruct (arun (read_payload n d) c) as [[a|er| | |] c1]; try contradiction.
  - rewrite X. auto.
  - destruct (arun (read_payload n d) (ext e c)) as [[b|er2| | |] c2] eqn:E; try contradiction; [|exact I].
    exfalso. destruct b as [b f]. apply read_payload_ok in E; [|unfold cok in *; cbn [ext c_pos c_bits]; rewrite app_length; lia].
    destruct E as (c3 & _ & _ & E & _). unfold zlen in *. cbn [ext c_pos] in E. lia.
Qed.

(* ---- the switch over the OBU types ---- *)
Lemma stable_map {A B} (p : rprog A) (g : A -> B) c : stable p c -> stable (x <- p ;; RRet (g x)) c.
Proof.
  intros H e. specialize (H e). rewrite !arun_bind. destruct (arun p c) as [[a|er| | |] c1], (arun p (ext e c)) as [[b|er2| | |] c2]; try contradiction.
  - destruct H as [-> ->]. cbn [arun]. auto.
  - exact I.
Qed.
Lemma stable_rignore n c : cok c -> 0 <= n -> Z.of_nat (c_pos c) + 8 * n <= zlen (c_bits c) -> stable (rignore n) c.
Proof.
  intros K Hn Hl e. destruct c as [b p v]. unfold ext. cbn [c_bits c_pos c_valid] in *. unfold zlen in *.
  rewrite !arun_rignore by (unfold zlen; rewrite ?app_length; lia). auto.
Qed.
Lemma stable_then {A B} (p : rprog A) (b : B) c : stable p c -> stable (p ;;; RRet b) c.
Proof. intro H. apply (stable_map p (fun _ => b)). exact H. Qed.

Definition mixp_stable (h : header) (n : Z) (c : cur) : Prop := stable (read_payload n (read_mixp h n)) c.

(* The parsers which end at the end of the OBU if they succeed. *)
Definition whole {A} (p : rprog A) (n : Z) (c : cur) : Prop :=
  forall a c1, arun p c = (Ok a, c1) -> Z.of_nat (c_pos c1) = Z.of_nat (c_pos c) + 8 * n.
Lemma whole_payload {A B} (d : rprog A) (g : A * list Z -> B) n c : cok c -> whole (x <- read_payload n d ;; RRet (g x)) n c.
Proof.
  intros K a c1 E. apply arun_bind_ok in E as ([a0 f] & c2 & E & E2). cbn [arun] in E2. injection E2 as _ <-.
  apply read_payload_ok in E; [|exact K]. destruct E as (c3 & _ & _ & E & _). exact E.
Qed.

Definition in_window (n : Z) (c : cur) : Prop := cok c /\ c_valid c = Some true /\ 0 <= n /\ zlen (c_bits c) = Z.of_nat (c_pos c) + 8 * n.
Lemma codec_stable bits o h n c : in_window n c -> stable (get_codec_config bits o h n) c /\ whole (get_codec_config bits o h n) n c.
Proof.
  intros (K & V & Hn & Hl). unfold get_codec_config. destruct (n <? 8).
  - split; [apply stable_then, stable_rignore; try assumption; lia|]. intros a c1 E. destruct c as [b p v]. cbn [c_pos c_bits] in *.
    rewrite arun_bind, arun_rignore in E by (unfold zlen in *; lia). cbn [arun] in E. injection E as _ <-. cbn [c_pos]. lia.
  - split; [|apply whole_payload; exact K]. apply stable_map, stable_fw; try assumption. apply fw_codec_config.
Qed.
Lemma aelem_stable o h n c : in_window n c -> stable (get_audio_element o h n) c /\ whole (get_audio_element o h n) n c.
Proof.
  intros (K & V & Hn & Hl). unfold get_audio_element. split; [|apply whole_payload; exact K]. apply stable_map, stable_fw; try assumption. apply fw_aelem.
Qed.
Lemma mixp_stable' o h n c : in_window n c -> mixp_stable h n c -> stable (get_mix_presentation o h n) c /\ whole (get_mix_presentation o h n) n c.
Proof. intros (K & V & Hn & Hl) H. unfold get_mix_presentation. split; [|apply whole_payload; exact K]. apply stable_map, H. Qed.

Definition vsame (v v' : verdict) : Prop := match v, v' with VStatus (Err _), VStatus (Err _) => True | _, _ => v = v' end.
Definition agree (n : Z) (c : cur) (r r' : res verdict * cur) : Prop :=
  match r, r' with
  | (Ok v, c1), (Ok v', c2) => vsame v v' /\
      forall o1, v = VStatus (Ok o1) -> Z.of_nat (c_pos c1) = Z.of_nat (c_pos c) + 8 * n /\ c_pos c2 = c_pos c1
  | (Err _, _), (Err _, _) => True
  | _, _ => False
  end.
Lemma agree_catch (p : rprog (res dobus)) n c e : stable p c -> whole p n c -> agree n c (arun (catch_status p) c) (arun (catch_status p) (ext e c)).
Proof.
  intros Hs Hw. specialize (Hs e). unfold catch_status. rewrite !arun_bind, !arun_rcatch. unfold whole in Hw.
  destruct (arun p c) as [[a|er| | |] c1], (arun p (ext e c)) as [[b|er2| | |] c2]; try contradiction; cbn [arun agree].
  - destruct Hs as [-> ->]. split; [unfold vsame; destruct b; auto|]. intros o1 _. split; [eapply Hw; reflexivity|reflexivity].
  - split; [exact I|discriminate].
Qed.
Lemma get_obu_agree bits o h n c e : in_window n c -> (h_type h = kMixPresentation -> mixp_stable h n c) ->
  agree n c (arun (get_obu bits o h n) c) (arun (get_obu bits o h n) (ext e c)).
Proof.
  intros W Hm. unfold get_obu. destruct (h_type h =? kSequenceHeader) eqn:E1.
  { set (p := x <- read_payload n read_seqhdr ;; RRet (VStatus (Ok (mkDO (Some (h_red h, fst x)) (do_codecs o) (do_aes o) (do_mixes o))))).
    assert (agree n c (arun p c) (arun p (ext e c))) as X.
    { destruct W as (K & V & Hn & Hl). pose proof (stable_fw read_seqhdr n c fw_seqhdr K Hn Hl) as S0.
      assert (whole p n c) as Wh by (apply (whole_payload read_seqhdr (fun x => VStatus (Ok (mkDO (Some (h_red h, fst x)) (do_codecs o) (do_aes o) (do_mixes o)))) n c K)).
      assert (stable p c) as S2 by (apply (stable_map _ (fun x => VStatus (Ok (mkDO (Some (h_red h, fst x)) (do_codecs o) (do_aes o) (do_mixes o)))) c S0)).
      specialize (S2 e) as S1. clearbody p.
      unfold whole in Wh. destruct (arun p c) as [[a|er| | |] c1], (arun p (ext e c)) as [[b|er2| | |] c2]; try contradiction; cbn [agree]; [|exact I].
      destruct S1 as [-> ->]. split; [destruct b as [|[]]; reflexivity|]. intros o1 _. split; [eapply Wh; reflexivity|reflexivity]. }
    destruct (do_seq o) as [[[|] q]|]; destruct (h_red h); try exact X. cbn [arun agree]. split; [reflexivity|discriminate]. }
  destruct (h_type h =? kCodecConfig). { destruct (codec_stable bits o h n c W). apply agree_catch; assumption. }
  destruct (h_type h =? kAudioElement). { destruct (aelem_stable o h n c W). apply agree_catch; assumption. }
  destruct (h_type h =? kMixPresentation) eqn:E4. { apply Z.eqb_eq in E4. destruct (mixp_stable' o h n c W (Hm E4)). apply agree_catch; assumption. }
  destruct (h_type h =? kMetadata). { cbn [arun agree]. split; [exact I|discriminate]. }
  destruct (_ && _); cbn [arun agree]; (split; [reflexivity || exact I|discriminate]).
Qed.

(* ---- one OBU of a byte string ---- *)
Definition at_byte (s : list Z) (p : nat) : cur := mkC (bytes_bits s) (8 * p) (Some true).
Lemma at_byte_cok s p : (p <= length s)%nat -> cok (at_byte s p).
Proof. intro H. unfold cok, at_byte. cbn [c_pos c_bits]. rewrite bytes_bits_length. lia. Qed.
Lemma at_byte_skip s p : skipn (c_pos (at_byte s p)) (c_bits (at_byte s p)) = bytes_bits (skipn p s).
Proof. cbn [c_pos c_bits at_byte]. symmetry. apply bytes_bits_skipn. Qed.
Lemma at_byte_ext s e p : at_byte (s ++ e) p = ext (bytes_bits e) (at_byte s p).
Proof. unfold at_byte, ext. cbn [c_bits c_pos c_valid]. rewrite bytes_bits_app. reflexivity. Qed.

Lemma header_consumes l x r : prun read_header l = POk x r -> (length r < length l)%nat.
Proof.
  unfold read_header. rewrite prun_bind. destruct (prun (rlit 5 64) l) as [|c|t r1] eqn:E1; try discriminate. intro E.
  apply prun_rest_len in E. apply prun_lit_ok in E1. change (Z.to_nat 5) with 5%nat in E1. lia.
Qed.

Lemma arun_header s p : (p <= length s)%nat ->
  match prun read_header (bytes_bits (skipn p s)) with
  | POk a r => arun read_header (at_byte s p) = (Ok a, mkC (bytes_bits s) (8 * length s - length r) (Some true))
  | _ => exists e c', arun read_header (at_byte s p) = (Err e, c')
  end.
Proof.
  intro H. pose proof (arun_prun _ pure_header _ (at_byte_cok s p H)) as P. rewrite at_byte_skip in P.
  destruct (arun_valid read_header (at_byte s p) eq_refl) as [V _].
  destruct (prun read_header (bytes_bits (skipn p s))) as [|er|a r].
  - destruct P as [c' P]. eauto.
  - destruct P as [c' P]. eauto.
  - destruct P as [v P]. rewrite P in V |- *. cbn [snd c_valid] in V. subst v. cbn [c_bits at_byte]. rewrite bytes_bits_length. reflexivity.
Qed.

Lemma obu_header s p t total r' :
  (p <= length s)%nat -> zlen s < 2^32 - 64 -> prun fill_header_metadata (bytes_bits (skipn p s)) = POk (t, total) r' ->
  total <= zlen (skipn p s) ->
  let w := firstn (p + Z.to_nat total) s in
  (exists h n q, arun read_header (at_byte w p) = (Ok (h, n), at_byte w q) /\ arun read_header (at_byte s p) = (Ok (h, n), at_byte s q) /\
     t = h_type h /\ 0 <= n /\ Z.of_nat q + n = Z.of_nat p + total /\ (p < q)%nat /\ (q <= length w)%nat)
  \/ ((exists er c', arun read_header (at_byte s p) = (Err er, c')) /\ (exists er c', arun read_header (at_byte w p) = (Err er, c'))).
Proof.
  intros Hp Hs Ef Ht w. set (l := skipn p s) in *. pose proof (fill_total _ _ _ _ Ef) as T0.
  assert (length s = p + length l)%nat as Ls by (unfold l; rewrite skipn_length; lia).
  set (o := firstn (Z.to_nat total) l). set (e := skipn (Z.to_nat total) l).
  assert (l = o ++ e) as El by (symmetry; apply firstn_skipn).
  assert (bytes_bits l = bytes_bits o ++ bytes_bits e) as Eb by (rewrite El at 1; apply bytes_bits_app).
  assert (Z.of_nat (length o) = total) as Lo by (unfold o, zlen in *; rewrite firstn_length; lia).
  assert (zlen (bytes_bits o) = 8 * total) as Lo8 by (unfold zlen; rewrite bytes_bits_length; lia).
  assert (Z.of_nat (length (bytes_bits l)) < 8 * (2^32 - 64)) as Hl8 by (rewrite bytes_bits_length; unfold zlen in Hs; lia).
  assert (w = firstn p s ++ o) as Ew.
  { unfold w, o, l. rewrite <- (firstn_skipn p s) at 1. rewrite firstn_app, firstn_firstn, firstn_length.
    replace (Nat.min (p + Z.to_nat total) p) with p by lia. replace (p + Z.to_nat total - Nat.min p (length s))%nat with (Z.to_nat total) by lia. reflexivity. }
  assert (length w = p + length o)%nat as Lw by (rewrite Ew, app_length, firstn_length; lia).
  assert (skipn p w = o) as Sw.
  { rewrite Ew, skipn_app, firstn_length. replace (p - Nat.min p (length s))%nat with O by lia.
    rewrite skipn_all2 by (rewrite firstn_length; lia). reflexivity. }
  pose proof (arun_header s p Hp) as Ps. pose proof (arun_header w p ltac:(lia)) as Pw. rewrite Sw in Pw. fold l in Ps.
  pose proof (prun_ext read_header (bytes_bits o) (bytes_bits e)) as X. rewrite <- Eb in X.
  destruct (prun read_header (bytes_bits l)) as [|er|[h n] r] eqn:Eh.
  { right. split; [exact Ps|]. destruct (prun read_header (bytes_bits o)) as [|?|[? ?] ?]; try discriminate; exact Pw. }
  { right. split; [exact Ps|]. destruct (prun read_header (bytes_bits o)) as [|?|[? ?] ?]; try discriminate; exact Pw. }
  left. destruct (header_shape _ _ _ _ Eh Hl8) as (t2 & total2 & r2 & E2 & Et & Hn & Ht2 & L2 & L3). rewrite Ef in E2. injection E2 as <- <- <-.
  assert (exists r2, prun fill_header_metadata (bytes_bits o) = POk (t, total) r2) as [r2 Fo].
  { pose proof (prun_ext fill_header_metadata (bytes_bits o) (bytes_bits e)) as Y. rewrite <- Eb, Ef in Y.
    destruct (prun fill_header_metadata (bytes_bits o)) as [|er|[ta tb] ra]; try discriminate.
    - exfalso. rewrite Eb, app_length in L3. unfold zlen in Lo8. lia.
    - injection Y as <- <- _. exists ra. reflexivity. }
  pose proof Eh as Eh2. rewrite Eb in Eh2. assert (Z.of_nat (length (bytes_bits o ++ bytes_bits e)) < 8 * (2^32 - 64)) as Hl9 by (rewrite <- Eb; exact Hl8).
  destruct (header_window _ _ _ _ _ _ _ _ Fo Lo8 Hl9 Eh2) as (wr & Ewr & Er & Hw). rewrite Ewr in Pw. pose proof (header_consumes _ _ _ Eh) as Hc.
  rewrite bytes_bits_length in *. unfold zlen in *.
  exists h, n, (p + Z.to_nat (total - n))%nat.
  assert (n <= total) by lia.
  assert (length l = length o + length e)%nat as Lle by (rewrite El at 1; apply app_length).
  assert (length r = length wr + 8 * length e)%nat as Lr by (rewrite Er, app_length, bytes_bits_length; lia).
  split; [|split; [|split; [exact Et|split; [exact Hn|split; [lia|split; lia]]]]].
  - rewrite Pw. unfold at_byte. do 2 f_equal. lia.
  - rewrite Ps. unfold at_byte. do 2 f_equal. lia.
Qed.

(* ---- the loop ---- *)
(* At byte [p] of [s] is an OBU with header [h] and a payload of [n] bytes from byte [q] on. *)
Definition obu_at (s : list Z) (p : nat) (h : header) (n : Z) (q : nat) : Prop :=
  arun read_header (at_byte s p) = (Ok (h, n), at_byte s q) /\ 0 <= n /\ Z.of_nat q + n <= zlen s.
(* Where the OBUs before the first temporal unit begin. *)
Inductive desc_start (s : list Z) : nat -> Prop :=
| DS_first : desc_start s 0
| DS_next p h n q : desc_start s p -> obu_at s p h n q -> temporal_unit_type (h_type h) = false -> desc_start s (q + Z.to_nat n).
Definition mixes_stable (s : list Z) : Prop :=
  forall p h n q, desc_start s p -> obu_at s p h n q -> h_type h = kMixPresentation -> mixp_stable h n (at_byte (firstn (q + Z.to_nat n) s) q).

Inductive dres := DWait | DFail | DDone (o : dobus) (p : nat) | DCrash.
Fixpoint dscan (k : nat) (bits : Z) (exact : bool) (s : list Z) (p : nat) (o : dobus) : dres :=
  match k with
  | O => DCrash
  | S k' =>
      match prun fill_header_metadata (bytes_bits (skipn p s)) with
      | PNeed => DWait
      | PErr _ => DFail
      | POk (t, total) _ =>
          if temporal_unit_type t then (if exact then DFail else match do_seq o with None => DFail | Some _ => DDone o p end)
          else if zlen (skipn p s) <? total then DWait
          else
            let q' := (p + Z.to_nat total)%nat in
            let proceed (go : bool) (o1 : dobus) (p1 : nat) :=
              match do_seq o1 with
              | None => DFail
              | Some _ => if exact && (length s <=? p1)%nat then DDone o1 p1 else if go then dscan k' bits exact s p1 o1 else DDone o1 p1
              end in
            match arun read_header (at_byte (firstn q' s) p) with
            | (Ok (h, n), c) =>
                match fst (arun (get_obu bits o h n) c) with
                | Ok VStop => proceed false o p
                | Ok (VStatus (Ok o1)) => proceed true o1 q'
                | Ok (VStatus (Err _)) => proceed true o q'
                | Ok (VStatus _) => DCrash
                | _ => DFail
                end
            | _ => DFail
            end
      end
  end.

Definition refines (s : list Z) (start : Z) (p : nat) (d : dres) (r : res (res dobus * bool) * cur) : Prop :=
  match d with
  | DWait => r = (Ok (Err ResourceExhausted, true), mkC (bytes_bits s) (Z.to_nat start) (Some true))
  | DFail => exists er c', r = (Err er, c')
  | DDone o p1 => r = (Ok (Ok o, false), at_byte s p1) /\ (p <= p1 <= length s)%nat
  | DCrash => exists x c', r = (Ok (x, false), c') /\ crashed x = true
  end.

Lemma arun_avail s p : (p <= length s)%nat -> arun ravail (at_byte s p) = (Ok (Z.of_nat (length s - p)), at_byte s p).
Proof.
  intro H. unfold ravail, rop1. cbn [arun aop]. unfold c_left. cbn [c_pos c_bits at_byte]. rewrite bytes_bits_length.
  replace (8 * length s - 8 * p)%nat with (8 * (length s - p))%nat by lia.
  replace (Z.of_nat (8 * (length s - p))) with (Z.of_nat (length s - p) * 8) by lia. rewrite Z.div_mul by discriminate. reflexivity.
Qed.
Lemma arun_insufficient {A} s p start : 0 <= start <= 8 * zlen s ->
  arun (@insufficient A start) (at_byte s p) = (Ok (Err ResourceExhausted, true), mkC (bytes_bits s) (Z.to_nat start) (Some true)).
Proof.
  intro H. unfold insufficient. rewrite arun_bind, arun_rcatch. unfold at_byte. rewrite arun_rseek_ok; [reflexivity|].
  unfold zlen in *. rewrite bytes_bits_length. lia.
Qed.
Lemma cur_eta c s p : c_bits c = bytes_bits s -> c_valid c = Some true -> Z.of_nat (c_pos c) = 8 * Z.of_nat p -> c = at_byte s p.
Proof. destruct c as [b q v]. cbn [c_bits c_valid c_pos]. intros -> -> H. unfold at_byte. f_equal. lia. Qed.

Lemma loop_refines : forall k bits exact start s p o, mixes_stable s -> zlen s < 2^32 - 64 -> 0 <= start <= 8 * zlen s ->
  desc_start s p -> (p <= length s)%nat ->
  refines s start p (dscan k bits exact s p o) (arun (descriptor_loop k bits exact start o) (at_byte s p)).
Proof.
  induction k as [|k IH]; intros bits exact start s p o Hm Hs Hst Hd Hp; cbn [dscan descriptor_loop].
  { cbn [arun refines]. eauto. }
  rewrite arun_bind, arun_rcatch, (arun_peek _ (at_byte_cok s p Hp)).
  replace (mkC (c_bits (at_byte s p)) (c_pos (at_byte s p)) (Some true)) with (at_byte s p) by reflexivity.
  pose proof (arun_prun _ pure_fill _ (at_byte_cok s p Hp)) as P. rewrite at_byte_skip in P.
  pose proof (fill_err (bytes_bits (skipn p s))) as FE.
  destruct (prun fill_header_metadata (bytes_bits (skipn p s))) as [|er|[t total] r'] eqn:Ef.
  - destruct P as [c' P]. rewrite P. apply arun_insufficient. exact Hst.
  - destruct P as [c' P]. rewrite P. rewrite (FE er eq_refl). cbn [arun refines]. eauto.
  - destruct P as [v P]. rewrite P. clear P v. pose proof (fill_total _ _ _ _ Ef) as T0.
    destruct (temporal_unit_type t) eqn:Tt.
    { destruct exact.
      - rewrite arun_bind. unfold at_byte. rewrite arun_rseek_ok by (unfold zlen in *; rewrite bytes_bits_length; lia). cbn [arun refines]. eauto.
      - destruct (do_seq o); cbn [arun refines]; [split; [reflexivity|lia]|eauto]. }
    assert (zlen (skipn p s) = Z.of_nat (length s - p)) as Lz by (unfold zlen; rewrite skipn_length; reflexivity).
    rewrite arun_bind, (arun_avail s p Hp), Lz. destruct (Z.of_nat (length s - p) <? total) eqn:Et; [apply arun_insufficient; exact Hst|].
    rewrite arun_bind, arun_rtell. replace (mkC (c_bits (at_byte s p)) (c_pos (at_byte s p)) (Some true)) with (at_byte s p) by reflexivity.
    rewrite arun_bind. set (q' := (p + Z.to_nat total)%nat). set (w := firstn q' s).
    destruct (obu_header s p t total r' Hp Hs Ef ltac:(lia)) as [(h & n & q & Ew & Es & Eh & Hn & Hq & Hpq & Hqw)|[(er & c' & Es) (er2 & c2 & Ew)]].
    2:{ fold q' w in Ew. rewrite Es, Ew. cbn [refines]. eauto. }
    fold q' w in Ew, Hqw. rewrite Es, Ew. cbn [fst snd c_pos at_byte].
    assert (Z.of_nat q' = Z.of_nat q + n) as Eq' by (unfold q'; lia).
    assert (q' <= length s)%nat as Lq' by lia.
    assert (length w = q') as Lw by (unfold w; rewrite firstn_length; lia).
    assert (s = w ++ skipn q' s) as Esw by (unfold w; symmetry; apply firstn_skipn).
    assert (obu_at s p h n q) as Ho by (split; [exact Es|split; [exact Hn|unfold zlen; lia]]).
    assert (desc_start s q') as Hd'.
    { replace q' with (q + Z.to_nat n)%nat by lia. eapply DS_next; [exact Hd|exact Ho|]. rewrite <- Eh. exact Tt. }
    assert (in_window n (at_byte w q)) as W.
    { split; [apply at_byte_cok; exact Hqw|]. split; [reflexivity|]. split; [exact Hn|]. unfold zlen. cbn [c_bits c_pos at_byte]. rewrite bytes_bits_length. lia. }
    assert (h_type h = kMixPresentation -> mixp_stable h n (at_byte w q)) as Hmx.
    { intro E. specialize (Hm p h n q Hd Ho E). replace (q + Z.to_nat n)%nat with q' in Hm by lia. exact Hm. }
    pose proof (get_obu_agree bits o h n (at_byte w q) (bytes_bits (skipn q' s)) W Hmx) as A. rewrite <- at_byte_ext, <- Esw in A.
    rewrite arun_bind. pose proof (arun_bits (get_obu bits o h n) (at_byte s q)) as Bs. destruct (arun_valid (get_obu bits o h n) (at_byte s q) eq_refl) as [Vs _].
    destruct (arun (get_obu bits o h n) (at_byte w q)) as [[v|er| | |] c1]; try contradiction.
    2:{ destruct (arun (get_obu bits o h n) (at_byte s q)) as [[v'|er'| | |] c2]; try contradiction. cbn [fst refines]. eauto. }
    destruct (arun (get_obu bits o h n) (at_byte s q)) as [[v'|er'| | |] c2]; try contradiction. cbn [fst snd agree] in *.
    destruct A as [Av Ap]. cbn [c_bits at_byte] in Bs.
    assert (forall (go : bool) (o1 : dobus) (p1 : nat), desc_start s p1 -> (p <= p1 <= length s)%nat ->
      refines s start p
        (match do_seq o1 with
         | None => DFail
         | Some _ => if exact && (length s <=? p1)%nat then DDone o1 p1 else if go then dscan k bits exact s p1 o1 else DDone o1 p1
         end)
        (arun (match do_seq o1 with
               | None => RFail InvalidArgument
               | Some _ => b <- ravail ;;
                   if exact && negb (b >? 0) then RRet (Ok o1, false)
                   else if go then descriptor_loop k bits exact start o1 else RRet (Ok o1, false)
               end) (at_byte s p1))) as Hpro.
    { intros go o1 p1 Hd1 Hp1. destruct (do_seq o1); [|cbn [arun refines]; eauto].
      rewrite arun_bind, (arun_avail s p1) by lia. replace (negb (Z.of_nat (length s - p1) >? 0)) with (length s <=? p1)%nat by lia.
      destruct (exact && (length s <=? p1)%nat); [cbn [arun refines]; split; [reflexivity|lia]|].
      destruct go; [|cbn [arun refines]; split; [reflexivity|lia]].
      specialize (IH bits exact start s p1 o1 Hm Hs Hst Hd1 ltac:(lia)).
      destruct (dscan k bits exact s p1 o1); try exact IH. cbn [refines] in *. destruct IH as [E L]. split; [exact E|lia]. }
    assert (arun (rseek (Z.of_nat (8 * p))) c2 = (Ok tt, at_byte s p)) as Sk.
    { destruct c2 as [b2 p2 v2]. cbn [c_bits c_valid] in Bs, Vs. subst b2 v2. rewrite arun_rseek_ok by (unfold zlen; rewrite bytes_bits_length; lia).
      unfold at_byte. rewrite Nat2Z.id. reflexivity. }
    destruct v as [|[o1|er| | |]].
    + cbn [vsame] in Av. subst v'. rewrite arun_bind, Sk. apply (Hpro false o p Hd ltac:(lia)).
    + cbn [vsame] in Av. subst v'. destruct (Ap _ eq_refl) as [P1 P2]. cbn [c_pos at_byte] in P1.
      rewrite (cur_eta c2 s q' Bs Vs ltac:(lia)). apply (Hpro true o1 q' Hd'). unfold q'. lia.
    + destruct v' as [|[o2|er2| | |]]; try discriminate Av.
      rewrite arun_bind, Sk, arun_bind. unfold at_byte at 1. rewrite arun_rignore by (unfold zlen; rewrite ?bytes_bits_length; lia).
      replace (mkC (bytes_bits s) (Z.to_nat (Z.of_nat (8 * p) + 8 * total)) (Some true)) with (at_byte s q') by (unfold at_byte, q'; f_equal; lia).
      apply (Hpro true o q' Hd'). unfold q'. lia.
    + cbn [vsame] in Av. subst v'. cbn [arun refines]. eauto.
    + cbn [vsame] in Av. subst v'. cbn [arun refines]. eauto.
    + cbn [vsame] in Av. subst v'. cbn [arun refines]. eauto.
Qed.
