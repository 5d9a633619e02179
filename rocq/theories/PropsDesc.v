(* C52: what a set of parsed descriptors is, whatever the bytes were; C51: what more data can change. *)
From Verif Require Import Base WriteBuf ReadBuf Leb BufSpec LebSpec BitFacts WriteBufFacts ReadBufFacts LebFacts
  ParseFacts EndToEnd ObuHeader ObuHeaderFacts FrameFacts SeqFacts PureFacts SimpleObus CodecConfig Params AudioElement MixPresentation
  Timing ParamManager AeData Profile MixSelect Processor PropsObu ProcFacts Session Reorder Pcm DecoderApi Descriptors DescFacts
  PropsParams PropsAE PropsMix PropsLabels PropsProfile PropsMixSelect.

(* ================= specification ================= *)
(* Definitions of type "demixing" and "recon gain" are what their type says. *)
Definition typed (d : pdef) : Prop :=
  (pd_type (pd_kind d) = 1 -> exists m r w q, pd_kind d = KDemixing m r w q) /\ (pd_type (pd_kind d) = 2 -> exists f, pd_kind d = KRecon f).
(* Only channel-based audio elements have layers. *)
Definition layered (a : aelem) : Prop := forall r l, ae_conf a = ACScal r l -> ae_type a = 0 \/ l = [].
(* The descriptors name only each other: every audio element a codec config, every mix presentation audio elements; none twice. *)
Record consistent (o : dobus) : Prop := mkConsistent {
  cs_codecs : NoDup (map fst (do_codecs o)) /\ forall i c, In (i, c) (do_codecs o) -> cc_id (fst c) = i /\ fst (fst (snd c)) <> 0 /\ 0 < cc_frame (fst c) <= 96000;
  cs_aes : NoDup (map fst (do_aes o)) /\
    forall i a, In (i, a) (do_aes o) -> ae_id (ad_obu a) = i /\ aelem_valid (ad_obu a) /\ Forall typed (ae_params (ad_obu a)) /\ layered (ad_obu a) /\
      In (ae_codec (ad_obu a), ad_codec a) (do_codecs o) /\ generate_ae (do_codecs o) (ad_obu a) = Ok a;
  cs_mixes : forall m, In m (do_mixes o) -> (exists h, mixp_valid h m) /\ forall e, In e (elements m) -> In (sa_id e) (map fst (do_aes o)) }.

(* ================= proofs ================= *)
Lemma m_find_in {V} k (m : list (Z * V)) v : m_find k m = Some v -> In (k, v) m.
Proof.
  induction m as [|[i x] m IH]; cbn [m_find]; [discriminate|]. destruct (i =? k) eqn:E.
  - intro H. injection H as ->. left. f_equal. lia.
  - intro H. right. auto.
Qed.
Lemma in_m_find {V} k (m : list (Z * V)) v : NoDup (map fst m) -> In (k, v) m -> m_find k m = Some v.
Proof.
  induction m as [|[i x] m IH]; [intros _ []|]. cbn [m_find map fst]. intros N [H|H].
  - injection H as -> ->. rewrite Z.eqb_refl. reflexivity.
  - inversion N as [|? ? N1 N2]; subst. destruct (i =? k) eqn:E; [|auto]. exfalso. apply N1. replace i with k by lia. apply in_map_iff. exists (k, v). auto.
Qed.
Lemma nodup_snoc {A} (l : list A) x : NoDup l -> ~ In x l -> NoDup (l ++ [x]).
Proof.
  induction l as [|a l IH]; cbn [app]; intros H N; [constructor; [intros []|constructor]|]. inversion H; subst.
  constructor; [intro X; apply in_app_or in X as [X|[X|[]]]; [contradiction|subst; apply N; left; reflexivity]|].
  apply IH; [assumption|]. intro X. apply N. right. exact X.
Qed.
Lemma m_find_insert {V} k j (v w : V) m : m_find j m = Some w -> m_find j (m_insert k v m) = Some w.
Proof. intro H. unfold m_insert. destruct (m_find k m); [exact H|]. rewrite m_find_app, H. reflexivity. Qed.
Lemma generate_ae_more codecs k c a d : generate_ae codecs a = Ok d -> generate_ae (m_insert k c codecs) a = Ok d.
Proof.
  unfold generate_ae. match goal with |- rbind ?x _ = _ -> _ => destruct x as [y|?| | |] end; try discriminate. cbn [rbind].
  destruct (m_find (ae_codec a) codecs) as [x|] eqn:E; [|discriminate]. rewrite (m_find_insert _ _ _ _ _ E). auto.
Qed.
Lemma generate_ae_codec codecs a d : generate_ae codecs a = Ok d -> ad_obu d = a /\ m_find (ae_codec a) codecs = Some (ad_codec d).
Proof.
  unfold generate_ae. match goal with |- rbind ?x _ = _ -> _ => destruct x as [y|?| | |] end; try discriminate. cbn [rbind].
  destruct (m_find (ae_codec a) codecs) as [x|]; [|discriminate]. intro H. injection H as <-. auto.
Qed.

Lemma read_pdef_typed c t k d c' : (t = 1 -> exists m r w q, k = KDemixing m r w q) -> (t = 2 -> exists f, k = KRecon f) ->
  match k with KDemixing _ _ _ _ | KRecon _ => True | KExtended x _ => x = t | _ => False end ->
  arun (read_pdef (mkPD pbase0 k)) c = (Ok d, c') -> typed d.
Proof.
  intros H1 H2 Hk E. unfold read_pdef in E. cbn [pd_kind] in E. destruct k; try contradiction.
  - apply arun_bind_ok in E as (b & c2 & E2 & E). apply arun_bind_ok in E as (k & c3 & E3 & E). cbn [arun] in E. injection E as <- _.
    cbn [read_kind] in E3. apply arun_bind_ok in E3 as (? & ? & _ & E3). apply arun_bind_ok in E3 as (? & ? & _ & E3). apply arun_bind_ok in E3 as (? & ? & _ & E3).
    cbn [arun] in E3. injection E3 as <- _. split; cbn [pd_kind pd_type]; [eauto|discriminate].
  - apply arun_bind_ok in E as (b & c2 & E2 & E). cbn [read_kind rb arun] in E. injection E as <- _. split; cbn [pd_kind pd_type]; [discriminate|eauto].
  - apply arun_bind_ok in E as (k & c2 & E2 & E). apply arun_rcheck_ok in E as [_ E]. apply arun_bind_ok in E as (b & c3 & E3 & E).
    cbn [arun] in E. injection E as <- _. split; cbn [pd_kind pd_type]; subst; intro X.
    + destruct (H1 X) as (? & ? & ? & ? & Y). discriminate Y.
    + destruct (H2 X) as (? & Y). discriminate Y.
Qed.
Lemma read_aelem_typed h n c a c' : cok c -> arun (read_aelem h n) c = (Ok a, c') -> Forall typed (ae_params a) /\ layered a.
Proof.
  intros Hcc R. unfold read_aelem in R. apply arun_bind_ok in R as (id & c1 & R1 & R). apply arun_cok_ok in R1 as K1; [|exact Hcc].
  apply arun_bind_ok in R as (ty & c2 & R2 & R). apply arun_cok_ok in R2 as K2; [|exact K1].
  apply arun_bind_ok in R as (r & c3 & R3 & R). apply arun_cok_ok in R3 as K3; [|exact K2].
  apply arun_bind_ok in R as (cc & c4 & R4 & R). apply arun_cok_ok in R4 as K4; [|exact K3].
  apply arun_bind_ok in R as (ns & c5 & R5 & R). apply arun_cok_ok in R5 as K5; [|exact K4].
  apply arun_bind_ok in R as (subs & c6 & R6 & R). apply arun_cok_ok in R6 as K6; [|exact K5].
  apply arun_rres_ok in R as ([] & V1 & R). apply arun_bind_ok in R as (np & c7 & R7 & R). apply arun_cok_ok in R7 as K7; [|exact K6].
  apply arun_rcheck_ok in R as (Hnp & R). apply arun_bind_ok in R as (ps & c8 & R8 & R).
  apply (arun_rlist_inv read_ae_param typed) in R8 as [L8 F8]; [| |exact K7].
  2: { intros d x d' _ Ed. unfold read_ae_param in Ed. apply arun_bind_ok in Ed as (t & d1 & _ & Ed). destruct (t =? 0) eqn:T0; [discriminate|].
       destruct (t =? 2) eqn:T2; [|destruct (t =? 1) eqn:T1].
       - apply (read_pdef_typed _ 2) in Ed; [exact Ed|discriminate|eauto|exact I].
       - apply (read_pdef_typed _ 1) in Ed; [exact Ed|eauto 6|discriminate|exact I].
       - apply (read_pdef_typed _ t) in Ed; [exact Ed|lia|lia|reflexivity]. }
  apply arun_rres_ok in R as ([] & V2 & R). apply arun_bind_ok in R as (x & c9 & R9 & R). cbn [arun] in R. injection R as <- _. split; [exact F8|].
  intros r0 l0. cbn [ae_conf ae_type]. intros ->. unfold read_aconf in R9. destruct (ty =? 0) eqn:T0; [left; lia|]. right. destruct (ty =? 1).
  { apply arun_bind_ok in R9 as (am & d1 & _ & R9). apply arun_rres_ok in R9 as (? & _ & R9). cbn [arun] in R9. discriminate. }
  destruct (ty =? 2).
  { unfold read_obj in R9. apply arun_bind_ok in R9 as (? & ? & _ & R9). apply arun_rcheck_ok in R9 as [_ R9]. do 2 (apply arun_bind_ok in R9 as (? & ? & _ & R9)).
    unfold obj_create, vrange, vcond in R9. destruct (negb _) in R9; discriminate. }
  repeat (apply arun_bind_ok in R9 as (? & ? & _ & R9)). cbn [arun] in R9. injection R9 as _ <- _. reflexivity.
Qed.

Lemma codec_stats_clean b c : clean (finish_codec_config b c).
Proof.
  unfold finish_codec_config. apply clean_bind; [|intros; exact I]. unfold codec_stats. apply clean_bind; [|intros x _; destruct (_ =? 0); exact I].
  repeat match goal with |- clean (if ?b then _ else _) => destruct b end; try exact I; destruct (cc_dec c) as [d|d|d|d]; try exact I.
  - repeat (apply clean_rthen; [apply clean_vcond|]). exact I.
  - apply clean_bind; [|intros; exact I]. unfold aac_freq. repeat match goal with |- clean (if ?b then _ else _) => destruct b end; try exact I. destruct (nth_error _ _); exact I.
  - apply clean_bind; [|intros x _; repeat (apply clean_rthen; [apply clean_vcond|]); exact I].
    unfold flac_info. destruct d as [|f d]; [exact I|]. destruct (negb _); [exact I|]. destruct (fb_payload f); exact I.
Qed.

Lemma codec_frame h n c d c' : arun (read_codec_config h n) c = (Ok d, c') -> 0 < cc_frame d <= 96000.
Proof.
  intro E. unfold read_codec_config in E. apply arun_bind_ok in E as (id & c1 & _ & E). apply arun_bind_ok in E as (k & c2 & _ & E). apply arun_bind_ok in E as (f & c3 & _ & E).
  apply arun_rcheck_ok in E as [H E]. apply arun_bind_ok in E as (r & c4 & _ & E). apply arun_bind_ok in E as (x & c5 & _ & E). cbn [arun] in E. injection E as <- _. cbn [cc_frame].
  unfold frame_size_ok in H. lia.
Qed.
Lemma codec_rate b c x : finish_codec_config b c = Ok x -> fst (fst (snd x)) <> 0.
Proof.
  unfold finish_codec_config. destruct (codec_stats b c) as [st| | | |] eqn:E; try discriminate. cbn [rbind]. intro H. injection H as <-. cbn [snd].
  unfold codec_stats in E. match type of E with rbind ?x _ = _ => destruct x as [y| | | |] end; try discriminate. cbn [rbind] in E.
  destruct (fst (fst y) =? 0) eqn:Z0; [discriminate|]. injection E as <-. lia.
Qed.
Lemma elements_known aes m : known_elements aes m = true -> forall e, In e (elements m) -> In (sa_id e) (map fst aes).
Proof.
  intros H e He. unfold elements in He. apply in_flat_map in He as (s & Hs & He). unfold known_elements in H. rewrite forallb_forall in H.
  specialize (H s Hs). rewrite forallb_forall in H. specialize (H e He). destruct (m_find (sa_id e) aes) as [a|] eqn:E; [|discriminate].
  apply m_find_in in E. apply in_map_iff. exists (sa_id e, a). auto.
Qed.

(* One OBU keeps the descriptors consistent, ends where it should and does not crash. *)
Lemma get_obu_good bits o h n c v c1 : consistent o -> cok c -> c_valid c = Some true -> arun (get_obu bits o h n) c = (Ok v, c1) ->
  match v with
  | VStop => True
  | VStatus (Ok o1) => consistent o1 /\ Z.of_nat (c_pos c1) = Z.of_nat (c_pos c) + 8 * n
  | VStatus (Err _) => True
  | VStatus _ => False
  end.
Proof.
  intros Co K V E. unfold get_obu in E.
  assert (forall p : rprog (res dobus), arun (catch_status p) c = (Ok v, c1) ->
    (forall r, arun p c = (Ok r, c1) -> clean r /\ forall o1, r = Ok o1 -> consistent o1 /\ Z.of_nat (c_pos c1) = Z.of_nat (c_pos c) + 8 * n) ->
    match v with VStop => True | VStatus (Ok o1) => consistent o1 /\ Z.of_nat (c_pos c1) = Z.of_nat (c_pos c) + 8 * n | VStatus (Err _) => True | VStatus _ => False end) as Hcatch.
  { intros p Ep Hp. unfold catch_status in Ep. rewrite arun_bind, arun_rcatch in Ep. destruct (arun_valid p c V) as [_ Hr].
    destruct (arun p c) as [[r|er| | |] c2]; cbn [fst] in Hr; try (destruct Hr as [[? Hr]|[? Hr]]; discriminate Hr); cbn [arun] in Ep; injection Ep as <- <-; [|exact I].
    destruct (Hp r eq_refl) as [Cl Ho]. destruct r; try contradiction; [apply Ho; reflexivity|exact I]. }
  destruct (h_type h =? kSequenceHeader).
  { assert (arun (x <- read_payload n read_seqhdr ;; RRet (VStatus (Ok (mkDO (Some (h_red h, fst x)) (do_codecs o) (do_aes o) (do_mixes o))))) c = (Ok v, c1) \/ v = VStop) as [X|X].
    { destruct (do_seq o) as [[[|] q]|], (h_red h); auto. cbn [arun] in E. injection E as <- _. auto. }
    - apply arun_bind_ok in X as ([q f] & c2 & X & X2). cbn [arun fst] in X2. injection X2 as <- <-.
      apply read_payload_ok in X as (c3 & _ & _ & P & _); [|exact K]. split; [|exact P]. destruct Co as [C1 C2 C3]. split; assumption.
    - subst v. exact I. }
  destruct (h_type h =? kCodecConfig).
  { apply (Hcatch _ E). intros r Er. unfold get_codec_config in Er. destruct (n <? 8) eqn:N8.
    - apply arun_bind_ok in Er as ([] & c2 & Er & Er2). cbn [arun] in Er2. injection Er2 as <- <-. split; [exact I|]. intros o1 X. injection X as <-. split; [exact Co|].
      unfold rignore in Er. rewrite arun_bind, arun_rtell in Er. unfold rseek, rop1 in Er. cbn [rb arun aop c_valid c_bits] in Er.
      destruct (Z.of_nat (c_pos c) + n * 8 <? 0) eqn:L1; [discriminate|]. destruct (_ >? _) eqn:L2; [discriminate|]. injection Er as <-. cbn [c_pos]. lia.
    - apply arun_bind_ok in Er as ([q f] & c2 & Er & Er2). cbn [arun fst] in Er2. injection Er2 as <- <-.
      apply read_payload_ok in Er as (c3 & Eq & _ & P & _); [|exact K]. apply codec_frame in Eq. split; [apply clean_bind; [apply codec_stats_clean|intros; exact I]|].
      intros o1 X. split; [|exact P]. destruct (finish_codec_config bits q) as [x| | | |] eqn:Efc; try discriminate. cbn [rbind] in X. injection X as <-.
      destruct Co as [[C1a C1b] [C2a C2b] C3]. split; cbn [do_codecs do_aes do_mixes].
      + unfold m_insert. destruct (m_find (cc_id (fst x)) (do_codecs o)) eqn:F; [split; assumption|]. split.
        * rewrite map_app. cbn [map fst]. apply nodup_snoc; [exact C1a|]. intro X. apply m_find_none in F. contradiction.
        * intros i d Hd. apply in_app_or in Hd as [Hd|[Hd|[]]]; [eauto|]. injection Hd as <- <-. split; [reflexivity|]. split; [exact (codec_rate _ _ _ Efc)|].
          unfold finish_codec_config in Efc. destruct (codec_stats bits q); try discriminate Efc. cbn [rbind] in Efc. injection Efc as <-. exact Eq.
      + split; [exact C2a|]. intros i a Ha. destruct (C2b i a Ha) as (A1 & A2 & A3 & A6 & A4 & A5). split; [exact A1|]. split; [exact A2|]. split; [exact A3|]. split; [exact A6|]. split.
        * unfold m_insert. destruct (m_find _ _); [exact A4|apply in_or_app; left; exact A4].
        * apply generate_ae_more. exact A5.
      + exact C3. }
  destruct (h_type h =? kAudioElement).
  { apply (Hcatch _ E). intros r Er. unfold get_audio_element in Er. apply arun_bind_ok in Er as ([q f] & c2 & Er & Er2). cbn [arun fst] in Er2. injection Er2 as <- <-.
    apply read_payload_ok in Er as (c3 & Ea & _ & P & _); [|exact K].
    assert (cok (mkC (c_bits c) (c_pos c) (Some true))) as K0 by exact K.
    pose proof (read_aelem_valid _ _ _ _ _ K0 Ea) as Va. destruct (read_aelem_typed _ _ _ _ _ K0 Ea) as [Ta La].
    split.
    - apply clean_bind; [destruct (C46_no_crash (do_codecs o) q Va) as [[x ->]|[x ->]]; exact I|]. intros a _. destruct (m_find _ _); exact I.
    - intros o1 X. split; [|exact P]. destruct (generate_ae (do_codecs o) q) as [a| | | |] eqn:Eg; try discriminate. cbn [rbind] in X.
      destruct (m_find (ae_id (ad_obu a)) (do_aes o)) eqn:F; [discriminate|]. injection X as <-. destruct (generate_ae_codec _ _ _ Eg) as [Eo Fc].
      destruct Co as [C1 [C2a C2b] C3]. split; cbn [do_codecs do_aes do_mixes]; [exact C1| |].
      + split.
        * rewrite map_app. cbn [map fst]. apply nodup_snoc; [exact C2a|]. intro X. apply m_find_none in F. contradiction.
        * intros i d Hd. apply in_app_or in Hd as [Hd|[Hd|[]]]; [eauto|]. injection Hd as <- <-. rewrite Eo. split; [reflexivity|]. split; [exact Va|].
          split; [exact Ta|]. split; [exact La|]. split; [apply m_find_in; exact Fc|exact Eg].
      + intros m Hm. destruct (C3 m Hm) as [M1 M2]. split; [exact M1|]. intros e He. rewrite map_app. apply in_or_app. left. auto. }
  destruct (h_type h =? kMixPresentation).
  { apply (Hcatch _ E). intros r Er. unfold get_mix_presentation in Er. apply arun_bind_ok in Er as ([q f] & c2 & Er & Er2). cbn [arun fst] in Er2. injection Er2 as <- <-.
    apply read_payload_ok in Er as (c3 & Ea & _ & P & _); [|exact K].
    assert (cok (mkC (c_bits c) (c_pos c) (Some true))) as K0 by exact K. pose proof (read_mixp_valid _ _ _ _ _ K0 Ea) as Va.
    destruct (known_elements (do_aes o) q) eqn:Kn; [|split; [exact I|discriminate]]. split; [exact I|]. intros o1 X. injection X as <-. split; [|exact P].
    destruct Co as [C1 C2 C3]. split; cbn [do_codecs do_aes do_mixes]; [exact C1|exact C2|]. intros m Hm. apply in_app_or in Hm as [Hm|[<-|[]]]; [auto|].
    split; [eauto|]. apply elements_known. exact Kn. }
  destruct (h_type h =? kMetadata); [cbn [arun] in E; injection E as <- _; exact I|].
  destruct (_ && _); cbn [arun] in E; injection E as <- _; exact I.
Qed.

(* The loop over the OBUs: it ends, never crashes, keeps the descriptors consistent, never ends before where it was, and rewinds if data is missing. *)
Definition loop_good (start : nat) (c : cur) (r : res (res dobus * bool) * cur) : Prop :=
  match r with
  | (Ok (Ok o, ins), c1) => consistent o /\ do_seq o <> None /\ ins = false /\ (c_pos c <= c_pos c1)%nat
  | (Ok (Err er, ins), c1) => ins = true /\ er = ResourceExhausted /\ c_pos c1 = start
  | (Ok _, _) => False
  | (Err _, _) => True
  | _ => False
  end.
Lemma loop_sound : forall k bits exact start o c, consistent o -> cok c -> c_valid c = Some true -> (start <= length (c_bits c))%nat ->
  Z.of_nat (length (c_bits c)) < 8 * (2^32 - 64) -> (c_left c < 8 * k)%nat ->
  loop_good start c (arun (descriptor_loop k bits exact (Z.of_nat start) o) c).
Proof.
  induction k as [|k IH]; intros bits exact start o c Co Hc Hv Hst Hl Hk; [lia|]. cbn [descriptor_loop]. unfold c_left in Hk.
  set (B := skipn (c_pos c) (c_bits c)).
  assert (length B = length (c_bits c) - c_pos c)%nat as LB by (unfold B; apply skipn_length). unfold cok in Hc.
  assert (mkC (c_bits c) (c_pos c) (Some true) = c) as Ec by (destruct c as [cb cp cv]; cbn [c_valid c_bits c_pos] in *; subst; reflexivity).
  assert (forall p, arun (@insufficient dobus (Z.of_nat start)) (mkC (c_bits c) p (Some true)) = (Ok (Err ResourceExhausted, true), mkC (c_bits c) start (Some true))) as Hins.
  { intro p. unfold insufficient. rewrite arun_bind, arun_rcatch, arun_rseek_ok by (unfold zlen; lia). cbn [arun]. rewrite Nat2Z.id. reflexivity. }
  pose proof (arun_prun _ pure_fill c Hc) as P. fold B in P.
  pose proof (fill_total B) as FT. rewrite arun_bind, arun_rcatch, (arun_peek c Hc), Ec.
  destruct (prun fill_header_metadata B) as [|er|[t total] r'] eqn:Ef.
  - destruct P as [c' P]. rewrite P, <- Ec, Hins. cbn [loop_good c_pos]. auto.
  - destruct P as [c' P]. rewrite P. pose proof (fill_err B er Ef) as ->. exact I.
  - destruct P as [v P]. rewrite P. specialize (FT _ _ _ eq_refl).
    destruct (temporal_unit_type t) eqn:Tt.
    { destruct exact.
      - rewrite arun_bind, <- Ec, arun_rseek_ok by (unfold zlen; lia). exact I.
      - destruct (do_seq o) eqn:Eq; cbn [arun loop_good]; [|exact I]. split; [exact Co|]. split; [congruence|]. split; [reflexivity|lia]. }
    rewrite arun_bind.
    assert (forall p, arun ravail (mkC (c_bits c) p (Some true)) = (Ok (Z.of_nat (length (c_bits c) - p) / 8), mkC (c_bits c) p (Some true))) as Ea by reflexivity.
    rewrite <- Ec, Ea. destruct (_ <? total) eqn:Et; [rewrite Hins; cbn [loop_good c_pos]; auto|].
    assert (8 * total <= Z.of_nat (length B)) as Ht by (pose proof (Z.mul_div_le (Z.of_nat (length B)) 8 ltac:(lia)); rewrite LB in *; lia).
    rewrite arun_bind, arun_rtell. cbn [c_bits c_pos]. rewrite arun_bind.
    pose proof (arun_prun _ pure_header c Hc) as Ph. fold B in Ph. rewrite Ec.
    destruct (arun_valid read_header c Hv) as [Vh _].
    destruct (prun read_header B) as [|er|[h n] r] eqn:Eh.
    { destruct Ph as [c' Ph]. rewrite Ph. exact I. }
    { destruct Ph as [c' Ph]. rewrite Ph. exact I. }
    destruct Ph as [v2 Ph]. rewrite Ph in Vh |- *. cbn [snd c_valid] in Vh. subst v2.
    destruct (header_shape _ _ _ _ Eh ltac:(lia)) as (t2 & total2 & r2 & E2 & _ & Hn & Htm & L2 & L3). rewrite Ef in E2. injection E2 as <- <- <-.
    pose proof (header_consumes _ _ _ Eh) as Hh.
    cbn [fst snd]. set (q := (length (c_bits c) - length r)%nat).
    assert (Z.of_nat q = Z.of_nat (c_pos c) + 8 * (total - n)) as Hq by (unfold q; lia).
    assert (Z.of_nat q + 8 * n <= zlen (c_bits c)) as Rq by (unfold zlen; lia).
    rewrite arun_bind. set (c1 := mkC (c_bits c) q (Some true)).
    assert (cok c1) as K1 by (unfold cok, zlen in *; cbn [c_pos c_bits c1]; lia).
    pose proof (arun_bits (get_obu bits o h n) c1) as B2. destruct (arun_valid (get_obu bits o h n) c1 eq_refl) as [V2 R2].
    pose proof (arun_cok (get_obu bits o h n) c1 K1) as K2. pose proof (get_obu_good bits o h n c1) as G.
    destruct (arun (get_obu bits o h n) c1) as [[v'|er'| | |] c2]; cbn [fst snd] in *; try (destruct R2 as [[? R2]|[? R2]]; discriminate R2); [|exact I].
    specialize (G v' c2 Co K1 eq_refl eq_refl). destruct c2 as [b2 p2 v2]. cbn [c_bits c_valid c_pos c1] in *. subst b2 v2.
    assert (forall (go : bool) (o1 : dobus) (p1 : nat), consistent o1 -> (c_pos c <= p1 <= length (c_bits c))%nat -> (go = true -> c_pos c + 8 <= p1)%nat ->
      loop_good start c
        (arun (match do_seq o1 with
               | None => RFail InvalidArgument
               | Some _ => b <- ravail ;;
                   if exact && negb (b >? 0) then RRet (Ok o1, false)
                   else if go then descriptor_loop k bits exact (Z.of_nat start) o1 else RRet (Ok o1, false)
               end) (mkC (c_bits c) p1 (Some true)))) as Hpro.
    { intros go o1 p1 C1 Hp1 Hgo. destruct (do_seq o1) eqn:Es; [|exact I]. rewrite arun_bind, Ea.
      assert (loop_good start c (Ok (Ok o1, false), mkC (c_bits c) p1 (Some true))) as Hdone.
      { cbn [loop_good c_pos]. split; [exact C1|]. split; [congruence|]. split; [reflexivity|lia]. }
      destruct (exact && _); [exact Hdone|]. destruct go; [|exact Hdone]. specialize (Hgo eq_refl).
      specialize (IH bits exact start o1 (mkC (c_bits c) p1 (Some true)) C1). cbn [c_bits] in IH.
      specialize (IH ltac:(unfold cok; cbn [c_pos c_bits]; lia) eq_refl Hst Hl ltac:(unfold c_left; cbn [c_pos c_bits]; lia)).
      unfold loop_good in *. destruct (arun _ _) as [[[[o2|er2| | |] ins]|er2| | |] c3]; try exact IH.
      destruct IH as (X1 & X2 & X3 & X4). cbn [c_pos] in X4. split; [exact X1|]. split; [exact X2|]. split; [exact X3|lia]. }
    assert (forall p1 : nat, arun (rseek (Z.of_nat (c_pos c))) (mkC (c_bits c) p1 (Some true)) = (Ok tt, c)) as Sk.
    { intro p1. rewrite arun_rseek_ok by (unfold zlen; lia). rewrite Nat2Z.id, Ec. reflexivity. }
    destruct v' as [|[o1|er'| | |]]; try contradiction.
    + rewrite arun_bind, Sk. specialize (Hpro false o (c_pos c) Co ltac:(lia) ltac:(discriminate)). rewrite Ec in Hpro. exact Hpro.
    + destruct G as [C1 P1]. apply (Hpro true o1 p2); [exact C1|unfold zlen in *; lia|lia].
    + rewrite arun_bind, Sk, arun_bind. set (cc := arun (rignore total) c). replace cc with (Ok tt, mkC (c_bits c) (Z.to_nat (Z.of_nat (c_pos c) + 8 * total)) (Some true)).
      2:{ unfold cc. rewrite <- Ec. symmetry. rewrite arun_rignore by (unfold zlen; lia). reflexivity. }
      apply (Hpro true o); [exact Co|lia|lia].
Qed.
