(* C55: what the sequencer writes as descriptors is what the descriptor parser reads. *)
From Coq Require Import Permutation.
From Verif Require Import TempUnit PropsTU Base WriteBuf ReadBuf Leb BufSpec LebSpec BitFacts WriteBufFacts ReadBufFacts LebFacts
  ParseFacts EndToEnd ObuHeader ObuHeaderFacts FrameFacts SeqFacts BndFacts PureFacts SimpleObus CodecConfig Params AudioElement MixPresentation
  Timing ParamManager AeData Profile MixSelect Processor PropsObu PropsCodec PropsAE PropsMix PropsParams ProcFacts Session Reorder Pcm DecoderApi Descriptors DescFacts
  PropsDesc PropsDescModes Sequencer PropsSeq SeqRound.
Local Open Scope Z_scope.

(* ================= SPEC ================= *)
Definition obu_wf {A} (content : A -> Prop) (o : obu A) : Prop := header_wf (ob_h o) /\ content (ob_v o) /\ Forall byteP (ob_foot o).
(* What the maps of the encoder hold, without the headers and footers of the OBUs. *)
Definition plain_codecs (m : list (Z * obu (codec_config * cstats))) : codecs := map (fun x => (fst x, ob_v (snd x))) m.
(* Arbitrary OBUs that have a place among descriptors: metadata or a reserved type, after the sequence header. *)
Definition harmless (a : arbitrary) : Prop :=
  obu_wf (Forall byteP) (ar_obu a) /\ match ar_hook a with
    | BeforeDescriptors => False
    | BeforeBlocks | AfterBlocks | AfterFrames => True
    | _ => ar_type a = kMetadata \/ 25 <= ar_type a <= 30
    end.
(* Descriptors as an encoder has them: fields within their C++ types; the maps hold each OBU under its ID; a codec config with what
   follows from it ([finish_codec_config]), an audio element with what follows from it and its codec config ([generate_ae]); and
   within what can be read again (C21, C34, C35). *)
Definition codec_ok (bits : Z) (x : Z * obu (codec_config * cstats)) : Prop :=
  obu_wf (fun c => codec_wf (fst c) /\ at_most_128_flac_blocks (cc_dec (fst c)) /\ cc_id (fst c) = fst x /\ finish_codec_config bits (fst c) = Ok c) (snd x).
Definition element_ok (cs : codecs) (x : Z * obu aed) : Prop :=
  obu_wf (fun a => aelem_wf (ad_obu a) /\ small_conf (ae_conf (ad_obu a)) /\ ae_id (ad_obu a) = fst x /\ stored_aelem (ad_obu a) = ad_obu a /\
                   generate_ae cs (ad_obu a) = Ok a) (snd x).
Definition mix_ok (o : obu mixp) : Prop :=
  obu_wf (fun m => mixp_wf m /\ mp_count m <= 256 /\ zlen (mp_subs m) <= 28 /\ (mp_tags m = None -> ob_foot o = [])) o.
Definition encodable (bits : Z) (d : descset) : Prop :=
  obu_wf seqhdr_wf (de_seq d) /\ Forall (obu_wf metadata_wf) (de_meta d) /\
  NoDup (map fst (de_codecs d)) /\ Forall (codec_ok bits) (de_codecs d) /\
  NoDup (map fst (de_aes d)) /\ Forall (element_ok (plain_codecs (de_codecs d))) (de_aes d) /\
  Forall mix_ok (de_mixes d) /\ Forall harmless (de_arb d).
(* What a reader finds: codec configs and audio elements in the order of their IDs, mix presentations in the order given. *)
Definition found (d : descset) : dobus :=
  mkDO (Some (h_red (ob_h (de_seq d)), ob_v (de_seq d))) (plain_codecs (by_key (de_codecs d))) (plain_aes (by_key (de_aes d)))
       (map (fun m => stored_mixp (ob_h m) (ob_v m)) (de_mixes d)).

(* ================= proofs ================= *)
Lemma chain_fold {A} bits (w : A -> wprog) (f : dobus -> A -> dobus) (l : list A) : forall o bs, wbits (flat_map w l) = Ok bs ->
  (forall l1 x l2 b, l = l1 ++ x :: l2 -> wbits (w x) = Ok b -> let o1 := fold_left f l1 o in effect bits b o1 (f o1 x) /\ (length b mod 8 = 0)%nat /\ do_seq (f o1 x) <> None) ->
  exists bl, bs = concat bl /\ chain bits bl o (fold_left f l o).
Proof.
  induction l as [|x l IH]; intros o bs E H.
  { cbn [flat_map wbits] in E. injection E as <-. exists []. split; [reflexivity|constructor]. }
  cbn [flat_map] in E. apply wbits_app_ok in E as (b & r & E1 & E2 & ->). destruct (H [] x l b eq_refl E1) as (F1 & F2 & F3). cbn [fold_left] in *.
  destruct (IH (f o x) r E2) as (bl & -> & C).
  { intros l1 y l2 b' -> E'. apply (H (x :: l1) y l2 b'); [reflexivity|exact E']. }
  exists (b :: bl). split; [reflexivity|]. econstructor; eassumption.
Qed.
Lemma with_hook_filter g k l : with_hook g k l = flat_map (write_arbitrary_obu g) (filter (fun a => if hook_eq_dec (ar_hook a) k then true else false) l).
Proof. unfold with_hook. induction l as [|a l IH]; [reflexivity|]. cbn [flat_map filter]. destruct (hook_eq_dec _ _); cbn [flat_map app]; rewrite IH; reflexivity. Qed.
Lemma fold_same {A} (l : list A) (o : dobus) : fold_left (fun o (_ : A) => o) l o = o.
Proof. revert o. induction l; intro o; cbn [fold_left]; auto. Qed.
Lemma chain_hook bits g k l o bs : lebgen_wf g -> Forall harmless l -> k <> BeforeBlocks -> k <> AfterBlocks -> k <> AfterFrames -> do_seq o <> None ->
  wbits (with_hook g k l) = Ok bs -> exists bl, bs = concat bl /\ chain bits bl o o.
Proof.
  intros Hg H N1 N2 N3 No E. rewrite with_hook_filter in E. destruct (chain_fold bits _ (fun o _ => o) _ o bs E) as (bl & -> & C).
  - intros l1 a l2 b El Eb. rewrite fold_same. cbv zeta.
    assert (In a l /\ ar_hook a = k) as [Hin Hk].
    { assert (In a (filter (fun a => if hook_eq_dec (ar_hook a) k then true else false) l)) as X by (rewrite El; apply in_elt). apply filter_In in X as [X1 X2]. destruct (hook_eq_dec _ _); [auto|discriminate]. }
    rewrite Forall_forall in H. destruct (H a Hin) as ((A1 & A2 & A3) & T). unfold write_arbitrary_obu in Eb.
    assert (ar_type a = kMetadata \/ 25 <= ar_type a <= 30) as T' by (rewrite Hk in T; destruct k; try contradiction; try congruence; exact T).
    assert (header_wf (set_type (ob_h (ar_obu a)) (ar_type a))) as Hh by (apply set_type_wf'; [exact A1|unfold kMetadata in T'; lia]).
    assert (Forall winstr_wf (write_arbitrary (ob_v (ar_obu a)) (ar_invalid a))) as W by (unfold write_arbitrary; wf_split; [apply wspan_wf; exact A2|apply wcheck_wf]).
    split; [|split; [|exact No]].
    + eapply effect_skipped; try eassumption. 
    + eapply obu_aligned; try eassumption.
  - rewrite fold_same in C. eauto.
Qed.
Lemma in_mid {A} (l1 l2 : list A) x l : l = l1 ++ x :: l2 -> In x l. Proof. intros ->. apply in_elt. Qed.
Lemma chain_meta bits g l o bs : lebgen_wf g -> Forall (obu_wf metadata_wf) l -> do_seq o <> None ->
  wbits (flat_map (fun m => write_metadata_obu g (ob_h m) (ob_v m) (ob_foot m)) l) = Ok bs -> exists bl, bs = concat bl /\ chain bits bl o o.
Proof.
  intros Hg H No E. destruct (chain_fold bits _ (fun o _ => o) _ o bs E) as (bl & -> & C); [|rewrite fold_same in C; eauto].
  intros l1 m l2 b El Eb. rewrite fold_same. cbv zeta. rewrite Forall_forall in H. destruct (H m (in_mid _ _ _ _ El)) as (A1 & A2 & A3). unfold write_metadata_obu in Eb.
  assert (header_wf (set_type (ob_h m) kMetadata)) as Hh by (apply set_type_wf'; [exact A1|unfold kMetadata; lia]).
  pose proof (write_metadata_wf g (ob_v m) Hg A2) as W.
  split; [|split; [|exact No]].
  - eapply effect_skipped; try eassumption. left. reflexivity.
  - eapply obu_aligned; try eassumption.
Qed.
Lemma m_insert_fresh {V} k (v : V) m : ~ In k (map fst m) -> m_insert k v m = m ++ [(k, v)].
Proof. intro N. unfold m_insert. rewrite (proj2 (PropsLabels.m_find_none k m) N). reflexivity. Qed.
Definition more_codecs (o : dobus) (l : codecs) : dobus := mkDO (do_seq o) (do_codecs o ++ l) (do_aes o) (do_mixes o).
Definition more_aes (o : dobus) (l : aemap) : dobus := mkDO (do_seq o) (do_codecs o) (do_aes o ++ l) (do_mixes o).
Definition more_mixes (o : dobus) (l : list mixp) : dobus := mkDO (do_seq o) (do_codecs o) (do_aes o) (do_mixes o ++ l).
Lemma fold_codecs l : forall o, fold_left (fun o x => more_codecs o [(fst x, ob_v (snd x))]) l o = more_codecs o (plain_codecs l).
Proof.
  induction l as [|x l IH]; intro o; cbn [fold_left plain_codecs map]; [destruct o; unfold more_codecs; cbn [Descriptors.do_seq Descriptors.do_codecs Descriptors.do_aes Descriptors.do_mixes]; rewrite app_nil_r; reflexivity|].
  rewrite IH. unfold more_codecs. cbn [Descriptors.do_seq Descriptors.do_codecs Descriptors.do_aes Descriptors.do_mixes]. rewrite <- app_assoc. reflexivity.
Qed.
Lemma fold_aes l : forall o, fold_left (fun o x => more_aes o [(fst x, ob_v (snd x))]) l o = more_aes o (plain_aes l).
Proof.
  induction l as [|x l IH]; intro o; cbn [fold_left plain_aes map]; [destruct o; unfold more_aes; cbn [Descriptors.do_seq Descriptors.do_codecs Descriptors.do_aes Descriptors.do_mixes]; rewrite app_nil_r; reflexivity|].
  rewrite IH. unfold more_aes. cbn [Descriptors.do_seq Descriptors.do_codecs Descriptors.do_aes Descriptors.do_mixes]. rewrite <- app_assoc. reflexivity.
Qed.
Lemma fold_mixes {A} (f : A -> mixp) l : forall o, fold_left (fun o x => more_mixes o [f x]) l o = more_mixes o (map f l).
Proof.
  induction l as [|x l IH]; intro o; cbn [fold_left map]; [destruct o; unfold more_mixes; cbn [Descriptors.do_seq Descriptors.do_codecs Descriptors.do_aes Descriptors.do_mixes]; rewrite app_nil_r; reflexivity|].
  rewrite IH. unfold more_mixes. cbn [Descriptors.do_seq Descriptors.do_codecs Descriptors.do_aes Descriptors.do_mixes]. rewrite <- app_assoc. reflexivity.
Qed.
Lemma chain_codecs bits g l o bs : lebgen_wf g -> Forall (codec_ok bits) l -> NoDup (map fst l) -> do_codecs o = [] -> do_seq o <> None ->
  wbits (flat_map (fun x => write_codec_config_obu g (ob_h (snd x)) (fst (ob_v (snd x))) (ob_foot (snd x))) l) = Ok bs ->
  exists bl, bs = concat bl /\ chain bits bl o (more_codecs o (plain_codecs l)).
Proof.
  intros Hg H ND Z0 No E. destruct (chain_fold bits _ (fun o x => more_codecs o [(fst x, ob_v (snd x))]) _ o bs E) as (bl & -> & C); [|rewrite fold_codecs in C; eauto].
  intros l1 x l2 b El Eb. rewrite fold_codecs. cbv zeta. rewrite Forall_forall in H. destruct (H x (in_mid _ _ _ _ El)) as (A1 & (A2 & A4 & A5 & A6) & A3).
  destruct x as [id [h [c st] ft]]. cbn [fst snd ob_h ob_v ob_foot] in *. pose proof Eb as Eb'. unfold write_codec_config_obu in Eb'.
  assert (header_wf (set_type h kCodecConfig)) as Hh by (apply set_type_wf'; [exact A1|unfold kCodecConfig; lia]).
  pose proof (write_codec_config_wf g c Hg A2) as W.
  split; [|split; [eapply obu_aligned; eassumption|exact No]].
  pose proof (effect_codec bits g h c st ft b (more_codecs o (plain_codecs l1)) Hg A1 A2 A3 A4 A6 Eb) as X.
  rewrite m_insert_fresh in X; [rewrite A5 in X; exact X|]. rewrite A5. unfold more_codecs. cbn [do_codecs]. rewrite Z0. cbn [app].
  unfold plain_codecs. rewrite map_map. cbn [fst]. rewrite El, map_app in ND. cbn [map fst] in ND. apply NoDup_remove_2 in ND. intro I. apply ND, in_or_app. left. exact I.
Qed.
Lemma find_perm {V} (m m' : list (Z * V)) k : NoDup (map fst m) -> Permutation m m' -> m_find k m = m_find k m'.
Proof.
  intros ND P. assert (NoDup (map fst m')) as ND' by (eapply Permutation_NoDup; [apply Permutation_map; exact P|exact ND]).
  destruct (m_find k m) as [v|] eqn:E.
  - apply m_find_in in E. symmetry. apply in_m_find; [exact ND'|]. eapply Permutation_in; eassumption.
  - symmetry. apply PropsLabels.m_find_none. apply PropsLabels.m_find_none in E. intro I. apply E. eapply Permutation_in; [apply Permutation_sym, Permutation_map; exact P|exact I].
Qed.
Lemma generate_perm (m m' : codecs) a : NoDup (map fst m) -> Permutation m m' -> generate_ae m a = generate_ae m' a.
Proof. intros ND P. unfold generate_ae. rewrite (find_perm m m' _ ND P). reflexivity. Qed.
Lemma chain_aes bits g cs l o bs : lebgen_wf g -> Forall (element_ok cs) l -> NoDup (map fst l) -> NoDup (map fst cs) -> Permutation cs (do_codecs o) -> do_aes o = [] -> do_seq o <> None ->
  wbits (flat_map (fun x => write_aelem_obu g (ob_h (snd x)) (ad_obu (ob_v (snd x))) (ob_foot (snd x))) l) = Ok bs ->
  exists bl, bs = concat bl /\ chain bits bl o (more_aes o (plain_aes l)).
Proof.
  intros Hg H ND NC PC Z0 No E. destruct (chain_fold bits _ (fun o x => more_aes o [(fst x, ob_v (snd x))]) _ o bs E) as (bl & -> & C); [|rewrite fold_aes in C; eauto].
  intros l1 x l2 b El Eb. rewrite fold_aes. cbv zeta. rewrite Forall_forall in H. destruct (H x (in_mid _ _ _ _ El)) as (A1 & (A2 & A4 & A5 & A6 & A7) & A3).
  destruct x as [id [h a ft]]. cbn [fst snd ob_h ob_v ob_foot] in *. pose proof Eb as Eb'. unfold write_aelem_obu in Eb'.
  assert (header_wf (set_type h kAudioElement)) as Hh by (apply set_type_wf'; [exact A1|unfold kAudioElement; lia]).
  pose proof (write_aelem_wf g (ad_obu a) Hg A2) as W.
  split; [|split; [eapply obu_aligned; eassumption|exact No]].
  rewrite <- A5. apply (effect_aelem bits g h a ft b (more_aes o (plain_aes l1))); try assumption.
  - cbn [more_aes do_codecs]. rewrite A6, <- (generate_perm cs (do_codecs o) (ad_obu a) NC PC). exact A7.
  - cbn [more_aes do_aes]. rewrite Z0. cbn [app]. apply PropsLabels.m_find_none. rewrite A5.
    unfold plain_aes. rewrite map_map. cbn [fst]. rewrite El, map_app in ND. cbn [map fst] in ND. apply NoDup_remove_2 in ND. intro I. apply ND, in_or_app. left. exact I.
Qed.
Lemma known_perm (m m' : aemap) x : NoDup (map fst m) -> Permutation m m' -> known_elements m x = known_elements m' x.
Proof.
  intros ND P. unfold known_elements. induction (mp_subs x) as [|s l IH]; [reflexivity|]. cbn [forallb]. rewrite IH. f_equal.
  induction (sm_elems s) as [|e t IHt]; [reflexivity|]. cbn [forallb]. rewrite IHt, (find_perm m m' _ ND P). reflexivity.
Qed.
Lemma wres_ok r bs : wbits (wres r) = Ok bs -> r = Ok tt /\ bs = [].
Proof. unfold wres. destruct r as [[]| | | |]; cbn; intro H; try discriminate. injection H as <-. auto. Qed.
Lemma chain_mixes bits g aes ps l o bs : lebgen_wf g -> Forall mix_ok l -> NoDup (map fst aes) -> Permutation aes (do_aes o) -> do_seq o <> None ->
  wbits (flat_map (fun m => wres (fst (filter_mix aes (ob_v m) ps)) ++ write_mixp_obu g (ob_h m) (ob_v m) (ob_foot m)) l) = Ok bs ->
  exists bl, bs = concat bl /\ chain bits bl o (more_mixes o (map (fun m => stored_mixp (ob_h m) (ob_v m)) l)).
Proof.
  intros Hg H NC PC No E. destruct (chain_fold bits _ (fun o m => more_mixes o [stored_mixp (ob_h m) (ob_v m)]) _ o bs E) as (bl & -> & C); [|rewrite (fold_mixes (fun m => stored_mixp (ob_h m) (ob_v m))) in C; eauto].
  intros l1 x l2 b El Eb. rewrite (fold_mixes (fun m => stored_mixp (ob_h m) (ob_v m))). cbv zeta. rewrite Forall_forall in H. destruct (H x (in_mid _ _ _ _ El)) as (A1 & (A2 & A4 & A5 & A6) & A3).
  apply wbits_app_ok in Eb as (b0 & b1 & E0 & Eb & ->). apply wres_ok in E0 as [F ->]. cbn [app]. apply filter_mix_known in F.
  pose proof Eb as Eb'. unfold write_mixp_obu in Eb'.
  assert (header_wf (set_type (ob_h x) kMixPresentation)) as Hh by (apply set_type_wf'; [exact A1|unfold kMixPresentation; lia]).
  pose proof (write_mixp_wf g (set_type (ob_h x) kMixPresentation) (ob_v x) Hg A2) as W.
  split; [|split; [eapply obu_aligned; eassumption|exact No]].
  apply (effect_mixp bits g (ob_h x) (ob_v x) (ob_foot x) b1 (more_mixes o _)); try assumption. cbn [more_mixes do_aes]. rewrite <- (known_perm _ _ _ NC PC). exact F.
Qed.
Lemma by_key_perm {A} (m : list (Z * A)) : Permutation m (by_key m).
Proof. apply sort_perm. Qed.
Lemma plain_keys {A} (m : list (Z * obu A)) : map fst (map (fun x => (fst x, ob_v (snd x))) m) = map fst m.
Proof. rewrite map_map. reflexivity. Qed.
Lemma by_key_nodup {A} (m : list (Z * A)) : NoDup (map fst m) -> NoDup (map fst (by_key m)).
Proof. intro H. eapply Permutation_NoDup; [apply Permutation_map, by_key_perm|exact H]. Qed.
Lemma by_key_forall {A} (P : Z * A -> Prop) m : Forall P m -> Forall P (by_key m).
Proof. intro H. eapply Permutation_Forall; [apply by_key_perm|exact H]. Qed.
Lemma no_hook g k l : Forall harmless l -> k = BeforeDescriptors -> with_hook g k l = [].
Proof.
  intros H ->. unfold with_hook. induction H as [|a l Ha H IH]; [reflexivity|]. cbn [flat_map]. rewrite IH. destruct (hook_eq_dec _ _) as [e|]; [|reflexivity].
  destruct Ha as [_ Ha]. rewrite e in Ha. contradiction.
Qed.
(* All OBUs, from any state after which the sequence header is read *)
Lemma chain_all bits g d bs : lebgen_wf g -> encodable bits d -> wbits (serialize_descriptors g d) = Ok bs ->
  exists bl, bs = concat bl /\ bl <> [] /\ chain bits bl do_empty (found d).
Proof.
  intros Hg ((S1 & S2 & S3) & HM & NC & HC & NA & HA & HX & HR) E. unfold serialize_descriptors in E. rewrite (no_hook g BeforeDescriptors _ HR eq_refl) in E. cbn [app] in E.
  apply wbits_app_ok in E as (b & b9 & E & E9 & ->). unfold write_descriptors in E.
  apply wbits_app_ok in E as (b0 & b' & E0 & E & ->). apply wbits_app_ok in E as (b1 & b'' & E1 & E & ->). apply wbits_app_ok in E as (b2 & b''' & E2 & E & ->).
  apply wbits_app_ok in E as (b3 & r3 & E3 & E & ->). apply wbits_app_ok in E as (b4 & r4 & E4 & E & ->). apply wbits_app_ok in E as (b5 & r5 & E5 & E & ->).
  apply wbits_app_ok in E as (b6 & r6 & E6 & E & ->). apply wbits_app_ok in E as (b7 & b8 & E7 & E8 & ->).
  set (o1 := mkDO (Some (h_red (ob_h (de_seq d)), ob_v (de_seq d))) [] [] []). assert (do_seq o1 <> None) as N1 by discriminate.
  pose proof (effect_seqhdr bits g _ _ _ _ do_empty Hg S1 S2 S3 E0 eq_refl) as F0. cbn [do_empty do_codecs do_aes do_mixes] in F0. fold o1 in F0.
  assert (length b0 mod 8 = 0)%nat as M0.
  { refine (obu_aligned g _ _ _ _ Hg _ _ S3 E0); [apply set_type_wf'; [exact S1|unfold kSequenceHeader; lia]|apply write_seqhdr_wf; exact S2]. }
  destruct (chain_hook bits g AfterSequenceHeader _ o1 b1 Hg HR ltac:(discriminate) ltac:(discriminate) ltac:(discriminate) N1 E1) as (l1 & -> & C1).
  destruct (chain_meta bits g _ o1 b2 Hg HM N1 E2) as (l2 & -> & C2).
  destruct (chain_codecs bits g _ o1 b3 Hg (by_key_forall _ _ HC) (by_key_nodup _ NC) eq_refl N1 E3) as (l3 & -> & C3).
  set (o3 := more_codecs o1 (plain_codecs (by_key (de_codecs d)))) in *. assert (do_seq o3 <> None) as N3 by discriminate.
  destruct (chain_hook bits g AfterCodecConfigs _ o3 b4 Hg HR ltac:(discriminate) ltac:(discriminate) ltac:(discriminate) N3 E4) as (l4 & -> & C4).
  assert (Permutation (plain_codecs (de_codecs d)) (do_codecs o3)) as P3 by (apply Permutation_map, by_key_perm).
  assert (NoDup (map fst (plain_codecs (de_codecs d)))) as NC' by (unfold plain_codecs; rewrite plain_keys; exact NC).
  destruct (chain_aes bits g _ _ o3 b5 Hg (by_key_forall _ _ HA) (by_key_nodup _ NA) NC' P3 eq_refl N3 E5) as (l5 & -> & C5).
  set (o5 := more_aes o3 (plain_aes (by_key (de_aes d)))) in *. assert (do_seq o5 <> None) as N5 by discriminate.
  destruct (chain_hook bits g AfterAudioElements _ o5 b6 Hg HR ltac:(discriminate) ltac:(discriminate) ltac:(discriminate) N5 E6) as (l6 & -> & C6).
  assert (Permutation (plain_aes (de_aes d)) (do_aes o5)) as P5 by (apply Permutation_map, by_key_perm).
  assert (NoDup (map fst (plain_aes (de_aes d)))) as NA' by (unfold plain_aes; rewrite plain_keys; exact NA).
  destruct (chain_mixes bits g _ _ _ o5 b7 Hg HX NA' P5 N5 E7) as (l7 & -> & C7).
  set (o7 := more_mixes o5 _) in *. assert (do_seq o7 <> None) as N7 by discriminate.
  destruct (chain_hook bits g AfterMixPresentations _ o7 b8 Hg HR ltac:(discriminate) ltac:(discriminate) ltac:(discriminate) N7 E8) as (l8 & -> & C8).
  destruct (chain_hook bits g AfterDescriptors _ o7 b9 Hg HR ltac:(discriminate) ltac:(discriminate) ltac:(discriminate) N7 E9) as (l9 & -> & C9).
  exists (b0 :: l1 ++ l2 ++ l3 ++ l4 ++ l5 ++ l6 ++ l7 ++ l8 ++ l9). split; [cbn [concat]; rewrite !concat_app, <- !app_assoc; reflexivity|]. split; [discriminate|].
  apply (Ch_cons bits b0 _ do_empty o1); try assumption.
  repeat (eapply chain_app; [eassumption|]). exact C9.
Qed.
Lemma effect_nonempty bits bs o o' : effect bits bs o o' -> bs <> [].
Proof.
  intros E ->. destruct (E [] []) as (h & n & hl & X & _). cbn [app length Nat.add] in X.
  pose proof (arun_prun read_header pure_header (mkC [] 0 (Some true)) ltac:(unfold cok; cbn; lia)) as P. cbn [c_pos c_bits skipn] in P.
  change (prun read_header []) with (@PNeed (header * Z)) in P. destruct P as [? P]. congruence.
Qed.
Lemma chain_count bits l o o' : chain bits l o o' -> (8 * length l <= length (concat l))%nat.
Proof.
  induction 1 as [|bs l o o1 o2 E M N C IH]; [cbn; lia|]. cbn [concat length]. rewrite app_length. apply effect_nonempty in E.
  apply Nat.mod_divides in M as [k M]; [|lia]. destruct bs as [|b bs]; [congruence|]. cbn [length] in *. lia.
Qed.
Lemma chain_aligned bits l o o' : chain bits l o o' -> (length (concat l) mod 8 = 0)%nat.
Proof.
  induction 1 as [|bs l o o1 o2 E M N C IH]; [reflexivity|]. cbn [concat]. rewrite app_length.
  apply Nat.mod_divides in M as [k ->]; [|lia]. apply Nat.mod_divides in IH as [j ->]; [|lia]. replace (8 * k + 8 * j)%nat with ((k + j) * 8)%nat by lia. apply Nat.mod_mul. lia.
Qed.
Lemma serialize_bits p b : Forall winstr_wf p -> serialize p false = Ok b -> exists bs, wbits p = Ok bs /\ Forall byteP b /\ ((length bs mod 8 = 0)%nat -> bytes_bits b = bs).
Proof.
  intros W E. unfold serialize in E. destruct (wrun p w_empty) as [[[]| | | |] w] eqn:Er; try discriminate. cbn [andb] in E. injection E as <-.
  destruct (wrun_holds p w W Er) as (bs & E1 & [Hw _]). exists bs. split; [exact E1|]. rewrite Hw. destruct (pack_spec bs) as [F (k & Lk & Ek)]. split; [exact F|].
  intro M. assert (length (bytes_bits (pack bs)) = (length bs + k))%nat as L by (rewrite Ek, app_length, repeat_length; reflexivity). rewrite bytes_bits_length in L.
  apply Nat.mod_divides in M as [j M]; [|lia]. assert (k = 0)%nat as -> by lia. rewrite Ek. cbn [repeat]. apply app_nil_r.
Qed.
Lemma descriptors_wf g d bits : lebgen_wf g -> encodable bits d -> Forall winstr_wf (serialize_descriptors g d).
Proof.
  intros Hg ((S1 & S2 & S3) & HM & NC & HC & NA & HA & HX & HR).
  assert (forall k, k <> BeforeBlocks -> k <> AfterBlocks -> k <> AfterFrames -> Forall winstr_wf (with_hook g k (de_arb d))) as HK.
  { intros k N1 N2 N3. unfold with_hook. apply Forall_flat_map_wf. intros a Ha. destruct (hook_eq_dec _ _) as [e|]; [|constructor]. rewrite Forall_forall in HR.
    destruct (HR a Ha) as ((A1 & A2 & A3) & T). unfold write_arbitrary_obu. 
    assert (0 <= ar_type a < 32) by (rewrite e in T; unfold kMetadata in T; destruct k; try contradiction; try congruence; lia).
    apply write_obu_wf; [exact Hg|apply set_type_wf'; assumption|unfold write_arbitrary; wf_split; [apply wspan_wf; exact A2|apply wcheck_wf]|exact A3]. }
  apply by_key_forall in HC, HA. rewrite Forall_forall in HM, HC, HA, HX.
  unfold serialize_descriptors, write_descriptors. wf_split; try (apply HK; discriminate).
  - apply write_obu_wf; [exact Hg|apply set_type_wf'; [exact S1|unfold kSequenceHeader; lia]|apply write_seqhdr_wf; exact S2|exact S3].
  - apply Forall_flat_map_wf. intros m Hm. destruct (HM m Hm) as (A1 & A2 & A3). unfold write_metadata_obu. apply write_obu_wf; [exact Hg|apply set_type_wf'; [exact A1|unfold kMetadata; lia]|apply write_metadata_wf; assumption|exact A3].
  - apply Forall_flat_map_wf. intros m Hm. destruct (HC m Hm) as (A1 & (A2 & _) & A3). unfold write_codec_config_obu. apply write_obu_wf; [exact Hg|apply set_type_wf'; [exact A1|unfold kCodecConfig; lia]|apply write_codec_config_wf; assumption|exact A3].
  - apply Forall_flat_map_wf. intros m Hm. destruct (HA m Hm) as (A1 & (A2 & _) & A3). unfold write_aelem_obu. apply write_obu_wf; [exact Hg|apply set_type_wf'; [exact A1|unfold kAudioElement; lia]|apply write_aelem_wf; assumption|exact A3].
  - apply Forall_flat_map_wf. intros m Hm. destruct (HX m Hm) as (A1 & (A2 & _) & A3). wf_split; [apply wres_wf|]. unfold write_mixp_obu. apply write_obu_wf; [exact Hg|apply set_type_wf'; [exact A1|unfold kMixPresentation; lia]|apply write_mixp_wf; assumption|exact A3].
Qed.
Lemma written g d bits b : lebgen_wf g -> encodable bits d -> serialize (serialize_descriptors g d) false = Ok b ->
  Forall byteP b /\ exists bl, bytes_bits b = concat bl /\ bl <> [] /\ chain bits bl do_empty (found d) /\ (length bl <= length b)%nat.
Proof.
  intros Hg He E. destruct (serialize_bits _ b (descriptors_wf g d bits Hg He) E) as (bs & E1 & F & G). split; [exact F|].
  destruct (chain_all bits g d bs Hg He E1) as (bl & -> & N & C). exists bl. pose proof (G (chain_aligned _ _ _ _ C)) as B. split; [exact B|]. split; [exact N|]. split; [exact C|].
  pose proof (chain_count _ _ _ _ C). rewrite <- B, bytes_bits_length in H. lia.
Qed.

(* Whatever PushDescriptorObus serialises, the parser reads back, whole. *)
Theorem C55_descriptors_read_back : forall g bits d b fuel cap k,
  lebgen_wf g -> encodable bits d -> serialize (serialize_descriptors g d) false = Ok b ->
  (8 <= fuel)%nat -> (1 <= cap)%nat -> zlen b < Z.of_nat k -> zlen b < 2^32 - 64 ->
  parse_at fuel cap k bits true b = Ok (Ok (found d), false, 8 * zlen b).
Proof.
  intros g bits d b fuel cap k Hg He E Hf Hc Hk Hz. destruct (written g d bits b Hg He E) as (Fb & bl & B & N & C & L).
  rewrite (parse_arun fuel cap k bits true b Hf Hc Fb). unfold zlen in *. replace k with (length bl + (k - length bl))%nat by lia.
  destruct (loop_chain bits true 0 b Hz bl do_empty (found d) [] [] 0 (k - length bl) C) as (p & P1 & P2 & P3); [rewrite app_nil_r; exact B|reflexivity|].
  rewrite P3. destruct bl as [|b0 bl]; [congruence|]. cbn [at_result c_pos at_byte]. cbn [length Nat.add] in P1. rewrite <- B, bytes_bits_length in P1. do 2 f_equal. lia.
Qed.
(* ... and finds them at the beginning of a stream, whose next OBU is that of a temporal unit, *)
Theorem C55_followed_by_units : forall g bits d b rest fuel cap k,
  lebgen_wf g -> encodable bits d -> serialize (serialize_descriptors g d) false = Ok b -> Forall byteP rest -> begins_unit rest ->
  (8 <= fuel)%nat -> (1 <= cap)%nat -> zlen b < Z.of_nat k -> zlen (b ++ rest) < 2^32 - 64 ->
  parse_at fuel cap k bits false (b ++ rest) = Ok (Ok (found d), false, 8 * zlen b).
Proof.
  intros g bits d b rest fuel cap k Hg He E Hr Hu Hf Hc Hk Hz. destruct (written g d bits b Hg He E) as (Fb & bl & B & N & C & L).
  assert (Forall byteP (b ++ rest)) as Fa by (apply Forall_app; auto).
  rewrite (parse_arun fuel cap k bits false (b ++ rest) Hf Hc Fa). unfold zlen in Hk. replace k with (length bl + (k - length bl))%nat by lia.
  destruct (loop_chain bits false 0 (b ++ rest) Hz bl do_empty (found d) [] (bytes_bits rest) 0 (k - length bl) C) as (p & P1 & P2 & P3); [rewrite bytes_bits_app, B; reflexivity|reflexivity|].
  rewrite P3. cbn [length Nat.add] in P1. rewrite <- B, bytes_bits_length in P1. assert (p = length b) as -> by lia.
  destruct (k - length bl)%nat as [|j] eqn:J; [lia|].
  replace (match bl with [] => _ | _ :: _ => _ end) with (arun (descriptor_loop (S j) bits false 0 (found d)) (at_byte (b ++ rest) (length b))) by (destruct bl, (bytes_bits rest); reflexivity).
  destruct (begins_fill rest Hu) as (t & total & r & F & T).
  cbn [descriptor_loop]. rewrite arun_bind, arun_rcatch, (arun_peek _ (at_byte_cok _ _ P2)).
  replace (mkC (c_bits (at_byte (b ++ rest) (length b))) (c_pos (at_byte (b ++ rest) (length b))) (Some true)) with (at_byte (b ++ rest) (length b)) by reflexivity.
  pose proof (arun_prun _ pure_fill _ (at_byte_cok _ _ P2)) as P. rewrite at_byte_skip, skipn_app, skipn_all, Nat.sub_diag in P. cbn [skipn app] in P. rewrite F in P. destruct P as [v P]. rewrite P, T.
  cbn [found do_seq]. cbn [arun at_result c_pos at_byte]. do 2 f_equal. unfold zlen. lia.
Qed.
Lemma serialize_head g d bs bits : encodable bits d -> wbits (serialize_descriptors g d) = Ok bs ->
  exists b0 b', wbits (write_obu g (set_type (ob_h (de_seq d)) kSequenceHeader) (write_seqhdr (ob_v (de_seq d))) (ob_foot (de_seq d))) = Ok b0 /\ bs = b0 ++ b'.
Proof.
  intros (_ & _ & _ & _ & _ & _ & _ & HR) E. unfold serialize_descriptors in E. rewrite (no_hook g BeforeDescriptors _ HR eq_refl) in E. cbn [app] in E.
  apply wbits_app_ok in E as (b & b9 & E & E9 & ->). unfold write_descriptors in E. apply wbits_app_ok in E as (b0 & b' & E0 & E & ->).
  exists b0, (b' ++ b9). split; [exact E0|]. apply app_assoc_reverse.
Qed.
(* ... or that of a new sequence, with descriptors of its own, *)
Theorem C55_followed_by_sequence : forall g bits d b d2 b2 rest fuel cap k,
  lebgen_wf g -> encodable bits d -> serialize (serialize_descriptors g d) false = Ok b ->
  encodable bits d2 -> serialize (serialize_descriptors g d2) false = Ok b2 -> Forall byteP rest ->
  h_red (ob_h (de_seq d)) = false -> h_red (ob_h (de_seq d2)) = false ->
  (8 <= fuel)%nat -> (1 <= cap)%nat -> zlen b < Z.of_nat k -> zlen (b ++ b2 ++ rest) < 2^32 - 64 ->
  parse_at fuel cap k bits false (b ++ b2 ++ rest) = Ok (Ok (found d), false, 8 * zlen b).
Proof.
  intros g bits d b d2 b2 rest fuel cap k Hg He E He2 E2 Hr R1 R2 Hf Hc Hk Hz. destruct (written g d bits b Hg He E) as (Fb & bl & B & N & C & L).
  destruct (written g d2 bits b2 Hg He2 E2) as (Fb2 & bl2 & B2 & _ & C2 & _).
  destruct (serialize_bits _ b2 (descriptors_wf g d2 bits Hg He2) E2) as (bs2 & Ew & _ & G2).
  destruct (serialize_head g d2 bs2 bits He2 Ew) as (b0 & b' & E0 & ->).
  assert (bytes_bits b2 = b0 ++ b') as B0.
  { apply G2. destruct (chain_all bits g d2 _ Hg He2 Ew) as (bl' & -> & _ & C'). exact (chain_aligned _ _ _ _ C'). }
  assert (Forall byteP (b ++ b2 ++ rest)) as Fa by (repeat (apply Forall_app; split); assumption).
  rewrite (parse_arun fuel cap k bits false (b ++ b2 ++ rest) Hf Hc Fa). unfold zlen in Hk. replace k with (length bl + (k - length bl))%nat by lia.
  destruct (loop_chain bits false 0 (b ++ b2 ++ rest) Hz bl do_empty (found d) [] (bytes_bits (b2 ++ rest)) 0 (k - length bl) C) as (p & P1 & P2 & P3); [rewrite bytes_bits_app, B; reflexivity|reflexivity|].
  rewrite P3. cbn [length Nat.add] in P1. rewrite <- B, bytes_bits_length in P1. assert (p = length b) as -> by lia.
  destruct (k - length bl)%nat as [|j] eqn:J; [lia|].
  replace (match bl with [] => _ | _ :: _ => _ end) with (arun (descriptor_loop (S j) bits false 0 (found d)) (at_byte (b ++ b2 ++ rest) (length b))) by (destruct bl, (bytes_bits (b2 ++ rest)); reflexivity).
  destruct He2 as ((S1 & S2 & S3) & _).
  destruct (seqhdr_first g (ob_h (de_seq d2)) (ob_v (de_seq d2)) (ob_foot (de_seq d2)) b0 (bytes_bits b) (b' ++ bytes_bits rest) Hg S1 S2 S3 E0) as (n & hl & RH & LN). cbv beta zeta in RH.
  replace (bytes_bits b ++ b0 ++ b' ++ bytes_bits rest) with (bytes_bits (b ++ b2 ++ rest)) in RH by (rewrite !bytes_bits_app, B0, <- app_assoc; reflexivity).
  rewrite bytes_bits_length, Nat.add_0_r in RH. change (mkC (bytes_bits (b ++ b2 ++ rest)) (8 * length b) (Some true)) with (at_byte (b ++ b2 ++ rest) (length b)) in RH.
  assert (length b0 mod 8 = 0)%nat as M0.
  { refine (obu_aligned g _ _ _ _ Hg _ _ S3 E0); [apply set_type_wf'; [exact S1|unfold kSequenceHeader; lia]|apply write_seqhdr_wf; exact S2]. }
  unfold zlen in LN. apply Nat.mod_divides in M0 as [m0 M0]; [|lia].
  assert (hl mod 8 = 0)%nat as H8.
  { apply Nat2Z.inj. rewrite Nat2Z.inj_mod. change (Z.of_nat 8) with 8. replace (Z.of_nat hl) with ((Z.of_nat m0 - n) * 8) by lia. rewrite Z.mod_mul by lia. reflexivity. }
  rewrite (pos_at _ _ _ H8) in RH. pose proof (Nat.div_mod hl 8 ltac:(lia)) as D8.
  assert (length b2 * 8 = length b0 + length b')%nat as L2 by (rewrite <- app_length, <- B0, bytes_bits_length; lia).
  rewrite (loop_stop bits 0 (b ++ b2 ++ rest) Hz j (length b) (found d) _ n _ P2 RH); [cbn [at_result c_pos at_byte]; do 2 f_equal; unfold zlen; lia| | | |discriminate].
  - unfold zlen. rewrite !app_length. lia.
  - rewrite norm_type. reflexivity.
  - unfold get_obu. rewrite norm_type. cbn [set_type h_type]. rewrite Z.eqb_refl, norm_red. cbn [found do_seq set_type h_red]. rewrite R1, R2. reflexivity.
Qed.

Lemma chain_codecs_again bits g l o bs : lebgen_wf g -> Forall (codec_ok bits) l -> incl (map fst l) (map fst (do_codecs o)) -> do_seq o <> None ->
  wbits (flat_map (fun x => write_codec_config_obu g (ob_h (snd x)) (fst (ob_v (snd x))) (ob_foot (snd x))) l) = Ok bs ->
  exists bl, bs = concat bl /\ chain bits bl o o.
Proof.
  intros Hg H IN No E. destruct (chain_fold bits _ (fun o _ => o) _ o bs E) as (bl & -> & C); [|rewrite fold_same in C; eauto].
  intros l1 x l2 b El Eb. rewrite fold_same. cbv zeta. rewrite Forall_forall in H. pose proof (in_mid _ _ _ _ El) as Hx. destruct (H x Hx) as (A1 & (A2 & A4 & A5 & A6) & A3).
  apply (in_map fst) in Hx. apply IN in Hx.
  destruct x as [id [h [c st] ft]]. cbn [fst snd ob_h ob_v ob_foot] in *. pose proof Eb as Eb'. unfold write_codec_config_obu in Eb'.
  assert (header_wf (set_type h kCodecConfig)) as Hh by (apply set_type_wf'; [exact A1|unfold kCodecConfig; lia]).
  pose proof (write_codec_config_wf g c Hg A2) as W.
  split; [|split; [eapply obu_aligned; eassumption|exact No]].
  pose proof (effect_codec bits g h c st ft b o Hg A1 A2 A3 A4 A6 Eb) as X. rewrite A5 in X. unfold m_insert in X.
  destruct (m_find id (do_codecs o)) as [v|] eqn:F; [destruct o; exact X|]. apply PropsLabels.m_find_none in F. contradiction.
Qed.
Lemma chain_aes_again bits g cs l o bs : lebgen_wf g -> Forall (element_ok cs) l -> incl (map fst cs) (map fst (do_codecs o)) -> incl (map fst l) (map fst (do_aes o)) -> do_seq o <> None ->
  wbits (flat_map (fun x => write_aelem_obu g (ob_h (snd x)) (ad_obu (ob_v (snd x))) (ob_foot (snd x))) l) = Ok bs ->
  exists bl, bs = concat bl /\ chain bits bl o o.
Proof.
  intros Hg H IC IN No E. destruct (chain_fold bits _ (fun o _ => o) _ o bs E) as (bl & -> & C); [|rewrite fold_same in C; eauto].
  intros l1 x l2 b El Eb. rewrite fold_same. cbv zeta. rewrite Forall_forall in H. pose proof (in_mid _ _ _ _ El) as Hx. destruct (H x Hx) as (A1 & (A2 & A4 & A5 & A6 & A7) & A3).
  apply (in_map fst) in Hx. apply IN in Hx.
  destruct x as [id [h a ft]]. cbn [fst snd ob_h ob_v ob_foot] in *. pose proof Eb as Eb'. unfold write_aelem_obu in Eb'.
  assert (header_wf (set_type h kAudioElement)) as Hh by (apply set_type_wf'; [exact A1|unfold kAudioElement; lia]).
  pose proof (write_aelem_wf g (ad_obu a) Hg A2) as W.
  split; [|split; [eapply obu_aligned; eassumption|exact No]].
  destruct (m_find id (do_aes o)) as [a2|] eqn:F; [|apply PropsLabels.m_find_none in F; contradiction].
  assert (exists a1, generate_ae (do_codecs o) (stored_aelem (ad_obu a)) = Ok a1) as [a1 G].
  { rewrite A6. pose proof (generate_ae_codec _ _ _ A7) as [_ Fc]. unfold generate_ae in A7 |- *.
    destruct (if ae_type (ad_obu a) =? 0 then _ else _) as [y| | | |]; try discriminate. cbn [rbind] in *.
    destruct (m_find (ae_codec (ad_obu a)) (do_codecs o)) as [c|] eqn:Fd; [eauto|]. exfalso. apply PropsLabels.m_find_none in Fd. apply Fd, IC. apply m_find_in in Fc. apply (in_map fst) in Fc. exact Fc. }
  rewrite <- A5 in F. exact (effect_aelem_again bits g h a ft b o a1 a2 Hg A1 A2 A4 A3 G F Eb).
Qed.
Lemma known_incl (m m' : aemap) x : incl (map fst m) (map fst m') -> known_elements m x = true -> known_elements m' x = true.
Proof.
  intros I H. unfold known_elements in *. rewrite forallb_forall in *. intros s Hs. specialize (H s Hs). rewrite forallb_forall in *. intros e He. specialize (H e He).
  destruct (m_find (sa_id e) m) as [v|] eqn:F; [|discriminate]. destruct (m_find (sa_id e) m') as [w|] eqn:F'; [reflexivity|]. exfalso.
  apply PropsLabels.m_find_none in F'. apply F', I. apply m_find_in in F. apply (in_map fst) in F. exact F.
Qed.
Lemma chain_mixes_again bits g aes ps l o bs : lebgen_wf g -> Forall mix_ok l -> incl (map fst aes) (map fst (do_aes o)) -> do_seq o <> None ->
  wbits (flat_map (fun m => wres (fst (filter_mix aes (ob_v m) ps)) ++ write_mixp_obu g (ob_h m) (ob_v m) (ob_foot m)) l) = Ok bs ->
  exists bl, bs = concat bl /\ chain bits bl o (more_mixes o (map (fun m => stored_mixp (ob_h m) (ob_v m)) l)).
Proof.
  intros Hg H IN No E. destruct (chain_fold bits _ (fun o m => more_mixes o [stored_mixp (ob_h m) (ob_v m)]) _ o bs E) as (bl & -> & C); [|rewrite (fold_mixes (fun m => stored_mixp (ob_h m) (ob_v m))) in C; eauto].
  intros l1 x l2 b El Eb. rewrite (fold_mixes (fun m => stored_mixp (ob_h m) (ob_v m))). cbv zeta. rewrite Forall_forall in H. destruct (H x (in_mid _ _ _ _ El)) as (A1 & (A2 & A4 & A5 & A6) & A3).
  apply wbits_app_ok in Eb as (b0 & b1 & E0 & Eb & ->). apply wres_ok in E0 as [F ->]. cbn [app]. apply filter_mix_known in F.
  pose proof Eb as Eb'. unfold write_mixp_obu in Eb'.
  assert (header_wf (set_type (ob_h x) kMixPresentation)) as Hh by (apply set_type_wf'; [exact A1|unfold kMixPresentation; lia]).
  pose proof (write_mixp_wf g (set_type (ob_h x) kMixPresentation) (ob_v x) Hg A2) as W.
  split; [|split; [eapply obu_aligned; eassumption|exact No]].
  apply (effect_mixp bits g (ob_h x) (ob_v x) (ob_foot x) b1 (more_mixes o _)); try assumption. cbn [more_mixes do_aes]. exact (known_incl _ _ _ IN F).
Qed.
Definition repeated (d d2 : descset) : dobus :=
  mkDO (Some (h_red (ob_h (de_seq d2)), ob_v (de_seq d2))) (do_codecs (found d)) (do_aes (found d)) (do_mixes (found d) ++ do_mixes (found d2)).
Lemma by_key_incl {A B} (m : list (Z * A)) (m' : list (Z * B)) : incl (map fst m) (map fst m') -> incl (map fst (by_key m)) (map fst (by_key m')).
Proof.
  intros I x Hx. eapply Permutation_in; [apply Permutation_map, by_key_perm|]. apply I. eapply Permutation_in; [apply Permutation_sym, Permutation_map, by_key_perm|exact Hx].
Qed.
Lemma chain_again bits g d d2 bs : lebgen_wf g -> encodable bits d2 -> wbits (serialize_descriptors g d2) = Ok bs ->
  incl (map fst (de_codecs d2)) (map fst (de_codecs d)) -> incl (map fst (de_aes d2)) (map fst (de_aes d)) -> h_red (ob_h (de_seq d)) || h_red (ob_h (de_seq d2)) = true ->
  exists bl, bs = concat bl /\ bl <> [] /\ chain bits bl (found d) (repeated d d2).
Proof.
  intros Hg ((S1 & S2 & S3) & HM & NC & HC & NA & HA & HX & HR) E IC IA Red. unfold serialize_descriptors in E. rewrite (no_hook g BeforeDescriptors _ HR eq_refl) in E. cbn [app] in E.
  apply wbits_app_ok in E as (b & b9 & E & E9 & ->). unfold write_descriptors in E.
  apply wbits_app_ok in E as (b0 & b' & E0 & E & ->). apply wbits_app_ok in E as (b1 & b'' & E1 & E & ->). apply wbits_app_ok in E as (b2 & b''' & E2 & E & ->).
  apply wbits_app_ok in E as (b3 & r3 & E3 & E & ->). apply wbits_app_ok in E as (b4 & r4 & E4 & E & ->). apply wbits_app_ok in E as (b5 & r5 & E5 & E & ->).
  apply wbits_app_ok in E as (b6 & r6 & E6 & E & ->). apply wbits_app_ok in E as (b7 & b8 & E7 & E8 & ->).
  pose proof (effect_seqhdr_again bits g _ _ _ _ (found d) _ _ Hg S1 S2 S3 E0 eq_refl Red) as F0. set (o1 := mkDO _ _ _ _) in F0. assert (do_seq o1 <> None) as N1 by discriminate.
  assert (length b0 mod 8 = 0)%nat as M0.
  { refine (obu_aligned g _ _ _ _ Hg _ _ S3 E0); [apply set_type_wf'; [exact S1|unfold kSequenceHeader; lia]|apply write_seqhdr_wf; exact S2]. }
  destruct (chain_hook bits g AfterSequenceHeader _ o1 b1 Hg HR ltac:(discriminate) ltac:(discriminate) ltac:(discriminate) N1 E1) as (l1 & -> & C1).
  destruct (chain_meta bits g _ o1 b2 Hg HM N1 E2) as (l2 & -> & C2).
  assert (map fst (do_codecs o1) = map fst (by_key (de_codecs d))) as K1 by (cbn [o1 found do_codecs]; unfold plain_codecs; apply plain_keys).
  assert (map fst (do_aes o1) = map fst (by_key (de_aes d))) as K2 by (cbn [o1 found do_aes]; unfold plain_aes; apply plain_keys).
  destruct (chain_codecs_again bits g _ o1 b3 Hg (by_key_forall _ _ HC) ltac:(rewrite K1; apply by_key_incl; exact IC) N1 E3) as (l3 & -> & C3).
  destruct (chain_hook bits g AfterCodecConfigs _ o1 b4 Hg HR ltac:(discriminate) ltac:(discriminate) ltac:(discriminate) N1 E4) as (l4 & -> & C4).
  assert (incl (map fst (plain_codecs (de_codecs d2))) (map fst (do_codecs o1))) as P3.
  { rewrite K1. unfold plain_codecs. rewrite plain_keys. intros x Hx. apply (by_key_incl _ _ IC). eapply Permutation_in; [apply Permutation_map, by_key_perm|exact Hx]. }
  destruct (chain_aes_again bits g _ _ o1 b5 Hg (by_key_forall _ _ HA) P3 ltac:(rewrite K2; apply by_key_incl; exact IA) N1 E5) as (l5 & -> & C5).
  destruct (chain_hook bits g AfterAudioElements _ o1 b6 Hg HR ltac:(discriminate) ltac:(discriminate) ltac:(discriminate) N1 E6) as (l6 & -> & C6).
  assert (incl (map fst (plain_aes (de_aes d2))) (map fst (do_aes o1))) as P5.
  { rewrite K2. unfold plain_aes. rewrite plain_keys. intros x Hx. apply (by_key_incl _ _ IA). eapply Permutation_in; [apply Permutation_map, by_key_perm|exact Hx]. }
  destruct (chain_mixes_again bits g _ _ _ o1 b7 Hg HX P5 N1 E7) as (l7 & -> & C7).
  set (o7 := more_mixes o1 _) in *. assert (do_seq o7 <> None) as N7 by discriminate.
  destruct (chain_hook bits g AfterMixPresentations _ o7 b8 Hg HR ltac:(discriminate) ltac:(discriminate) ltac:(discriminate) N7 E8) as (l8 & -> & C8).
  destruct (chain_hook bits g AfterDescriptors _ o7 b9 Hg HR ltac:(discriminate) ltac:(discriminate) ltac:(discriminate) N7 E9) as (l9 & -> & C9).
  exists (b0 :: l1 ++ l2 ++ l3 ++ l4 ++ l5 ++ l6 ++ l7 ++ l8 ++ l9). split; [cbn [concat]; rewrite !concat_app, <- !app_assoc; reflexivity|]. split; [discriminate|].
  apply (Ch_cons bits b0 _ (found d) o1); try assumption.
  repeat (eapply chain_app; [eassumption|]). exact C9.
Qed.
Lemma written_again g d d2 bits b : lebgen_wf g -> encodable bits d2 -> serialize (serialize_descriptors g d2) false = Ok b ->
  incl (map fst (de_codecs d2)) (map fst (de_codecs d)) -> incl (map fst (de_aes d2)) (map fst (de_aes d)) -> h_red (ob_h (de_seq d)) || h_red (ob_h (de_seq d2)) = true ->
  Forall byteP b /\ exists bl, bytes_bits b = concat bl /\ bl <> [] /\ chain bits bl (found d) (repeated d d2) /\ (length bl <= length b)%nat.
Proof.
  intros Hg He E IC IA R. destruct (serialize_bits _ b (descriptors_wf g d2 bits Hg He) E) as (bs & E1 & F & G). split; [exact F|].
  destruct (chain_again bits g d d2 bs Hg He E1 IC IA R) as (bl & -> & N & C). exists bl. pose proof (G (chain_aligned _ _ _ _ C)) as B. split; [exact B|]. split; [exact N|]. split; [exact C|].
  pose proof (chain_count _ _ _ _ C). rewrite <- B, bytes_bits_length in H. lia.
Qed.
(* Descriptors that are repeated, one of the two sequence headers being marked as a redundant copy: the codec configs and audio
   elements are those read first; the sequence header is the one read last; but every mix presentation is there twice (finding). *)
Theorem C55_repeated : forall g bits d b d2 b2 fuel cap k,
  lebgen_wf g -> encodable bits d -> serialize (serialize_descriptors g d) false = Ok b ->
  encodable bits d2 -> serialize (serialize_descriptors g d2) false = Ok b2 ->
  incl (map fst (de_codecs d2)) (map fst (de_codecs d)) -> incl (map fst (de_aes d2)) (map fst (de_aes d)) ->
  h_red (ob_h (de_seq d)) = true \/ h_red (ob_h (de_seq d2)) = true ->
  (8 <= fuel)%nat -> (1 <= cap)%nat -> zlen (b ++ b2) < Z.of_nat k -> zlen (b ++ b2) < 2^32 - 64 ->
  parse_at fuel cap k bits true (b ++ b2) = Ok (Ok (repeated d d2), false, 8 * zlen (b ++ b2)).
Proof.
  intros g bits d b d2 b2 fuel cap k Hg He E He2 E2 IC IA R Hf Hc Hk Hz. destruct (written g d bits b Hg He E) as (Fb & bl & B & N & C & L).
  assert (h_red (ob_h (de_seq d)) || h_red (ob_h (de_seq d2)) = true) as R' by (destruct R as [-> | ->]; [reflexivity|apply orb_true_r]).
  destruct (written_again g d d2 bits b2 Hg He2 E2 IC IA R') as (Fb2 & bl2 & B2 & N2 & C2 & L2).
  assert (Forall byteP (b ++ b2)) as Fa by (apply Forall_app; auto).
  pose proof (chain_app _ _ _ _ _ _ C C2) as CC.
  rewrite (parse_arun fuel cap k bits true (b ++ b2) Hf Hc Fa). unfold zlen in Hk. rewrite app_length in Hk. replace k with (length (bl ++ bl2) + (k - length (bl ++ bl2)))%nat by (rewrite app_length; lia).
  destruct (loop_chain bits true 0 (b ++ b2) Hz (bl ++ bl2) do_empty (repeated d d2) [] [] 0 (k - length (bl ++ bl2)) CC) as (p & P1 & P2 & P3); [rewrite app_nil_r, bytes_bits_app, concat_app, B, B2; reflexivity|reflexivity|].
  rewrite P3. destruct bl as [|b0 bl]; [congruence|]. cbn [app]. cbn [at_result c_pos at_byte]. cbn [length Nat.add] in P1.
  assert (length (concat ((b0 :: bl) ++ bl2)) = 8 * length (b ++ b2))%nat as LL by (rewrite concat_app, <- B, <- B2, <- bytes_bits_app, bytes_bits_length; reflexivity).
  rewrite P1 in LL. unfold zlen. do 2 f_equal. lia.
Qed.
(* An arbitrary OBU before the descriptors is written, but what follows cannot be read (finding). *)
Theorem C55_before_descriptors_refused : forall g bits exact a b0 rest fuel cap k,
  lebgen_wf g -> obu_wf (Forall byteP) (ar_obu a) -> ar_type a = kMetadata \/ 25 <= ar_type a <= 30 ->
  serialize (write_arbitrary_obu g a) false = Ok b0 -> Forall byteP rest ->
  (8 <= fuel)%nat -> (1 <= cap)%nat -> (1 <= k)%nat -> zlen (b0 ++ rest) < 2^32 - 64 ->
  parse_at fuel cap k bits exact (b0 ++ rest) = Err InvalidArgument.
Proof.
  intros g bits exact a b0 rest fuel cap k Hg (A1 & A2 & A3) T E Hr Hf Hc Hk Hz.
  assert (header_wf (set_type (ob_h (ar_obu a)) (ar_type a))) as Hh by (apply set_type_wf'; [exact A1|unfold kMetadata in T; lia]).
  assert (Forall winstr_wf (write_arbitrary (ob_v (ar_obu a)) (ar_invalid a))) as W by (unfold write_arbitrary; wf_split; [apply wspan_wf; exact A2|apply wcheck_wf]).
  destruct (serialize_bits _ b0 (write_obu_wf g _ _ _ Hg Hh W A3) E) as (bs & Ew & Fb & G). unfold write_arbitrary_obu in Ew.
  pose proof (obu_aligned g _ _ _ _ Hg Hh W A3 Ew) as M. specialize (G M).
  destruct (effect_skipped bits g _ _ _ bs do_empty Hg Hh W A3 Ew T [] (bytes_bits rest)) as (h & n & hl & E1 & TT & LN & GO). cbv beta zeta in *. cbn [app length Nat.add] in *.
  rewrite <- G, <- bytes_bits_app in E1, GO. rewrite (parse_arun fuel cap k bits exact (b0 ++ rest) Hf Hc ltac:(apply Forall_app; auto)).
  change (mkC (bytes_bits (b0 ++ rest)) 0 (Some true)) with (at_byte (b0 ++ rest) 0) in E1.
  unfold zlen in LN. apply Nat.mod_divides in M as [m0 M]; [|lia].
  assert (hl mod 8 = 0)%nat as H8.
  { apply Nat2Z.inj. rewrite Nat2Z.inj_mod. change (Z.of_nat 8) with 8. replace (Z.of_nat hl) with ((Z.of_nat m0 - n) * 8) by lia. rewrite Z.mod_mul by lia. reflexivity. }
  pose proof (Nat.div_mod hl 8 ltac:(lia)) as D8. pose proof (pos_at (b0 ++ rest) 0 hl H8) as PA. rewrite Nat.mul_0_r in PA. cbn [Nat.add] in PA. rewrite PA in E1, GO.
  assert (length b0 = m0) as Lb by (apply (f_equal (@length bool)) in G; rewrite bytes_bits_length in G; lia).
  destruct k as [|k]; [lia|].
  destruct (header_facts (b0 ++ rest) Hz 0 h n (hl / 8) ltac:(lia) E1) as (_ & _ & _ & Hn & _).
  destruct (loop_refused bits 0 (b0 ++ rest) Hz k exact 0 do_empty h n (hl / 8) ltac:(lia) E1) as [c ->]; [unfold zlen; rewrite app_length; lia|exact TT| |reflexivity|reflexivity].
  destruct GO as [GO|(GO & GO2 & _)]; [left|right; split; assumption]. rewrite GO. f_equal. unfold at_byte. rewrite bytes_bits_length. f_equal; lia.
Qed.

(* ================= example ================= *)
(* Two audio elements, not in the order of their IDs, one mix of both, a metadata OBU and one of a reserved type; the second time the
   sequence header is a redundant copy. *)
Definition dx_ae (id sub : Z) : aed := mkAed (mkAE id 0 0 1 [sub] [] (ACScal 0 [mkLy 1 false false 0 1 1 0 0 0 None])) sx_codec [(sub, [L2; R2])] [] [mkCh 2 0 0 0].
Definition dx_mix : mixp :=
  mkMP 7 0 [] [] [mkSM [mkSA 3 [] (mkRC 0 0 0 [] None []) (sx_gain 64); mkSA 5 [] (mkRC 0 0 0 [] None []) (sx_gain 66)] (sx_gain 65) [mkLO 2 (LSs 0 0) 0 (-300) 0 0 [] []]] None None.
Definition dx (red : bool) : descset :=
  mkDescs (mkOb (mkH 0 red false 0 0 None) (mkSeq 1 1) []) [mkOb default_header (MTags [([65], [66])]) []] [(1, mkOb default_header sx_codec [])]
    [(5, mkOb default_header (dx_ae 5 1) []); (3, mkOb default_header (dx_ae 3 0) [9])] [mkOb default_header dx_mix []]
    [mkAr 26 (mkOb default_header [1; 2; 3] []) AfterCodecConfigs false].
Ltac wfs := repeat match goal with
  | |- _ /\ _ => split
  | |- Forall _ [] => constructor
  | |- Forall _ (_ :: _) => constructor
  | |- NoDup [] => constructor
  | |- NoDup (_ :: _) => constructor
  | |- True => exact I
  | |- _ = _ => vm_compute; reflexivity
  end.
Lemma dx_encodable red : encodable 16 (dx red).
Proof.
  assert (forall v, 0 <= v < 256 -> u8P v) as U8 by (intros; pw). assert (forall v, 0 <= v < 4294967296 -> u32P v) as U32 by (intros; pw).
  assert (forall v, -32768 <= v < 32768 -> s16P v) as S16 by (intros; pw).
  assert (header_wf default_header) as HW by (unfold header_wf; cbn; wfs; try apply U32; lia).
  assert (forall i, 0 <= i < 100 -> gain_wf (sx_gain i)) as GW.
  { intros i Hi. unfold gain_wf, pdef_wf, sx_gain, pbase_wf, pkind_wf. cbn. wfs; try (apply U32; lia); try (apply S16; lia). }
  unfold encodable. cbn [dx de_seq de_meta de_codecs de_aes de_mixes de_arb]. unfold codec_ok, element_ok, mix_ok, harmless, obu_wf, codec_wf, aelem_wf, metadata_wf, tag_wf, mixp_wf, submix_wf, subelem_wf, layout_wf, rconf_wf.
  repeat first [ progress wfs | exact HW | apply GW; lia | apply U32; vm_compute; split; congruence | apply U8; vm_compute; split; congruence | apply S16; vm_compute; split; congruence
    | progress cbn -[u8P u32P s16P gain_wf header_wf byteP zlen] | unfold byteP; lia | lia | progress unfold seqhdr_wf, lpcm_wf, strP, layer_wf, zlen, kMetadata | intros [?|?]; first [lia|contradiction] | intros [] | intros _ ].
Qed.
Example C55_ex : lebgen_wf LebMin /\ encodable 16 (dx false) /\ encodable 16 (dx true) /\
  exists b b2, serialize (serialize_descriptors LebMin (dx false)) false = Ok b /\ serialize (serialize_descriptors LebMin (dx true)) false = Ok b2 /\ zlen b = 102 /\ b <> b2 /\
    parse_at 8 4 200 16 true b = Ok (Ok (found (dx false)), false, 816) /\ map fst (do_aes (found (dx false))) = [3; 5] /\
    parse_at 8 4 200 16 false (b ++ [32; 0]) = Ok (Ok (found (dx false)), false, 816) /\
    parse_at 8 4 400 16 false (b ++ b) = Ok (Ok (found (dx false)), false, 816) /\
    parse_at 8 4 400 16 true (b ++ b2) = Ok (Ok (repeated (dx false) (dx true)), false, 1632) /\ length (do_mixes (repeated (dx false) (dx true))) = 2%nat.
Proof.
  split; [exact I|]. split; [apply dx_encodable|]. split; [apply dx_encodable|]. eexists. eexists. split; [vm_compute; reflexivity|]. split; [vm_compute; reflexivity|].
  split; [vm_compute; reflexivity|]. split; [discriminate|]. repeat split; vm_compute; reflexivity.
Qed.
