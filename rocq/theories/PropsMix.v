(* C35: Mix Presentation OBUs. *)
From Verif Require Import Base WriteBuf ReadBuf Leb BufSpec LebSpec BitFacts WriteBufFacts ReadBufFacts LebFacts
  ParseFacts EndToEnd ObuHeader ObuHeaderFacts FrameFacts SeqFacts SimpleObus PropsObu BndFacts CodecConfig PropsCodec Params PropsParams
  AudioElement PropsAE MixPresentation.

(* ---- the fields in their C++ types, as the factories leave them ---- *)
Definition strP (s : str) := Forall byteP s.
Definition ego_wf (e : egoc) :=
  match e with
  | EValue v => s16P v
  | ERange d mn mx => s16P d /\ s16P mn /\ s16P mx /\ ego_range d mn mx = Ok e
  | EExt t b => u8P t /\ Forall byteP b /\ ego_ext t b = Ok e
  end.
(* as RenderingConfigParamDefinition::Create leaves it: one of the six position kinds, the type being its type *)
Definition is_position (k : pkind) : bool :=
  match k with KPolar _ _ _ | KCart8 _ _ _ | KCart16 _ _ _ | KDualPolar _ _ _ _ _ _ | KDualCart8 _ _ _ _ _ _ | KDualCart16 _ _ _ _ _ _ => true
  | _ => false end.
Definition rdef_wf (r : rdef) := pdef_wf (rd_def r) /\ is_position (pd_kind (rd_def r)) = true /\ rd_type r = pd_type (pd_kind (rd_def r)).
Definition rconf_wf (r : rconf) := u8P (rc_mode r) /\ u8P (rc_profile r) /\ u8P (rc_reserved r) /\ Forall rdef_wf (rc_defs r) /\
  match rc_ego r with Some e => ego_wf e | None => True end /\ Forall byteP (rc_ext r).
Definition speclay_wf (s : speclay) := match s with LSs a b => u8P a /\ u8P b | LRb r => u8P r end.
Definition layout_wf (l : layout) := u8P (lo_type l) /\ speclay_wf (lo_spec l) /\ u8P (lo_info l) /\ s16P (lo_int l) /\ s16P (lo_peak l) /\
  s16P (lo_true l) /\ Forall (fun a => u8P (fst a) /\ s16P (snd a)) (lo_anch l) /\ Forall byteP (lo_ext l).
Definition gain_wf (d : pdef) := pdef_wf d /\ match pd_kind d with KMixGain _ => True | _ => False end.
Definition subelem_wf (e : subelem) := u32P (sa_id e) /\ Forall strP (sa_ann e) /\ rconf_wf (sa_conf e) /\ gain_wf (sa_gain e).
Definition submix_wf (s : submix) := Forall subelem_wf (sm_elems s) /\ gain_wf (sm_gain s) /\ Forall layout_wf (sm_layouts s).
Definition tags_wf (t : tags) := Forall (fun x => strP (fst x) /\ strP (snd x)) t.
Definition optf_wf (o : optf) := u32P (of_size o) /\ u8P (of_loud o) /\ u8P (of_bin o) /\ Forall byteP (of_rest o).
Definition mixp_wf (m : mixp) := u32P (mp_id m) /\ u32P (mp_count m) /\ Forall strP (mp_lang m) /\ Forall strP (mp_ann m) /\
  Forall submix_wf (mp_subs m) /\ match mp_tags m with Some t => tags_wf t | None => True end /\
  match mp_opt m with Some o => optf_wf o | None => True end.

(* ---- what comes back: fields that are not coded read back as their defaults, polar angles are clipped ---- *)
Definition stored_rdef (r : rdef) : rdef := mkRD (rd_type r) (mkPD (pd_base (rd_def r)) (stored_kind (pd_kind (rd_def r)))) [].
Definition stored_rconf (r : rconf) : rconf :=
  mkRC (rc_mode r) (rc_profile r) (rc_reserved r) (map stored_rdef (rc_defs r)) (rc_ego r) (rc_ext r).
Definition stored_layout (l : layout) : layout :=
  mkLO (lo_type l) (lo_spec l) (lo_info l) (lo_int l) (lo_peak l)
    (if Z.testbit (lo_info l) 0 then lo_true l else 0) (if Z.testbit (lo_info l) 1 then lo_anch l else [])
    (if 4 <=? lo_info l then lo_ext l else []).
Definition stored_subelem (e : subelem) : subelem := mkSA (sa_id e) (sa_ann e) (stored_rconf (sa_conf e)) (sa_gain e).
Definition stored_submix (s : submix) : submix :=
  mkSM (map stored_subelem (sm_elems s)) (sm_gain s) (map stored_layout (sm_layouts s)).
Definition stored_mixp (h : header) (m : mixp) : mixp :=
  mkMP (mp_id m) (mp_count m) (mp_lang m) (mp_ann m) (map stored_submix (mp_subs m)) (mp_tags m) (if h_flag h then mp_opt m else None).

(* ---- element gain offset ---- *)
Lemma rt_ego g e : lebgen_wf g -> ego_wf e -> rtb (write_ego g e) read_ego e.
Proof.
  intros Hg He. destruct e as [v|d mn mx|t b]; cbn [ego_wf write_ego] in *; unfold read_ego.
  - eapply rtb_seq; [lit|]. cbn [Z.eqb]. eapply rtb_last; [apply rtb_rt, rt_signed16; exact He|]. apply rtb_ret_eq. reflexivity.
  - destruct He as (H1 & H2 & H3 & C). eapply rtb_seq; [lit|]. cbn [Z.eqb Pos.eqb].
    eapply rtb_seq; [apply rtb_rt, rt_signed16; exact H1|]. eapply rtb_seq; [apply rtb_rt, rt_signed16; exact H2|].
    eapply rtb_last; [apply rtb_rt, rt_signed16; exact H3|]. rewrite C. cbn [rres]. apply rtb_ret_eq. reflexivity.
  - destruct He as (H1 & H2 & C). rewrite app_assoc. apply (rtb_blob_bound b). intro L. rewrite <- app_assoc.
    eapply rtb_seq; [lit|]. assert (Q := C). unfold ego_ext in Q. apply rthen_ok in Q as [Q _]. apply vcond_ok in Q.
    replace (t =? 0) with false by lia. replace (t =? 1) with false by lia.
    apply (rt_blob g b (fun b => rres (ego_ext t b))); try assumption. rewrite C. cbn [rres]. apply rtb_ret_eq. reflexivity.
Qed.
Lemma write_ego_wf g e : lebgen_wf g -> ego_wf e -> Forall winstr_wf (write_ego g e).
Proof.
  intros Hg He. destruct e as [v|d mn mx|t b]; cbn [ego_wf write_ego] in *.
  - wf_split; [apply wlit_wf; pw|apply wsigned16_wf].
  - wf_split; [apply wlit_wf; pw|apply wsigned16_wf..].
  - destruct He as (H1 & H2 & C). wf_split; [apply wlit_wf; pw|apply wuleb_wf; [exact Hg|apply u32_range]|apply wspan_wf; exact H2].
Qed.

(* ---- rendering config ---- *)
Lemma rdef_type_range r : rdef_wf r -> 3 <= rd_type r <= 8.
Proof. intros (_ & P & ->). destruct (pd_kind (rd_def r)); try discriminate; cbn [pd_type]; lia. Qed.
Lemma rdef_kind r : rdef_wf r -> exists k, position_kind (rd_type r) = Some k /\ same_class k (pd_kind (rd_def r)).
Proof.
  intros (_ & P & ->). destruct (pd_kind (rd_def r)); try discriminate; eexists; (split; [reflexivity|exact I]).
Qed.
Lemma rt_rdef g r : lebgen_wf g -> rdef_wf r -> rtb (write_rdef g r) read_rdef (stored_rdef r).
Proof.
  intros Hg Hr. pose proof (rdef_type_range r Hr) as T. destruct (rdef_kind r Hr) as (k & K & C). destruct Hr as (Hd & P & Et).
  unfold write_rdef, read_rdef. eapply rtb_seq; [apply rtb_rt, rt_uleb; [exact Hg|change (2^32) with 4294967296; lia]|].
  rewrite K. rewrite Et. rewrite Z.eqb_refl.
  assert (is_extended (pd_kind (rd_def r)) = false) as X by (destruct (pd_kind (rd_def r)); try discriminate; reflexivity).
  eapply rtb_last; [apply (rt_pdef (N:=2^24) g (mkPD pbase0 k) (rd_def r) Hg Hd C)|].
  - destruct (pd_kind (rd_def r)); try exact I; discriminate.
  - apply rtb_ret_eq. unfold stored_pdef, stored_rdef, rdef_create. rewrite X. f_equal. cbn [pd_kind]. rewrite Et.
    destruct (pd_kind (rd_def r)); try discriminate; reflexivity.
Qed.
Lemma write_rdef_wf g r : lebgen_wf g -> rdef_wf r -> Forall winstr_wf (write_rdef g r).
Proof.
  intros Hg Hr. pose proof (rdef_type_range r Hr) as T. destruct (rdef_kind r Hr) as (k & K & C). destruct Hr as (Hd & P & Et).
  unfold write_rdef. rewrite K. wf_split; [apply wuleb_wf; [exact Hg|change (2^32) with 4294967296; lia]|].
  rewrite Et, Z.eqb_refl. apply write_pdef_wf; assumption.
Qed.
Lemma write_rext_wf g r : lebgen_wf g -> rconf_wf r -> Forall winstr_wf (write_rext g r).
Proof.
  intros Hg (H1 & H2 & H3 & H4 & H5 & H6). unfold write_rext.
  wf_split; [apply wuleb_wf; [exact Hg|apply u32_range]| | |apply wspan_wf; exact H6].
  - apply Forall_flat_map_wf. intros x Hx. apply write_rdef_wf; [exact Hg|]. rewrite Forall_forall in H4. apply H4. exact Hx.
  - destruct (rc_ego r); [apply write_ego_wf; assumption|constructor].
Qed.
Definition write_rext_fields (g : lebgen) (r : rconf) : wprog :=
  wuleb g (u32 (zlen (rc_defs r))) ++ flat_map (write_rdef g) (rc_defs r) ++
  (match rc_ego r with Some e => write_ego g e | None => [] end).
Lemma rt_rext g r : lebgen_wf g -> rconf_wf r ->
  rtb (write_rext_fields g r) (read_rext (has (rc_ego r))) (map stored_rdef (rc_defs r), rc_ego r).
Proof.
  intros Hg (H1 & H2 & H3 & H4 & H5 & H6). unfold write_rext_fields, read_rext. rewrite Forall_forall in H4.
  apply (rtb_bound_list (rc_defs r) (write_rdef g)).
  { intros x b Hx Eb. unfold write_rdef in Eb. apply wbits_app_ok in Eb as (b1 & b2 & E1 & _ & ->). pose proof (rdef_type_range x (H4 x Hx)).
    assert (8 <= zlen b1) by (apply (wuleb_len g _ b1 Hg) in E1; [exact E1|pw]). rewrite zlen_app. pose proof (zlen_nonneg b2). lia. }
  intro L. pose proof (zlen_nonneg (rc_defs r)) as Z0. change (2^21) with 2097152 in L.
  assert (u32 (zlen (rc_defs r)) = zlen (rc_defs r)) as E by (unfold u32; change (2^32) with 4294967296; apply Z.mod_small; lia).
  rewrite E. eapply rtb_seq; [apply rtb_rt, rt_uleb; [exact Hg|change (2^32) with 4294967296; lia]|].
  eapply rtb_seq; [apply (rtb_list_map (write_rdef g) read_rdef stored_rdef); [unfold zlen; lia|]; intros x Hx; apply rt_rdef; [exact Hg|apply H4; exact Hx]|].
  destruct (rc_ego r) as [e|]; cbn [has].
  - eapply rtb_last; [eapply rtb_last; [apply rt_ego; assumption|apply rtb_ret_eq; reflexivity]|]. apply rtb_ret_eq. reflexivity.
  - eapply rtb_last; [apply rtb_ret_eq; reflexivity|]. apply rtb_ret_eq. reflexivity.
Qed.

Definition rext_tail (mode prof res size : Z) (flag : bool) : rprog rconf :=
  p <- rtell ;; st <- rcatch (read_rext flag) ;;
  match st with
  | inr x =>
      q <- rtell ;;
      rcheck (negb (size - (q - p) / 8 <? 0)) InvalidArgument ;;;
      b <- rspan (Z.to_nat (size - (q - p) / 8)) ;; RRet (mkRC mode prof res (fst x) (snd x) b)
  | inl _ => rseek p ;;; b <- rspan (Z.to_nat size) ;; RRet (mkRC mode prof res [] None b)
  end.
Lemma parses_rext_tail mode prof res size flag ob x ext :
  parses (read_rext flag) ob x -> Forall byteP ext -> zlen ob + 8 * zlen ext = 8 * size ->
  parses (rext_tail mode prof res size flag) (ob ++ bytes_bits ext) (mkRC mode prof res (fst x) (snd x) ext).
Proof.
  intros P He Hs pre rest v. unfold rext_tail. rewrite arun_bind, arun_rtell. cbn [c_bits c_pos].
  rewrite arun_bind, arun_catch. destruct (P pre (bytes_bits ext ++ rest) (Some true)) as [v2 Q2].
  rewrite <- !app_assoc. rewrite Q2. rewrite arun_bind, arun_rtell. cbn [c_bits c_pos]. rewrite arun_bind.
  pose proof (zlen_nonneg ext) as Ze. pose proof (zlen_nonneg ob) as Zo.
  assert (size - (Z.of_nat (length pre + length ob) - Z.of_nat (length pre)) / 8 = zlen ext) as E by (unfold zlen in *; lia).
  rewrite E. replace (negb (zlen ext <? 0)) with true by lia. cbn [rcheck arun]. rewrite arun_bind.
  replace (Z.to_nat (zlen ext)) with (length ext) by (unfold zlen; lia).
  destruct (parses_span ext He (pre ++ ob) rest (Some true)) as [v3 Q3]. rewrite app_length in Q3. rewrite <- !app_assoc in Q3. rewrite Q3.
  cbn [arun]. exists v3. do 2 f_equal. rewrite !app_length. lia.
Qed.
Lemma rt_rconf g r : lebgen_wf g -> rconf_wf r -> rtb (write_rconf g r) read_rconf (stored_rconf r).
Proof.
  intros Hg Hr. pose proof (write_rext_wf g r Hg Hr) as W. pose proof (rt_rext g r Hg Hr) as R. destruct Hr as (H1 & H2 & H3 & H4 & H5 & H6).
  unfold write_rconf, read_rconf. eapply rtb_seq; [lit|]. eapply rtb_seq; [apply rtb_rt, rt_bool|]. eapply rtb_seq; [lit|]. eapply rtb_seq; [lit|].
  destruct (is_empty (rc_defs r) && negb (has (rc_ego r)) && is_empty (rc_ext r)) eqn:Em.
  - eapply rtb_last; [apply rtb_rt, rt_uleb; [exact Hg|change (2^32) with 4294967296; lia]|]. apply rtb_rcheck; [reflexivity|]. cbn [Z.eqb].
    apply rtb_ret_eq. unfold stored_rconf. destruct (rc_defs r); [|discriminate]. destruct (rc_ego r); [discriminate|]. destruct (rc_ext r); [reflexivity|discriminate].
  - destruct (temp_write (write_rext g r)) as [t|c| | |] eqn:T; try apply rtb_wfail.
    destruct (temp_write_ok _ _ W T) as (ib & E1 & E2 & E3). rewrite E2, E3.
    destruct (negb (zlen ib mod 8 =? 0)) eqn:M; [apply rtb_wfail|].
    assert ((length ib mod 8 = 0)%nat) as Hm by (unfold zlen in M; lia).
    assert (zlen (pack ib) = zlen ib / 8) as L by (unfold zlen; rewrite pack_length; lia).
    apply (rtb_blob_bound (pack ib)). intro Lb. pose proof (zlen_nonneg (pack ib)) as Z0. change (2^21) with 2097152 in Lb.
    assert (u32 (zlen (pack ib)) = zlen (pack ib)) as Eu by (unfold u32; change (2^32) with 4294967296; apply Z.mod_small; lia). rewrite Eu.
    eapply rtb_seq; [apply rtb_rt, rt_uleb; [exact Hg|change (2^32) with 4294967296; lia]|].
    apply rtb_rcheck; [change (2^21) with 2097152; lia|].
    (* split the inner bits *)
    assert (exists ob, wbits (write_rext_fields g r) = Ok ob /\ ib = ob ++ bytes_bits (rc_ext r) /\ 8 <= zlen ob) as (ob & Eo & Ei & Lo).
    { unfold write_rext in E1. apply wbits_app_ok in E1 as (x1 & y1 & X1 & E1 & ->). apply wbits_app_ok in E1 as (x2 & y2 & X2 & E1 & ->).
      apply wbits_app_ok in E1 as (x3 & y3 & X3 & E1 & ->). apply wspan_ok in E1 as ->. exists (x1 ++ x2 ++ x3). split.
      - unfold write_rext_fields. rewrite wbits_app, X1. cbn [rbind]. rewrite wbits_app, X2. cbn [rbind]. rewrite X3. reflexivity.
      - split; [rewrite <- !app_assoc; reflexivity|]. rewrite !zlen_app. pose proof (wuleb_len g _ _ Hg (u32_range _) X1).
        pose proof (zlen_nonneg x2). pose proof (zlen_nonneg x3). lia. }
    pose proof (zlen_nonneg (rc_ext r)) as Ze. assert (zlen ib = zlen ob + 8 * zlen (rc_ext r)) as Lib by (rewrite Ei, zlen_app; unfold zlen; rewrite bytes_bits_length; lia).
    replace (zlen (pack ib) =? 0) with false by lia.
    intros bs Eb Lbs. apply wspan_ok in Eb as ->. rewrite pack_aligned in * by exact Hm. rewrite Ei in Lbs |- *.
    apply (parses_rext_tail (rc_mode r) (rc_profile r) (rc_reserved r) (zlen (pack (ob ++ bytes_bits (rc_ext r)))) (has (rc_ego r)) ob
             (map stored_rdef (rc_defs r), rc_ego r) (rc_ext r)); [|exact H6|].
    + apply R; [exact Eo|]. rewrite zlen_app in Lbs. pose proof (zlen_nonneg (bytes_bits (rc_ext r))). lia.
    + rewrite <- Ei. lia.
Qed.
Lemma write_rconf_wf g r : lebgen_wf g -> rconf_wf r -> Forall winstr_wf (write_rconf g r).
Proof.
  intros Hg Hr. pose proof (write_rext_wf g r Hg Hr) as W. destruct Hr as (H1 & H2 & H3 & H4 & H5 & H6).
  unfold write_rconf. wf_split; try (apply wlit_wf; pw); try apply wbool_wf.
  destruct (_ && _); [apply wuleb_wf; [exact Hg|change (2^32) with 4294967296; lia]|].
  destruct (temp_write (write_rext g r)) as [t|c| | |] eqn:T; try (repeat constructor).
  destruct (temp_write_ok _ _ W T) as (ib & E1 & E2 & E3). rewrite E2.
  destruct (negb _); [repeat constructor|]. wf_split; [apply wuleb_wf; [exact Hg|apply u32_range]|apply wspan_wf, pack_spec].
Qed.

(* ---- layouts ---- *)
Lemma true_peak_bit_spec i : true_peak_bit i = Z.testbit i 0.
Proof. unfold true_peak_bit. change 1 with (Z.ones 1). rewrite Z.land_ones by lia. change (2^1) with 2. rewrite Z.bit0_odd, Zmod_odd. destruct (Z.odd i); reflexivity. Qed.
Lemma anchored_bit_spec i : anchored_bit i = Z.testbit i 1.
Proof.
  unfold anchored_bit. destruct (Z.testbit i 1) eqn:B.
  - apply negb_true_iff, Z.eqb_neq. intro E. assert (Z.testbit (Z.land i 2) 1 = true) as C by (rewrite Z.land_spec, B; reflexivity). rewrite E in C. discriminate.
  - apply negb_false_iff, Z.eqb_eq. apply Z.bits_inj'. intros n Hn. rewrite Z.land_spec, Z.bits_0. change 2 with (2^1). rewrite Z.pow2_bits_eqb by lia.
    destruct (1 =? n) eqn:E; [|apply andb_false_r]. apply Z.eqb_eq in E. subst. rewrite B. reflexivity.
Qed.
Lemma extension_bits_spec i : 0 <= i < 256 -> extension_bits i = (4 <=? i).
Proof.
  intro H. unfold extension_bits. replace (Z.land i 252) with (4 * (i / 4)).
  - destruct (4 <=? i) eqn:E; lia.
  - apply Z.bits_inj'. intros n Hn. change 4 with (2^2) at 1. rewrite Z.mul_comm, <- Z.shiftl_mul_pow2 by lia. rewrite Z.shiftl_spec by lia.
    change 4 with (2^2). rewrite <- Z.shiftr_div_pow2 by lia. change 252 with (Z.shiftl (Z.ones 6) 2). rewrite Z.land_spec, Z.shiftl_spec by lia.
    destruct (n <? 2) eqn:E2.
    + rewrite Z.testbit_neg_r by lia. rewrite (Z.testbit_neg_r (Z.ones 6)) by lia. rewrite andb_false_r. reflexivity.
    + rewrite Z.shiftr_spec by lia. replace (n - 2 + 2) with n by lia. destruct (n <? 8) eqn:E8.
      * rewrite Z.ones_spec_low by lia. rewrite andb_true_r. reflexivity.
      * rewrite Z.ones_spec_high by lia. rewrite andb_false_r. destruct (Z.eq_dec i 0) as [->|Hi]; [apply Z.bits_0|]. apply Z.bits_above_log2; [lia|].
        assert (Z.log2 i < 8) by (apply Z.log2_lt_pow2; [lia|change (2^8) with 256; lia]). lia.
Qed.
Lemma rt_layout g l : lebgen_wf g -> layout_wf l -> rtb (write_layout g l) read_layout (stored_layout l).
Proof.
  intros Hg (H1 & H2 & H3 & H4 & H5 & H6 & H7 & H8). unfold write_layout, read_layout, stored_layout.
  rewrite <- true_peak_bit_spec, <- anchored_bit_spec, <- (extension_bits_spec (lo_info l)) by pw.
  eapply rtb_seq; [lit|]. apply (rtb_seq _ _ _ _ (lo_spec l)).
  { destruct (lo_type l =? 2), (lo_spec l) as [a b|r]; cbn [speclay_wf] in H2; try apply rtb_wfail.
    - eapply rtb_seq; [lit|]. eapply rtb_last; [lit|]. apply rtb_ret_eq. reflexivity.
    - eapply rtb_last; [lit|]. apply rtb_ret_eq. reflexivity. }
  eapply rtb_seq; [lit|]. eapply rtb_seq; [apply rtb_rt, rt_signed16; exact H4|]. eapply rtb_seq; [apply rtb_rt, rt_signed16; exact H5|].
  apply (rtb_seq _ _ _ _ (if true_peak_bit (lo_info l) then lo_true l else 0)).
  { destruct (true_peak_bit _); [apply rtb_rt, rt_signed16; exact H6|apply rtb_ret_eq; reflexivity]. }
  apply (rtb_seq _ _ _ _ (if anchored_bit (lo_info l) then lo_anch l else [])).
  { destruct (anchored_bit _); [|apply rtb_ret_eq; reflexivity]. apply rtb_wres. intro V. apply rtb_wcheck. intro K. pose proof (zlen_nonneg (lo_anch l)) as Z0.
    unfold u8. rewrite Z.mod_small by (change (2^8) with 256; lia). eapply rtb_seq; [lit|]. eapply rtb_last; [apply (rtb_list (fun a => wlit (fst a) 8 ++ wsigned16 (snd a))); [unfold zlen; lia|]|].
    - intros [a v] Hx. rewrite Forall_forall in H7. specialize (H7 _ Hx). cbn [fst snd] in *. destruct H7.
      eapply rtb_seq; [lit|]. eapply rtb_last; [apply rtb_rt, rt_signed16; assumption|]. apply rtb_ret_eq. reflexivity.
    - eapply rtb_rres; [exact V|]. apply rtb_ret_eq. reflexivity. }
  apply (rtb_last _ _ _ (if extension_bits (lo_info l) then lo_ext l else [])); [|apply rtb_ret_eq; reflexivity].
  destruct (extension_bits _); [|apply rtb_ret_eq; reflexivity].
  apply (rtb_blob_bound (lo_ext l)). intro L. pose proof (zlen_nonneg (lo_ext l)) as Z0. change (2^21) with 2097152 in *.
  assert (u32 (zlen (lo_ext l)) = zlen (lo_ext l)) as -> by (unfold u32; apply Z.mod_small; change (2^32) with 4294967296; lia).
  eapply rtb_seq; [apply rtb_rt, rt_uleb; [exact Hg|change (2^32) with 4294967296; lia]|]. apply rtb_rcheck; [lia|].
  apply rtb_rt, rt_span; [exact H8|unfold zlen; lia].
Qed.
Lemma write_layout_wf g l : lebgen_wf g -> layout_wf l -> Forall winstr_wf (write_layout g l).
Proof.
  intros Hg (H1 & H2 & H3 & H4 & H5 & H6 & H7 & H8). unfold write_layout.
  wf_split; first [apply wsigned16_wf|(apply wlit_wf; pw)|idtac].
  - destruct (lo_type l =? 2), (lo_spec l) as [a b|r]; cbn [speclay_wf] in H2; try (repeat constructor; fail).
    + wf_split; apply wlit_wf; pw. + apply wlit_wf; pw.
  - destruct (true_peak_bit _); [apply wsigned16_wf|constructor].
  - destruct (anchored_bit _); [|constructor]. wf_split; [apply wres_wf|apply wcheck_wf|apply wlit_wf; unfold u8; pose proof (Z.mod_pos_bound (zlen (lo_anch l)) (2^8) ltac:(reflexivity)); pw|].
    apply Forall_flat_map_wf. intros [a v] Hx. rewrite Forall_forall in H7. specialize (H7 _ Hx). cbn [fst snd] in *. wf_split; [apply wlit_wf; pw|apply wsigned16_wf].
  - destruct (extension_bits _); [|constructor]. wf_split; [apply wuleb_wf; [exact Hg|apply u32_range]|apply wspan_wf; exact H8].
Qed.

(* ---- sub-mixes ---- *)
Lemma u8_small n : 0 <= n <= 255 -> u8 n = n.
Proof. intro. unfold u8. apply Z.mod_small. change (2^8) with 256. lia. Qed.
Lemma u32_small n : 0 <= n <= 2^21 -> u32 n = n.
Proof. intro H. unfold u32. apply Z.mod_small. change (2^21) with 2097152 in H. change (2^32) with 4294967296. lia. Qed.
Lemma rt_gain g d : lebgen_wf g -> gain_wf d -> rtb (write_pdef g d) (read_pdef gain0) d.
Proof.
  intros Hg [Hd Hk]. assert (stored_pdef gain0 d = d) as E by (unfold stored_pdef; destruct d as [b k]; cbn [pd_kind pd_base] in *; destruct k; try contradiction; reflexivity).
  rewrite <- E at 2. apply rt_pdef; try assumption; destruct (pd_kind d); try contradiction; exact I.
Qed.
Lemma rt_strings {N} n l : Forall strP l -> n = length l -> rtn N (flat_map wstring l) (rlist n rstring) l.
Proof. intros H E. apply rtb_list; [exact E|]. intros x Hx. apply rtb_rt, rt_string. rewrite Forall_forall in H. apply H. exact Hx. Qed.
Lemma rt_subelem g count e : lebgen_wf g -> 0 <= count <= 256 -> subelem_wf e -> rtb (write_subelem g count e) (read_subelem count) (stored_subelem e).
Proof.
  intros Hg Hc (H1 & H2 & H3 & H4). unfold write_subelem, read_subelem, stored_subelem.
  eapply rtb_seq; [apply rtb_rt, rt_uleb; assumption|]. apply rtb_wres. intro V. apply vcond_ok in V.
  apply (rtb_bound_list (sa_ann e) wstring []).
  { intros x b Hx Eb. rewrite Forall_forall in H2. rewrite wstring_ok in Eb by (apply H2; exact Hx). destruct (_ && _); [|discriminate]. injection Eb as <-.
    unfold zlen. rewrite bytes_bits_length, app_length. cbn [length]. lia. }
  cbn [app]. intro L. rewrite u32_small in V by (pose proof (zlen_nonneg (sa_ann e)); lia).
  eapply rtb_seq; [apply rt_strings; [exact H2|unfold zlen in V; lia]|].
  eapply rtb_seq; [apply rt_rconf; assumption|]. eapply rtb_last; [apply rt_gain; assumption|]. apply rtb_ret_eq. reflexivity.
Qed.
Lemma write_strings_wf l : Forall strP l -> Forall winstr_wf (flat_map wstring l).
Proof. intro H. apply Forall_flat_map_wf. intros x Hx. apply wstring_wf. rewrite Forall_forall in H. apply H. exact Hx. Qed.
Lemma write_subelem_wf g count e : lebgen_wf g -> subelem_wf e -> Forall winstr_wf (write_subelem g count e).
Proof.
  intros Hg (H1 & H2 & H3 & H4). unfold write_subelem.
  wf_split; [apply wuleb_wf; assumption|apply wres_wf|apply write_strings_wf; exact H2|apply write_rconf_wf; assumption|apply write_pdef_wf; [exact Hg|apply H4]].
Qed.
Lemma is_stereo_stored l : is_stereo (stored_layout l) = is_stereo l. Proof. reflexivity. Qed.
Lemma has_stereo_stored l : has_stereo (map stored_layout l) = has_stereo l.
Proof. unfold has_stereo. induction l as [|x l IH]; [reflexivity|]. cbn [map existsb]. rewrite IH. reflexivity. Qed.
Lemma rt_submix g count s : lebgen_wf g -> 0 <= count <= 256 -> submix_wf s -> rtb (write_submix g count s) (read_submix count) (stored_submix s).
Proof.
  intros Hg Hc (H1 & H2 & H3). rewrite Forall_forall in H1, H3. unfold write_submix, read_submix, stored_submix. apply rtb_wcheck. intro K.
  apply (rtb_bound_list (sm_elems s) (write_subelem g count)).
  { intros x b Hx Eb. unfold write_subelem in Eb. apply wbits_app_ok in Eb as (b1 & b2 & E1 & _ & ->). 
    assert (8 <= zlen b1) by (apply (wuleb_len g _ b1 Hg) in E1; [exact E1|apply (H1 x Hx)]). rewrite zlen_app. pose proof (zlen_nonneg b2). lia. }
  intro L. pose proof (zlen_nonneg (sm_elems s)) as Z0. rewrite u32_small in K |- * by lia. change (2^21) with 2097152 in L.
  eapply rtb_seq; [apply rtb_rt, rt_uleb; [exact Hg|change (2^32) with 4294967296; lia]|]. apply rtb_rcheck; [exact K|].
  eapply rtb_seq; [apply (rtb_list_map (write_subelem g count) (read_subelem count) stored_subelem); [unfold zlen; lia|]; intros x Hx; apply rt_subelem; [exact Hg|exact Hc|apply H1; exact Hx]|].
  eapply rtb_seq; [apply rt_gain; assumption|].
  apply (rtb_bound_list (sm_layouts s) (write_layout g)).
  { intros x b Hx Eb. destruct (H3 x Hx) as (X1 & X2 & X3 & _). unfold write_layout in Eb. apply wbits_app_ok in Eb as (b1 & b2 & E1 & Eb & ->).
    apply wbits_app_ok in Eb as (b3 & b4 & E3 & Eb & ->). apply wbits_app_ok in Eb as (b5 & b6 & E5 & Eb & ->). apply wlit_ok in E5 as (_ & _ & ->).
    rewrite !zlen_app. pose proof (zlen_nonneg b1). pose proof (zlen_nonneg b3). pose proof (zlen_nonneg b6). unfold zlen at 3. rewrite bits_length. lia. }
  intro L2. pose proof (zlen_nonneg (sm_layouts s)) as Z2. rewrite u32_small by lia. change (2^21) with 2097152 in L2.
  eapply rtb_seq; [apply rtb_rt, rt_uleb; [exact Hg|change (2^32) with 4294967296; lia]|].
  eapply rtb_seq; [apply (rtb_list_map (write_layout g) read_layout stored_layout); [unfold zlen; lia|]; intros x Hx; apply rt_layout; [exact Hg|apply H3; exact Hx]|].
  rewrite <- (app_nil_r (wcheck _ _)). apply rtb_wcheck. intro St. rewrite has_stereo_stored, St. apply rtb_ret_eq. reflexivity.
Qed.
Lemma write_submix_wf g count s : lebgen_wf g -> submix_wf s -> Forall winstr_wf (write_submix g count s).
Proof.
  intros Hg (H1 & H2 & H3). rewrite Forall_forall in H1, H3. unfold write_submix.
  wf_split; first [apply wcheck_wf|apply wuleb_wf; [exact Hg|apply u32_range]|apply write_pdef_wf; [exact Hg|apply H2]|idtac].
  - apply Forall_flat_map_wf. intros x Hx. apply write_subelem_wf; [exact Hg|apply H1; exact Hx].
  - apply Forall_flat_map_wf. intros x Hx. apply write_layout_wf; [exact Hg|apply H3; exact Hx].
Qed.

(* ---- tags, optional fields ---- *)
Lemma rt_tags t : tags_wf t -> rtb (write_tags t) read_tags t.
Proof.
  intro H. unfold write_tags, read_tags. apply rtb_wcheck. intro K. pose proof (zlen_nonneg t) as Z0. rewrite u8_small by lia.
  eapply rtb_seq; [lit|]. rewrite <- (app_nil_r (flat_map _ _ ++ _)). rewrite <- app_assoc.
  set (w := wcheck (zlen (filter _ t) <=? 1) InvalidArgument). 
  assert (forall A (p : rprog A) a u, rtb u p a -> rtb (u ++ w ++ []) p a) as G.
  { intros A p a u Hu bs E L. apply wbits_app_ok in E as (x & y & E1 & E2 & ->). rewrite app_nil_r in E2. apply wcheck_ok in E2 as [_ ->].
    rewrite app_nil_r in *. apply Hu; assumption. }
  apply G. apply (rtb_list (fun x => wcheck (negb (str_eqb (fst x) content_language) || (zlen (snd x) =? 3)) InvalidArgument ++ wstring (fst x) ++ wstring (snd x))); [unfold zlen; apply Nat2Z.id|].
  intros [a b] Hx. unfold tags_wf in H. rewrite Forall_forall in H. specialize (H _ Hx). cbn [fst snd] in *. apply rtb_wcheck. intros _.
  eapply rtb_seq; [apply rtb_rt, rt_string; apply H|]. eapply rtb_last; [apply rtb_rt, rt_string; apply H|]. apply rtb_ret_eq. reflexivity.
Qed.
Lemma write_tags_wf t : tags_wf t -> Forall winstr_wf (write_tags t).
Proof.
  intro H. unfold write_tags, u8. wf_split; [apply wcheck_wf|apply wlit_wf; pose proof (Z.mod_pos_bound (zlen t) (2^8) ltac:(reflexivity)); pw| |apply wcheck_wf].
  apply Forall_flat_map_wf. intros [a b] Hx. unfold tags_wf in H. rewrite Forall_forall in H. specialize (H _ Hx). cbn [fst snd] in *.
  wf_split; [apply wcheck_wf|apply wstring_wf; apply H|apply wstring_wf; apply H].
Qed.
Lemma write_tags_len t b : wbits (write_tags t) = Ok b -> 8 <= zlen b.
Proof.
  intro E. unfold write_tags in E. apply wbits_app_ok in E as (b1 & b2 & E1 & E & ->). apply wcheck_ok in E1 as [_ ->].
  apply wbits_app_ok in E as (b3 & b4 & E3 & E & ->). apply wlit_ok in E3 as (_ & _ & ->). rewrite !zlen_app. pose proof (zlen_nonneg b4).
  unfold zlen at 2. rewrite bits_length. unfold zlen at 1. cbn [length]. lia.
Qed.
Lemma rt_optf g o : lebgen_wf g -> optf_wf o -> rtb (write_optf g o) read_optf o.
Proof.
  intros Hg (H1 & H2 & H3 & H4) bs E L.
  assert (zlen (of_rest o) + 3 <= 2^21 /\ zlen (of_rest o) = u64 (of_size o - 2)) as [Lr V].
  { unfold write_optf in E. apply wbits_app_ok in E as (b1 & b2 & E1 & E & ->). apply wbits_app_ok in E as (b3 & b4 & E3 & E & ->).
    apply wbits_app_ok in E as (b5 & b6 & E5 & E & ->). apply wbits_app_ok in E as (b7 & b8 & E7 & E & ->). apply wspan_ok in E as ->.
    pose proof (wuleb_len g _ _ Hg H1 E1). apply wlit_ok in E3 as (_ & _ & ->). apply wlit_ok in E5 as (_ & _ & ->).
    rewrite !zlen_app in L. pose proof (zlen_nonneg b7). unfold zlen in L. rewrite bytes_bits_length, !bits_length in L. unfold zlen in *.
    change (2^24) with 16777216 in L. change (2^21) with 2097152. split; [lia|]. unfold veq, vcond in E7. destruct (_ =? _) eqn:Q in E7; [lia|discriminate]. }
  revert bs E L. change (rtb (write_optf g o) read_optf o). unfold write_optf, read_optf. pose proof (zlen_nonneg (of_rest o)) as Z0.
  unfold u64 in V. change (2^64) with 18446744073709551616 in V. unfold u32P in H1. change (2^32) with 4294967296 in H1. change (2^21) with 2097152 in *.
  destruct (2 <=? of_size o) eqn:G.
  2: { exfalso. assert ((of_size o - 2) mod 18446744073709551616 = of_size o - 2 + 18446744073709551616) by (symmetry; apply (Z.mod_unique _ _ (-1)); lia). lia. }
  rewrite Z.mod_small in V by lia. eapply rtb_seq; [apply rtb_rt, rt_uleb; [exact Hg|change (2^32) with 4294967296; lia]|].
  apply rtb_rcheck; [lia|]. eapply rtb_seq; [lit|]. eapply rtb_seq; [lit|]. apply rtb_wres. intros _.
  rewrite <- rspan_rlist. eapply rtb_last; [apply rtb_rt, rt_span; [exact H4|unfold zlen in V; lia]|]. apply rtb_ret_eq. destruct o; reflexivity.
Qed.
Lemma write_optf_wf g o : lebgen_wf g -> optf_wf o -> Forall winstr_wf (write_optf g o).
Proof.
  intros Hg (H1 & H2 & H3 & H4). unfold write_optf. wf_split; [apply wuleb_wf; assumption|apply wlit_wf; pw|apply wlit_wf; pw|apply wres_wf|apply wspan_wf; exact H4].
Qed.

(* ---- the whole OBU ---- *)
Lemma element_ids_stored l : element_ids (map stored_submix l) = element_ids l.
Proof.
  unfold element_ids. induction l as [|s l IH]; [reflexivity|]. cbn [map flat_map]. rewrite IH. f_equal. cbn [stored_submix sm_elems]. rewrite map_map. reflexivity.
Qed.
Definition main_mixp (m : mixp) : mixp := mkMP (mp_id m) (mp_count m) (mp_lang m) (mp_ann m) (map stored_submix (mp_subs m)) None None.
Lemma wstring_len x b : strP x -> wbits (wstring x) = Ok b -> 8 <= zlen b.
Proof.
  intros Hx Eb. rewrite wstring_ok in Eb by exact Hx. destruct (_ && _); [|discriminate]. injection Eb as <-.
  unfold zlen. rewrite bytes_bits_length, app_length. cbn [length]. lia.
Qed.
Lemma rt_mixp_main g m : lebgen_wf g -> mixp_wf m -> mp_count m <= 256 -> zlen (mp_subs m) <= 28 ->
  rtb (write_mixp_main g m) read_mixp_main (main_mixp m).
Proof.
  intros Hg (H1 & H2 & H3 & H4 & H5 & _) Hc Hs. unfold write_mixp_main, read_mixp_main, main_mixp. unfold u32P in H2. rewrite Forall_forall in H5.
  eapply rtb_seq; [apply rtb_rt, rt_uleb; assumption|]. eapply rtb_seq; [apply rtb_rt, rt_uleb; assumption|]. apply rtb_rcheck; [lia|].
  apply rtb_wcheck. intro U. apply rtb_wres. intro V. apply vcond_ok in V.
  apply (rtb_bound_list (mp_lang m) wstring []); [intros x b Hx; apply wstring_len; rewrite Forall_forall in H3; apply H3; exact Hx|]. cbn [app]. intro L1.
  rewrite u32_small in V by (pose proof (zlen_nonneg (mp_lang m)); lia).
  eapply rtb_seq; [apply rt_strings; [exact H3|unfold zlen in V; lia]|]. apply rtb_rcheck; [exact U|].
  apply rtb_wres. intro V2. apply vcond_ok in V2.
  apply (rtb_bound_list (mp_ann m) wstring []); [intros x b Hx; apply wstring_len; rewrite Forall_forall in H4; apply H4; exact Hx|]. cbn [app]. intro L2.
  rewrite u32_small in V2 by (pose proof (zlen_nonneg (mp_ann m)); lia).
  eapply rtb_seq; [apply rt_strings; [exact H4|unfold zlen in V2; lia]|].
  pose proof (zlen_nonneg (mp_subs m)) as Z0. rewrite u32_small by (change (2^21) with 2097152; lia).
  eapply rtb_seq; [apply rtb_rt, rt_uleb; [exact Hg|change (2^32) with 4294967296; lia]|]. apply rtb_rcheck; [lia|].
  apply rtb_wcheck. intro K. apply rtb_wres. intro V3.
  eapply rtb_last; [apply (rtb_list_map (write_submix g (mp_count m)) (read_submix (mp_count m)) stored_submix); [unfold zlen; lia|]; intros x Hx; apply rt_submix; [exact Hg|lia|apply H5; exact Hx]|].
  apply rtb_rcheck; [exact K|]. eapply rtb_rres; [rewrite element_ids_stored; exact V3|]. apply rtb_ret_eq. reflexivity.
Qed.
Lemma write_mixp_main_wf g m : lebgen_wf g -> mixp_wf m -> Forall winstr_wf (write_mixp_main g m).
Proof.
  intros Hg (H1 & H2 & H3 & H4 & H5 & _). unfold write_mixp_main.
  wf_split; first [apply wcheck_wf|apply wres_wf|apply wuleb_wf; [exact Hg|first [apply u32_range|assumption]]|apply write_strings_wf; assumption|idtac].
  apply Forall_flat_map_wf. intros x Hx. apply write_submix_wf; [exact Hg|]. rewrite Forall_forall in H5. apply H5. exact Hx.
Qed.
Lemma write_mixp_wf g h m : lebgen_wf g -> mixp_wf m -> Forall winstr_wf (write_mixp g h m).
Proof.
  intros Hg Hm. unfold write_mixp, write_mixp_tail. wf_split; [apply write_mixp_main_wf; assumption| |].
  - destruct Hm as (_ & _ & _ & _ & _ & H & _). destruct (mp_tags m); [apply write_tags_wf; exact H|constructor].
  - destruct Hm as (_ & _ & _ & _ & _ & _ & H). destruct (optional_fields_flag h); [|constructor]. wf_split; [apply wcheck_wf|].
    destruct (mp_opt m); [apply write_optf_wf; assumption|repeat constructor].
Qed.
Lemma mixp_flag h : optional_fields_flag (set_type h kMixPresentation) = h_flag h.
Proof. reflexivity. Qed.

Lemma rt_mixp_tail g h m t : lebgen_wf g -> mp_tags m = Some t -> tags_wf t -> match mp_opt m with None => True | Some o => optf_wf o end ->
  rtb (write_tags t ++ (if h_flag h then wcheck (has (Some t)) InvalidArgument ++ match mp_opt m with Some o => write_optf g o | None => [WFail InvalidArgument] end else []))
      (t <- read_tags ;; o <- (if h_flag h then x <- read_optf ;; RRet (Some x) else RRet None) ;;
         RRet (mkMP (mp_id m) (mp_count m) (mp_lang m) (mp_ann m) (map stored_submix (mp_subs m)) (Some t) o)) (stored_mixp h m).
Proof.
  intros Hg Tg Ht' Ho. eapply rtb_seq; [apply rt_tags; exact Ht'|].
  apply (rtb_last _ _ _ (if h_flag h then mp_opt m else None)); [|apply rtb_ret_eq; unfold stored_mixp; rewrite Tg; reflexivity].
  destruct (h_flag h); [|apply rtb_ret_eq; reflexivity]. apply rtb_wcheck. intros _. destruct (mp_opt m) as [o|]; [|apply rtb_wfail].
  eapply rtb_last; [apply rt_optf; assumption|]. apply rtb_ret_eq. reflexivity.
Qed.

Lemma parses_mixp g h m (footer : list Z) pb :
  lebgen_wf g -> mixp_wf m -> mp_count m <= 256 -> zlen (mp_subs m) <= 28 -> (mp_tags m = None -> footer = []) ->
  h_type h = kMixPresentation -> wbits (write_mixp g h m) = Ok pb -> (length pb mod 8 = 0)%nat -> zlen pb <= 2^24 ->
  parses (read_mixp h (zlen pb / 8 + zlen footer)) pb (stored_mixp h m).
Proof.
  intros Hg Hm Hc Hs Hf Ht E M L. unfold write_mixp in E. apply wbits_app_ok in E as (b1 & b2 & E1 & E2 & ->).
  pose proof (rt_mixp_main g m Hg Hm Hc Hs b1 E1) as P. rewrite zlen_app in L. pose proof (zlen_nonneg b1) as H. pose proof (zlen_nonneg b2) as H0.
  specialize (P ltac:(lia)). assert (optional_fields_flag h = h_flag h) as Fl by (unfold optional_fields_flag; rewrite Ht; reflexivity).
  unfold write_mixp_tail in E2. rewrite Fl in E2.
  assert (match mp_tags m with
          | None => b2 = [] /\ h_flag h = false
          | Some t => 8 <= zlen b2 /\ parses (t <- read_tags ;; o <- (if h_flag h then x <- read_optf ;; RRet (Some x) else RRet None) ;;
                        RRet (mkMP (mp_id m) (mp_count m) (mp_lang m) (mp_ann m) (map stored_submix (mp_subs m)) (Some t) o)) b2 (stored_mixp h m)
          end) as T.
  { destruct Hm as (_ & _ & _ & _ & _ & Ht' & Ho). destruct (mp_tags m) as [t|] eqn:Tg.
    - split.
      + apply wbits_app_ok in E2 as (x & y & X & _ & ->). rewrite zlen_app. pose proof (zlen_nonneg y). apply write_tags_len in X. lia.
      + apply (rt_mixp_tail g h m t Hg Tg Ht' Ho b2 E2). lia.
    - cbn [app has] in E2. destruct (h_flag h); [discriminate|]. injection E2 as <-. split; reflexivity. }
  intros pre rest v. unfold read_mixp. rewrite arun_bind, arun_rtell. cbn [c_bits c_pos]. rewrite arun_bind. rewrite <- app_assoc.
  destruct (P pre (b2 ++ rest) (Some true)) as [v1 Q1]. rewrite Q1. rewrite arun_bind, arun_rtell. cbn [c_bits c_pos]. rewrite arun_bind.
  replace (negb (Z.of_nat (length pre + length b1) <? Z.of_nat (length pre))) with true by lia. cbn [rcheck arun].
  replace (Z.of_nat (length pre + length b1) - Z.of_nat (length pre)) with (zlen b1) by (unfold zlen; lia). rewrite zlen_app, Fl.
  pose proof (zlen_nonneg footer). rewrite app_length in M. destruct (mp_tags m) as [t|] eqn:Tg.
  - destruct T as [T1 T2]. replace (zlen b1 / 8 =? (zlen b1 + zlen b2) / 8 + zlen footer) with false by lia.
    destruct (T2 (pre ++ b1) rest (Some true)) as [v2 Q2]. rewrite app_length in Q2. rewrite <- !app_assoc in Q2.
    exists v2. rewrite app_length. rewrite Nat.add_assoc. exact Q2.
  - destruct T as [-> Fh]. rewrite (Hf eq_refl). replace (zlen b1 / 8 =? (zlen b1 + zlen (@nil bool)) / 8 + zlen (@nil Z)) with true by (unfold zlen; cbn [length]; lia).
    rewrite Fh. cbn [negb rcheck rb arun]. exists (Some true). rewrite app_length. cbn [length]. rewrite Nat.add_0_r. do 2 f_equal.
    unfold stored_mixp, main_mixp. rewrite Tg, Fh. reflexivity.
Qed.

(* Missing for the full property: more than 256 labels or 28 sub-mixes are written but not readable, and without tags a footer is
   taken for tags (see below). *)
Theorem C35_mix_presentation_round_trip_partial : forall g h m footer,
  lebgen_wf g -> header_wf h -> mixp_wf m -> Forall byteP footer ->
  mp_count m <= 256 -> zlen (mp_subs m) <= 28 -> (mp_tags m = None -> footer = []) ->
  reads_back (write_mixp_obu g h m footer) (read_obu read_mixp) (norm_header (set_type h kMixPresentation), stored_mixp h m, footer).
Proof.
  intros g h m footer Hg Hh Hm Hf Hc Hs Ht. set (h' := set_type h kMixPresentation).
  assert (header_wf h') as Hh' by (apply set_type_wf'; [exact Hh|unfold kMixPresentation; lia]).
  unfold write_mixp_obu. fold h'. pose proof (write_mixp_wf g h' m Hg Hm) as W.
  apply reads_back_intro; [apply write_obu_wf; assumption|]. intros bs E.
  eapply parses_obu_simple; try eassumption. intros pb Epb Hmod.
  assert (zlen pb <= 2^24) as L.
  { destruct (write_obu_ok g h' _ footer bs W Hf E) as (pb' & hb & E1 & _ & E2 & _). rewrite Epb in E1. injection E1 as <-.
    destruct (write_header_ok _ _ _ _ Hg Hh' E2) as (te & ts & ls & lb & lo & _ & _ & _ & _ & _ & _ & Hle & _).
    pose proof (zlen_nonneg (te ++ ts ++ ls ++ lb)). pose proof (zlen_nonneg lo). pose proof (zlen_nonneg footer).
    change (2^21) with 2097152 in Hle. change (2^24) with 16777216. unfold zlen in *. lia. }
  replace (stored_mixp h m) with (stored_mixp (norm_header h') m) by reflexivity.
  apply (parses_mixp g); try assumption; reflexivity.
Qed.

(* When every coded field is of use to the writer, nothing at all is lost. *)
Definition plain_rconf (r : rconf) := Forall (fun d => rd_bytes d = [] /\ stored_kind (pd_kind (rd_def d)) = pd_kind (rd_def d)) (rc_defs r).
Definition plain_layout (l : layout) :=
  (Z.testbit (lo_info l) 0 = false -> lo_true l = 0) /\ (Z.testbit (lo_info l) 1 = false -> lo_anch l = []) /\ (lo_info l < 4 -> lo_ext l = []).
Definition plain_mixp (h : header) (m : mixp) :=
  (forall s, In s (mp_subs m) -> (forall e, In e (sm_elems s) -> plain_rconf (sa_conf e)) /\ (forall l, In l (sm_layouts s) -> plain_layout l)) /\
  (h_flag h = false -> mp_opt m = None).
Lemma map_same {A} (f : A -> A) l : (forall x, In x l -> f x = x) -> map f l = l.
Proof. intro H. rewrite <- (map_id l) at 2. apply map_ext_in. exact H. Qed.
Lemma plain_stored h m : plain_mixp h m -> stored_mixp h m = m.
Proof.
  intros [Hs Ho]. unfold stored_mixp. destruct m as [id cnt la an ss tg op]. cbn [mp_id mp_count mp_lang mp_ann mp_subs mp_tags mp_opt] in *.
  f_equal; [|destruct (h_flag h); [reflexivity|symmetry; apply Ho; reflexivity]].
  apply map_same. intros s Hin. destruct (Hs s Hin) as [He Hl]. unfold stored_submix. destruct s as [es g ls]. cbn [sm_elems sm_gain sm_layouts] in *. f_equal.
  - apply map_same. intros e Hie. specialize (He e Hie). unfold stored_subelem. destruct e as [i a c gg]. cbn [sa_id sa_ann sa_conf sa_gain] in *. f_equal.
    unfold stored_rconf. destruct c as [m0 p0 r0 ds eg ex]. unfold plain_rconf in He. cbn [rc_mode rc_profile rc_reserved rc_defs rc_ego rc_ext] in *. f_equal.
    apply map_same. intros d Hd. rewrite Forall_forall in He. destruct (He d Hd) as [E1 E2]. unfold stored_rdef. rewrite E2, <- E1.
    destruct d as [t p b]. destruct p. reflexivity.
  - apply map_same. intros l Hil. destruct (Hl l Hil) as (L1 & L2 & L3). unfold stored_layout. destruct l as [t s i lk pk tp aa ex].
    cbn [lo_type lo_spec lo_info lo_int lo_peak lo_true lo_anch lo_ext] in *. f_equal.
    + destruct (Z.testbit i 0); [reflexivity|symmetry; apply L1; reflexivity].
    + destruct (Z.testbit i 1); [reflexivity|symmetry; apply L2; reflexivity].
    + destruct (4 <=? i) eqn:Q; [reflexivity|symmetry; apply L3; lia].
Qed.
Theorem C35_nothing_lost_partial : forall g h m footer,
  lebgen_wf g -> header_wf h -> mixp_wf m -> Forall byteP footer -> plain_mixp h m ->
  mp_count m <= 256 -> zlen (mp_subs m) <= 28 -> (mp_tags m = None -> footer = []) ->
  reads_back (write_mixp_obu g h m footer) (read_obu read_mixp) (norm_header (set_type h kMixPresentation), m, footer).
Proof.
  intros g h m footer Hg Hh Hm Hf Hp Hc Hs Ht. pose proof (C35_mix_presentation_round_trip_partial g h m footer Hg Hh Hm Hf Hc Hs Ht) as R.
  rewrite (plain_stored h m Hp) in R. exact R.
Qed.

(* ---- findings F16, F17, F18 ---- *)
Definition gain_ex (id : Z) : pdef := mkPD (mkPB id 48000 0 None) (KMixGain 0).
Definition layout_ex : layout := mkLO 2 (LSs 0 0) 0 (-24) (-18) 0 [] [].
Definition elem_ex (id : Z) (ann : list str) : subelem := mkSA id ann (mkRC 0 0 0 [] None []) (gain_ex 100).
Definition sub_ex (id : Z) (ann : list str) : submix := mkSM [elem_ex id ann] (gain_ex 101) [layout_ex].
Lemma gain_ex_wf id : u32P id -> gain_wf (gain_ex id).
Proof. intro H. split; [|exact I]. split; [|cbn; pw]. unfold pbase_wf. cbn [gain_ex pd_base pb_id pb_rate pb_reserved pb_sched]. repeat split; try pw; apply H. Qed.
Lemma sub_ex_wf id ann : u32P id -> Forall strP ann -> submix_wf (sub_ex id ann).
Proof.
  intros H1 H2. unfold submix_wf, sub_ex. cbn [sm_elems sm_gain sm_layouts]. split; [|split].
  - constructor; [|constructor]. unfold subelem_wf, elem_ex. cbn [sa_id sa_ann sa_conf sa_gain]. split; [exact H1|]. split; [exact H2|]. split; [|apply gain_ex_wf; pw].
    unfold rconf_wf. cbn [rc_mode rc_profile rc_reserved rc_defs rc_ego rc_ext]. repeat split; try pw; constructor.
  - apply gain_ex_wf. pw.
  - constructor; [|constructor]. unfold layout_wf, layout_ex. cbn [lo_type lo_spec lo_info lo_int lo_peak lo_true lo_anch lo_ext]. repeat split; try pw; constructor.
Qed.
(* F16: 257 distinct languages. *)
Definition langs_257 : list str := map (fun i => [1 + Z.of_nat i / 200; 1 + Z.of_nat i mod 200]) (seq 0 257).
Definition anns_257 : list str := repeat [65] 257.
Definition mixp_257 : mixp := mkMP 1 257 langs_257 anns_257 [sub_ex 300 anns_257] None None.
Lemma byteP_b x : (0 <=? x) && (x <=? 255) = true -> byteP x. Proof. unfold byteP. lia. Qed.
Lemma strs_b l : forallb (forallb (fun x => (0 <=? x) && (x <=? 255))) l = true -> Forall strP l.
Proof.
  intro H. apply Forall_forall. intros s Hs. rewrite forallb_forall in H. specialize (H s Hs). rewrite forallb_forall in H.
  apply Forall_forall. intros x Hx. apply byteP_b, H, Hx.
Qed.
Theorem C35_257_labels_refuted :
  mixp_wf mixp_257 /\
  exists w, wrun (write_mixp_obu LebMin plain_header mixp_257 []) w_empty = (Ok tt, w) /\
    fst (crun 8 (read_at 0 (read_obu read_mixp)) (r_create 4096 (w_bytes w))) = Err InvalidArgument.
Proof.
  split.
  - unfold mixp_wf, mixp_257. cbn [mp_id mp_count mp_lang mp_ann mp_subs mp_tags mp_opt]. split; [pw|]. split; [pw|].
    split; [apply strs_b; vm_compute; reflexivity|]. split; [apply strs_b; vm_compute; reflexivity|].
    split; [|split; exact I]. constructor; [|constructor]. apply sub_ex_wf; [pw|apply strs_b; vm_compute; reflexivity].
  - eexists. split; [vm_compute; reflexivity|vm_compute; reflexivity].
Qed.
(* F17: 29 sub-mixes. *)
Definition mixp_29 : mixp := mkMP 1 0 [] [] (map (fun i => sub_ex (Z.of_nat i) []) (seq 1 29)) None None.
Theorem C35_29_submixes_refuted :
  mixp_wf mixp_29 /\
  exists w, wrun (write_mixp_obu LebMin plain_header mixp_29 []) w_empty = (Ok tt, w) /\
    fst (crun 8 (read_at 0 (read_obu read_mixp)) (r_create 4096 (w_bytes w))) = Err InvalidArgument.
Proof.
  split.
  - unfold mixp_wf, mixp_29. cbn [mp_id mp_count mp_lang mp_ann mp_subs mp_tags mp_opt]. split; [pw|]. split; [pw|].
    split; [constructor|]. split; [constructor|]. split; [|split; exact I].
    apply Forall_forall. intros s Hs. apply in_map_iff in Hs as (i & <- & Hi). apply in_seq in Hi. apply sub_ex_wf; [|constructor].
    unfold u32P. change (2^32) with 4294967296. lia.
  - eexists. split; [vm_compute; reflexivity|vm_compute; reflexivity].
Qed.
(* F18: without tags, a footer that starts with a zero byte comes back as an empty tag list. *)
Definition mixp_ex : mixp := mkMP 42 1 [[101;110]] [[77]] [sub_ex 300 [[69]]] None None.
Theorem C35_footer_read_as_tags_refuted :
  mixp_wf mixp_ex /\
  exists w, wrun (write_mixp_obu LebMin plain_header mixp_ex [0; 9]) w_empty = (Ok tt, w) /\
    fst (crun 8 (read_at 0 (read_obu read_mixp)) (r_create 4096 (w_bytes w))) =
      Ok ((set_type plain_header kMixPresentation, mkMP 42 1 [[101;110]] [[77]] [sub_ex 300 [[69]]] (Some []) None, [9]), 8 * zlen (w_bytes w)).
Proof.
  split.
  - unfold mixp_wf, mixp_ex. cbn [mp_id mp_count mp_lang mp_ann mp_subs mp_tags mp_opt]. split; [pw|]. split; [pw|].
    split; [apply strs_b; reflexivity|]. split; [apply strs_b; reflexivity|]. split; [|split; exact I].
    constructor; [|constructor]. apply sub_ex_wf; [pw|apply strs_b; reflexivity].
  - eexists. split; [vm_compute; reflexivity|vm_compute; reflexivity].
Qed.

(* ---- what a reader accepts, whatever the bytes ---- *)
Definition stereo (l : layout) : Prop := lo_type l = 2 /\ exists r, lo_spec l = LSs 0 r.
Definition layout_valid (l : layout) : Prop :=
  (Z.testbit (lo_info l) 1 = false -> lo_anch l = []) /\ NoDup (map fst (lo_anch l)) /\ zlen (lo_ext l) <= 2^21 /\
  (lo_type l = 2 <-> exists ss r, lo_spec l = LSs ss r).
(* A mix gain: its schedule, if it has one, partitions its duration into subblocks *)
Definition mix_gain (d : pdef) : Prop :=
  (exists v, pd_kind d = KMixGain v) /\ forall s, pb_sched (pd_base d) = Some s -> (exists l, partitioned_as s l) /\ s_dur s < 2^32.
Definition submix_valid (count : Z) (s : submix) : Prop :=
  sm_elems s <> [] /\ ((forall e, In e (sm_elems s) -> zlen (sa_ann e) = count /\ mix_gain (sa_gain e)) /\ mix_gain (sm_gain s)) /\ (exists l, In l (sm_layouts s) /\ stereo l) /\
  Forall layout_valid (sm_layouts s).
Definition mixp_valid (h : header) (m : mixp) : Prop :=
  0 <= mp_count m <= 256 /\ zlen (mp_lang m) = mp_count m /\ zlen (mp_ann m) = mp_count m /\ NoDup (mp_lang m) /\
  1 <= zlen (mp_subs m) <= 28 /\ Forall (submix_valid (mp_count m)) (mp_subs m) /\
  NoDup (flat_map (fun s => map sa_id (sm_elems s)) (mp_subs m)) /\
  (optional_fields_flag h = true <-> exists t o, mp_tags m = Some t /\ mp_opt m = Some o) /\
  (forall o, mp_opt m = Some o -> 2 <= of_size o <= 2^21 /\ zlen (of_rest o) = of_size o - 2 /\ Forall byteP (of_rest o)).

Lemma str_eqb_eq a b : str_eqb a b = true <-> a = b.
Proof.
  revert b. induction a as [|x a IH]; intros [|y b]; cbn [str_eqb]; try (split; [discriminate|discriminate]); [tauto|].
  rewrite andb_true_iff, IH, Z.eqb_eq. split; [intros [-> ->]; reflexivity|intro E; injection E as -> ->; tauto].
Qed.
Lemma unique_str_NoDup l : unique_str l = true <-> NoDup l.
Proof.
  induction l as [|x l IH]; cbn [unique_str]; [split; [constructor|reflexivity]|]. rewrite andb_true_iff, negb_true_iff, IH. split.
  - intros [H1 H2]. constructor; [|exact H2]. intro HI. assert (existsb (str_eqb x) l = true) by (apply existsb_exists; exists x; split; [exact HI|apply str_eqb_eq; reflexivity]). congruence.
  - intro H. inversion H as [|? ? N1 N2]; subst. split; [|exact N2]. destruct (existsb _ l) eqn:Q; [|reflexivity].
    apply existsb_exists in Q as (y & Hy & Ey). apply str_eqb_eq in Ey as ->. contradiction.
Qed.
Lemma has_stereo_spec l : has_stereo l = true <-> exists x, In x l /\ stereo x.
Proof.
  unfold has_stereo. rewrite existsb_exists. split; intros (x & Hx & E); exists x; (split; [exact Hx|]).
  - unfold is_stereo in E. apply andb_true_iff in E as [E1 E2]. apply Z.eqb_eq in E1. split; [exact E1|]. destruct (lo_spec x) as [a r|r]; [|discriminate].
    apply Z.eqb_eq in E2 as ->. exists r. reflexivity.
  - destruct E as [E1 [r E2]]. unfold is_stereo. rewrite E1, E2. reflexivity.
Qed.
Lemma read_layout_valid c l c' : cok c -> arun read_layout c = (Ok l, c') -> layout_valid l.
Proof.
  intros Hc E. unfold read_layout in E. apply arun_bind_ok in E as (t & c1 & E1 & E). apply arun_cok_ok in E1 as K1; [|exact Hc].
  apply arun_bind_ok in E as (s & c2 & E2 & E). apply arun_cok_ok in E2 as K2; [|exact K1].
  apply arun_bind_ok in E as (i & c3 & E3 & E). apply (arun_lit_range 8 8) in E3 as [Hi K3]; [|exact K2|lia|reflexivity].
  apply arun_bind_ok in E as (lk & c4 & E4 & E). apply arun_cok_ok in E4 as K4; [|exact K3].
  apply arun_bind_ok in E as (pk & c5 & E5 & E). apply arun_cok_ok in E5 as K5; [|exact K4].
  apply arun_bind_ok in E as (tp & c6 & E6 & E). apply arun_cok_ok in E6 as K6; [|exact K5].
  apply arun_bind_ok in E as (an & c7 & E7 & E). apply arun_cok_ok in E7 as K7; [|exact K6].
  apply arun_bind_ok in E as (ex & c8 & E8 & E). cbn [arun] in E. injection E as <- _.
  unfold layout_valid. cbn [lo_info lo_anch lo_ext lo_type lo_spec]. split; [|split; [|split]].
  - intro T. replace (anchored_bit i) with false in E7; [cbn [arun] in E7; injection E7 as <- _; reflexivity|].
    rewrite anchored_bit_spec. symmetry. exact T.
  - destruct (anchored_bit i); [|cbn [arun] in E7; injection E7 as <- _; constructor].
    apply arun_bind_ok in E7 as (n & d1 & F1 & E7). apply arun_bind_ok in E7 as (l & d2 & F2 & E7). apply arun_rres_ok in E7 as ([] & V & E7).
    cbn [arun] in E7. injection E7 as <- _. apply vcond_ok in V. apply unique_NoDup. exact V.
  - destruct (extension_bits i); [|cbn [arun] in E8; injection E8 as <- _; unfold zlen; cbn; lia].
    apply arun_bind_ok in E8 as (n & d1 & F1 & E8). destruct (arun_ruleb_range _ _ _ K7 F1) as (U & KK & _). apply arun_rcheck_ok in E8 as [V E8].
    apply rspan_bytes in E8 as [L _]; [|exact KK]. unfold zlen. rewrite L. unfold u32P in U. lia.
  - destruct (t =? 2) eqn:T; apply arun_bind_ok in E2 as (x & d1 & _ & E2).
    + apply arun_bind_ok in E2 as (y & d2 & _ & E2). cbn [arun] in E2. injection E2 as <- _. split; [eauto|lia].
    + cbn [arun] in E2. injection E2 as <- _. split; [lia|]. intros (? & ? & X). discriminate X.
Qed.
Lemma default_stereo_valid ls : Forall layout_valid ls -> layout_valid (default_stereo ls).
Proof.
  intro F. unfold default_stereo. destruct (rev ls) as [|x r] eqn:R.
  - unfold layout_valid. cbn [lo_info lo_anch lo_ext lo_type lo_spec map]. split; [reflexivity|]. split; [constructor|]. split; [unfold zlen; cbn; lia|]. split; [eauto|reflexivity].
  - rewrite Forall_forall in F. assert (In x ls) as I by (apply in_rev; rewrite R; left; reflexivity). destruct (F x I) as (F1 & F2 & F3 & _).
    split; [exact F1|]. split; [exact F2|]. split; [exact F3|]. split; [intros _; cbn [lo_spec]; eauto|reflexivity].
Qed.
Lemma sum_bound : forall l acc t, acc < 2^32 -> sum_durations l acc = Ok t -> t < 2^32.
Proof.
  induction l as [|d l IH]; intros acc t Ha H; cbn [sum_durations] in H; [injection H as <-; exact Ha|]. destruct (d =? 0); [discriminate H|]. unfold add_u32_check in H.
  destruct (acc + d >? 2^32 - 1) eqn:Q; [discriminate H|]. cbn [rbind] in H. eapply IH; [|exact H]. lia.
Qed.
Lemma made_dur s : made s -> s_dur s < 2^32.
Proof.
  intros [(d & c & [_ Hd] & _ & E)|(l & _ & _ & E)].
  - unfold create_const in E. destruct (d =? 0); [discriminate E|]. destruct (c =? 0); [discriminate E|]. destruct (c >? d); [discriminate E|]. cbv zeta in E. unfold rthen in E. destruct (vrange _ _ _); cbn [rbind] in E; try discriminate E. injection E as <-. exact Hd.
  - unfold create_var in E. cbv zeta in E. unfold rthen in E. destruct (vrange _ _ _); cbn [rbind] in E; try discriminate E. destruct (sum_durations _ 0) as [t| | | |] eqn:S; cbn [rbind] in E; try discriminate E. injection E as <-. cbn [s_dur]. eapply sum_bound; [|exact S]. reflexivity.
Qed.
Lemma read_gain_valid c d c' : cok c -> arun (read_pdef gain0) c = (Ok d, c') -> mix_gain d.
Proof.
  intros K E. unfold read_pdef, gain0 in E. cbn [pd_kind pd_type] in E. apply arun_bind_ok in E as (b & c1 & E1 & E). apply arun_bind_ok in E as (k & c2 & E2 & E). cbn [arun] in E. injection E as <- _.
  cbn [read_kind] in E2. apply arun_bind_ok in E2 as (v & c3 & _ & E2). cbn [arun] in E2. injection E2 as <- _. split; [exists v; reflexivity|]. cbn [pd_base]. intros s Es.
  unfold read_pbase in E1. apply arun_bind_ok in E1 as (id & d1 & R1 & E1). apply arun_cok_ok in R1 as K1; [|exact K]. apply arun_bind_ok in E1 as (rate & d2 & R2 & E1). apply arun_cok_ok in R2 as K2; [|exact K1].
  apply arun_bind_ok in E1 as (mode & d3 & R3 & E1). apply arun_cok_ok in R3 as K3; [|exact K2]. apply arun_bind_ok in E1 as (r & d4 & R4 & E1). apply arun_cok_ok in R4 as K4; [|exact K3].
  destruct (negb (mode =? 0)); [cbn [arun] in E1; injection E1 as <- _; discriminate Es|]. apply arun_bind_ok in E1 as (s' & d5 & R5 & E1). apply arun_rres_ok in E1 as ([] & _ & E1). cbn [arun] in E1. injection E1 as <- _.
  cbn [pb_sched] in Es. injection Es as ->. unfold read_schedule in R5. apply arun_bind_ok in R5 as ([s1 l1] & d6 & R5 & R6). cbn [arun fst] in R6. injection R6 as -> _.
  apply parse_schedule_made in R5 as [M _]; [|exact K4]. split; [apply C22_made_partitions; exact M|apply made_dur; exact M].
Qed.
Lemma read_subelem_valid count c e c' : 0 <= count -> cok c -> arun (read_subelem count) c = (Ok e, c') -> zlen (sa_ann e) = count /\ mix_gain (sa_gain e).
Proof.
  intros Hn Hc E. unfold read_subelem in E. apply arun_bind_ok in E as (id & c1 & E1 & E). apply arun_cok_ok in E1 as K1; [|exact Hc].
  apply arun_bind_ok in E as (ann & c2 & E2 & E). destruct (arun_rlist_inv _ (fun _ => True) _ (fun _ _ _ _ _ => Logic.I) _ _ _ K1 E2) as [L _].
  apply arun_cok_ok in E2 as K2; [|exact K1].
  apply arun_bind_ok in E as (cf & c3 & E3 & E). apply arun_cok_ok in E3 as K3; [|exact K2]. apply arun_bind_ok in E as (g & c4 & E4 & E). cbn [arun] in E. injection E as <- _.
  cbn [sa_ann sa_gain]. split; [|exact (read_gain_valid _ _ _ K3 E4)]. unfold zlen. etransitivity; [apply f_equal; exact L|apply Z2Nat.id; exact Hn].
Qed.
Lemma read_submix_valid count c s c' : 0 <= count -> cok c -> arun (read_submix count) c = (Ok s, c') -> submix_valid count s.
Proof.
  intros Hn Hc E. unfold read_submix in E. apply arun_bind_ok in E as (n & c1 & E1 & E). destruct (arun_ruleb_range _ _ _ Hc E1) as (U1 & K1 & _).
  apply arun_rcheck_ok in E as [Hnz E]. apply arun_bind_ok in E as (es & c2 & E2 & E). apply arun_cok_ok in E2 as K2; [|exact K1].
  apply (arun_rlist_inv (read_subelem count) (fun e => zlen (sa_ann e) = count /\ mix_gain (sa_gain e))) in E2 as [L2 F2]; [| |exact K1].
  2: { intros d x d' Hd Ed. exact (read_subelem_valid _ _ _ _ Hn Hd Ed). }
  apply arun_bind_ok in E as (g & c3 & E3 & E). apply arun_cok_ok in E3 as K3; [|exact K2].
  apply arun_bind_ok in E as (m & c4 & E4 & E). apply arun_cok_ok in E4 as K4; [|exact K3].
  apply arun_bind_ok in E as (ls & c5 & E5 & E). apply (arun_rlist_inv read_layout layout_valid) in E5 as [L5 F5]; [|exact read_layout_valid|exact K4].
  cbn [arun] in E. injection E as <- _. unfold submix_valid. cbn [sm_elems sm_layouts sm_gain]. rewrite Forall_forall in F2. split; [|split; [split; [exact F2|exact (read_gain_valid _ _ _ K2 E3)]|split]].
  - intros ->. cbn [length] in L2. unfold u32P in U1. lia.
  - destruct (has_stereo ls) eqn:S; [apply has_stereo_spec; exact S|]. exists (default_stereo ls). split; [apply in_or_app; right; left; reflexivity|].
    unfold default_stereo, stereo. destruct (rev ls); cbn [lo_type lo_spec]; (split; [reflexivity|exists 0; reflexivity]).
  - destruct (has_stereo ls); [exact F5|]. apply Forall_app. split; [exact F5|]. constructor; [apply default_stereo_valid; exact F5|constructor].
Qed.

Lemma read_optf_valid c o c' : cok c -> arun read_optf c = (Ok o, c') -> 2 <= of_size o <= 2^21 /\ zlen (of_rest o) = of_size o - 2 /\ Forall byteP (of_rest o).
Proof.
  intros Hc E. unfold read_optf in E. apply arun_bind_ok in E as (n & c1 & E1 & E). apply arun_cok_ok in E1 as K1; [|exact Hc]. apply arun_rcheck_ok in E as [V E].
  apply arun_bind_ok in E as (a & c2 & E2 & E). apply arun_cok_ok in E2 as K2; [|exact K1]. apply arun_bind_ok in E as (b & c3 & E3 & E). apply arun_cok_ok in E3 as K3; [|exact K2].
  apply arun_bind_ok in E as (r & c4 & E4 & E). cbn [arun] in E. injection E as <- _. cbn [of_size of_rest]. apply andb_true_iff in V as [V1 V2]. apply Z.leb_le in V1, V2.
  apply (arun_rlist_inv (rlit 8 8) byteP) in E4 as [L F]; [| |exact K3].
  2: { intros d x d' Hd Ed. apply (arun_lit_range 8 8) in Ed as [R _]; [exact R|exact Hd|lia|reflexivity]. }
  split; [lia|]. split; [|exact F]. unfold zlen. etransitivity; [apply f_equal; exact L|apply Z2Nat.id; lia].
Qed.
Lemma read_mixp_valid h n c m c' : cok c -> arun (read_mixp h n) c = (Ok m, c') -> mixp_valid h m.
Proof.
  intros Hcc R.
  unfold read_mixp in R. apply arun_bind_ok in R as (p0 & c0 & R0 & R). apply arun_cok_ok in R0 as K0; [|exact Hcc].
  apply arun_bind_ok in R as (m1 & c1 & R1 & R). apply arun_bind_ok in R as (p1 & c2 & R2 & R). apply arun_rcheck_ok in R as [_ R].
  assert (0 <= mp_count m1 <= 256 /\ zlen (mp_lang m1) = mp_count m1 /\ zlen (mp_ann m1) = mp_count m1 /\ NoDup (mp_lang m1) /\
    1 <= zlen (mp_subs m1) <= 28 /\ Forall (submix_valid (mp_count m1)) (mp_subs m1) /\
    NoDup (element_ids (mp_subs m1)) /\ mp_opt m1 = None) as V.
  { clear R. unfold read_mixp_main in R1. rename R1 into R. apply arun_bind_ok in R as (id & d1 & E1 & R). apply arun_cok_ok in E1 as D1; [|exact K0].
    apply arun_bind_ok in R as (cnt & d2 & E2 & R). destruct (arun_ruleb_range _ _ _ D1 E2) as (U2 & D2 & _). apply arun_rcheck_ok in R as [Hcnt R].
    unfold u32P in U2.
    apply arun_bind_ok in R as (la & d3 & E3 & R). apply arun_cok_ok in E3 as D3; [|exact D2].
    destruct (arun_rlist_inv _ (fun _ => True) _ (fun _ _ _ _ _ => Logic.I) _ _ _ D2 E3) as [L3 _]. apply arun_rcheck_ok in R as [Hu R].
    apply arun_bind_ok in R as (an & d4 & E4 & R). apply arun_cok_ok in E4 as D4; [|exact D3].
    destruct (arun_rlist_inv _ (fun _ => True) _ (fun _ _ _ _ _ => Logic.I) _ _ _ D3 E4) as [L4 _].
    apply arun_bind_ok in R as (ns & d5 & E5 & R). destruct (arun_ruleb_range _ _ _ D4 E5) as (U5 & D5 & _). apply arun_rcheck_ok in R as [Hns R]. unfold u32P in U5.
    apply arun_bind_ok in R as (ss & d6 & E6 & R).
    apply (arun_rlist_inv (read_submix cnt) (submix_valid cnt)) in E6 as [L6 F6]; [| |exact D5].
    2: { intros x y z Hx Ex. apply (read_submix_valid cnt x y z); [lia|exact Hx|exact Ex]. }
    apply arun_rcheck_ok in R as [Hnz R]. apply arun_rres_ok in R as ([] & Vu & R). cbn [arun] in R. injection R as <- _. apply vcond_ok in Vu.
    cbn [mp_count mp_lang mp_ann mp_subs mp_opt]. unfold zlen. split; [lia|].
    split; [etransitivity; [apply f_equal; exact L3|apply Z2Nat.id; lia]|]. split; [etransitivity; [apply f_equal; exact L4|apply Z2Nat.id; lia]|].
    split; [apply unique_str_NoDup; exact Hu|]. split; [lia|]. split; [exact F6|]. split; [apply unique_NoDup; exact Vu|reflexivity]. }
  destruct V as (V1 & V2 & V3 & V4 & V5 & V6 & V7 & V8). unfold mixp_valid.
  destruct (_ =? _) in R.
  - apply arun_rcheck_ok in R as [Hf0 R]. cbn [arun] in R. injection R as <- _. do 7 (split; [assumption|]).
    split; [split; [intro T; rewrite T in Hf0; discriminate|intros (t & o & _ & X); congruence]|intros o X; congruence].
  - apply arun_bind_ok in R as (t & c4 & R4 & R). apply arun_bind_ok in R as (o & c5 & R5 & R). cbn [arun] in R. injection R as <- _.
    cbn [mp_count mp_lang mp_ann mp_subs mp_tags mp_opt]. do 7 (split; [assumption|]). destruct (optional_fields_flag h).
    + apply arun_bind_ok in R5 as (x & c6 & R6 & R5). cbn [arun] in R5. injection R5 as <- _. split; [split; [intros _; exists t, x; split; reflexivity|reflexivity]|].
      intros o0 X. injection X as <-. apply (read_optf_valid c4 x c6); [|exact R6]. apply arun_cok_ok in R4 as K4; [exact K4|]. apply arun_cok_ok in R2 as K2; [exact K2|]. apply arun_cok_ok in R1 as K1; [exact K1|exact K0].
    + cbn [arun] in R5. injection R5 as <- _. split; [split; [discriminate|]; intros (? & ? & _ & X); discriminate|]. intros o0 X. discriminate.
Qed.
Theorem C35_reader_only_accepts_valid : forall h n src cap fuel p m q,
  Forall byteP src -> (1 <= cap)%nat -> (8 <= fuel)%nat -> 0 <= p <= 8 * zlen src ->
  fst (crun fuel (read_at p (read_mixp h n)) (r_create cap src)) = Ok (m, q) -> mixp_valid h m.
Proof.
  intros h n src cap fuel p m q Hs Hc Hf Hp E. rewrite crun_read_at in E by assumption.
  unfold at_result in E. destruct (arun _ _) as [[a1|e| | |] c'] eqn:R; try discriminate. injection E as -> _.
  set (c := mkC _ _ _) in R. assert (cok c) as Hcc by (unfold c, cok, zlen in *; cbn [c_pos c_bits]; rewrite bytes_bits_length; lia). clearbody c.
  exact (read_mixp_valid _ _ _ _ _ Hcc R).
Qed.

Example C35_ex :
  let sub := mkSM [mkSA 300 [[69]] (mkRC 1 2 0 [mkRD 3 (mkPD (mkPB 999 48000 0 None) (KPolar 30 (-10) 5)) []] (Some (ERange 1 (-5) 7)) [8;9]) (gain_ex 100)]
                  (gain_ex 101) [layout_ex; mkLO 3 (LRb 0) 7 (-20) (-10) (-9) [(1, -30)] [4; 5]] in
  let m := mkMP 42 1 [[101;110]] [[77]] [sub] (Some [([97],[98])]) (Some (mkOF 3 1 2 [7])) in
  let h := mkH 0 false true 0 0 None in
  mixp_wf m /\ plain_mixp h m /\ is_ok (fst (wrun (write_mixp_obu (LebFixed 3) h m [1;2]) w_empty)) = true.
Proof.
  cbv zeta. split; [|split; [|vm_compute; reflexivity]].
  - unfold mixp_wf. cbn [mp_id mp_count mp_lang mp_ann mp_subs mp_tags mp_opt]. split; [pw|]. split; [pw|].
    split; [apply strs_b; reflexivity|]. split; [apply strs_b; reflexivity|]. split; [|split].
    + constructor; [|constructor]. unfold submix_wf. cbn [sm_elems sm_gain sm_layouts]. split; [|split; [apply gain_ex_wf; pw|]].
      * constructor; [|constructor]. unfold subelem_wf. cbn [sa_id sa_ann sa_conf sa_gain]. split; [pw|]. split; [apply strs_b; reflexivity|]. split; [|apply gain_ex_wf; pw].
        unfold rconf_wf. cbn [rc_mode rc_profile rc_reserved rc_defs rc_ego rc_ext]. split; [pw|]. split; [pw|]. split; [pw|]. split; [|split].
        -- constructor; [|constructor]. unfold rdef_wf. cbn [rd_type rd_def pd_kind]. split; [|split; reflexivity]. split; cbn [pd_base pd_kind]; [|cbn; unfold s16P, s8P; repeat split; pw8].
           unfold pbase_wf. cbn [pb_id pb_rate pb_reserved pb_sched]. repeat split; pw.
        -- cbn [ego_wf]. repeat split; try pw. 
        -- repeat constructor; unfold byteP; lia.
      * repeat (constructor; [unfold layout_wf, layout_ex; cbn [lo_type lo_spec lo_info lo_int lo_peak lo_true lo_anch lo_ext]; repeat split; try pw; try (repeat constructor; cbn; pw)|]). constructor.
    + repeat constructor; cbn; unfold byteP; lia.
    + unfold optf_wf. cbn [of_size of_loud of_bin of_rest]. repeat split; try pw. repeat constructor; unfold byteP; lia.
  - split; [|discriminate]. cbn [mp_subs]. intros s [<-|[]]. cbn [sm_elems sm_layouts]. split.
    + intros e [<-|[]]. cbn [sa_conf]. unfold plain_rconf. cbn [rc_defs]. constructor; [|constructor]. split; reflexivity.
    + intros l [<-|[<-|[]]]; unfold plain_layout, layout_ex; cbn [lo_info lo_true lo_anch lo_ext]; (split; [|split]); intro X; try reflexivity; discriminate.
Qed.

(* A stream whose sub-mix has no stereo layout: the reader completes it with a stereo layout which has the loudness information of
   the last layout of the stream. *)
Definition encoded_submix (g : lebgen) (count : Z) (s : submix) : wprog :=
  wcheck (negb (u32 (zlen (sm_elems s)) =? 0)) InvalidArgument ++ wuleb g (u32 (zlen (sm_elems s))) ++
  flat_map (write_subelem g count) (sm_elems s) ++ write_pdef g (sm_gain s) ++
  wuleb g (u32 (zlen (sm_layouts s))) ++ flat_map (write_layout g) (sm_layouts s).
Definition as_stereo (x : layout) : layout := mkLO 2 (LSs 0 0) (lo_info x) (lo_int x) (lo_peak x) (lo_true x) (lo_anch x) (lo_ext x).
Theorem C35_missing_stereo_layout : forall g count s before last, lebgen_wf g -> 0 <= count <= 256 -> submix_wf s ->
  sm_layouts s = before ++ [last] -> (forall x, In x (sm_layouts s) -> ~ stereo x) ->
  rtb (encoded_submix g count s) (read_submix count)
      (mkSM (sm_elems (stored_submix s)) (sm_gain (stored_submix s)) (sm_layouts (stored_submix s) ++ [as_stereo (stored_layout last)])).
Proof.
  intros g count s before last Hg Hc (H1 & H2 & H3) El Hn. rewrite Forall_forall in H1, H3. unfold encoded_submix, read_submix, stored_submix. apply rtb_wcheck. intro K.
  apply (rtb_bound_list (sm_elems s) (write_subelem g count)).
  { intros x b Hx Eb. unfold write_subelem in Eb. apply wbits_app_ok in Eb as (b1 & b2 & E1 & _ & ->). 
    assert (8 <= zlen b1) by (apply (wuleb_len g _ b1 Hg) in E1; [exact E1|apply (H1 x Hx)]). rewrite zlen_app. pose proof (zlen_nonneg b2). lia. }
  intro L. pose proof (zlen_nonneg (sm_elems s)) as Z0. rewrite u32_small in K |- * by lia. change (2^21) with 2097152 in L.
  eapply rtb_seq; [apply rtb_rt, rt_uleb; [exact Hg|change (2^32) with 4294967296; lia]|]. apply rtb_rcheck; [exact K|].
  eapply rtb_seq; [apply (rtb_list_map (write_subelem g count) (read_subelem count) stored_subelem); [unfold zlen; lia|]; intros x Hx; apply rt_subelem; [exact Hg|exact Hc|apply H1; exact Hx]|].
  eapply rtb_seq; [apply rt_gain; assumption|].
  rewrite <- (app_nil_r (flat_map (write_layout g) (sm_layouts s))). apply (rtb_bound_list (sm_layouts s) (write_layout g)).
  { intros x b Hx Eb. destruct (H3 x Hx) as (X1 & X2 & X3 & _). unfold write_layout in Eb. apply wbits_app_ok in Eb as (b1 & b2 & E1 & Eb & ->).
    apply wbits_app_ok in Eb as (b3 & b4 & E3 & Eb & ->). apply wbits_app_ok in Eb as (b5 & b6 & E5 & Eb & ->). apply wlit_ok in E5 as (_ & _ & ->).
    rewrite !zlen_app. pose proof (zlen_nonneg b1). pose proof (zlen_nonneg b3). pose proof (zlen_nonneg b6). unfold zlen at 3. rewrite bits_length. lia. }
  intro L2. pose proof (zlen_nonneg (sm_layouts s)) as Z2. rewrite u32_small by lia. change (2^21) with 2097152 in L2.
  eapply rtb_seq; [apply rtb_rt, rt_uleb; [exact Hg|change (2^32) with 4294967296; lia]|].
  rewrite app_nil_r. eapply rtb_last; [apply (rtb_list_map (write_layout g) read_layout stored_layout); [unfold zlen; lia|]; intros x Hx; apply rt_layout; [exact Hg|apply H3; exact Hx]|].
  rewrite has_stereo_stored. assert (has_stereo (sm_layouts s) = false) as ->.
  { destruct (has_stereo (sm_layouts s)) eqn:Q; [|reflexivity]. apply has_stereo_spec in Q as (x & Hx & Sx). destruct (Hn x Hx Sx). }
  apply rtb_ret_eq. cbn [sm_elems sm_gain sm_layouts]. f_equal. f_equal. rewrite El, map_app. cbn [map]. unfold default_stereo. rewrite rev_app_distr. reflexivity.
Qed.
Example C35_missing_stereo_ex :
  let s := mkSM [elem_ex 300 [[69]]] (gain_ex 101) [mkLO 2 (LSs 2 0) 1 (-24) (-18) (-17) [] []] in
  submix_wf s /\ (forall x, In x (sm_layouts s) -> ~ stereo x) /\ is_ok (fst (wrun (encoded_submix LebMin 1 s) w_empty)) = true.
Proof.
  cbv zeta. split; [|split; [|vm_compute; reflexivity]].
  - destruct (sub_ex_wf 300 [[69]] ltac:(pw) ltac:(apply strs_b; reflexivity)) as (A & B & _). split; [exact A|]. split; [exact B|].
    constructor; [|constructor]. unfold layout_wf. cbn [sm_layouts lo_type lo_spec lo_info lo_int lo_peak lo_true lo_anch lo_ext]. repeat split; try pw; constructor.
  - intros x [<- | []] (_ & r & H). discriminate.
Qed.
