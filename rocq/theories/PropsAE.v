(* C34: Audio Element OBUs. *)
From Verif Require Import Base WriteBuf ReadBuf Leb BufSpec LebSpec BitFacts WriteBufFacts ReadBufFacts LebFacts
  ParseFacts EndToEnd ObuHeader ObuHeaderFacts FrameFacts SeqFacts SimpleObus PropsObu BndFacts CodecConfig PropsCodec Params PropsParams AudioElement.

(* ---- the fields in their C++ types, as the factories leave them ---- *)
Definition layer_wf (l : layer) := u8P (ly_layout l) /\ u8P (ly_resa l) /\ u8P (ly_subs l) /\ u8P (ly_coupled l) /\ u8P (ly_ogf l) /\
  u8P (ly_resb l) /\ s16P (ly_gain l) /\ match ly_exp l with Some e => u8P e | None => True end.
Definition ambi_wf (a : ambi) :=
  match a with
  | AMono s m => u8P s /\ Forall byteP m /\ mono_create s m = Ok a
  | AProj o s c m => u8P o /\ u8P s /\ u8P c /\ Forall s16P m /\ proj_create o s c m = Ok a
  end.
Definition aconf_wf (c : aconf) :=
  match c with
  | ACScal r l => u8P r /\ Forall layer_wf l
  | ACAmbi a => ambi_wf a
  | ACObj n x => u8P n /\ Forall byteP x /\ obj_create n x = Ok c
  | ACExt b => Forall byteP b
  end.
(* An Audio Element parameter is a demixing, recon gain or extended definition; the latter with a type of its own. *)
Definition ae_param_wf (d : pdef) := pdef_wf d /\
  match pd_kind d with KDemixing _ _ _ _ | KRecon _ => True | KExtended t _ => 3 <= t | _ => False end.
Definition aelem_wf (a : aelem) := u32P (ae_id a) /\ u8P (ae_type a) /\ u8P (ae_reserved a) /\ u32P (ae_codec a) /\
  Forall u32P (ae_subs a) /\ NoDup (ae_subs a) /\ Forall ae_param_wf (ae_params a) /\ aconf_wf (ae_conf a).
(* Fewer than 256 layers / ambisonics channels (their number is stored in a uint8_t). *)
Definition small_conf (c : aconf) := match c with ACScal _ l => zlen l < 256 | ACAmbi (AMono _ m) => zlen m < 256 | _ => True end.

(* ---- what comes back ---- *)
(* Fields of a layer that are not in the bitstream read back as their defaults. *)
Definition stored_layer (l : layer) : layer :=
  mkLy (ly_layout l) (ly_og l) (ly_rg l) (ly_resa l) (ly_subs l) (ly_coupled l)
       (if ly_og l then ly_ogf l else 0) (if ly_og l then ly_resb l else 0) (if ly_og l then ly_gain l else 0)
       (if ly_layout l =? 15 then ly_exp l else None).
Definition stored_param (d : pdef) : pdef :=
  match pd_kind d with
  | KExtended t b => mkPD (mkPB 0 0 0 None) (KExtended t b)   (* only the type and the bytes are coded *)
  | KRecon _ => mkPD (pd_base d) (KRecon [])                  (* the layer flags are filled in by the caller later *)
  | _ => d
  end.
Definition stored_conf (c : aconf) : aconf :=
  match c with ACScal r l => ACScal r (map stored_layer l) | ACExt _ => ACScal 0 [] | _ => c end.
Definition stored_aelem (a : aelem) : aelem :=
  mkAE (ae_id a) (ae_type a) (ae_reserved a) (ae_codec a) (ae_subs a) (map stored_param (ae_params a)) (stored_conf (ae_conf a)).

Lemma existsb_In x l : existsb (Z.eqb x) l = true <-> In x l.
Proof. rewrite existsb_exists. split; [intros (y & H & E); apply Z.eqb_eq in E; subst; exact H|intro H; exists x; split; [exact H|apply Z.eqb_refl]]. Qed.
Lemma unique_NoDup l : unique l = true <-> NoDup l.
Proof.
  induction l as [|x l IH]; cbn [unique]; [split; [constructor|reflexivity]|].
  rewrite andb_true_iff, negb_true_iff, IH. split.
  - intros [H1 H2]. constructor; [|exact H2]. intro HI. apply existsb_In in HI. congruence.
  - intro H. inversion H; subst. split; [|assumption]. apply not_true_iff_false. rewrite existsb_In. assumption.
Qed.

Lemma rspan_rlist n : rspan n = rlist n (rlit 8 8).
Proof. induction n as [|n IH]; [reflexivity|]. cbn [rspan rlist]. rewrite IH. reflexivity. Qed.

(* A list whose items all take at least a byte has at most 2^21 items in a payload of at most 2^24 bits. *)
Lemma wbits_flat_map_len {X} (wl : X -> wprog) l bs :
  (forall x b, In x l -> wbits (wl x) = Ok b -> 8 <= zlen b) -> wbits (flat_map wl l) = Ok bs -> 8 * zlen l <= zlen bs.
Proof.
  intro H. revert bs. induction l as [|x l IH]; intros bs E; cbn [flat_map] in E; [unfold zlen; cbn [length]; lia|].
  apply wbits_app_ok in E as (a & b & E1 & E2 & ->). rewrite zlen_app. unfold zlen at 1. cbn [length].
  assert (8 <= zlen a) by (apply (H x); [left; reflexivity|exact E1]).
  assert (8 * zlen l <= zlen b) by (apply IH; [intros y c Hy; apply H; right; exact Hy|exact E2]). unfold zlen in *. lia.
Qed.
Lemma rtb_bound_list {A X} (l : list X) (wl : X -> wprog) w1 w2 (p : rprog A) a :
  (forall x b, In x l -> wbits (wl x) = Ok b -> 8 <= zlen b) ->
  (zlen l <= 2^21 -> rtb (w1 ++ flat_map wl l ++ w2) p a) -> rtb (w1 ++ flat_map wl l ++ w2) p a.
Proof.
  intros H1 H2 bs E L. apply H2; [|exact E|exact L]. apply wbits_app_ok in E as (x & y & E1 & E & ->).
  apply wbits_app_ok in E as (y1 & y2 & E2 & E3 & ->). rewrite !zlen_app in L. apply wbits_flat_map_len in E2; [|exact H1].
  pose proof (zlen_nonneg x). pose proof (zlen_nonneg y2). change (2^24) with 16777216 in L. change (2^21) with 2097152. lia.
Qed.
Lemma wuleb_len g v b : lebgen_wf g -> u32P v -> wbits (wuleb g v) = Ok b -> 8 <= zlen b.
Proof.
  intros Hg Hv E. destruct (wuleb_ok g v b Hg Hv E) as (l & _ & -> & _ & _ & L). unfold zlen. rewrite bytes_bits_length. lia.
Qed.

Lemma rt_layer {N} l : layer_wf l -> rtn N (write_layer l) read_layer (stored_layer l).
Proof.
  intros (H1 & H2 & H3 & H4 & H5 & H6 & H7 & H8). unfold write_layer, read_layer, stored_layer.
  eapply rtb_seq; [lit|]. eapply rtb_seq; [apply rtb_rt, rt_bool|]. eapply rtb_seq; [apply rtb_rt, rt_bool|].
  eapply rtb_seq; [lit|]. eapply rtb_seq; [lit|]. eapply rtb_seq; [lit|].
  apply (rtb_seq _ _ _ _ (if ly_og l then ly_ogf l else 0, if ly_og l then ly_resb l else 0, if ly_og l then ly_gain l else 0)).
  { destruct (ly_og l); [|apply rtb_ret_eq; reflexivity].
    eapply rtb_seq; [lit|]. eapply rtb_seq; [lit|]. eapply rtb_last; [apply rtb_rt, rt_signed16; exact H7|]. apply rtb_ret_eq. reflexivity. }
  cbn [fst snd]. unfold kExpanded. destruct (ly_layout l =? 15); [|apply rtb_ret_eq; reflexivity].
  destruct (ly_exp l) as [e|]; [|apply rtb_wfail]. eapply rtb_last; [|apply rtb_ret_eq; reflexivity].
  eapply rtb_last; [lit|]. apply rtb_ret_eq. reflexivity.
Qed.
Lemma write_layer_wf l : layer_wf l -> Forall winstr_wf (write_layer l).
Proof.
  intros (H1 & H2 & H3 & H4 & H5 & H6 & H7 & H8). unfold write_layer.
  wf_split; try (apply wbool_wf); try (apply wlit_wf; pw).
  - destruct (ly_og l); [|constructor]. wf_split; [apply wlit_wf; pw|apply wlit_wf; pw|apply wsigned16_wf].
  - destruct (_ =? _); [|constructor]. destruct (ly_exp l); [apply wlit_wf; pw|repeat constructor].
Qed.

Lemma layers_validate_stored n l : layers_validate n (map stored_layer l) = layers_validate n l.
Proof.
  unfold layers_validate, num_layers, zlen. rewrite map_length. f_equal. f_equal.
  - f_equal. f_equal. generalize 0. induction l as [|x l IH]; intro a; [reflexivity|]. cbn [map fold_left]. rewrite IH. reflexivity.
  - f_equal. f_equal. f_equal. induction l as [|x l IH]; [reflexivity|]. cbn [map existsb]. rewrite IH. reflexivity.
Qed.
Lemma rt_scalable {N} n r l : u8P r -> Forall layer_wf l -> zlen l < 256 ->
  rtn N (write_scalable n r l) (read_scalable n) (r, map stored_layer l).
Proof.
  intros Hr Hl Hz. unfold write_scalable, read_scalable. apply rtb_wres. intro V. pose proof (zlen_nonneg l) as Z0.
  assert (num_layers l = zlen l) as NL by (unfold num_layers, u8; change (2^8) with 256; apply Z.mod_small; lia).
  eapply rtb_seq; [rewrite NL; lit|]. eapply rtb_seq; [lit|].
  eapply rtb_last.
  - apply (rtb_list_map write_layer read_layer stored_layer); [unfold zlen; lia|]. intros x Hx. apply rt_layer.
    rewrite Forall_forall in Hl. apply Hl. exact Hx.
  - eapply rtb_rres; [rewrite layers_validate_stored; exact V|]. apply rtb_ret_eq. reflexivity.
Qed.
Lemma write_scalable_wf n r l : u8P r -> Forall layer_wf l -> Forall winstr_wf (write_scalable n r l).
Proof.
  intros Hr Hl. unfold write_scalable, num_layers, u8. wf_split; [apply wres_wf|apply wlit_wf; pose proof (Z.mod_pos_bound (zlen l) (2^8) ltac:(reflexivity)); pw|apply wlit_wf; pw|].
  apply Forall_flat_map_wf. intros x Hx. apply write_layer_wf. rewrite Forall_forall in Hl. apply Hl. exact Hx.
Qed.

Lemma rt_ambi {N} g a : lebgen_wf g -> ambi_wf a -> small_conf (ACAmbi a) -> rtn N (write_ambi g a) read_ambi a.
Proof.
  intros Hg Ha Hs. destruct a as [s m|o s c m]; cbn [ambi_wf small_conf write_ambi] in *; unfold read_ambi.
  - destruct Ha as (U & M & C). pose proof (zlen_nonneg m) as Z0.
    assert (u8 (zlen m) = zlen m) as E by (unfold u8; change (2^8) with 256; apply Z.mod_small; lia). rewrite E.
    eapply rtb_seq; [apply rtb_rt, rt_uleb; [exact Hg|lia]|]. cbn [Z.eqb].
    eapply rtb_seq; [lit|]. eapply rtb_seq; [lit|]. eapply rtb_last; [apply rtb_rt, rt_span; [exact M|unfold zlen; lia]|].
    rewrite C. cbn [rres]. apply rtb_ret_eq. reflexivity.
  - destruct Ha as (U1 & U2 & U3 & M & C). eapply rtb_seq; [apply rtb_rt, rt_uleb; [exact Hg|lia]|]. cbn [Z.eqb Pos.eqb].
    eapply rtb_seq; [lit|]. eapply rtb_seq; [lit|]. eapply rtb_seq; [lit|].
    pose proof C as C'. unfold proj_create in C'. apply rthen_ok in C' as [C1 C']. apply rthen_ok in C' as [C2 _]. apply vcond_ok in C2.
    eapply rtb_rres; [exact C1|]. eapply rtb_last.
    + apply (rtb_list wsigned16); [unfold zlen in C2; lia|]. intros x Hx. apply rtb_rt, rt_signed16. rewrite Forall_forall in M. apply M. exact Hx.
    + rewrite C. cbn [rres]. apply rtb_ret_eq. reflexivity.
Qed.
Lemma write_ambi_wf g a : lebgen_wf g -> ambi_wf a -> Forall winstr_wf (write_ambi g a).
Proof.
  intros Hg Ha. destruct a as [s m|o s c m]; cbn [ambi_wf write_ambi] in *.
  - destruct Ha as (U & M & C). unfold u8. wf_split; [apply wuleb_wf; [exact Hg|lia]|apply wlit_wf; pose proof (Z.mod_pos_bound (zlen m) (2^8) ltac:(reflexivity)); pw|apply wlit_wf; pw|apply wspan_wf; exact M].
  - destruct Ha as (U1 & U2 & U3 & M & C). wf_split; [apply wuleb_wf; [exact Hg|lia]|apply wlit_wf; pw|apply wlit_wf; pw|apply wlit_wf; pw|].
    apply Forall_flat_map_wf. intros. apply wsigned16_wf.
Qed.

Lemma rt_obj {N} n x : u8P n -> Forall byteP x -> obj_create n x = Ok (ACObj n x) -> zlen x < 2^32 - 1 ->
  rtn N (write_obj n x) read_obj (ACObj n x).
Proof.
  intros Hn Hx C L. unfold write_obj, read_obj. pose proof (zlen_nonneg x) as Z0.
  assert (u32 (zlen x + 1) = zlen x + 1) as E by (unfold u32; change (2^32) with 4294967296 in *; apply Z.mod_small; lia). rewrite E.
  eapply rtb_seq; [lit|]. apply rtb_rcheck; [lia|]. eapply rtb_seq; [lit|]. eapply rtb_last; [apply rtb_rt, rt_span; [exact Hx|unfold zlen; lia]|].
  rewrite C. cbn [rres]. apply rtb_ret_eq. reflexivity.
Qed.

Lemma ae_type_range d : ae_param_wf d -> u32P (pd_type (pd_kind d)).
Proof. intros ((_ & Hk) & H). destruct (pd_kind d); try contradiction; cbn [pd_type pkind_wf] in *; [pw|pw|apply Hk]. Qed.
Lemma rt_ae_param g d : lebgen_wf g -> ae_param_wf d -> rtb (write_ae_param g d) read_ae_param (stored_param d).
Proof.
  intros Hg Hd. pose proof (ae_type_range d Hd) as Ht. destruct Hd as (Hd & Hk). unfold write_ae_param, read_ae_param.
  eapply rtb_seq; [apply rtb_rt, rt_uleb; [exact Hg|exact Ht]|]. apply rtb_wcheck. intro Hn.
  unfold stored_param. destruct d as [b k]. cbn [pd_kind pd_base] in *. destruct k; try contradiction; cbn [pd_type Z.eqb Pos.eqb] in *.
  - refine (rt_pdef (N:=2^24) g (mkPD pbase0 (KDemixing 0 0 0 0)) (mkPD b _) Hg Hd _ _); exact I.
  - change (write_pdef g (mkPD b (KRecon flags))) with (write_pdef g (mkPD b (KRecon []))).
    refine (rt_pdef (N:=2^24) g (mkPD pbase0 (KRecon [])) (mkPD b (KRecon [])) Hg _ eq_refl I). exact Hd.
  - cbn [negb] in Hn. replace (type =? 0) with false by lia. replace (type =? 2) with false by lia. replace (type =? 1) with false by lia.
    cbn [write_pdef pd_kind]. apply (rtb_blob_bound bytes). intro L.
    refine (rt_pdef (N:=2^24) g (mkPD pbase0 (KExtended type [])) (mkPD b (KExtended type bytes)) Hg Hd eq_refl L).
Qed.
Lemma write_ae_param_wf g d : lebgen_wf g -> ae_param_wf d -> Forall winstr_wf (write_ae_param g d).
Proof.
  intros Hg Hd. unfold write_ae_param. wf_split; [apply wuleb_wf; [exact Hg|apply ae_type_range; exact Hd]|apply wcheck_wf|apply write_pdef_wf; [exact Hg|apply Hd]].
Qed.
Lemma param_types_stored l : param_types (map stored_param l) = param_types l.
Proof.
  unfold param_types. rewrite map_map. apply map_ext. intros [b k]. unfold stored_param. cbn [pd_kind pd_base]. destruct k; reflexivity.
Qed.

Lemma rt_aconf g a : lebgen_wf g -> aelem_wf a -> small_conf (ae_conf a) ->
  rtb (write_aconf g a) (read_aconf (ae_type a) (u32 (zlen (ae_subs a)))) (stored_conf (ae_conf a)).
Proof.
  intros Hg (_ & Ht & _ & _ & _ & _ & _ & Hc) Hs. unfold write_aconf, read_aconf.
  destruct (ae_type a =? 0) eqn:T0; [|destruct (ae_type a =? 1) eqn:T1; [|destruct (ae_type a =? 2) eqn:T2]];
    destruct (ae_conf a) as [r l|am|n x|b]; try (apply rtb_wfail); cbn [aconf_wf small_conf stored_conf] in *.
  - destruct Hc as [Hr Hl]. eapply rtb_last; [apply rt_scalable; assumption|]. apply rtb_ret_eq. reflexivity.
  - apply rtb_wres. intro V. eapply rtb_last; [apply rt_ambi; assumption|]. eapply rtb_rres; [exact V|]. apply rtb_ret_eq. reflexivity.
  - destruct Hc as (H1 & H2 & H3). unfold write_obj. rewrite app_assoc. apply (rtb_blob_bound x). intro L. rewrite <- app_assoc.
    apply rt_obj; try assumption. change (2^21) with 2097152 in L. change (2^32) with 4294967296. lia.
  - apply (rtb_blob_bound b). intro L. pose proof (zlen_nonneg b) as Z0.
    assert (u32 (zlen b) = zlen b) as E by (unfold u32; change (2^32) with 4294967296; change (2^21) with 2097152 in L; apply Z.mod_small; lia).
    rewrite E. eapply rtb_seq; [apply rtb_rt, rt_uleb; [exact Hg|change (2^32) with 4294967296; change (2^21) with 2097152 in L; lia]|].
    eapply rtb_last; [|apply rtb_ret_eq; reflexivity]. rewrite <- rspan_rlist. apply rtb_rt, rt_span; [exact Hc|unfold zlen; lia].
Qed.
Lemma write_aconf_wf g a : lebgen_wf g -> aelem_wf a -> Forall winstr_wf (write_aconf g a).
Proof.
  intros Hg (_ & Ht & _ & _ & _ & _ & _ & Hc). unfold write_aconf.
  destruct (_ =? _); [|destruct (_ =? _); [|destruct (_ =? _)]];
    destruct (ae_conf a) as [r l|am|n x|b]; try (repeat constructor; fail); cbn [aconf_wf] in *.
  - apply write_scalable_wf; apply Hc.
  - wf_split; [apply wres_wf|apply write_ambi_wf; assumption].
  - destruct Hc as (H1 & H2 & H3). unfold write_obj. wf_split; [apply wlit_wf; pose proof (u32_range (zlen x + 1)); pw|apply wlit_wf; pw|apply wspan_wf; exact H2].
  - wf_split; [apply wuleb_wf; [exact Hg|apply u32_range]|apply wspan_wf; exact Hc].
Qed.

Lemma rt_aelem g a h n : lebgen_wf g -> aelem_wf a -> small_conf (ae_conf a) ->
  rtb (write_aelem g a) (read_aelem h n) (stored_aelem a).
Proof.
  intros Hg Ha Hs. pose proof (rt_aconf g a Hg Ha Hs) as RC. destruct Ha as (H1 & H2 & H3 & H4 & H5 & H6 & H7 & H8).
  unfold write_aelem, read_aelem, stored_aelem. apply rtb_wres. intro V.
  eapply rtb_seq; [apply rtb_rt, rt_uleb; assumption|]. eapply rtb_seq; [lit|]. eapply rtb_seq; [lit|].
  eapply rtb_seq; [apply rtb_rt, rt_uleb; assumption|].
  apply (rtb_bound_list (ae_subs a) (wuleb g)).
  { intros x b Hx E. rewrite Forall_forall in H5. exact (wuleb_len g x b Hg (H5 x Hx) E). }
  intro L. pose proof (zlen_nonneg (ae_subs a)) as Z0. change (2^21) with 2097152 in L.
  assert (u32 (zlen (ae_subs a)) = zlen (ae_subs a)) as E by (unfold u32; change (2^32) with 4294967296; apply Z.mod_small; lia).
  rewrite E in *. eapply rtb_seq; [apply rtb_rt, rt_uleb; [exact Hg|change (2^32) with 4294967296; lia]|].
  eapply rtb_seq; [apply (rtb_list (wuleb g)); [unfold zlen; lia|]; intros x Hx; apply rtb_rt, rt_uleb; [exact Hg|rewrite Forall_forall in H5; apply H5; exact Hx]|].
  eapply rtb_rres; [unfold vunique, vcond; rewrite (proj2 (unique_NoDup _) H6); reflexivity|].
  apply rtb_wcheck. intro K.
  apply (rtb_bound_list (ae_params a) (write_ae_param g)).
  { intros x b Hx Eb. rewrite Forall_forall in H7. unfold write_ae_param in Eb. apply wbits_app_ok in Eb as (b1 & b2 & E1 & _ & ->).
    pose proof (wuleb_len g _ b1 Hg (ae_type_range x (H7 x Hx)) E1). rewrite zlen_app. pose proof (zlen_nonneg b2). lia. }
  intro L2. pose proof (zlen_nonneg (ae_params a)) as Z2. change (2^21) with 2097152 in L2.
  assert (u32 (zlen (ae_params a)) = zlen (ae_params a)) as E2 by (unfold u32; change (2^32) with 4294967296; apply Z.mod_small; lia).
  rewrite E2 in *. eapply rtb_seq; [apply rtb_rt, rt_uleb; [exact Hg|change (2^32) with 4294967296; lia]|].
  apply rtb_rcheck; [exact K|].
  eapply rtb_seq; [apply (rtb_list_map (write_ae_param g) read_ae_param stored_param); [unfold zlen; lia|]; intros x Hx; apply rt_ae_param; [exact Hg|rewrite Forall_forall in H7; apply H7; exact Hx]|].
  rewrite param_types_stored, E. eapply rtb_rres; [exact V|]. eapply rtb_last; [exact RC|]. apply rtb_ret_eq. reflexivity.
Qed.
Lemma write_aelem_wf g a : lebgen_wf g -> aelem_wf a -> Forall winstr_wf (write_aelem g a).
Proof.
  intros Hg Ha. pose proof (write_aconf_wf g a Hg Ha) as WC. destruct Ha as (H1 & H2 & H3 & H4 & H5 & H6 & H7 & H8). unfold write_aelem.
  wf_split; first [exact WC|apply wres_wf|apply wcheck_wf|apply wuleb_wf; [exact Hg|first [apply u32_range|assumption]]|apply wlit_wf; pw|idtac].
  - apply Forall_flat_map_wf. intros x Hx. apply wuleb_wf; [exact Hg|]. rewrite Forall_forall in H5. apply H5. exact Hx.
  - apply Forall_flat_map_wf. intros x Hx. apply write_ae_param_wf; [exact Hg|]. rewrite Forall_forall in H7. apply H7. exact Hx.
Qed.

(* Missing for the full property: an extension (audio_element_type >= 3) reads back without its config bytes, see below. *)
Theorem C34_audio_element_round_trip_partial : forall g h a footer,
  lebgen_wf g -> header_wf h -> aelem_wf a -> small_conf (ae_conf a) -> Forall byteP footer ->
  reads_back (write_aelem_obu g h a footer) (read_obu read_aelem) (norm_header (set_type h kAudioElement), stored_aelem a, footer).
Proof.
  intros g h a footer Hg Hh Ha Hs Hf. apply obu_round_trip_bounded; try assumption.
  - apply set_type_wf'; [exact Hh|unfold kAudioElement; lia].
  - apply write_aelem_wf; assumption.
  - intro n. apply rt_aelem; assumption.
Qed.

(* When nothing is lost: no extension, no values in fields that are not coded. *)
Theorem C34_nothing_lost : forall a,
  (forall d, In d (ae_params a) -> match pd_kind d with KDemixing _ _ _ _ => True | KRecon f => f = [] | KExtended _ _ => pd_base d = mkPB 0 0 0 None | _ => True end) ->
  match ae_conf a with
  | ACScal _ l => forall x, In x l -> (ly_og x = false -> ly_ogf x = 0 /\ ly_resb x = 0 /\ ly_gain x = 0) /\ (ly_layout x <> 15 -> ly_exp x = None)
  | ACExt _ => False | _ => True end -> stored_aelem a = a.
Proof.
  intros [id ty r cc subs ps c] Hp Hc. unfold stored_aelem. cbn [ae_id ae_type ae_reserved ae_codec ae_subs ae_params ae_conf] in *. f_equal.
  - rewrite <- (map_id ps) at 2. apply map_ext_in. intros [b k] Hd. specialize (Hp _ Hd). unfold stored_param. cbn [pd_kind pd_base] in *.
    destruct k; try reflexivity; subst; reflexivity.
  - destruct c as [rr l|am|n x|b]; try reflexivity; [|contradiction]. cbn [stored_conf]. f_equal. rewrite <- (map_id l) at 2. apply map_ext_in.
    intros [a1 a2 a3 a4 a5 a6 a7 a8 a9 a10] Hx. destruct (Hc _ Hx) as [G1 G2]. unfold stored_layer. cbn [ly_layout ly_og ly_rg ly_resa ly_subs ly_coupled ly_ogf ly_resb ly_gain ly_exp] in *.
    f_equal; [destruct a2; [reflexivity|symmetry; apply G1; reflexivity]..|]. destruct (a1 =? 15) eqn:K; [reflexivity|]. symmetry. apply G2. lia.
Qed.

Lemma wrun_has_fail p c w : In (WFail c) p -> is_ok (fst (wrun p w)) = false.
Proof.
  revert w. induction p as [|i p IH]; intros w; [contradiction|]. cbn [wrun]. intros [->|H]; [reflexivity|].
  destruct (winstr_run i w) as [[u|e| | |] w']; try reflexivity. apply IH. exact H.
Qed.
(* Finding F12: every extension audio element loses its config, and the object read back cannot even be written again. *)
Theorem C34_extension_config_lost_refuted : forall g h a footer b,
  lebgen_wf g -> header_wf h -> aelem_wf a -> ae_conf a = ACExt b -> 3 <= ae_type a -> Forall byteP footer ->
  exists a', reads_back (write_aelem_obu g h a footer) (read_obu read_aelem) (norm_header (set_type h kAudioElement), a', footer) /\
             a' <> a /\ ae_conf a' = ACScal 0 [] /\ forall w, is_ok (fst (wrun (write_aelem_obu g h a' footer) w)) = false.
Proof.
  intros g h a footer b Hg Hh Ha E Ht Hf. exists (stored_aelem a).
  assert (small_conf (ae_conf a)) as Sc by (rewrite E; exact I).
  split; [apply C34_audio_element_round_trip_partial; assumption|].
  assert (ae_conf (stored_aelem a) = ACScal 0 []) as E2 by (unfold stored_aelem; cbn [ae_conf]; rewrite E; reflexivity).
  split; [intro D; rewrite D, E in E2; discriminate|]. split; [exact E2|]. intro w.
  unfold write_aelem_obu, write_obu. assert (In (WFail Internal) (write_aelem g (stored_aelem a) ++ wspan footer)) as I.
  { apply in_or_app. left. unfold write_aelem. rewrite !in_app_iff. do 10 right. unfold write_aconf. rewrite E2. cbn [stored_aelem ae_type].
    replace (ae_type a =? 0) with false by lia. replace (ae_type a =? 1) with false by lia. replace (ae_type a =? 2) with false by lia. left. reflexivity. }
  unfold temp_write. pose proof (wrun_has_fail _ _ w_empty I) as N.
  destruct (wrun _ w_empty) as [[u|e| | |] t]; try discriminate; cbn [wrun winstr_run fst]; reflexivity.
Qed.

(* Findings F14, F15: sizes are kept in a uint8_t, so configs with 256 + k layers or ambisonics channels pass validation as k. *)
Definition plain_header := mkH 0 false false 0 0 None.
Definition layer_ex (subs : Z) := mkLy 1 false false 0 subs 0 0 0 0 None.
Lemma layer_ex_wf s : u8P s -> layer_wf (layer_ex s).
Proof. intro H. unfold layer_wf, layer_ex. cbn [ly_layout ly_resa ly_subs ly_coupled ly_ogf ly_resb ly_gain ly_exp]. repeat split; try pw. Qed.
Definition ae_257 := mkAE 5 0 0 0 [7] [] (ACScal 0 (layer_ex 1 :: repeat (layer_ex 0) 256)).
Theorem C34_257_layers_refuted :
  ae_create_scalable 5 0 0 [7] 0 (layer_ex 1 :: repeat (layer_ex 0) 256) = Ok ae_257 /\ aelem_wf ae_257 /\
  exists w a' f, wrun (write_aelem_obu LebMin plain_header ae_257 []) w_empty = (Ok tt, w) /\
    fst (crun 8 (read_at 0 (read_obu read_aelem)) (r_create 4096 (w_bytes w))) = Ok ((set_type plain_header kAudioElement, a', f), 8 * zlen (w_bytes w)) /\
    ae_conf a' = ACScal 0 [layer_ex 1] /\ f <> [].
Proof.
  split; [vm_compute; reflexivity|]. split.
  - unfold aelem_wf, ae_257. cbn [ae_id ae_type ae_reserved ae_codec ae_subs ae_params ae_conf].
    do 4 (split; [pw|]). split; [repeat constructor; pw|]. split; [repeat constructor; cbn; tauto|]. split; [constructor|].
    cbn [aconf_wf]. split; [pw|]. constructor; [apply layer_ex_wf; pw|]. apply Forall_forall. intros x Hx. apply repeat_spec in Hx. subst. apply layer_ex_wf. pw.
  - eexists. eexists. eexists. split; [vm_compute; reflexivity|]. split; [vm_compute; reflexivity|]. split; [reflexivity|discriminate].
Qed.
Definition ae_mono_257 := mkAE 5 1 0 0 [7] [] (ACAmbi (AMono 1 (repeat 0 257))).
Theorem C34_257_ambisonics_channels_refuted :
  mono_create 1 (repeat 0 257) = Ok (AMono 1 (repeat 0 257)) /\ aelem_wf ae_mono_257 /\
  exists w a' f, wrun (write_aelem_obu LebMin plain_header ae_mono_257 []) w_empty = (Ok tt, w) /\
    fst (crun 8 (read_at 0 (read_obu read_aelem)) (r_create 4096 (w_bytes w))) = Ok ((set_type plain_header kAudioElement, a', f), 8 * zlen (w_bytes w)) /\
    ae_conf a' = ACAmbi (AMono 1 [0]) /\ f <> [].
Proof.
  split; [vm_compute; reflexivity|]. split.
  - unfold aelem_wf, ae_mono_257. cbn [ae_id ae_type ae_reserved ae_codec ae_subs ae_params ae_conf].
    do 4 (split; [pw|]). split; [repeat constructor; pw|]. split; [repeat constructor; cbn; tauto|]. split; [constructor|].
    cbn [aconf_wf ambi_wf]. split; [pw|]. split; [|vm_compute; reflexivity]. apply Forall_forall. intros x Hx. apply repeat_spec in Hx. subst. unfold byteP. lia.
  - eexists. eexists. eexists. split; [vm_compute; reflexivity|]. split; [vm_compute; reflexivity|]. split; [reflexivity|discriminate].
Qed.

(* ---- what a reader accepts, whatever the bytes ---- *)
Definition square_count (n : Z) : Prop := exists k, 1 <= k <= 15 /\ n = k * k.
Definition ambi_valid (nsubs : Z) (a : ambi) : Prop :=
  match a with
  | AMono s m => square_count (zlen m) /\ s = nsubs /\ 1 <= s <= zlen m /\
                 (forall i, In i m -> i = 255 \/ 0 <= i < s) /\ (forall i, 0 <= i < s -> In i m)
  | AProj o s c m => square_count o /\ s = nsubs /\ 0 <= c <= s /\ 1 <= s + c <= o /\ zlen m = (s + c) * o
  end.
Definition aconf_valid (ty nsubs : Z) (c : aconf) : Prop :=
  (ty = 0 -> exists r l, c = ACScal r l /\ 1 <= zlen l <= 6 /\ total (map ly_subs l) = nsubs /\
                         ((exists x, In x l /\ ly_layout x = 9) -> zlen l = 1)) /\
  (ty = 1 -> exists a, c = ACAmbi a /\ ambi_valid nsubs a) /\
  (ty = 2 -> exists n x, c = ACObj n x /\ 1 <= n <= 2).
Definition aelem_valid (a : aelem) : Prop :=
  NoDup (ae_subs a) /\ NoDup (map (fun d => pd_type (pd_kind d)) (ae_params a)) /\ zlen (ae_params a) <= 256 /\
  (forall d, In d (ae_params a) -> pd_type (pd_kind d) <> 0) /\ aconf_valid (ae_type a) (zlen (ae_subs a)) (ae_conf a).

Lemma arun_lit_range n max c v c' : cok c -> 0 <= n -> legal_width n max = true -> arun (rlit n max) c = (Ok v, c') -> 0 <= v < 2^n /\ cok c'.
Proof.
  intros Hc Hn W E. pose proof (arun_lit_inv _ _ _ _ _ Hc W E) as (_ & _ & K). split; [|exact K].
  rewrite arun_lit in E by assumption. destruct (_ <=? _)%nat eqn:El in E; [|discriminate]. injection E as <- _. apply Nat.leb_le in El.
  pose proof (ofbits_range (firstn (Z.to_nat n) (skipn (c_pos c) (c_bits c)))) as R. unfold zlen in R. rewrite firstn_length, skipn_length in R.
  rewrite Nat.min_l in R by exact El. rewrite Z2Nat.id in R by exact Hn. exact R.
Qed.
Lemma arun_cok_ok {A} (p : rprog A) c a c' : cok c -> arun p c = (Ok a, c') -> cok c'.
Proof. intros Hc E. pose proof (arun_cok p c Hc) as K. rewrite E in K. exact K. Qed.
Lemma rspan_bytes n c l c' : cok c -> arun (rspan n) c = (Ok l, c') -> length l = n /\ Forall byteP l.
Proof.
  intros Hc E. rewrite rspan_rlist in E. apply (arun_rlist_inv (rlit 8 8) byteP n) with (c := c) (c' := c'); [|exact Hc|exact E].
  intros d a d' Hd Ed. apply (arun_lit_range 8 8) in Ed; [apply Ed|exact Hd|lia|reflexivity].
Qed.
Lemma validate_out_count_ok n : 0 <= n < 256 -> validate_out_count n = Ok tt -> square_count n.
Proof.
  intros Hn V. unfold validate_out_count, u8 in V. rewrite Z.mod_small in V by (change (2^8) with 256; lia).
  unfold next_valid_count in V. destruct (find _ ambi_counts) as [x|] eqn:F; [|discriminate]. cbn [rbind] in V. apply vcond_ok in V.
  assert (x = n) as -> by lia. apply find_some in F as [F _]. unfold ambi_counts in F. apply in_map_iff in F as (i & <- & Hi).
  apply in_seq in Hi. exists (Z.of_nat i + 1). split; [lia|reflexivity].
Qed.
Lemma distinct_In l x : In x (distinct l) <-> In x l.
Proof.
  induction l as [|y l IH]; cbn [distinct]; [tauto|]. destruct (existsb (Z.eqb y) l) eqn:E; cbn [In]; rewrite IH; [|tauto].
  apply existsb_In in E. split; [tauto|]. intros [->|H]; assumption.
Qed.
Lemma distinct_NoDup l : NoDup (distinct l).
Proof.
  induction l as [|y l IH]; cbn [distinct]; [constructor|]. destruct (existsb (Z.eqb y) l) eqn:E; [exact IH|]. constructor; [|exact IH].
  rewrite distinct_In. rewrite <- existsb_In. congruence.
Qed.
Lemma mono_create_valid s m a : Forall byteP m -> zlen m < 256 -> mono_create s m = Ok a -> a = AMono s m /\ ambi_valid s a.
Proof.
  intros Hm Hz C. unfold mono_create in C. apply rthen_ok in C as [C1 C]. apply rthen_ok in C as [C2 C]. apply rthen_ok in C as [C3 C].
  apply rthen_ok in C as [C4 C]. injection C as <-. split; [reflexivity|]. apply vcond_ok in C2, C3, C4. pose proof (zlen_nonneg m) as Z0.
  cbn [ambi_valid]. split; [apply validate_out_count_ok; [lia|exact C1]|]. split; [reflexivity|]. split; [lia|].
  rewrite forallb_forall in C3. rewrite Forall_forall in Hm. unfold byteP in Hm. split.
  - intros i Hi. specialize (C3 i Hi). specialize (Hm i Hi). lia.
  - intros i Hi. set (d := distinct (filter (fun i => negb (i =? 255)) m)) in *.
    assert (incl d (map Z.of_nat (seq 0 (Z.to_nat s)))) as Inc.
    { intros x Hx. unfold d in Hx. apply distinct_In, filter_In in Hx as [Hx Hne]. specialize (C3 x Hx). specialize (Hm x Hx).
      apply in_map_iff. exists (Z.to_nat x). split; [lia|]. apply in_seq. lia. }
    assert (In i d) as Hd.
    { apply (NoDup_length_incl (l := d) (l' := map Z.of_nat (seq 0 (Z.to_nat s)))); [apply distinct_NoDup| |exact Inc|].
      - rewrite map_length, seq_length. unfold zlen in C4. lia.
      - apply in_map_iff. exists (Z.to_nat i). split; [lia|]. apply in_seq. lia. }
    unfold d in Hd. apply distinct_In, filter_In in Hd. apply Hd.
Qed.
Lemma read_ambi_valid n c a c' : cok c -> arun (rb read_ambi (fun a => rres (veq n (ambi_substreams a)) ;;; RRet a)) c = (Ok a, c') -> ambi_valid n a.
Proof.
  intros Hc E. apply arun_bind_ok in E as (a1 & c1 & E & E2). apply arun_rres_ok in E2 as ([] & V & E2). cbn [arun] in E2. injection E2 as <- _.
  apply vcond_ok in V. unfold read_ambi in E. apply arun_bind_ok in E as (mode & c2 & E3 & E). pose proof (arun_cok_ok _ _ _ _ Hc E3) as K2.
  destruct (mode =? 0); [|destruct (mode =? 1)].
  - apply arun_bind_ok in E as (o & c3 & E4 & E). apply (arun_lit_range 8 8) in E4 as [Ho K3]; [|exact K2|lia|reflexivity].
    apply arun_bind_ok in E as (s & c4 & E4 & E). apply (arun_lit_range 8 8) in E4 as [Hs K4]; [|exact K3|lia|reflexivity].
    apply arun_bind_ok in E as (m & c5 & E4 & E). apply rspan_bytes in E4 as [Lm Bm]; [|exact K4].
    destruct (mono_create s m) as [x|e| | |] eqn:C; cbn [rres arun] in E; try discriminate. injection E as -> _.
    change (2^8) with 256 in *. apply mono_create_valid in C as [-> C]; [|exact Bm|unfold zlen; lia]. cbn [ambi_substreams] in V. assert (s = n) as <- by lia. exact C.
  - apply arun_bind_ok in E as (o & c3 & E4 & E). apply (arun_lit_range 8 8) in E4 as [Ho K3]; [|exact K2|lia|reflexivity].
    apply arun_bind_ok in E as (s & c4 & E4 & E). apply (arun_lit_range 8 8) in E4 as [Hs K4]; [|exact K3|lia|reflexivity].
    apply arun_bind_ok in E as (cc & c5 & E4 & E). apply (arun_lit_range 8 8) in E4 as [Hcc K5]; [|exact K4|lia|reflexivity].
    apply arun_rres_ok in E as ([] & P & E). apply arun_bind_ok in E as (m & c6 & E4 & E).
    destruct (proj_create o s cc m) as [x|e| | |] eqn:C; cbn [rres arun] in E; try discriminate. injection E as -> _.
    unfold proj_create in C. apply rthen_ok in C as [_ C]. apply rthen_ok in C as [C2 C]. injection C as <-. apply vcond_ok in C2.
    cbn [ambi_substreams] in V. unfold proj_check in P. apply rthen_ok in P as [P1 P]. apply rthen_ok in P as [P2 P3]. apply vcond_ok in P2, P3.
    change (2^8) with 256 in *. cbn [ambi_valid]. split; [apply validate_out_count_ok; [lia|exact P1]|]. split; [lia|]. split; [lia|]. split; [lia|]. lia.
  - cbn [arun] in E. injection E as <- _. cbn [ambi_substreams ambi_valid] in *. split; [exists 1; split; [lia|reflexivity]|]. split; [lia|].
    split; [unfold zlen; cbn [length]; lia|]. split; intros i Hi; cbn [In] in *; lia.
Qed.
Lemma fold_u32_total l : Forall (fun x => 0 <= ly_subs x < 256) l -> forall a, 0 <= a -> a + 256 * zlen l < 2^32 ->
  fold_left (fun a x => u32 (a + ly_subs x)) l a = a + total (map ly_subs l).
Proof.
  induction 1 as [|x l Hx Hl IH]; intros a Ha Hb; [cbn [fold_left map]; unfold total; cbn [fold_right]; lia|].
  cbn [fold_left map]. unfold zlen in *. cbn [length] in Hb. change (2^32) with 4294967296 in *. unfold u32 at 2. change (2^32) with 4294967296.
  rewrite Z.mod_small by lia. rewrite IH by lia. unfold total. cbn [fold_right]. lia.
Qed.
Lemma read_scalable_valid n c r l c' : cok c -> arun (read_scalable n) c = (Ok (r, l), c') ->
  1 <= zlen l <= 6 /\ total (map ly_subs l) = n /\ ((exists x, In x l /\ ly_layout x = 9) -> zlen l = 1).
Proof.
  intros Hc E. unfold read_scalable in E. apply arun_bind_ok in E as (k & c1 & E1 & E). apply (arun_lit_range 3 8) in E1 as [Hk K1]; [|exact Hc|lia|reflexivity].
  apply arun_bind_ok in E as (r0 & c2 & E1 & E). apply (arun_lit_range 5 8) in E1 as [Hr K2]; [|exact K1|lia|reflexivity].
  apply arun_bind_ok in E as (l0 & c3 & E1 & E).
  apply (arun_rlist_inv read_layer (fun x => 0 <= ly_subs x < 256)) in E1 as [L F]; [| |exact K2].
  - apply arun_rres_ok in E as ([] & V & E). cbn [arun] in E. injection E as <- <- _. change (2^3) with 8 in Hk.
    unfold layers_validate in V. apply rthen_ok in V as [V1 V]. apply rthen_ok in V as [V2 V3]. apply vcond_ok in V1, V2, V3.
    assert (num_layers l0 = zlen l0) as NL by (unfold num_layers, u8; change (2^8) with 256; apply Z.mod_small; unfold zlen; lia).
    rewrite NL in *. rewrite fold_u32_total in V2 by (try exact F; unfold zlen in *; try lia). split; [unfold zlen in *; lia|]. split; [lia|].
    intros (x & Hx & Hb). apply negb_true_iff, andb_false_iff in V3 as [V3|V3]; [|lia].
    exfalso. apply not_true_iff_false in V3. apply V3. apply existsb_exists. exists x. split; [exact Hx|]. unfold kBinaural. lia.
  - intros d a d' Hd Ed. unfold read_layer in Ed.
    apply arun_bind_ok in Ed as (v1 & d1 & Ev & Ed). apply (arun_lit_range 4 8) in Ev as [_ D1]; [|exact Hd|lia|reflexivity].
    apply arun_bind_ok in Ed as (v2 & d2 & Ev & Ed). apply arun_cok_ok in Ev as D2; [|exact D1].
    apply arun_bind_ok in Ed as (v3 & d3 & Ev2 & Ed). apply arun_cok_ok in Ev2 as D3; [|exact D2].
    apply arun_bind_ok in Ed as (v4 & d4 & Ev4 & Ed). apply arun_cok_ok in Ev4 as D4; [|exact D3].
    apply arun_bind_ok in Ed as (v5 & d5 & Ev5 & Ed). apply (arun_lit_range 8 8) in Ev5 as [B5 D5]; [|exact D4|lia|reflexivity].
    apply arun_bind_ok in Ed as (v6 & d6 & Ev6 & Ed). apply arun_bind_ok in Ed as (v7 & d7 & Ev7 & Ed). apply arun_bind_ok in Ed as (v8 & d8 & Ev8 & Ed).
    cbn [arun] in Ed. injection Ed as <- _. cbn [ly_subs]. exact B5.
Qed.
Lemma read_aconf_valid ty n c x c' : cok c -> arun (read_aconf ty n) c = (Ok x, c') -> aconf_valid ty n x.
Proof.
  intros Hc E. unfold read_aconf in E. unfold aconf_valid. destruct (ty =? 0) eqn:T0; [|destruct (ty =? 1) eqn:T1; [|destruct (ty =? 2) eqn:T2]].
  - split; [intros _|split; intro; lia]. apply arun_bind_ok in E as ([r l] & c1 & E & E2). cbn [arun fst snd] in E2. injection E2 as <- _.
    exists r, l. split; [reflexivity|]. exact (read_scalable_valid _ _ _ _ _ Hc E).
  - split; [intro; lia|]. split; [intros _|intro; lia].
    assert (exists a, x = ACAmbi a /\ arun (rb read_ambi (fun a => rres (veq n (ambi_substreams a)) ;;; RRet a)) c = (Ok a, c')) as (a & -> & R).
    { apply arun_bind_ok in E as (a & c1 & E & E2). exists a. apply arun_rres_ok in E2 as ([] & V & E2). cbn [arun] in E2. injection E2 as <- <-.
      split; [reflexivity|]. rewrite arun_bind, E, V. reflexivity. }
    exists a. split; [reflexivity|]. exact (read_ambi_valid _ _ _ _ Hc R).
  - split; [intro; lia|]. split; [intro; lia|]. intros _. unfold read_obj in E. apply arun_bind_ok in E as (s & c1 & E1 & E). apply arun_rcheck_ok in E as [_ E].
    apply (arun_lit_range 8 8) in E1 as [_ K1]; [|exact Hc|lia|reflexivity].
    apply arun_bind_ok in E as (k & c2 & E1 & E). apply arun_bind_ok in E as (b & c3 & E2 & E).
    apply (arun_lit_range 8 8) in E1 as [Hk _]; [|exact K1|lia|reflexivity].
    unfold obj_create in E. destruct (negb _) eqn:V; cbn [vcond rthen rbind rres arun] in E; [|discriminate]. injection E as <- _.
    exists k, b. split; [reflexivity|]. lia.
  - repeat split; intro; lia.
Qed.
Lemma read_ae_param_type c d c' : arun read_ae_param c = (Ok d, c') -> pd_type (pd_kind d) <> 0.
Proof.
  unfold read_ae_param. intro E. apply arun_bind_ok in E as (t & c1 & E1 & E). destruct (t =? 0) eqn:T0; [discriminate|].
  destruct (t =? 2); [|destruct (t =? 1)]; unfold read_pdef in E; cbn [pd_kind] in E.
  - apply arun_bind_ok in E as (b & c2 & E2 & E). cbn [read_kind rb arun] in E. injection E as <- _. discriminate.
  - apply arun_bind_ok in E as (b & c2 & E2 & E). apply arun_bind_ok in E as (k & c3 & E3 & E). cbn [arun] in E. injection E as <- _.
    cbn [read_kind] in E3. apply arun_bind_ok in E3 as (? & ? & _ & E3). apply arun_bind_ok in E3 as (? & ? & _ & E3). apply arun_bind_ok in E3 as (? & ? & _ & E3).
    cbn [arun] in E3. injection E3 as <- _. discriminate.
  - apply arun_bind_ok in E as (k & c2 & E2 & E). apply arun_rcheck_ok in E as [_ E]. apply arun_bind_ok in E as (b & c3 & E3 & E).
    cbn [arun] in E. injection E as <- _. cbn [pd_kind pd_type]. lia.
Qed.

Lemma read_aelem_valid h n c a c' : cok c -> arun (read_aelem h n) c = (Ok a, c') -> aelem_valid a.
Proof.
  intros Hcc R.
  unfold read_aelem in R. apply arun_bind_ok in R as (id & c1 & R1 & R). apply arun_cok_ok in R1 as K1; [|exact Hcc].
  apply arun_bind_ok in R as (ty & c2 & R2 & R). apply arun_cok_ok in R2 as K2; [|exact K1].
  apply arun_bind_ok in R as (r & c3 & R3 & R). apply arun_cok_ok in R3 as K3; [|exact K2].
  apply arun_bind_ok in R as (cc & c4 & R4 & R). apply arun_cok_ok in R4 as K4; [|exact K3].
  apply arun_bind_ok in R as (ns & c5 & R5 & R). destruct (arun_ruleb_range _ _ _ K4 R5) as (U5 & K5 & _).
  apply arun_bind_ok in R as (subs & c6 & R6 & R). apply arun_cok_ok in R6 as K6; [|exact K5].
  destruct (arun_rlist_inv _ (fun _ => True) _ (fun _ _ _ _ _ => Logic.I) _ _ _ K5 R6) as [L6 _].
  apply arun_rres_ok in R as ([] & V1 & R). apply arun_bind_ok in R as (np & c7 & R7 & R). destruct (arun_ruleb_range _ _ _ K6 R7) as (U7 & K7 & _).
  apply arun_rcheck_ok in R as (Hnp & R). apply arun_bind_ok in R as (ps & c8 & R8 & R). apply arun_cok_ok in R8 as K8; [|exact K7].
  apply (arun_rlist_inv read_ae_param (fun d => pd_type (pd_kind d) <> 0)) in R8 as [L8 F8]; [| |exact K7].
  2: { intros d x d' _ Ed. exact (read_ae_param_type _ _ _ Ed). }
  apply arun_rres_ok in R as ([] & V2 & R). apply arun_bind_ok in R as (x & c9 & R9 & R). cbn [arun] in R. injection R as <- _.
  apply vcond_ok in V1, V2. unfold aelem_valid. cbn [ae_subs ae_params ae_type ae_conf].
  split; [apply unique_NoDup; exact V1|]. split; [apply unique_NoDup; exact V2|]. unfold kMaxNumParameters in Hnp. split; [unfold zlen, u32P in *; lia|].
  split; [rewrite Forall_forall in F8; exact F8|].
  assert (u32 (zlen subs) = zlen subs) as Es by (unfold u32, zlen, u32P in *; apply Z.mod_small; lia). rewrite Es in R9.
  exact (read_aconf_valid _ _ _ _ _ K8 R9).
Qed.
Theorem C34_reader_only_accepts_valid : forall h n src cap fuel p a q,
  Forall byteP src -> (1 <= cap)%nat -> (8 <= fuel)%nat -> 0 <= p <= 8 * zlen src ->
  fst (crun fuel (read_at p (read_aelem h n)) (r_create cap src)) = Ok (a, q) -> aelem_valid a.
Proof.
  intros h n src cap fuel p a q Hs Hc Hf Hp E. rewrite crun_read_at in E by assumption.
  unfold at_result in E. destruct (arun _ _) as [[a1|e| | |] c'] eqn:R; try discriminate. injection E as -> _.
  set (c := mkC _ _ _) in R. assert (cok c) as Hcc by (unfold c, cok, zlen in *; cbn [c_pos c_bits]; rewrite bytes_bits_length; lia). clearbody c.
  exact (read_aelem_valid _ _ _ _ _ Hcc R).
Qed.

Example C34_ex :
  exists a, ae_create_scalable 300 1 200 [7; 1000] 3 [mkLy 1 true false 2 1 1 63 1 (-5) None; mkLy 15 false true 0 1 0 0 0 0 (Some 200)] = Ok a /\
    aelem_wf a /\ small_conf (ae_conf a) /\ stored_aelem a = a /\ is_ok (fst (wrun (write_aelem_obu (LebFixed 5) plain_header a [1]) w_empty)) = true.
Proof.
  eexists. split; [vm_compute; reflexivity|]. split.
  - unfold aelem_wf. cbn [ae_id ae_type ae_reserved ae_codec ae_subs ae_params ae_conf].
    do 4 (split; [pw|]). split; [repeat constructor; pw|]. split; [apply unique_NoDup; reflexivity|]. split; [constructor|].
    cbn [aconf_wf]. split; [pw|]. repeat constructor; unfold layer_wf; cbn [ly_layout ly_resa ly_subs ly_coupled ly_ogf ly_resb ly_gain ly_exp]; try pw.
  - split; [reflexivity|]. split; [vm_compute; reflexivity|vm_compute; reflexivity].
Qed.
