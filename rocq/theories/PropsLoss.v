(* C42: decoded frames ignore the signalled parameters.  C43: lost parameter blocks.  Examples for C29, C30, C40, C41. *)
From Verif Require Import Base WriteBuf ReadBuf Leb BufSpec LebSpec BitFacts WriteBufFacts ReadBufFacts LebFacts
  ParseFacts EndToEnd ObuHeader ObuHeaderFacts FrameFacts SeqFacts PureFacts SimpleObus CodecConfig Params Timing PropsTiming ParamManager PropsPM
  Processor PropsObu ProcFacts StreamSpec StreamFacts Session SessionFacts PropsProc PropsSession.

(* ================= SPEC ================= *)
(* [lost os os']: os' is os without some of its Parameter Block OBUs (obu_type 3, the upper five bits of the first byte). *)
Definition is_block_obu (o : list Z) : Prop := match o with b :: _ => b / 8 = 3 | [] => False end.
Inductive lost : list (list Z) -> list (list Z) -> Prop :=
| L_nil : lost [] []
| L_keep o a b : lost a b -> lost (o :: a) (o :: b)
| L_drop o a b : is_block_obu o -> lost a b -> lost (o :: a) b.

(* ---- frames do not depend on parameter blocks ---- *)
Definition same_audio (s t : pst) : Prop := g_audio (ps_g s) = g_audio (ps_g t) /\ ps_pm s = ps_pm t.
Lemma store_frame_same D s t h f : same_audio s t ->
  match store_frame D s h f, store_frame D t h f with (r, s1, i), (r', t1, i') => r = r' /\ i = i' /\ same_audio s1 t1 end.
Proof.
  intros [A P]. destruct s as [[sa sp] sm], t as [[ta tp] tm]. cbn [ps_g ps_pm g_audio] in A, P. subst ta tm.
  unfold store_frame. destruct (element_of D (af_id f)) as [a|]; [|repeat split].
  unfold generate_frame. destruct (negb _); [cbn [rcast]; repeat split|].
  unfold next_audio. cbn [ps_g ps_pm g_audio g_param].
  destruct (get_timestamps sa (af_id f) (ai_spf a)) as [[[r start] stop] m1].
  destruct r; cbn [rcast]; try (repeat split; fail).
  destruct (get_down_mixing sm (ai_id a)) as [r2 m2]. destruct (rbind r2 _) as [o| | | |]; cbn [rcast]; try (repeat split; fail).
  unfold update_states, global_timestamp. cbn [ps_g ps_pm g_audio].
  destruct m1 as [|[i d] l]; [repeat split|]. destruct (forallb _ _); [|repeat split].
  destruct (update_elements (d_aes D) (td_stamp d) m2) as [r3 m3]. repeat split.
Qed.
Lemma store_same D s t h p : same_audio s t ->
  match store D s h p, store D t h p with
  | (r, s1, i), (r', t1, i') => calm r -> calm r' /\ item_frames i = item_frames i' /\ same_audio s1 t1
  end.
Proof.
  intro Q. destruct p as [c|[f|d b|]]; cbn [store].
  - intros _. split; [exact I|]. split; [reflexivity|exact Q].
  - pose proof (store_frame_same D s t h f Q) as X. destruct (store_frame D s h f) as [[r s1] i], (store_frame D t h f) as [[r' t1] i'].
    destruct X as (-> & -> & X). intro C. auto.
  - destruct Q as [A P]. unfold store_block, global_timestamp. rewrite <- A. destruct (g_audio (ps_g s)) as [|[j e] l] eqn:Eg.
    + intros _. split; [exact I|]. split; [reflexivity|split; [congruence|exact P]].
    + rewrite <- Eg. destruct (forallb _ _); [|intros _; split; [exact I|]; split; [reflexivity|split; [congruence|exact P]]].
      unfold next_param, get_timestamps.
      destruct (m_find (bl_id b) (g_param (ps_g s))) as [d1|], (m_find (bl_id b) (g_param (ps_g t))) as [d2|]; cbn [rthen rbind rcast]; unfold compare_timestamps, veq, vcond;
      repeat match goal with |- context [if ?x then _ else _] => destruct x end; cbn [rthen rbind rcast];
      intros _; (split; [exact I|]); (split; [reflexivity|]); split; cbn [ps_g ps_pm g_audio]; congruence.
  - intros _. split; [exact I|]. split; [reflexivity|exact Q].
Qed.
Lemma store_block_same D s h p r s1 i : h_type h = kParameterBlock -> (exists n w, p = lparse D h n w) -> store D s h p = (r, s1, i) ->
  calm r /\ item_frames i = [] /\ same_audio s s1.
Proof.
  intros Ht (n & w & ->). destruct (lparse D h n w) as [c|[f|d b|]] eqn:E; cbn [store].
  - intro H. injection H as <- <- <-. split; [exact I|]. split; [reflexivity|split; reflexivity].
  - exfalso. unfold lparse in E. rewrite Ht in E. change (is_audio_frame kParameterBlock) with false in E. cbv iota in E. 
    repeat (match type of E with context [match ?x with _ => _ end] => destruct x end; try discriminate).
  - unfold store_block. destruct (global_ok_or_err (ps_g s)) as [[[t|] Eg]|Eg]; rewrite Eg; try (intro H; injection H as <- <- <-; split; [exact I|]; split; [reflexivity|split; reflexivity]).
    unfold next_param, get_timestamps. destruct (m_find (bl_id b) (g_param (ps_g s))) as [d0|]; cbv iota beta; cbn [rthen rbind rcast]; unfold compare_timestamps, veq, vcond;
      repeat match goal with |- context [if ?x then _ else _] => destruct x end; cbn [rthen rbind rcast];
      intro H; injection H as <- <- <-; (split; [exact I|]); (split; [reflexivity|split; reflexivity]).
  - intro H. injection H as <- <- <-. split; [exact I|]. split; [reflexivity|split; reflexivity].
Qed.
Lemma done_process fuel cap D s o x : (8 <= fuel)%nat -> (1 <= cap)%nat -> is_obu o -> classify D s o = CDone (zlen o) x -> po_status x = Ok tt ->
  process_at fuel cap D s 0 o = Ok (x, 8 * zlen o).
Proof.
  intros Hf Hc Ho E Hx. pose proof (obu_bytes _ Ho) as By. pose proof (obu_len _ Ho) as Hl.
  pose proof (process_classify fuel cap D s [] o Hf Hc By ltac:(change (2^32) with 4294967296; change (2^21) with 2097152 in *; lia)) as P. cbn [app] in P. change (zlen []) with 0 in P.
  rewrite E in P. destruct P as (q & -> & Q). rewrite (Q Hx). reflexivity.
Qed.
Lemma classify_same D s t o s1 it : is_obu o -> same_audio s t -> classify D s o = CDone (zlen o) (mkOut (Ok tt) s1 it true) ->
  exists t1 it', classify D t o = CDone (zlen o) (mkOut (Ok tt) t1 it' true) /\ item_frames it = item_frames it' /\ same_audio s1 t1.
Proof.
  intros Ho Q. destruct (obu_fill o [] Ho) as (ty & r & F). rewrite app_nil_r in F. unfold classify. rewrite F, Z.ltb_irrefl.
  destruct (prun read_header _) as [|?|[h n] w]; try discriminate. unfold effect. destruct (temporal_unit_type (h_type h)).
  - pose proof (store_same D s t h (lparse D h n w) Q) as X.
    destruct (store D s h (lparse D h n w)) as [[st sx] i], (store D t h (lparse D h n w)) as [[st' tx] i'].
    intro E. destruct st; try discriminate; injection E as <- <-; destruct (X I) as (C & Ei & Qx); destruct st'; try contradiction; eexists _, _; (split; [reflexivity|]; auto).
  - destruct ((h_type h =? kSequenceHeader) && negb (h_red h)); [discriminate|].
    destruct ((h_type h =? kSequenceHeader) || (h_type h =? kCodecConfig) || (h_type h =? kAudioElement) || (h_type h =? kMixPresentation));
      [destruct (h_red h); [|discriminate]|]; intro E; injection E as <- <-; eexists _, _; (split; [reflexivity|]; auto).
Qed.
Lemma classify_block_same D s o s1 it : is_obu o -> is_block_obu o -> classify D s o = CDone (zlen o) (mkOut (Ok tt) s1 it true) ->
  item_frames it = [] /\ same_audio s s1.
Proof.
  intros Ho Hb. pose proof (obu_len _ Ho) as Hl. destruct (obu_fill o [] Ho) as (ty & r & F). rewrite app_nil_r in F.
  assert (ty = 3) as ->.
  { destruct Ho as (b0 & size & body & -> & Hb0 & Hs & Hk & Hv & _ & H2). cbn [is_block_obu] in Hb. rewrite fill_obu in F by (try assumption; lia). congruence. }
  unfold classify. rewrite F, Z.ltb_irrefl. unfold zlen at 1. rewrite Nat2Z.id, firstn_all.
  destruct (prun read_header (bytes_bits o)) as [|?|[h n] w] eqn:Eh; try discriminate.
  assert (Z.of_nat (length (bytes_bits o)) < 8 * (2^32 - 64)) as Hlo.
  { rewrite bytes_bits_length. unfold zlen in *. change (2^32) with 4294967296. change (2^21) with 2097152 in *. lia. }
  destruct (header_shape _ _ _ _ Eh Hlo) as (t & total & r' & Ef & Ht & _). rewrite F in Ef. injection Ef as <- _ _.
  unfold effect. rewrite <- Ht || rewrite Ht. change (temporal_unit_type 3) with true. cbv iota.
  destruct (store D s h (lparse D h n w)) as [[st sx] i] eqn:E.
  destruct (store_block_same D s h _ _ _ _ ltac:(exact (eq_sym Ht) || exact Ht) ltac:(eauto) E) as (C & Ei & Q).
  intro X. destruct st; try contradiction; injection X as <- <-; auto.
Qed.
(* Dropping any of the parameter blocks of a stream leaves every audio frame as it was.  (What is missing for C43: the other parameter
   blocks are not unaffected, C43_lost_block_refuted.) *)
Theorem C43_audio_survives_lost_blocks_partial : forall fuel cap D s os os' its s1,
  (8 <= fuel)%nat -> (1 <= cap)%nat -> decoded fuel cap D s os its s1 -> lost os os' ->
  exists its' s1', decoded fuel cap D s os' its' s1' /\ flat_map item_frames its' = flat_map item_frames its.
Proof.
  intros fuel cap D s os os' its s1 Hf Hc Hd Hl.
  enough (forall t, same_audio s t -> exists its' t1, decoded fuel cap D t os' its' t1 /\ flat_map item_frames its' = flat_map item_frames its) as X
    by (apply X; split; reflexivity).
  revert os' Hl. induction Hd as [s|s o os it its s1 s2 Ho E _ IH]; intros os' Hl t Q.
  - inversion Hl. subst. exists [], t. split; [constructor|reflexivity].
  - pose proof (process_classify_obu fuel cap D s o _ _ Hf Hc Ho E eq_refl) as Ec. inversion Hl as [|o1 a b Hl1|o1 a b Hb Hl1]; subst.
    + destruct (classify_same D s t o s1 it Ho Q Ec) as (t1 & it' & Et & Ei & Q1). destruct (IH _ Hl1 t1 Q1) as (its' & t2 & Hd' & Ef).
      exists (it' :: its'), t2. split; [|cbn [flat_map]; congruence]. eapply D_cons; [exact Ho| |exact Hd'].
      apply (done_process fuel cap D t o _ Hf Hc Ho Et). reflexivity.
    + destruct (classify_block_same D s o s1 it Ho Hb Ec) as [Ei [Q1 Q2]].
      destruct (IH _ Hl1 t) as (its' & t2 & Hd' & Ef); [destruct Q; split; congruence|].
      exists its', t2. split; [exact Hd'|]. cbn [flat_map]. rewrite Ei, Ef. reflexivity.
Qed.

(* ================= examples ================= *)
(* One stereo audio element 300 with substream 0 (8 ticks per frame) and a demixing parameter 50 (mode 1, w index 5 by default). *)
Definition ex_def : pdef := mkPD (mkPB 50 48000 0 (Some (Params.mkS 8 8 1 []))) (KDemixing 1 0 5 0).
Definition ex_aes : list (Z * list pdef) := [(300, [ex_def])].
Definition ex_D : descs := mkD [mkAI 300 [0] 8 0] [(50, ex_def)].
Definition ex_g : gtm := mkG [(0, mkTd 48000 0)] [(50, mkTd 48000 0)].
Definition ex_pm : pm := mkPm [(50, None)] [] [(300, mkDs 50 1 5 0 0 0 FirstFrame)] [].
Definition ex_s : pst := mkPst ex_g ex_pm.
(* the state which the descriptors give *)
Example ex_state : gtm_create [(48000, [0])] [(50, 48000)] = Ok ex_g /\ pm_new ex_aes = Ok ex_pm.
Proof. split; vm_compute; reflexivity. Qed.
Definition ex_td : list Z := [32; 0].
Definition ex_frame (x : Z) : list Z := [48; 2; x; 7].
Definition ex_block (mode : Z) : list Z := [24; 2; 50; 32 * mode].
Definition ex_reserved : list Z := [8 * 25; 3; 1; 2; 3].
Definition ex_stream : list (list Z) :=
  [ex_td; ex_block 5; ex_frame 1; ex_td; ex_block 6; ex_reserved; ex_frame 2; ex_td; ex_block 4; ex_frame 3].
Definition ex_k : nat := S (Z.to_nat (2^22)).
Lemma ex_obu o : forallb (fun b => (0 <=? b) && (b <? 256)) o = true ->
  match o with b0 :: n :: body => n <? 128 = true /\ n = zlen body | _ => False end -> is_obu o.
Proof.
  destruct o as [|b0 [|n body]]; try contradiction. intros H [H1 H2]. cbn [forallb] in H. apply andb_prop in H as [Hb H]. apply andb_prop in H as [Hn H].
  exists b0, [n], body. split; [reflexivity|]. split; [unfold byteP; lia|]. split; [unfold is_leb; lia|]. split; [unfold zlen; cbn [length]; lia|].
  split; [cbn [uleb_value]; rewrite Z.mod_small by lia; lia|]. split.
  - rewrite forallb_forall in H. apply Forall_forall. intros x Hx. specialize (H _ Hx). unfold byteP. lia.
  - rewrite <- H2. change (2^21) with 2097152. lia.
Qed.
Ltac obu := apply ex_obu; [reflexivity|split; reflexivity].
Ltac walk := repeat (eapply D_cons; [obu|vm_compute; reflexivity|]); apply D_nil.
(* C29, C40: the hypotheses are met by three temporal units with parameter blocks and a reserved OBU; cut after every third byte. *)
Fixpoint cut3 (l : list Z) : list (list Z) := match l with a :: b :: c :: t => [a; b; c] :: cut3 t | [] => [] | _ => [l] end.
Example C29_ex : exists its s1 us pending,
  decoded 8 1 ex_D ex_s ex_stream its s1 /\ length (flat_map item_frames its) = 3%nat /\ length (flat_map item_blocks its) = 3%nat /\
  concat (cut3 (concat ex_stream)) = concat ex_stream /\ Forall (Forall byteP) (cut3 (concat ex_stream)) /\
  whole_session 8 ex_k ex_D (cut3 (concat ex_stream)) ex_s = (us, Finished, s1, pending) /\ us = group false None its /\ map un_time us = [0; 8; 16].
Proof.
  eexists _, _, _, _. split; [walk|]. split; [vm_compute; reflexivity|]. split; [vm_compute; reflexivity|]. split; [vm_compute; reflexivity|].
  split; [repeat constructor; unfold byteP; lia|]. split; [vm_compute; reflexivity|]. split; vm_compute; reflexivity.
Qed.
(* C30: a reserved OBU, a redundant sequence header, a parameter block with an unknown ID *)
Example C30_ex : exists h n q h2 n2 q2 h3 n3 q3 e q4,
  fst (crun 8 (read_at 0 read_header) (r_create 1 ex_reserved)) = Ok ((h, n), q) /\ h_type h = 25 /\ is_obu ex_reserved /\
  fst (crun 8 (read_at 0 read_header) (r_create 1 [252; 1; 0])) = Ok ((h2, n2), q2) /\ h_type h2 = kSequenceHeader /\ h_red h2 = true /\ is_obu [252; 1; 0] /\
  fst (crun 8 (read_at 0 read_header) (r_create 1 [24; 2; 51; 160])) = Ok ((h3, n3), q3) /\ h_type h3 = 3 /\ is_obu [24; 2; 51; 160] /\
  fst (crun 8 (read_at q3 (parse_payload ex_D h3 n3)) (r_create 1 [24; 2; 51; 160])) = Ok (inl e, q4).
Proof.
  eexists _, _, _, _, _, _, _, _, _, _, _. split; [vm_compute; reflexivity|]. split; [reflexivity|]. split; [obu|].
  split; [vm_compute; reflexivity|]. split; [reflexivity|]. split; [reflexivity|]. split; [obu|].
  split; [vm_compute; reflexivity|]. split; [reflexivity|]. split; [obu|]. vm_compute. reflexivity.
Qed.
(* C41: the hypotheses are met, and a malformed stream does end with an error *)
Example C41_ex : exists s1 u1 b1 b2 os2 s2 u2 b3,
  session 8 ex_k ex_D [concat ex_stream] ex_s (mkU tud_empty tud_empty) (r_stream 1024) = (os2, Finished, s1, u1, b1) /\
  r_push [8; 0] b1 = (Ok tt, b2) /\
  drain (crun_with 8) r_flush ex_k ex_k ex_D s1 u1 b2 = ([], Err InvalidArgument, s2, u2, b3).
Proof.
  destruct (session 8 ex_k ex_D [concat ex_stream] ex_s (mkU tud_empty tud_empty) (r_stream 1024)) as [[[[os2 e] s1] u1] b1] eqn:E.
  exists s1, u1, b1. destruct (r_push [8; 0] b1) as [r b2] eqn:Ep. exists b2, os2.
  vm_compute in E. injection E as <- <- <- <- <-. vm_compute in Ep. injection Ep as <- <-.
  eexists _, _, _. split; [reflexivity|]. split; [reflexivity|]. vm_compute. reflexivity.
Qed.

(* C42 is false of the code: the stream signals mode 5 for the frame at time 0 (to be decoded with w index 0, the first frame's), but
   the frame is decoded with the default of the definition. *)
Theorem C42_signalled_parameters_refuted : exists us s1 pending f b x,
  whole_session 8 ex_k ex_D ex_stream ex_s = (us, Finished, s1, pending) /\
  In f (flat_map un_frames us) /\ of_element f = 300 /\ In b (flat_map un_blocks us) /\ bl_id (ob_obu b) = 50 /\ bl_subs (ob_obu b) = [Some (DDemix 5 0)] /\
  ob_start b = of_start f /\ ob_end b = of_end f /\
  spec_params 5 0 = Ok x /\ of_dmix f <> x /\ spec_params 1 5 = Ok (of_dmix f).
Proof.
  eexists _, _, _, _, _, _. split; [vm_compute; reflexivity|]. split; [left; reflexivity|]. split; [reflexivity|]. split; [left; reflexivity|].
  split; [reflexivity|]. split; [reflexivity|]. split; [reflexivity|]. split; [reflexivity|]. split; [reflexivity|]. split; [discriminate|reflexivity].
Qed.
(* C43 is false of the code: when the second of three parameter blocks is missing, the third is dropped too, although it arrives at its time. *)
Definition ex_lossy : list (list Z) :=
  [ex_td; ex_block 5; ex_frame 1; ex_td; ex_reserved; ex_frame 2; ex_td; ex_block 4; ex_frame 3].
Theorem C43_lost_block_refuted : exists us s1 p us' s1' p',
  lost ex_stream ex_lossy /\
  whole_session 8 ex_k ex_D ex_stream ex_s = (us, Finished, s1, p) /\ whole_session 8 ex_k ex_D ex_lossy ex_s = (us', Finished, s1', p') /\
  map un_time us = map un_time us' /\
  map (fun u => map (fun b => bl_subs (ob_obu b)) (un_blocks u)) us = [[[Some (DDemix 5 0)]]; [[Some (DDemix 6 0)]]; [[Some (DDemix 4 0)]]] /\
  map (fun u => map (fun b => bl_subs (ob_obu b)) (un_blocks u)) us' = [[[Some (DDemix 5 0)]]; []; []].
Proof.
  eexists _, _, _, _, _, _. split.
  - unfold ex_stream, ex_lossy. do 4 apply L_keep. apply L_drop; [reflexivity|]. do 5 apply L_keep. apply L_nil.
  - split; [vm_compute; reflexivity|]. split; [vm_compute; reflexivity|]. split; [reflexivity|]. split; reflexivity.
Qed.

(* What a parameter block does to the clocks, and when it is accepted: its parameter moves on by the duration of the block even if the
   block is refused (so a parameter which has once been early or late stays so), everything else stays; the block is accepted exactly
   when the parameter is at the time of the audio, and lasts from there. *)
Theorem C43_block_times : forall s h d b r s1 it t p,
  store_block s h d b = (r, s1, it) -> global_timestamp (ps_g s) = Ok (Some t) -> m_find (bl_id b) (g_param (ps_g s)) = Some p ->
  let dur := match bl_sched b with Some x => s_dur x | None => pb_dur (pd_base d) end in
  ps_pm s1 = ps_pm s /\ g_audio (ps_g s1) = g_audio (ps_g s) /\
  (forall i, m_find i (g_param (ps_g s1)) = if bl_id b =? i then Some (mkTd (td_rate p) (s64 (td_stamp p + dur))) else m_find i (g_param (ps_g s))) /\
  (td_stamp p = t -> r = Ok tt /\ it = IBlock (mkOb h b t (s64 (t + dur)))) /\ (td_stamp p <> t -> r = Err InvalidArgument /\ it = INone).
Proof.
  intros s h d b r s1 it t p H Hg Hp dur. unfold store_block in H. rewrite Hg in H. unfold next_param, get_timestamps in H. rewrite Hp in H. fold dur in H.
  change (block_duration d b) with dur in H. unfold rthen, compare_timestamps, veq, vcond in H. cbn [rbind] in H.
  assert (forall i v, m_find i (m_set (bl_id b) v (g_param (ps_g s))) = if bl_id b =? i then Some v else m_find i (g_param (ps_g s))) as Fs.
  { intros i v. clear H. revert Hp. generalize (g_param (ps_g s)) as m. induction m as [|[k x] m IH]; intro Hp; [discriminate Hp|]. cbn [m_find m_set] in *. destruct (Z.eqb_spec k (bl_id b)) as [->|Nk]; cbn [m_find]; [destruct (bl_id b =? i); reflexivity|].
    rewrite (IH Hp). destruct (Z.eqb_spec k i) as [->|]; [|reflexivity]. destruct (Z.eqb_spec (bl_id b) i); [congruence|reflexivity]. }
  destruct (Z.eqb_spec t (td_stamp p)) as [Et|Nt]; injection H as <- <- <-; cbn [ps_pm ps_g g_audio g_param]; (split; [reflexivity|]; split; [reflexivity|]; split; [intro i; apply Fs|]); split; intro Q; try congruence; [|split; reflexivity].
  rewrite <- Et. split; reflexivity.
Qed.
Example C43_block_times_ex : exists s h d b t p, global_timestamp (ps_g s) = Ok (Some t) /\ m_find (bl_id b) (g_param (ps_g s)) = Some p /\ td_stamp p <> t /\
  fst (fst (store_block s h d b)) = Err InvalidArgument.
Proof.
  exists (mkPst (mkG [(1, mkTd 48000 16)] [(5, mkTd 48000 8)]) (mkPm [] [] [] [])), (mkH 3 false false 0 0 None), (mkPD (mkPB 5 48000 0 (Some (Params.mkS 8 8 1 []))) (KMixGain 0)), (mkBlk 5 None [Some (DStep 1)]), 16, (mkTd 48000 8).
  split; [reflexivity|]. split; [reflexivity|]. split; [discriminate|]. vm_compute. reflexivity.
Qed.
