(* C53: for which descriptors a decoder can be initialised. *)
From Verif Require Import Base WriteBuf ReadBuf Leb BufSpec LebSpec ObuHeader SimpleObus CodecConfig Params AudioElement MixPresentation
  Timing ParamManager AeData Profile MixSelect Processor PropsTiming PropsPM Session Reorder Pcm DecoderApi Descriptors
  PropsAE PropsMix PropsLabels PropsProfile DescFacts PropsDesc.
From Coq Require Import Permutation.

(* ================= SPEC ================= *)
(* The parameter definitions of the descriptors.  A recon gain definition takes the flags and channel numbers from the layers of its
   audio element. *)
Inductive defines (o : dobus) : variant -> Prop :=
| Def_demixing i a d : In (i, a) (do_aes o) -> In d (ae_params (ad_obu a)) -> pd_type (pd_kind d) = 1 -> defines o (d, None)
| Def_recon i a d r l : In (i, a) (do_aes o) -> In d (ae_params (ad_obu a)) -> pd_type (pd_kind d) = 2 -> ae_conf (ad_obu a) = ACScal r l ->
    defines o (mkPD (pd_base d) (KRecon (map ly_rg l)), Some (i, firstn (length l) (ad_chans a)))
| Def_element m s e : In m (do_mixes o) -> In s (mp_subs m) -> In e (sm_elems s) -> defines o (sa_gain e, None)
| Def_rendering m s e x : In m (do_mixes o) -> In s (mp_subs m) -> In e (sm_elems s) -> In x (rc_defs (sa_conf e)) -> defines o (rd_def x, None)
| Def_output m s : In m (do_mixes o) -> In s (mp_subs m) -> defines o (sm_gain s, None).
Definition parameter_id (v : variant) : Z := pb_id (pd_base (fst v)).
Definition parameter_rate (v : variant) : Z := pb_rate (pd_base (fst v)).
Record acceptable (o : dobus) : Prop := mkAcceptable {
  (* one parameter ID, one definition *)
  ac_same : forall v w, defines o v -> defines o w -> parameter_id v = parameter_id w -> v = w;
  ac_rate : forall v, defines o v -> parameter_rate v <> 0;
  (* recon gain is for channel-based audio *)
  ac_recon : forall i a d, In (i, a) (do_aes o) -> In d (ae_params (ad_obu a)) -> pd_type (pd_kind d) = 2 -> exists r l, ae_conf (ad_obu a) = ACScal r l;
  (* a substream belongs to one audio element *)
  ac_substreams : forall i a j b s, In (i, a) (do_aes o) -> In (j, b) (do_aes o) -> In s (ae_subs (ad_obu a)) -> In s (ae_subs (ad_obu b)) -> i = j }.

(* ================= proofs ================= *)
(* ---- maps of definitions ---- *)
Definition holds (vs : list variant) (m : list (Z * variant)) : Prop :=
  NoDup (map fst m) /\ forall i v, In (i, v) m <-> In v vs /\ parameter_id v = i.
Definition one_each (vs : list variant) : Prop := forall v w, In v vs -> In w vs -> parameter_id v = parameter_id w -> v = w.
Lemma insert_def_spec v vs m : holds vs m ->
  match insert_def v m with
  | Ok m' => holds (v :: vs) m' /\ forall w, In w vs -> parameter_id w = parameter_id v -> w = v
  | Err e => e = InvalidArgument /\ exists w, In w vs /\ parameter_id w = parameter_id v /\ w <> v
  | _ => False
  end.
Proof.
  intros [N H]. unfold insert_def. fold (parameter_id v). destruct (m_find (parameter_id v) m) as [w|] eqn:F.
  - pose proof (m_find_in _ _ _ F) as Iw. destruct (proj1 (H _ _) Iw) as [Hw Ew]. destruct (variant_eq_dec v w) as [<- |E].
    + split.
      * split; [exact N|]. intros i u. rewrite H. cbn [In]. split; [tauto|]. intros [[<- | X] Y]; auto.
      * intros u Hu Eu. assert (In (parameter_id v, u) m) as Iu by (apply H; auto). apply (in_m_find _ _ _ N) in Iu. congruence.
    + split; [reflexivity|]. exists w. split; [exact Hw|]. split; [exact Ew|]. congruence.
  - split.
    + split.
      * rewrite map_app. cbn [map fst]. apply nodup_snoc; [exact N|]. apply m_find_none. exact F.
      * intros i u. rewrite in_app_iff, H. cbn [In]. split; [intros [[X Y]|[X|[]]]; [auto|injection X as <- <-; auto]|].
        intros [[<- | X] Y]; [subst i; auto|auto].
    + intros w Hw Ew. exfalso. apply m_find_none in F. apply F. apply in_map_iff. exists (parameter_id v, w). split; [reflexivity|]. apply H. auto.
Qed.
Lemma insert_defs_spec : forall l vs m, holds vs m -> one_each vs ->
  match insert_defs l m with
  | Ok m' => holds (rev l ++ vs) m' /\ one_each (rev l ++ vs)
  | Err e => e = InvalidArgument /\ ~ one_each (l ++ vs)
  | _ => False
  end.
Proof.
  induction l as [|v l IH]; intros vs m Hh Ho; cbn [insert_defs rev app]; [auto|].
  pose proof (insert_def_spec v vs m Hh) as X. destruct (insert_def v m) as [m1|er| | |]; try contradiction; cbn [rbind].
  - destruct X as [H1 H2]. specialize (IH (v :: vs) m1 H1).
    assert (one_each (v :: vs)) as O1.
    { intros a b [<- | Ha] [<- | Hb] E; [reflexivity| | |auto]; [symmetry; apply H2; auto|apply H2; auto]. }
    specialize (IH O1). destruct (insert_defs l m1) as [m2|er| | |]; try contradiction.
    + replace ((rev l ++ [v]) ++ vs) with (rev l ++ v :: vs) by (rewrite <- app_assoc; reflexivity). exact IH.
    + destruct IH as [-> IH]. split; [reflexivity|]. intro C. apply IH. intros a b Ha Hb. apply C; cbn [In]; rewrite in_app_iff in *; cbn [In] in *; tauto.
  - destruct X as [-> (w & Hw & Ew & Nw)]. split; [reflexivity|]. intro C. apply Nw. apply C; [right; apply in_or_app; auto|left; reflexivity|exact Ew].
Qed.
Lemma insert_defs_app a : forall b m, insert_defs (a ++ b) m = rbind (insert_defs a m) (insert_defs b).
Proof. induction a as [|v a IH]; intros b m; cbn [app insert_defs]; [reflexivity|]. destruct (insert_def v m); cbn [rbind]; auto. Qed.

(* ---- the definitions of an audio element ---- *)
Definition layers_of (a : aelem) : list layer := match ae_conf a with ACScal _ l => l | _ => [] end.
Definition is_scal (a : aelem) : bool := match ae_conf a with ACScal _ _ => true | _ => false end.
Definition variants_of (a : aed) (l : list pdef) : list variant :=
  flat_map (fun d => if pd_type (pd_kind d) =? 1 then [(d, None)]
                     else if pd_type (pd_kind d) =? 2
                     then [(mkPD (pd_base d) (KRecon (map ly_rg (layers_of (ad_obu a)))), Some (ae_id (ad_obu a), firstn (length (layers_of (ad_obu a))) (ad_chans a)))]
                     else []) l.
Definition has_recon (l : list pdef) : bool := existsb (fun d => pd_type (pd_kind d) =? 2) l.
Lemma insert_def_clean v m : match insert_def v m with Ok _ | Err _ => True | _ => False end.
Proof. unfold insert_def. destruct (m_find _ m); [destruct (variant_eq_dec _ _)|]; exact I. Qed.
Lemma element_defs_spec a l : Forall typed l -> (length (layers_of (ad_obu a)) <= length (ad_chans a))%nat -> forall m,
  if has_recon l && negb (is_scal (ad_obu a)) then exists e, element_defs a l m = Err e
  else element_defs a l m = insert_defs (variants_of a l) m.
Proof.
  intros T Hc. induction T as [|d l Td T IH]; intro m; cbn [has_recon existsb element_defs variants_of flat_map app]; [reflexivity|].
  change (existsb _ l) with (has_recon l). change (flat_map _ l) with (variants_of a l). destruct Td as [T1 T2].
  destruct (pd_type (pd_kind d) =? 1) eqn:E1.
  - replace (pd_type (pd_kind d) =? 2) with false by lia. cbn [orb app insert_defs]. destruct T1 as (? & ? & ? & ? & E); [lia|]. rewrite E.
    pose proof (insert_def_clean (d, None) m) as X. destruct (insert_def (d, None) m) as [m1| | | |]; try contradiction; cbn [rbind].
    + apply IH.
    + destruct (_ && _); [eauto|reflexivity].
  - destruct (pd_type (pd_kind d) =? 2) eqn:E2; cbn [orb app].
    + destruct T2 as (f & E); [lia|]. rewrite E. unfold recon_aux, is_scal, layers_of in *. destruct (ae_conf (ad_obu a)) as [r ls|c|n x|x]; cbn [negb andb rbind]; try (exists InvalidArgument; reflexivity).
      replace (length (ad_chans a) <? length ls)%nat with false by lia. cbn [rbind fst snd insert_defs].
      set (v := (mkPD _ _, Some _)). pose proof (insert_def_clean v m) as X. destruct (insert_def v m) as [m1| | | |]; try contradiction; cbn [rbind]; [|reflexivity].
      specialize (IH m1). rewrite andb_false_r in IH. exact IH.
    + cbn [rbind]. apply IH.
Qed.
(* Every audio element has the numbers of channels of its layers. *)
Lemma layers_data_len l : forall first acc ids m g cs x, layers_data first acc ids l m g cs = Ok x -> length (snd x) = (length cs + length l)%nat.
Proof.
  induction l as [|ly l IH]; intros first acc ids m g cs x E; cbn [layers_data] in E; [injection E as <-; cbn [snd length]; lia|].
  destruct (layer_labels first acc ly) as [y| | | |]; try discriminate. cbn [rbind] in E. destruct (add_labels (snd y) ids m) as [z| | | |]; try discriminate. cbn [rbind] in E.
  destruct (validate_counts (snd y) ly); try discriminate. cbn [rbind rthen] in E. apply IH in E. rewrite app_length in E. cbn [length] in *. lia.
Qed.
Lemma chans_layers codecs q a : aelem_valid q -> layered q -> generate_ae codecs q = Ok a -> (length (layers_of (ad_obu a)) <= length (ad_chans a))%nat.
Proof.
  intros V L E. destruct (generate_ae_codec _ _ _ E) as [Eo _]. rewrite Eo. unfold layers_of. destruct (ae_conf q) as [r l|c|n x|x] eqn:Ec; try (cbn [length]; lia).
  destruct (L r l Ec) as [T | -> ]; [|cbn [length]; lia]. unfold generate_ae in E. rewrite T, Ec in E. cbn [Z.eqb] in E. unfold finalize_scalable in E.
  destruct (vunique (ae_subs q)); try discriminate. cbn [rthen rbind] in E.
  destruct V as (_ & _ & _ & _ & V & _). destruct (V T) as (r' & l' & El & Hl & _). rewrite Ec in El. injection El as <- <-.
  assert (firstn (Z.to_nat (num_layers l)) l = l) as Ef. { apply firstn_all2. unfold num_layers, u8, zlen in *. rewrite Z.mod_small by lia. lia. }
  rewrite Ef in E. destruct (layers_data _ _ _ _ _ _ _) as [y| | | |] eqn:Ey; try discriminate. cbn [rbind] in E. apply layers_data_len in Ey.
  destruct (veq _ _); try discriminate. cbn [rthen rbind] in E. destruct (m_find _ _); [|discriminate]. injection E as <-. cbn [ad_chans length] in *. lia.
Qed.

(* ---- all definitions ---- *)
Definition all_variants (o : dobus) : list variant :=
  flat_map (fun x => variants_of (snd x) (ae_params (ad_obu (snd x)))) (do_aes o) ++ mix_defs (do_mixes o).
Definition recon_misplaced (aes : aemap) : bool :=
  existsb (fun x => has_recon (ae_params (ad_obu (snd x))) && negb (is_scal (ad_obu (snd x)))) aes.
Lemma insert_defs_clean l : forall m, match insert_defs l m with Ok _ | Err _ => True | _ => False end.
Proof. induction l as [|v l IH]; intro m; cbn [insert_defs]; [exact I|]. pose proof (insert_def_clean v m) as X. destruct (insert_def v m); try contradiction; cbn [rbind]; [apply IH|exact I]. Qed.
Lemma elements_defs_spec aes : (forall i a, In (i, a) aes -> Forall typed (ae_params (ad_obu a)) /\ (length (layers_of (ad_obu a)) <= length (ad_chans a))%nat) -> forall m,
  if recon_misplaced aes then exists e, elements_defs aes m = Err e
  else elements_defs aes m = insert_defs (flat_map (fun x => variants_of (snd x) (ae_params (ad_obu (snd x)))) aes) m.
Proof.
  induction aes as [|[i a] t IH]; intros H m; cbn [recon_misplaced existsb elements_defs flat_map snd]; [reflexivity|].
  change (existsb _ t) with (recon_misplaced t). destruct (H i a (or_introl eq_refl)) as [Ta Ca].
  pose proof (element_defs_spec a (ae_params (ad_obu a)) Ta Ca m) as X.
  destruct (has_recon (ae_params (ad_obu a)) && negb (is_scal (ad_obu a))); cbn [orb].
  { destruct X as [e ->]. cbn [rbind]. eauto. }
  rewrite X, insert_defs_app. pose proof (insert_defs_clean (variants_of a (ae_params (ad_obu a))) m) as Cl.
  destruct (insert_defs (variants_of a (ae_params (ad_obu a))) m) as [m1|er| | |]; try contradiction; cbn [rbind].
  - apply IH. intros j b Hj. apply (H j b). right. exact Hj.
  - destruct (recon_misplaced t); [eauto|reflexivity].
Qed.
Lemma holds_nil : holds [] []. Proof. split; [constructor|]. intros i v. cbn [In]. tauto. Qed.
Lemma one_each_nil : one_each []. Proof. intros v w []. Qed.
Lemma one_each_perm l l' : (forall v, In v l <-> In v l') -> one_each l -> one_each l'.
Proof. intros H O v w Hv Hw. apply O; apply H; assumption. Qed.

Section Init.
Variable o : dobus.
Hypothesis C : consistent o.
Lemma aes_ok i a : In (i, a) (do_aes o) -> Forall typed (ae_params (ad_obu a)) /\ (length (layers_of (ad_obu a)) <= length (ad_chans a))%nat.
Proof. intro H. destruct C as [_ [_ C2] _]. destruct (C2 i a H) as (_ & V & T & L & _ & G). split; [exact T|]. exact (chans_layers _ _ _ V L G). Qed.
Lemma collect_spec :
  match collect_defs (do_aes o) (do_mixes o) with
  | Ok m => recon_misplaced (do_aes o) = false /\ one_each (all_variants o) /\ NoDup (map fst m) /\ (forall i v, In (i, v) m <-> In v (all_variants o) /\ parameter_id v = i)
  | Err _ => recon_misplaced (do_aes o) = true \/ ~ one_each (all_variants o)
  | _ => False
  end.
Proof.
  unfold collect_defs. pose proof (elements_defs_spec (do_aes o) aes_ok []) as X. destruct (recon_misplaced (do_aes o)).
  { destruct X as [e ->]. cbn [rbind]. auto. }
  rewrite X, <- insert_defs_app. fold (all_variants o). pose proof (insert_defs_spec (all_variants o) [] [] holds_nil one_each_nil) as Y.
  rewrite !app_nil_r in Y. destruct (insert_defs (all_variants o) []) as [m|er| | |]; try contradiction.
  - destruct Y as [[H1 H2] H3]. split; [reflexivity|]. split; [eapply one_each_perm; [|exact H3]; intro v; symmetry; apply in_rev|].
    split; [exact H1|]. intros i v. rewrite H2, <- in_rev. reflexivity.
  - right. apply Y.
Qed.
Lemma in_mix_defs v : In v (mix_defs (do_mixes o)) <->
  exists m s, In m (do_mixes o) /\ In s (mp_subs m) /\ (v = (sm_gain s, None) \/ exists e, In e (sm_elems s) /\ (v = (sa_gain e, None) \/ exists x, In x (rc_defs (sa_conf e)) /\ v = (rd_def x, None))).
Proof.
  unfold mix_defs. rewrite in_map_iff. split.
  - intros (d & <- & H). apply in_flat_map in H as (m & Hm & H). apply in_flat_map in H as (s & Hs & H). exists m, s. split; [exact Hm|]. split; [exact Hs|].
    apply in_app_or in H as [H|[<- | []]]; [|auto]. right. apply in_flat_map in H as (e & He & H). exists e. split; [exact He|].
    apply in_app_or in H as [H|[<- | []]]; [|auto]. right. apply in_map_iff in H as (x & <- & Hx). eauto.
  - intros (m & s & Hm & Hs & H).
    assert (forall d, In d (flat_map (fun e => map rd_def (rc_defs (sa_conf e)) ++ [sa_gain e]) (sm_elems s) ++ [sm_gain s]) ->
      In d (flat_map (fun m => flat_map (fun s => flat_map (fun e => map rd_def (rc_defs (sa_conf e)) ++ [sa_gain e]) (sm_elems s) ++ [sm_gain s]) (mp_subs m)) (do_mixes o))) as X.
    { intros d Hd. apply in_flat_map. exists m. split; [exact Hm|]. apply in_flat_map. exists s. auto. }
    destruct H as [-> | (e & He & [-> | (x & Hx & ->)])]; eexists; (split; [reflexivity|]); apply X; apply in_or_app; [right; left; reflexivity| |]; left;
      apply in_flat_map; exists e; (split; [exact He|]); apply in_or_app; [right; left; reflexivity|left; apply in_map; exact Hx].
Qed.
Lemma in_variants v : recon_misplaced (do_aes o) = false -> (In v (all_variants o) <-> defines o v).
Proof.
  intro Hr. destruct C as [_ [_ C2] _]. unfold all_variants. rewrite in_app_iff, in_mix_defs, in_flat_map. split.
  - intros [([i a] & Ha & H)|(m & s & Hm & Hs & [-> | (e & He & [-> | (x & Hx & ->)])])]; [|eapply Def_output; eauto|eapply Def_element; eauto|eapply Def_rendering; eauto].
    cbn [snd] in H. apply in_flat_map in H as (d & Hd & H). destruct (_ =? 1) eqn:E1 in H.
    { destruct H as [<- | []]. eapply Def_demixing; eauto. lia. }
    destruct (_ =? 2) eqn:E2 in H; [|destruct H]. destruct H as [<- | []]. destruct (C2 i a Ha) as (<- & _).
    destruct (ae_conf (ad_obu a)) as [r l|c|n x|x] eqn:Ec.
    1:{ pose proof (Def_recon o _ a d r l Ha Hd ltac:(lia) Ec) as X. unfold layers_of. rewrite Ec. exact X. }
    all: exfalso; unfold recon_misplaced in Hr; assert (existsb (fun x => has_recon (ae_params (ad_obu (snd x))) && negb (is_scal (ad_obu (snd x)))) (do_aes o) = true) as X;
      [apply existsb_exists; exists (ae_id (ad_obu a), a); split; [exact Ha|]; cbn [snd]; unfold is_scal; rewrite Ec; cbn [negb]; rewrite andb_true_r; apply existsb_exists; exists d; auto|congruence].
  - intros [i a d Ha Hd E|i a d r l Ha Hd E Ec|m s e Hm Hs He|m s e x Hm Hs He Hx|m s Hm Hs]; [left|left|right|right|right].
    + exists (i, a). split; [exact Ha|]. cbn [snd]. apply in_flat_map. exists d. split; [exact Hd|]. rewrite E. left. reflexivity.
    + exists (i, a). split; [exact Ha|]. cbn [snd]. apply in_flat_map. exists d. split; [exact Hd|]. rewrite E. left. destruct (C2 i a Ha) as (<- & _). unfold layers_of. rewrite Ec. reflexivity.
    + exists m, s. split; [exact Hm|]. split; [exact Hs|]. right. exists e. auto.
    + exists m, s. split; [exact Hm|]. split; [exact Hs|]. right. exists e. split; [exact He|]. right. eauto.
    + exists m, s. auto.
Qed.
Lemma misplaced_spec : recon_misplaced (do_aes o) = false <->
  forall i a d, In (i, a) (do_aes o) -> In d (ae_params (ad_obu a)) -> pd_type (pd_kind d) = 2 -> exists r l, ae_conf (ad_obu a) = ACScal r l.
Proof.
  split.
  - intros H i a d Ha Hd E. destruct (ae_conf (ad_obu a)) as [r l|c|n x|x] eqn:Ec; [eauto| | |]; exfalso;
      (assert (recon_misplaced (do_aes o) = true) as X; [|congruence]); apply existsb_exists; exists (i, a); (split; [exact Ha|]); cbn [snd]; unfold is_scal; rewrite Ec;
      cbn [negb]; rewrite andb_true_r; apply existsb_exists; exists d; (split; [exact Hd|lia]).
  - intro H. destruct (recon_misplaced (do_aes o)) eqn:E; [|reflexivity]. apply existsb_exists in E as ([i a] & Ha & E). cbn [snd] in E. apply andb_true_iff in E as [E1 E2].
    apply existsb_exists in E1 as (d & Hd & E1). destruct (H i a d Ha Hd ltac:(lia)) as (r & l & Ec). unfold is_scal in E2. rewrite Ec in E2. discriminate.
Qed.
End Init.

(* ---- substreams ---- *)
Lemma map_substreams_spec : forall l m, NoDup (map fst m) ->
  match map_substreams l m with
  | Ok _ => NoDup (map fst m ++ map fst l)
  | Err e => e = InvalidArgument /\ ~ NoDup (map fst m ++ map fst l)
  | _ => False
  end.
Proof.
  induction l as [|[s a] l IH]; intros m N; cbn [map_substreams map fst]; [rewrite app_nil_r; exact N|].
  destruct (m_find s m) as [x|] eqn:F.
  - split; [reflexivity|]. intro X. apply NoDup_remove_2 in X. apply X. apply in_or_app. left. apply m_find_in in F. apply in_map_iff. exists (s, x). auto.
  - specialize (IH (m ++ [(s, a)])). rewrite map_app in IH. cbn [map fst] in IH. rewrite <- app_assoc in IH. cbn [app] in IH.
    apply IH. apply nodup_snoc; [exact N|]. apply m_find_none. exact F.
Qed.
(* The substreams with labels are substreams of the audio element, each once. *)
Definition keyed (ids : list Z) (m : labmap) : Prop := NoDup (map fst m) /\ incl (map fst m) ids.
Lemma keyed_app ids k l m : keyed ids m -> In k ids -> keyed ids (m_app k l m).
Proof.
  intros [N H] Hk. destruct (m_app_keys k l m N) as [N1 H1]. split; [exact N1|]. intros j Hj. apply H1 in Hj as [-> | Hj]; auto.
Qed.
Lemma keyed_coupled : forall l all ids m x, add_coupled l ids m = Ok x -> keyed all m -> incl ids all -> keyed all (snd x) /\ incl (fst x) all.
Proof.
  fix IH 1. intros l all ids m x E K H. destruct l as [|a [|b l]]; cbn [add_coupled] in E; try discriminate; [injection E as <-; auto|].
  destruct ids as [|i ids]; [injection E as <-; auto|]. apply (IH l all _ _ _ E).
  - apply keyed_app; [exact K|]. apply H. left. reflexivity.
  - intros j Hj. apply H. right. exact Hj.
Qed.
Lemma keyed_single : forall l all ids m x, add_single l ids m = Ok x -> keyed all m -> incl ids all -> keyed all (snd x) /\ incl (fst x) all.
Proof.
  induction l as [|a l IH]; intros all ids m x E K H; cbn [add_single] in E; [injection E as <-; auto|].
  destruct ids as [|i ids]; [discriminate|]. apply (IH all _ _ _ E).
  - apply keyed_app; [exact K|]. apply H. left. reflexivity.
  - intros j Hj. apply H. right. exact Hj.
Qed.
Lemma keyed_layers all : forall l first acc ids m g cs x, layers_data first acc ids l m g cs = Ok x -> keyed all m -> incl ids all -> keyed all (fst (fst x)).
Proof.
  induction l as [|ly l IH]; intros first acc ids m g cs x E K H; cbn [layers_data] in E; [injection E as <-; exact K|].
  destruct (layer_labels first acc ly) as [y| | | |]; try discriminate. cbn [rbind] in E. destruct (add_labels (snd y) ids m) as [z| | | |] eqn:Ea; try discriminate. cbn [rbind] in E.
  destruct (validate_counts (snd y) ly); try discriminate. cbn [rbind rthen] in E. unfold add_labels in Ea.
  destruct (negb _); [discriminate|]. destruct (_ >? _); [discriminate|]. destruct (add_coupled _ _ _) as [u| | | |] eqn:Ec; try discriminate. cbn [rbind] in Ea.
  destruct (keyed_coupled _ _ _ _ _ Ec K H) as [K1 H1]. destruct (keyed_single _ _ _ _ _ Ea K1 H1) as [K2 H2]. exact (IH _ _ _ _ _ _ _ E K2 H2).
Qed.
Lemma keyed_mono ids : forall l acn m x, mono_labels ids l acn m = Ok x -> keyed ids m -> keyed ids x.
Proof.
  induction l as [|i l IH]; intros acn m x E K; cbn [mono_labels] in E; [injection E as <-; exact K|]. destruct (i =? 255); [eauto|].
  destruct (nth_error ids (Z.to_nat i)) as [s|] eqn:N; [|discriminate]. destruct (ambi_label acn); try discriminate. cbn [rbind] in E.
  apply (IH _ _ _ E). apply keyed_app; [exact K|]. exact (nth_error_In _ _ N).
Qed.
Lemma keyed_proj all c : forall ids i m x, proj_labels c ids i m = Ok x -> keyed all m -> incl ids all -> keyed all x.
Proof.
  induction ids as [|s ids IH]; intros i m x E K H; cbn [proj_labels] in E; [injection E as <-; exact K|].
  assert (incl ids all) as H1 by (intros j Hj; apply H; right; exact Hj). specialize (H s (or_introl eq_refl)).
  destruct (i <? c).
  - destruct (ambi_label _); try discriminate. cbn [rbind] in E. destruct (ambi_label _); try discriminate. cbn [rbind] in E.
    apply (IH _ _ _ E); [|exact H1]. apply keyed_app; assumption.
  - destruct (ambi_label _); try discriminate. cbn [rbind] in E. apply (IH _ _ _ E); [|exact H1]. apply keyed_app; assumption.
Qed.
Lemma keyed_nil ids : keyed ids []. Proof. split; [constructor|]. intros x []. Qed.
Lemma generate_keyed codecs q a : generate_ae codecs q = Ok a -> keyed (ae_subs q) (ad_labels a).
Proof.
  unfold generate_ae. intro E. match type of E with rbind ?x _ = _ => destruct x as [y| | | |] eqn:Ey end; try discriminate. cbn [rbind] in E.
  destruct (m_find _ codecs); [|discriminate]. injection E as <-. cbn [ad_labels].
  destruct (ae_type q =? 0); [|destruct (ae_type q =? 1)].
  - destruct (ae_conf q) as [r l|c|n x|x]; try discriminate. unfold finalize_scalable in Ey. destruct (vunique _); try discriminate. cbn [rthen rbind] in Ey.
    destruct (layers_data _ _ _ _ _ _ _) as [z| | | |] eqn:El; try discriminate. cbn [rbind] in Ey. destruct (veq _ _); try discriminate. cbn [rthen rbind] in Ey. injection Ey as <-.
    eapply keyed_layers; [exact El|apply keyed_nil|apply incl_refl].
  - destruct (ae_conf q) as [r l|c|n x|x]; try discriminate. destruct (finalize_ambi (ae_subs q) c) as [z| | | |] eqn:Ef; try discriminate. cbn [rbind] in Ey. injection Ey as <-. cbn [fst].
    unfold finalize_ambi in Ef. destruct c as [sc mp|oc sc cc mp].
    + eapply keyed_mono; [exact Ef|apply keyed_nil].
    + destruct (veq _ _); try discriminate. cbn [rthen rbind] in Ef. eapply keyed_proj; [exact Ef|apply keyed_nil|apply incl_refl].
  - injection Ey as <-. apply keyed_nil.
Qed.

(* ---- lists of pairwise disjoint lists ---- *)
Lemma nodup_app_intro {A} (a b : list A) : NoDup a -> NoDup b -> (forall x, In x a -> ~ In x b) -> NoDup (a ++ b).
Proof.
  induction a as [|x a IH]; intros Na Nb H; cbn [app]; [exact Nb|]. inversion Na as [|? ? N1 N2]; subst. constructor.
  - intro X. apply in_app_or in X as [X|X]; [contradiction|]. exact (H x (or_introl eq_refl) X).
  - apply IH; [exact N2|exact Nb|]. intros y Hy. apply H. right. exact Hy.
Qed.
Lemma nodup_flat {A} (f : Z * A -> list Z) (l : list (Z * A)) : NoDup (map fst l) -> (forall x, In x l -> NoDup (f x)) ->
  (NoDup (flat_map f l) <-> forall x y s, In x l -> In y l -> In s (f x) -> In s (f y) -> fst x = fst y).
Proof.
  induction l as [|x l IH]; cbn [map flat_map]; intros N H; [split; [intros _ ? ? ? []|constructor]|].
  inversion N as [|? ? N1 N2]; subst. destruct (IH N2 (fun y Hy => H y (or_intror Hy))) as [I1 I2]. split.
  - intros Nd. pose proof (nodup_app_r _ _ Nd) as Nr. specialize (I1 Nr). intros a b s [<- | Ha] [<- | Hb] Sa Sb; [reflexivity| | |eauto]; exfalso.
    + apply (nodup_app_disj (f x) (flat_map f l) s Nd); [exact Sa|]. apply in_flat_map. eauto.
    + apply (nodup_app_disj (f x) (flat_map f l) s Nd); [exact Sb|]. apply in_flat_map. eauto.
  - intro D. apply nodup_app_intro; [apply H; left; reflexivity|apply I2; intros a b s Ha Hb; apply D; right; assumption|].
    intros s Hs Hr. apply in_flat_map in Hr as (y & Hy & Sy). apply N1. rewrite (D x y s (or_introl eq_refl) (or_intror Hy) Hs Sy). apply in_map. exact Hy.
Qed.

Lemma at_most_one_types l : NoDup (map (fun d => pd_type (pd_kind d)) l) -> at_most_one l.
Proof.
  intro N. assert (forall t, PropsPM.count (fun d => pd_type (pd_kind d) =? t) l <= 1) as X; [|split; apply X].
  intro t. induction l as [|d l IH]; [unfold PropsPM.count, zlen; cbn; lia|]. cbn [map] in N. inversion N as [|? ? N1 N2]; subst. rewrite count_cons. specialize (IH N2).
  destruct (pd_type (pd_kind d) =? t) eqn:E; [|lia].
  assert (PropsPM.count (fun d => pd_type (pd_kind d) =? t) l = 0) as ->; [|lia]. unfold PropsPM.count.
  destruct (filter _ l) as [|e u] eqn:F; [reflexivity|]. exfalso. apply N1. assert (In e (filter (fun d => pd_type (pd_kind d) =? t) l)) as I by (rewrite F; left; reflexivity).
  apply filter_In in I as [I1 I2]. apply in_map_iff. exists e. split; [lia|exact I1].
Qed.

(* ================= C53 ================= *)
Section Init2.
Variable o : dobus.
Hypothesis C : consistent o.
Lemma substreams_iff : NoDup (flat_map (fun x => ae_subs (ad_obu (snd x))) (do_aes o)) <->
  (forall i a j b s, In (i, a) (do_aes o) -> In (j, b) (do_aes o) -> In s (ae_subs (ad_obu a)) -> In s (ae_subs (ad_obu b)) -> i = j).
Proof.
  destruct C as [_ [N C2] _]. rewrite (nodup_flat (fun x => ae_subs (ad_obu (snd x)))).
  - split; [intros H i a j b s; apply (H (i, a) (j, b) s)|intros H [i a] [j b] s; apply H].
  - exact N.
  - intros [i a] H. destruct (C2 i a H) as (_ & V & _). apply V.
Qed.
Lemma labels_nodup : NoDup (flat_map (fun x => ae_subs (ad_obu (snd x))) (do_aes o)) -> NoDup (map fst (substreams_of (do_aes o))).
Proof.
  intro H. assert (map fst (substreams_of (do_aes o)) = flat_map (fun x => map fst (ad_labels (snd x))) (do_aes o)) as ->.
  { unfold substreams_of. clear. induction (do_aes o) as [|x l IH]; [reflexivity|]. cbn [flat_map]. rewrite map_app, IH, map_map. reflexivity. }
  pose proof (proj1 substreams_iff H) as H0. clear H. rename H0 into H. destruct C as [_ [N C2] _].
  assert (forall x, In x (do_aes o) -> keyed (ae_subs (ad_obu (snd x))) (ad_labels (snd x))) as K.
  { intros [i a] Hx. destruct (C2 i a Hx) as (_ & _ & _ & _ & _ & G). exact (generate_keyed _ _ _ G). }
  apply nodup_flat; [exact N|intros x Hx; apply K; exact Hx|]. intros [i a] [j b] s Ha Hb Sa Sb. apply (H i a j b s Ha Hb); [apply (K _ Ha), Sa|apply (K _ Hb), Sb].
Qed.
Definition audio_of : list (Z * list Z) := map (fun x => (rate_of (snd x), ae_subs (ad_obu (snd x)))) (do_aes o).
Lemma audio_substreams : PropsTiming.substreams audio_of = flat_map (fun x => ae_subs (ad_obu (snd x))) (do_aes o).
Proof. unfold PropsTiming.substreams, audio_of. induction (do_aes o) as [|x l IH]; [reflexivity|]. cbn [map flat_map snd]. rewrite IH. reflexivity. Qed.
Lemma audio_rates r l : In (r, l) audio_of -> r <> 0.
Proof.
  intro H. apply in_map_iff in H as ([i a] & E & H). injection E as <- _. cbn [snd]. destruct C as [[_ C1] [_ C2] _]. destruct (C2 i a H) as (_ & _ & _ & _ & Hc & _).
  destruct (C1 _ _ Hc) as (_ & R & _). exact R.
Qed.
Lemma new_pm : exists p, pm_new (map (fun x => (fst x, ae_params (ad_obu (snd x)))) (do_aes o)) = Ok p.
Proof.
  destruct C as [_ [_ C2] _]. apply C27_creation.
  - apply Forall_forall. intros [i l] H. apply in_map_iff in H as ([j a] & E & H). injection E as <- <-. cbn [snd]. destruct (C2 j a H) as (_ & _ & T & _).
    rewrite Forall_forall in *. intros d Hd t x Ek. destruct (T d Hd) as [T1 T2]. rewrite Ek in T1, T2. cbn [pd_type] in *. split; intros ->.
    + destruct (T1 eq_refl) as (? & ? & ? & ? & X). discriminate.
    + destruct (T2 eq_refl) as (? & X). discriminate.
  - intros i l H. apply in_map_iff in H as ([j a] & E & H). injection E as <- <-. cbn [snd]. destruct (C2 j a H) as (_ & V & _). apply at_most_one_types. apply V.
Qed.
(* Initialisation does exactly what the descriptors allow, and does not crash. *)
Theorem C53_accepted_exactly : (acceptable o -> exists x, initialize o = Ok x) /\ (~ acceptable o -> exists e, initialize o = Err e).
Proof.
  unfold initialize. pose proof (collect_spec o C) as X. destruct (collect_defs (do_aes o) (do_mixes o)) as [defs|er| | |]; try contradiction; cbn [rbind].
  2:{ split; [|intros _; eauto]. intros [A1 A2 A3 A4]. exfalso. apply misplaced_spec in A3. destruct X as [X|X]; [congruence|]. apply X.
      intros v w Hv Hw. apply A1; apply in_variants; assumption. }
  destruct X as (X1 & X2 & X3 & X4). pose proof (map_substreams_spec (substreams_of (do_aes o)) [] ltac:(constructor)) as Y. cbn [map app] in Y.
  destruct (map_substreams (substreams_of (do_aes o)) []) as [y|er| | |]; try contradiction; cbn [rbind].
  2:{ split; [|intros _; eauto]. intros [A1 A2 A3 A4]. exfalso. apply Y. apply labels_nodup, substreams_iff. exact A4. }
  fold audio_of. set (params := map (fun x : Z * (pdef * option (Z * list chans)) => (fst x, pb_rate (pd_base (fst (snd x))))) defs).
  assert ((exists g, gtm_create audio_of params = Ok g) <-> acceptable o) as G.
  { rewrite C26_created_exactly, audio_substreams, substreams_iff. split.
    - intros (G1 & G2 & G3 & G4). split.
      + intros v w Hv Hw. apply X2; apply in_variants; assumption.
      + intros v Hv. apply (G4 (parameter_id v)). apply in_map_iff. exists (parameter_id v, v). split; [reflexivity|]. apply X4. split; [apply in_variants; assumption|reflexivity].
      + apply misplaced_spec. exact X1.
      + exact G1.
    - intros [A1 A2 A3 A4]. split; [exact A4|]. split; [unfold params; rewrite map_map; exact X3|]. split; [intros r l H _; exact (audio_rates r l H)|].
      intros i r H. apply in_map_iff in H as ([j v] & E & H). injection E as <- <-. cbn [snd]. apply A2. apply in_variants; [assumption|assumption|]. apply X4 in H. apply H. }
  assert (match gtm_create audio_of params with Ok _ | Err _ => True | _ => False end) as Gc.
  { unfold gtm_create. assert (forall l m, match insert_all l m with Ok _ | Err _ => True | _ => False end) as I.
    { induction l as [|[i r] l IH]; intro m; cbn [insert_all]; [exact Logic.I|]. destruct (r =? 0); [exact Logic.I|]. destruct (m_find i m); [exact Logic.I|apply IH]. }
    pose proof (I (flat_map (fun a => map (fun i => (i, fst a)) (snd a)) audio_of) []) as I1. destruct (insert_all _ _); try contradiction; cbn [rbind]; [|exact Logic.I].
    pose proof (I params []) as I2. destruct (insert_all _ _); try contradiction; exact Logic.I. }
  destruct (gtm_create audio_of params) as [g|er| | |]; try contradiction; cbn [rbind].
  2:{ split; [|intros _; eauto]. intro A. apply G in A as [g A]. discriminate. }
  destruct new_pm as [p ->]. cbn [rbind]. split; [intros _; eauto|]. intro N. exfalso. apply N, G. eauto.
Qed.
(* What the processor starts with. *)
Theorem C53_initial_state D s : initialize o = Ok (D, s) ->
  (forall i d, m_find i (d_defs D) = Some d <-> exists v, defines o v /\ parameter_id v = i /\ fst v = d) /\
  d_aes D = map (fun x => mkAI (fst x) (map fst (ad_labels (snd x))) (cc_frame (codec_of (snd x))) (zlen (ad_chans (snd x)))) (do_aes o) /\
  gtm_create (map (fun x => (rate_of (snd x), ae_subs (ad_obu (snd x)))) (do_aes o)) (map (fun x => (fst x, pb_rate (pd_base (snd x)))) (d_defs D)) = Ok (ps_g s) /\
  pm_new (map (fun x => (fst x, ae_params (ad_obu (snd x)))) (do_aes o)) = Ok (ps_pm s).
Proof.
  unfold initialize. pose proof (collect_spec o C) as X. destruct (collect_defs (do_aes o) (do_mixes o)) as [defs|er| | |]; try contradiction; try discriminate; cbn [rbind].
  destruct X as (X1 & X2 & X3 & X4). destruct (map_substreams _ _); try discriminate; cbn [rbind]. destruct (gtm_create _ _) as [g| | | |] eqn:Eg; try discriminate; cbn [rbind].
  destruct (pm_new _) as [p| | | |]; try discriminate; cbn [rbind]. intro E. injection E as <- <-. cbn [d_defs d_aes ps_g ps_pm].
  split; [|split; [|split; [|reflexivity]]].
  - intros i d. assert (NoDup (map fst (map (fun x : Z * variant => (fst x, fst (snd x))) defs))) as Nd by (rewrite map_map; exact X3). split.
    + intro F. apply m_find_in in F. apply in_map_iff in F as ([j v] & E & F). injection E as <- <-. apply X4 in F as [F1 F2]. exists v. split; [apply in_variants; assumption|auto].
    + intros (v & V1 & V2 & V3). apply in_m_find; [exact Nd|]. apply in_map_iff. exists (i, v). split; [cbn [fst snd]; congruence|]. apply X4. split; [apply in_variants; assumption|exact V2].
  - apply map_ext_in. intros [i ad] H. destruct C as [_ [_ C2] _]. destruct (C2 i ad H) as (<- & _). reflexivity.
  - rewrite map_map. cbn [fst snd]. exact Eg.
Qed.
End Init2.

(* The maps of descriptors are unordered: in which order they are walked does not matter. *)
Lemma defines_perm o o' v : Permutation (do_aes o) (do_aes o') -> Permutation (do_mixes o) (do_mixes o') -> defines o v -> defines o' v.
Proof.
  intros P Q [i a d Ha Hd E|i a d r l Ha Hd E Ec|m s e Hm Hs He|m s e x Hm Hs He Hx|m s Hm Hs].
  - eapply Def_demixing; eauto. eapply Permutation_in; eauto.
  - eapply Def_recon; eauto. eapply Permutation_in; eauto.
  - eapply Def_element; eauto. eapply Permutation_in; eauto.
  - eapply Def_rendering; eauto. eapply Permutation_in; eauto.
  - eapply Def_output; eauto. eapply Permutation_in; eauto.
Qed.
Theorem C53_order_does_not_matter o o' : consistent o -> consistent o' -> Permutation (do_aes o) (do_aes o') -> Permutation (do_mixes o) (do_mixes o') ->
  ((exists x, initialize o = Ok x) <-> exists x, initialize o' = Ok x) /\
  forall D s D' s', initialize o = Ok (D, s) -> initialize o' = Ok (D', s') -> (forall i, m_find i (d_defs D) = m_find i (d_defs D')) /\ Permutation (d_aes D) (d_aes D').
Proof.
  intros C C' P Q.
  assert (forall a b, Permutation (do_aes a) (do_aes b) -> Permutation (do_mixes a) (do_mixes b) -> acceptable a -> acceptable b) as A.
  { intros a b Pa Qa [A1 A2 A3 A4]. apply Permutation_sym in Pa, Qa. split.
    - intros v w Hv Hw. apply A1; eapply defines_perm; eauto.
    - intros v Hv. apply A2; eapply defines_perm; eauto.
    - intros i x d Hx. apply A3 with i. eapply Permutation_in; eauto.
    - intros i x j y s Hx Hy. apply A4; eapply Permutation_in; eauto. }
  assert (forall a, consistent a -> (exists x, initialize a = Ok x) -> ~ ~ acceptable a) as B.
  { intros a Ca [x Ex] N. destruct (C53_accepted_exactly a Ca) as [_ H]. destruct (H N) as [e E]. congruence. }
  assert (forall a b, consistent a -> consistent b -> Permutation (do_aes a) (do_aes b) -> Permutation (do_mixes a) (do_mixes b) ->
    (exists x, initialize a = Ok x) -> exists x, initialize b = Ok x) as H.
  { intros a b Ca Cb Pa Qa Ha. destruct (C53_accepted_exactly b Cb) as [H1 H2]. pose proof (B a Ca Ha) as Na.
    assert (match initialize b with Ok _ => True | _ => False end) as K.
    { destruct (initialize b) as [x|e| | |] eqn:E; [exact I| | | |]; apply Na; intro Ac; destruct (H1 (A a b Pa Qa Ac)) as [y Ey]; congruence. }
    destruct (initialize b) as [x| | | |]; try contradiction. eauto. }
  split; [split; apply H; auto using Permutation_sym|]. intros D s D' s' E E'.
  destruct (C53_initial_state o C D s E) as (I1 & I2 & _). destruct (C53_initial_state o' C' D' s' E') as (J1 & J2 & _). split.
  - intro i. destruct (m_find i (d_defs D)) as [d|] eqn:F.
    + symmetry. apply J1. apply I1 in F as (v & V & R). exists v. split; [eapply defines_perm; eauto|exact R].
    + destruct (m_find i (d_defs D')) as [d|] eqn:F'; [|reflexivity]. exfalso. apply J1 in F' as (v & V & R).
      assert (m_find i (d_defs D) = Some d) as X by (apply I1; exists v; split; [eapply defines_perm; [apply Permutation_sym, P|apply Permutation_sym, Q|exact V]|exact R]). congruence.
  - rewrite I2, J2. apply Permutation_map. exact P.
Qed.
