(* Down-mixing to the layers of a scalable element and demixing them again gives back the channels (C59). *)
From Coq Require Import Reals Psatz Lra Permutation.
From Verif Require Import Base WriteBuf CodecConfig Params AudioElement PropsParams PropsAE Timing ParamManager AeData Demix PropsLabels DemixFacts.

(* ------------------------------------------------------------------ SPEC *)
(* What an encoder is given: for each channel of the layout [ord] one list of [n] samples, and nothing else *)
Definition input_of (ord : list label) (n : nat) (chan : label -> list R) (input : @smap R) : Prop :=
  (forall l, In l ord -> length (chan l) = n /\ sm_find (Orig l) input = Some (chan l)) /\
  (forall k s, sm_find k input = Some s -> exists l, k = Orig l /\ In l ord).
(* The audio frames of one temporal unit that carry the channels [chs] of the substreams of an element: they start at the same time; there is a
   frame for every substream; frames of other substreams may be anywhere between them *)
Definition carries (t : Z) (p : @dparams R) (chs : list (Z * list (list R))) (fs : list (@frame R)) : Prop :=
  (forall f, In f fs -> f_start f = t) /\
  (forall id c, In (id, c) chs -> exists f, In f fs /\ f_id f = id) /\
  (forall f c, In f fs -> In (f_id f, c) chs -> f_samples f = c /\ f_params f = p).
(* Parameters which the demixers accept *)
Definition usable (p : @dparams R) : Prop :=
  (1 / 100000 <= Rabs (d_beta p) /\ 1 / 100000 <= Rabs (d_gamma p) /\ 1 / 100000 <= Rabs (d_delta p))%R.
(* The last layer of an element *)
Definition highest (l : list layer) (ly : layer) : Prop := exists r, rev l = ly :: r.

(* ------------------------------------------------------------------ *)
Lemma list_tab (l : list R) : l = tab (length l) (fun i => nth i l 0%R).
Proof.
  unfold tab. induction l as [|a l IH]; [reflexivity|]. cbn [length seq map nth]. f_equal. rewrite <- seq_shift, map_map. exact IH.
Qed.
Lemma rmap_total {X Y} (f : X -> res Y) l : (forall x, In x l -> exists y, f x = Ok y) -> exists r, rmap f l = Ok r /\ Forall2 (fun x y => f x = Ok y) l r.
Proof.
  induction l as [|x l IH]; intro H; [exists []; split; [reflexivity|constructor]|]. destruct (H x (or_introl eq_refl)) as [y E].
  destruct IH as (r & R & F); [intros; apply H; right; assumption|]. exists (y :: r). cbn [rmap]. rewrite E. cbn [rbind]. rewrite R. split; [reflexivity|constructor; assumption].
Qed.
Lemma forall2_in_l {X Y} (P : X -> Y -> Prop) l r x : Forall2 P l r -> In x l -> exists y, In y r /\ P x y.
Proof. induction 1 as [|a b l r H F IH]; [intros []|]. intros [E|I]; [subst a; exists b; split; [left; reflexivity|exact H]|destruct (IH I) as (y & A & B); exists y; split; [right; exact A|exact B]]. Qed.
Lemma forall2_in_r {X Y} (P : X -> Y -> Prop) l r y : Forall2 P l r -> In y r -> exists x, In x l /\ P x y.
Proof. induction 1 as [|a b l r H F IH]; [intros []|]. intros [E|I]; [subst b; exists a; split; [left; reflexivity|exact H]|destruct (IH I) as (x & A & B); exists x; split; [right; exact A|exact B]]. Qed.
Lemma m_find_in {V} k (m : list (Z * V)) v : NoDup (map fst m) -> In (k, v) m <-> m_find k m = Some v.
Proof.
  induction m as [|[i x] m IH]; intro N; [split; [intros []|discriminate]|]. cbn [m_find In map fst] in *. inversion N as [|? ? N1 N2]; subst. destruct (i =? k) eqn:E.
  - apply Z.eqb_eq in E. subst i. split; [intros [E|I]; [congruence|exfalso; apply N1; apply in_map_iff; exists (k, v); tauto]|intro E; left; congruence].
  - apply Z.eqb_neq in E. rewrite <- (IH N2). split; [intros [F|I]; [congruence|exact I]|tauto].
Qed.
Lemma combine_snd {X Y} (a : list X) (b : list Y) : length a = length b -> map snd (combine a b) = b.
Proof. revert b; induction a as [|x a IH]; intros [|y b] E; try discriminate; [reflexivity|]. cbn [combine map snd]. f_equal. apply IH. cbn [length] in E. lia. Qed.
Lemma combine_fst {X Y} (a : list X) (b : list Y) : length a = length b -> map fst (combine a b) = a.
Proof. revert b; induction a as [|x a IH]; intros [|y b] E; try discriminate; [reflexivity|]. cbn [combine map fst]. f_equal. apply IH. cbn [length] in E. lia. Qed.

Section Element.
Variables (codecs : list (Z * (codec_config * (Z * Z * Z)))) (a : aelem) (r : Z) (l : list layer) (d : aed).
Hypothesis Va : aelem_valid a.
Hypothesis Ta : ae_type a = 0.
Hypothesis Ca : ae_conf a = ACScal r l.
Hypothesis Xa : forall ly, In ly l -> ly_layout ly <> 15.
Hypothesis Ga : generate_ae codecs a = Ok d.
Variables (ly : layer) (ord : list label).
Hypothesis Hl : highest l ly.
Hypothesis Ho : ear_order (ly_layout ly) = Ok ord.

Lemma element_shape : exists t s h, named (ly_layout ly) = Some t /\ is_named t /\ ord = order t /\ In s all_s /\ hvalid s h t = true /\
  NoDup (map fst (ad_labels d)) /\ forall g, In g (map snd (ad_labels d)) <-> In g (groups s h t).
Proof.
  destruct (C46_channel_labels codecs a r l d Va Ta Ca Xa Ga) as (_ & _ & gs & L & Le & E & _). destruct Hl as [q Hq].
  assert (exists t, named (ly_layout ly) = Some t) as [t Nt].
  { clear - L Hq. assert (In ly l) as I by (apply in_rev; rewrite Hq; left; reflexivity). clear Hq. induction L as [|prev y k t gs Nm G C1 C2 L IH]; [destruct I|]. destruct I as [<-|I]; [eauto|apply IH; exact I]. }
  destruct (labelled_groups l gs ly q t L Hq Nt) as (s & h & Is & V & G). exists t, s, h. split; [exact Nt|]. split; [eexists; exact Nt|].
  split; [rewrite (ear_order_named _ _ Nt) in Ho; injection Ho as <-; reflexivity|]. split; [exact Is|]. split; [exact V|].
  rewrite E. destruct (valid_scalable a r l Va Ta Ca) as (N & _). rewrite combine_fst, combine_snd by (symmetry; exact Le). split; [exact N|exact G].
Qed.

Variables (p : @dparams R) (n : nat) (chan : label -> list R) (input : @smap R).
Hypothesis Hp : usable p.
Hypothesis Hi : input_of ord n chan input.
Let v (i : nat) (c : label) : R := nth i (chan c) 0%R.

Lemma perm_groups (m1 : labmap) t s h : Permutation (ad_labels d) m1 -> (forall g, In g (map snd (ad_labels d)) <-> In g (groups s h t)) -> NoDup (map fst (ad_labels d)) ->
  NoDup (map fst m1) /\ forall g, In g (map snd m1) <-> In g (groups s h t).
Proof.
  clear Va Ta Ca Xa Ga Hl Ho Hp Hi v.
  intros P G N. split; [eapply Permutation_NoDup; [apply Permutation_map; exact P|exact N]|]. intro g. rewrite <- G.
  split; apply Permutation_in; apply Permutation_map; [apply Permutation_sym|]; exact P.
Qed.
Lemma input_agrees t : is_named t -> ord = order t -> agrees n (tr p (surround_of t) (snd t) v) input.
Proof.
  clear Va Ta Ca Xa Ga Hl Ho Hp.
  intros Nt E k s F. destruct Hi as [I1 I2]. destruct (I2 k s F) as (c & -> & Ic). destruct (I1 c Ic) as [Lc Fc]. rewrite Fc in F. injection F as <-.
  cbn [lab_of]. rewrite (list_tab (chan c)) at 1. rewrite Lc. apply tab_ext. intro i. unfold tr. subst ord. rewrite order_truth by assumption. reflexivity.
Qed.
Lemma lows m1 t s h : In s all_s -> is_named t -> hvalid s h t = true -> (forall g, In g (map snd m1) <-> In g (groups s h t)) ->
  lowest_surround INT_MAX m1 = zmin INT_MAX (map srank (groups s h t)) /\ lowest_height INT_MAX m1 = zmin INT_MAX (map hrank (groups s h t)).
Proof.
  clear Va Ta Ca Xa Ga Hl Ho Hp Hi v.
  intros Is Nt V G. pose proof (case_inv s h t Is Nt V) as C. unfold case_ok in C. destruct t as [[x y] z]. apply andb_true_iff in C as [C _]. apply andb_true_iff in C as [_ C].
  assert (forall e, In e (map snd m1) -> In e known_groups) as K.
  { intros e He. apply G in He. rewrite forallb_forall in C. apply grp_in_spec. apply C. exact He. }
  rewrite lowest_surround_min, lowest_height_min by (try exact K; unfold INT_MAX; lia).
  split; apply zmin_members; intro w; rewrite !in_map_iff; (split; intros (e & E1 & E2); exists e; (split; [exact E1|]); apply G; exact E2).
Qed.

(* The down-mix: every substream gets the mix-down of the channels it carries *)
Lemma downmix_ok lin enc u subs1 ids : (forall c, In c u <-> In c ord) -> Permutation (ad_labels d) subs1 -> incl (map fst subs1) ids -> (forall q, exists w, enc q = Ok w) ->
  exists t s h data, named (ly_layout ly) = Some t /\ is_named t /\ ord = order t /\ In s all_s /\ hvalid s h t = true /\ NoDup (map fst (ad_labels d)) /\
    (forall g, In g (map snd (ad_labels d)) <-> In g (groups s h t)) /\
    downmix exactR lin enc (create_downmixers u subs1) subs1 (ad_gains d) ids p input = Ok data /\
    Forall2 (fun e y => fst y = fst e /\ sd_raw (snd y) = vals n (tr p (surround_of t) (snd t) v) (snd e) /\
                        Forall2 (fun c w => Forall2 (fun q k => enc (q / match lab_find c (ad_gains d) with None => 1 / 1 | Some g => lin g end)%R = Ok k)
                                                    (tab n (tr p (surround_of t) (snd t) v c)) w) (snd e) (sd_enc (snd y))) subs1 data.
Proof.
  intros Hu P Hids En. destruct element_shape as (t & s & h & Nm & Nt & Eo & Is & V & N & G). exists t, s, h.
  destruct (perm_groups subs1 t s h P G N) as [N1 G1]. destruct (lows subs1 t s h Is Nt V G1) as [L1 L2]. pose proof (case_inv s h t Is Nt V) as C.
  pose proof (input_agrees t Nt Eo) as A. destruct (in_surround_ext u ord Hu) as [U1 U2].
  unfold downmix. change (create_downmixers u subs1) with (downs (in_surround u) (lowest_surround INT_MAX subs1) (in_height u) (lowest_height INT_MAX subs1)).
  rewrite L1, L2, U1, U2, Eo. unfold case_ok in C. destruct t as [[x y] z]. cbn [surround_of fst snd] in *. apply andb_true_iff in C as [C _]. apply andb_true_iff in C as [C _].
  destruct (dn_sim x z _ _) as [have|] eqn:D; [|discriminate]. destruct (dm_sim x z _ _) as [have'|]; [|discriminate]. apply andb_true_iff in C as [C _].
  destruct (run_downmixers_ok n p x z v _ _ _ input D A) as (m & Rm & Am & Hm).
  { intros c Ic. rewrite <- Eo in Ic. destruct (proj1 Hi c Ic) as [_ F]. unfold has. rewrite F. discriminate. }
  rewrite Rm. cbn [rbind].
  match goal with |- exists data, _ /\ _ /\ _ /\ _ /\ _ /\ _ /\ _ /\ rmap ?f subs1 = Ok data /\ _ => set (F := f) end.
  assert (forall e, In e subs1 -> exists b, F e = Ok b /\ fst b = fst e /\ sd_raw (snd b) = vals n (tr p x z v) (snd e) /\
            Forall2 (fun c w => Forall2 (fun q k => enc (q / match lab_find c (ad_gains d) with None => 1 / 1 | Some g => lin g end)%R = Ok k) (tab n (tr p x z v c)) w) (snd e) (sd_enc (snd b))) as K.
  { intros e Ie. unfold F. replace (existsb (Z.eqb (fst e)) ids) with true.
    2: { symmetry. apply existsb_exists. exists (fst e). split; [apply Hids; apply in_map; exact Ie|apply Z.eqb_refl]. }
    assert (forall c, In c (snd e) -> exists w, channel_out exactR lin enc (ad_gains d) m c = Ok (tab n (tr p x z v c), w) /\
              Forall2 (fun q k => enc (q / match lab_find c (ad_gains d) with None => 1 / 1 | Some g => lin g end)%R = Ok k) (tab n (tr p x z v c)) w) as Kc.
    { intros c Ic. unfold channel_out. assert (has m (Orig c)) as Hc.
      { apply Hm. rewrite forallb_forall in C. apply lab_in_spec. specialize (C (snd e) (proj1 (G1 _) (in_map snd _ _ Ie))). rewrite forallb_forall in C. apply C. exact Ic. }
      destruct (sm_find (Orig c) m) as [q|] eqn:Fq; [|exfalso; exact (Hc Fq)]. rewrite (Am _ _ Fq). cbn [lab_of]. cbn [exactR a_div a_lit].
      destruct (rmap_total (fun q0 => enc (q0 / match lab_find c (ad_gains d) with None => 1 / 1 | Some g => lin g end)%R) (tab n (tr p x z v c))) as (w & Rw & Fw); [intros; apply En|].
      exists w. split; [|exact Fw]. cbv zeta. setoid_rewrite Rw. reflexivity. }
    destruct (rmap_total (channel_out exactR lin enc (ad_gains d) m) (snd e)) as (b & Rb & Fb).
    { intros c Ic. destruct (Kc c Ic) as (w & W & _). eauto. }
    rewrite Rb. cbn [rbind]. eexists. split; [reflexivity|]. cbn [fst snd sd_raw sd_enc]. split; [reflexivity|].
    clear - Fb Kc. unfold vals. induction Fb as [|c o cs b Hc Fb IH]; [split; [reflexivity|constructor]|].
    destruct (Kc c (or_introl eq_refl)) as (w & W & FW). rewrite W in Hc. injection Hc as <-. destruct IH as [I1 I2]; [intros; apply Kc; right; assumption|].
    cbn [map fst snd]. split; [f_equal; exact I1|constructor; assumption]. }
  destruct (rmap_total F subs1) as (data & Rd & Fd); [intros e Ie; destruct (K e Ie) as (b & B & _); eauto|].
  exists data. split; [exact Nm|]. split; [exact Nt|]. split; [first [exact Eo|reflexivity]|]. split; [exact Is|]. split; [exact V|]. split; [exact N|]. split; [exact G|]. split; [exact Rd|].
  clear - Fd K. induction Fd as [|e b es bs He Fd IH]; [constructor|]. destruct (K e (or_introl eq_refl)) as (b' & B & X). rewrite B in He. injection He as ->.
  constructor; [exact X|apply IH; intros; apply K; right; assumption].
Qed.

(* The demixers, on frames which carry the mix-down *)
Lemma demix_ok t s h subs2 t0 fs : named (ly_layout ly) = Some t -> is_named t -> ord = order t -> In s all_s -> hvalid s h t = true -> NoDup (map fst (ad_labels d)) ->
  (forall g, In g (map snd (ad_labels d)) <-> In g (groups s h t)) -> Permutation (ad_labels d) subs2 ->
  (forall f, In f fs -> f_start f = t0) ->
  (forall e, In e (ad_labels d) -> exists f, In f fs /\ f_id f = fst e) ->
  (forall f ls, In f fs -> In (f_id f, ls) (ad_labels d) -> f_samples f = vals n (tr p (surround_of t) (snd t) v) ls /\ f_params f = p) ->
  exists lf, demix exactR (create_demixers ord subs2) subs2 fs = Ok (Some lf) /\
    (exists f, In f fs /\ In (f_id f) (map fst (ad_labels d)) /\ lf_trim_start lf = f_trim_start f /\ lf_trim_end lf = f_trim_end f) /\
    forall c, In c ord -> find_samples c (lf_map lf) = Ok (chan c).
Proof using Hp Hi.
  clear Va Ta Ca Xa Ga Hl Ho.
  intros Nm Nt Eo Is V N G P St Cv Sa. destruct (perm_groups subs2 t s h P G N) as [N2 G2]. destruct (lows subs2 t s h Is Nt V G2) as [L1 L2]. pose proof (case_inv s h t Is Nt V) as C.
  assert (forall f ls, In f fs -> m_find (f_id f) subs2 = Some ls -> ls <> [] /\ f_start f = t0 /\ f_samples f = vals n (tr p (surround_of t) (snd t) v) ls /\ f_params f = p) as W.
  { intros f ls If M. apply m_find_in in M; [|exact N2]. assert (In (f_id f, ls) (ad_labels d)) as M' by (eapply Permutation_in; [apply Permutation_sym; exact P|exact M]).
    split; [|split; [apply St; exact If|apply Sa; assumption]]. assert (In ls (groups s h t)) as Il by (apply G; apply in_map_iff; exists (f_id f, ls); tauto).
    unfold case_ok in C. destruct t as [[x y] z]. apply andb_true_iff in C as [C _]. apply andb_true_iff in C as [_ C]. rewrite forallb_forall in C. apply C in Il. apply grp_in_spec in Il.
    intro; subst ls. cbn [known_groups In] in Il. repeat (destruct Il as [Il|Il]; [discriminate|]). contradiction. }
  assert (fs <> []) as Nf.
  { intro; subst fs. unfold case_ok in C. destruct t as [[x y] z]. apply andb_true_iff in C as [_ C]. destruct (groups s h (x, y, z)) as [|g gg] eqn:Eg; [discriminate|].
    assert (In g (map snd (ad_labels d))) as I by (apply G; rewrite ?Eg; left; reflexivity). apply in_map_iff in I as (e & _ & Ie). destruct (Cv e Ie) as (f & [] & _). }
  destruct (store_frames_ok n (tr p (surround_of t) (snd t) v) p t0 subs2 fs W None (mkLf 0 0 [] None)) as (lf & R1 & A1 & K1 & O1); [tauto|intros k q; discriminate|].
  unfold demix, store. destruct fs as [|f0 fs']; [congruence|]. rewrite (St f0 (or_introl eq_refl)). rewrite R1. cbn [rbind].
  assert (forall g c, In g (groups s h t) -> In c g -> has (lf_map lf) (Orig c)) as K2.
  { intros g c Ig Ic. apply K1. right. apply G in Ig. apply in_map_iff in Ig as (e & <- & Ie). destruct (Cv e Ie) as (f & If & Ef). exists f, (snd e), c. split; [exact If|]. split; [|tauto].
    rewrite Ef. apply m_find_in; [exact N2|]. eapply Permutation_in; [exact P|]. destruct e; exact Ie. }
  destruct O1 as [[-> O1]|(O1 & f & If & Rf & Tf)].
  { exfalso. unfold case_ok in C. destruct t as [[x y] z]. apply andb_true_iff in C as [_ C]. destruct (groups s h (x, y, z)) as [|g gg] eqn:Eg; [discriminate|].
    assert (In g (map snd (ad_labels d))) as I by (apply G; rewrite ?Eg; left; reflexivity). apply in_map_iff in I as (e & _ & Ie). destruct (Cv e Ie) as (f & If & Ef).
    apply (O1 f If). unfold relevant. rewrite Ef. assert (m_find (fst e) subs2 = Some (snd e)) as M by (apply m_find_in; [exact N2|]; eapply Permutation_in; [exact P|]; destruct e; exact Ie). congruence. }
  rewrite O1.
  change (create_demixers ord subs2) with (ups (in_surround ord) (lowest_surround INT_MAX subs2) (in_height ord) (lowest_height INT_MAX subs2)).
  rewrite L1, L2. unfold case_ok in C. destruct t as [[x y] z]. cbn [surround_of fst snd] in *. apply andb_true_iff in C as [C Cn]. apply andb_true_iff in C as [C _].
  destruct (dn_sim x z _ _) as [have|]; [|discriminate]. destruct (dm_sim x z _ _) as [have'|] eqn:D; [|discriminate]. apply andb_true_iff in C as [_ C]. rewrite <- Eo in D, C.
  destruct Hp as (B1 & B2 & B3). destruct (run_demixers_ok n p x z v B1 B2 B3 _ _ _ (lf_map lf) D A1) as (m & Rm & Am & Hm).
  { intros k Ik. apply in_map_iff in Ik as (c & <- & Ic). apply in_concat in Ic as (g & Ig & Ic). exact (K2 g c Ig Ic). }
  destruct (lf_map lf) as [|e0 es] eqn:Em.
  { exfalso. destruct (groups s h (x, y, z)) as [|g gg] eqn:Eg; [discriminate|]. assert (In g known_groups) as Kg.
    { pose proof (case_inv s h (x, y, z) Is Nt V) as C'. unfold case_ok in C'. apply andb_true_iff in C' as [C' _]. apply andb_true_iff in C' as [_ C']. rewrite forallb_forall in C'. apply grp_in_spec. apply C'. rewrite Eg. left. reflexivity. }
    destruct g as [|c g]; [cbn [known_groups In] in Kg; repeat (destruct Kg as [Kg|Kg]; [discriminate|]); contradiction|]. exact (K2 (c :: g) c (or_introl eq_refl) (or_introl eq_refl) eq_refl). }
  rewrite Rm. cbn [rbind]. eexists. split; [reflexivity|]. cbn [lf_trim_start lf_trim_end lf_map]. split.
  { exists f. split; [exact If|]. split; [|exact Tf]. unfold relevant in Rf. destruct (m_find (f_id f) subs2) as [q|] eqn:M; [|congruence]. apply m_find_in in M; [|exact N2].
    apply (Permutation_in _ (Permutation_sym P)) in M. apply (in_map fst) in M. exact M. }
  intros c Ic. rewrite (find_agrees n (tr p x z v)).
  - rewrite (list_tab (chan c)), (proj1 (proj1 Hi c Ic)). f_equal. apply tab_ext. intro i. unfold tr. pose proof (order_truth p (x, y, z) (v i) c Nt) as Q. cbn [surround_of fst snd] in Q. rewrite Q; [reflexivity|rewrite <- Eo; exact Ic].
  - exact Am.
  - rewrite forallb_forall in C. apply (findableb_spec have'); [exact Hm|apply C; exact Ic].
Qed.
End Element.

(* Down-mixing to the substreams and demixing them gives back every channel of the highest layer *)
Theorem C59_reconstruct : forall codecs a r l d ly ord,
  aelem_valid a -> ae_type a = 0 -> ae_conf a = ACScal r l -> (forall y, In y l -> ly_layout y <> 15) -> generate_ae codecs a = Ok d ->
  highest l ly -> ear_order (ly_layout ly) = Ok ord ->
  forall p n chan input lin enc u order_enc order_dec ids,
  usable p -> input_of ord n chan input -> (forall c, In c u <-> In c ord) ->
  Permutation (ad_labels d) order_enc -> Permutation (ad_labels d) order_dec ->
  incl (map fst order_enc) ids -> (forall q, exists w, enc q = Ok w) ->
  exists data, downmix exactR lin enc (create_downmixers u order_enc) order_enc (ad_gains d) ids p input = Ok data /\
    forall t fs, carries t p (map (fun y => (fst y, sd_raw (snd y))) data) fs ->
    exists lf, demix exactR (create_demixers ord order_dec) order_dec fs = Ok (Some lf) /\
      (exists f, In f fs /\ In (f_id f) (map fst (ad_labels d)) /\ lf_trim_start lf = f_trim_start f /\ lf_trim_end lf = f_trim_end f) /\
      forall c, In c ord -> find_samples c (lf_map lf) = Ok (chan c).
Proof.
  intros codecs a r l d ly ord Va Ta Ca Xa Ga Hl Ho p n chan input lin enc u m1 m2 ids Hp Hi Hu P1 P2 Hids En.
  destruct (downmix_ok codecs a r l d Va Ta Ca Xa Ga ly ord Hl Ho p n chan input Hi lin enc u m1 ids Hu P1 Hids En) as (t & s & h & data & Nm & Nt & Eo & Is & V & N & G & Rd & F).
  exists data. split; [exact Rd|]. intros t0 fs (St & Cv & Sa).
  destruct (demix_ok d ly ord p n chan input Hp Hi t s h m2 t0 fs Nm Nt Eo Is V N G P2 St) as (lf & R & Trm & Fnd).
  - intros e Ie. apply (Permutation_in _ P1) in Ie. destruct (forall2_in_l _ _ _ e F Ie) as (y & Iy & E1 & _). destruct (Cv (fst y) (sd_raw (snd y))) as (f & If & Ef).
    + apply in_map_iff. exists y. tauto.
    + exists f. split; [exact If|congruence].
  - intros f ls If Ie. apply (Permutation_in _ P1) in Ie. destruct (forall2_in_l _ _ _ _ F Ie) as (y & Iy & E1 & E2 & _). cbn [fst snd] in E1, E2.
    rewrite <- E2. apply Sa; [exact If|]. apply in_map_iff. exists y. rewrite <- E1. tauto.
  - exists lf. split; [exact R|]. split; [exact Trm|exact Fnd].
Qed.

(* What each substream carries: the mix-down (IAMF 7.2) of its channels, and for the codec the same divided by the output gain *)
Theorem C59_mixdown : forall codecs a r l d ly ord,
  aelem_valid a -> ae_type a = 0 -> ae_conf a = ACScal r l -> (forall y, In y l -> ly_layout y <> 15) -> generate_ae codecs a = Ok d ->
  highest l ly -> ear_order (ly_layout ly) = Ok ord ->
  forall p n chan input lin enc u order_enc ids x y z,
  named (ly_layout ly) = Some (x, y, z) ->
  input_of ord n chan input -> (forall c, In c u <-> In c ord) -> Permutation (ad_labels d) order_enc ->
  incl (map fst order_enc) ids -> (forall q, exists w, enc q = Ok w) ->
  let signal c := map (fun i => mixdown p x z (fun k => nth i (chan k) 0%R) c) (seq 0 n) in
  let gain c := match lab_find c (ad_gains d) with None => 1%R | Some g => lin g end in
  exists data, downmix exactR lin enc (create_downmixers u order_enc) order_enc (ad_gains d) ids p input = Ok data /\
    Forall2 (fun e o => fst o = fst e /\ sd_raw (snd o) = map signal (snd e) /\
                        map (map Ok) (sd_enc (snd o)) = map (fun c => map (fun q => enc (q / gain c)%R) (signal c)) (snd e)) order_enc data.
Proof.
  intros codecs a r l d ly ord Va Ta Ca Xa Ga Hl Ho p n chan input lin enc u m1 ids x y z Nm Hi Hu P1 Hids En signal gain.
  destruct (downmix_ok codecs a r l d Va Ta Ca Xa Ga ly ord Hl Ho p n chan input Hi lin enc u m1 ids Hu P1 Hids En) as (t & s & h & data & Nm' & Nt & Eo & Is & V & N & G & Rd & F).
  rewrite Nm in Nm'. injection Nm' as <-. cbn [surround_of fst snd] in F. exists data. split; [exact Rd|].
  clear - F. induction F as [|e o es os (A & B & C) F IH]; constructor; [|exact IH]. split; [exact A|]. split; [rewrite B; unfold vals; rewrite map_map; reflexivity|].
  clear - C. induction C as [|c w cs ws H C IH]; [reflexivity|]. cbn [map]. f_equal; [|exact IH].
  assert (forall q, (q / match lab_find c (ad_gains d) with None => 1 / 1 | Some g => lin g end = q / gain c)%R) as E by (intro q; unfold gain; destruct (lab_find c (ad_gains d)); [reflexivity|field]).
  change (signal c) with (tab n (tr p x z (fun (i : nat) (k : label) => nth i (chan k) 0%R) c)).
  clear - H E. induction H as [|q k qs ks H0 H IH]; [reflexivity|]. cbn [map]. rewrite <- E, H0. f_equal. exact IH.
Qed.

(* The parameters of every demixing mode are usable *)
Theorem C59_modes : forall mode prev rule m, mode_to_params mode prev rule = Ok m -> usable (params_of exactR m).
Proof.
  intros mode prev rule m E. unfold mode_to_params in E. cbn [mode_table m_find] in E.
  repeat (match type of E with context[?k =? mode] => destruct (k =? mode) end; [destruct (m_find _ w_table); [|discriminate]; injection E as <-;
    unfold usable, params_of; cbn [d_beta d_gamma d_delta dx_beta dx_gamma dx_delta exactR a_lit]; repeat split; rewrite Rabs_right; lra|]). discriminate.
Qed.

(* The values of the parameters of a demixing mode, as real numbers (IAMF 3.8.2, 7.2.2): alpha, beta, gamma, delta, and w by its
   index *)
Definition mode_values (mode : Z) (a b g d : R) : Prop :=
  (mode = 0 \/ mode = 4) /\ a = 1%R /\ b = 1%R /\ g = 0.707%R /\ d = 0.707%R \/
  (mode = 1 \/ mode = 5) /\ a = 0.707%R /\ b = 0.707%R /\ g = 0.707%R /\ d = 0.707%R \/
  (mode = 2 \/ mode = 6) /\ a = 1%R /\ b = 0.866%R /\ g = 0.866%R /\ d = 0.866%R.
Definition w_values : list (Z * R) :=
  [(0, 0%R); (1, 0.0179%R); (2, 0.0391%R); (3, 0.0658%R); (4, 0.1038%R); (5, 0.25%R); (6, 0.3962%R); (7, 0.4342%R); (8, 0.4609%R); (9, 0.4821%R); (10, 0.5%R)].
Theorem C59_parameters : forall mode prev rule m, mode_to_params mode prev rule = Ok m ->
  let p := params_of exactR m in
  mode_values mode (d_alpha p) (d_beta p) (d_gamma p) (d_delta p) /\ In (dx_widx m, d_w p) w_values /\ d_in p = true.
Proof.
  intros mode prev rule m E p. unfold mode_to_params in E. unfold mode_table in E. cbn [m_find] in E.
  assert (forall i w, m_find i w_table = Some w -> In (i, (IZR w / IZR 10000)%R) w_values) as W.
  { intros i w H. unfold w_table in H. cbn [m_find] in H. unfold w_values.
    repeat (match type of H with context[?k =? i] => destruct (k =? i) eqn:K end;
      [apply Z.eqb_eq in K; subst i; injection H as <-; cbn [In]; repeat first [left; f_equal; lra | right]|clear K]). discriminate H. }
  repeat (match type of E with context[?k =? mode] => destruct (k =? mode) eqn:K end;
    [apply Z.eqb_eq in K; destruct (m_find _ w_table) as [w|] eqn:Ew; [|discriminate E]; injection E as <-; apply W in Ew;
     unfold p, params_of; cbn [d_alpha d_beta d_gamma d_delta d_w d_in dx_alpha dx_beta dx_gamma dx_delta dx_w dx_widx dx_in exactR a_lit];
     split; [unfold mode_values; rewrite <- K; first [left; repeat split; [auto|lra..] | right; left; repeat split; [auto|lra..] | right; right; repeat split; [auto|lra..]]|split; [exact Ew|reflexivity]]|clear K]).
  discriminate E.
Qed.

(* A demixer that would divide by a number near zero refuses, with any arithmetic *)
Theorem C59_near_zero : forall T (A : arith T) p m,
  (a_small A (d_beta p) = true -> run_demixer A p S5toS7 m = Err InvalidArgument) /\
  (a_small A (d_delta p) = true -> run_demixer A p S3toS5 m = Err InvalidArgument) /\
  (a_small A (d_gamma p) = true -> run_demixer A p T2toT4 m = Err InvalidArgument).
Proof. intros. cbn [run_demixer]. repeat split; intros ->; reflexivity. Qed.

(* Demixing any frames with any arithmetic ends with a result or an error *)
Definition ends {X} (q : res X) : Prop := (exists x, q = Ok x) \/ (exists e, q = Err e).
Lemma ends_ok {X} (x : X) : ends (Ok x). Proof. left; eauto. Qed.
Lemma ends_err {X} e : ends (@Err X e). Proof. right; eauto. Qed.
Lemma ends_bind {X Y} (q : res X) (f : X -> res Y) : ends q -> (forall x, q = Ok x -> ends (f x)) -> ends (rbind q f).
Proof. intros [[x E]|[e E]] H; rewrite E; cbn [rbind]; [apply H; exact E|apply ends_err]. Qed.
Lemma ends_veq a b : ends (veq a b). Proof. unfold veq, vcond. destruct (a =? b); [apply ends_ok|apply ends_err]. Qed.
Section Total.
Context {T : Type}.
Variable A : arith T.
Lemma find_ends l (m : @smap T) : ends (find_samples l m).
Proof. unfold find_samples. destruct (sm_find _ _); [apply ends_ok|]. destruct (lab_in _ _); [|apply ends_err]. destruct (sm_find _ _); [apply ends_ok|apply ends_err]. Qed.
Lemma common_ends (l : list (@samples T)) : ends (common_ticks l).
Proof. unfold common_ticks. destruct l; [apply ends_ok|]. destruct (forallb _ _); [apply ends_ok|apply ends_err]. Qed.
Lemma find_all_length l (m : @smap T) : forall r, find_all l m = Ok r -> length r = length l.
Proof.
  induction l as [|a l IH]; intros r E; cbn [find_all] in E; [injection E as <-; reflexivity|]. destruct (find_samples a m) as [s| | | |]; try discriminate. cbn [rbind] in E.
  destruct (find_all l m) as [q| | | |]; try discriminate. cbn [rbind] in E. injection E as <-. cbn [length]. f_equal. apply IH. reflexivity.
Qed.
Lemma find_all_ends l (m : @smap T) : ends (find_all l m).
Proof. induction l as [|a l IH]; cbn [find_all]; [apply ends_ok|]. apply ends_bind; [apply find_ends|]. intros s _. apply ends_bind; [exact IH|]. intros. apply ends_ok. Qed.
Lemma seek_ends l (m : @smap T) : ends (seek l m).
Proof. unfold seek. apply ends_bind; [apply find_all_ends|]. intros q _. apply ends_bind; [apply common_ends|]. intros. apply ends_ok. Qed.
Lemma seek_length l (m : @smap T) r : seek l m = Ok r -> length r = length l.
Proof.
  unfold seek. intro E. destruct (find_all l m) as [q| | | |] eqn:F; try discriminate. cbn [rbind] in E. destruct (common_ticks q); try discriminate. cbn [rbind] in E. injection E as <-. apply (find_all_length l m). exact F.
Qed.
Lemma run_demixer_ends p k m : ends (run_demixer A p k m).
Proof.
  destruct k; cbn [run_demixer]; try (match goal with |- context[a_small ?a ?b] => destruct (a_small a b); [apply ends_err|] end);
    (apply ends_bind; [apply seek_ends|]; intros r E; apply seek_length in E; cbn [length] in E;
     repeat (destruct r as [|? r]; try discriminate E); apply ends_ok).
Qed.
Lemma run_demixers_ends p ks : forall m, ends (run_demixers A p ks m).
Proof. induction ks as [|k ks IH]; intro m; cbn [run_demixers]; [apply ends_ok|]. apply ends_bind; [apply run_demixer_ends|]. intros; apply IH. Qed.
Definition fed (lf : @labeled T) : Prop := lf_map lf = [] \/ lf_params lf <> None.
Lemma store_frames_ends t0 subs fs : forall exp lf, fed lf -> ends (store_frames t0 subs exp fs lf) /\ forall lf', store_frames t0 subs exp fs lf = Ok lf' -> fed lf'.
Proof.
  induction fs as [|f fs IH]; intros exp lf W; cbn [store_frames]; [split; [apply ends_ok|intros lf' E; injection E as <-; exact W]|].
  destruct (m_find (f_id f) subs) as [ls|]; [|apply IH; exact W].
  destruct (ends_veq t0 (f_start f)) as [[[] E]|[e E]]; rewrite E; cbn [rthen rbind]; [|split; [apply ends_err|discriminate]].
  destruct (f_samples f) as [|c cs] eqn:Fs; [split; [apply ends_err|discriminate]|]. rewrite <- Fs.
  destruct (ends_veq (zlen (f_samples f)) (zlen ls)) as [[[] E2]|[e E2]]; rewrite E2; cbn [rthen rbind]; [|split; [apply ends_err|discriminate]].
  destruct (common_ends (f_samples f)) as [[n E3]|[e E3]]; rewrite E3; cbn [rbind]; [|split; [apply ends_err|discriminate]].
  assert (ends (match exp with None => Ok tt | Some e => veq (Z.of_nat n) (Z.of_nat e) end)) as [[[] E4]|[e E4]] by (destruct exp; [apply ends_veq|apply ends_ok]);
    rewrite E4; cbn [rthen rbind]; [|split; [apply ends_err|discriminate]].
  apply IH. right. discriminate.
Qed.
End Total.
Theorem C59_total : forall T (A : arith T) ks subs fs,
  (exists o, demix A ks subs fs = Ok o) \/ (exists e, demix A ks subs fs = Err e).
Proof.
  intros T A ks subs fs. change (ends (demix A ks subs fs)). unfold demix, store.
  assert (fed (@mkLf T 0 0 [] None)) as W by (left; reflexivity).
  apply ends_bind; [destruct fs as [|f fs]; [apply ends_ok|apply store_frames_ends; exact W]|]. intros lf E.
  assert (fed lf) as F by (destruct fs as [|f fs]; [injection E as <-; exact W|exact (proj2 (store_frames_ends _ _ _ _ _ W) _ E)]).
  destruct (lf_map lf) as [|e0 es] eqn:Em; [apply ends_ok|]. destruct F as [F|F]; [congruence|]. destruct (lf_params lf) as [p|]; [|congruence].
  apply ends_bind; [apply run_demixers_ends|]. intros. apply ends_ok.
Qed.

(* ------------------------------------------------------------------ the hypotheses are met: mono, stereo and 5.1.2 layers *)
Definition p_ex : @dparams R := params_of exactR (mkDmix 1000 866 866 866 (-1) 5 2500 true).
Definition chan_ex (c : label) : list R := match c with L5 => [1; 0]%R | Ls5 => [(-1/2); 1/3]%R | Rtf2 => [1; 1]%R | _ => [(1/4); (1/8)]%R end.
Definition input_ex : @smap R := map (fun c => (Orig c, chan_ex c)) [Rtf2; Ltf2; L5; R5; Ls5; Rs5; Centre; LFE].
Example C59_ex :
  aelem_valid ae_ex /\ (exists d, generate_ae [(7, cc0)] ae_ex = Ok d /\
    create_downmixers [L5; R5; Ls5; Rs5; Centre; LFE; Ltf2; Rtf2] (rev (ad_labels d)) = [S5toS3; S3toS2; S2toS1] /\
    create_demixers [L5; R5; Ls5; Rs5; Centre; LFE; Ltf2; Rtf2] (ad_labels d) = [S1toS2; S2toS3; S3toS5]) /\
  highest (match ae_conf ae_ex with ACScal _ l => l | _ => [] end) (mkLy 3 true false 0 4 2 63 0 128 None) /\
  ear_order 3 = Ok [L5; R5; Centre; LFE; Ls5; Rs5; Ltf2; Rtf2] /\
  usable p_ex /\ input_of [L5; R5; Centre; LFE; Ls5; Rs5; Ltf2; Rtf2] 2 chan_ex input_ex.
Proof.
  split; [exact (proj1 C46_ex)|]. split; [eexists; split; [vm_compute; reflexivity|vm_compute; tauto]|]. split; [eexists; reflexivity|]. split; [reflexivity|]. split.
  - apply (C59_modes 2 6 Normal). reflexivity.
  - split.
    + intros l I. cbn [In] in I. repeat (destruct I as [I|I]; [subst l; split; reflexivity|]). contradiction.
    + intros k s F. unfold input_ex in F. cbn [map sm_find] in F.
      repeat (match type of F with context[lkey_eq_dec ?a k] => destruct (lkey_eq_dec a k) as [E|_]; [subst k; eexists; split; [reflexivity|cbn [In]; tauto]|] end). discriminate.
Qed.

(* ------------------------------------------------------------------ output gains are not undone *)
(* The encoder divides a channel by the output gain of its layer before it is coded (C59_mixdown), so the decoded samples have to be
   multiplied by it; the decoder stores the gains of the element but never applies them. *)
Definition ae_gain := mkAE 1 0 0 7 [30] [] (ACScal 0 [mkLy 0 true false 0 1 0 32 0 (-256) None]).
Theorem C59_output_gain_refuted :
  aelem_valid ae_gain /\ exists d, generate_ae [(7, cc0)] ae_gain = Ok d /\ ad_gains d = [(Mono, -256)] /\
  forall (lin : Z -> R) (enc : R -> res Z) (dec : Z -> R) p q w t, (lin (-256)%Z <> 0)%R ->
    enc (q / lin (-256)%Z)%R = Ok w -> dec w = (q / lin (-256)%Z)%R ->                 (* the codec loses nothing *)
    downmix exactR lin enc (create_downmixers [Mono] (ad_labels d)) (ad_labels d) (ad_gains d) [30] p [(Orig Mono, [q])]
      = Ok [(30, mkSd [[q]] [[w]])] /\
    exists lf, demix exactR (create_demixers [Mono] (ad_labels d)) (ad_labels d) [mkFr 30 t 0 0 p [[dec w]]] = Ok (Some lf) /\
      find_samples Mono (lf_map lf) = Ok [(q / lin (-256)%Z)%R].
Proof.
  split.
  { unfold aelem_valid, ae_gain. cbn [ae_subs ae_params ae_conf ae_type]. split; [repeat constructor; cbn [In]; lia|]. split; [constructor|]. split; [vm_compute; discriminate|]. split; [intros d []|].
    split; [|split; intro; discriminate]. intros _. eexists. eexists. split; [reflexivity|]. split; [vm_compute; split; discriminate|]. split; [reflexivity|].
    intros (x & X & Y). cbn [In] in X. repeat (destruct X as [X|X]; [subst x; discriminate|]). contradiction. }
  eexists. split; [vm_compute; reflexivity|]. split; [reflexivity|]. intros lin enc dec p q w t N E D. split.
  - unfold downmix. change (create_downmixers [Mono] _) with (@nil downmixer). cbn [run_downmixers rbind ad_labels ad_gains rmap fst snd]. change (existsb (Z.eqb 30) [30]) with true. cbv iota.
    unfold channel_out. change (lab_find Mono [(Mono, -256)]) with (Some (-256)). change (sm_find (Orig Mono) [(Orig Mono, [q])]) with (Some [q]). cbv iota zeta.
    cbn [rmap exactR a_div]. rewrite E. reflexivity.
  - rewrite D. unfold demix, store. cbn [store_frames f_id f_start f_samples ad_labels]. change (m_find 30 [(30, [Mono])]) with (Some [Mono]). cbv iota.
    unfold veq at 1. rewrite Z.eqb_refl. eexists. split; reflexivity.
Qed.
