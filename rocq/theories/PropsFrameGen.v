(* C67: the audio frame generator.  The samples a user adds for an audio element come out, all of them, in order, once, cut into
   frames: [FrameGenSpec] holds the words. *)
From Verif Require Import PropsLabels PropsUnit.
From Verif Require Import Base WriteBuf CodecConfig Params AudioElement Timing ParamManager AeData Demix SubFrames SubFramesFacts FrameGen FrameGenFacts FrameGenHist FrameGenOut FrameGenSpec FrameGenRun FrameGenInit FrameGenEnds.
From Verif Require PropsDemix.
From Coq Require Import Lia Permutation.

Lemma s64_again : forall a b, s64 (s64 a + b) = s64 (a + b).
Proof.
  intros a b. unfold s64, sN. cbv zeta. change (2 ^ 64) with 18446744073709551616. change (2 ^ (64 - 1)) with 9223372036854775808.
  assert (E : ((if a mod 18446744073709551616 <? 9223372036854775808 then a mod 18446744073709551616 else a mod 18446744073709551616 - 18446744073709551616) + b) mod 18446744073709551616 = (a + b) mod 18446744073709551616).
  { destruct (_ <? _); [apply Zplus_mod_idemp_l|].
    replace (a mod 18446744073709551616 - 18446744073709551616 + b) with (a mod 18446744073709551616 + b + (-1) * 18446744073709551616) by lia. rewrite Z.mod_add by lia. apply Zplus_mod_idemp_l. }
  rewrite E. reflexivity.
Qed.
Lemma s64_small : forall z, 0 <= z < 2 ^ 63 -> s64 z = z.
Proof. intros z H. unfold s64, sN. cbv zeta. change (64 - 1) with 63. rewrite Z.mod_small by lia. destruct (Z.ltb_spec z (2 ^ 63)); lia. Qed.
Lemma stamp_at : forall n c0 i, 0 <= c0 < 2 ^ 63 -> stamp n c0 i = s64 (c0 + Z.of_nat i * n).
Proof.
  intros n c0 i H. induction i as [|i IH]; cbn [stamp]; [rewrite s64_small; [lia | lia]|]. rewrite IH, s64_again. f_equal. lia.
Qed.
Lemma n_of_own : forall elems id el n, NoDup (map fst elems) -> m_find id elems = Some el -> el_n el = n ->
  (forall id' el', id' <> id -> m_find id' elems = Some el' -> forall j, In j (map fst (el_subs el)) -> ~ In j (map fst (el_subs el'))) ->
  forall j, In j (map fst (el_subs el)) -> n_of elems j = Ok n.
Proof.
  intros elems id el n N F Hn AP j Hj.
  assert (K : forall l, (forall x, In x l -> In x elems) -> In (id, el) l -> n_of l j = Ok n).
  { induction l as [|(i, e) l IH]; intros HI HF; [easy|]. cbn [n_of]. pose proof (proj1 (PropsDemix.m_find_in i elems e N) (HI _ (or_introl eq_refl))) as Fi.
    destruct (Z.eq_dec i id) as [-> | Hi].
    - rewrite F in Fi. injection Fi as <-. destruct (m_find j (el_subs el)) eqn:Fj; [now rewrite Hn|]. apply m_find_none in Fj. contradiction.
    - destruct (m_find j (el_subs e)) eqn:Fj; [|apply IH; [intros; apply HI; now right | destruct HF; [congruence | assumption]]].
      exfalso. apply (AP i e Hi Fi j Hj). destruct (in_dec Z.eq_dec j (map fst (el_subs e))) as [H | H]; [exact H|]. apply m_find_none in H. congruence. }
  apply K; [auto|]. now apply m_find_In.
Qed.
Lemma well_fed_rounds : forall {T} n labels (rounds : list (list (label * list T))), well_fed n labels rounds -> rounds_ok n labels rounds.
Proof.
  intros T n labels rounds (rs & r & k & -> & HF & HR). induction HF as [|r1 rs (k1 & H1 & H2) HF IH]; cbn [app]; [eapply rounds_last; eauto | eapply rounds_more; eauto].
Qed.

Theorem C67_frames : forall {T P} (A : arith T) lin quant (code : Z -> list (list Z) -> res P) delay typed elems ms m clock cf g me el n d D rounds calls g' fs,
  create A delay typed elems ms m clock = Ok (cf, g) -> set_up delay elems ms clock me el n d D ->
  usual_calls n (me_id me) (me_labels me) rounds calls ->
  session A lin quant code cf calls (g, []) = Ok (g', fs) -> generating g' = false ->
  exists mixed, Forall2 (fun r b => samples_of r (snd b)) rounds mixed /\
    forall sid labs, In (sid, labs) (el_subs el) ->
      exists t, m_find sid (g_audio clock) = Some t /\ account A lin quant code el me n D d (td_stamp t) mixed sid labs (frames_of sid fs).
Proof.
  intros T P A lin quant code delay typed elems ms m clock cf g me el n d D rounds calls g' fs HC HS (p1 & l & xs & p2 & post & -> & U1 & U2 & U3 & U4) R HG.
  destruct (create_open A lin quant code delay typed elems ms m clock cf g me el n d D HC HS) as (K1 & K2 & K3 & K4 & K5 & K6 & K7). cbv zeta in K1.
  pose proof (su_pos _ _ _ _ _ _ _ _ _ HS) as S1. pose proof (su_d _ _ _ _ _ _ _ _ _ HS) as S2. pose proof (su_start _ _ _ _ _ _ _ _ _ HS) as S3. pose proof (su_start_small _ _ _ _ _ _ _ _ _ HS) as S4.
  pose proof (su_end _ _ _ _ _ _ _ _ _ HS) as S5. pose proof (su_el _ _ _ _ _ _ _ _ _ HS) as S6. pose proof (su_n _ _ _ _ _ _ _ _ _ HS) as S7.
  set (U := me_start me + (if me_start_delay me then 0 else D)) in *. set (c0 := fun j => match m_find j (g_audio clock) with Some td => td_stamp td | None => 0 end) in *.
  assert (Uok : 0 <= U < 2 ^ 32) by (unfold U; destruct (me_start_delay me); lia).
  destruct (whole A lin quant code n S1 D d U (me_end me) (negb (me_end_pad me)) c0 ltac:(lia) Uok (su_small _ _ _ _ _ _ _ _ _ HS) ltac:(lia) cf (me_id me) el (me_labels me) S7
    (conj (su_subs _ _ _ _ _ _ _ _ _ HS) (su_labs _ _ _ _ _ _ _ _ _ HS)) (su_some _ _ _ _ _ _ _ _ _ HS)
    ltac:(rewrite K2; exact S6) K3 ltac:(rewrite K2; exact (su_keys _ _ _ _ _ _ _ _ _ HS)) (conj K4 (su_names _ _ _ _ _ _ _ _ _ HS))
    ltac:(rewrite K2; exact (su_apart _ _ _ _ _ _ _ _ _ HS))
    ltac:(rewrite K2; exact (n_of_own elems (me_id me) el n (su_keys _ _ _ _ _ _ _ _ _ HS) S6 S7 (su_apart _ _ _ _ _ _ _ _ _ HS)))
    p1 l xs p2 post g [] rounds (g', fs) U1 U2 K1 (well_fed_rounds _ _ _ U4) U3 R HG) as (b & B1 & B2).
  exists b. split; [exact B1|]. intros sid labs Hin. rewrite Forall_forall in B2. specialize (B2 _ Hin). cbn [snd] in B2.
  destruct (su_clock _ _ _ _ _ _ _ _ _ HS sid (in_map fst _ _ Hin)) as (t & T1 & T2). exists t. split; [exact T1|].
  destruct B2 as (fr & fe & qs & pad & x & ins & o & f & (rss & M1 & M2 & M3) & H & Xq & HE & Hp & Hi & Ho & No & Oe & On). cbn [fst snd] in *.
  assert (CC : c0 sid = td_stamp t) by (unfold c0; now rewrite T1). rewrite CC in H.
  destruct HE as (E1 & E2 & E3 & E4).
  assert (N0 : forall (X : Type) (cols : list (list X)) c, Forall (fun col => length col = 0%nat) cols -> nth c cols [] = []).
  { intros X cols c HF. destruct (Nat.ltb_spec c (length cols)); [|now apply nth_overflow]. rewrite Forall_forall in HF. assert (HI : In (nth c cols []) cols) by (apply nth_In; assumption). specialize (HF _ HI). now destruct (nth c cols []). }
  change (frames_of sid fs) with (of_sub sid fs). destruct H as [h1 h2 h3 h4 h5 h6 h7 h8 h9 h10 h11 h12 h13 h14]. rewrite Xq, app_nil_r in *.
  exists rss, ins, qs, pad. split; [exact M1|]. split; [exact Hp|]. split; [intro Q; apply Hi; now rewrite Q|].
  split; [eapply Forall_impl; [|exact h2]; intros f0 (_ & Q); exact Q|].
  split; [intros c Hc; specialize (h4 c Hc); rewrite N0, app_nil_r, M2 in h4 by exact E3; exact h4|].
  split; [exact h1|]. split; [exact h3|].
  split; [intros c Hc; specialize (h5 c Hc); rewrite N0, app_nil_r, M3 in h5 by exact E4; exact h5|].
  split; [exact h8|]. split; [exists o, f; repeat split; auto; rewrite Oe; destruct (me_end_pad me); reflexivity|].
  split; [exact h10|].
  split; [rewrite h11; apply map_ext; intro i; now apply stamp_at|]. split; [rewrite h12; apply map_ext; intro i; now apply stamp_at|]. exact h14.
Qed.

(* the loop of the encoder ends: after Finalize no more than K calls of OutputFrames are needed, whatever else is called between *)
Theorem C67_ends : forall {T P} (A : arith T) lin quant (code : Z -> list (list Z) -> res P) delay typed elems ms m clock cf g D calls s,
  create A delay typed elems ms m clock = Ok (cf, g) ->
  (forall me, In me ms -> exists el n d rounds, set_up delay elems ms clock me el n d D /\ usual_calls n (me_id me) (me_labels me) rounds calls) ->
  session A lin quant code cf calls (g, []) = Ok s ->
  exists K, forall later s', (K <= outs later)%nat -> session A lin quant code cf later s = Ok s' -> generating (fst s') = false.
Proof.
  intros T P A lin quant code delay typed elems ms m clock cf g D calls s HC HM R.
  set (els := flat_map (fun me => match m_find (me_id me) elems with Some el => [el] | None => [] end) ms).
  assert (W : within (of_elems els) g).
  { destruct ms as [|first ms0]; [unfold create in HC; injection HC as <- <-; repeat split; cbn; try constructor; congruence|]. 
    destruct (HM first (or_introl eq_refl)) as (el & n & d & rounds & HS & _).
    destruct (create_open A lin quant code delay typed elems (first :: ms0) m clock _ _ first el n d D HC HS) as ((_ & O2 & _) & _). split; [exact O2|].
    unfold create in HC. cbv zeta in HC. rb HC cs Ec. rb HC sts Es. destruct sts as ((labs, subs), trs). injection HC as <- <-.
    cbn [g_coders]. intros j Hj. destruct (coders_of_ok lin quant code delay _ _ _ _ (fresh_nil delay) Ec) as (_ & F2); apply F2 in Hj. destruct Hj as [Hj | (me & el' & J1 & J2 & J3)]; [now cbn in Hj|].
    exists el'. split; [|exact J3]. unfold els. apply in_flat_map. exists me. split; [exact J1|]. rewrite J2. now left. }
  assert (HE : forall el, In el els -> exists K N, forall cs s', (K <= outs cs)%nat -> session A lin quant code cf cs s = Ok s' -> closed A lin quant code cf el N (fst s')).
  { intros el Hel. apply in_flat_map in Hel. destruct Hel as (me & Hin & Hel). destruct (HM me Hin) as (el' & n & d & rounds & HS & (p1 & l & xs & p2 & post & -> & U1 & U2 & U3 & U4)).
    pose proof (su_el _ _ _ _ _ _ _ _ _ HS) as S6. rewrite S6 in Hel. destruct Hel as [-> | []].
    destruct (create_open A lin quant code delay typed elems ms m clock cf g me el n d D HC HS) as (K1 & K2 & K3 & K4 & K5 & K6 & K7). cbv zeta in K1.
    pose proof (su_pos _ _ _ _ _ _ _ _ _ HS) as S1. pose proof (su_d _ _ _ _ _ _ _ _ _ HS) as S2. pose proof (su_start _ _ _ _ _ _ _ _ _ HS) as S3. pose proof (su_start_small _ _ _ _ _ _ _ _ _ HS) as S4.
    pose proof (su_end _ _ _ _ _ _ _ _ _ HS) as S5. pose proof (su_n _ _ _ _ _ _ _ _ _ HS) as S7.
    set (U := me_start me + (if me_start_delay me then 0 else D)) in *. set (c0 := fun j => match m_find j (g_audio clock) with Some td => td_stamp td | None => 0 end) in *.
    assert (Uok : 0 <= U < 2 ^ 32) by (unfold U; destruct (me_start_delay me); lia).
    exact (whole_closed A lin quant code n S1 D d U (me_end me) (negb (me_end_pad me)) c0 ltac:(lia) Uok (su_small _ _ _ _ _ _ _ _ _ HS) ltac:(lia) cf (me_id me) el (me_labels me) S7
      (conj (su_subs _ _ _ _ _ _ _ _ _ HS) (su_labs _ _ _ _ _ _ _ _ _ HS)) (su_some _ _ _ _ _ _ _ _ _ HS)
      ltac:(rewrite K2; exact S6) K3 ltac:(rewrite K2; exact (su_keys _ _ _ _ _ _ _ _ _ HS)) (conj K4 (su_names _ _ _ _ _ _ _ _ _ HS))
      ltac:(rewrite K2; exact (su_apart _ _ _ _ _ _ _ _ _ HS))
      ltac:(rewrite K2; exact (n_of_own elems (me_id me) el n (su_keys _ _ _ _ _ _ _ _ _ HS) S6 S7 (su_apart _ _ _ _ _ _ _ _ _ HS)))
      p1 l xs p2 g [] rounds post s U1 U2 K1 (well_fed_rounds _ _ _ U4) U3 R). }
  pose proof (session_within A lin quant code cf (of_elems els) calls (g, []) s W R) as W'.
  destruct els as [|e0 els0] eqn:Ee.
  - exists 0%nat. intros later s' _ R'. pose proof (session_within A lin quant code cf _ later s s' W' R') as (_ & W2).
    unfold generating. destruct (g_coders (fst s')) as [|(j, c) r] eqn:E; [reflexivity|]. destruct (W2 j) as (el & [] & _). cbn [m_find]. now rewrite Z.eqb_refl.
  - rewrite <- Ee in *. apply (all_end A lin quant code cf els s); [rewrite Ee; discriminate | exact W' | exact HE].
Qed.

(* ----- after trimming ----- *)
Lemma trim_frames : forall {T P} (F : list (oframe T P)) n u c i, 0 < n -> 
  Forall (fun f => length (nth c (o_raw f) []) = Z.to_nat n) F -> Forall (fun f => o_end f = 0) F ->
  map o_start F = map (fun i => Z.min n (Z.max 0 (u - Z.of_nat i * n))) (seq i (length F)) ->
  concat (map (kept c) F) = skipn (Z.to_nat (u - Z.of_nat i * n)) (channel c (map o_raw F)).
Proof.
  intros T P F n u c i Hn HL HE. revert i. induction HL as [|f F H1 HL IH]; intros i HM; [unfold channel; cbn [map concat]; now rewrite skipn_nil|].
  inversion HE as [|? ? E1 E2]; subst. cbn [map length seq] in HM. injection HM as M1 M2. unfold channel. cbn [map concat]. fold (channel c (map (fun f : oframe T P => o_raw f) F)).
  rewrite skipn_app. f_equal.
  - unfold kept. rewrite H1, M1, E1. change (Z.to_nat 0) with 0%nat. rewrite Nat.sub_0_r, <- H1, firstn_all.
    destruct (Z.leb_spec (u - Z.of_nat i * n) n) as [Q | Q].
    + f_equal. lia.
    + rewrite !skipn_all2; [reflexivity | |]; rewrite H1; lia.
  - rewrite (IH E2 (S i) M2). unfold channel. f_equal. rewrite H1. lia.
Qed.
Lemma kept_all : forall {T P} (F fs : list (oframe T P)) f n u e c, 0 < n -> 0 <= u -> F = fs ++ [f] ->
  Forall (fun f => length (nth c (o_raw f) []) = Z.to_nat n) F -> Forall (fun f => o_end f = 0) fs -> o_end f = e -> 0 <= e <= n ->
  map o_start F = map (fun i => Z.min n (Z.max 0 (u - Z.of_nat i * n))) (seq 0 (length F)) ->
  concat (map (kept c) F) = skipn (Z.to_nat u) (firstn (length (channel c (map o_raw F)) - Z.to_nat e) (channel c (map o_raw F))).
Proof.
  intros T P F fs f n u e c Hn Hu -> HL HE He Hen HM. apply Forall_app in HL. destruct HL as (L1 & L2). inversion L2 as [|? ? L3 _]; subst.
  rewrite app_length in HM. cbn [length] in HM. rewrite Nat.add_comm, seq_snoc, !map_app in HM. cbn [map] in HM. apply app_inj_tail in HM. destruct HM as (M1 & M2).
  pose proof (trim_frames fs n u c 0 Hn L1 HE M1) as Q. rewrite map_app, concat_app. cbn [map concat]. rewrite app_nil_r, Q. unfold channel. rewrite !map_app, concat_app. cbn [map concat]. rewrite app_nil_r.
  set (W := concat (map (fun b => nth c b []) (map (fun f => o_raw f) fs))) in *. set (x := nth c (o_raw f) []) in *.
  assert (LW : length W = (length fs * Z.to_nat n)%nat).
  { unfold W. clear -L1. induction L1 as [|y fs H L1 IH]; [reflexivity|]. cbn [map concat length]. rewrite app_length, IH, H. lia. }
  rewrite app_length. replace (length W + length x - Z.to_nat (o_end f))%nat with (length W + (length x - Z.to_nat (o_end f)))%nat by lia.
  rewrite firstn_app_2, skipn_app. f_equal; [f_equal; lia|]. unfold kept. fold x. rewrite M2. change (0 + length fs)%nat with (length fs).
  destruct (Z.leb_spec (u - Z.of_nat (length fs) * n) n) as [K | K].
  - f_equal. rewrite LW. lia.
  - rewrite !skipn_all2; [reflexivity | |]; rewrite firstn_length, L3; rewrite ?LW; lia.
Qed.
Lemma middle : forall {X} (z y f : list X) s e, skipn (length z + s) (firstn (length (z ++ f ++ y) - (length y + e)) (z ++ f ++ y)) = skipn s (firstn (length f - e) f).
Proof.
  intros X z y f s e. rewrite !app_length. destruct (Nat.leb_spec e (length f)) as [H | H].
  - replace (length z + (length f + length y) - (length y + e))%nat with (length z + (length f - e))%nat by lia. rewrite firstn_app_2.
    rewrite firstn_app. replace (length f - e - length f)%nat with 0%nat by lia. cbn [firstn]. rewrite app_nil_r. rewrite skipn_app, skipn_all2 by lia. cbn [app]. f_equal. lia.
  - replace (length f - e)%nat with 0%nat by lia. cbn [firstn]. rewrite skipn_nil. apply skipn_all2. rewrite firstn_length. lia.
Qed.
(* what is left after the trimming is what was added, without as many samples as the user asked to trim; pad: how many samples
   the last frame lacked *)
Theorem C67_trimmed : forall {T P} (A : arith T) lin quant (code : Z -> list (list Z) -> res P) delay typed elems ms m clock cf g me el n d D rounds calls g' fs,
  create A delay typed elems ms m clock = Ok (cf, g) -> set_up delay elems ms clock me el n d D ->
  usual_calls n (me_id me) (me_labels me) rounds calls ->
  session A lin quant code cf calls (g, []) = Ok (g', fs) -> generating g' = false ->
  exists mixed, Forall2 (fun r b => samples_of r (snd b)) rounds mixed /\
    let s := me_start me - (if me_start_delay me then D else 0) in
    0 <= s /\
    forall sid labs, In (sid, labs) (el_subs el) ->
      exists rss pad, Forall2 (fun b rs => down_mixed A lin quant el (fst b) (snd b) labs rs) mixed rss /\ 0 <= pad < n /\
        let e := me_end me - (if me_end_pad me then pad else 0) in
        0 <= e /\
        forall c, (c < length labs)%nat ->
          let added := channel c (map (map fst) rss) in
          (D + Z.of_nat (length added) + pad) mod n = 0 /\
          concat (map (kept c) (frames_of sid fs)) = skipn (Z.to_nat s) (firstn (length added - Z.to_nat e) added).
Proof.
  intros T P A lin quant code delay typed elems ms m clock cf g me el n d D rounds calls g' fs HC HS HU R HG.
  destruct (C67_frames A lin quant code delay typed elems ms m clock cf g me el n d D rounds calls g' fs HC HS HU R HG) as (mixed & M1 & M2).
  destruct (create_open A lin quant code delay typed elems ms m clock cf g me el n d D HC HS) as (_ & _ & _ & _ & K5 & K6 & K7).
  pose proof (su_pos _ _ _ _ _ _ _ _ _ HS) as S1. pose proof (su_start _ _ _ _ _ _ _ _ _ HS) as S3. pose proof (su_end _ _ _ _ _ _ _ _ _ HS) as S5. pose proof (su_d _ _ _ _ _ _ _ _ _ HS) as S7.
  exists mixed. split; [exact M1|]. cbv zeta. split; [destruct (me_start_delay me); [specialize (K7 eq_refl)|]; lia|].
  intros sid labs Hin. destruct (M2 sid labs Hin) as (t & _ & rss & ins & later & pad & A1 & A2 & A3 & A4 & A5 & _ & _ & _ & A6 & (o & f & A7 & A8 & A9 & A10) & _).
  exists rss, pad. split; [exact A1|]. split; [exact A2|]. split; [destruct (me_end_pad me); [specialize (A3 eq_refl)|]; lia|].
  intros c Hc. specialize (A5 c Hc).
  assert (LC : Forall (fun f => length (nth c (o_raw f) []) = Z.to_nat n) (frames_of sid fs)).
  { eapply Forall_impl; [|exact A4]. intros f0 (C1 & C2). rewrite Forall_forall in C2. apply C2. apply nth_In. lia. }
  set (F := frames_of sid fs) in *.
  assert (LN : length (channel c (map o_raw F)) = (length F * Z.to_nat n)%nat).
  { unfold channel. clear -LC. induction LC as [|y F H L1 IH]; [reflexivity|]. cbn [map concat length]. rewrite app_length, IH, H. lia. }
  rewrite A5, !app_length, !repeat_length in LN.
  split; [replace (D + Z.of_nat (length (channel c (map (map fst) rss))) + pad) with (Z.of_nat (length F) * n) by lia; now apply Z_mod_mult|].
  assert (U0 : 0 <= me_start me + (if me_start_delay me then 0 else D)) by (destruct (me_start_delay me); lia).
  assert (EN : 0 <= o_end f <= n) by (split; [rewrite A9; destruct (me_end_pad me); lia | exact A10]).
  rewrite (kept_all F o f n _ (o_end f) c S1 U0 A7 LC A8 eq_refl EN A6).
  rewrite A5, A9. set (x := channel c (map (map fst) rss)). set (z := repeat (a_lit A 0 1) (Z.to_nat D)). set (y := repeat (a_lit A 0 1) (Z.to_nat pad)).
  assert (Lz : length z = Z.to_nat D) by apply repeat_length. assert (Ly : length y = Z.to_nat pad) by apply repeat_length.
  replace (Z.to_nat (me_start me + (if me_start_delay me then 0 else D))) with (length z + Z.to_nat (me_start me - (if me_start_delay me then D else 0)))%nat
    by (rewrite Lz; destruct (me_start_delay me); [specialize (K7 eq_refl)|]; lia).
  replace (Z.to_nat (me_end me + (if me_end_pad me then 0 else pad))) with (length y + Z.to_nat (me_end me - (if me_end_pad me then pad else 0)))%nat
    by (rewrite Ly; destruct (me_end_pad me); [specialize (A3 eq_refl)|]; lia).
  apply middle.
Qed.

(* ----- the hypotheses are met: two elements, one with a coder delay of 2 ----- *)
Definition zarith : arith Z := mkArith Z Z.add Z.sub Z.mul Z.div (fun a _ => a) (fun _ => false).
Definition ex_elems : list (Z * elem) := [(10, mkElem [(0, [L2; R2])] 4 16 16 [] []); (20, mkElem [(1, [Mono])] 4 16 16 [] [])].
Definition ex_metas : list meta := [mkMeta 20 [Mono] 1 false 1 false; mkMeta 10 [R2; L2] 1 false 1 false].
Definition ex_delay (j : Z) : res Z := Ok (if j =? 0 then 2 else 0).
Definition ex_code (j : Z) (fr : list (list Z)) : res (list (list Z)) := Ok fr.
Definition ex_clock : gtm := mkG [(0, mkTd 48000 0); (1, mkTd 48000 0)] [].
Definition ex_calls : list (call Z) :=
  [Add 10 L2 [1; 2; 3; 4]; Add 20 Mono [21; 22; 23; 24]; Add 10 R2 [11; 12; 13; 14]; Out; Add 10 L2 [5; 6; 7]; Add 10 R2 [15; 16; 17]; Add 20 Mono [25; 26; 27]; Fin; Out; Out; Out; Out].
Definition ex_run : res (list (Z * Z * Z * list (list Z) * list (list Z)) * bool) :=
  rbind (create (P := list (list Z)) zarith ex_delay (fun _ => false) ex_elems ex_metas (mkPm [] [] [] []) ex_clock) (fun cg =>
  rbind (session zarith (fun z => z) Ok ex_code (fst cg) ex_calls (snd cg, [])) (fun r =>
  Ok (map (fun f => (o_id f, o_start f, o_end f, o_raw f, o_data f)) (snd r), generating (fst r)))).
Definition one_session (delay : Z) (inc : bool) (calls : list (call Z)) : res (list (Z * Z * list (list Z)) * bool) :=
  rbind (create (P := list (list Z)) zarith (fun _ => Ok delay) (fun _ => false) [(20, mkElem [(1, [Mono])] 4 16 16 [] [])] [mkMeta 20 [Mono] 2 inc 0 false]
     (mkPm [] [] [] []) (mkG [(1, mkTd 48000 0)] [])) (fun cg =>
  rbind (session zarith (fun z => z) Ok ex_code (fst cg) calls (snd cg, [])) (fun r => Ok (map (fun f => (o_start f, o_end f, o_raw f)) (snd r), generating (fst r)))).
Definition ex_me : meta := mkMeta 10 [R2; L2] 1 false 1 false.
Definition ex_rounds : list (list (label * list Z)) := [[(L2, [1; 2; 3; 4]); (R2, [11; 12; 13; 14])]; [(L2, [5; 6; 7]); (R2, [15; 16; 17])]].
Lemma ex_set_up : set_up ex_delay ex_elems ex_metas ex_clock ex_me (mkElem [(0, [L2; R2])] 4 16 16 [] []) 4 2 2.
Proof.
  constructor; try (cbn; lia); try reflexivity; try discriminate.
  - repeat constructor; cbn; intuition lia.
  - repeat constructor; cbn; intuition lia.
  - right. now left.
  - repeat constructor; cbn; intuition lia.
  - intros l [<- | []]. discriminate.
  - intros id' el' Hi F j [<- | []]. cbn [ex_elems m_find me_id ex_me] in *. destruct (10 =? id') eqn:E; [apply Z.eqb_eq in E; congruence|]. destruct (20 =? id'); [|discriminate]. injection F as <-. cbn. lia.
  - intros j [<- | []]. reflexivity.
  - split; [lia|]. split.
    + intros me el j x _ _ _ H. unfold ex_delay in H. injection H as <-. destruct (j =? 0); lia.
    + right. exists ex_me, (mkElem [(0, [L2; R2])] 4 16 16 [] []), 0. repeat split; try reflexivity; [right; now left | now left].
  - intros j [<- | []]. exists (mkTd 48000 0). split; [reflexivity | cbn; lia].
Qed.
(* the other element, whose coder has no delay *)
Lemma ex_set_up_mono : set_up ex_delay ex_elems ex_metas ex_clock (mkMeta 20 [Mono] 1 false 1 false) (mkElem [(1, [Mono])] 4 16 16 [] []) 4 0 2.
Proof.
  constructor; try (cbn; lia); try reflexivity; try discriminate.
  - repeat constructor; cbn; intuition lia.
  - repeat constructor; cbn; intuition lia.
  - now left.
  - repeat constructor; cbn; intuition lia.
  - intros l [<- | []]. discriminate.
  - intros id' el' Hi F j [<- | []]. cbn [ex_elems m_find me_id] in *. destruct (10 =? id') eqn:E; [injection F as <-; cbn; lia|]. destruct (20 =? id') eqn:E2; [apply Z.eqb_eq in E2; congruence | discriminate].
  - intros j [<- | []]. reflexivity.
  - exact (su_max _ _ _ _ _ _ _ _ _ ex_set_up).
  - intros j [<- | []]. exists (mkTd 48000 0). split; [reflexivity | cbn; lia].
Qed.
Lemma ex_usual : usual_calls 4 10 [R2; L2] ex_rounds ex_calls.
Proof.
  exists [Add 10 L2 [1; 2; 3; 4]; Add 20 Mono [21; 22; 23; 24]; Add 10 R2 [11; 12; 13; 14]; Out; Add 10 L2 [5; 6; 7]], R2, [15; 16; 17], [Add 20 Mono [25; 26; 27]], [Out; Out; Out; Out].
  split; [reflexivity|]. split; [repeat constructor; discriminate|]. split; [repeat constructor; do 3 eexists; split; [reflexivity | lia]|]. split; [reflexivity|].
  exists [[(L2, [1; 2; 3; 4]); (R2, [11; 12; 13; 14])]], [(L2, [5; 6; 7]); (R2, [15; 16; 17])], 3%nat.
  split; [reflexivity|]. split; [repeat constructor; exists 4%nat; split; [|lia] |]; (split; [apply perm_swap|]; split; [repeat constructor | lia]).
Qed.
Lemma ex_usual_mono : usual_calls 4 20 [Mono] [[(Mono, [21; 22; 23; 24])]; [(Mono, [25; 26; 27])]] ex_calls.
Proof.
  exists (firstn 6 ex_calls), Mono, [25; 26; 27], [], [Out; Out; Out; Out]. split; [reflexivity|]. split; [repeat constructor; discriminate|]. split; [constructor|]. split; [reflexivity|].
  exists [[(Mono, [21; 22; 23; 24])]], [(Mono, [25; 26; 27])], 3%nat.
  split; [reflexivity|]. split; [repeat constructor; exists 4%nat; split; [|lia] |]; (split; [reflexivity|]; split; [repeat constructor | lia]).
Qed.
Lemma ex_frames : ex_run = Ok ([
  (1, 3, 0, [[0; 0; 21; 22]], [[0; 0; 21; 22]]); (0, 3, 0, [[0; 0; 1; 2]; [0; 0; 11; 12]], [[1; 2; 3; 4]; [11; 12; 13; 14]]);
  (1, 0, 0, [[23; 24; 25; 26]], [[23; 24; 25; 26]]); (0, 0, 0, [[3; 4; 5; 6]; [13; 14; 15; 16]], [[5; 6; 7; 0]; [15; 16; 17; 0]]);
  (1, 0, 4, [[27; 0; 0; 0]], [[27; 0; 0; 0]]); (0, 0, 4, [[7; 0; 0; 0]; [17; 0; 0; 0]], [[0; 0; 0; 0]; [0; 0; 0; 0]])], false).
Proof. vm_compute. reflexivity. Qed.

(* ----- what the usual calls leave out, and why: one mono element, frames of 4, two samples to be trimmed at the end ----- *)
(* Finalize is only called after the frame which holds the last samples was taken: the two samples are not trimmed *)
Lemma C67_late_finalize_refuted :
  one_session 0 false [Add 20 Mono [1; 2; 3; 4]; Fin; Out; Out] = Ok ([(0, 2, [[1; 2; 3; 4]])], false) /\
  one_session 0 false [Add 20 Mono [1; 2; 3; 4]; Out; Fin; Out] = Ok ([(0, 0, [[1; 2; 3; 4]])], false).
Proof. split; vm_compute; reflexivity. Qed.
(* a short block in the middle: its padding (trimmed by nobody) is counted again at the end, where samples which were added are
   trimmed for it: 3 instead of 2 *)
Lemma C67_short_block_refuted :
  one_session 0 false [Add 20 Mono [1; 2; 3]; Out; Add 20 Mono [4; 5; 6]; Fin; Out] = Ok ([(0, 1, [[1; 2; 3; 0]]); (0, 4, [[4; 5; 6; 0]])], false).
Proof. vm_compute. reflexivity. Qed.
(* no sample was ever added: with a coder that has a delay there is no end *)
Lemma idle_again : forall {T P} (A : arith T) lin quant (code : Z -> list (list Z) -> res P) cf k s,
  output_frames A lin quant code cf s = Ok (s, []) -> session A lin quant code cf (repeat Out k) (s, []) = Ok (s, []).
Proof.
  intros T P A lin quant code cf k s H. induction k as [|k IH]; [reflexivity|]. cbn [repeat session call_step fst snd]. rewrite H. cbn [rbind fst snd app]. exact IH.
Qed.
Lemma C67_nothing_added_refuted : forall k, one_session 2 false (Fin :: repeat Out k) = Ok ([], true).
Proof.
  intro k. unfold one_session.
  match goal with |- context [rbind ?c _] => let v := eval vm_compute in c in replace c with v by (vm_compute; reflexivity) end.
  destruct k as [|k]; [vm_compute; reflexivity|]. cbn [repeat rbind fst snd session call_step].
  match goal with |- context [rbind (output_frames ?a ?b ?c ?d ?e ?f) _] => let v := eval vm_compute in (output_frames a b c d e f) in replace (output_frames a b c d e f) with v by (vm_compute; reflexivity) end.
  cbn [rbind fst snd app]. rewrite idle_again by (vm_compute; reflexivity). vm_compute. reflexivity.
Qed.
(* the samples to be trimmed and those which the last frame lacks are more than a frame: refused, but only at the end *)
Lemma C67_trim_over_frame : exists r,
  one_session 0 false [Add 20 Mono [1; 2; 3; 4]; Out; Add 20 Mono [5]] = Ok r /\
  one_session 0 false [Add 20 Mono [1; 2; 3; 4]; Out; Add 20 Mono [5]; Fin; Out] = Err InvalidArgument.
Proof. eexists. split; vm_compute; reflexivity. Qed.
