(* Mix Presentation OBUs: what more data behind the OBU can change (see finding F36). *)
From Verif Require Import Base WriteBuf ReadBuf Leb BufSpec LebSpec BitFacts WriteBufFacts ReadBufFacts LebFacts
  ParseFacts EndToEnd ObuHeader ObuHeaderFacts FrameFacts SeqFacts PureFacts SimpleObus CodecConfig Params AudioElement MixPresentation
  Timing ParamManager AeData Profile MixSelect Processor PropsObu ProcFacts Session Reorder Pcm DecoderApi Descriptors PropsParams PropsAE DescFacts.

(* ================= SPEC ================= *)
(* The rendering configuration does not hold extension bytes only. *)
Definition extension_known (r : rconf) : Prop := rc_defs r <> [] \/ rc_ego r <> None \/ rc_ext r = [].
Definition extensions_known (m : mixp) : Prop := forall s x, In s (mp_subs m) -> In x (sm_elems s) -> extension_known (sa_conf x).

(* ================= proofs ================= *)
Definition good (c : cur) : Prop := cok c /\ c_valid c = Some true.
Lemma good_ext c e : good c -> good (ext e c).
Proof. intros [K V]. split; [|exact V]. unfold cok in *. cbn [ext c_pos c_bits]. rewrite app_length. lia. Qed.
Lemma good_run {A} (p : rprog A) c a c1 : good c -> arun p c = (Ok a, c1) -> good c1.
Proof.
  intros [K V] E. pose proof (arun_cok p c K) as K1. destruct (arun_valid p c V) as [V1 _]. rewrite E in K1, V1. split; assumption.
Qed.
Lemma bits_run {A} (p : rprog A) c a c1 : arun p c = (Ok a, c1) -> c_bits c1 = c_bits c.
Proof. intro E. pose proof (arun_bits p c) as B. rewrite E in B. exact B. Qed.

(* Never backwards. *)
Definition mono {A} (p : rprog A) : Prop := forall c a c1, good c -> arun p c = (Ok a, c1) -> (c_pos c <= c_pos c1)%nat.
(* With more data: if the program succeeds within the first data, it does the same on that alone. *)
Definition local {A} (p : rprog A) : Prop := forall c e b c2, good c -> arun p (ext e c) = (Ok b, c2) ->
  (length (c_bits c) < c_pos c2)%nat \/ exists c1, arun p c = (Ok b, c1) /\ c2 = ext e c1.
(* If it succeeds with a result in [G], more data do not change this. *)
Definition kept {A} (G : A -> Prop) (p : rprog A) : Prop := forall c e a c1, good c -> arun p c = (Ok a, c1) -> G a ->
  arun p (ext e c) = (Ok a, ext e c1).

Lemma fw_mono' {A} (p : rprog A) : fw p -> mono p.
Proof. intros H c a c1 G E. pose proof (fw_mono p H c) as M. rewrite E in M. exact M. Qed.
Lemma fw_local {A} (p : rprog A) : fw p -> local p.
Proof.
  intros H c e b c2 G E. pose proof (fw_ext p H c e (proj1 G)) as X. rewrite E in X. destruct (arun p c) as [[a|er| | |] c1]; try contradiction; [|left; exact X].
  right. exists c1. injection X as -> ->. auto.
Qed.
Lemma fw_kept {A} (p : rprog A) (Q : A -> Prop) : fw p -> kept Q p.
Proof. intros H c e a c1 G E _. pose proof (fw_ext p H c e (proj1 G)) as X. rewrite E in X. exact X. Qed.

Lemma mono_bind {A B} (p : rprog A) (f : A -> rprog B) : mono p -> (forall a, mono (f a)) -> mono (rb p f).
Proof.
  intros Hp Hf c b c2 G E. apply arun_bind_ok in E as (a & c1 & E1 & E2). pose proof (Hp _ _ _ G E1). pose proof (Hf a _ _ _ (good_run _ _ _ _ G E1) E2). lia.
Qed.
Lemma local_bind {A B} (p : rprog A) (f : A -> rprog B) : local p -> (forall a, local (f a)) -> (forall a, mono (f a)) -> local (rb p f).
Proof.
  intros Hp Hf Hm c e b c3 G E. apply arun_bind_ok in E as (a & c2 & E1 & E2). destruct (Hp _ _ _ _ G E1) as [L|(c1 & Ec & ->)].
  - left. pose proof (Hm a _ _ _ (good_run _ _ _ _ (good_ext _ _ G) E1) E2). lia.
  - pose proof (good_run _ _ _ _ G Ec) as G1. pose proof (bits_run _ _ _ _ Ec) as B1. destruct (Hf a _ _ _ _ G1 E2) as [L|(c4 & E4 & ->)].
    + left. rewrite <- B1. exact L.
    + right. exists c4. split; [|reflexivity]. rewrite arun_bind, Ec. exact E4.
Qed.
Lemma kept_bind {A B} (G1 : A -> Prop) (G2 : B -> Prop) (p : rprog A) (f : A -> rprog B) : kept G1 p -> (forall a, kept G2 (f a)) ->
  (forall a c b c1, good c -> arun (f a) c = (Ok b, c1) -> G2 b -> G1 a) -> kept G2 (rb p f).
Proof.
  intros Hp Hf Hg c e b c2 G E Gb. apply arun_bind_ok in E as (a & c1 & E1 & E2). pose proof (good_run _ _ _ _ G E1) as G1'.
  rewrite arun_bind, (Hp _ e _ _ G E1 (Hg _ _ _ _ G1' E2 Gb)). apply Hf; assumption.
Qed.
Lemma mono_rlist {A} n (p : rprog A) : mono p -> mono (rlist n p).
Proof.
  intro H. induction n as [|n IH]; cbn [rlist]; [apply fw_mono'; constructor|]. apply mono_bind; [exact H|]. intro a.
  apply mono_bind; [exact IH|]. intro. apply fw_mono'. constructor.
Qed.
Lemma local_rlist {A} n (p : rprog A) : mono p -> local p -> local (rlist n p).
Proof.
  intros M H. induction n as [|n IH]; cbn [rlist]; [apply fw_local; constructor|]. apply local_bind; [exact H| |].
  - intro a. apply local_bind; [exact IH| |]; intro; [apply fw_local|apply fw_mono']; constructor.
  - intro a. apply mono_bind; [apply mono_rlist, M|]. intro. apply fw_mono'. constructor.
Qed.
Lemma kept_rlist {A} n (p : rprog A) (G : A -> Prop) : kept G p -> kept (Forall G) (rlist n p).
Proof.
  intro H. induction n as [|n IH]; cbn [rlist]; [apply fw_kept; constructor|]. apply (kept_bind G); [exact H| |].
  - intro a. apply (kept_bind (Forall G)); [exact IH|intro; apply fw_kept; constructor|].
    intros l c b c1 _ E F. cbn [arun] in E. injection E as <- _. apply Forall_cons_iff in F. apply F.
  - intros a c b c1 _ E F. apply arun_bind_ok in E as (l & c2 & _ & E). cbn [arun] in E. injection E as <- _. apply Forall_cons_iff in F. apply F.
Qed.
Lemma mono_if {A} (b : bool) (p q : rprog A) : mono p -> mono q -> mono (if b then p else q). Proof. destruct b; auto. Qed.
Lemma local_if {A} (b : bool) (p q : rprog A) : local p -> local q -> local (if b then p else q). Proof. destruct b; auto. Qed.

(* ---- the rendering configuration ---- *)
Lemma never {A} (p : rprog A) (c : code) : (forall d a d1, arun (p ;;; @RFail A c) d <> (Ok a, d1)).
Proof. intros d a d1 E. apply arun_bind_ok in E as (x & d2 & _ & E). cbn [arun] in E. discriminate. Qed.
Lemma fw_rdef_tail : forall n, local (rignore n ;;; @RFail rdef Unimplemented) /\ mono (rignore n ;;; @RFail rdef Unimplemented) /\ kept (fun _ => True) (rignore n ;;; @RFail rdef Unimplemented).
Proof.
  intro n. split; [|split]; [intros c e b c2 _ E|intros c a c1 _ E|intros c e a c1 _ E]; exfalso; apply arun_bind_ok in E as (x & d2 & _ & E); cbn [arun] in E; discriminate.
Qed.
Lemma rdef_all : local read_rdef /\ mono read_rdef /\ kept (fun _ => True) read_rdef.
Proof.
  unfold read_rdef. assert (forall k, fw (d <- read_pdef (mkPD pbase0 k) ;; RRet (rdef_create d []))) as F.
  { intro k. apply fw_bind; [apply fw_pdef|]. intro. constructor. }
  assert (fw ruleb) as Fu by (apply fw_pure, pure_ruleb). split; [|split].
  - apply local_bind; [apply fw_local, Fu| |]; intro t; destruct (position_kind t); [apply fw_local, F| |apply fw_mono', F|].
    + apply local_bind; [apply fw_local, Fu| |]; intro n; apply fw_rdef_tail.
    + apply mono_bind; [apply fw_mono', Fu|]; intro n; apply fw_rdef_tail.
  - apply mono_bind; [apply fw_mono', Fu|]. intro t; destruct (position_kind t); [apply fw_mono', F|]. apply mono_bind; [apply fw_mono', Fu|]; intro n; apply fw_rdef_tail.
  - apply (kept_bind (fun _ => True)); [apply fw_kept, Fu| |auto]. intro t; destruct (position_kind t); [apply fw_kept, F|].
    apply (kept_bind (fun _ => True)); [apply fw_kept, Fu| |auto]. intro n; apply fw_rdef_tail.
Qed.
Lemma fw_ego : fw read_ego. Proof. unfold read_ego. fw_tac. Qed.
Lemma rext_all flag : local (read_rext flag) /\ mono (read_rext flag) /\ kept (fun _ => True) (read_rext flag).
Proof.
  unfold read_rext. destruct rdef_all as (L & M & K). assert (fw ruleb) as Fu by (apply fw_pure, pure_ruleb).
  assert (forall l, fw (e <- (if flag then x <- read_ego ;; RRet (Some x) else RRet None) ;; @RRet (list rdef * option egoc) (l, e))) as F.
  { intro l. apply fw_bind; [|intro; constructor]. destruct flag; [|constructor]. apply fw_bind; [apply fw_ego|]. intro; constructor. }
  assert (forall n, mono (l <- rlist (Z.to_nat n) read_rdef ;; e <- (if flag then x <- read_ego ;; RRet (Some x) else RRet None) ;; @RRet (list rdef * option egoc) (l, e))) as Mn.
  { intro n. apply mono_bind; [apply mono_rlist, M|]. intro l. apply fw_mono', F. }
  split; [|split].
  - apply local_bind; [apply fw_local, Fu| |exact Mn]. intro n. apply local_bind; [apply local_rlist; assumption| |]; intro l; [apply fw_local, F|apply fw_mono', F].
  - apply mono_bind; [apply fw_mono', Fu|exact Mn].
  - apply (kept_bind (fun _ => True)); [apply fw_kept, Fu| |auto]. intro n. apply (kept_bind (Forall (fun _ => True))); [apply kept_rlist, K| |].
    + intro l. apply fw_kept, F.
    + intros l c b c1 _ _ _. apply Forall_forall. auto.
Qed.

Definition rext_part (mode prof res size : Z) (flag : bool) : rprog rconf :=
  p <- rtell ;; st <- rcatch (read_rext flag) ;;
    match st with
    | inr x =>
        q <- rtell ;;
        rcheck (negb (size - (q - p) / 8 <? 0)) InvalidArgument ;;;
        b <- rspan (Z.to_nat (size - (q - p) / 8)) ;; RRet (mkRC mode prof res (fst x) (snd x) b)
    | inl _ => rseek p ;;; b <- rspan (Z.to_nat size) ;; RRet (mkRC mode prof res [] None b)
    end.
Definition inr_part (mode prof res size : Z) (p : Z) (x : list rdef * option egoc) : rprog rconf :=
  q <- rtell ;;
  rcheck (negb (size - (q - p) / 8 <? 0)) InvalidArgument ;;;
  b <- rspan (Z.to_nat (size - (q - p) / 8)) ;; RRet (mkRC mode prof res (fst x) (snd x) b).
Definition inl_part (mode prof res size : Z) : rprog rconf := b <- rspan (Z.to_nat size) ;; RRet (mkRC mode prof res [] None b).
Lemma fw_inr mode prof res size p x : fw (inr_part mode prof res size p x). Proof. unfold inr_part. fw_tac. Qed.
Lemma fw_inl mode prof res size : fw (inl_part mode prof res size). Proof. unfold inl_part. fw_tac. Qed.
Lemma good_eta c : good c -> mkC (c_bits c) (c_pos c) (Some true) = c.
Proof. intros [_ V]. destruct c as [b p v]. cbn in V. subst v. reflexivity. Qed.
Lemma run_rext mode prof res size flag c : good c -> arun (rext_part mode prof res size flag) c =
  match arun (read_rext flag) c with
  | (Ok x, c1) => arun (inr_part mode prof res size (Z.of_nat (c_pos c)) x) c1
  | (Err _, c1) => arun (inl_part mode prof res size) c
  | (r, c1) => (crash r, c1)
  end.
Proof.
  intro G. unfold rext_part. rewrite arun_bind, arun_rtell, arun_bind, arun_rcatch, (good_eta _ G).
  pose proof (arun_bits (read_rext flag) c) as B. destruct (arun_valid (read_rext flag) c (proj2 G)) as [V _].
  destruct (arun (read_rext flag) c) as [[x|er| | |] c1]; try reflexivity. cbn [snd] in *.
  rewrite arun_bind. destruct c1 as [b1 p1 v1]. cbn [c_bits c_valid] in B, V. subst b1 v1. rewrite arun_rseek_ok by (destruct G as [K _]; unfold cok, zlen in *; lia).
  rewrite Nat2Z.id, (good_eta _ G). reflexivity.
Qed.
Lemma rext_part_all mode prof res size flag :
  local (rext_part mode prof res size flag) /\ mono (rext_part mode prof res size flag) /\ (0 < size -> kept extension_known (rext_part mode prof res size flag)).
Proof.
  destruct (rext_all flag) as (L & M & K). split; [|split].
  - intros c e b c2 G E. rewrite (run_rext _ _ _ _ _ _ (good_ext _ e G)) in E. rewrite (run_rext _ _ _ _ _ _ G). cbn [ext c_pos] in E.
    destruct (arun (read_rext flag) (ext e c)) as [[x|er| | |] c3] eqn:E3; try discriminate E.
    + destruct (L _ _ _ _ G E3) as [F|(c1 & E1 & ->)].
      * left. pose proof (fw_mono' _ (fw_inr mode prof res size (Z.of_nat (c_pos c)) x) _ _ _ (good_run _ _ _ _ (good_ext _ e G) E3) E). lia.
      * rewrite E1. pose proof (bits_run _ _ _ _ E1) as B1. destruct (fw_local _ (fw_inr mode prof res size (Z.of_nat (c_pos c)) x) _ _ _ _ (good_run _ _ _ _ G E1) E) as [F|F]; [left; rewrite <- B1; exact F|right; exact F].
    + destruct (arun (read_rext flag) c) as [[x|er2| | |] c1] eqn:E1.
      * rewrite (K _ e _ _ G E1 I) in E3. discriminate E3.
      * exact (fw_local _ (fw_inl mode prof res size) _ _ _ _ G E).
      * destruct (arun_valid (read_rext flag) c (proj2 G)) as [_ [[? X]|[? X]]]; rewrite E1 in X; discriminate.
      * destruct (arun_valid (read_rext flag) c (proj2 G)) as [_ [[? X]|[? X]]]; rewrite E1 in X; discriminate.
      * destruct (arun_valid (read_rext flag) c (proj2 G)) as [_ [[? X]|[? X]]]; rewrite E1 in X; discriminate.
  - intros c a c1 G E. rewrite (run_rext _ _ _ _ _ _ G) in E. destruct (arun (read_rext flag) c) as [[x|er| | |] c3] eqn:E3; try discriminate E.
    + pose proof (M _ _ _ G E3). pose proof (fw_mono' _ (fw_inr mode prof res size (Z.of_nat (c_pos c)) x) _ _ _ (good_run _ _ _ _ G E3) E). lia.
    + exact (fw_mono' _ (fw_inl mode prof res size) _ _ _ G E).
  - intros Hs c e a c1 G E Ga. rewrite (run_rext _ _ _ _ _ _ G) in E. rewrite (run_rext _ _ _ _ _ _ (good_ext _ e G)). cbn [ext c_pos].
    destruct (arun (read_rext flag) c) as [[x|er| | |] c3] eqn:E3; try discriminate E.
    + rewrite (K _ e _ _ G E3 I). exact (fw_kept _ (fun _ => True) (fw_inr mode prof res size (Z.of_nat (c_pos c)) x) _ e _ _ (good_run _ _ _ _ G E3) E I).
    + exfalso. unfold inl_part in E. apply arun_bind_ok in E as (b & c4 & E4 & E). cbn [arun] in E. injection E as <- _.
      destruct Ga as [Ga|[Ga|Ga]]; cbn [rc_defs rc_ego rc_ext] in Ga; try congruence. subst b.
      destruct (rspan_bytes _ _ _ _ (proj1 G) E4) as [Ln _]. cbn [length] in Ln. lia.
Qed.
Lemma rconf_all : local read_rconf /\ mono read_rconf /\ kept extension_known read_rconf.
Proof.
  unfold read_rconf.
  assert (forall mode flag prof res size, local (if size =? 0 then RRet (mkRC mode prof res [] None []) else rext_part mode prof res size flag) /\
    mono (if size =? 0 then RRet (mkRC mode prof res [] None []) else rext_part mode prof res size flag)) as X.
  { intros. destruct (rext_part_all mode prof res size flag) as (L & M & K). split; [apply local_if|apply mono_if]; try assumption; [apply fw_local|apply fw_mono']; constructor. }
  split; [|split].
  - repeat (apply local_bind; [apply fw_local; fw_tac| |]; [intro|intro; repeat (apply mono_bind; [apply fw_mono'; fw_tac|intro]); apply X]). apply X.
  - repeat (apply mono_bind; [apply fw_mono'; fw_tac|intro]). apply X.
  - apply (kept_bind (fun _ => True)); [apply fw_kept; fw_tac|intro mode|auto].
    apply (kept_bind (fun _ => True)); [apply fw_kept; fw_tac|intro flag|auto].
    apply (kept_bind (fun _ => True)); [apply fw_kept; fw_tac|intro prof|auto].
    apply (kept_bind (fun _ => True)); [apply fw_kept; fw_tac|intro res|auto].
    intros c e a c1 G E Ga. apply arun_bind_ok in E as (size & c2 & E2 & E). destruct (arun_ruleb_range _ _ _ (proj1 G) E2) as (R & _ & _).
    rewrite arun_bind, (fw_kept _ (fun _ => True) (fw_pure _ pure_ruleb) _ e _ _ G E2 I). pose proof (good_run _ _ _ _ G E2) as G2.
    apply arun_bind_ok in E as ([] & c3 & E3 & E). rewrite arun_bind, (fw_kept _ (fun _ => True) (fw_pure _ (pure_rcheck _ _)) _ e _ _ G2 E3 I).
    pose proof (good_run _ _ _ _ G2 E3) as G3. destruct (size =? 0) eqn:Es.
    + cbn [arun] in *. injection E as <- <-. reflexivity.
    + fold (rext_part mode prof res size flag) in *. apply (rext_part_all mode prof res size flag); try assumption. unfold u32P in R. lia.
Qed.

(* ---- the mix presentation ---- *)
Lemma fw_rstring : fw rstring.
Proof. apply fw_pure. unfold rstring. generalize 128%nat, (@nil Z). intro n. induction n as [|n IH]; intro acc; cbn [rstring_loop]; pure_tac; apply IH. Qed.
Lemma fw_layout : fw read_layout. Proof. unfold read_layout. fw_tac. Qed.
Definition elem_known (x : subelem) : Prop := extension_known (sa_conf x).
Lemma subelem_all count : local (read_subelem count) /\ mono (read_subelem count) /\ kept elem_known (read_subelem count).
Proof.
  unfold read_subelem. destruct rconf_all as (L & M & K). assert (fw ruleb) as Fu by (apply fw_pure, pure_ruleb).
  assert (forall n, fw (rlist n rstring)) as Fs by (intro; apply fw_rlist, fw_rstring).
  assert (forall id ann c, fw (g <- read_pdef gain0 ;; RRet (mkSA id ann c g))) as F by (intros; apply fw_bind; [apply fw_pdef|intro; constructor]).
  split; [|split].
  - apply local_bind; [apply fw_local, Fu| |]; intro id.
    + apply local_bind; [apply fw_local, Fs| |]; intro ann; [|apply mono_bind; [exact M|intro; apply fw_mono', F]].
      apply local_bind; [exact L| |]; intro c; [apply fw_local, F|apply fw_mono', F].
    + apply mono_bind; [apply fw_mono', Fs|intro ann]. apply mono_bind; [exact M|intro; apply fw_mono', F].
  - apply mono_bind; [apply fw_mono', Fu|intro id]. apply mono_bind; [apply fw_mono', Fs|intro ann]. apply mono_bind; [exact M|intro; apply fw_mono', F].
  - apply (kept_bind (fun _ => True)); [apply fw_kept, Fu|intro id|auto]. apply (kept_bind (fun _ => True)); [apply fw_kept, Fs|intro ann|auto].
    apply (kept_bind extension_known); [exact K|intro c; apply fw_kept, F|]. intros c cc b c1 _ E Gb.
    apply arun_bind_ok in E as (g & c2 & _ & E). cbn [arun] in E. injection E as <- _. exact Gb.
Qed.
Definition submix_known (s : submix) : Prop := Forall elem_known (sm_elems s).
Lemma submix_all count : local (read_submix count) /\ mono (read_submix count) /\ kept submix_known (read_submix count).
Proof.
  unfold read_submix. destruct (subelem_all count) as (L & M & K). assert (fw ruleb) as Fu by (apply fw_pure, pure_ruleb).
  assert (forall b c, fw (rcheck b c)) as Fc by (intros; apply fw_pure, pure_rcheck).
  set (tl es := g <- read_pdef gain0 ;; m <- ruleb ;; ls <- rlist (Z.to_nat m) read_layout ;;
    RRet (mkSM es g (if has_stereo ls then ls else ls ++ [default_stereo ls]))).
  assert (forall es, fw (tl es)) as F.
  { intro es. unfold tl. apply fw_bind; [apply fw_pdef|intro]. apply fw_bind; [exact Fu|intro]. apply fw_bind; [apply fw_rlist, fw_layout|intro; constructor]. }
  assert (forall n, mono (es <- rlist n (read_subelem count) ;; tl es)) as Mn by (intro; apply mono_bind; [apply mono_rlist, M|intro; apply fw_mono', F]).
  split; [|split].
  - apply local_bind; [apply fw_local, Fu| |]; intro n.
    + apply local_bind; [apply fw_local, Fc| |]; intro u; [|apply Mn].
      apply local_bind; [apply local_rlist; assumption| |]; intro c; [apply fw_local, F|apply fw_mono', F].
    + apply mono_bind; [apply fw_mono', Fc|intro; apply Mn].
  - apply mono_bind; [apply fw_mono', Fu|intro n]. apply mono_bind; [apply fw_mono', Fc|intro; apply Mn].
  - apply (kept_bind (fun _ => True)); [apply fw_kept, Fu|intro n|auto]. apply (kept_bind (fun _ => True)); [apply fw_kept, Fc|intro u|auto].
    apply (kept_bind (Forall elem_known)); [apply kept_rlist, K|intro c; apply fw_kept, F|]. intros es cc b c1 _ E Gb. unfold tl in E.
    apply arun_bind_ok in E as (g & c2 & _ & E). apply arun_bind_ok in E as (x & c3 & _ & E). apply arun_bind_ok in E as (y & c4 & _ & E).
    cbn [arun] in E. injection E as <- _. exact Gb.
Qed.
Definition mixp_known (m : mixp) : Prop := Forall submix_known (mp_subs m).
Lemma mixp_main_all : local read_mixp_main /\ mono read_mixp_main /\ kept mixp_known read_mixp_main.
Proof.
  unfold read_mixp_main. assert (fw ruleb) as Fu by (apply fw_pure, pure_ruleb).
  assert (forall b c, fw (rcheck b c)) as Fc by (intros; apply fw_pure, pure_rcheck).
  assert (forall n, fw (rlist n rstring)) as Fs by (intro; apply fw_rlist, fw_rstring).
  set (tl id count la an n ss := rcheck (negb (n =? 0)) InvalidArgument ;;; rres (vunique (element_ids ss)) ;;; RRet (mkMP id count la an ss None None)).
  assert (forall id count la an n ss, fw (tl id count la an n ss)) as F by (intros; unfold tl; fw_tac).
  assert (forall id count la an n, mono (ss <- rlist (Z.to_nat n) (read_submix count) ;; tl id count la an n ss)) as Mn.
  { intros. destruct (submix_all count) as (L & M & K). apply mono_bind; [apply mono_rlist, M|intro; apply fw_mono', F]. }
  Ltac mno Fu Fc Fs Mn := repeat (apply mono_bind; [apply fw_mono'; first [apply Fu|apply Fc|apply Fs]|intro]); apply Mn.
  Ltac kpt Fu Fc Fs := apply (kept_bind (fun _ => True)); [apply fw_kept; first [apply Fu|apply Fc|apply Fs]|intro|auto].
  split; [|split].
  - repeat (apply local_bind; [apply fw_local; first [apply Fu|apply Fc|apply Fs]|intro|intro; mno Fu Fc Fs Mn]).
    apply local_bind; [apply local_rlist; apply submix_all| |]; intro ss; [apply fw_local, F|apply fw_mono', F].
  - mno Fu Fc Fs Mn.
  - repeat kpt Fu Fc Fs. apply (kept_bind (Forall submix_known)); [apply kept_rlist, submix_all|intro ss; apply fw_kept, F|].
    intros ss cc b c1 _ E Gb. unfold tl in E. apply arun_bind_ok in E as (g & c2 & _ & E). apply arun_bind_ok in E as (x & c3 & _ & E).
    cbn [arun] in E. injection E as <- _. exact Gb.
Qed.
Lemma fw_tags : fw read_tags.
Proof. unfold read_tags. fw_tac; apply fw_rstring. Qed.
Lemma fw_optf : fw read_optf. Proof. unfold read_optf. fw_tac. Qed.
Lemma mixp_all h n : local (read_mixp h n) /\ mono (read_mixp h n) /\ kept mixp_known (read_mixp h n).
Proof.
  unfold read_mixp. destruct mixp_main_all as (L & M & K).
  set (tl p0 m := p1 <- rtell ;; rcheck (negb (p1 <? p0)) InvalidArgument ;;;
    if (p1 - p0) / 8 =? n then rcheck (negb (optional_fields_flag h)) InvalidArgument ;;; RRet m
    else t <- read_tags ;; o <- (if optional_fields_flag h then x <- read_optf ;; RRet (Some x) else RRet None) ;;
         RRet (mkMP (mp_id m) (mp_count m) (mp_lang m) (mp_ann m) (mp_subs m) (Some t) o)).
  assert (forall p0 m, fw (tl p0 m)) as F by (intros; unfold tl; fw_tac; first [apply fw_tags|apply fw_optf]).
  assert (forall p0, mono (m <- read_mixp_main ;; tl p0 m)) as Mn by (intro; apply mono_bind; [exact M|intro; apply fw_mono', F]).
  split; [|split].
  - apply local_bind; [apply fw_local, fw_rtell|intro|exact Mn]. apply local_bind; [exact L| |]; intro m; [apply fw_local, F|apply fw_mono', F].
  - apply mono_bind; [apply fw_mono', fw_rtell|exact Mn].
  - apply (kept_bind (fun _ => True)); [apply fw_kept, fw_rtell|intro p0|auto]. apply (kept_bind mixp_known); [exact K|intro m; apply fw_kept, F|].
    intros m cc b c1 _ E Gb. unfold tl in E. apply arun_bind_ok in E as (p1 & c2 & _ & E). apply arun_bind_ok in E as (u & c3 & _ & E).
    destruct ((p1 - p0) / 8 =? n).
    + apply arun_bind_ok in E as (w & c4 & _ & E). cbn [arun] in E. injection E as <- _. exact Gb.
    + apply arun_bind_ok in E as (w & c4 & _ & E). apply arun_bind_ok in E as (x & c5 & _ & E). cbn [arun] in E. injection E as <- _. exact Gb.
Qed.
Lemma known_iff m : extensions_known m <-> mixp_known m.
Proof.
  unfold extensions_known, mixp_known, submix_known, elem_known. rewrite Forall_forall. split.
  - intros H s Hs. apply Forall_forall. intros x Hx. exact (H s x Hs Hx).
  - intros H s x Hs Hx. specialize (H s Hs). rewrite Forall_forall in H. apply H, Hx.
Qed.

Lemma payload_all {A} (d : rprog A) (G : A -> Prop) n : local d -> mono d -> kept G d -> local (read_payload n d) /\ kept (fun x => G (fst x)) (read_payload n d).
Proof.
  intros L M K. unfold read_payload.
  set (tl (p0 : Z) (a : A) := p1 <- rtell ;; if p0 + n * 8 =? p1 then RRet (a, @nil Z) else if p0 + n * 8 >? p1 then
    if negb ((p0 + n * 8 - p1) mod 8 =? 0) then RFail InvalidArgument else f <- rspan (Z.to_nat ((p0 + n * 8 - p1) / 8)) ;; RRet (a, f) else RFail InvalidArgument).
  assert (forall p0 a, fw (tl p0 a)) as F by (intros; unfold tl; fw_tac). split.
  - apply local_bind; [apply fw_local, fw_rtell|intro p0|intro p0].
    + apply local_bind; [exact L| |]; intro a; [apply fw_local, F|apply fw_mono', F].
    + apply mono_bind; [exact M|intro; apply fw_mono', F].
  - apply (kept_bind (fun _ => True)); [apply fw_kept, fw_rtell|intro p0|auto]. apply (kept_bind G); [exact K|intro a; apply fw_kept, F|].
    intros a c b c1 _ E Gb. unfold tl in E. apply arun_bind_ok in E as (p1 & c2 & _ & E). destruct (_ =? p1).
    + cbn [arun] in E. injection E as <- _. exact Gb.
    + destruct (_ >? p1); [|discriminate E]. destruct (negb _); [discriminate E|]. apply arun_bind_ok in E as (f & c3 & _ & E). cbn [arun] in E. injection E as <- _. exact Gb.
Qed.
Lemma mix_stable_if h n c : in_window n c ->
  (forall m f c1, arun (read_payload n (read_mixp h n)) c = (Ok (m, f), c1) -> extensions_known m) -> mixp_stable h n c.
Proof.
  intros (K & V & Hn & Hl) H e. destruct (mixp_all h n) as (L & M & Kp). destruct (payload_all _ _ n L M Kp) as [L' K'].
  assert (good c) as G by (split; assumption). destruct (arun_valid (read_payload n (read_mixp h n)) (ext e c) V) as [_ X].
  destruct (arun_valid (read_payload n (read_mixp h n)) c V) as [_ Y].
  destruct (arun (read_payload n (read_mixp h n)) c) as [[[m f]|er| | |] c1] eqn:E1; cbn [fst] in Y; try (destruct Y as [[? Y]|[? Y]]; discriminate Y).
  - rewrite (K' _ e _ _ G E1) by (apply known_iff; eapply H; reflexivity). auto.
  - destruct (arun (read_payload n (read_mixp h n)) (ext e c)) as [[[m f]|er2| | |] c2] eqn:E2; cbn [fst] in X; try (destruct X as [[? X]|[? X]]; discriminate X); [|exact I].
    exfalso. destruct (L' _ _ _ _ G E2) as [F|(c3 & E3 & _)]; [|congruence].
    apply read_payload_ok in E2; [|apply good_ext, G]. destruct E2 as (c4 & _ & _ & E4 & _). cbn [ext c_pos] in E4. unfold zlen in Hl. lia.
Qed.
(* The mix presentations among the descriptors of a byte string. *)
Definition mixes_known (s : list Z) : Prop := forall p h n q m f c1, desc_start s p -> obu_at s p h n q -> h_type h = kMixPresentation ->
  arun (read_payload n (read_mixp h n)) (at_byte (firstn (q + Z.to_nat n) s) q) = (Ok (m, f), c1) -> extensions_known m.
Lemma known_stable s : mixes_known s -> mixes_stable s.
Proof.
  intros H p h n q Hd Ho Ht. apply mix_stable_if; [|intros m f c1 E; eapply H; eassumption].
  destruct Ho as (_ & Hn & Hq). unfold zlen in Hq. split; [apply at_byte_cok; rewrite firstn_length; lia|]. split; [reflexivity|]. split; [exact Hn|].
  unfold zlen. cbn [c_bits c_pos at_byte]. rewrite bytes_bits_length, firstn_length. lia.
Qed.

(* ---- a way to check it (used in the examples) ---- *)
Definition known_conf (r : rconf) : bool :=
  negb (match rc_defs r with [] => true | _ => false end) || (match rc_ego r with Some _ => true | None => false end) || (match rc_ext r with [] => true | _ => false end).
Definition known_mix (m : mixp) : bool := forallb (fun s => forallb (fun x => known_conf (sa_conf x)) (sm_elems s)) (mp_subs m).
Fixpoint known_scan (k : nat) (s : list Z) (p : nat) : bool :=
  match k with
  | O => false
  | S k' =>
      match arun read_header (at_byte s p) with
      | (Ok (h, n), c) =>
          let q := (c_pos c / 8)%nat in
          if (0 <=? n) && (Z.of_nat q + n <=? zlen s) then
            (if h_type h =? kMixPresentation then
               match fst (arun (read_payload n (read_mixp h n)) (at_byte (firstn (q + Z.to_nat n) s) q)) with Ok (m, _) => known_mix m | _ => true end
             else true) &&
            (if temporal_unit_type (h_type h) then true else known_scan k' s (q + Z.to_nat n))
          else true
      | _ => true
      end
  end.
Lemma known_mix_ok m : known_mix m = true -> extensions_known m.
Proof.
  intros H s x Hs Hx. unfold known_mix in H. rewrite forallb_forall in H. specialize (H s Hs). rewrite forallb_forall in H. specialize (H x Hx).
  unfold known_conf in H. unfold extension_known. destruct (rc_defs (sa_conf x)); [|left; discriminate]. destruct (rc_ego (sa_conf x)); [right; left; discriminate|].
  destruct (rc_ext (sa_conf x)); [auto|discriminate H].
Qed.
Lemma known_scan_ok s k : known_scan k s 0 = true -> mixes_known s.
Proof.
  intro H. assert (forall p, desc_start s p -> exists k', known_scan k' s p = true) as X.
  { induction 1 as [|p h n q _ [k' IH] Ho Ht]; [eauto|]. destruct k' as [|k']; [discriminate IH|]. cbn [known_scan] in IH. destruct Ho as (E & Hn & Hq).
    rewrite E in IH. cbn [c_pos at_byte] in IH. replace (8 * q / 8)%nat with q in IH by (rewrite Nat.mul_comm, Nat.div_mul; lia).
    replace ((0 <=? n) && (Z.of_nat q + n <=? zlen s)) with true in IH by lia. rewrite Ht in IH. apply andb_prop in IH as [_ IH]. eauto. }
  intros p h n q m f c1 Hd Ho Ht E. destruct (X p Hd) as [[|k'] IH]; [discriminate IH|]. cbn [known_scan] in IH. destruct Ho as (E1 & Hn & Hq).
  rewrite E1 in IH. cbn [c_pos at_byte] in IH. replace (8 * q / 8)%nat with q in IH by (rewrite Nat.mul_comm, Nat.div_mul; lia).
  replace ((0 <=? n) && (Z.of_nat q + n <=? zlen s)) with true in IH by lia. rewrite Ht in IH. change (kMixPresentation =? kMixPresentation) with true in IH. cbv iota in IH.
  rewrite E in IH. cbn [fst] in IH. apply andb_prop in IH as [IH _]. apply known_mix_ok, IH.
Qed.
