(* C28: temporal unit views: exact acceptance, canonical order, independence of the input order. *)
From Coq Require Import Permutation Sorted.
From Verif Require Import Base WriteBuf CodecConfig TempUnit.

(* ================= SPEC ================= *)
Definition spf_of (f : afr) : option Z := match f_ae f with Some e => ae_spf e | None => None end.
Definition block_before (a b : pbk) : Prop := k_id a < k_id b.
(* by audio element ID, then substream ID *)
Definition frame_before (a b : afr) : Prop := f_eid a < f_eid b \/ (f_eid a = f_eid b /\ f_sub a < f_sub b).
(* v is a canonical view of exactly these items.  [sum ts te] is the number of trimmed samples. *)
Definition unit_of (sum : Z -> Z -> Z) (bs : list pbk) (fs : list afr) (os : list arb) (v : tuview) : Prop :=
  Permutation bs (tv_blocks v) /\ Permutation fs (tv_frames v) /\ os = tv_arb v /\
  StronglySorted block_before (tv_blocks v) /\ StronglySorted frame_before (tv_frames v) /\
  NoDup (map f_sub fs) /\
  Forall (fun b => k_start b = tv_start v /\ k_end b = tv_end v) bs /\
  Forall (fun f => f_start f = tv_start v /\ f_end f = tv_end v /\ f_trim_start f = tv_trim v /\ spf_of f <> None) fs /\
  Forall (fun o => o_tick o = Some (tv_start v)) os /\
  match fs with
  | [] => Exists (fun o => o_invalid o = true) os /\ tv_end v = tv_start v /\ tv_trim v = 0 /\ tv_un v = 0
  | f0 :: _ => Forall (fun f => f_trim_end f = f_trim_end f0) fs /\
               exists spf, spf_of f0 = Some spf /\ sum (tv_trim v) (f_trim_end f0) <= spf /\ tv_un v = spf - sum (tv_trim v) (f_trim_end f0)
  end.
Definition sum_mod (a b : Z) : Z := (a + b) mod 2^32.

(* ================= sorting ================= *)
Lemma insert_perm {A} (less : A -> A -> bool) x l : Permutation (x :: l) (insert less x l).
Proof.
  induction l as [|y l IH]; cbn [insert]; [reflexivity|]. destruct (less x y); [reflexivity|]. eapply perm_trans; [apply perm_swap|]. constructor. exact IH.
Qed.
Lemma sort_perm {A} (less : A -> A -> bool) l : Permutation l (sort less l).
Proof. induction l as [|x l IH]; cbn [sort fold_right]; [constructor|]. eapply perm_trans; [constructor; exact IH|apply insert_perm]. Qed.
Section Sorting.
Context {A : Type} (less : A -> A -> bool) (lt : A -> A -> Prop) (P : A -> Prop).
Hypothesis less_spec : forall a b, less a b = true <-> lt a b.
Hypothesis lt_trans : forall a b c, lt a b -> lt b c -> lt a c.
Hypothesis lt_irrefl : forall a, ~ lt a a.
(* distinct elements of the list are comparable *)
Definition comparable (l : list A) : Prop := forall l1 x l2 y l3, l = l1 ++ x :: l2 ++ y :: l3 -> lt x y \/ lt y x.
Lemma insert_sorted x l : StronglySorted lt l -> (forall y, In y l -> lt x y \/ lt y x) -> StronglySorted lt (insert less x l).
Proof.
  induction 1 as [|y l S IH F]; intro C; cbn [insert]; [repeat constructor|]. destruct (less x y) eqn:E.
  - apply less_spec in E. constructor; [constructor; assumption|]. constructor; [exact E|]. rewrite Forall_forall in *. intros z I. eapply lt_trans; [exact E|apply F; exact I].
  - assert (lt y x) as L. { destruct (C y (or_introl eq_refl)) as [L|L]; [|exact L]. apply less_spec in L. congruence. }
    constructor; [apply IH; intros z I; apply C; right; exact I|]. rewrite Forall_forall in *. intros z I. apply (Permutation_in z (Permutation_sym (insert_perm less x l))) in I as [<-|I]; [exact L|apply F; exact I].
Qed.
Lemma comparable_cons x l : comparable (x :: l) -> comparable l /\ forall y, In y l -> lt x y \/ lt y x.
Proof.
  intro C. split.
  - intros l1 a l2 b l3 ->. apply (C (x :: l1) a l2 b l3). reflexivity.
  - intros y I. apply in_split in I as (l1 & l2 & ->). apply (C [] x l1 y l2). reflexivity.
Qed.
Lemma sort_sorted l : comparable l -> StronglySorted lt (sort less l).
Proof.
  induction l as [|x l IH]; intro C; [constructor|]. apply comparable_cons in C as [C1 C2]. cbn [sort fold_right]. apply insert_sorted; [apply IH; exact C1|].
  intros y I. apply C2. eapply Permutation_in; [apply Permutation_sym; apply (sort_perm less)|exact I].
Qed.
(* any two sorted permutations of each other are equal: the result does not depend on the sorting algorithm *)
Lemma sorted_unique l : forall l', StronglySorted lt l -> StronglySorted lt l' -> Permutation l l' -> l = l'.
Proof.
  induction l as [|x l IH]; intros l' S S' Q; [apply Permutation_nil in Q; congruence|].
  destruct l' as [|y l']; [apply Permutation_sym, Permutation_nil in Q; discriminate|]. inversion S as [|? ? S1 F1]; inversion S' as [|? ? S2 F2]; subst. rewrite Forall_forall in *.
  assert (x = y) as ->.
  { assert (In x (y :: l')) as [E|I] by (eapply Permutation_in; [exact Q|left; reflexivity]); [congruence|].
    assert (In y (x :: l)) as [E|J] by (eapply Permutation_in; [apply Permutation_sym; exact Q|left; reflexivity]); [congruence|].
    exfalso. apply (lt_irrefl x). eapply lt_trans; [apply F1; exact J|apply F2; exact I]. }
  f_equal. apply IH; try assumption. eapply Permutation_cons_inv. exact Q.
Qed.
Lemma sorted_comparable l : StronglySorted lt l -> comparable l.
Proof.
  intros S l1 x l2 y l3 ->. left. induction l1 as [|z l1 IH]; cbn [app] in S; inversion S as [|? ? S1 F]; subst; [|apply IH; exact S1]. rewrite Forall_forall in F. apply F. apply in_or_app. right. left. reflexivity.
Qed.
Lemma comparable_perm l l' : Permutation l l' -> comparable l -> comparable l'.
Proof.
  intros Q C. assert (forall m, comparable m <-> NoDup m /\ forall x y, In x m -> In y m -> x <> y -> lt x y \/ lt y x) as E.
  { induction m as [|a m IH].
    - split; [intros _; split; [constructor|intros ? ? []]|intros _ l1 x l2 y l3 E; destruct l1; discriminate].
    - split.
      + intro Cm. apply comparable_cons in Cm as [C1 C2]. apply IH in C1 as [N D]. split.
        * constructor; [|exact N]. intro I. destruct (C2 _ I) as [L|L]; exact (lt_irrefl _ L).
        * intros x y [<-|I] [<-|J] Ne; [contradiction|apply C2; exact J|apply or_comm; apply C2; exact I|apply D; assumption].
      + intros [N D] l1 x l2 y l3 E. apply D; [rewrite E; apply in_or_app; right; left; reflexivity|rewrite E; apply in_or_app; right; right; apply in_or_app; right; left; reflexivity|].
        intros ->. rewrite E in N. apply NoDup_remove_2 in N. apply N. apply in_or_app. right. apply in_or_app. right. left. reflexivity. }
  apply E in C as [N D]. apply E. split; [eapply Permutation_NoDup; eassumption|]. intros x y I J. apply D; eapply Permutation_in; try eassumption; apply Permutation_sym; exact Q.
Qed.
End Sorting.
Lemma block_less a b : less_block a b = true <-> block_before a b. Proof. unfold less_block, block_before. lia. Qed.
Lemma frame_less a b : less_frame a b = true <-> frame_before a b.
Proof. unfold less_frame, frame_before. destruct (f_eid a =? f_eid b) eqn:E; cbn [negb]; lia. Qed.
Lemma block_trans a b c : block_before a b -> block_before b c -> block_before a c. Proof. unfold block_before. lia. Qed.
Lemma frame_trans a b c : frame_before a b -> frame_before b c -> frame_before a c. Proof. unfold frame_before. lia. Qed.
Lemma block_irrefl a : ~ block_before a a. Proof. unfold block_before. lia. Qed.
Lemma frame_irrefl a : ~ frame_before a a. Proof. unfold frame_before. lia. Qed.
Lemma nodup_split {A} (g : A -> Z) l l1 x l2 y l3 : NoDup (map g l) -> l = l1 ++ x :: l2 ++ y :: l3 -> g x <> g y.
Proof.
  intros N ->. rewrite map_app in N. cbn [map] in N. rewrite map_app in N. cbn [map] in N. apply NoDup_remove_2 in N. intro E. apply N. apply in_or_app. right. apply in_or_app. right. left. congruence.
Qed.
Lemma blocks_comparable l : NoDup (map k_id l) -> comparable block_before l.
Proof. intros N l1 x l2 y l3 E. pose proof (nodup_split _ _ _ _ _ _ _ N E). unfold block_before. lia. Qed.
Lemma frames_comparable l : NoDup (map f_sub l) -> comparable frame_before l.
Proof. intros N l1 x l2 y l3 E. pose proof (nodup_split _ _ _ _ _ _ _ N E). unfold frame_before. lia. Qed.
Lemma comparable_nodup l : comparable block_before l -> NoDup (map k_id l).
Proof.
  induction l as [|x l IH]; intro C; cbn [map]; [constructor|]. apply comparable_cons in C as [C1 C2]. constructor; [|apply IH; exact C1].
  intro I. apply in_map_iff in I as (y & E & I). specialize (C2 _ I). unfold block_before in C2. lia.
Qed.

(* ================= the checks ================= *)
Lemma zmem_in x l : zmem x l = true <-> In x l.
Proof. unfold zmem. rewrite existsb_exists. split; [intros (y & I & E); replace x with y by lia; exact I|intro I; exists x; split; [exact I|lia]]. Qed.
Definition frame_ok (s : tustats) (f : afr) : Prop :=
  spf_of f <> None /\ f_trim_end f = ts_te s /\ f_trim_start f = ts_ts s /\ f_start f = ts_start s /\ f_end f = ts_end s.
Lemma check_frames_iff l : forall seen s,
  (forall fs, check_frames l seen s = Ok fs <-> l = map Some fs /\ Forall (frame_ok s) fs /\ NoDup (map f_sub fs) /\ forall f, In f fs -> ~ In (f_sub f) seen) /\
  (forall e, check_frames l seen s = Err e -> e = InvalidArgument) /\ (exists x, check_frames l seen s = Ok x \/ check_frames l seen s = Err InvalidArgument).
Proof.
  induction l as [|x l IH]; intros seen s; cbn [check_frames].
  - split; [|split; [discriminate|exists []; left; reflexivity]]. intro fs. split; [intros [= <-]; repeat split; try constructor; intros ? []|]. intros (E & _). destruct fs; [reflexivity|discriminate].
  - assert (forall r : res (list afr), r = Err InvalidArgument -> ~ (exists f fs, x = Some f /\ l = map Some fs /\ frame_ok s f /\ ~ In (f_sub f) seen) ->
      (forall fs, r = Ok fs <-> x :: l = map Some fs /\ Forall (frame_ok s) fs /\ NoDup (map f_sub fs) /\ forall f, In f fs -> ~ In (f_sub f) seen) /\
      (forall e, r = Err e -> e = InvalidArgument) /\ (exists y, r = Ok y \/ r = Err InvalidArgument)) as Fail.
    { intros r -> N. split; [|split; [congruence|exists []; right; reflexivity]]. intro fs. split; [discriminate|]. intros (E & Fo & Nd & Ns). exfalso. apply N. destruct fs as [|f fs]; [discriminate|].
      cbn [map] in E. injection E as -> ->. inversion Fo; subst. exists f, fs. repeat split; auto; try apply H1. apply Ns. left. reflexivity. }
    destruct x as [f|]; cbn [vsome rbind]; [|apply Fail; [reflexivity|]; intros (f & fs & E & _); discriminate].
    destruct (zmem (f_sub f) seen) eqn:Z.
    { apply Fail; [reflexivity|]. intros (f' & fs & E & _ & _ & N). injection E as <-. apply N. apply zmem_in. exact Z. }
    assert (~ In (f_sub f) seen) as Ns by (rewrite <- zmem_in; congruence).
    destruct (f_ae f) as [ae|] eqn:Ea; cbn [vsome rbind]; [|apply Fail; [reflexivity|]; intros (f' & fs & E & _ & (O & _) & _); injection E as <-; unfold spf_of in O; rewrite Ea in O; contradiction].
    destruct (ae_spf ae) as [spf|] eqn:Es; cbn [vsome rbind]; [|apply Fail; [reflexivity|]; intros (f' & fs & E & _ & (O & _) & _); injection E as <-; unfold spf_of in O; rewrite Ea, Es in O; contradiction].
    assert (spf_of f <> None) as Hs by (unfold spf_of; rewrite Ea, Es; discriminate). unfold veq, vcond, rthen.
    destruct (f_trim_end f =? ts_te s) eqn:C1; cbn [rbind]; [|apply Fail; [reflexivity|]; intros (f' & fs & E & _ & (_ & O & _) & _); injection E as <-; lia].
    destruct (f_trim_start f =? ts_ts s) eqn:C2; cbn [rbind]; [|apply Fail; [reflexivity|]; intros (f' & fs & E & _ & (_ & _ & O & _) & _); injection E as <-; lia].
    destruct (f_start f =? ts_start s) eqn:C3; cbn [rbind]; [|apply Fail; [reflexivity|]; intros (f' & fs & E & _ & (_ & _ & _ & O & _) & _); injection E as <-; lia].
    destruct (f_end f =? ts_end s) eqn:C4; cbn [rbind]; [|apply Fail; [reflexivity|]; intros (f' & fs & E & _ & (_ & _ & _ & _ & O) & _); injection E as <-; lia].
    assert (frame_ok s f) as Fo by (unfold frame_ok; lia || (split; [exact Hs|lia])).
    destruct (IH (f_sub f :: seen) s) as (I1 & I2 & y & I3). destruct (check_frames l (f_sub f :: seen) s) as [r|e| | |] eqn:R; cbn [rbind];
      [|split; [|split; [intros e0 [= <-]; apply I2; reflexivity|exists []; right; f_equal; apply I2; reflexivity]]|destruct I3 as [?|?]; discriminate..].
    + split; [|split; [discriminate|eexists; left; reflexivity]]. intro fs. destruct (proj1 (I1 r) eq_refl) as (A1 & A2 & A3 & A4). split.
      * intros [= <-]. cbn [map]. rewrite A1. split; [reflexivity|]. split; [constructor; assumption|]. split.
        -- constructor; [|exact A3]. intro I. apply in_map_iff in I as (g & E & I). apply (A4 _ I). left. congruence.
        -- intros g [<-|I]; [exact Ns|]. intro J. apply (A4 _ I). right. exact J.
      * intros (E & _). destruct fs as [|g fs]; [discriminate|]. cbn [map] in E. injection E as <- E. f_equal. f_equal. rewrite A1 in E. clear -E. revert fs E. induction r as [|a r IHr]; intros [|b fs] E; try discriminate; [reflexivity|]. cbn [map] in E. injection E as <- E. f_equal. apply IHr. exact E.
    + intro fs. split; [discriminate|]. intros (E & B1 & B2 & B3). destruct fs as [|g fs]; [discriminate|]. cbn [map] in *. injection E as <- E. inversion B1; inversion B2; subst.
      assert (@Err (list afr) e = Ok fs) as X; [|discriminate]. apply I1. split; [reflexivity|]. split; [assumption|]. split; [assumption|]. intros h I [J|J]; [|eapply B3; [right; exact I|exact J]].
      match goal with H : ~ In (f_sub f) _ |- _ => apply H end. rewrite J. apply in_map. exact I.
Qed.
Definition block_ok (s : tustats) (b : pbk) : Prop := k_start b = ts_start s /\ k_end b = ts_end s.
Lemma map_some_inj {A} (r fs : list A) : map Some r = map Some fs -> r = fs.
Proof. revert fs. induction r as [|a r IH]; intros [|b fs] E; try discriminate; [reflexivity|]. cbn [map] in E. injection E as <- E. f_equal. apply IH. exact E. Qed.
Lemma check_blocks_iff l : forall seen s,
  (forall bs, check_blocks l seen s = Ok bs <-> l = map Some bs /\ Forall (block_ok s) bs /\ NoDup (map k_id bs) /\ forall f, In f bs -> ~ In (k_id f) seen) /\
  (exists x, check_blocks l seen s = Ok x \/ check_blocks l seen s = Err InvalidArgument).
Proof.
  induction l as [|x l IH]; intros seen s; cbn [check_blocks].
  - split; [|exists []; left; reflexivity]. intro fs. split; [intros [= <-]; repeat split; try constructor; intros ? []|]. intros (E & _). destruct fs; [reflexivity|discriminate].
  - assert (forall r : res (list pbk), r = Err InvalidArgument -> ~ (exists f, x = Some f /\ block_ok s f /\ ~ In (k_id f) seen) ->
      (forall fs, r = Ok fs <-> x :: l = map Some fs /\ Forall (block_ok s) fs /\ NoDup (map k_id fs) /\ forall f, In f fs -> ~ In (k_id f) seen) /\
      (exists y, r = Ok y \/ r = Err InvalidArgument)) as Fail.
    { intros r -> N. split; [|exists []; right; reflexivity]. intro fs. split; [discriminate|]. intros (E & Fo & Nd & Ns). exfalso. apply N. destruct fs as [|f fs]; [discriminate|].
      cbn [map] in E. injection E as -> _. inversion Fo; subst. exists f. repeat split; auto; try apply H1. apply Ns. left. reflexivity. }
    destruct x as [f|]; cbn [vsome rbind]; [|apply Fail; [reflexivity|]; intros (f & E & _); discriminate].
    destruct (zmem (k_id f) seen) eqn:Z.
    { apply Fail; [reflexivity|]. intros (f' & E & _ & N). injection E as <-. apply N. apply zmem_in. exact Z. }
    assert (~ In (k_id f) seen) as Ns by (rewrite <- zmem_in; congruence). unfold veq, vcond, rthen.
    destruct (k_start f =? ts_start s) eqn:C3; cbn [rbind]; [|apply Fail; [reflexivity|]; intros (f' & E & (O & _) & _); injection E as <-; lia].
    destruct (k_end f =? ts_end s) eqn:C4; cbn [rbind]; [|apply Fail; [reflexivity|]; intros (f' & E & (_ & O) & _); injection E as <-; lia].
    assert (block_ok s f) as Fo by (unfold block_ok; lia).
    destruct (IH (k_id f :: seen) s) as (I1 & y & I3). destruct (check_blocks l (k_id f :: seen) s) as [r|e| | |] eqn:R; cbn [rbind];
      [|split; [|exists []; right; destruct I3; congruence]|destruct I3 as [?|?]; discriminate..].
    + split; [|eexists; left; reflexivity]. intro fs. destruct (proj1 (I1 r) eq_refl) as (A1 & A2 & A3 & A4). split.
      * intros [= <-]. cbn [map]. rewrite A1. split; [reflexivity|]. split; [constructor; assumption|]. split.
        -- constructor; [|exact A3]. intro I. apply in_map_iff in I as (g & E & I). apply (A4 _ I). left. congruence.
        -- intros g [<-|I]; [exact Ns|]. intro J. apply (A4 _ I). right. exact J.
      * intros (E & _). destruct fs as [|g fs]; [discriminate|]. cbn [map] in E. injection E as <- E. f_equal. f_equal. apply map_some_inj. congruence.
    + intro fs. split; [discriminate|]. intros (E & B1 & B2 & B3). destruct fs as [|g fs]; [discriminate|]. cbn [map] in *. injection E as <- E. inversion B1; inversion B2; subst.
      assert (@Err (list pbk) e = Ok fs) as X; [|discriminate]. apply I1. split; [reflexivity|]. split; [assumption|]. split; [assumption|]. intros h I [J|J]; [|eapply B3; [right; exact I|exact J]].
      match goal with H : ~ In (k_id f) _ |- _ => apply H end. rewrite J. apply in_map. exact I.
Qed.
Lemma check_arbs_iff l : forall s has,
  (forall os, check_arbs l s has = Ok os <-> l = map Some os /\ Forall (fun o => o_tick o = Some (ts_start s)) os /\ (ts_need s = true -> has = true \/ Exists (fun o => o_invalid o = true) os)) /\
  (exists x, check_arbs l s has = Ok x \/ check_arbs l s has = Err InvalidArgument).
Proof.
  induction l as [|x l IH]; intros s has; cbn [check_arbs].
  - unfold vcond, rthen. destruct (negb (ts_need s && negb has)) eqn:B; cbn [rbind].
    + split; [|exists []; left; reflexivity]. intro os. split; [intros [= <-]; repeat split; [constructor|]; intro H; left; rewrite H in B; destruct has; [reflexivity|discriminate]|]. intros (E & _). destruct os; [reflexivity|discriminate].
    + split; [|exists []; right; reflexivity]. intro os. split; [discriminate|]. intros (E & _ & H). exfalso. destruct os; [|discriminate]. destruct (ts_need s); [|discriminate]. destruct has; [discriminate|]. destruct (H eq_refl) as [X|X]; [discriminate|inversion X].
  - assert (forall r : res (list arb), r = Err InvalidArgument -> ~ (exists o, x = Some o /\ o_tick o = Some (ts_start s)) ->
      (forall os, r = Ok os <-> x :: l = map Some os /\ Forall (fun o => o_tick o = Some (ts_start s)) os /\ (ts_need s = true -> has = true \/ Exists (fun o => o_invalid o = true) os)) /\
      (exists y, r = Ok y \/ r = Err InvalidArgument)) as Fail.
    { intros r -> N. split; [|exists []; right; reflexivity]. intro os. split; [discriminate|]. intros (E & Fo & _). exfalso. apply N. destruct os as [|f fs]; [discriminate|].
      cbn [map] in E. injection E as -> _. inversion Fo; subst. exists f. auto. }
    destruct x as [o|]; cbn [vsome rbind]; [|apply Fail; [reflexivity|]; intros (f & E & _); discriminate].
    destruct (o_tick o) as [k|] eqn:T; cbn [vsome rbind]; [|apply Fail; [reflexivity|]; intros (f & E & O); injection E as <-; congruence].
    unfold veq, vcond, rthen. destruct (k =? ts_start s) eqn:C; cbn [rbind]; [|apply Fail; [reflexivity|]; intros (f & E & O); injection E as <-; rewrite T in O; injection O as ->; lia].
    assert (o_tick o = Some (ts_start s)) as Ho by (rewrite T; f_equal; lia).
    destruct (IH s (has || o_invalid o)) as (I1 & y & I3). destruct (check_arbs l s (has || o_invalid o)) as [r|e| | |] eqn:R; cbn [rbind];
      [|split; [|exists []; right; destruct I3; congruence]|destruct I3 as [?|?]; discriminate..].
    + split; [|eexists; left; reflexivity]. intro os. destruct (proj1 (I1 r) eq_refl) as (A1 & A2 & A3). split.
      * intros [= <-]. cbn [map]. rewrite A1. split; [reflexivity|]. split; [constructor; assumption|]. intro N. destruct (A3 N) as [X|X]; [|right; apply Exists_cons_tl; exact X]. apply orb_true_iff in X as [X|X]; [left; exact X|right; apply Exists_cons_hd; exact X].
      * intros (E & _). destruct os as [|g os]; [discriminate|]. cbn [map] in E. injection E as <- E. f_equal. f_equal. apply map_some_inj. congruence.
    + intro os. split; [discriminate|]. intros (E & B1 & B2). destruct os as [|g os]; [discriminate|]. cbn [map] in *. injection E as <- E. inversion B1; subst.
      assert (@Err (list arb) e = Ok os) as X; [|discriminate]. apply I1. split; [reflexivity|]. split; [assumption|]. intro N. destruct (B2 N) as [X|X]; [left; rewrite X; reflexivity|].
      inversion X; subst; [left; apply orb_true_iff; right; assumption|right; assumption].
Qed.

(* ================= THEOREMS ================= *)
Definition configs_u32 (frames : list (option afr)) : Prop := forall f spf, In (Some f) frames -> spf_of f = Some spf -> 0 <= spf < 2^32.
Lemma un_small spf t : 0 <= spf < 2^32 -> t mod 2^32 <= spf -> u32 (spf - t mod 2^32) = spf - t mod 2^32.
Proof. intros H L. unfold u32. pose proof (Z.mod_pos_bound t (2^32) ltac:(reflexivity)). change (2^32) with 4294967296 in *. rewrite Z.mod_small by lia. reflexivity. Qed.
(* A view is created exactly for consistent inputs, and is the canonical view of exactly the input's items.  (The trims are
   added modulo 2^32, see C28_trim_wrap_refuted.) *)
Theorem C28_accepts_exactly_partial : forall blocks frames arbs v, configs_u32 frames ->
  (tu_create blocks frames arbs = Ok v <->
   exists bs fs os, blocks = map Some bs /\ frames = map Some fs /\ arbs = map Some os /\ unit_of sum_mod bs fs os v).
Proof.
  intros blocks frames arbs v Cu. unfold tu_create.
  split.
  - intro E. destruct (match frames with [] => _ | _ => _ end) as [s| | | |] eqn:S; cbn [rbind] in E; try discriminate.
    destruct (check_frames frames [] s) as [fs| | | |] eqn:F; cbn [rbind] in E; try discriminate.
    destruct (check_blocks blocks [] s) as [bs| | | |] eqn:B; cbn [rbind] in E; try discriminate.
    destruct (check_arbs arbs s false) as [os| | | |] eqn:O; cbn [rbind] in E; try discriminate. injection E as <-.
    apply (proj1 (check_frames_iff _ _ _)) in F as (F1 & F2 & F3 & _). apply (proj1 (check_blocks_iff _ _ _)) in B as (B1 & B2 & B3 & _). apply (proj1 (check_arbs_iff _ _ _)) in O as (O1 & O2 & O3).
    exists bs, fs, os. split; [exact B1|]. split; [exact F1|]. split; [exact O1|]. unfold unit_of. cbn [tv_blocks tv_frames tv_arb tv_start tv_end tv_trim tv_un].
    split; [apply sort_perm|]. split; [apply sort_perm|]. split; [reflexivity|].
    split; [apply (sort_sorted less_block block_before block_less block_trans); apply blocks_comparable; exact B3|].
    split; [apply (sort_sorted less_frame frame_before frame_less frame_trans); apply frames_comparable; exact F3|].
    split; [exact F3|]. split; [exact B2|]. split; [eapply Forall_impl; [|exact F2]; intros f (P1 & P2 & P3 & P4 & P5); auto|]. split; [exact O2|].
    destruct fs as [|f0 fs]; cbn [map] in F1; rewrite F1 in S.
    + destruct arbs as [|o arbs]; [discriminate|]. unfold stats_of_arb in S. destruct o as [o|]; [|discriminate]. cbn [vsome rbind] in S. destruct (o_tick o); [|discriminate]. cbn [vsome rbind] in S. injection S as <-. cbn [ts_start ts_end ts_ts ts_un ts_need] in *.
      destruct (O3 eq_refl) as [X|X]; [discriminate|]. auto.
    + unfold stats_of_frame in S. cbn [vsome rbind] in S. inversion F2 as [|? ? (P1 & P2 & P3 & _) F2']; subst. pose proof P1 as P1'. unfold spf_of in P1'.
      destruct (f_ae f0) as [e|] eqn:Ee; [|contradiction]. cbn [vsome rbind] in S. destruct (ae_spf e) as [spf|] eqn:Ep; [|contradiction]. cbn [vsome rbind] in S. unfold vcond, rthen in S.
      destruct (u32 (f_trim_start f0 + f_trim_end f0) <=? spf) eqn:L; cbn [rbind] in S; [|discriminate]. injection S as <-. cbn [ts_ts ts_te ts_un] in *.
      split; [constructor; [reflexivity|]; eapply Forall_impl; [|exact F2']; intros f (_ & Q & _); exact Q|]. exists spf. assert (spf_of f0 = Some spf) as Sp by (unfold spf_of; rewrite Ee; exact Ep). split; [exact Sp|].
      assert (0 <= spf < 2^32) as Bs by (eapply (Cu f0 spf); [left; reflexivity|exact Sp]). unfold u32, sum_mod in *. split; [lia|]. apply un_small; [exact Bs|lia].
  - intros (bs & fs & os & -> & -> & -> & U). unfold unit_of in U. destruct U as (U1 & U2 & U3 & U4 & U5 & U6 & U7 & U8 & U9 & U10).
    destruct v as [vb vf vo st en tr un]. cbn [tv_blocks tv_frames tv_arb tv_start tv_end tv_trim tv_un] in *. subst vo.
    assert (exists s, (match map Some fs, map Some os with f :: _, _ => stats_of_frame f | [], o :: _ => stats_of_arb o | [], [] => Err InvalidArgument end) = Ok s /\
       ts_start s = st /\ ts_end s = en /\ ts_ts s = tr /\ ts_un s = un /\ (fs = [] -> ts_need s = true) /\ (fs <> [] -> ts_need s = false) /\ Forall (frame_ok s) fs) as (s & Es & S1 & S2 & S3 & S4 & S5 & S6 & S7).
    { destruct fs as [|f0 fs].
      - destruct U10 as (X & -> & -> & ->). destruct os as [|o os]; [inversion X|]. cbn [map]. unfold stats_of_arb. cbn [vsome rbind]. inversion U9 as [|? ? T]; subst. rewrite T. cbn [vsome rbind].
        eexists. split; [reflexivity|]. cbn. repeat split; try reflexivity; try congruence. constructor.
      - destruct U10 as (Te & spf & Sp & L & Un). inversion U8 as [|? ? (P1 & P2 & P3 & P4) U8']; subst. cbn [map]. unfold stats_of_frame. cbn [vsome rbind]. pose proof Sp as Sp'. unfold spf_of in Sp'.
        destruct (f_ae f0) as [e|] eqn:Ee; [|discriminate]. cbn [vsome rbind]. rewrite Sp'. cbn [vsome rbind]. unfold sum_mod in *. unfold vcond, rthen, u32 at 1.
        replace ((f_trim_start f0 + f_trim_end f0) mod 2^32 <=? spf) with true by lia. cbn [rbind]. eexists. split; [reflexivity|]. cbn [ts_start ts_end ts_ts ts_un ts_need]. repeat split; try discriminate; try assumption; try congruence.
        + assert (0 <= spf < 2^32) as Bs by (eapply (Cu f0 spf); [left; reflexivity|exact Sp]). change (u32 (f_trim_start f0 + f_trim_end f0)) with ((f_trim_start f0 + f_trim_end f0) mod 2^32). apply un_small; [exact Bs|exact L].
        + rewrite Forall_forall in *. intros f I. destruct (U8 f I) as (Q1 & Q2 & Q3 & Q4). unfold frame_ok. cbn [ts_te ts_ts ts_start ts_end]. rewrite (Te f I). auto. }
    rewrite Es. cbn [rbind].
    assert (check_frames (map Some fs) [] s = Ok fs) as -> by (apply (proj1 (check_frames_iff _ _ _)); repeat split; auto).
    assert (NoDup (map k_id bs)) as Nb.
    { apply comparable_nodup. eapply (comparable_perm block_before); [apply block_irrefl|apply Permutation_sym; exact U1|]. apply sorted_comparable. exact U4. }
    assert (check_blocks (map Some bs) [] s = Ok bs) as ->.
    { apply (proj1 (check_blocks_iff _ _ _)). repeat split; auto. eapply Forall_impl; [|exact U7]. intros b (Q1 & Q2). unfold block_ok. split; congruence. }
    assert (check_arbs (map Some os) s false = Ok os) as ->.
    { apply (proj1 (check_arbs_iff _ _ _)). split; [reflexivity|]. split; [rewrite S1; exact U9|]. intro N. right. destruct fs as [|f0 fs]; [apply U10|]. rewrite S6 in N by discriminate. discriminate. }
    cbn [rbind]. rewrite S1, S2, S3, S4. f_equal. f_equal.
    + apply (sorted_unique block_before block_trans block_irrefl); [apply (sort_sorted less_block block_before block_less block_trans); apply blocks_comparable; exact Nb|exact U4|].
      eapply perm_trans; [apply Permutation_sym; apply sort_perm|exact U1].
    + apply (sorted_unique frame_before frame_trans frame_irrefl); [apply (sort_sorted less_frame frame_before frame_less frame_trans); apply frames_comparable; exact U6|exact U5|].
      eapply perm_trans; [apply Permutation_sym; apply sort_perm|exact U2].
Qed.
(* everything else is refused with InvalidArgument; no abort (the comparators' ABSL_CHECKs cannot fail) *)
Theorem C28_refusals : forall blocks frames arbs, exists v, tu_create blocks frames arbs = Ok v \/ tu_create blocks frames arbs = Err InvalidArgument.
Proof.
  intros blocks frames arbs. set (w := mkTu [] [] [] 0 0 0 0). unfold tu_create.
  assert (exists s, (match frames, arbs with f :: _, _ => stats_of_frame f | [], o :: _ => stats_of_arb o | [], [] => Err InvalidArgument end) = Ok s \/
    (match frames, arbs with f :: _, _ => stats_of_frame f | [], o :: _ => stats_of_arb o | [], [] => Err InvalidArgument end) = Err InvalidArgument) as (s & [-> | ->]).
  { set (s0 := mkStats 0 0 0 0 0 0 false). destruct frames as [|[f|] ?].
    - destruct arbs as [|[o|] ?]; try (exists s0; right; reflexivity). unfold stats_of_arb. cbn [vsome rbind]. destruct (o_tick o); cbn [vsome rbind]; [eexists; left; reflexivity|exists s0; right; reflexivity].
    - unfold stats_of_frame. cbn [vsome rbind]. destruct (f_ae f) as [e|]; cbn [vsome rbind]; [|exists s0; right; reflexivity]. destruct (ae_spf e); cbn [vsome rbind]; [|exists s0; right; reflexivity].
      unfold vcond, rthen. destruct (_ <=? _); cbn [rbind]; [eexists; left; reflexivity|exists s0; right; reflexivity].
    - exists s0; right; reflexivity. }
  2: exists w; right; reflexivity.
  cbn [rbind]. destruct (check_frames_iff frames [] s) as (_ & _ & x & [-> | ->]); [|exists w; right; reflexivity]. cbn [rbind].
  destruct (check_blocks_iff blocks [] s) as (_ & y & [-> | ->]); [|exists w; right; reflexivity]. cbn [rbind].
  destruct (check_arbs_iff arbs s false) as (_ & z & [-> | ->]); [|exists w; right; reflexivity]. cbn [rbind]. eexists. left. reflexivity.
Qed.
(* trims and untrimmed samples add up, for trims whose sum fits 32 bits *)
Theorem C28_trims_add_up_partial : forall blocks fs arbs v f spf,
  tu_create blocks (map Some fs) arbs = Ok v -> In f fs -> spf_of f = Some spf -> 
  (forall g s, In g fs -> spf_of g = Some s -> s = spf /\ 0 <= s < 2^32) -> 0 <= f_trim_start f -> 0 <= f_trim_end f -> f_trim_start f + f_trim_end f < 2^32 ->
  f_trim_start f + f_trim_end f + tv_un v = spf /\ tv_trim v = f_trim_start f /\ 0 <= tv_un v.
Proof.
  intros blocks fs arbs v f spf E I Sp Al H1 H2 H3.
  apply C28_accepts_exactly_partial in E; [|intros g s J Q; apply in_map_iff in J as (g' & Eg & J); injection Eg as ->; apply (Al _ _ J Q)].
  destruct E as (bs & fs' & os & _ & Ef & _ & U). apply map_some_inj in Ef. subst fs'. destruct U as (_ & _ & _ & _ & _ & _ & _ & U8 & _ & U10).
  destruct fs as [|f0 fs]; [destruct I|]. destruct U10 as (Te & spf0 & S0 & L & ->). rewrite Forall_forall in *. destruct (U8 f I) as (_ & _ & Ts & _). rewrite <- Ts. rewrite <- (Te f I) in *.
  destruct (Al f0 spf0 (or_introl eq_refl) S0) as [-> _]. unfold sum_mod in *. rewrite <- Ts in L. rewrite Z.mod_small in * by lia. lia.
Qed.
(* Finding: 2^32 - 1 samples trimmed at the start and 1 at the end of an 8-sample frame are accepted as "nothing trimmed". *)
Theorem C28_trim_wrap_refuted : exists v,
  tu_create [] [Some (mkAfr (Some (mkAewd 1 (Some 8))) 5 0 8 (2^32 - 1) 1 0)] [] = Ok v /\ tv_un v = 8 /\ tv_trim v = 2^32 - 1.
Proof. eexists. split; [vm_compute; reflexivity|]. split; vm_compute; reflexivity. Qed.
(* The result does not depend on the order of the inputs, as long as all frames have the same number of samples per frame
   (arbitrary OBUs keep their relative order). *)
Theorem C28_order_partial : forall bs bs' fs fs' os os' v, configs_u32 (map Some fs) ->
  (forall f g, In f fs -> In g fs -> spf_of f = spf_of g) ->
  Permutation bs bs' -> Permutation fs fs' -> Permutation os os' ->
  tu_create (map Some bs) (map Some fs) (map Some os) = Ok v ->
  tu_create (map Some bs') (map Some fs') (map Some os') = Ok (mkTu (tv_blocks v) (tv_frames v) os' (tv_start v) (tv_end v) (tv_trim v) (tv_un v)).
Proof.
  intros bs bs' fs fs' os os' v Cu Sp Pb Pf Po E.
  assert (configs_u32 (map Some fs')) as Cu'.
  { intros f spf I Q. apply (Cu f spf); [|exact Q]. apply in_map_iff in I as (g & <- & I). apply in_map. eapply Permutation_in; [apply Permutation_sym; exact Pf|exact I]. }
  apply (C28_accepts_exactly_partial _ _ _ _ Cu) in E as (bs0 & fs0 & os0 & Eb & Ef & Eo & U). apply map_some_inj in Eb, Ef, Eo. subst bs0 fs0 os0.
  apply (C28_accepts_exactly_partial _ _ _ _ Cu'). exists bs', fs', os'. repeat (split; [reflexivity|]). destruct U as (U1 & U2 & U3 & U4 & U5 & U6 & U7 & U8 & U9 & U10).
  unfold unit_of. cbn [tv_blocks tv_frames tv_arb tv_start tv_end tv_trim tv_un].
  split; [eapply perm_trans; [apply Permutation_sym; exact Pb|exact U1]|]. split; [eapply perm_trans; [apply Permutation_sym; exact Pf|exact U2]|]. split; [reflexivity|]. split; [exact U4|]. split; [exact U5|].
  split; [eapply Permutation_NoDup; [apply Permutation_map; exact Pf|exact U6]|].
  split; [eapply Permutation_Forall; [exact Pb|exact U7]|]. split; [eapply Permutation_Forall; [exact Pf|exact U8]|]. split; [eapply Permutation_Forall; [exact Po|exact U9]|].
  destruct fs' as [|g0 fs'].
  - apply Permutation_sym, Permutation_nil in Pf. subst fs. destruct U10 as (X & R). split; [|exact R]. rewrite Exists_exists in *. destruct X as (o & I & O). exists o. split; [eapply Permutation_in; eassumption|exact O].
  - destruct fs as [|f0 fs]; [apply Permutation_nil in Pf; discriminate|]. destruct U10 as (Te & spf & S0 & L & Un).
    assert (In g0 (f0 :: fs)) as I0 by (eapply Permutation_in; [apply Permutation_sym; exact Pf|left; reflexivity]).
    assert (f_trim_end g0 = f_trim_end f0) as T0 by (rewrite Forall_forall in Te; apply Te; exact I0). rewrite T0.
    split; [eapply Permutation_Forall; [exact Pf|exact Te]|]. exists spf. split; [rewrite <- S0; apply Sp; [exact I0|left; reflexivity]|]. split; assumption.
Qed.
(* Finding: with different samples per frame, the untrimmed sample count, and even acceptance, depends on which frame is first. *)
Theorem C28_order_refuted :
  let f := mkAfr (Some (mkAewd 1 (Some 8))) 5 0 8 0 4 0 in let g := mkAfr (Some (mkAewd 2 (Some 16))) 6 0 8 0 4 0 in let h := mkAfr (Some (mkAewd 2 (Some 2))) 6 0 8 0 4 0 in
  (exists v v', tu_create [] [Some f; Some g] [] = Ok v /\ tu_create [] [Some g; Some f] [] = Ok v' /\ tv_un v = 4 /\ tv_un v' = 12) /\
  (exists v, tu_create [] [Some f; Some h] [] = Ok v) /\ tu_create [] [Some h; Some f] [] = Err InvalidArgument.
Proof.
  cbv zeta. split; [|split; [eexists; vm_compute; reflexivity|vm_compute; reflexivity]].
  eexists. eexists. split; [vm_compute; reflexivity|]. split; [vm_compute; reflexivity|]. split; vm_compute; reflexivity.
Qed.
Example C28_ex : exists v,
  let e := Some (mkAewd 7 (Some 8)) in
  tu_create [Some (mkPbk 9 0 8 1); Some (mkPbk 3 0 8 2)] [Some (mkAfr e 5 0 8 1 2 3); Some (mkAfr (Some (mkAewd 1 (Some 8))) 6 0 8 1 2 4); Some (mkAfr e 2 0 8 1 2 5)] [Some (mkArb (Some 0) false 6)] = Ok v /\
  map k_tag (tv_blocks v) = [2; 1] /\ map f_tag (tv_frames v) = [4; 5; 3] /\ tv_un v = 5 /\ tv_trim v = 1.
Proof. cbv zeta. eexists. split; [vm_compute; reflexivity|]. repeat split. Qed.
