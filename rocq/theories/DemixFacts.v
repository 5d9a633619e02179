(* Facts about the down-mixers and demixers in exact arithmetic. *)
From Coq Require Import Reals Psatz Lra.
From Verif Require Import Base WriteBuf CodecConfig Params AudioElement Timing ParamManager AeData Demix PropsLabels.

(* Exact arithmetic: the real numbers *)
Definition exactR : arith R :=
  mkArith R Rplus Rminus Rmult Rdiv (fun n d => (IZR n / IZR d)%R) (fun x => if Rlt_dec (Rabs x) (1 / 100000)%R then true else false).

(* ------------------------------------------------------------------ maps *)
Section Maps.
Context {T : Type}.
Lemma sm_find_set (k j : lkey) (v : list T) m : sm_find j (sm_set k v m) = if lkey_eq_dec k j then Some v else sm_find j m.
Proof.
  induction m as [|[i x] m IH]; cbn [sm_set sm_find]; [reflexivity|].
  destruct (lkey_eq_dec i k) as [E|E]; cbn [sm_find].
  - subst i. destruct (lkey_eq_dec k j); reflexivity.
  - rewrite IH. destruct (lkey_eq_dec i j) as [F|F]; destruct (lkey_eq_dec k j) as [G|G]; try reflexivity. congruence.
Qed.
Definition has (m : @smap T) (k : lkey) : Prop := sm_find k m <> None.
Lemma has_set k v m j : has (sm_set k v m) j <-> k = j \/ has m j.
Proof. unfold has. rewrite sm_find_set. destruct (lkey_eq_dec k j) as [E|E]; [split; [tauto|discriminate]|tauto]. Qed.
Definition findable (m : @smap T) (l : label) : Prop := has m (Orig l) \/ (In l demixable /\ has m (Dem l)).
Definition lab_of (k : lkey) : label := match k with Orig l => l | Dem l => l end.
Definition tab (n : nat) (f : nat -> T) : list T := map f (seq 0 n).
Lemma tab_length n f : length (tab n f) = n. Proof. unfold tab. rewrite map_length, seq_length. reflexivity. Qed.
Lemma tab_ext n f g : (forall i, f i = g i) -> tab n f = tab n g. Proof. intro H. apply map_ext. exact H. Qed.
Lemma combine_map {X Y Z} (f : X -> Y) (g : X -> Z) l : combine (map f l) (map g l) = map (fun x => (f x, g x)) l.
Proof. induction l as [|a l IH]; [reflexivity|]. cbn [map combine]. rewrite IH. reflexivity. Qed.
Lemma zip2_tab f n a b : zip2 f (tab n a) (tab n b) = tab n (fun i => f (a i) (b i)).
Proof. unfold zip2, tab. rewrite combine_map, map_map. reflexivity. Qed.
Lemma zip3_tab f n a b c : zip3 f (tab n a) (tab n b) (tab n c) = tab n (fun i => f (a i) (b i) (c i)).
Proof. unfold zip3, tab. rewrite !combine_map, map_map. reflexivity. Qed.
Lemma common_tab n (fs : list (nat -> T)) : fs <> [] -> common_ticks (map (tab n) fs) = Ok n.
Proof.
  destruct fs as [|f fs]; [congruence|]. intros _. cbn [map common_ticks]. rewrite tab_length.
  replace (forallb _ _) with true; [reflexivity|]. symmetry. apply forallb_forall. intros s H. apply in_map_iff in H as (g & <- & _). rewrite tab_length. apply Nat.eqb_refl.
Qed.
End Maps.

(* ------------------------------------------------------------------ the map agrees with a table of all channels *)
Lemma lab_in_spec l s : lab_in l s = true <-> In l s.
Proof. unfold lab_in. destruct (in_dec _ l s) as [X|X]; split; try tauto; discriminate. Qed.
Section Agree.
Variable n : nat.
Variable tr : label -> nat -> R.                      (* the value of every channel at every tick *)
Definition agrees (m : @smap R) : Prop := forall k s, sm_find k m = Some s -> s = tab n (tr (lab_of k)).
Lemma agrees_set k s m : agrees m -> s = tab n (tr (lab_of k)) -> agrees (sm_set k s m).
Proof. intros H E j v. rewrite sm_find_set. destruct (lkey_eq_dec k j) as [X|X]; [intro F; injection F as <-; subst j; exact E|apply H]. Qed.
Definition vals (ls : list label) := map (tab n) (map tr ls).
Lemma get_all_agrees m ls : agrees m -> (forall l, In l ls -> has m (Orig l)) -> get_all ls m = Ok (vals ls).
Proof.
  intros H. induction ls as [|l ls IH]; intro P; [reflexivity|]. cbn [get_all]. destruct (sm_find (Orig l) m) as [s|] eqn:E; [|exfalso; exact (P l (or_introl eq_refl) E)].
  rewrite IH by (intros k K; apply P; right; exact K). cbn [rbind]. rewrite (H _ _ E). reflexivity.
Qed.
Lemma present_agrees m ls : agrees m -> ls <> [] -> (forall l, In l ls -> has m (Orig l)) -> take ls m = Ok (vals ls).
Proof. intros H N P. unfold take. rewrite get_all_agrees by assumption. cbn [rbind]. unfold vals at 1. rewrite common_tab; [reflexivity|]. destruct ls; [congruence|discriminate]. Qed.
Lemma find_agrees m l : agrees m -> findable m l -> find_samples l m = Ok (tab n (tr l)).
Proof.
  intros H F. unfold find_samples. destruct (sm_find (Orig l) m) as [s|] eqn:E; [rewrite (H _ _ E); reflexivity|].
  destruct F as [F|[D F]]; [exfalso; exact (F E)|]. apply lab_in_spec in D. rewrite D. destruct (sm_find (Dem l) m) as [s|] eqn:E2; [rewrite (H _ _ E2); reflexivity|exfalso; exact (F E2)].
Qed.
Lemma seek_agrees m ls : agrees m -> ls <> [] -> (forall l, In l ls -> findable m l) -> seek ls m = Ok (vals ls).
Proof.
  intros H N P. unfold seek.
  assert (find_all ls m = Ok (vals ls)) as ->.
  { clear N. induction ls as [|l ls IH]; [reflexivity|]. cbn [find_all]. rewrite find_agrees by (try exact H; apply P; left; reflexivity). cbn [rbind].
    rewrite IH by (intros k K; apply P; right; exact K). reflexivity. }
  cbn [rbind]. unfold vals at 1. rewrite common_tab; [reflexivity|]. destruct ls; [congruence|discriminate].
Qed.
End Agree.

(* ------------------------------------------------------------------ the mix-down of a layout with x surround channels, z height channels *)
(* SPEC (IAMF 7.2, 3.8.2.1): the channels of every lower layout, from the channels v of the highest one *)
Section MixDown.
Open Scope R_scope.
Variable p : @dparams R.
Variables (x z : Z) (v : label -> R).
Definition at5 (l7 l5 : label) : R := if (x =? 7)%Z then v l7 else v l5.
Definition surround5 (lss lrs ls : label) : R := if (x =? 7)%Z then d_alpha p * v lss + d_beta p * v lrs else v ls.
Definition front3 (l7 l5 lss lrs ls l3 : label) : R :=
  if (5 <=? x)%Z then at5 l7 l5 + d_delta p * surround5 lss lrs ls else v l3.
Definition left3 := front3 L7 L5 Lss7 Lrs7 Ls5 L3.
Definition right3 := front3 R7 R5 Rss7 Rrs7 Rs5 R3.
Definition left2 : R := if (3 <=? x)%Z then left3 + 707 / 1000 * v Centre else v L2.
Definition right2 : R := if (3 <=? x)%Z then right3 + 707 / 1000 * v Centre else v R2.
Definition top2 (tf4 tb4 tf2 : label) : R := if (z =? 4)%Z then v tf4 + d_gamma p * v tb4 else v tf2.
Definition top3 (tf4 tb4 tf2 lss lrs ls tf3 : label) : R :=
  if (5 <=? x)%Z then top2 tf4 tb4 tf2 + d_w p * d_delta p * surround5 lss lrs ls else v tf3.
Definition mixdown (l : label) : R :=
  match l with
  | Mono => if (2 <=? x)%Z then 5 / 10 * (left2 + right2) else v Mono
  | L2 => left2 | R2 => right2
  | L3 => left3 | R3 => right3
  | L5 => at5 L7 L5 | R5 => at5 R7 R5
  | Ls5 => surround5 Lss7 Lrs7 Ls5 | Rs5 => surround5 Rss7 Rrs7 Rs5
  | Ltf2 => top2 Ltf4 Ltb4 Ltf2 | Rtf2 => top2 Rtf4 Rtb4 Rtf2
  | Ltf3 => top3 Ltf4 Ltb4 Ltf2 Lss7 Lrs7 Ls5 Ltf3 | Rtf3 => top3 Rtf4 Rtb4 Rtf2 Rss7 Rrs7 Rs5 Rtf3
  | _ => v l
  end.
End MixDown.

Definition dn_legal (x z : Z) (k : downmixer) : bool :=
  match k with S7toS5 => x =? 7 | S5toS3 => 5 <=? x | S3toS2 => 3 <=? x | S2toS1 => 2 <=? x | T4toT2 => z =? 4 | T2toTF2 => 5 <=? x end.
Definition dn_needs (k : downmixer) : list label :=
  match k with S7toS5 => [L7; R7; Lss7; Lrs7; Rss7; Rrs7] | S5toS3 => [L5; R5; Ls5; Rs5] | S3toS2 => [L3; R3; Centre] | S2toS1 => [L2; R2]
             | T4toT2 => [Ltf4; Rtf4; Ltb4; Rtb4] | T2toTF2 => [Ltf2; Ls5; Rtf2; Rs5] end.
Definition dn_adds (k : downmixer) : list label :=
  match k with S7toS5 => [Rs5; Ls5; R5; L5] | S5toS3 => [R3; L3] | S3toS2 => [R2; L2] | S2toS1 => [Mono] | T4toT2 => [Rtf2; Ltf2] | T2toTF2 => [Rtf3; Ltf3] end.
Definition dm_legal (x z : Z) (k : demixer) : bool :=
  match k with S5toS7 => x =? 7 | S3toS5 => 5 <=? x | S2toS3 => 3 <=? x | S1toS2 => 2 <=? x | T2toT4 => z =? 4 | TF2toT2 => 5 <=? x end.
Definition dm_needs (k : demixer) : list label :=
  match k with S5toS7 => [L5; Ls5; Lss7; R5; Rs5; Rss7] | S3toS5 => [L3; L5; R3; R5] | S2toS3 => [L2; R2; Centre] | S1toS2 => [L2; Mono]
             | T2toT4 => [Ltf2; Ltf4; Rtf2; Rtf4] | TF2toT2 => [Ltf3; L3; L5; Rtf3; R3; R5] end.
Definition dm_adds (k : demixer) : list label :=
  match k with S5toS7 => [Rrs7; Lrs7; R7; L7] | S3toS5 => [Rs5; Ls5] | S2toS3 => [R3; L3] | S1toS2 => [R2] | T2toT4 => [Rtb4; Ltb4] | TF2toT2 => [Rtf2; Ltf2] end.

Section Runs.
Open Scope R_scope.
Variables (n : nat) (p : @dparams R) (x z : Z) (v : nat -> label -> R).
Definition tr (l : label) (i : nat) : R := mixdown p x z (v i) l.

Lemma run_downmixer_ok k m : dn_legal x z k = true -> agrees n tr m -> (forall l, In l (dn_needs k) -> has m (Orig l)) ->
  exists m', run_downmixer exactR p k m = Ok m' /\ agrees n tr m' /\ forall j, has m' j <-> (exists l, j = Orig l /\ In l (dn_adds k)) \/ has m j.
Proof.
  intros L A P.
  destruct k; cbn [run_downmixer dn_needs dn_adds dn_legal] in *; (rewrite (present_agrees n tr) by (try assumption; discriminate)); cbn [rbind vals map];
    rewrite ?zip2_tab; (eexists; split; [reflexivity|]; split;
    [repeat (apply agrees_set; [|try reflexivity; apply tab_ext; intro i; unfold exactR; cbn [a_add a_sub a_mul a_div a_lit lab_of]; unfold tr; cbn [mixdown];
        unfold left2, right2, left3, right3, front3, top3, top2, surround5, at5; rewrite ?L; try reflexivity; try lra]); try exact A
    |intro j; rewrite !has_set; split; [intros H; decompose [or] H; try (right; assumption); left; eexists; split; try (symmetry; eassumption); cbn [In]; tauto
                                       |intros [(l & -> & H)|H]; [cbn [In] in H; decompose [or] H; try contradiction; subst l; tauto|tauto]]]).
  all: (assert (x = 7%Z) by lia; subst x; reflexivity).
Qed.

Hypothesis Hb : 1 / 100000 <= Rabs (d_beta p).
Hypothesis Hg : 1 / 100000 <= Rabs (d_gamma p).
Hypothesis Hd : 1 / 100000 <= Rabs (d_delta p).
Lemma not_small a : 1 / 100000 <= Rabs a -> a_small exactR a = false /\ a <> 0.
Proof.
  intro H. cbn [exactR a_small]. split; [destruct (Rlt_dec _ _); [lra|reflexivity]|]. intro E. rewrite E, Rabs_R0 in H. lra.
Qed.
Lemma run_demixer_ok k m : dm_legal x z k = true -> agrees n tr m -> (forall l, In l (dm_needs k) -> findable m l) ->
  exists m', run_demixer exactR p k m = Ok m' /\ agrees n tr m' /\ forall j, has m' j <-> (exists l, j = Dem l /\ In l (dm_adds k)) \/ has m j.
Proof.
  intros L A P. destruct (not_small _ Hb) as [Sb Nb]. destruct (not_small _ Hg) as [Sg Ng]. destruct (not_small _ Hd) as [Sd Nd].
  destruct k; cbn [run_demixer dm_needs dm_adds dm_legal] in *; rewrite ?Sb, ?Sg, ?Sd; (rewrite (seek_agrees n tr) by (try assumption; discriminate)); cbn [rbind vals map];
    rewrite ?zip2_tab, ?zip3_tab; (eexists; split; [reflexivity|]; split;
    [repeat (apply agrees_set; [|try reflexivity; apply tab_ext; intro i; unfold exactR; cbn [a_add a_sub a_mul a_div a_lit lab_of]; unfold tr; cbn [mixdown];
        unfold left2, right2, left3, right3, front3, top3, top2, surround5, at5; rewrite ?L; try reflexivity; try (field; assumption); try (field; lra)]); try exact A
    |intro j; rewrite !has_set; split; [intros H; decompose [or] H; try (right; assumption); left; eexists; split; try (symmetry; eassumption); cbn [In]; tauto
                                       |intros [(l & -> & H)|H]; [cbn [In] in H; decompose [or] H; try contradiction; subst l; tauto|tauto]]]).
Qed.
End Runs.

(* ------------------------------------------------------------------ which channels exist after a list of down-mixers or demixers *)
Fixpoint dn_sim (x z : Z) (have : list label) (ks : list downmixer) : option (list label) :=
  match ks with
  | [] => Some have
  | k :: t => if dn_legal x z k && forallb (fun l => lab_in l have) (dn_needs k) then dn_sim x z (dn_adds k ++ have) t else None
  end.
Definition key_in (k : lkey) (l : list lkey) : bool := if in_dec lkey_eq_dec k l then true else false.
Definition findableb (have : list lkey) (l : label) : bool := key_in (Orig l) have || (lab_in l demixable && key_in (Dem l) have).
Fixpoint dm_sim (x z : Z) (have : list lkey) (ks : list demixer) : option (list lkey) :=
  match ks with
  | [] => Some have
  | k :: t => if dm_legal x z k && forallb (findableb have) (dm_needs k) then dm_sim x z (map Dem (dm_adds k) ++ have) t else None
  end.
Lemma key_in_spec k l : key_in k l = true <-> In k l.
Proof. unfold key_in. destruct (in_dec _ k l) as [X|X]; split; try tauto; discriminate. Qed.
Section Chains.
Variables (n : nat) (p : @dparams R) (x z : Z) (v : nat -> label -> R).
Lemma run_downmixers_ok ks : forall have have' m, dn_sim x z have ks = Some have' -> agrees n (tr p x z v) m -> (forall l, In l have -> has m (Orig l)) ->
  exists m', run_downmixers exactR p ks m = Ok m' /\ agrees n (tr p x z v) m' /\ forall l, In l have' -> has m' (Orig l).
Proof.
  induction ks as [|k ks IH]; intros have have' m S0 A P; cbn [dn_sim run_downmixers] in *; [injection S0 as <-; exists m; tauto|].
  destruct (dn_legal x z k) eqn:L; [|discriminate]. cbn [andb] in S0. destruct (forallb _ _) eqn:F; [|discriminate].
  rewrite forallb_forall in F. destruct (run_downmixer_ok n p x z v k m L A) as (m1 & R1 & A1 & H1).
  { intros l H. apply P. apply lab_in_spec. apply F. exact H. }
  rewrite R1. cbn [rbind]. apply (IH (dn_adds k ++ have) have' m1 S0 A1). intros l H. apply H1. apply in_app_iff in H as [H|H]; [left; eauto|right; apply P; exact H].
Qed.
Hypothesis Hb : (1 / 100000 <= Rabs (d_beta p))%R.
Hypothesis Hg : (1 / 100000 <= Rabs (d_gamma p))%R.
Hypothesis Hd : (1 / 100000 <= Rabs (d_delta p))%R.
Lemma findableb_spec have (m : @smap R) l : (forall k, In k have -> has m k) -> findableb have l = true -> findable m l.
Proof.
  intros P H. unfold findableb in H. apply orb_true_iff in H as [H|H]; [left; apply P; apply key_in_spec; exact H|].
  apply andb_true_iff in H as [H1 H2]. right. split; [apply lab_in_spec; exact H1|apply P; apply key_in_spec; exact H2].
Qed.
Lemma run_demixers_ok ks : forall have have' m, dm_sim x z have ks = Some have' -> agrees n (tr p x z v) m -> (forall k, In k have -> has m k) ->
  exists m', run_demixers exactR p ks m = Ok m' /\ agrees n (tr p x z v) m' /\ forall k, In k have' -> has m' k.
Proof.
  induction ks as [|k ks IH]; intros have have' m S0 A P; cbn [dm_sim run_demixers] in *; [injection S0 as <-; exists m; tauto|].
  destruct (dm_legal x z k) eqn:L; [|discriminate]. cbn [andb] in S0. destruct (forallb _ _) eqn:F; [|discriminate].
  rewrite forallb_forall in F. destruct (run_demixer_ok n p x z v Hb Hg Hd k m L A) as (m1 & R1 & A1 & H1).
  { intros l H. apply (findableb_spec have); [exact P|apply F; exact H]. }
  rewrite R1. cbn [rbind]. apply (IH _ have' m1 S0 A1). intros j H. apply H1. apply in_app_iff in H as [H|H]; [left|right; apply P; exact H].
  apply in_map_iff in H as (l & <- & H). eauto.
Qed.
End Chains.

(* ------------------------------------------------------------------ the lowest layers *)
Definition srank (s : list label) : Z := if lab_in L7 s then 7 else if lab_in L5 s then 5 else if lab_in L3 s then 3 else if lab_in L2 s then 2 else if lab_in Mono s then 1 else INT_MAX.
Definition hrank (s : list label) : Z := if lab_in Ltf4 s then 4 else if lab_in Ltf2 s then 2 else if lab_in Ltf3 s then 1 else INT_MAX.
(* the substreams which the layers create *)
Definition known_groups : list (list label) :=
  [[Mono]; [L2]; [L2; R2]; [Centre]; [LFE]; [L3; R3]; [L5; R5]; [Ls5; Rs5]; [L7; R7]; [Lss7; Rss7]; [Lrs7; Rrs7];
   [Ltf3; Rtf3]; [Ltf2; Rtf2]; [Ltf4; Rtf4]; [Ltb4; Rtb4]].
Lemma lowest_one m : lowest_surround 1 m = 1.
Proof. induction m as [|[i s] m IH]; [reflexivity|]. cbn [lowest_surround]. change (1 >? 7) with false. change (1 >? 5) with false. change (1 >? 3) with false. change (1 >? 2) with false. change (1 >? 1) with false. rewrite !andb_false_r. exact IH. Qed.
Lemma lowest_h_one m : lowest_height 1 m = 1.
Proof. induction m as [|[i s] m IH]; [reflexivity|]. cbn [lowest_height]. change (1 >? 4) with false. change (1 >? 2) with false. change (1 >? 1) with false. rewrite !andb_false_r. exact IH. Qed.
Lemma lowest_surround_step low i s m : In s known_groups -> 1 <= low <= INT_MAX -> lowest_surround low ((i, s) :: m) = lowest_surround (Z.min low (srank s)) m.
Proof.
  intros K B. cbn [lowest_surround]. unfold INT_MAX in *. cbn [known_groups In] in K.
  repeat (destruct K as [K|K]; [subst s|]); try contradiction; unfold srank;
  repeat match goal with |- context[lab_in ?a ?b] => let r := eval vm_compute in (lab_in a b) in change (lab_in a b) with r end; cbn [andb]; cbv iota;
  unfold INT_MAX; try (rewrite Z.min_l by lia; reflexivity);
  match goal with |- context[low >? ?k] => destruct (low >? k) eqn:E end; try (rewrite Z.min_r by lia; rewrite ?lowest_one; reflexivity); rewrite Z.min_l by lia; reflexivity.
Qed.
Lemma lowest_height_step low i s m : In s known_groups -> 1 <= low <= INT_MAX -> lowest_height low ((i, s) :: m) = lowest_height (Z.min low (hrank s)) m.
Proof.
  intros K B. cbn [lowest_height]. unfold INT_MAX in *. cbn [known_groups In] in K.
  repeat (destruct K as [K|K]; [subst s|]); try contradiction; unfold hrank;
  repeat match goal with |- context[lab_in ?a ?b] => let r := eval vm_compute in (lab_in a b) in change (lab_in a b) with r end; cbn [andb]; cbv iota;
  unfold INT_MAX; try (rewrite Z.min_l by lia; reflexivity);
  match goal with |- context[low >? ?k] => destruct (low >? k) eqn:E end; try (rewrite Z.min_r by lia; rewrite ?lowest_h_one; reflexivity); rewrite Z.min_l by lia; reflexivity.
Qed.
Fixpoint zmin (low : Z) (l : list Z) : Z := match l with [] => low | a :: t => zmin (Z.min low a) t end.
Lemma zmin_spec l : forall low, zmin low l <= low /\ (forall a, In a l -> zmin low l <= a) /\ (zmin low l = low \/ In (zmin low l) l).
Proof.
  induction l as [|a l IH]; intro low; cbn [zmin]; [split; [lia|]; split; [intros ? []|tauto]|].
  destruct (IH (Z.min low a)) as (A & B & C). split; [lia|]. split.
  - intros b [E|H]; [subst b; lia|apply B; exact H].
  - destruct C as [C|C]; [|right; right; exact C]. destruct (Z.min_spec low a) as [[_ M]|[_ M]]; rewrite M in C at 2; [left; exact C|right; left; congruence].
Qed.
(* the minimum depends on the members only *)
Lemma zmin_members low l l' : (forall a, In a l <-> In a l') -> zmin low l = zmin low l'.
Proof.
  intro H. destruct (zmin_spec l low) as (A & B & C). destruct (zmin_spec l' low) as (A' & B' & C').
  apply Z.le_antisymm.
  - destruct C' as [C'|C']; [lia|]. apply B. apply H. exact C'.
  - destruct C as [C|C]; [lia|]. apply B'. apply H. exact C.
Qed.
Lemma srank_pos s : 1 <= srank s <= INT_MAX. Proof. unfold srank, INT_MAX. repeat match goal with |- context[if ?b then _ else _] => destruct b end; lia. Qed.
Lemma hrank_pos s : 1 <= hrank s <= INT_MAX. Proof. unfold hrank, INT_MAX. repeat match goal with |- context[if ?b then _ else _] => destruct b end; lia. Qed.
Lemma lowest_surround_min m : (forall s, In s (map snd m) -> In s known_groups) -> forall low, 1 <= low <= INT_MAX -> lowest_surround low m = zmin low (map srank (map snd m)).
Proof.
  induction m as [|[i s] m IH]; intros K low B; [reflexivity|]. rewrite lowest_surround_step by (try exact B; apply K; left; reflexivity).
  pose proof (srank_pos s). rewrite IH by (try (intros; apply K; right; assumption); lia). reflexivity.
Qed.
Lemma lowest_height_min m : (forall s, In s (map snd m) -> In s known_groups) -> forall low, 1 <= low <= INT_MAX -> lowest_height low m = zmin low (map hrank (map snd m)).
Proof.
  induction m as [|[i s] m IH]; intros K low B; [reflexivity|]. rewrite lowest_height_step by (try exact B; apply K; left; reflexivity).
  pose proof (hrank_pos s). rewrite IH by (try (intros; apply K; right; assumption); lia). reflexivity.
Qed.

(* ------------------------------------------------------------------ the substreams of an accepted list of layers *)
Inductive hstate := HN | H3 | H34 | H2 | H24 | H4.
Definition hgroups (h : hstate) : list (list label) :=
  match h with HN => [] | H3 => [[Ltf3; Rtf3]] | H34 => [[Ltf3; Rtf3]; [Ltf4; Rtf4]] | H2 => [[Ltf2; Rtf2]] | H24 => [[Ltf2; Rtf2]; [Ltf4; Rtf4]]
             | H4 => [[Ltf4; Rtf4]; [Ltb4; Rtb4]] end.
(* the first layer has s surround channels, the last layer is t *)
Definition groups (s : Z) (h : hstate) (t : Z * Z * Z) : list (list label) :=
  let '(x, y, _) := t in
  when (s =? 1) [[Mono]] ++ when (s =? 2) [[L2; R2]] ++ when (s =? 3) [[L3; R3]] ++ when (s =? 5) [[L5; R5]; [Ls5; Rs5]] ++
  when (s =? 7) [[L7; R7]; [Lss7; Rss7]; [Lrs7; Rrs7]] ++ when (passes 2 s x) [[L2]] ++ when (3 <=? x) [[Centre]] ++
  when (passes 5 s x) [[L5; R5]] ++ when (passes 7 s x) [[Lss7; Rss7]] ++ when (y =? 1) [[LFE]] ++ hgroups h.
Definition hvalid (s : Z) (h : hstate) (t : Z * Z * Z) : bool :=
  let '(x, _, z) := t in
  (s <=? x) && match h with HN => z =? 0 | H3 => (z =? 2) && (s <=? 3) | H34 => (z =? 4) && (s <=? 3) && (5 <=? x) | H2 => (z =? 2) && (5 <=? x) | H24 => (z =? 4) && (5 <=? x) | H4 => z =? 4 end.
Definition hfirst (t : Z * Z * Z) : hstate := let '(x, _, z) := t in if z =? 0 then HN else if z =? 4 then H4 else if x =? 3 then H3 else H2.
Definition hnext (h : hstate) (t t' : Z * Z * Z) : hstate :=
  let '(_, _, z) := t in let '(_, _, z') := t' in
  if z =? z' then h else if z =? 0 then hfirst t' else match h with H3 => H34 | H2 => H24 | _ => h end.
Definition all_named : list (Z * Z * Z) := [(1,0,0); (2,0,0); (5,1,0); (5,1,2); (5,1,4); (7,1,0); (7,1,2); (7,1,4); (3,1,2)].
Definition all_h : list hstate := [HN; H3; H34; H2; H24; H4].
Definition all_s : list Z := [1; 2; 3; 5; 7].
Definition grp_in (g : list label) (l : list (list label)) : bool := if in_dec (list_eq_dec label_eq_dec) g l then true else false.
Definition same (a b : list (list label)) : bool := forallb (fun g => grp_in g b) a && forallb (fun g => grp_in g a) b.
Lemma grp_in_spec g l : grp_in g l = true <-> In g l.
Proof. unfold grp_in. destruct (in_dec _ g l) as [X|X]; split; try tauto; discriminate. Qed.
Lemma same_spec a b : same a b = true -> forall g, In g a <-> In g b.
Proof.
  unfold same. rewrite andb_true_iff, !forallb_forall. intros [A B] g. split; intro H; apply grp_in_spec; [apply A|apply B]; exact H.
Qed.
Definition surround_of (t : Z * Z * Z) : Z := fst (fst t).
Definition step_ok : bool :=
  forallb (fun s => forallb (fun h => forallb (fun t => forallb (fun t' =>
    if hvalid s h t && growsb (Some t) t' then
      hvalid s (hnext h t t') t' && same (groups s h t ++ substreams (added_pairs t t') (added_singles t t')) (groups s (hnext h t t') t')
    else true) all_named) all_named) all_h) all_s.
Definition start_ok : bool :=
  forallb (fun t => hvalid (surround_of t) (hfirst t) t && same (substreams (first_pairs t) (first_singles t)) (groups (surround_of t) (hfirst t) t)
                    && (if in_dec Z.eq_dec (surround_of t) all_s then true else false)) all_named.
Lemma step_checked : step_ok = true. Proof. vm_compute. reflexivity. Qed.
Lemma start_checked : start_ok = true. Proof. vm_compute. reflexivity. Qed.
Lemma in_all_h h : In h all_h. Proof. destruct h; cbn [all_h In]; tauto. Qed.
Lemma step_inv s h t t' : In s all_s -> is_named t -> is_named t' -> hvalid s h t = true -> grows (Some t) t' ->
  hvalid s (hnext h t t') t' = true /\ forall g, In g (groups s h t ++ substreams (added_pairs t t') (added_singles t t')) <-> In g (groups s (hnext h t t') t').
Proof.
  intros Is N N' V G. pose proof step_checked as C. unfold step_ok in C. rewrite forallb_forall in C. specialize (C s Is). rewrite forallb_forall in C. specialize (C h (in_all_h h)).
  rewrite forallb_forall in C. specialize (C t (is_named_cases t N)). rewrite forallb_forall in C. specialize (C t' (is_named_cases t' N')).
  apply growsb_spec in G. rewrite V, G in C. cbn [andb] in C. apply andb_true_iff in C as [C1 C2]. split; [exact C1|]. apply same_spec. exact C2.
Qed.
Lemma start_inv t : is_named t -> In (surround_of t) all_s /\ hvalid (surround_of t) (hfirst t) t = true /\
  forall g, In g (substreams (first_pairs t) (first_singles t)) <-> In g (groups (surround_of t) (hfirst t) t).
Proof.
  intro N. pose proof start_checked as C. unfold start_ok in C. rewrite forallb_forall in C. specialize (C t (is_named_cases t N)).
  apply andb_true_iff in C as [C C3]. apply andb_true_iff in C as [C1 C2]. split; [destruct (in_dec _ _ all_s); [assumption|discriminate]|]. split; [exact C1|]. apply same_spec. exact C2.
Qed.
Fixpoint last_named (t : Z * Z * Z) (l : list layer) : Z * Z * Z :=
  match l with [] => t | ly :: l' => last_named (match named (ly_layout ly) with Some u => u | None => t end) l' end.
Lemma labelled_from l : forall t gs, labelled (Some t) l gs -> forall s h G, is_named t -> In s all_s -> hvalid s h t = true -> (forall g, In g G <-> In g (groups s h t)) ->
  exists h', hvalid s h' (last_named t l) = true /\ forall g, In g (G ++ concat gs) <-> In g (groups s h' (last_named t l)).
Proof.
  induction l as [|ly l IH]; intros t gs L s h G N Is V E; inversion L as [|prev ly' l' u gs' Nm Gr C1 C2 L']; subst.
  - exists h. cbn [last_named concat]. rewrite app_nil_r. tauto.
  - cbn [last_named]. rewrite Nm. assert (is_named u) as Nu by (eexists; exact Nm). destruct (step_inv s h t u Is N Nu V Gr) as [V' E'].
    destruct (IH u gs' L' s (hnext h t u) (G ++ substreams (added_pairs t u) (added_singles t u)) Nu Is V') as (h' & V2 & E2).
    { intro g. rewrite <- E'. rewrite !in_app_iff. rewrite E. tauto. }
    exists h'. split; [exact V2|]. intro g. cbn [concat new_pairs new_singles]. rewrite app_assoc. apply E2.
Qed.
Lemma last_named_last l : forall t ly r u, rev l = ly :: r -> named (ly_layout ly) = Some u -> last_named t l = u.
Proof.
  induction l as [|a l IH]; intros t ly r u E Nm; [discriminate|]. cbn [rev] in E. cbn [last_named]. destruct (rev l) as [|b q] eqn:R.
  - cbn [app] in E. injection E as -> _. rewrite Nm. apply (f_equal (@rev layer)) in R. rewrite rev_involutive in R. subst l. reflexivity.
  - cbn [app] in E. injection E as -> _. apply (IH _ ly q); [reflexivity|exact Nm].
Qed.
Lemma labelled_groups l gs ly r t : labelled None l gs -> rev l = ly :: r -> named (ly_layout ly) = Some t ->
  exists s h, In s all_s /\ hvalid s h t = true /\ forall g, In g (concat gs) <-> In g (groups s h t).
Proof.
  intros L R Nm. inversion L as [|prev ly' l' u gs' Nu Gr C1 C2 L']; subst; [discriminate|].
  assert (is_named u) as Iu by (eexists; exact Nu). destruct (start_inv u Iu) as (Is & V & E).
  destruct (labelled_from l' u gs' L' (surround_of u) (hfirst u) _ Iu Is V E) as (h' & V' & E').
  exists (surround_of u), h'. assert (last_named u l' = t) as X.
  { pose proof (last_named_last (ly' :: l') u ly r t R Nm) as Y. cbn [last_named] in Y. rewrite Nu in Y. exact Y. }
  rewrite X in V', E'. split; [exact Is|]. split; [exact V'|]. intro g. cbn [concat new_pairs new_singles]. apply E'.
Qed.

(* ------------------------------------------------------------------ for every such list, the channels needed are there *)
Definition order (t : Z * Z * Z) : list label :=
  let '(x, _, z) := t in
  (if x =? 1 then [Mono] else if x =? 2 then [L2; R2] else if x =? 3 then [L3; R3; Centre; LFE] else if x =? 5 then [L5; R5; Centre; LFE; Ls5; Rs5]
   else [L7; R7; Centre; LFE; Lss7; Rss7; Lrs7; Rrs7]) ++
  (if z =? 4 then [Ltf4; Rtf4; Ltb4; Rtb4] else if z =? 2 then (if x =? 3 then [Ltf3; Rtf3] else [Ltf2; Rtf2]) else []).
Lemma ear_order_named x t : named x = Some t -> ear_order x = Ok (order t).
Proof. intro H. apply named_cases in H. decompose [or and] H; subst; reflexivity. Qed.
Definition downs (ins low inh lowh : Z) : list downmixer :=
  flat_map (fun n => if n =? 7 then [S7toS5] else if n =? 5 then [S5toS3] else if n =? 3 then [S3toS2]
                     else if n =? 2 then [S2toS1] else []) (count_down (Z.to_nat ins) low)
  ++ flat_map (fun n => if n =? 4 then [T4toT2] else if n =? 2 then [T2toTF2] else []) (count_down (Z.to_nat inh) lowh).
Definition ups (ins low inh lowh : Z) : list demixer :=
  rev (flat_map (fun n => if n =? 7 then [S5toS7] else if n =? 5 then [S3toS5] else if n =? 3 then [S2toS3]
                          else if n =? 2 then [S1toS2] else []) (count_down (Z.to_nat ins) low))
  ++ rev (flat_map (fun n => if n =? 4 then [T2toT4] else if n =? 2 then [TF2toT2] else []) (count_down (Z.to_nat inh) lowh)).
Definition case_ok (s : Z) (h : hstate) (t : Z * Z * Z) : bool :=
  let '(x, _, z) := t in let G := groups s h t in let o := order t in
  let low := zmin INT_MAX (map srank G) in let lowh := zmin INT_MAX (map hrank G) in
  match dn_sim x z o (downs (in_surround o) low (in_height o) lowh), dm_sim x z (map Orig (concat G)) (ups (in_surround o) low (in_height o) lowh) with
  | Some a, Some b => forallb (fun g => forallb (fun l => lab_in l a) g) G && forallb (findableb b) o
  | _, _ => false
  end && forallb (fun g => grp_in g known_groups) G && (match G with [] => false | _ => true end).
Definition cases_ok : bool :=
  forallb (fun s => forallb (fun h => forallb (fun t => if hvalid s h t then case_ok s h t else true) all_named) all_h) all_s.
Lemma cases_checked : cases_ok = true. Proof. vm_compute. reflexivity. Qed.
Lemma case_inv s h t : In s all_s -> is_named t -> hvalid s h t = true -> case_ok s h t = true.
Proof.
  intros Is N V. pose proof cases_checked as C. unfold cases_ok in C. rewrite forallb_forall in C. specialize (C s Is). rewrite forallb_forall in C. specialize (C h (in_all_h h)).
  rewrite forallb_forall in C. specialize (C t (is_named_cases t N)). rewrite V in C. exact C.
Qed.
Lemma lab_in_ext l a b : (forall k, In k a <-> In k b) -> lab_in l a = lab_in l b.
Proof. intro H. destruct (lab_in l b) eqn:E; [apply lab_in_spec; apply H; apply lab_in_spec; exact E|]. destruct (lab_in l a) eqn:F; [|reflexivity]. apply lab_in_spec in F. apply H in F. apply lab_in_spec in F. congruence. Qed.
Lemma in_surround_ext a b : (forall k, In k a <-> In k b) -> in_surround a = in_surround b /\ in_height a = in_height b.
Proof. intro H. unfold in_surround, in_height. rewrite !(lab_in_ext _ a b H). tauto. Qed.
Lemma order_truth p t v l : is_named t -> In l (order t) -> mixdown p (surround_of t) (snd t) v l = v l.
Proof.
  intros N I. apply is_named_cases in N. cbn [In] in N.
  repeat (destruct N as [N|N]; [subst t; cbn [order Z.eqb Pos.eqb app In] in I; repeat (destruct I as [I|I]; [subst l; reflexivity|]); contradiction|]). contradiction.
Qed.

(* ------------------------------------------------------------------ storing the frames *)
Section Store.
Variables (n : nat) (tv : label -> nat -> R) (p : @dparams R) (t0 : Z) (subs : labmap).
Definition relevant (f : @frame R) : Prop := m_find (f_id f) subs <> None.
Lemma store_channels_ok ls : forall m, agrees n tv m -> agrees n tv (store_channels ls (vals n tv ls) m) /\
  forall k, has (store_channels ls (vals n tv ls) m) k <-> has m k \/ exists l, In l ls /\ k = Orig l.
Proof.
  induction ls as [|l ls IH]; intros m A.
  - cbn [vals map store_channels]. split; [exact A|]. intro k. split; [tauto|]. intros [H|(l & [] & _)]. exact H.
  - cbn [vals map store_channels]. destruct (IH (sm_set (Orig l) (tab n (tv l)) m)) as [A1 H1]; [apply agrees_set; [exact A|reflexivity]|].
    split; [exact A1|]. intro k. unfold vals in H1. rewrite H1, has_set. split.
    + intros [[E|H]|(j & J & E)]; [right; exists l; split; [left; reflexivity|congruence]|left; exact H|right; exists j; split; [right; exact J|exact E]].
    + intros [H|(j & [J|J] & E)]; [tauto|left; left; congruence|right; exists j; tauto].
Qed.
Lemma store_frames_ok fs :
  (forall f ls, In f fs -> m_find (f_id f) subs = Some ls -> ls <> [] /\ f_start f = t0 /\ f_samples f = vals n tv ls /\ f_params f = p) ->
  forall exp lf, exp = None \/ exp = Some n -> agrees n tv (lf_map lf) ->
  exists lf', store_frames t0 subs exp fs lf = Ok lf' /\ agrees n tv (lf_map lf') /\
    (forall k, has (lf_map lf') k <-> has (lf_map lf) k \/ exists f ls l, In f fs /\ m_find (f_id f) subs = Some ls /\ In l ls /\ k = Orig l) /\
    ((lf' = lf /\ forall f, In f fs -> ~ relevant f) \/
     (lf_params lf' = Some p /\ exists f, In f fs /\ relevant f /\ lf_trim_start lf' = f_trim_start f /\ lf_trim_end lf' = f_trim_end f)).
Proof.
  induction fs as [|f fs IH]; intros W exp lf E A.
  - exists lf. cbn [store_frames]. split; [reflexivity|]. split; [exact A|]. split; [|left; split; [reflexivity|intros ? []]].
    intro k. split; [tauto|]. intros [H|(f & ls & l & [] & _)]. exact H.
  - assert (forall f ls, In f fs -> m_find (f_id f) subs = Some ls -> ls <> [] /\ f_start f = t0 /\ f_samples f = vals n tv ls /\ f_params f = p) as W' by (intros g ls G; apply W; right; exact G).
    cbn [store_frames]. destruct (m_find (f_id f) subs) as [ls|] eqn:M.
    + destruct (W f ls (or_introl eq_refl) M) as (N & St & Sa & Pa). rewrite St, Sa. unfold veq at 1. rewrite Z.eqb_refl. cbn [vcond rthen rbind].
      assert (forall X (a b : X), match vals n tv ls with [] => a | _ :: _ => b end = b) as Vn by (intros X a b; destruct ls; [congruence|reflexivity]). rewrite Vn. clear Vn.
      change (@zlen (@samples R)) with (@zlen (list R)); replace (zlen (vals n tv ls)) with (zlen ls) by (unfold zlen, vals; rewrite !map_length; reflexivity). unfold veq at 1. rewrite Z.eqb_refl. cbn [vcond rthen rbind].
      unfold vals at 1. rewrite common_tab by (destruct ls; [congruence|discriminate]). cbn [rbind].
      assert ((match exp with None => Ok tt | Some e => veq (Z.of_nat n) (Z.of_nat e) end) = Ok tt) as -> by (destruct E as [-> | ->]; [reflexivity|unfold veq; rewrite Z.eqb_refl; reflexivity]).
      cbn [rthen rbind]. set (lf1 := mkLf _ _ _ _). destruct (store_channels_ok ls (lf_map lf) A) as [A1 H1].
      destruct (IH W' (match exp with None => Some n | Some e => Some e end) lf1) as (lf' & R1 & A2 & K & O); [destruct E as [-> | ->]; tauto|exact A1|].
      exists lf'. split; [exact R1|]. split; [exact A2|]. split.
      * intro k. rewrite K. unfold lf1 at 1. cbn [lf_map]. rewrite H1. split.
        { intros [[H|(l & L & ->)]|(g & gs & l & G1 & G2 & G3 & ->)]; [tauto|right; exists f, ls, l; split; [left; reflexivity|tauto]|right; exists g, gs, l; split; [right; exact G1|tauto]]. }
        { intros [H|(g & gs & l & [G1|G1] & G2 & G3 & ->)]; [tauto|subst g; rewrite M in G2; injection G2 as <-; left; right; eauto|right; exists g, gs, l; tauto]. }
      * right. destruct O as [[-> O]|(O1 & g & G1 & G2 & G3)]; [|split; [exact O1|exists g; split; [right; exact G1|tauto]]].
        unfold lf1. cbn [lf_params lf_trim_start lf_trim_end]. rewrite Pa. split; [reflexivity|]. exists f. split; [left; reflexivity|]. split; [unfold relevant; rewrite M; discriminate|tauto].
    + destruct (IH W' exp lf E A) as (lf' & R1 & A2 & K & O). exists lf'. split; [exact R1|]. split; [exact A2|]. split.
      * intro k. rewrite K. split; [intros [H|(g & gs & l & G1 & G2)]; [tauto|right; exists g, gs, l; split; [right; exact G1|exact G2]]|].
        intros [H|(g & gs & l & [G1|G1] & G2)]; [tauto|subst g; destruct G2; congruence|right; exists g, gs, l; tauto].
      * destruct O as [[O1 O2]|(O1 & g & G1 & G2)]; [left; split; [exact O1|intros g [G|G]; [subst g; unfold relevant; congruence|apply O2; exact G]]|right; split; [exact O1|exists g; split; [right; exact G1|exact G2]]].
Qed.
End Store.
