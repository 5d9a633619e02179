(* Which channels each substream of an audio element carries, and their output gains (C46). *)
From Verif Require Import Base WriteBuf ReadBuf BufSpec LebSpec BitFacts WriteBufFacts ReadBufFacts CodecConfig Params AudioElement PropsParams PropsAE Timing ParamManager AeData.

(* ------------------------------------------------------------------ SPEC (IAMF 3.6.2, 3.6.3) *)
(* A loudspeaker layout X.Y.Z has X surround channels, Y low-frequency channels and Z height channels: mono, stereo, 5.1, 5.1.2, 5.1.4, 7.1,
   7.1.2, 7.1.4, 3.1.2, binaural.  Values 10..14 are reserved and 15 is an expanded layout. *)
Definition named (layout : Z) : option (Z * Z * Z) :=
  if layout <? 0 then None
  else nth_error [(1,0,0); (2,0,0); (5,1,0); (5,1,2); (5,1,4); (7,1,0); (7,1,2); (7,1,4); (3,1,2); (2,0,0)] (Z.to_nat layout).
Definition size (t : Z * Z * Z) : Z := let '(x, y, z) := t in x + y + z.
(* Layers may only add channels, in each of the three groups *)
Definition grows (prev : option (Z * Z * Z)) (t : Z * Z * Z) : Prop :=
  match prev with None => True | Some (x, y, z) => let '(x', y', z') := t in x <= x' /\ y <= y' /\ z <= z' end.
Definition when {A} (b : bool) (l : list A) : list A := if b then l else [].
(* n lies in (x, y] *)
Definition passes (n x y : Z) : bool := (x <? n) && (n <=? y).
(* The channels of the first layer: stereo pairs (coupled), then single channels *)
Definition first_pairs (t : Z * Z * Z) : list (label * label) :=
  let '(x, _, z) := t in
  when (x =? 2) [(L2, R2)] ++ when (x =? 3) [(L3, R3)] ++ when (x =? 5) [(L5, R5); (Ls5, Rs5)] ++
  when (x =? 7) [(L7, R7); (Lss7, Rss7); (Lrs7, Rrs7)] ++
  when (z =? 2) [if x =? 3 then (Ltf3, Rtf3) else (Ltf2, Rtf2)] ++ when (z =? 4) [(Ltf4, Rtf4); (Ltb4, Rtb4)].
Definition first_singles (t : Z * Z * Z) : list label :=
  let '(x, y, _) := t in when (x =? 1) [Mono] ++ when (3 <=? x) [Centre] ++ when (y =? 1) [LFE].
(* The channels that a layer adds to the previous one *)
Definition added_pairs (s t : Z * Z * Z) : list (label * label) :=
  let '(x, _, z) := s in let '(x', _, z') := t in
  when (passes 5 x x') [(L5, R5)] ++ when (passes 7 x x') [(Lss7, Rss7)] ++
  when ((z =? 0) && (z' =? 2)) [if x' =? 3 then (Ltf3, Rtf3) else (Ltf2, Rtf2)] ++
  when ((z =? 0) && (z' =? 4)) [(Ltf4, Rtf4); (Ltb4, Rtb4)] ++ when ((z =? 2) && (z' =? 4)) [(Ltf4, Rtf4)].
Definition added_singles (s t : Z * Z * Z) : list label :=
  let '(x, y, _) := s in let '(x', y', _) := t in
  when (passes 3 x x') [Centre] ++ when (passes 1 y y') [LFE] ++ when (passes 2 x x') [L2].
Definition new_pairs (prev : option (Z * Z * Z)) (t : Z * Z * Z) :=
  match prev with None => first_pairs t | Some s => added_pairs s t end.
Definition new_singles (prev : option (Z * Z * Z)) (t : Z * Z * Z) :=
  match prev with None => first_singles t | Some s => added_singles s t end.
(* The substreams of a layer: one for each pair, then one for each single channel *)
Definition substreams (pairs : list (label * label)) (singles : list label) : list (list label) :=
  map (fun p => [fst p; snd p]) pairs ++ map (fun x => [x]) singles.
(* [gs]: for each layer, for each of its substreams, the channels it carries *)
Inductive labelled : option (Z * Z * Z) -> list layer -> list (list (list label)) -> Prop :=
| Lab_nil : forall prev, labelled prev [] []
| Lab_layer : forall prev ly l t gs,
    named (ly_layout ly) = Some t -> grows prev t ->
    ly_coupled ly = zlen (new_pairs prev t) -> ly_subs ly = zlen (new_pairs prev t) + zlen (new_singles prev t) ->
    labelled (Some t) l gs -> labelled prev (ly :: l) (substreams (new_pairs prev t) (new_singles prev t) :: gs).
(* The bit of output_gain_flag that selects a channel, if one does *)
Definition gain_bit (c : label) : option Z :=
  match c with
  | Mono | L2 | L3 => Some 5 | R2 | R3 => Some 4 | Ls5 => Some 3 | Rs5 => Some 2 | Ltf2 | Ltf3 => Some 1 | Rtf2 | Rtf3 => Some 0 | _ => None
  end.
Definition layer_gain (ly : layer) (c : label) : option Z :=
  match gain_bit c with Some b => if ly_og ly && Z.testbit (ly_ogf ly) b then Some (ly_gain ly) else None | None => None end.

Lemma forall2_length {A B} (P : A -> B -> Prop) l m : Forall2 P l m -> length l = length m.
Proof. induction 1; cbn [length]; congruence. Qed.
(* ------------------------------------------------------------------ adding labels *)
Definition flat_pairs (l : list (label * label)) : list label := flat_map (fun p => [fst p; snd p]) l.
Lemma m_find_app {V} k (m n : list (Z * V)) : m_find k (m ++ n) = match m_find k m with Some v => Some v | None => m_find k n end.
Proof. induction m as [|[i v] m IH]; [reflexivity|]. cbn [m_find app]. destruct (i =? k); [reflexivity|exact IH]. Qed.
Lemma m_find_none {V} k (m : list (Z * V)) : m_find k m = None <-> ~ In k (map fst m).
Proof.
  induction m as [|[i v] m IH]; cbn [m_find map fst In]; [tauto|]. destruct (i =? k) eqn:E; [split; [discriminate|intro X; exfalso; apply X; left; lia]|].
  rewrite IH. split; [intros X [Y|Y]; [lia|tauto]|tauto].
Qed.
Lemma m_app_fresh k l m : ~ In k (map fst m) -> m_app k l m = m ++ [(k, l)].
Proof. intro H. unfold m_app. apply m_find_none in H. rewrite H. reflexivity. Qed.
Lemma nodup_fresh (k : Z) a t : NoDup (a ++ k :: t) -> ~ In k a.
Proof. intros H X. apply NoDup_remove_2 in H. apply H. apply in_app_iff. left. exact X. Qed.
Lemma nodup_shift (k : Z) a t : NoDup (a ++ k :: t) -> NoDup ((a ++ [k]) ++ t).
Proof. rewrite <- app_assoc. exact id. Qed.

Lemma add_coupled_spec ps : forall ids m, NoDup (map fst m ++ ids) -> (length ps <= length ids)%nat ->
  add_coupled (flat_pairs ps) ids m =
  Ok (skipn (length ps) ids, m ++ combine (firstn (length ps) ids) (map (fun p => [fst p; snd p]) ps)).
Proof.
  induction ps as [|[a b] ps IH]; intros ids m H L; cbn [flat_pairs flat_map app add_coupled length firstn skipn combine map fst snd].
  - rewrite app_nil_r. reflexivity.
  - destruct ids as [|i ids]; cbn [length] in L; [lia|]. pose proof (nodup_fresh _ _ _ H) as F. rewrite m_app_fresh by exact F.
    change (flat_map (fun p : label * label => [fst p; snd p]) ps) with (flat_pairs ps). rewrite IH.
    + cbn [skipn firstn combine map fst snd]. rewrite <- app_assoc. reflexivity.
    + rewrite map_app. cbn [map fst]. apply nodup_shift. exact H.
    + lia.
Qed.
Lemma add_single_spec ls : forall ids m, NoDup (map fst m ++ ids) -> (length ls <= length ids)%nat ->
  add_single ls ids m = Ok (skipn (length ls) ids, m ++ combine (firstn (length ls) ids) (map (fun x => [x]) ls)).
Proof.
  induction ls as [|a ls IH]; intros ids m H L; cbn [add_single length firstn skipn combine map].
  - rewrite app_nil_r. reflexivity.
  - destruct ids as [|i ids]; cbn [length] in L; [lia|]. pose proof (nodup_fresh _ _ _ H) as F. rewrite m_app_fresh by exact F. rewrite IH.
    + cbn [skipn firstn combine map]. rewrite <- app_assoc. reflexivity.
    + rewrite map_app. cbn [map fst]. apply nodup_shift. exact H.
    + lia.
Qed.
Lemma flat_pairs_length ps : length (flat_pairs ps) = (2 * length ps)%nat.
Proof. induction ps as [|p ps IH]; [reflexivity|]. cbn [flat_pairs flat_map]. rewrite app_length. change (flat_map _ ps) with (flat_pairs ps). rewrite IH. cbn [length]. lia. Qed.
Lemma substreams_length ps ss : length (substreams ps ss) = (length ps + length ss)%nat.
Proof. unfold substreams. rewrite app_length, !map_length. reflexivity. Qed.
Lemma substreams_concat ps ss : concat (substreams ps ss) = flat_pairs ps ++ ss.
Proof.
  unfold substreams. rewrite concat_app. f_equal.
  - unfold flat_pairs. rewrite flat_map_concat_map. reflexivity.
  - induction ss as [|s ss IH]; [reflexivity|]. cbn [map concat app]. rewrite IH. reflexivity.
Qed.
Lemma firstn_fst_combine {A} (ids : list Z) (l : list A) : map fst (combine ids l) = firstn (length l) ids.
Proof. revert l; induction ids as [|i ids IH]; intros [|x l]; cbn [combine map fst length firstn]; try reflexivity. rewrite IH. reflexivity. Qed.
Lemma combine_split {A} (ids : list Z) (l1 l2 : list A) :
  combine (firstn (length l1) ids) l1 ++ combine (firstn (length l2) (skipn (length l1) ids)) l2 =
  combine (firstn (length (l1 ++ l2)) ids) (l1 ++ l2).
Proof.
  revert ids; induction l1 as [|x l1 IH]; intro ids; [reflexivity|].
  destruct ids as [|i ids]; cbn [app length firstn combine skipn].
  - rewrite firstn_nil. reflexivity.
  - cbn [app]. rewrite IH. reflexivity.
Qed.
Lemma add_labels_spec ps ss ids m : NoDup (map fst m ++ ids) ->
  add_labels (flat_pairs ps, ss) ids m =
  if (length ids <? length ps + length ss)%nat then Err OutOfRange
  else Ok (skipn (length (substreams ps ss)) ids, m ++ combine (firstn (length (substreams ps ss)) ids) (substreams ps ss)).
Proof.
  intro H. unfold add_labels. cbn [fst snd]. unfold zlen. rewrite flat_pairs_length.
  replace (Z.of_nat (2 * length ps) mod 2 =? 0) with true by (rewrite Nat2Z.inj_mul; change (Z.of_nat 2) with 2; lia). cbn [negb].
  replace (Z.of_nat (2 * length ps) / 2) with (Z.of_nat (length ps)) by (rewrite Nat2Z.inj_mul; change (Z.of_nat 2) with 2; lia).
  destruct (length ids <? length ps + length ss)%nat eqn:E.
  - apply Nat.ltb_lt in E. replace (_ >? _) with true by lia. reflexivity.
  - apply Nat.ltb_ge in E. replace (_ >? _) with false by lia. rewrite add_coupled_spec by (try exact H; lia). cbn [rbind fst snd].
    rewrite add_single_spec.
    + rewrite skipn_skipn'. rewrite substreams_length. apply f_equal. apply f_equal2; [f_equal; lia|]. rewrite <- app_assoc. apply f_equal.
      unfold substreams. pose proof (combine_split ids (map (fun p : label * label => [fst p; snd p]) ps) (map (fun x : label => [x]) ss)) as C.
      rewrite app_length, !map_length in C. exact C.
    + rewrite map_app, firstn_fst_combine, map_length, <- app_assoc. rewrite firstn_firstn, Nat.min_id, firstn_skipn. exact H.
    + rewrite skipn_length. lia.
Qed.

(* ------------------------------------------------------------------ the labels of a layer *)
Definition chans_of (t : Z * Z * Z) : chans := let '(x, y, z) := t in mkCh x y z 0.
Definition acc_of (prev : option (Z * Z * Z)) : chans := match prev with None => mkCh 0 0 0 0 | Some t => chans_of t end.
Lemma named_cases x t : named x = Some t ->
  (x = 0 /\ t = (1,0,0)) \/ (x = 1 /\ t = (2,0,0)) \/ (x = 2 /\ t = (5,1,0)) \/ (x = 3 /\ t = (5,1,2)) \/ (x = 4 /\ t = (5,1,4)) \/
  (x = 5 /\ t = (7,1,0)) \/ (x = 6 /\ t = (7,1,2)) \/ (x = 7 /\ t = (7,1,4)) \/ (x = 8 /\ t = (3,1,2)) \/ (x = 9 /\ t = (2,0,0)).
Proof.
  unfold named. destruct (x <? 0) eqn:E0; [discriminate|]. intro H.
  assert (Z.to_nat x < 10)%nat as L by (apply (nth_error_Some [(1,0,0); (2,0,0); (5,1,0); (5,1,2); (5,1,4); (7,1,0); (7,1,2); (7,1,4); (3,1,2); (2,0,0)]); congruence).
  assert (x = 0 \/ x = 1 \/ x = 2 \/ x = 3 \/ x = 4 \/ x = 5 \/ x = 6 \/ x = 7 \/ x = 8 \/ x = 9) as C by lia.
  decompose [or] C; subst x; cbv [Z.to_nat Pos.to_nat Pos.iter_op nth_error Nat.add] in H; injection H as <-; tauto.
Qed.
Lemma layout_channels_named x : layout_channels x = match named x with Some t => Ok (chans_of t) | None => Err InvalidArgument end.
Proof.
  unfold layout_channels.
  repeat (match goal with |- context[x =? ?k] => destruct (x =? k) eqn:?; [assert (x = k) by lia; subst x; reflexivity|] end).
  destruct (named x) as [t|] eqn:E; [|reflexivity]. apply named_cases in E. lia.
Qed.
(* From any of the named layouts (or none) to a named layout *)
Definition is_named (t : Z * Z * Z) : Prop := exists x, named x = Some t.
Definition prev_ok (prev : option (Z * Z * Z)) : Prop := match prev with None => True | Some t => is_named t end.
Lemma is_named_cases t : is_named t -> In t [(1,0,0); (2,0,0); (5,1,0); (5,1,2); (5,1,4); (7,1,0); (7,1,2); (7,1,4); (3,1,2)].
Proof. intros [x H]. apply named_cases in H. decompose [or and] H; subst; cbn [In]; tauto. Qed.
Definition first_of (prev : option (Z * Z * Z)) : bool := match prev with None => true | Some _ => false end.
Definition growsb (prev : option (Z * Z * Z)) (t : Z * Z * Z) : bool :=
  match prev with None => true | Some (x, y, z) => let '(x', y', z') := t in (x <=? x') && (y <=? y') && (z <=? z') end.
Lemma growsb_spec prev t : growsb prev t = true <-> grows prev t.
Proof. destruct prev as [[[x y] z]|]; destruct t as [[x' y'] z']; cbn [growsb grows]; [lia|tauto]. Qed.
Lemma layer_labels_named prev ly t : prev_ok prev -> named (ly_layout ly) = Some t ->
  layer_labels (first_of prev) (acc_of prev) ly =
  if growsb prev t then Ok (chans_of t, (flat_pairs (new_pairs prev t), new_singles prev t)) else Err InvalidArgument.
Proof.
  intros P N. unfold layer_labels. assert (ly_layout ly =? kExpanded = false) as -> by (pose proof (named_cases _ _ N); unfold kExpanded; lia).
  rewrite layout_channels_named, N. cbn [rbind]. apply (ex_intro (fun x => named x = Some t)) in N. apply is_named_cases in N.
  destruct prev as [s|].
  - apply is_named_cases in P. cbn [In] in P, N.
    repeat (destruct P as [P|P]; [subst s; repeat (destruct N as [N|N]; [subst t; vm_compute; reflexivity|]); contradiction|]). contradiction.
  - cbn [In] in N. repeat (destruct N as [N|N]; [subst t; vm_compute; reflexivity|]). contradiction.
Qed.
Lemma layer_labels_unnamed prev ly : ly_layout ly <> 15 -> named (ly_layout ly) = None ->
  layer_labels (first_of prev) (acc_of prev) ly = Err InvalidArgument.
Proof. intros X N. unfold layer_labels. replace (ly_layout ly =? kExpanded) with false by (unfold kExpanded; lia). rewrite layout_channels_named, N. reflexivity. Qed.
Lemma small_groups prev t : prev_ok prev -> is_named t -> zlen (new_pairs prev t) <= 7 /\ zlen (new_singles prev t) <= 3.
Proof.
  intros P N. apply is_named_cases in N. destruct prev as [s|].
  - apply is_named_cases in P. cbn [In] in P, N.
    repeat (destruct P as [P|P]; [subst s; repeat (destruct N as [N|N]; [subst t; vm_compute; split; discriminate|]); contradiction|]). contradiction.
  - cbn [In] in N. repeat (destruct N as [N|N]; [subst t; vm_compute; split; discriminate|]). contradiction.
Qed.
Lemma validate_counts_spec ps ss ly : zlen ps <= 7 -> zlen ss <= 3 ->
  is_ok (validate_counts (flat_pairs ps, ss) ly) = true <-> ly_coupled ly = zlen ps /\ ly_subs ly = zlen ps + zlen ss.
Proof.
  intros Hp Hs. unfold validate_counts. cbn [fst snd]. pose proof (zlen_nonneg ps). pose proof (zlen_nonneg ss).
  assert (zlen (flat_pairs ps) = 2 * zlen ps) as -> by (unfold zlen; rewrite flat_pairs_length; lia).
  unfold u32. change (2^32) with 4294967296. rewrite !(Z.mod_small _ 4294967296) by lia.
  replace (2 * zlen ps / 2) with (zlen ps) by lia.
  unfold veq, vcond, rthen, rbind. destruct (ly_coupled ly =? zlen ps) eqn:A; [|cbn [is_ok]; split; [discriminate|lia]].
  apply Z.eqb_eq in A. destruct (ly_subs ly =? zlen ss + zlen ps) eqn:B; cbn [is_ok].
  - apply Z.eqb_eq in B. split; [intros _; split; lia|reflexivity].
  - apply Z.eqb_neq in B. split; [discriminate|intros [Y Z]; exfalso; lia].
Qed.

(* ------------------------------------------------------------------ all layers *)
Definition gain_step (ly : layer) (g : list (label * Z)) (c : label) : list (label * Z) :=
  if gain_applies (ly_ogf ly) c then lab_put c (ly_gain ly) g else g.
Fixpoint gains_of (l : list layer) (gs : list (list (list label))) (g : list (label * Z)) : list (label * Z) :=
  match l, gs with
  | ly :: l', x :: gs' => gains_of l' gs' (if ly_og ly then fold_left (gain_step ly) (concat x) g else g)
  | _, _ => g
  end.
Lemma find_new (ids : list Z) (x : list (list label)) : NoDup ids -> (length x <= length ids)%nat ->
  flat_map (fun i => match m_find i (combine (firstn (length x) ids) x) with Some l => l | None => [] end) (firstn (length x) ids) = concat x.
Proof.
  revert ids; induction x as [|a x IH]; intros ids N L; [reflexivity|]. destruct ids as [|i ids]; cbn [length] in L; [lia|].
  cbn [length firstn combine flat_map m_find concat]. rewrite Z.eqb_refl. f_equal. inversion N as [|? ? N1 N2]; subst.
  rewrite <- (IH ids N2) by lia. rewrite !flat_map_concat_map. f_equal. apply map_ext_in. intros j Hj.
  replace (i =? j) with false; [reflexivity|]. symmetry. apply Z.eqb_neq. intro; subst j. apply N1.
  rewrite <- (firstn_skipn (length x) ids). apply in_app_iff. left. exact Hj.
Qed.
Lemma nodup_app_r {A} (a b : list A) : NoDup (a ++ b) -> NoDup b.
Proof. induction a as [|x a IH]; [exact id|]. cbn [app]. intro H. inversion H. tauto. Qed.
Lemma nodup_app_disj {A} (a b : list A) x : NoDup (a ++ b) -> In x a -> In x b -> False.
Proof.
  induction a as [|y a IH]; [intros _ []|]. cbn [app]. intros H [E|X] Y; inversion H as [|? ? N1 N2]; subst.
  - apply N1. apply in_app_iff. tauto.
  - exact (IH N2 X Y).
Qed.
Lemma in_firstn {A} (x : A) n l : In x (firstn n l) -> In x l.
Proof. intro H. rewrite <- (firstn_skipn n l). apply in_app_iff. left. exact H. Qed.
Lemma layer_gains_spec ly ids m x g : NoDup (map fst m ++ ids) -> (length x <= length ids)%nat ->
  layer_gains ly (firstn (length ids - length (skipn (length x) ids)) ids) (m ++ combine (firstn (length x) ids) x) g =
  if ly_og ly then fold_left (gain_step ly) (concat x) g else g.
Proof.
  intros N L. unfold layer_gains. destruct (ly_og ly); [|reflexivity]. rewrite skipn_length. replace (length ids - (length ids - length x))%nat with (length x) by lia.
  change (fun (g0 : list (label * Z)) (l : label) => if gain_applies (ly_ogf ly) l then lab_put l (ly_gain ly) g0 else g0) with (gain_step ly).
  f_equal. rewrite <- (find_new ids x (nodup_app_r _ _ N) L). rewrite !flat_map_concat_map. f_equal. apply map_ext_in. intros j Hj.
  rewrite m_find_app. replace (m_find j m) with (@None (list label)); [reflexivity|]. symmetry. apply m_find_none. intro X.
  apply in_firstn in Hj. exact (nodup_app_disj _ _ _ N X Hj).
Qed.
Lemma first_of_some t : first_of (Some t) = false. Proof. reflexivity. Qed.
Lemma ids_after (m : labmap) ids x : NoDup (map fst m ++ ids) -> (length x <= length ids)%nat ->
  NoDup (map fst (m ++ combine (firstn (length x) ids) x) ++ skipn (length x) ids).
Proof.
  intros N L. rewrite map_app, firstn_fst_combine, firstn_firstn, Nat.min_id, <- app_assoc, firstn_skipn. exact N.
Qed.
Lemma ok_unit (r : res unit) : is_ok r = true -> r = Ok tt. Proof. destruct r as [[]| | | |]; try discriminate. reflexivity. Qed.

Lemma layers_spec l : forall prev ids m g cs, prev_ok prev -> (forall ly, In ly l -> ly_layout ly <> 15) -> NoDup (map fst m ++ ids) ->
  (forall x, layers_data (first_of prev) (acc_of prev) ids l m g cs = Ok x ->
   exists gs, labelled prev l gs /\ (length (concat gs) <= length ids)%nat /\
     fst (fst x) = m ++ combine (firstn (length (concat gs)) ids) (concat gs) /\ snd (fst x) = gains_of l gs g /\
     exists ts, Forall2 (fun ly t => named (ly_layout ly) = Some t) l ts /\ snd x = cs ++ map chans_of ts) /\
  (forall gs, labelled prev l gs -> (length (concat gs) <= length ids)%nat -> exists x, layers_data (first_of prev) (acc_of prev) ids l m g cs = Ok x).
Proof.
  induction l as [|ly l IH]; intros prev ids m g cs P X N; split.
  - intros x E. cbn [layers_data] in E. injection E as <-. exists []. split; [constructor|]. cbn [concat length firstn combine fst snd gains_of]. split; [lia|].
    rewrite app_nil_r. split; [reflexivity|]. split; [reflexivity|]. exists []. split; [constructor|]. rewrite app_nil_r. reflexivity.
  - intros gs H _. inversion H; subst. eexists. reflexivity.
  - intros x E. cbn [layers_data] in E. destruct (named (ly_layout ly)) as [t|] eqn:Nm.
    2: { rewrite layer_labels_unnamed in E; [discriminate| |exact Nm]. apply X. left. reflexivity. }
    assert (is_named t) as T by (eexists; exact Nm). rewrite (layer_labels_named prev ly t P Nm) in E. destruct (growsb prev t) eqn:G; [|discriminate]. cbn [rbind fst snd] in E.
    destruct (small_groups prev t P T) as [Sp Ss]. set (ps := new_pairs prev t) in *. set (ss := new_singles prev t) in *. rewrite add_labels_spec in E by exact N.
    destruct (length ids <? _)%nat eqn:L; [discriminate|]. apply Nat.ltb_ge in L. rewrite <- substreams_length in L. cbn [rbind fst snd] in E.
    destruct (validate_counts (flat_pairs ps, ss) ly) as [[]| | | |] eqn:V; try discriminate. cbn [rthen rbind] in E.
    assert (is_ok (validate_counts (flat_pairs ps, ss) ly) = true) as V' by (rewrite V; reflexivity). apply (validate_counts_spec _ _ _ Sp Ss) in V' as [V1 V2].
    rewrite layer_gains_spec in E by assumption.
    destruct (IH (Some t) _ (m ++ combine (firstn (length (substreams ps ss)) ids) (substreams ps ss)) (if ly_og ly then fold_left (gain_step ly) (concat (substreams ps ss)) g else g) (cs ++ [chans_of t]) T
      (fun y Hy => X y (or_intror Hy)) (ids_after _ _ _ N L)) as [A _].
    destruct (A _ E) as (gs & Hg & Lg & E1 & E2 & ts & F & E3). exists (substreams ps ss :: gs). split.
    { apply Lab_layer with (t := t); try assumption. apply growsb_spec. exact G. }
    cbn [concat]. rewrite app_length. split; [rewrite skipn_length in Lg; lia|]. split.
    { rewrite E1, <- app_assoc. f_equal. rewrite <- app_length. apply combine_split. }
    split; [rewrite E2; reflexivity|]. exists (t :: ts). split; [constructor; assumption|]. rewrite E3, <- app_assoc. reflexivity.
  - intros gs H L. inversion H as [|? ? ? t gs' Nm G C1 C2 H']; subst. cbn [concat] in L. rewrite app_length in L.
    assert (is_named t) as T by (eexists; exact Nm). cbn [layers_data]. rewrite (layer_labels_named prev ly t P Nm). apply growsb_spec in G. rewrite G. cbn [rbind fst snd].
    destruct (small_groups prev t P T) as [Sp Ss]. set (ps := new_pairs prev t) in *. set (ss := new_singles prev t) in *. rewrite add_labels_spec by exact N.
    replace (length ids <? length ps + length ss)%nat with false by (symmetry; apply Nat.ltb_ge; rewrite <- substreams_length; lia). cbn [rbind fst snd].
    rewrite (ok_unit (validate_counts (flat_pairs ps, ss) ly)) by (apply validate_counts_spec; tauto). cbn [rthen rbind].
    apply (IH (Some t)) with (gs := gs'); [exact T|intros y Hy; apply X; right; exact Hy|apply ids_after; [exact N|lia]|exact H'|]. rewrite skipn_length. lia.
Qed.

(* What follows from [labelled] *)
Lemma labelled_length prev l gs : labelled prev l gs -> Z.of_nat (length (concat gs)) = total (map ly_subs l).
Proof.
  induction 1 as [|prev ly l t gs Nm G C1 C2 H IH]; [reflexivity|]. cbn [concat map]. change (total (ly_subs ly :: map ly_subs l)) with (ly_subs ly + total (map ly_subs l)).
  rewrite app_length, Nat2Z.inj_add, IH, substreams_length, C2. unfold zlen. lia.
Qed.
Lemma new_size prev t : prev_ok prev -> is_named t -> grows prev t ->
  2 * zlen (new_pairs prev t) + zlen (new_singles prev t) = size t - match prev with None => 0 | Some s => size s end.
Proof.
  intros P N G. apply growsb_spec in G. apply is_named_cases in N. destruct prev as [s|].
  - apply is_named_cases in P. cbn [In] in P, N.
    repeat (destruct P as [P|P]; [subst s; repeat (destruct N as [N|N]; [subst t; vm_compute in G |- *; congruence|]); contradiction|]). contradiction.
  - cbn [In] in N. repeat (destruct N as [N|N]; [subst t; vm_compute; reflexivity|]). contradiction.
Qed.
Lemma labelled_named prev l gs : labelled prev l gs -> forall k ly, nth_error l k = Some ly -> is_named (match named (ly_layout ly) with Some t => t | None => (0,0,0) end).
Proof. induction 1 as [|prev ly l t gs Nm G C1 C2 H IH]; intros [|k] x E; try discriminate; [injection E as <-; rewrite Nm; eexists; exact Nm|apply (IH k); exact E]. Qed.
Lemma labelled_count prev l gs : labelled prev l gs -> prev_ok prev -> forall k ly t, nth_error l k = Some ly -> named (ly_layout ly) = Some t ->
  zlen (concat (concat (firstn (S k) gs))) = size t - match prev with None => 0 | Some s => size s end.
Proof.
  induction 1 as [|prev ly l t gs Nm G C1 C2 H IH]; intros P k x u E U; [destruct k; discriminate|].
  cbn [firstn concat]. rewrite concat_app, substreams_concat, !zlen_app.
  assert (zlen (flat_pairs (new_pairs prev t)) = 2 * zlen (new_pairs prev t)) as -> by (unfold zlen; rewrite flat_pairs_length; lia).
  assert (is_named t) as T by (eexists; exact Nm). pose proof (new_size prev t P T G) as Sz. destruct k as [|k].
  - injection E as <-. rewrite Nm in U. injection U as <-. rewrite firstn_O. cbn [concat]. change (zlen (@nil label)) with 0. lia.
  - rewrite (IH T k x u E U). lia.
Qed.
(* The channels that may be present at a layout *)
Definition present (t : Z * Z * Z) : list label :=
  let '(x, y, z) := t in
  when (1 <=? x) [Mono] ++ when (2 <=? x) [L2; R2] ++ when (3 <=? x) [Centre; L3; R3] ++ when (5 <=? x) [L5; R5; Ls5; Rs5] ++
  when (7 <=? x) [L7; R7; Lss7; Rss7; Lrs7; Rrs7] ++ when (1 <=? y) [LFE] ++ when (2 <=? z) [Ltf3; Rtf3; Ltf2; Rtf2] ++ when (4 <=? z) [Ltf4; Rtf4; Ltb4; Rtb4].
Definition labinb (c : label) (l : list label) : bool := existsb (fun x => if label_eq_dec x c then true else false) l.
Lemma labinb_spec c l : labinb c l = true <-> In c l.
Proof.
  unfold labinb. rewrite existsb_exists. split; [intros (x & Hx & E); destruct (label_eq_dec x c); [subst; exact Hx|discriminate]|].
  intro H. exists c. split; [exact H|]. destruct (label_eq_dec c c); [reflexivity|congruence].
Qed.
Fixpoint lnodup (l : list label) : bool := match l with [] => true | x :: t => negb (labinb x t) && lnodup t end.
Lemma lnodup_spec l : lnodup l = true -> NoDup l.
Proof.
  induction l as [|x l IH]; cbn [lnodup]; intro H; [constructor|]. apply andb_true_iff in H as [A B]. constructor; [|exact (IH B)].
  intro X. apply labinb_spec in X. rewrite X in A. discriminate.
Qed.
Definition new_labels prev t := flat_pairs (new_pairs prev t) ++ new_singles prev t.
Definition fresh_ok (prev : option (Z * Z * Z)) (t : Z * Z * Z) : bool :=
  let n := new_labels prev t in
  lnodup n && forallb (fun c => labinb c (present t)) n &&
  match prev with None => true | Some s => forallb (fun c => negb (labinb c (present s))) n && forallb (fun c => labinb c (present t)) (present s) end.
Lemma fresh_all prev t : prev_ok prev -> is_named t -> growsb prev t = true -> fresh_ok prev t = true.
Proof.
  intros P N G. apply is_named_cases in N. destruct prev as [s|].
  - apply is_named_cases in P. cbn [In] in P, N.
    repeat (destruct P as [P|P]; [subst s; repeat (destruct N as [N|N]; [subst t; first [discriminate G|vm_compute; reflexivity]|]); contradiction|]). contradiction.
  - cbn [In] in N. repeat (destruct N as [N|N]; [subst t; vm_compute; reflexivity|]). contradiction.
Qed.
Lemma labelled_nodup prev l gs : labelled prev l gs -> prev_ok prev ->
  NoDup (concat (concat gs)) /\ match prev with None => True | Some s => forall c, In c (concat (concat gs)) -> ~ In c (present s) end.
Proof.
  induction 1 as [|prev ly l t gs Nm G C1 C2 H IH]; intro P.
  - cbn [concat]. split; [constructor|]. destruct prev; [|exact I]. intros c [].
  - assert (is_named t) as T by (eexists; exact Nm). destruct (IH T) as [N1 D1]. apply growsb_spec in G. pose proof (fresh_all prev t P T G) as F. unfold fresh_ok in F.
    cbn [concat]. rewrite concat_app, substreams_concat. change (flat_pairs (new_pairs prev t) ++ new_singles prev t) with (new_labels prev t). set (n := new_labels prev t) in *.
    apply andb_true_iff in F as [F F3]. apply andb_true_iff in F as [F1 F2]. apply lnodup_spec in F1. rewrite forallb_forall in F2.
    split.
    + clearbody n. clear - F1 F2 N1 D1. induction n as [|x n IHn]; [exact N1|]. cbn [app]. inversion F1 as [|? ? A B]; subst. constructor; [|apply IHn; [exact B|intros y Hy; apply F2; right; exact Hy]].
      intro X. apply in_app_iff in X as [X|X]; [tauto|]. apply (D1 x X). apply labinb_spec. apply F2. left. reflexivity.
    + destruct prev as [s|]; [|exact I]. apply andb_true_iff in F3 as [F3 F4]. rewrite forallb_forall in F3, F4. intros c X Y. apply in_app_iff in X as [X|X].
      * apply F3 in X. apply labinb_spec in Y. rewrite Y in X. discriminate.
      * apply (D1 c X). apply labinb_spec. apply F4. exact Y.
Qed.
Lemma lab_find_put c k v g : lab_find c (lab_put k v g) = if label_eq_dec k c then Some v else lab_find c g.
Proof.
  unfold lab_put. destruct (lab_find k g) as [w|] eqn:E.
  - revert w E; induction g as [|[i x] g IH]; intros w E; [discriminate|]. cbn [lab_find map fst] in *. destruct (label_eq_dec i k) as [A|A].
    + subst i. cbn [lab_find]. destruct (label_eq_dec k c) as [B|B]; [reflexivity|].
      clear - B. induction g as [|[j y] g IH]; [reflexivity|]. cbn [map fst lab_find]. destruct (label_eq_dec j k) as [B1|B1]; cbn [lab_find].
      * subst j. destruct (label_eq_dec k c); [|exact IH]. exfalso. congruence.
      * destruct (label_eq_dec j c); [reflexivity|exact IH].
    + cbn [lab_find]. rewrite (IH _ E). destruct (label_eq_dec i c) as [B|B]; [|reflexivity]. destruct (label_eq_dec k c); [congruence|reflexivity].
  - induction g as [|[i x] g IH]; cbn [app lab_find] in *; [reflexivity|]. destruct (label_eq_dec i k) as [A|A]; [discriminate|].
    rewrite (IH E). destruct (label_eq_dec i c) as [B|B]; [|reflexivity]. destruct (label_eq_dec k c); [congruence|reflexivity].
Qed.
Lemma gain_applies_bit f c : gain_applies f c = match gain_bit c with Some b => Z.testbit f b | None => false end.
Proof. destruct c; reflexivity. Qed.
Lemma gain_step_find ly g k c : lab_find c (gain_step ly g k) =
  if label_eq_dec k c then (if gain_applies (ly_ogf ly) k then Some (ly_gain ly) else lab_find c g) else lab_find c g.
Proof. unfold gain_step. destruct (gain_applies _ _); [apply lab_find_put|]. destruct (label_eq_dec k c); reflexivity. Qed.
Lemma gain_fold_find ly x : forall g c, ly_og ly = true ->
  lab_find c (fold_left (gain_step ly) x g) =
  if labinb c x then match layer_gain ly c with Some v => Some v | None => lab_find c g end else lab_find c g.
Proof.
  induction x as [|k x IH]; intros g c O; [reflexivity|]. cbn [fold_left]. rewrite IH by exact O. rewrite gain_step_find. unfold labinb. cbn [existsb].
  change (existsb (fun x0 : label => if label_eq_dec x0 c then true else false) x) with (labinb c x).
  unfold layer_gain. rewrite O. cbn [andb]. rewrite gain_applies_bit.
  destruct (label_eq_dec k c) as [A|A]; cbn [orb]; [|reflexivity]. subst k.
  destruct (gain_bit c) as [b|]; [destruct (Z.testbit _ b)|]; destruct (labinb c x); reflexivity.
Qed.
Lemma gains_other l : forall gs g c, ~ In c (concat (concat gs)) -> lab_find c (gains_of l gs g) = lab_find c g.
Proof.
  induction l as [|ly l IH]; intros [|x gs] g c H; cbn [gains_of]; try reflexivity. cbn [concat] in H. rewrite concat_app in H.
  rewrite IH by (intro X; apply H; apply in_app_iff; tauto). destruct (ly_og ly) eqn:O; [|reflexivity]. rewrite gain_fold_find by exact O.
  destruct (labinb c (concat x)) eqn:L; [|reflexivity]. apply labinb_spec in L. exfalso. apply H. apply in_app_iff. tauto.
Qed.
Lemma gains_in l : forall gs g, NoDup (concat (concat gs)) -> forall k ly x c, nth_error l k = Some ly -> nth_error gs k = Some x -> In c (concat x) ->
  lab_find c g = None -> lab_find c (gains_of l gs g) = layer_gain ly c.
Proof.
  induction l as [|a l IH]; intros gs g N k ly x c E1 E2 X G; [destruct k; discriminate|]. destruct gs as [|y gs]; [destruct k; discriminate|].
  cbn [concat] in N. rewrite concat_app in N. cbn [gains_of]. destruct k as [|k].
  - injection E1 as ->. injection E2 as ->. rewrite gains_other by (intro Y; exact (nodup_app_disj _ _ _ N X Y)).
    destruct (ly_og ly) eqn:O.
    + rewrite gain_fold_find by exact O. apply labinb_spec in X. rewrite X, G. destruct (layer_gain ly c); reflexivity.
    + rewrite G. unfold layer_gain. rewrite O. cbn [andb]. destruct (gain_bit c); reflexivity.
  - apply (IH gs _ (nodup_app_r _ _ N) k ly x c E1 E2 X). assert (~ In c (concat y)) as D.
    { intro Y. cbn [nth_error] in E2. apply nth_error_In in E2. apply in_concat in X as (z & Z1 & Z2).
      apply (nodup_app_disj _ _ c N Y). apply in_concat. exists z. split; [|exact Z2]. apply in_concat. exists x. tauto. }
    destruct (ly_og a) eqn:O; [|exact G]. rewrite gain_fold_find by exact O. destruct (labinb c (concat y)) eqn:L; [apply labinb_spec in L; tauto|exact G].
Qed.

(* ------------------------------------------------------------------ C46, channel-based elements *)
Lemma generate_scalable codecs a r l d : ae_type a = 0 -> ae_conf a = ACScal r l -> generate_ae codecs a = Ok d ->
  exists c x, m_find (ae_codec a) codecs = Some c /\ finalize_scalable (ae_subs a) l = Ok x /\ d = mkAed a c (fst (fst x)) (snd (fst x)) (snd x).
Proof.
  intros T C E. unfold generate_ae in E. rewrite T, C in E. change (0 =? 0) with true in E. cbv iota in E. destruct (finalize_scalable (ae_subs a) l) as [x| | | |] eqn:F; try discriminate. cbn [rbind] in E.
  destruct (m_find (ae_codec a) codecs) as [c|] eqn:M; [|discriminate]. injection E as <-. exists c, x. tauto.
Qed.
Lemma valid_scalable a r l : aelem_valid a -> ae_type a = 0 -> ae_conf a = ACScal r l ->
  NoDup (ae_subs a) /\ 1 <= zlen l <= 6 /\ total (map ly_subs l) = zlen (ae_subs a) /\ firstn (Z.to_nat (num_layers l)) l = l.
Proof.
  intros (N & _ & _ & _ & V & _) T C. destruct (V T) as (r' & l' & C' & L & S' & _). rewrite C in C'. injection C' as <- <-. split; [exact N|]. split; [exact L|]. split; [exact S'|].
  unfold num_layers, u8. rewrite Z.mod_small by (change (2^8) with 256; lia). unfold zlen. rewrite Nat2Z.id. apply firstn_all.
Qed.

(* Exactly which channel-based elements are accepted, and what they carry *)
Theorem C46_channel_labels : forall codecs a r l d,
  aelem_valid a -> ae_type a = 0 -> ae_conf a = ACScal r l -> (forall ly, In ly l -> ly_layout ly <> 15) -> generate_ae codecs a = Ok d ->
  ad_obu d = a /\ m_find (ae_codec a) codecs = Some (ad_codec d) /\
  exists gs, labelled None l gs /\ length (concat gs) = length (ae_subs a) /\ ad_labels d = combine (ae_subs a) (concat gs) /\
    (forall k ly t, nth_error l k = Some ly -> named (ly_layout ly) = Some t ->
       zlen (concat (concat (firstn (S k) gs))) = size t /\ nth_error (ad_chans d) k = Some (let '(x, y, z) := t in mkCh x y z 0)) /\
    length (ad_chans d) = length l /\
    NoDup (concat (concat gs)) /\
    (forall k ly x c, nth_error l k = Some ly -> nth_error gs k = Some x -> In c (concat x) -> lab_find c (ad_gains d) = layer_gain ly c) /\
    (forall c, ~ In c (concat (concat gs)) -> lab_find c (ad_gains d) = None).
Proof.
  intros codecs a r l d V T C X E. destruct (generate_scalable _ _ _ _ _ T C E) as (c & x & M & F & ->). cbn [ad_obu ad_codec ad_labels ad_gains ad_chans].
  split; [reflexivity|]. split; [exact M|]. destruct (valid_scalable a r l V T C) as (N & L & S' & Fl).
  unfold finalize_scalable in F. rewrite Fl in F. destruct (vunique _) as [[]| | | |]; try discriminate. cbn [rthen rbind] in F.
  destruct (layers_data _ _ _ _ _ _ _) as [y| | | |] eqn:D; try discriminate. cbn [rbind] in F.
  destruct (veq _ _) as [[]| | | |]; try discriminate. cbn [rthen rbind] in F. injection F as ->.
  destruct (layers_spec l None (ae_subs a) [] [] [] I X N) as [A _]. destruct (A _ D) as (gs & Hg & Lg & E1 & E2 & ts & Ft & E3).
  pose proof (labelled_length _ _ _ Hg) as Ll. rewrite S' in Ll. assert (length (concat gs) = length (ae_subs a)) as Le by (unfold zlen in Ll; lia).
  exists gs. split; [exact Hg|]. split; [exact Le|]. split; [rewrite E1, Le, firstn_all; reflexivity|].
  destruct (labelled_nodup _ _ _ Hg I) as [Nd _]. split.
  { intros k ly t Ek Et. split; [rewrite (labelled_count _ _ _ Hg I k ly t Ek Et); lia|]. rewrite E3. cbn [app].
    clear - Ft Ek Et. revert k Ek. induction Ft as [|y u l ts Hy Ht IH]; intros [|k] Ek; try discriminate; cbn [map nth_error] in *; [|apply IH; exact Ek].
    injection Ek as ->. rewrite Hy in Et. injection Et as ->. reflexivity. }
  split; [rewrite E3; cbn [app]; rewrite map_length; symmetry; exact (forall2_length _ _ _ Ft)|]. split; [exact Nd|]. split.
  - intros k ly z lb Ek Ez In1. rewrite E2. apply (gains_in l gs [] Nd k ly z lb Ek Ez In1). reflexivity.
  - intros lb Nin. rewrite E2. apply gains_other. exact Nin.
Qed.
Theorem C46_channel_accepted : forall codecs a r l,
  aelem_valid a -> ae_type a = 0 -> ae_conf a = ACScal r l -> (forall ly, In ly l -> ly_layout ly <> 15) ->
  ((exists d, generate_ae codecs a = Ok d) <-> m_find (ae_codec a) codecs <> None /\ exists gs, labelled None l gs).
Proof.
  intros codecs a r l V T C X. split.
  - intros [d E]. destruct (C46_channel_labels _ _ _ _ _ V T C X E) as (_ & M & gs & H & _). split; [congruence|eauto].
  - intros [M [gs H]]. destruct (valid_scalable a r l V T C) as (N & L & S' & Fl). pose proof (labelled_length _ _ _ H) as Ll. rewrite S' in Ll. unfold zlen in Ll.
    destruct (layers_spec l None (ae_subs a) [] [] [] I X N) as [A B]. destruct (B gs H) as [x D]; [lia|]. destruct (A _ D) as (gs' & H' & L' & E1 & _).
    pose proof (labelled_length _ _ _ H') as Ll'. rewrite S' in Ll'. unfold zlen in Ll'.
    unfold generate_ae. rewrite T, C. change (0 =? 0) with true. cbv iota. unfold finalize_scalable. rewrite Fl. cbn [first_of acc_of] in D. rewrite D.
    assert (vunique (ae_subs a) = Ok tt) as -> by (unfold vunique; apply unique_NoDup in N; rewrite N; reflexivity). cbn [rthen rbind].
    assert (veq (zlen (ae_subs a)) (zlen (fst (fst x))) = Ok tt) as ->.
    { unfold veq. replace (_ =? _) with true; [reflexivity|]. symmetry. apply Z.eqb_eq. rewrite E1. cbn [app]. unfold zlen. rewrite combine_length, firstn_length. lia. }
    cbn [rthen rbind]. destruct (m_find (ae_codec a) codecs) as [c|]; [|congruence]. eexists. reflexivity.
Qed.

(* ------------------------------------------------------------------ C46, ambisonics *)
(* SPEC: the ambisonics channel numbers mapped to substream index i *)
Definition mapped_to (mapping : list Z) (i : nat) : list label :=
  map (fun n => LA (Z.of_nat n)) (filter (fun n => nth n mapping 255 =? Z.of_nat i) (seq 0 (length mapping))).
Definition get (k : Z) (m : labmap) : list label := match m_find k m with Some l => l | None => [] end.
Lemma m_find_set {V} k j (v : V) m : m_find k m <> None -> m_find j (m_set k v m) = if k =? j then Some v else m_find j m.
Proof.
  induction m as [|[i x] m IH]; intro H; [contradiction H; reflexivity|]. cbn [m_find m_set] in *. destruct (i =? k) eqn:E; cbn [m_find].
  - assert (i = k) by lia. subst i. destruct (k =? j); reflexivity.
  - destruct (i =? j) eqn:E2; [replace (k =? j) with false by lia; reflexivity|exact (IH H)].
Qed.
Lemma m_app_find k l m j : m_find j (m_app k l m) = if k =? j then Some (get k m ++ l) else m_find j m.
Proof.
  unfold m_app, get. destruct (m_find k m) as [x|] eqn:E.
  - rewrite m_find_set by congruence. reflexivity.
  - rewrite m_find_app. cbn [m_find app]. destruct (m_find j m) eqn:F; destruct (k =? j) eqn:G; try reflexivity. assert (k = j) by lia. subst. congruence.
Qed.
Lemma m_set_keys {V} k (v : V) m : map fst (m_set k v m) = map fst m.
Proof. induction m as [|[i x] m IH]; [reflexivity|]. cbn [m_set]. destruct (i =? k); cbn [map fst]; [reflexivity|]. rewrite IH. reflexivity. Qed.
Lemma m_app_keys k l m : NoDup (map fst m) -> NoDup (map fst (m_app k l m)) /\ (forall j, In j (map fst (m_app k l m)) <-> j = k \/ In j (map fst m)).
Proof.
  intro N. unfold m_app. destruct (m_find k m) as [x|] eqn:E.
  - rewrite m_set_keys. split; [exact N|]. intro j. split; [tauto|]. intros [X|X]; [|exact X]. subst j.
    destruct (in_dec Z.eq_dec k (map fst m)) as [Y|Y]; [exact Y|]. apply m_find_none in Y. congruence.
  - apply m_find_none in E. rewrite map_app. cbn [map fst]. split.
    + apply NoDup_rev in N. rewrite <- (rev_involutive (map fst m ++ [k])). apply NoDup_rev. rewrite rev_app_distr. cbn [rev app]. constructor; [|exact N].
      intro X. apply in_rev in X. contradiction.
    + intro j. rewrite in_app_iff. cbn [In]. split; [intros [X|[X|[]]]; [right; exact X|left; congruence]|intros [X|X]; [right; left; congruence|left; exact X]].
Qed.
Lemma ambi_label_ok n : 0 <= n -> ambi_label n = if n <=? 24 then Ok (LA n) else Err NotFound.
Proof. intro H. unfold ambi_label. replace (0 <=? n) with true by lia. reflexivity. Qed.
Definition mapped_from (t : list Z) (acn : Z) (i : nat) : list label :=
  map (fun n => LA (acn + Z.of_nat n)) (filter (fun n => nth n t 255 =? Z.of_nat i) (seq 0 (length t))).
Lemma mapped_from_cons x t acn i :
  mapped_from (x :: t) acn i = (if x =? Z.of_nat i then [LA acn] else []) ++ mapped_from t (acn + 1) i.
Proof.
  unfold mapped_from. cbn [length seq filter]. change (nth 0 (x :: t) 255) with x. rewrite <- seq_shift.
  assert (forall l, map (fun n => LA (acn + Z.of_nat n)) (filter (fun n => nth n (x :: t) 255 =? Z.of_nat i) (map S l)) =
                    map (fun n => LA (acn + 1 + Z.of_nat n)) (filter (fun n => nth n t 255 =? Z.of_nat i) l)) as A.
  { induction l as [|n l IH]; [reflexivity|]. cbn [map filter]. change (nth (S n) (x :: t) 255) with (nth n t 255). destruct (nth n t 255 =? Z.of_nat i); [|exact IH]. cbn [map]. rewrite IH. f_equal. f_equal. lia. }
  destruct (x =? Z.of_nat i); cbn [map app]; rewrite A; [|reflexivity]. f_equal. f_equal. change (Z.of_nat 0) with 0. lia.
Qed.
Lemma mono_spec ids t : forall acn m, NoDup ids -> 0 <= acn -> NoDup (map fst m) -> (forall i, In i t -> i = 255 \/ 0 <= i < zlen ids) ->
  match mono_labels ids t acn m with
  | Ok m' => NoDup (map fst m') /\ (forall k, In k (map fst m') -> In k (map fst m) \/ In k ids) /\
             (forall i s, nth_error ids i = Some s -> (i < 255)%nat -> get s m' = get s m ++ mapped_from t acn i) /\
             (forall n i, nth_error t n = Some i -> i <> 255 -> acn + Z.of_nat n <= 24)
  | Err _ => exists n i, nth_error t n = Some i /\ i <> 255 /\ 24 < acn + Z.of_nat n
  | _ => False
  end.
Proof.
  induction t as [|x t IH]; intros acn m N Ha Hm V; cbn [mono_labels].
  - split; [exact Hm|]. split; [tauto|]. split; [intros; unfold mapped_from; cbn [length seq filter map]; rewrite app_nil_r; reflexivity|intros [|n] i; discriminate].
  - assert (forall i, In i t -> i = 255 \/ 0 <= i < zlen ids) as V' by (intros i Hi; apply V; right; exact Hi). destruct (x =? 255) eqn:E255.
    + specialize (IH (acn + 1) m N ltac:(lia) Hm V'). destruct (mono_labels ids t (acn + 1) m) as [m'| | | |].
      * destruct IH as (A & B & C & D). split; [exact A|]. split; [exact B|]. split.
        { intros i s Hi Li. rewrite (C i s Hi Li), mapped_from_cons. replace (x =? Z.of_nat i) with false by lia. reflexivity. }
        intros [|n] i Hn Hi; cbn [nth_error] in Hn; [injection Hn as ->; lia|]. pose proof (D n i Hn Hi). lia.
      * destruct IH as (n & i & A & B & C). exists (S n), i. cbn [nth_error]. split; [exact A|]. split; [exact B|lia].
      * exact IH.
      * exact IH.
      * exact IH.
    + destruct (V x (or_introl eq_refl)) as [X|X]; [lia|]. destruct (nth_error ids (Z.to_nat x)) as [s|] eqn:Es.
      2: { apply nth_error_None in Es. unfold zlen in X. lia. }
      rewrite ambi_label_ok by exact Ha. destruct (acn <=? 24) eqn:L; cbn [rbind].
      2: { exists O, x. cbn [nth_error]. split; [reflexivity|lia]. }
      destruct (m_app_keys s [LA acn] m Hm) as [K1 K2]. specialize (IH (acn + 1) (m_app s [LA acn] m) N ltac:(lia) K1 V'). destruct (mono_labels ids t (acn + 1) _) as [m'| | | |].
      * destruct IH as (A & B & C & D). split; [exact A|]. split.
        { intros k Hk. destruct (B k Hk) as [Y|Y]; [|tauto]. apply K2 in Y as [Y|Y]; [|tauto]. subst k. right. apply nth_error_In in Es. exact Es. }
        split.
        { intros i s' Hi Li. rewrite (C i s' Hi Li), mapped_from_cons. unfold get at 1. rewrite m_app_find. destruct (s =? s') eqn:Q.
          - assert (s = s') by lia. subst s'. assert (i = Z.to_nat x) as ->.
            { apply (proj1 (NoDup_nth_error ids) N); [apply nth_error_Some; congruence|congruence]. }
            rewrite Z2Nat.id by lia. rewrite Z.eqb_refl. rewrite <- app_assoc. reflexivity.
          - replace (x =? Z.of_nat i) with false; [reflexivity|]. symmetry. apply Z.eqb_neq. intro Y. subst x. rewrite Nat2Z.id in Es. rewrite Hi in Es. injection Es as ->. lia. }
        intros [|n] i Hn Hi; cbn [nth_error] in Hn; [injection Hn as ->; lia|]. pose proof (D n i Hn Hi). lia.
      * destruct IH as (n & i & A & B & C). exists (S n), i. cbn [nth_error]. split; [exact A|]. split; [exact B|lia].
      * exact IH.
      * exact IH.
      * exact IH.
Qed.
Lemma generate_ambi codecs a am : ae_type a = 1 -> ae_conf a = ACAmbi am ->
  generate_ae codecs a = rbind (finalize_ambi (ae_subs a) am) (fun m => match m_find (ae_codec a) codecs with None => Err InvalidArgument | Some c => Ok (mkAed a c m [] []) end).
Proof. intros T C. unfold generate_ae. rewrite T, C. change (1 =? 0) with false. change (1 =? 1) with true. cbv iota. destruct (finalize_ambi _ _); reflexivity. Qed.
Lemma mapped_ne m i : In (Z.of_nat i) m -> (i < 255)%nat -> mapped_to m i <> [].
Proof.
  intros H L E. apply In_nth_error in H as [n H]. assert (In n (filter (fun n => nth n m 255 =? Z.of_nat i) (seq 0 (length m)))) as X.
  { apply filter_In. split; [apply in_seq; assert (n < length m)%nat by (apply nth_error_Some; congruence); lia|]. rewrite (nth_error_nth _ _ _ H). lia. }
  unfold mapped_to in E. destruct (filter _ _); [destruct X|discriminate].
Qed.
Theorem C46_mono_labels : forall codecs a s m,
  aelem_valid a -> ae_type a = 1 -> ae_conf a = ACAmbi (AMono s m) ->
  ((exists d, generate_ae codecs a = Ok d) <->
   m_find (ae_codec a) codecs <> None /\ forall n i, nth_error m n = Some i -> i <> 255 -> Z.of_nat n <= 24) /\
  (forall d, generate_ae codecs a = Ok d ->
     ad_obu d = a /\ m_find (ae_codec a) codecs = Some (ad_codec d) /\ ad_gains d = [] /\ ad_chans d = [] /\
     NoDup (map fst (ad_labels d)) /\ (forall k, In k (map fst (ad_labels d)) <-> In k (ae_subs a)) /\
     forall i id, nth_error (ae_subs a) i = Some id -> m_find id (ad_labels d) = Some (mapped_to m i) /\ mapped_to m i <> []).
Proof.
  intros codecs a s m V T C. destruct V as (N & _ & _ & _ & _ & V & _). destruct (V T) as (am & C' & Av). rewrite C in C'. injection C' as <-. destruct Av as (Sq & Es & Rs & Hi & Ha).
  rewrite (generate_ambi _ _ _ T C). cbn [finalize_ambi].
  pose proof (mono_spec (ae_subs a) m 0 [] N ltac:(lia) (NoDup_nil _) ltac:(rewrite <- Es; exact Hi)) as M.
  assert (zlen m <= 225) as Lm by (destruct Sq as (k & Hk & ->); nia).
  split.
  - destruct (mono_labels (ae_subs a) m 0 []) as [m'| | | |]; cbn [rbind]; try contradiction.
    + destruct M as (_ & _ & _ & D). destruct (m_find (ae_codec a) codecs) as [c|]; split.
      * intros _. split; [discriminate|]. intros n i Hn X. pose proof (D n i Hn X). lia.
      * intros _. eexists. reflexivity.
      * intros [d X]. discriminate.
      * intros [X _]. congruence.
    + destruct M as (n & i & A & B & D). split; [intros [d X]; discriminate|]. intros [_ X]. specialize (X n i A B). lia.
  - intros d E. destruct (mono_labels (ae_subs a) m 0 []) as [m'| | | |]; cbn [rbind] in E; try discriminate. destruct M as (A & B & D & _).
    destruct (m_find (ae_codec a) codecs) as [c|]; [|discriminate]. injection E as <-. cbn [ad_obu ad_codec ad_labels ad_gains ad_chans].
    do 4 (split; [reflexivity|]). split; [exact A|].
    assert (forall i id, nth_error (ae_subs a) i = Some id -> m_find id m' = Some (mapped_to m i) /\ mapped_to m i <> []) as G.
    { intros i id Hn. assert (i < length (ae_subs a))%nat as Li by (apply nth_error_Some; congruence). unfold zlen in *.
      assert (mapped_to m i <> []) as Ne by (apply mapped_ne; [apply Ha; lia|lia]). split; [|exact Ne].
      pose proof (D i id Hn ltac:(lia)) as Gd. unfold get in Gd. cbn [m_find app] in Gd. change (mapped_from m 0 i) with (mapped_to m i) in Gd.
      destruct (m_find id m'); [rewrite Gd; reflexivity|congruence]. }
    split; [|exact G]. intro k. split; [intro X; destruct (B k X) as [[]|Y]; exact Y|]. intro X. apply In_nth_error in X as [n Hn]. destruct (G n k Hn) as [F _].
    destruct (in_dec Z.eq_dec k (map fst m')) as [Y|Y]; [exact Y|]. apply m_find_none in Y. congruence.
Qed.

(* SPEC: c coupled substreams with two channels each, then one channel each, numbered in order *)
Definition projected (s c : nat) : list (list label) :=
  map (fun i => if (i <? c)%nat then [LA (2 * Z.of_nat i); LA (2 * Z.of_nat i + 1)] else [LA (Z.of_nat (c + i))]) (seq 0 s).
Definition lastl (c n : Z) : Z := if n <=? c then 2 * n - 1 else c + n - 1.
Lemma proj_spec c ids : forall i m, NoDup (map fst m ++ ids) -> 0 <= c ->
  proj_labels c ids (Z.of_nat i) m =
  if (zlen ids =? 0) || (lastl c (Z.of_nat i + zlen ids) <=? 24)
  then Ok (m ++ combine ids (map (fun i => if Z.of_nat i <? c then [LA (2 * Z.of_nat i); LA (2 * Z.of_nat i + 1)] else [LA (c + Z.of_nat i)]) (seq i (length ids))))
  else Err NotFound.
Proof.
  induction ids as [|s ids IH]; intros i m N Hc.
  - change (zlen (@nil Z) =? 0) with true. cbn [orb proj_labels length seq map combine]. rewrite app_nil_r. reflexivity.
  - pose proof (nodup_fresh _ _ _ N) as F. assert (forall l, NoDup (map fst (m ++ [(s, l)]) ++ ids)) as N' by (intro l; rewrite map_app; cbn [map fst]; apply nodup_shift; exact N).
    pose proof (zlen_nonneg ids). assert (zlen (s :: ids) = zlen ids + 1) as Ls by (unfold zlen; cbn [length]; lia). rewrite Ls. replace (zlen ids + 1 =? 0) with false by lia. cbn [orb].
    replace (Z.of_nat i + (zlen ids + 1)) with (Z.of_nat (S i) + zlen ids) by lia. set (n := Z.of_nat (S i) + zlen ids) in *.
    cbn [proj_labels length seq map combine]. rewrite !ambi_label_ok by lia. replace (Z.of_nat i + 1) with (Z.of_nat (S i)) by lia. destruct (Z.of_nat i <? c) eqn:E.
    + assert (2 * Z.of_nat i + 1 <= lastl c n) as L1 by (unfold lastl, n; destruct (_ <=? c) eqn:W; lia).
      assert (zlen ids = 0 -> lastl c n = 2 * Z.of_nat i + 1) as L0 by (intro Z0; unfold lastl, n; rewrite Z0; destruct (_ <=? c) eqn:W; lia).
      destruct (2 * Z.of_nat i <=? 24) eqn:A; cbn [rbind]; [|replace (lastl c n <=? 24) with false by lia; reflexivity].
      destruct (2 * Z.of_nat i + 1 <=? 24) eqn:B; cbn [rbind]; [|replace (lastl c n <=? 24) with false by lia; reflexivity].
      rewrite m_app_fresh by exact F. rewrite (IH (S i) _ (N' _) Hc). fold n. rewrite <- app_assoc.
      replace ((zlen ids =? 0) || (lastl c n <=? 24)) with (lastl c n <=? 24); [reflexivity|]. destruct (zlen ids =? 0) eqn:Z0; cbn [orb]; [|reflexivity]. rewrite L0 by lia. exact B.
    + assert (c + Z.of_nat i <= lastl c n) as L1 by (unfold lastl, n; destruct (_ <=? c) eqn:W; lia).
      assert (zlen ids = 0 -> lastl c n = c + Z.of_nat i) as L0 by (intro Z0; unfold lastl, n; rewrite Z0; destruct (_ <=? c) eqn:W; lia).
      destruct (c + Z.of_nat i <=? 24) eqn:A; cbn [rbind]; [|replace (lastl c n <=? 24) with false by lia; reflexivity].
      rewrite m_app_fresh by exact F. rewrite (IH (S i) _ (N' _) Hc). fold n. rewrite <- app_assoc.
      replace ((zlen ids =? 0) || (lastl c n <=? 24)) with (lastl c n <=? 24); [reflexivity|]. destruct (zlen ids =? 0) eqn:Z0; cbn [orb]; [|reflexivity]. rewrite L0 by lia. exact A.
Qed.
Lemma projected_concat s c : (c <= s)%nat -> concat (projected s c) = map (fun n => LA (Z.of_nat n)) (seq 0 (s + c)).
Proof.
  intro H. unfold projected. replace s with (c + (s - c))%nat by lia. set (r := (s - c)%nat). clearbody r. clear H s. rewrite seq_app, map_app, concat_app.
  replace (c + r + c)%nat with (c + c + r)%nat by lia. rewrite (seq_app (c + c)), map_app. f_equal.
  - assert (forall k, (k <= c)%nat -> concat (map (fun i => if (i <? c)%nat then [LA (2 * Z.of_nat i); LA (2 * Z.of_nat i + 1)] else [LA (Z.of_nat (c + i))]) (seq 0 k)) = map (fun n => LA (Z.of_nat n)) (seq 0 (k + k))) as A.
    { induction k as [|k IH]; intro Hk; [reflexivity|]. rewrite seq_S, map_app, concat_app, (IH ltac:(lia)). cbn [map concat Nat.add app].
      replace (k <? c)%nat with true by (symmetry; apply Nat.ltb_lt; lia). replace (k + S k)%nat with (S (k + k)) by lia. rewrite 2 seq_S, !map_app, <- app_assoc. cbn [map app Nat.add].
      repeat f_equal; lia. }
    apply A. lia.
  - cbn [Nat.add]. assert (forall n k, (c <= k)%nat -> concat (map (fun i => if (i <? c)%nat then [LA (2 * Z.of_nat i); LA (2 * Z.of_nat i + 1)] else [LA (Z.of_nat (c + i))]) (seq k n)) = map (fun n => LA (Z.of_nat n)) (seq (c + k) n)) as A.
    { induction n as [|n IH]; intros k Hk; [reflexivity|]. cbn [seq map concat]. replace (k <? c)%nat with false by (symmetry; apply Nat.ltb_ge; lia). cbn [app]. rewrite IH by lia.
      replace (c + S k)%nat with (S (c + k)) by lia. reflexivity. }
    apply A. lia.
Qed.
Theorem C46_projection_labels : forall codecs a o s c mat,
  aelem_valid a -> ae_type a = 1 -> ae_conf a = ACAmbi (AProj o s c mat) ->
  ((exists d, generate_ae codecs a = Ok d) <-> m_find (ae_codec a) codecs <> None /\ s + c <= 25) /\
  (forall d, generate_ae codecs a = Ok d ->
     ad_obu d = a /\ m_find (ae_codec a) codecs = Some (ad_codec d) /\ ad_gains d = [] /\ ad_chans d = [] /\
     ad_labels d = combine (ae_subs a) (projected (length (ae_subs a)) (Z.to_nat c)) /\
     concat (projected (length (ae_subs a)) (Z.to_nat c)) = map (fun n => LA (Z.of_nat n)) (seq 0 (Z.to_nat (s + c)))).
Proof.
  intros codecs a o s c mat V T C. destruct V as (N & _ & _ & _ & _ & V & _). destruct (V T) as (am & C' & Av). rewrite C in C'. injection C' as <-. destruct Av as (Sq & Es & Rs & Rt & _).
  rewrite (generate_ambi _ _ _ T C). cbn [finalize_ambi]. assert (o <= 225) as Lo by (destruct Sq as (k & Hk & ->); nia).
  assert (veq (u32 (zlen (ae_subs a))) s = Ok tt) as ->.
  { unfold veq, u32. change (2^32) with 4294967296. rewrite Z.mod_small by lia. replace (_ =? _) with true by lia. reflexivity. }
  cbn [rthen rbind]. pose proof (proj_spec c (ae_subs a) 0 [] N ltac:(lia)) as P. change (Z.of_nat 0) with 0 in P. rewrite <- Es in P.
  replace ((s =? 0) || (lastl c (0 + s) <=? 24)) with (s + c <=? 25) in P by (unfold lastl; destruct (0 + s <=? c) eqn:W; lia).
  split.
  - destruct (s + c <=? 25) eqn:L; rewrite P; cbn [rbind].
    + destruct (m_find (ae_codec a) codecs); split; [intros _; split; [discriminate|lia]|intros _; eexists; reflexivity|intros [d X]; discriminate|intros [X _]; congruence].
    + split; [intros [d X]; discriminate|lia].
  - intros d E. destruct (s + c <=? 25) eqn:L; rewrite P in E; cbn [rbind] in E; [|discriminate]. destruct (m_find (ae_codec a) codecs) as [cd|]; [|discriminate]. injection E as <-.
    cbn [ad_obu ad_codec ad_labels ad_gains ad_chans app]. do 4 (split; [reflexivity|]). unfold zlen in *. split.
    + f_equal. unfold projected. apply map_ext_in. intros i Hi. apply in_seq in Hi. destruct (Z.of_nat i <? c) eqn:A.
      * replace (i <? Z.to_nat c)%nat with true by (symmetry; apply Nat.ltb_lt; lia). reflexivity.
      * replace (i <? Z.to_nat c)%nat with false by (symmetry; apply Nat.ltb_ge; lia). do 2 f_equal. lia.
    + rewrite projected_concat by lia. f_equal. f_equal. lia.
Qed.

(* ------------------------------------------------------------------ C46, expanded loudspeaker layouts *)
(* SPEC (audio_element.h:94-121): 7.1.4, 5.1.4, 9.1.6, 10.2.9.3 and 7.1.5.4, and which channels of them an expanded layout has, in order *)
Definition expanded_pairs (e : Z) : list (label * label) :=
  nth (Z.to_nat e)
    [[]; [(Ls5, Rs5)]; [(Lss7, Rss7)]; [(Lrs7, Rrs7)]; [(Ltf4, Rtf4)]; [(Ltb4, Rtb4)]; [(Ltf4, Rtf4); (Ltb4, Rtb4)]; [(L7, R7)];
     [(FLc, FRc); (FL, FR); (SiL, SiR); (BL, BR); (TpFL, TpFR); (TpSiL, TpSiR); (TpBL, TpBR)]; [(FL, FR)]; [(SiL, SiR)]; [(TpSiL, TpSiR)];
     [(TpFL, TpFR); (TpSiL, TpSiR); (TpBL, TpBR)];
     [(FLc, FRc); (FL, FR); (SiL, SiR); (BL, BR); (TpFL, TpFR); (TpSiL, TpSiR); (TpBL, TpBR); (BtFL, BtFR)]; []; [(BtFL, BtFR)];
     [(L7, R7); (Lss7, Rss7); (Lrs7, Rrs7); (Ltf4, Rtf4); (Ltb4, Rtb4); (BtFL, BtFR); (BtBL, BtBR)]; [(BtFL, BtFR); (BtBL, BtBR)]; [];
     [(Ltf4, Rtf4); (Ltb4, Rtb4)]] [].
Definition expanded_singles (e : Z) : list label :=
  nth (Z.to_nat e)
    [[LFE]; []; []; []; []; []; []; [Centre]; [FC; LFE]; []; []; []; []; [FC; BC; TpFC; TpC; TpBC; BtFC; LFE; LFE2]; [LFE; LFE2]; [BtFC];
     [Centre; TpC; LFE]; []; [TpC]; [TpC]] [].
Definition expanded_size (e : Z) : Z := nth (Z.to_nat e) [1; 2; 2; 2; 2; 2; 4; 3; 16; 2; 2; 2; 6; 24; 2; 3; 17; 4; 1; 5] 0.
Lemma expanded_cases e : 0 <= e <= 19 -> In e (map Z.of_nat (seq 0 20)).
Proof. intro H. apply in_map_iff. exists (Z.to_nat e). split; [lia|]. apply in_seq. lia. Qed.
Definition expanded_check (e : Z) : bool :=
  match expanded_labels e with
  | Ok (c, (p, s)) =>
      lnodup (flat_pairs (expanded_pairs e) ++ expanded_singles e) && (zlen (flat_pairs (expanded_pairs e) ++ expanded_singles e) =? expanded_size e) &&
      (c_surround c + c_lfe c + c_height c + c_bottom c =? expanded_size e) && (zlen (expanded_pairs e) <=? 8) && (zlen (expanded_singles e) <=? 8) &&
      (if list_eq_dec label_eq_dec p (flat_pairs (expanded_pairs e)) then true else false) && (if list_eq_dec label_eq_dec s (expanded_singles e) then true else false)
  | _ => false
  end.
Lemma expanded_all : forallb expanded_check (map Z.of_nat (seq 0 20)) = true. Proof. vm_compute. reflexivity. Qed.
Lemma validate_counts_spec' ps ss ly : zlen ps <= 8 -> zlen ss <= 8 ->
  is_ok (validate_counts (flat_pairs ps, ss) ly) = true <-> ly_coupled ly = zlen ps /\ ly_subs ly = zlen ps + zlen ss.
Proof.
  intros Hp Hs. unfold validate_counts. cbn [fst snd]. pose proof (zlen_nonneg ps). pose proof (zlen_nonneg ss).
  assert (zlen (flat_pairs ps) = 2 * zlen ps) as -> by (unfold zlen; rewrite flat_pairs_length; lia).
  unfold u32. change (2^32) with 4294967296. rewrite !(Z.mod_small _ 4294967296) by lia.
  replace (2 * zlen ps / 2) with (zlen ps) by lia.
  unfold veq, vcond, rthen, rbind. destruct (ly_coupled ly =? zlen ps) eqn:A; [|cbn [is_ok]; split; [discriminate|lia]].
  apply Z.eqb_eq in A. destruct (ly_subs ly =? zlen ss + zlen ps) eqn:B; cbn [is_ok].
  - apply Z.eqb_eq in B. split; [intros _; split; lia|reflexivity].
  - apply Z.eqb_neq in B. split; [discriminate|intros [Y Z]; exfalso; lia].
Qed.
Theorem C46_expanded_labels : forall codecs a r ly e,
  aelem_valid a -> ae_type a = 0 -> ae_conf a = ACScal r [ly] -> ly_layout ly = 15 -> ly_exp ly = Some e -> 0 <= e <= 19 ->
  NoDup (flat_map (fun p => [fst p; snd p]) (expanded_pairs e) ++ expanded_singles e) /\
  zlen (flat_map (fun p => [fst p; snd p]) (expanded_pairs e) ++ expanded_singles e) = expanded_size e /\
  ((exists d, generate_ae codecs a = Ok d) <->
   m_find (ae_codec a) codecs <> None /\ ly_coupled ly = zlen (expanded_pairs e) /\ ly_subs ly = zlen (expanded_pairs e) + zlen (expanded_singles e)) /\
  (forall d, generate_ae codecs a = Ok d ->
     ad_obu d = a /\ m_find (ae_codec a) codecs = Some (ad_codec d) /\
     ad_labels d = combine (ae_subs a) (substreams (expanded_pairs e) (expanded_singles e)) /\
     length (ae_subs a) = length (substreams (expanded_pairs e) (expanded_singles e)) /\
     exists c, ad_chans d = [c] /\ c_surround c + c_lfe c + c_height c + c_bottom c = expanded_size e).
Proof.
  intros codecs a r ly e V T C Ll Le He. destruct (valid_scalable a r [ly] V T C) as (N & _ & S' & Fl).
  pose proof expanded_all as A. rewrite forallb_forall in A. specialize (A e (expanded_cases e He)). unfold expanded_check in A.
  destruct (expanded_labels e) as [[c [p s]]| | | |] eqn:El; try discriminate.
  apply andb_true_iff in A as [A A7]. apply andb_true_iff in A as [A A6]. apply andb_true_iff in A as [A A5]. apply andb_true_iff in A as [A A4]. apply andb_true_iff in A as [A A3]. apply andb_true_iff in A as [A1 A2].
  destruct (list_eq_dec _ p _) as [Ep|]; [|discriminate]. destruct (list_eq_dec _ s _) as [Es|]; [|discriminate]. subst p s.
  set (ps := expanded_pairs e) in *. set (ss := expanded_singles e) in *. apply lnodup_spec in A1.
  split; [exact A1|]. split; [change (zlen (flat_pairs ps ++ ss) = expanded_size e); lia|].
  assert (layer_labels true (mkCh 0 0 0 0) ly = Ok (c, (flat_pairs ps, ss))) as LL by (unfold layer_labels; rewrite Ll, Le; exact El).
  assert (forall f, generate_ae codecs a = f -> f = rbind (rbind (layers_data true (mkCh 0 0 0 0) (ae_subs a) [ly] [] [] []) (fun x => veq (zlen (ae_subs a)) (zlen (fst (fst x))) >>> Ok x))
            (fun x => match m_find (ae_codec a) codecs with None => Err InvalidArgument | Some cc => Ok (mkAed a cc (fst (fst x)) (snd (fst x)) (snd x)) end)) as Gen.
  { intros f <-. unfold generate_ae. rewrite T, C. change (0 =? 0) with true. cbv iota. unfold finalize_scalable. rewrite Fl.
    assert (vunique (ae_subs a) = Ok tt) as -> by (unfold vunique; apply unique_NoDup in N; rewrite N; reflexivity). reflexivity. }
  specialize (Gen _ eq_refl). cbn [layers_data] in Gen. rewrite LL in Gen. cbn [rbind fst snd] in Gen. rewrite add_labels_spec in Gen by exact N. cbn [app] in Gen.
  change (total (map ly_subs [ly])) with (ly_subs ly + 0) in S'. pose proof (validate_counts_spec' ps ss ly ltac:(lia) ltac:(lia)) as Vc.
  split; [split|].
  - intros [d E]. rewrite E in Gen. destruct (_ <? _)%nat eqn:L in Gen; [discriminate|]. cbn [rbind fst snd] in Gen.
    destruct (validate_counts _ _) as [[]| | | |] eqn:Vd in Gen; try discriminate. rewrite Vd in Vc. cbn [is_ok] in Vc. split; [|apply Vc; reflexivity].
    destruct (m_find (ae_codec a) codecs); [discriminate|]. cbn [rthen rbind fst snd] in Gen. destruct (veq _ _) as [[]| | | |] in Gen; discriminate.
  - intros (M & Hc). pose proof (proj2 Vc Hc) as V1. apply ok_unit in V1. rewrite V1 in Gen. destruct Hc as [Hc1 Hc2].
    replace (length (ae_subs a) <? _)%nat with false in Gen by (symmetry; apply Nat.ltb_ge; unfold zlen in *; lia). cbn [rthen rbind fst snd] in Gen.
    replace (veq _ _) with (Ok tt) in Gen.
    2: { unfold veq. replace (_ =? _) with true; [reflexivity|]. symmetry. apply Z.eqb_eq. unfold zlen in *. rewrite combine_length, firstn_length, substreams_length. lia. }
    cbn [rthen rbind] in Gen. destruct (m_find (ae_codec a) codecs) as [cc|]; [|congruence]. eexists. exact Gen.
  - intros d E. rewrite E in Gen. destruct (_ <? _)%nat eqn:L in Gen; [discriminate|]. apply Nat.ltb_ge in L. cbn [rbind fst snd] in Gen.
    destruct (validate_counts _ _) as [[]| | | |] eqn:Vd in Gen; try discriminate. rewrite Vd in Vc. cbn [is_ok] in Vc. destruct (proj1 Vc eq_refl) as [Hc1 Hc2].
    cbn [rthen rbind fst snd] in Gen. destruct (veq _ _) as [[]| | | |] in Gen; try discriminate. cbn [rthen rbind fst snd] in Gen. destruct (m_find (ae_codec a) codecs) as [cc|]; [|discriminate].
    injection Gen as ->. cbn [ad_obu ad_codec ad_labels ad_gains ad_chans]. split; [reflexivity|]. split; [reflexivity|].
    assert (length (ae_subs a) = length (substreams ps ss)) as Lq by (rewrite substreams_length; unfold zlen in *; lia).
    split; [rewrite <- Lq, firstn_all; reflexivity|]. split; [exact Lq|]. exists c. split; [reflexivity|lia].
Qed.

(* ------------------------------------------------------------------ C46, no crash *)
Definition clean {A} (r : res A) : Prop := match r with Ok _ | Err _ => True | _ => False end.
Lemma clean_bind {A B} (r : res A) (k : A -> res B) : clean r -> (forall x, r = Ok x -> clean (k x)) -> clean (rbind r k).
Proof. destruct r; cbn [rbind clean]; auto. Qed.
Lemma clean_rthen {B} (r : res unit) (k : res B) : clean r -> clean k -> clean (r >>> k).
Proof. destruct r; cbn [rthen rbind clean]; auto. Qed.
Lemma clean_vcond b : clean (vcond b). Proof. destruct b; exact I. Qed.
Definition evenl (l : list label) : Prop := exists ps, l = flat_pairs ps.
Lemma evenl_nil : evenl []. Proof. exists []. reflexivity. Qed.
Lemma evenl_two a b l : evenl l -> evenl (a :: b :: l). Proof. intros [ps ->]. exists ((a, b) :: ps). reflexivity. Qed.
Lemma evenl_app a b : evenl a -> evenl b -> evenl (a ++ b).
Proof. intros [ps ->] [qs ->]. exists (ps ++ qs). unfold flat_pairs. rewrite flat_map_app. reflexivity. Qed.
Ltac even_tac := repeat first [apply evenl_two|apply evenl_nil].
Lemma surround_clean k : forall s, clean (surround_labels k s) /\ forall x, surround_labels k s = Ok x -> evenl (fst (fst x)).
Proof.
  induction k as [|k IH]; intro s; cbn [surround_labels]; [split; [exact I|intros x E; injection E as <-; even_tac]|].
  destruct (IH (s + 1)) as [A B].
  repeat (match goal with |- context[if ?b then _ else _] => destruct b end); cbn [rbind]; (split; [apply clean_bind; [exact A|intros; exact I]|]) || (split; [exact I|discriminate]);
    intros x E; destruct (surround_labels k (s + 1)) as [y| | | |]; try discriminate; cbn [rbind fst snd] in E; injection E as <-; cbn [fst app]; repeat apply evenl_two; try (apply B; reflexivity); even_tac.
Qed.
Lemma expanded_labels_clean e : clean (expanded_labels e) /\ forall x, expanded_labels e = Ok x -> evenl (fst (snd x)).
Proof.
  unfold expanded_labels. repeat (match goal with |- context[if ?b then _ else _] => destruct b end);
    (split; [exact I|intros x E; try discriminate; injection E as <-; cbn [fst snd]; even_tac]).
Qed.
Lemma base_clean c : clean (base_labels c) /\ forall x, base_labels c = Ok x -> evenl (fst x).
Proof.
  unfold base_labels. repeat (match goal with |- context[if ?b then _ else _] => destruct b end); cbn [rbind fst snd app];
    (split; [exact I|intros x E; try discriminate; injection E as <-; cbn [fst snd app]; even_tac]).
Qed.
Lemma demixed_clean a c : clean (demixed_labels a c) /\ forall x, demixed_labels a c = Ok x -> evenl (fst x).
Proof.
  unfold demixed_labels. destruct (surround_clean (Z.to_nat (c_surround c - c_surround a)) (c_surround a + 1)) as [A B].
  destruct (surround_labels _ _) as [y| | | |]; cbn [rbind clean] in *; try contradiction; [|split; [exact I|discriminate]].
  repeat (match goal with |- context[if ?b then _ else _] => destruct b end); cbn [rbind fst snd app];
    (split; [exact I|intros x E; try discriminate; injection E as <-; cbn [fst snd app]; apply evenl_app; try (apply B; reflexivity); even_tac]).
Qed.
Lemma layer_clean f a ly : clean (layer_labels f a ly) /\ forall x, layer_labels f a ly = Ok x -> evenl (fst (snd x)).
Proof.
  unfold layer_labels. destruct (ly_layout ly =? kExpanded).
  - destruct f; cbn [negb]; [|split; [exact I|discriminate]]. destruct (ly_exp ly); [apply expanded_labels_clean|split; [exact I|discriminate]].
  - rewrite layout_channels_named. destruct (named _); cbn [rbind]; [|split; [exact I|discriminate]]. destruct (_ || _); [split; [exact I|discriminate]|].
    destruct f.
    + destruct (base_clean (chans_of p)) as [A B]. destruct (base_labels _); cbn [rbind clean] in *; try contradiction; (split; [exact I|intros x E; try discriminate; injection E as <-; apply B; reflexivity]).
    + destruct (demixed_clean a (chans_of p)) as [A B]. destruct (demixed_labels _ _); cbn [rbind clean] in *; try contradiction; (split; [exact I|intros x E; try discriminate; injection E as <-; apply B; reflexivity]).
Qed.
Lemma add_coupled_total ps : forall ids m, (length ps <= length ids)%nat -> exists m', add_coupled (flat_pairs ps) ids m = Ok (skipn (length ps) ids, m').
Proof.
  induction ps as [|[a b] ps IH]; intros ids m L; [eexists; reflexivity|]. destruct ids as [|i ids]; cbn [length] in L; [lia|].
  cbn [flat_pairs flat_map app add_coupled length skipn fst snd]. apply IH. lia.
Qed.
Lemma add_single_total ls : forall ids m, (length ls <= length ids)%nat -> exists x, add_single ls ids m = Ok x.
Proof. induction ls as [|a ls IH]; intros ids m L; [eexists; reflexivity|]. destruct ids as [|i ids]; cbn [length] in L; [lia|]. cbn [add_single]. apply IH. lia. Qed.
Lemma add_labels_clean l ids m : evenl (fst l) -> clean (add_labels l ids m).
Proof.
  intros [ps E]. unfold add_labels. rewrite E. unfold zlen. rewrite flat_pairs_length.
  replace (Z.of_nat (2 * length ps) mod 2 =? 0) with true by (rewrite Nat2Z.inj_mul; change (Z.of_nat 2) with 2; lia). cbn [negb].
  replace (Z.of_nat (2 * length ps) / 2) with (Z.of_nat (length ps)) by (rewrite Nat2Z.inj_mul; change (Z.of_nat 2) with 2; lia).
  destruct (_ >? _) eqn:G; [exact I|]. destruct (add_coupled_total ps ids m) as [m' ->]; [lia|]. cbn [rbind fst snd].
  destruct (add_single_total (snd l) (skipn (length ps) ids) m') as [x ->]; [rewrite skipn_length; lia|exact I].
Qed.
Lemma layers_clean l : forall f a ids m g cs, clean (layers_data f a ids l m g cs).
Proof.
  induction l as [|ly l IH]; intros; cbn [layers_data]; [exact I|]. destruct (layer_clean f a ly) as [A B]. apply clean_bind; [exact A|]. intros x Ex.
  apply clean_bind; [apply add_labels_clean; exact (B x Ex)|]. intros y Ey. apply clean_rthen; [|apply IH].
  unfold validate_counts. apply clean_rthen; apply clean_vcond.
Qed.
(* Whatever element the bitstream reader delivers: labels are assigned or an error is reported *)
Theorem C46_no_crash : forall codecs a, aelem_valid a -> (exists d, generate_ae codecs a = Ok d) \/ (exists e, generate_ae codecs a = Err e).
Proof.
  intros codecs a V. assert (clean (generate_ae codecs a)) as K.
  { destruct (ae_type a =? 1) eqn:T1.
    - assert (ae_type a = 1) as T by lia. pose proof V as (N & _ & _ & _ & _ & V1 & _). destruct (V1 T) as (am & C & Av). rewrite (generate_ambi _ _ _ T C).
      apply clean_bind; [|intros; destruct (m_find _ _); exact I]. destruct am as [s m|o s c mat]; cbn [finalize_ambi ambi_valid] in *.
      + destruct Av as (Sq & Es & Rs & Hi & Ha). pose proof (mono_spec (ae_subs a) m 0 [] N ltac:(lia) (NoDup_nil _) ltac:(rewrite <- Es; exact Hi)) as M.
        destruct (mono_labels _ _ _ _); try exact I; contradiction.
      + destruct Av as (Sq & Es & Rs & _). apply clean_rthen; [apply clean_vcond|]. change 0 with (Z.of_nat 0). rewrite (proj_spec c (ae_subs a) 0 []) by (try exact N; lia). destruct (_ || _); exact I.
    - unfold generate_ae. rewrite T1. apply clean_bind; [|intros; destruct (m_find _ _); exact I]. destruct (ae_type a =? 0); [|exact I].
      destruct (ae_conf a); try exact I. unfold finalize_scalable. apply clean_rthen; [apply clean_vcond|]. apply clean_bind; [apply layers_clean|]. intros. apply clean_rthen; [apply clean_vcond|exact I]. }
  unfold clean in K. destruct (generate_ae codecs a) as [d|e| | |]; try contradiction; eauto.
Qed.

(* ------------------------------------------------------------------ examples and the refuted case *)
Definition cc0 : codec_config * (Z * Z * Z) := (mkCC 7 1 1 0 (DLpcm (mkLpcm 0 16 48000)), (48000, 48000, 16)).
Definition ae_ex := mkAE 1 0 0 7 [30; 31; 32; 33; 34; 35] []
  (ACScal 0 [mkLy 0 true false 0 1 0 32 0 (-256) None; mkLy 1 false false 0 1 0 0 0 0 None; mkLy 3 true false 0 4 2 63 0 128 None]).
Example C46_ex :
  aelem_valid ae_ex /\
  exists d, generate_ae [(7, cc0)] ae_ex = Ok d /\
    ad_labels d = [(30, [Mono]); (31, [L2]); (32, [L5; R5]); (33, [Ltf2; Rtf2]); (34, [Centre]); (35, [LFE])] /\
    ad_gains d = [(Mono, -256); (Ltf2, 128); (Rtf2, 128)] /\ ad_chans d = [mkCh 1 0 0 0; mkCh 2 0 0 0; mkCh 5 1 2 0].
Proof.
  split.
  - unfold aelem_valid, ae_ex. cbn [ae_subs ae_params ae_conf ae_type]. split; [repeat constructor; cbn [In]; lia|]. split; [constructor|]. split; [vm_compute; discriminate|]. split; [intros d []|].
    split; [|split; intro; discriminate]. intros _. eexists. eexists. split; [reflexivity|]. split; [vm_compute; split; discriminate|]. split; [reflexivity|].
    intros (x & X & Y). cbn [In] in X. repeat (destruct X as [X|X]; [subst x; discriminate|]). contradiction.
  - eexists. split; [vm_compute; reflexivity|]. vm_compute. tauto.
Qed.
Definition ae_mono := mkAE 1 1 0 7 [5; 6; 9] [] (ACAmbi (AMono 3 [2; 0; 255; 1])).
Example C46_mono_ex : aelem_valid ae_mono /\ exists d, generate_ae [(7, cc0)] ae_mono = Ok d /\ ad_labels d = [(9, [LA 0]); (5, [LA 1]); (6, [LA 3])].
Proof.
  split; [|eexists; split; vm_compute; reflexivity].
  unfold aelem_valid, ae_mono. cbn [ae_subs ae_params ae_conf ae_type]. split; [repeat constructor; cbn [In]; lia|]. split; [constructor|]. split; [vm_compute; discriminate|]. split; [intros d []|].
  split; [intro; discriminate|]. split; [|intro; discriminate]. intros _. eexists. split; [reflexivity|]. cbn [ambi_valid]. split; [exists 2; split; [lia|reflexivity]|]. split; [reflexivity|]. split; [vm_compute; split; discriminate|].
  split; intros i Hi; cbn [In] in *; lia.
Qed.
Definition ae_proj := mkAE 1 1 0 7 [5; 6; 9] [] (ACAmbi (AProj 4 3 1 (repeat 1 16))).
Example C46_projection_ex : aelem_valid ae_proj /\ exists d, generate_ae [(7, cc0)] ae_proj = Ok d /\ ad_labels d = [(5, [LA 0; LA 1]); (6, [LA 2]); (9, [LA 3])].
Proof.
  split; [|eexists; split; vm_compute; reflexivity].
  unfold aelem_valid, ae_proj. cbn [ae_subs ae_params ae_conf ae_type]. split; [repeat constructor; cbn [In]; lia|]. split; [constructor|]. split; [vm_compute; discriminate|]. split; [intros d []|].
  split; [intro; discriminate|]. split; [|intro; discriminate]. intros _. eexists. split; [reflexivity|]. cbn [ambi_valid]. split; [exists 2; split; [lia|reflexivity]|]. split; [reflexivity|]. split; [lia|]. split; [lia|reflexivity].
Qed.
Definition ae_exp := mkAE 1 0 0 7 [5; 6] [] (ACScal 0 [mkLy 15 false false 0 2 1 0 0 0 (Some 7)]).
Example C46_expanded_ex : aelem_valid ae_exp /\ exists d, generate_ae [(7, cc0)] ae_exp = Ok d /\ ad_labels d = [(5, [L7; R7]); (6, [Centre])].
Proof.
  split; [|eexists; split; vm_compute; reflexivity].
  unfold aelem_valid, ae_exp. cbn [ae_subs ae_params ae_conf ae_type]. split; [repeat constructor; cbn [In]; lia|]. split; [constructor|]. split; [vm_compute; discriminate|]. split; [intros d []|].
  split; [|split; intro; discriminate]. intros _. eexists. eexists. split; [reflexivity|]. split; [vm_compute; split; discriminate|]. split; [reflexivity|].
  intros (x & X & Y). cbn [In] in X. repeat (destruct X as [X|X]; [subst x; discriminate|]). contradiction.
Qed.

(* An expanded layout is meant for a single layer ("Expanded layout is only permitted when there is a single layer"), but an element
   whose first layer is expanded may have further layers: two substreams then carry the same channels. *)
Definition ae_bad := mkAE 1 0 0 7 [1; 2; 3; 4; 5; 6] []
  (ACScal 0 [mkLy 15 false false 0 1 1 0 0 0 (Some 4); mkLy 4 false false 0 5 2 0 0 0 None]).
Theorem C46_expanded_then_more_refuted :
  aelem_valid ae_bad /\ exists d, generate_ae [(7, cc0)] ae_bad = Ok d /\
  m_find 1 (ad_labels d) = Some [Ltf4; Rtf4] /\ m_find 3 (ad_labels d) = Some [Ltf4; Rtf4].
Proof.
  split; [|eexists; split; [vm_compute; reflexivity|vm_compute; tauto]].
  unfold aelem_valid, ae_bad. cbn [ae_subs ae_params ae_conf ae_type]. split; [repeat constructor; cbn [In]; lia|]. split; [constructor|]. split; [vm_compute; discriminate|]. split; [intros d []|].
  split; [|split; intro; discriminate]. intros _. eexists. eexists. split; [reflexivity|]. split; [vm_compute; split; discriminate|]. split; [reflexivity|].
  intros (x & X & Y). cbn [In] in X. repeat (destruct X as [X|X]; [subst x; discriminate|]). contradiction.
Qed.
