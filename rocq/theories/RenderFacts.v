(* Facts about the model of rendering: what arranging, mixing by gains, applying mix gains and mixing audio elements compute. *)
From Verif Require Import Base WriteBuf ObuHeader SimpleObus CodecConfig Params AudioElement MixPresentation Timing ParamManager AeData
  Profile MixSelect PropsParams MixGain PropsGain Processor Demix Render.

Lemma rmap_ok {X Y} (f : X -> res Y) l : forall r, rmap f l = Ok r <-> Forall2 (fun x y => f x = Ok y) l r.
Proof.
  induction l as [|x l IH]; intro r; cbn [rmap].
  - split; intro H; [injection H as <-; constructor|inversion H; reflexivity].
  - destruct (f x) as [y|e| | |] eqn:E; cbn [rbind]; try (split; intro H; [discriminate H|inversion H; subst; congruence]).
    destruct (rmap f l) as [z|e| | |] eqn:E2; cbn [rbind].
    + split; intro H; [injection H as <-; constructor; [exact E|apply IH; reflexivity]|]. inversion H; subst. rewrite E in H2. injection H2 as ->. apply IH in H4. congruence.
    + split; intro H; [discriminate H|]. inversion H; subst. apply IH in H4. discriminate H4.
    + split; intro H; [discriminate H|]. inversion H; subst. apply IH in H4. discriminate H4.
    + split; intro H; [discriminate H|]. inversion H; subst. apply IH in H4. discriminate H4.
    + split; intro H; [discriminate H|]. inversion H; subst. apply IH in H4. discriminate H4.
Qed.
Lemma rmap_length {X Y} (f : X -> res Y) l r : rmap f l = Ok r -> length r = length l.
Proof. intro H. apply rmap_ok in H. induction H; cbn [length]; auto. Qed.
Lemma forall2_nth {X Y} (P : X -> Y -> Prop) l r i y : Forall2 P l r -> nth_error r i = Some y -> exists x, nth_error l i = Some x /\ P x y.
Proof. intro H. revert i. induction H as [|x y0 l r Hx H IH]; intros [|i] E; cbn [nth_error] in *; try discriminate E; [injection E as <-; eauto|exact (IH i E)]. Qed.
Lemma forall2_nth_l {X Y} (P : X -> Y -> Prop) l r i x : Forall2 P l r -> nth_error l i = Some x -> exists y, nth_error r i = Some y /\ P x y.
Proof. intro H. revert i. induction H as [|x0 y0 l r Hx H IH]; intros [|i] E; cbn [nth_error] in *; try discriminate E; [injection E as <-; eauto|exact (IH i E)]. Qed.
Lemma forall2_length {X Y} (P : X -> Y -> Prop) l r : Forall2 P l r -> length l = length r.
Proof. induction 1; cbn [length]; auto. Qed.
Lemma nth_error_firstn {X} (l : list X) n i : nth_error (firstn n l) i = if (i <? n)%nat then nth_error l i else None.
Proof.
  revert l i. induction n as [|n IH]; intros l i; [destruct i; reflexivity|]. destruct l as [|x l]; [destruct (i <? S n)%nat; destruct i; reflexivity|].
  destruct i as [|i]; [reflexivity|]. cbn [firstn nth_error]. rewrite IH. reflexivity.
Qed.
Lemma nth_error_skipn {X} (l : list X) n i : nth_error (skipn n l) i = nth_error l (n + i).
Proof. revert l. induction n as [|n IH]; intro l; [reflexivity|]. destruct l as [|x l]; [destruct i; reflexivity|]. exact (IH l). Qed.
Lemma nth_error_zip2 {T} (f : T -> T -> T) a b i : nth_error (zip2 f a b) i =
  match nth_error a i, nth_error b i with Some x, Some y => Some (f x y) | _, _ => None end.
Proof.
  unfold zip2. revert b i. induction a as [|x a IH]; intros [|y b] i; cbn [combine map].
  - destruct i; reflexivity.
  - destruct i; reflexivity.
  - destruct i; cbn [nth_error]; [reflexivity|]. destruct (nth_error a i); reflexivity.
  - destruct i as [|i]; [reflexivity|]. exact (IH b i).
Qed.
Lemma zip2_length {T} (f : T -> T -> T) a b : length (zip2 f a b) = Nat.min (length a) (length b).
Proof. unfold zip2. rewrite map_length, combine_length. reflexivity. Qed.
Lemma zip2_length_eq {T} (f : T -> T -> T) a b n : length a = n -> length b = n -> length (zip2 f a b) = n.
Proof. intros. rewrite zip2_length. lia. Qed.

Section Facts.
Context {T F B C : Type} (E : renv T F B C).
Notation A := (r_A E).
Notation chan := (@samples T).
Notation zero := (zero E).

(* ---- arranging ---- *)
Lemma raw_ticks_spec ls (m : @smap T) : forall n o, raw_ticks ls m n = Ok o ->
  (forall k, n = Some k -> o = Some k) /\ (forall l, In (Some l) ls -> exists s, find_samples l m = Ok s /\ o = Some (length s)).
Proof.
  induction ls as [|[l|] ls IH]; intros n o H; cbn [raw_ticks] in H.
  - injection H as <-. split; [auto|intros ? []].
  - destruct (find_samples l m) as [s|e| | |] eqn:Es; cbn [rbind] in H; try discriminate H.
    assert (raw_ticks ls m (Some (length s)) = Ok o /\ (forall k, n = Some k -> k = length s)) as [H1 H2].
    { destruct n as [k|]; [|split; [exact H|discriminate]]. destruct (Nat.eqb k (length s)) eqn:K; [|discriminate H]. apply Nat.eqb_eq in K. subst k.
      split; [exact H|]. intros k [= ->]. reflexivity. }
    destruct (IH _ _ H1) as [I1 I2]. split.
    + intros k Hk. rewrite (H2 k Hk). apply I1. reflexivity.
    + intros l0 [H0|H0]; [injection H0 as <-; exists s; split; [exact Es|apply I1; reflexivity]|exact (I2 l0 H0)].
  - destruct (IH _ _ H) as [I1 I2]. split; [exact I1|]. intros l [H0|H0]; [discriminate H0|exact (I2 l H0)].
Qed.
Definition start_trim (lf : @labeled T) : nat := Z.to_nat (trim_of (r_trim_begin E) (lf_trim_start lf)).
Definition end_trim (lf : @labeled T) : nat := Z.to_nat (trim_of (r_trim_end E) (lf_trim_end lf)).
Definition trims_ok (lf : @labeled T) : Prop := 0 <= lf_trim_start lf /\ 0 <= lf_trim_end lf.
Lemma trimmed_spec lf ls empty n : trims_ok lf -> trimmed_ticks E lf ls empty = Ok n ->
  exists raw, (raw = start_trim lf + n + end_trim lf)%nat /\ (raw <= empty)%nat /\ forall l, In (Some l) ls -> exists s, find_samples l (lf_map lf) = Ok s /\ length s = raw.
Proof.
  intros [T1 T2] H. unfold trimmed_ticks in H. destruct (raw_ticks ls (lf_map lf) None) as [o|e| | |] eqn:R; cbn [rbind] in H; try discriminate H.
  destruct (raw_ticks_spec _ _ _ _ R) as [_ R2]. destruct o as [raw|]; [|discriminate H]. destruct (Nat.ltb empty raw) eqn:L; [discriminate H|]. apply Nat.ltb_ge in L.
  cbv zeta in H. destruct (_ >=? 2^32); [discriminate H|]. destruct (Z.of_nat raw <? _) eqn:W; [discriminate H|]. injection H as <-.
  assert (forall b z, 0 <= z -> 0 <= trim_of b z) as N by (intros [] z Hz; cbn [trim_of]; lia). pose proof (N (r_trim_begin E) _ T1). pose proof (N (r_trim_end E) _ T2).
  exists raw. split; [unfold start_trim, end_trim; lia|]. split; [exact L|]. intros l Hl. destruct (R2 l Hl) as (s & Hs & Ho). injection Ho as ->. eauto.
Qed.
(* The samples of a channel which are rendered: of a label, or zeros. *)
Definition source (lf : @labeled T) (empty : nat) (x : slot) (s : chan) : Prop :=
  match x with None => s = repeat zero empty | Some l => find_samples l (lf_map lf) = Ok s end.
Lemma arrange_spec lf ls empty ins n : trims_ok lf -> arrange E lf ls empty = Ok (ins, n) ->
  (n <= empty)%nat /\
  Forall2 (fun x s => exists full, source lf empty x full /\ s = firstn n (skipn (start_trim lf) full) /\ length s = n /\
                      match x with Some _ => length full = (start_trim lf + n + end_trim lf)%nat | None => length full = empty end) ls ins.
Proof.
  intros Ht H. unfold arrange in H. destruct (trimmed_ticks E lf ls empty) as [k|e| | |] eqn:Et; cbn [rbind] in H; try discriminate H.
  destruct (trimmed_spec _ _ _ _ Ht Et) as (raw & Hr & Hl & Hs). match type of H with rbind (rmap ?f0 ls) _ = _ => set (f := f0) in H end. destruct (rmap f ls) as [r|e| | |] eqn:Er; cbn [rbind] in H; try discriminate H.
  injection H as <- <-. split; [lia|]. apply rmap_ok in Er. revert Er Hs Hr Hl. clear. intros Er Hs Hr Hl. subst f. induction Er as [|x s ls r Hx Er IH]; constructor.
  - clear IH Er. cbv beta in Hx. assert (exists full, source lf empty x full /\ subspan full (start_trim lf) k = Ok s /\ match x with Some _ => length full = raw | None => length full = empty end) as (full & S1 & S2 & S3).
    { destruct x as [l|].
      - destruct (Hs l (or_introl eq_refl)) as (s0 & E0 & L0). rewrite E0 in Hx. cbn [rbind] in Hx. exists s0. split; [exact E0|]. split; [exact Hx|exact L0].
      - cbn [rbind] in Hx. exists (repeat zero empty). split; [reflexivity|]. split; [exact Hx|apply repeat_length]. }
    exists full. split; [exact S1|]. unfold subspan in S2. destruct (Nat.ltb _ _); [discriminate S2|]. injection S2 as <-. split; [reflexivity|].
    split; [|destruct x; lia]. rewrite firstn_length, skipn_length. destruct x; lia.
  - apply IH. intros l Hl'. apply Hs. right. exact Hl'.
Qed.

(* ---- appending to empty channels ---- *)
Definition clean (out : list chan) : Prop := Forall (fun c => c = []) out.
Lemma clean_map {X} (l : list X) : clean (map (fun _ => []) l).
Proof. unfold clean. induction l; constructor; auto. Qed.
Lemma append_clean out add : clean out -> append_to out add = add.
Proof.
  intro H. unfold append_to. set (a := firstn _ _ ++ _). assert (length a = length add) as L.
  { unfold a. rewrite app_length, firstn_length, repeat_length. lia. }
  assert (Forall (fun c : chan => c = []) a) as Ha.
  { apply Forall_app. split; [apply Forall_forall; intros x Hx; unfold clean in H; rewrite Forall_forall in H; apply H; rewrite <- (firstn_skipn (length add) out); apply in_or_app; left; exact Hx|].
    apply Forall_forall. intros x Hx. apply repeat_spec in Hx. exact Hx. }
  clearbody a. revert add L. induction Ha as [|x a -> Ha IH]; intros [|y add] L; try discriminate L; [reflexivity|]. cbn [combine map fst snd app]. rewrite IH by (cbn [length] in L; lia). reflexivity.
Qed.

(* ---- mixing by a matrix ---- *)
(* x_0 * k_0 + x_1 * k_1 + ..., in this order, from zero *)
Definition weighted (xs ks : list T) : T := fold_left (fun a p => a_add A a (a_mul A (fst p) (snd p))) (combine xs ks) zero.
Lemma mix_in_spec o n : forall ins g acc r, Forall (fun s : chan => length s = n) ins -> length acc = n -> (length ins <= length g)%nat -> mix_in E ins g o acc = Ok r ->
  exists ks, Forall2 (fun row k => nth_error row o = Some k) (firstn (length ins) g) ks /\ length r = n /\
  forall t a xs, nth_error acc t = Some a -> Forall2 (fun s x => nth_error s t = Some x) ins xs ->
    nth_error r t = Some (fold_left (fun a p => a_add A a (a_mul A (fst p) (snd p))) (combine xs ks) a).
Proof.
  induction ins as [|s ins IH]; intros g acc r Hl Ha Hg H; cbn [mix_in] in H.
  - injection H as <-. exists []. split; [constructor|]. split; [exact Ha|]. intros t a xs Et Hx. inversion Hx; subst. exact Et.
  - destruct g as [|row g]; [cbn [length] in Hg; lia|]. destruct (nth_error row o) as [k|] eqn:Ek; [|discriminate H]. inversion Hl as [|? ? Hs Hl']; subst.
    destruct (IH g (axpy E k s acc) r Hl') as (ks & K1 & K2 & K3); [unfold axpy; apply zip2_length_eq; auto|cbn [length] in Hg; lia|exact H|].
    exists (k :: ks). split; [constructor; assumption|]. split; [exact K2|]. intros t a xs Et Hx. inversion Hx as [|? x ? xs' E1 E2]; subst.
    cbn [combine fold_left fst snd]. apply K3; [|exact E2]. unfold axpy. rewrite nth_error_zip2, Et, E1. reflexivity.
Qed.
Lemma nth_repeat_some {X} (x : X) n t : (t < n)%nat -> nth_error (repeat x n) t = Some x.
Proof. revert t. induction n as [|n IH]; intros t H; [lia|]. destruct t as [|t]; [reflexivity|]. cbn [repeat nth_error]. apply IH. lia. Qed.
Lemma render_gains_spec ins g out n : Forall (fun s : chan => length s = n) ins -> ins <> [] -> render_gains E ins g = Ok out ->
  (length ins <= length g)%nat /\ (forall row r, g = row :: r -> length out = length row) /\
  forall o ch, nth_error out o = Some ch -> length ch = n /\ exists ks, Forall2 (fun row k => nth_error row o = Some k) (firstn (length ins) g) ks /\
  forall t xs, (t < n)%nat -> Forall2 (fun s x => nth_error s t = Some x) ins xs -> nth_error ch t = Some (weighted xs ks).
Proof.
  intros Hl Hn H. unfold render_gains in H. destruct g as [|row g]; [discriminate H|]. destruct (Nat.ltb _ _) eqn:L; [discriminate H|]. apply Nat.ltb_ge in L.
  destruct (negb _); [discriminate H|]. assert (first_ticks ins = n) as Fn by (destruct ins as [|s ins]; [congruence|]; inversion Hl; subst; reflexivity). rewrite Fn in H.
  split; [exact L|]. split. { intros row' r Hr. injection Hr as <- <-. rewrite (rmap_length _ _ _ H), seq_length. reflexivity. }
  apply rmap_ok in H. intros o ch Ho. destruct (forall2_nth _ _ _ _ _ H Ho) as (o' & Ho' & Hm).
  assert (o' = o) as -> by (assert (o < length row)%nat as Lo by (apply nth_error_Some in Ho' || (assert (nth_error (seq 0 (length row)) o <> None) as Q by congruence; apply nth_error_Some in Q; rewrite seq_length in Q; exact Q)); rewrite (nth_error_nth' _ 0%nat) in Ho' by (rewrite seq_length; exact Lo); injection Ho' as <-; apply seq_nth; exact Lo).
  destruct (mix_in_spec o n ins (row :: g) _ ch Hl (repeat_length _ _) L Hm) as (ks & K1 & K2 & K3). split; [exact K2|]. exists ks. split; [exact K1|].
  intros t xs Ht Hx. unfold weighted. apply K3; [|exact Hx]. apply nth_repeat_some. exact Ht.
Qed.

(* ---- one audio element ---- *)
(* the matrix of a renderer by gains *)
Definition matrix_of (r : @erend T B) (p : option (@dparams T)) : option (list (list T)) :=
  match er_kind r with
  | KMatrix inp out g => Some (match dynamic_gains E p inp out with Some d => d | None => g end)
  | KAmbi g => Some g
  | _ => None
  end.
Definition by_loudspeakers (r : @erend T B) : Prop := match er_kind r with KBinaural _ _ => False | _ => True end.
Definition static (r r' : @erend T B) : Prop := er_kind r' = er_kind r /\ er_labels r' = er_labels r /\ er_spf r' = er_spf r.
Lemma set_out_static (r : @erend T B) o : static r (set_out r o). Proof. repeat split. Qed.
Lemma static_refl (r : @erend T B) : static r r. Proof. repeat split. Qed.
Lemma static_trans (a b c : @erend T B) : static a b -> static b c -> static a c.
Proof. intros (A1 & A2 & A3) (B1 & B2 & B3). repeat split; congruence. Qed.

Lemma render_samples_static r p ins x r' : by_loudspeakers r -> render_samples E r p ins = (x, r') -> static r r' /\ (x = Ok tt \/ er_out r' = er_out r).
Proof.
  intros L H. unfold render_samples in H. unfold by_loudspeakers in L. destruct (er_kind r); try contradiction.
  - injection H as <- <-. split; [apply set_out_static|left; reflexivity].
  - destruct (render_gains E ins _); injection H as <- <-; (split; [first [apply set_out_static|apply static_refl]|auto]).
  - destruct (render_gains E ins _); injection H as <- <-; (split; [first [apply set_out_static|apply static_refl]|auto]).
Qed.
Lemma render_samples_spec r p ins r' : by_loudspeakers r -> clean (er_out r) -> render_samples E r p ins = (Ok tt, r') ->
  match matrix_of r p with Some g => render_gains E ins g = Ok (er_out r') | None => er_out r' = ins end.
Proof.
  intros L Cl H. unfold render_samples, matrix_of, by_loudspeakers in *. destruct (er_kind r) as [|inp out g|g|m b]; try contradiction.
  - injection H as <-. cbn [set_out er_out]. apply append_clean. exact Cl.
  - destruct (render_gains E ins _) as [o|e| | |]; try discriminate H. injection H as <-. reflexivity.
  - destruct (render_gains E ins _) as [o|e| | |]; try discriminate H. injection H as <-. reflexivity.
Qed.

(* what ArrangeSamples gives to a renderer *)
Definition arranged (r : @erend T B) (lf : @labeled T) : res (list chan * nat) :=
  match er_labels r with [] => Ok ([], O) | ls => arrange E lf ls (er_spf r) end.
Lemma arranged_le r lf ins n : trims_ok lf -> arranged r lf = Ok (ins, n) -> (n <= er_spf r)%nat.
Proof.
  intros Ht H. unfold arranged in H. destruct (er_labels r) as [|x ls] eqn:El; [injection H as <- <-; lia|]. exact (proj1 (arrange_spec _ _ _ _ _ Ht H)).
Qed.
Lemma render_labeled_spec r lf x r' : by_loudspeakers r -> clean (er_out r) -> render_labeled E r lf = (x, r') ->
  static r r' /\
  match x with
  | Ok n => exists ins, arranged r lf = Ok (ins, n) /\ match matrix_of r (lf_params lf) with Some g => render_gains E ins g = Ok (er_out r') | None => er_out r' = ins end
  | _ => er_out r' = er_out r
  end.
Proof.
  intros L Cl H. unfold render_labeled in H. match type of H with match ?q with _ => _ end = _ => change q with (arranged r lf) in H end. destruct (arranged r lf) as [[ins n]|e| | |] eqn:Ea;
    try (injection H as <- <-; split; [apply static_refl|reflexivity]).
  destruct (render_samples E r (lf_params lf) ins) as [y r1] eqn:Es. destruct (render_samples_static _ _ _ _ _ L Es) as [S1 S2].
  destruct y as [[]|e| | |]; injection H as <- <-; (split; [exact S1|]); try (destruct S2 as [S2|S2]; [discriminate S2|exact S2]).
  exists ins. split; [reflexivity|]. exact (render_samples_spec _ _ _ _ L Cl Es).
Qed.
Lemma render_to_layout_spec r lf spf out x r' out' : by_loudspeakers r -> clean (er_out r) -> trims_ok lf -> Z.of_nat (er_spf r) <= spf ->
  render_to_layout E r lf spf out = (x, r', out') ->
  static r r' /\ clean (er_out r') /\
  (x = Ok tt -> exists ins n, arranged r lf = Ok (ins, n) /\ match matrix_of r (lf_params lf) with Some g => render_gains E ins g = Ok out' | None => out' = ins end).
Proof.
  intros L Cl Ht Hs H. unfold render_to_layout in H. cbv zeta in H. destruct (render_labeled E r lf) as [y r1] eqn:Er. destruct (render_labeled_spec _ _ _ _ L Cl Er) as [S1 S2].
  destruct y as [n|e| | |]; try (injection H as <- <- <-; split; [exact S1|]; split; [rewrite S2; exact Cl|discriminate]).
  destruct S2 as (ins & Ea & Eo). pose proof (arranged_le _ _ _ _ Ht Ea). replace (Z.of_nat n >? spf) with false in H by lia.
  unfold flush in H. assert (static r (set_out r1 (map (fun _ => []) (er_out r1)))) as S3 by (eapply static_trans; [exact S1|apply set_out_static]).
  rewrite (append_clean _ _ (clean_map out)) in H.
  assert (clean (er_out (set_out r1 (map (fun _ => []) (er_out r1))))) as Cl1 by (cbn [set_out er_out]; apply clean_map).
  destruct (Nat.eqb n 0); [|destruct (existsb _ _)]; injection H as <- <- <-; (split; [exact S3|]); (split; [exact Cl1|]); try discriminate; intros _; exists ins, n; auto.
Qed.

(* ---- mix gains ---- *)
Lemma fill_length step linear bezier tolin fuel dur num subs : forall old offset i start stop r new,
  fill F step linear bezier tolin fuel dur num subs old offset i start stop = (r, new) -> length new = length old.
Proof.
  induction old as [|x old IH]; intros offset i start stop r new H; cbn [fill] in H; [injection H as <- <-; reflexivity|].
  destruct (advance _ _ _ _ _ _ _) as [[[[i' s'] e']|]|e| | |]; try (injection H as <- <-; reflexivity).
  destruct (nth_error subs _) as [[d|]|]; try (injection H as <- <-; reflexivity). destruct (interpolate _ _ _ _ _ _ _ _); try (injection H as <- <-; reflexivity).
  destruct (fill F step linear bezier tolin fuel dur num subs old (offset + 1) i' s' e') as [r1 t1] eqn:Ef. injection H as <- <-. cbn [length]. f_equal. exact (IH _ _ _ _ _ _ Ef).
Qed.
Lemma linear_length step linear bezier tolin d b old r new : linear_mix_gains F step linear bezier tolin d b old = (r, new) -> length new = length old.
Proof.
  unfold linear_mix_gains. destruct (negb _); [intro H; injection H as <- <-; reflexivity|]. destruct (MixGain.block_duration d b 0); intro H; try (injection H as <- <-; reflexivity).
  exact (fill_length _ _ _ _ _ _ _ _ _ _ _ _ _ _ _ H).
Qed.
Lemma gains_length rate blocks d n gs : gains_per_tick E rate blocks d n = Ok gs -> length gs = n.
Proof.
  unfold gains_per_tick. destruct (negb _); [discriminate|]. cbv zeta. destruct (m_find _ blocks) as [b|]; [|intro H; injection H as <-; apply repeat_length].
  destruct (linear_mix_gains _ _ _ _ _ _ _ _) as [r g] eqn:El. destruct r; intro H; try discriminate H. injection H as <-. rewrite (linear_length _ _ _ _ _ _ _ _ _ El). apply repeat_length.
Qed.
(* SPEC: the gain of a mix gain at tick t of the rendered frame, counted from the start of the parameter block *)
Definition default_of (d : pdef) : F := r_tolin E (r_step E (default_gain d)).
Inductive gain_at (blocks : list (Z * pblock)) (d : pdef) (t : nat) : F -> Prop :=
| gain_default : m_find (pb_id (pd_base d)) blocks = None -> gain_at blocks d t (default_of d)
| gain_block b s l i g : m_find (pb_id (pd_base d)) blocks = Some b -> schedule_of d b = Some s -> partitioned_as s l -> covers l i (Z.of_nat t) ->
    tick_gain F (r_step E) (r_linear E) (r_bezier E) (r_tolin E) (nth i (bl_subs b) None) (start_of l i) (start_of l (S i)) (Z.of_nat t) = Some g -> gain_at blocks d t g
| gain_past b s l : m_find (pb_id (pd_base d)) blocks = Some b -> schedule_of d b = Some s -> partitioned_as s l -> total l <= Z.of_nat t ->
    gain_at blocks d t (default_of d).
(* SPEC: a block as the parser makes it for a mix gain: data for each subblock of a schedule *)
Definition block_fits (d : pdef) (b : pblock) : Prop :=
  exists s l, schedule_of d b = Some s /\ partitioned_as s l /\ total l < 2^31 /\ length (bl_subs b) = length l /\ Forall is_gain_data (bl_subs b) /\ short_curves (bl_subs b) l.
Definition blocks_fit (blocks : list (Z * pblock)) (d : pdef) : Prop := forall b, m_find (pb_id (pd_base d)) blocks = Some b -> block_fits d b.
Lemma gains_spec rate blocks d n gs : blocks_fit blocks d -> gains_per_tick E rate blocks d n = Ok gs ->
  forall t, (t < n)%nat -> exists g, nth_error gs t = Some g /\ gain_at blocks d t g.
Proof.
  intros Fit H t Ht. unfold gains_per_tick in H. destruct (negb _); [discriminate H|]. cbv zeta in H. destruct (m_find (pb_id (pd_base d)) blocks) as [b|] eqn:Eb.
  2:{ injection H as <-. exists (default_of d). split; [apply nth_repeat_some; exact Ht|constructor; exact Eb]. }
  destruct (Fit b Eb) as (s & l & Sc & Pt & Tl & Ls & Gd & Sh). set (g0 := repeat (r_tolin E (r_step E (default_gain d))) n) in H.
  assert (length g0 = n) as L0 by apply repeat_length.
  destruct (Z.eq_dec (pd_type (pd_kind d)) 0) as [Ty|Ty].
  2:{ rewrite C25_other_types_refused in H by exact Ty. discriminate H. }
  destruct (C25_tick_gains_partial F (r_step E) (r_linear E) (r_bezier E) (r_tolin E) d b s l g0 Ty Sc Pt Tl Ls Gd Sh) as (new & En & Ln & Hn). rewrite En in H. injection H as <-.
  destruct (Hn t ltac:(lia)) as [H1 H2]. destruct (Z_lt_le_dec (Z.of_nat t) (total l)) as [Lt|Ge].
  - pose proof Pt as (P1 & P2 & P3 & P4 & P5). destruct (C25_every_tick_covered l (Z.of_nat t) P3 ltac:(lia)) as (i & Ci & _). rewrite (H1 i Ci).
    pose proof Ci as [Li _]. assert (is_gain_data (nth i (bl_subs b) None)) as G by (rewrite Forall_forall in Gd; apply Gd; apply nth_In; lia).
    destruct (tick_gain F (r_step E) (r_linear E) (r_bezier E) (r_tolin E) (nth i (bl_subs b) None) (start_of l i) (start_of l (S i)) (Z.of_nat t)) as [g|] eqn:Eg.
    + exists g. split; [reflexivity|]. eapply gain_block; eauto.
    + exfalso. unfold tick_gain in Eg. destruct (nth i (bl_subs b) None) as [[]|]; try contradiction; discriminate Eg.
  - rewrite (H2 Ge). exists (default_of d). split; [apply nth_repeat_some; exact Ht|eapply gain_past; eauto].
Qed.
Lemma scale_channel_spec g s r : length g = length s -> scale_channel E g s = Ok r ->
  length r = length s /\ forall t x k, nth_error s t = Some x -> nth_error g t = Some k -> nth_error r t = Some (r_scale E x k).
Proof.
  intros L H. unfold scale_channel in H. destruct (Nat.ltb _ _); [discriminate H|]. injection H as <-. rewrite L, skipn_all, app_nil_r. split; [rewrite map_length, combine_length; lia|].
  clear L. revert g. induction s as [|y s IH]; intros [|k g] t x k0 H1 H2; destruct t as [|t]; cbn [nth_error combine map fst snd] in *; try discriminate; [congruence|eauto].
Qed.
Definition uniform (out : list chan) (n : nat) : Prop := Forall (fun ch : chan => length ch = n) out.
Lemma apply_gain_spec rate blocks d chans out r n : uniform out n -> apply_gain E rate blocks d chans out = Ok r ->
  zlen out = chans /\ length r = length out /\ uniform r n /\
  (blocks_fit blocks d -> forall c t x, nth_error out c = Some x -> forall y, nth_error x t = Some y ->
    exists ch g, nth_error r c = Some ch /\ gain_at blocks d t g /\ nth_error ch t = Some (r_scale E y g)).
Proof.
  intros U H. unfold apply_gain, veq, vcond, rthen in H. destruct (zlen out =? chans) eqn:Ez; [|discriminate H]. apply Z.eqb_eq in Ez. unfold rthen in H. cbn [rbind] in H.
  destruct (gains_per_tick E rate blocks d (first_ticks out)) as [gs|e| | |] eqn:Eg; cbn [rbind] in H; try discriminate H.
  pose proof (gains_length _ _ _ _ _ Eg) as Lg. pose proof (rmap_length _ _ _ H) as Lr. apply rmap_ok in H. split; [exact Ez|]. split; [exact Lr|].
  assert (out = [] \/ first_ticks out = n) as Fn. { destruct out as [|s out]; [auto|right]. inversion U; subst. reflexivity. }
  assert (forall c ch, nth_error r c = Some ch -> exists x, nth_error out c = Some x /\ length ch = length x /\ length gs = length x /\ scale_channel E gs x = Ok ch) as K.
  { intros c ch Hc. destruct (forall2_nth _ _ _ _ _ H Hc) as (x & Hx & Hs). exists x. split; [exact Hx|]. pose proof Hx as Hx'. apply nth_error_In in Hx'.
    unfold uniform in U. rewrite Forall_forall in U. pose proof (U _ Hx') as Ux. destruct Fn as [->|Fn]; [destruct Hx'|]. assert (length gs = length x) as Lx by (rewrite Lg, Fn, Ux; reflexivity).
    split; [exact (proj1 (scale_channel_spec _ _ _ Lx Hs))|auto]. }
  split.
  - apply Forall_forall. intros ch Hch. apply In_nth_error in Hch as [c Hc]. destruct (K c ch Hc) as (x & Hx & Lx & _). rewrite Lx. unfold uniform in U. rewrite Forall_forall in U. apply U. apply nth_error_In in Hx. exact Hx.
  - intros Fit c t x Hc y Hy. destruct (forall2_nth_l _ _ _ _ _ H Hc) as (ch & Hch & _). destruct (K c ch Hch) as (x' & Hx' & Lx & Lgx & Hs). rewrite Hc in Hx'. injection Hx' as <-.
    assert (t < length x)%nat as Ltx by (apply nth_error_Some; congruence). destruct (gains_spec _ _ _ _ _ Fit Eg t ltac:(lia)) as (g & G1 & G2).
    exists ch, g. split; [exact Hch|]. split; [exact G2|]. exact (proj2 (scale_channel_spec _ _ _ Lgx Hs) t y g Hy G1).
Qed.

(* ---- mixing the audio elements ---- *)
Lemma add_element_spec acc el n m : length acc = m -> length el = m -> uniform acc n -> uniform el n ->
  length (add_element E acc el) = m /\ uniform (add_element E acc el) n /\
  forall c t a x, (nth_error acc c = Some a) -> nth_error el c = Some x -> exists s, nth_error (add_element E acc el) c = Some s /\
    forall y z, nth_error a t = Some y -> nth_error x t = Some z -> nth_error s t = Some (a_add A y z).
Proof.
  intros L1 L2 U1 U2. unfold add_element. split; [rewrite map_length, combine_length; lia|]. split.
  - apply Forall_forall. intros s Hs. apply in_map_iff in Hs as ([a x] & <- & Hs). pose proof (in_combine_l _ _ _ _ Hs) as H1. pose proof (in_combine_r _ _ _ _ Hs) as H2.
    unfold uniform in *. rewrite Forall_forall in U1, U2. cbn [fst snd]. apply zip2_length_eq; auto.
  - intros c t a x Ha Hx. exists (zip2 (fun a0 x0 => a_add A a0 x0) a x). split.
    + clear - Ha Hx. revert el c Ha Hx. induction acc as [|a0 acc IH]; intros [|x0 el] [|c] Ha Hx; cbn [nth_error combine map fst snd] in *; try discriminate; [congruence|eauto].
    + intros y z Hy Hz. rewrite nth_error_zip2, Hy, Hz. reflexivity.
Qed.
Lemma fold_add_spec n m : forall els acc, length acc = m -> uniform acc n -> Forall (fun e => length e = m /\ uniform e n) els ->
  length (fold_left (add_element E) els acc) = m /\ uniform (fold_left (add_element E) els acc) n /\
  forall c t a y vs, nth_error acc c = Some a -> nth_error a t = Some y ->
    Forall2 (fun e v => exists ch, nth_error e c = Some ch /\ nth_error ch t = Some v) els vs ->
    exists s, nth_error (fold_left (add_element E) els acc) c = Some s /\ nth_error s t = Some (fold_left (a_add A) vs y).
Proof.
  induction els as [|e els IH]; intros acc La Ua He; cbn [fold_left].
  - split; [exact La|]. split; [exact Ua|]. intros c t a y vs Ha Hy Hv. inversion Hv; subst. cbn [fold_left]. eauto.
  - inversion He as [|? ? [L2 U2] He']; subst. destruct (add_element_spec acc e n (length acc) eq_refl L2 Ua U2) as (A1 & A2 & A3).
    destruct (IH (add_element E acc e) A1 A2 He') as (I1 & I2 & I3). split; [exact I1|]. split; [exact I2|].
    intros c t a y vs Ha Hy Hv. inversion Hv as [|? v ? vs' (ch & Hc & Ht) Hv']; subst. destruct (A3 c t a ch Ha Hc) as (s & Hs & Hst). cbn [fold_left]. eapply I3; eauto.
Qed.
Lemma mix_elements_spec els chans cap out : mix_elements E els chans cap = Ok out ->
  exists n, zlen out = chans /\ uniform out n /\ Forall (fun e => zlen e = chans /\ uniform e n) els /\ (els = [] -> chans = 0) /\
  forall c t vs, (c < length out)%nat -> (t < n)%nat ->
    Forall2 (fun e v => exists ch, nth_error e c = Some ch /\ nth_error ch t = Some v) els vs ->
    exists s, nth_error out c = Some s /\ nth_error s t = Some (fold_left (a_add A) vs zero).
Proof.
  intro H. unfold mix_elements in H. cbv zeta in H. set (m := match els with [] => O | e :: _ => length e end) in H. set (n := match els with (s :: _) :: _ => length s | _ => O end) in H.
  destruct (chans =? Z.of_nat m) eqn:Em; [|discriminate H]. apply Z.eqb_eq in Em. cbn [negb] in H. destruct (cap <? Z.of_nat n); [discriminate H|].
  destruct (forallb _ els) eqn:Ef; [|discriminate H]. cbn [negb] in H. injection H as <-.
  assert (Forall (fun e => length e = m /\ uniform e n) els) as He.
  { apply Forall_forall. intros e Hin. rewrite forallb_forall in Ef. specialize (Ef e Hin). apply andb_prop in Ef as [E1 E2]. apply Nat.eqb_eq in E1. split; [exact E1|].
    apply Forall_forall. intros s Hs. rewrite forallb_forall in E2. apply Nat.eqb_eq. exact (E2 s Hs). }
  destruct (fold_add_spec n m els (repeat (repeat zero n) m) (repeat_length _ _)) as (F1 & F2 & F3).
  { apply Forall_forall. intros s Hs. apply repeat_spec in Hs. subst s. apply repeat_length. }
  { exact He. }
  exists n. split; [unfold zlen; rewrite F1; lia|]. split; [exact F2|]. split.
  { eapply Forall_impl; [|exact He]. intros e [L U]. split; [unfold zlen; lia|exact U]. }
  split; [intros ->; cbn in m; subst m; lia|]. intros c t vs Hc Ht Hv. rewrite F1 in Hc. eapply F3; [apply nth_repeat_some; exact Hc|apply nth_repeat_some; exact Ht|exact Hv].
Qed.
End Facts.
