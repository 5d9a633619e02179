(* C65: a regular temporal unit is rendered, not refused. *)
From Verif Require Import Base WriteBuf ObuHeader SimpleObus CodecConfig Params AudioElement MixPresentation Timing ParamManager AeData
  Profile MixSelect PropsParams PropsPM MixGain PropsGain Processor Demix DemixFacts Render RenderFacts PropsRender PropsHistory PropsUnit.

Section Plays.
Context {T F B C : Type} (E : renv T F B C).
Notation chan := (@samples T).

(* ================= SPEC ================= *)
(* The audio element has a frame with all the channels its renderer takes, of n ticks and the trimmed ones, not more than the frame size;
   the renderer makes [chans] channels of them. *)
Definition audible (frames : list (Z * @labeled T)) (chans : Z) (n : nat) (e : @elem T B) : Prop :=
  exists lf, m_find (el_id e) frames = Some lf /\ trims_ok lf /\ Z.of_nat (start_trim E lf) + Z.of_nat (end_trim E lf) < 2^32 /\
    (exists l, In (Some l) (er_labels (el_rend e))) /\ (start_trim E lf + n + end_trim E lf <= er_spf (el_rend e))%nat /\
    (forall l, In (Some l) (er_labels (el_rend e)) -> exists s, find_samples l (lf_map lf) = Ok s /\ length s = (start_trim E lf + n + end_trim E lf)%nat) /\
    match matrix_of E (el_rend e) (lf_params lf) with
    | None => zlen (er_labels (el_rend e)) = chans
    | Some g => g <> [] /\ (length (er_labels (el_rend e)) <= length g)%nat /\ Forall (fun row => zlen row = chans) g
    end.
(* A mix gain with the sample rate of the renderer; the parameter block with its ID, if any, fits to it *)
Definition gain_ok (rate : Z) (blocks : list (Z * pblock)) (d : pdef) : Prop := pd_type (pd_kind d) = 0 /\ pb_rate (pd_base d) = rate /\ blocks_fit blocks d.

(* ================= proofs ================= *)
Definition is_label (x : slot) : bool := match x with Some _ => true | None => false end.
Lemma raw_ticks_ok (ls : list slot) (m : @smap T) raw : (forall l, In (Some l) ls -> exists s, find_samples l m = Ok s /\ length s = raw) ->
  forall o, (o = None \/ o = Some raw) -> raw_ticks ls m o = Ok (if existsb is_label ls then Some raw else o).
Proof.
  induction ls as [|[l|] ls IH]; intros H o Ho; cbn [raw_ticks existsb orb is_label]; [reflexivity| |].
  - destruct (H l (or_introl eq_refl)) as (s & Hs & Ls). rewrite Hs. cbn [rbind]. assert (forall x, In (Some x) ls -> exists s0, find_samples x m = Ok s0 /\ length s0 = raw) as H' by (intros x Hx; apply H; right; exact Hx).
    pose proof (IH H' (Some raw) (or_intror eq_refl)) as Q. assert (raw_ticks ls m (Some raw) = Ok (Some raw)) as Q' by (destruct (existsb is_label ls); exact Q). clear Q. rename Q' into Q.
    destruct Ho as [-> | ->]; [rewrite Ls; exact Q|]. rewrite Ls, Nat.eqb_refl. exact Q.
  - apply IH; [|exact Ho]. intros x Hx. apply H. right. exact Hx.
Qed.
Lemma rmap_total {X Y} (f : X -> res Y) l : (forall x, In x l -> exists y, f x = Ok y) -> exists r, rmap f l = Ok r.
Proof.
  induction l as [|x l IH]; intro H; [exists []; reflexivity|]. destruct (H x (or_introl eq_refl)) as (y & Hy). destruct IH as (r & Hr); [intros z Hz; apply H; right; exact Hz|]. exists (y :: r). cbn [rmap]. rewrite Hy. cbn [rbind]. rewrite Hr. reflexivity.
Qed.
Lemma arranged_ok frames chans n e lf : m_find (el_id e) frames = Some lf -> audible frames chans n e -> exists ins, arranged E (el_rend e) lf = Ok (ins, n) /\ length ins = length (er_labels (el_rend e)) /\ uniform ins n.
Proof.
  intros Hf (lf' & A0 & A1 & A2 & (l0 & A3) & A4 & A5 & _). rewrite Hf in A0. injection A0 as <-. set (r := el_rend e) in *.
  assert (trimmed_ticks E lf (er_labels r) (er_spf r) = Ok n) as Tn.
  { unfold trimmed_ticks. rewrite (raw_ticks_ok _ _ _ A5 None (or_introl eq_refl)). assert (existsb is_label (er_labels r) = true) as -> by (apply existsb_exists; eauto). cbn [rbind].
    replace (Nat.ltb (er_spf r) (start_trim E lf + n + end_trim E lf)) with false by (symmetry; apply Nat.ltb_ge; exact A4). cbv zeta.
    destruct A1 as [B1 B2]. assert (forall b z, 0 <= z -> 0 <= trim_of b z) as N by (intros [] z Hz; cbn [trim_of]; lia). pose proof (N (r_trim_begin E) _ B1). pose proof (N (r_trim_end E) _ B2). unfold start_trim, end_trim in *. rewrite !Z2Nat.id in A2 by assumption.
    replace (_ >=? 2^32) with false by lia. replace (Z.of_nat _ <? _) with false by lia. f_equal. lia. }
  unfold arranged. destruct (er_labels r) as [|x0 ls0] eqn:El; [destruct A3|]. rewrite <- El in *. unfold arrange. rewrite Tn. cbn [rbind].
  match goal with |- context[rmap ?f _] => assert (forall x, In x (er_labels r) -> exists y, f x = Ok y) as K end.
  { intros x Hx. cbv beta. destruct x as [l|].
    - destruct (A5 l Hx) as (s & Hs & Ls). rewrite Hs. cbn [rbind]. unfold subspan. replace (Nat.ltb (length s) _) with false; [eauto|]. symmetry. apply Nat.ltb_ge. unfold start_trim in Ls. lia.
    - cbn [rbind]. unfold subspan. rewrite repeat_length. replace (Nat.ltb (er_spf r) _) with false; [eauto|]. symmetry. apply Nat.ltb_ge. unfold start_trim in A4. lia. }
  destruct (rmap_total _ _ K) as (ins & Hi). clear K. match type of Hi with ?a = ?b => match goal with |- context[rmap ?f ?l] => assert (rmap f l = b) as Hi' by exact Hi; rewrite Hi' end end. cbn [rbind]. exists ins. split; [reflexivity|]. split; [exact (rmap_length _ _ _ Hi)|].
  assert (arrange E lf (er_labels r) (er_spf r) = Ok (ins, n)) as Ha. { unfold arrange. rewrite Tn. cbn [rbind]. match goal with |- context[rmap ?f ?l] => assert (rmap f l = Ok ins) as Hi2 by exact Hi; rewrite Hi2 end. reflexivity. }
  destruct (arrange_spec E _ _ _ _ _ A1 Ha) as (_ & Fa). clear - Fa. unfold uniform. revert Fa. generalize (er_labels r). intros ll Fa. induction Fa as [|x s ls rr (full & _ & _ & L & _) _ IH]; constructor; auto.
Qed.
Lemma mix_in_total o n : forall ins g acc, Forall (fun s : chan => length s = n) ins -> length acc = n -> (length ins <= length g)%nat -> Forall (fun row => (o < length row)%nat) g -> exists r, mix_in E ins g o acc = Ok r.
Proof.
  induction ins as [|s ins IH]; intros g acc Hl Ha Hg Hr; cbn [mix_in]; [eauto|]. destruct g as [|row g]; [cbn [length] in Hg; lia|]. inversion Hl; subst. inversion Hr; subst. destruct (nth_error row o) as [k|] eqn:Ek; [|apply nth_error_None in Ek; lia].
  apply IH; auto; [unfold axpy; apply zip2_length_eq; auto|cbn [length] in Hg; lia].
Qed.
Lemma raw_total r p ins chans n : uniform ins n -> ins <> [] -> length ins = length (er_labels r) ->
  match matrix_of E r p with None => zlen (er_labels r) = chans | Some g => g <> [] /\ (length (er_labels r) <= length g)%nat /\ Forall (fun row => zlen row = chans) g end ->
  exists o, raw E r p ins = Ok o /\ zlen o = chans /\ uniform o n.
Proof.
  intros U Ne Li H. unfold raw. destruct (matrix_of E r p) as [g|]; [|exists ins; split; [reflexivity|split; [unfold zlen in *; lia|exact U]]]. destruct H as (H1 & H2 & H3).
  assert (exists o, render_gains E ins g = Ok o) as (o & Ho).
  { unfold render_gains. destruct g as [|row g]; [congruence|]. replace (Nat.ltb (length (row :: g)) (length ins)) with false by (symmetry; apply Nat.ltb_ge; lia).
    assert (first_ticks ins = n) as Fn by (destruct ins as [|s ins]; [congruence|]; inversion U; subst; reflexivity). rewrite Fn.
    assert (forallb (fun s : list T => Nat.eqb (length s) n) ins = true) as ->. { apply forallb_forall. intros s Hs. apply Nat.eqb_eq. unfold uniform in U. rewrite Forall_forall in U. exact (U s Hs). } cbn [negb].
    apply rmap_total. intros k Hk. apply in_seq in Hk. apply (mix_in_total k n); [exact U|apply repeat_length|lia|]. eapply Forall_impl; [|exact H3]. intros row' Hr'. cbv beta in Hr'. pose proof (Forall_inv H3) as Hr. cbv beta in Hr. unfold zlen in *. lia. }
  destruct (render_gains_spec E ins g o n U Ne Ho) as (_ & G2 & G3). exists o. split; [exact Ho|]. split.
  - destruct g as [|row g]; [congruence|]. pose proof (Forall_inv H3) as Hr. cbv beta in Hr. rewrite <- Hr. unfold zlen. rewrite (G2 row g eq_refl). reflexivity.
  - unfold uniform. apply Forall_forall. intros ch Hc. apply In_nth_error in Hc as (i & Hc). exact (proj1 (G3 i ch Hc)).
Qed.
Lemma gains_total rate blocks d n : gain_ok rate blocks d -> exists gs, gains_per_tick E rate blocks d n = Ok gs /\ length gs = n.
Proof.
  intros (G0 & G1 & G2). unfold gains_per_tick. rewrite G1, Z.eqb_refl. cbn [negb]. cbv zeta. destruct (m_find (pb_id (pd_base d)) blocks) as [b|] eqn:Eb; [|eexists; split; [reflexivity|apply repeat_length]].
  destruct (G2 b Eb) as (s & l & Sc & Pt & Tl & Ls & Gd & Sh). destruct (C25_tick_gains_partial F (r_step E) (r_linear E) (r_bezier E) (r_tolin E) d b s l (repeat (r_tolin E (r_step E (default_gain d))) n) G0 Sc Pt Tl Ls Gd Sh) as (new & Hn & Ln & _).
  rewrite Hn. exists new. split; [reflexivity|]. rewrite Ln. apply repeat_length.
Qed.
Lemma apply_gain_total rate blocks d chans out n : gain_ok rate blocks d -> zlen out = chans -> uniform out n -> exists r, apply_gain E rate blocks d chans out = Ok r /\ zlen r = chans /\ uniform r n.
Proof.
  intros G Zo U. assert (exists r, apply_gain E rate blocks d chans out = Ok r) as (r & Hr).
  { unfold apply_gain, veq, vcond, rthen. rewrite Zo, Z.eqb_refl. cbn [rbind]. destruct (gains_total rate blocks d (first_ticks out) G) as (gs & Hg & Lg). rewrite Hg. cbn [rbind]. apply rmap_total. intros s Hs. unfold scale_channel.
    replace (Nat.ltb (length s) (length gs)) with false; [eauto|]. symmetry. apply Nat.ltb_ge. rewrite Lg. unfold uniform in U. rewrite Forall_forall in U. rewrite (U s Hs). destruct out as [|s0 out]; [destruct Hs|]. cbn [first_ticks]. rewrite (U s0 (or_introl eq_refl)). lia. }
  exists r. destruct (apply_gain_spec E _ _ _ _ _ _ _ U Hr) as (_ & L & U' & _). split; [exact Hr|]. split; [unfold zlen in *; lia|exact U'].
Qed.
Lemma render_elements_total frames blocks chans rate spf n : forall els, Forall (idle spf) els -> Forall (audible frames chans n) els -> Forall (fun e => gain_ok rate blocks (el_gain e)) els ->
  exists els', render_elements E frames blocks chans rate spf els = (Ok tt, els') /\ length els' = length els /\ Forall (fun e => zlen (el_out e) = chans /\ uniform (el_out e) n) els'.
Proof.
  induction els as [|e els IH]; intros Hi Ha Hg; [exists []; repeat split; constructor|]. inversion Hi as [|? ? (I1 & I2 & I3 & I4) Hi']; subst. inversion Ha as [|? ? Ae Ha']; subst. inversion Hg as [|? ? Ge Hg']; subst.
  destruct (IH Hi' Ha' Hg') as (els' & J1 & J2 & J3). clear IH. pose proof Ae as (lf & A0 & _ & _ & _ & A4 & _ & A6). cbn [render_elements]. rewrite A0.
  destruct (arranged_ok _ _ _ _ _ A0 Ae) as (ins & N1 & N2 & N3). assert (ins <> []) as Ni by (intros ->; destruct (er_labels (el_rend e)); [congruence|discriminate N2]).
  destruct (raw_total (el_rend e) (lf_params lf) ins chans n N3 Ni N2 A6) as (o & R1 & R2 & R3). rewrite (render_to_layout_eq E) by assumption. rewrite N1, R1.
  replace (Z.of_nat n >? Z.of_nat (er_spf (el_rend e))) with false by lia. cbv zeta.
  assert (Nat.eqb n 0 = true \/ existsb (fun ch : list T => match ch with [] => true | _ => false end) o = false) as Q.
  { destruct (Nat.eqb n 0) eqn:E0; [auto|]. right. apply Nat.eqb_neq in E0.
    match goal with |- ?a = false => destruct a eqn:Ex end; [|reflexivity]. apply existsb_exists in Ex as (ch & X1 & X2). unfold uniform in R3. rewrite Forall_forall in R3. specialize (R3 ch X1). destruct ch; [cbn [length] in R3; congruence|discriminate X2]. }
  assert (forall A (a b : A), (if Nat.eqb n 0 then a else if existsb (fun ch : list T => match ch with [] => true | _ => false end) o then b else a) = a) as Q' by (intros A a b; destruct Q as [-> | ->]; [reflexivity|destruct (Nat.eqb n 0); reflexivity]).
  match goal with |- context[if Nat.eqb n 0 then ?a else if _ then ?b else _] => pose proof (Q' _ a b) as Q2 end.
  match type of Q2 with ?x = _ => match goal with |- context[if Nat.eqb n 0 then ?a else ?b] => change (if Nat.eqb n 0 then a else b) with x end end. rewrite Q2. clear Q Q' Q2.
  cbn [rbind]. destruct (apply_gain_total _ _ _ _ _ _ Ge R2 R3) as (o1 & P1 & P2 & P3). rewrite P1. rewrite J1. eexists. split; [reflexivity|]. split; [cbn [length]; rewrite J2; reflexivity|]. constructor; [split; assumption|exact J3].
Qed.

Lemma mix_elements_total o0 os chans cap n : Z.of_nat n <= cap -> Forall (fun o : list chan => zlen o = chans /\ uniform o n) (o0 :: os) ->
  exists m, mix_elements E (o0 :: os) chans cap = Ok m /\ zlen m = chans /\ uniform m n.
Proof.
  intros Hc H. pose proof (Forall_inv H) as [K1 K2]. cbv beta in K1, K2. unfold mix_elements. cbv zeta.
  assert (exists ticks, match o0 with s :: _ => length s | [] => O end = ticks /\ (o0 = [] /\ ticks = O \/ ticks = n)) as (ticks & -> & Tn).
  { destruct o0 as [|s r]; [exists O; auto|]. exists (length s). split; [reflexivity|]. right. exact (Forall_inv K2). }
  replace (negb (chans =? Z.of_nat (length o0))) with false by (unfold zlen in K1; rewrite K1, Z.eqb_refl; reflexivity). replace (cap <? Z.of_nat ticks) with false by lia.
  assert (Forall (fun o : list chan => length o = length o0 /\ uniform o ticks) (o0 :: os)) as H'.
  { eapply Forall_impl; [|exact H]. intros o [X1 X2]. split; [unfold zlen in *; lia|]. destruct Tn as [[Q _]| ->]; [|exact X2]. subst o0. unfold zlen in *. cbn [length] in K1. destruct o; [constructor|cbn [length] in X1; lia]. }
  match goal with |- context[negb (forallb ?f ?l)] => assert (forallb f l = true) as -> end.
  { apply forallb_forall. intros o Ho. rewrite Forall_forall in H'. destruct (H' o Ho) as [X1 X2]. apply andb_true_iff. split; [apply Nat.eqb_eq; exact X1|]. apply forallb_forall. intros s Hs. apply Nat.eqb_eq. unfold uniform in X2. rewrite Forall_forall in X2. exact (X2 s Hs). }
  cbn [negb]. eexists. split; [reflexivity|].
  destruct (fold_add_spec E ticks (length o0) (o0 :: os) (repeat (repeat (zero E) ticks) (length o0))) as (F1 & F2 & _).
  - apply repeat_length.
  - unfold uniform. apply Forall_forall. intros x Hx. apply repeat_spec in Hx. subst x. apply repeat_length.
  - exact H'.
  - split; [unfold zlen in *; etransitivity; [|exact K1]; f_equal; exact F1|]. destruct Tn as [[Q _]| ->]; [|exact F2]. subst o0. unfold uniform in *. match goal with |- Forall _ ?x => assert (length x = O) as L by exact F1; destruct x; [constructor|discriminate L] end.
Qed.

(* C65. Rendering to a layout *)
Theorem C65_layout : forall l frames blocks n, ready l -> lr_els l <> [] -> Z.of_nat n <= lr_spf l ->
  Forall (audible frames (lr_chans l) n) (lr_els l) -> Forall (gain_ok (lr_rate l) blocks) (lr_gain l :: map el_gain (lr_els l)) ->
  exists out l1, render E l frames blocks = (Ok out, l1) /\ zlen out = lr_chans l /\ uniform out n.
Proof.
  intros l frames blocks n Hr Hn Hs Ha Hg. inversion Hg as [|? ? G0 Hg']; subst. rewrite Forall_map in Hg'. unfold render.
  destruct (render_elements_total frames blocks (lr_chans l) (lr_rate l) (lr_spf l) n (lr_els l) Hr Ha Hg') as (els & J1 & J2 & J3). rewrite J1. cbn [rbind].
  destruct els as [|e0 els]; [destruct (lr_els l); [congruence|discriminate J2]|]. pose proof J3 as J3'. inversion J3' as [|? ? [K1 K2] _]; subst.
  assert (exists m, mix_elements E (map (@el_out T B) (e0 :: els)) (lr_chans l) (lr_spf l) = Ok m /\ zlen m = lr_chans l /\ uniform m n) as (m & M1 & M2 & M3).
  { cbn [map]. apply mix_elements_total; [exact Hs|]. change (el_out e0 :: map (@el_out T B) els) with (map (@el_out T B) (e0 :: els)). apply Forall_map. exact J3. }
  rewrite M1. cbn [rbind]. destruct (apply_gain_total _ _ _ _ _ _ G0 M2 M3) as (o & O1 & O2 & O3). rewrite O1. eauto.
Qed.
End Plays.
