(* C62: projection of ambisonics channels before binaural rendering (renderer_utils.cc:218-271). *)
From Coq Require Import Reals.
From Verif Require Import Base WriteBuf ObuHeader SimpleObus CodecConfig Params AudioElement MixPresentation AeData MixGain Demix DemixFacts Render RenderFacts RenderSafe.
Open Scope Z_scope.

Section Project.
Context {T F B C : Type} (E : renv T F B C).
Notation chan := (@samples T).
Lemma projected_in nout o : forall ins m acc r, project_in E ins m nout o acc = Ok r ->
  forall t y, nth_error r t = Some y -> exists y0 terms, nth_error acc t = Some y0 /\ length terms = length ins /\ y = fold_left (a_add (r_A E)) terms y0 /\
    forall i s, nth_error ins i = Some s -> exists k x, nth_error m (i * nout + o) = Some k /\ nth_error s t = Some x /\ nth_error terms i = Some (a_mul (r_A E) k x).
Proof.
  induction ins as [|s ins IH]; intros m acc r H t y Hy; cbn [project_in] in H.
  - injection H as <-. exists y, []. split; [exact Hy|]. repeat split. intros [|i] s Hs; discriminate Hs.
  - destruct (nth_error m o) as [k|] eqn:Ek; [|discriminate H]. destruct (IH _ _ _ H t y Hy) as (y1 & terms & A1 & A2 & A3 & A4). rewrite nth_error_zip2 in A1.
    destruct (nth_error acc t) as [y0|] eqn:E0; [|discriminate A1]. destruct (nth_error s t) as [x|] eqn:E1; [|discriminate A1]. injection A1 as <-.
    exists y0, (a_mul (r_A E) k x :: terms). split; [reflexivity|]. split; [cbn [length]; congruence|]. split; [exact A3|].
    intros [|i] s' Hs; cbn [nth_error] in Hs.
    + injection Hs as <-. exists k, x. auto.
    + destruct (A4 i s' Hs) as (k' & x' & K1 & K2 & K3). exists k', x'. rewrite nth_error_skipn in K1. replace (S i * nout + o)%nat with (nout + (i * nout + o))%nat by lia. auto.
Qed.
(* The projection multiplies by a matrix which is stored a column after the other, a column for each input channel: sample [t] of output
   channel [o] is the sum, from 0 and in the order of the input channels, of [m[i * nout + o] * ins[i][t]]. *)
Theorem C62_projected : forall (ins : list chan) m spf out, project E ins m spf = Ok out ->
  out <> [] /\ length m = (length ins * length out)%nat /\
  forall o ch, nth_error out o = Some ch -> length ch = spf /\
  forall t y, nth_error ch t = Some y -> exists terms, length terms = length ins /\ y = fold_left (a_add (r_A E)) terms (zero E) /\
    forall i s, nth_error ins i = Some s -> exists k x, nth_error m (i * length out + o) = Some k /\ nth_error s t = Some x /\ nth_error terms i = Some (a_mul (r_A E) k x).
Proof.
  intros ins m spf out H. assert (U : exists n, uniform ins n).
  { unfold project in H. destruct ins as [|s ins]; [discriminate H|]. destruct m as [|a m]; [discriminate H|]. destruct (forallb _ _) eqn:Q; [|discriminate H]. exists (first_ticks (s :: ins)).
    apply Forall_forall. rewrite forallb_forall in Q. intros c Hc. apply Nat.eqb_eq. exact (Q c Hc). }
  destruct U as (n & U). split; [apply (project_ends E ins m spf n U); exact H|]. pose proof (proj1 (proj2 (project_ends E ins m spf n U) out H)) as Uo.
  unfold project in H. destruct ins as [|s ins]; [discriminate H|]. destruct m as [|a m]; [discriminate H|].
  destruct (negb _); [discriminate H|]. destruct (zlen (a :: m) mod zlen (s :: ins) =? 0) eqn:Em; cbn [negb] in H; [|discriminate H]. destruct (Nat.eqb spf _) eqn:Es; cbn [negb] in H; [|discriminate H].
  apply Nat.eqb_eq in Es. apply Z.eqb_eq in Em. cbv zeta in H. set (nout := Z.to_nat (zlen (a :: m) / zlen (s :: ins))) in *.
  assert (0 < zlen (s :: ins)) as P1 by (unfold zlen; cbn [length]; lia). assert (0 < zlen (a :: m)) as P2 by (unfold zlen; cbn [length]; lia).
  pose proof (Z.div_mod (zlen (a :: m)) (zlen (s :: ins)) ltac:(lia)) as Dm. rewrite Em, Z.add_0_r in Dm.
  assert (0 < zlen (a :: m) / zlen (s :: ins)) as P3 by nia. assert (length (s :: ins) * nout = length (a :: m))%nat as Ln by (unfold nout, zlen in *; nia).
  assert (Lo : length out = nout) by (rewrite (rmap_length _ _ _ H), seq_length; reflexivity). rewrite Lo. split; [symmetry; exact Ln|].
  apply rmap_ok in H. intros o ch Hc. assert (Hn : n = spf) by (inversion U; subst; reflexivity). split.
  - rewrite <- Hn. unfold uniform in Uo. rewrite Forall_forall in Uo. exact (Uo ch (nth_error_In _ _ Hc)).
  - intros t y Hy. destruct (forall2_nth _ _ _ _ _ H Hc) as (o' & Ho & Hp).
    assert (o' = o) as ->. { assert (o < nout)%nat as L by (rewrite <- Lo; apply nth_error_Some; congruence). rewrite (nth_error_nth' _ O) in Ho by (rewrite seq_length; exact L). injection Ho as <-. rewrite seq_nth by exact L. reflexivity. }
    destruct (projected_in _ _ _ _ _ _ Hp t y Hy) as (y0 & terms & A1 & A2 & A3 & A4). exists terms. split; [exact A2|]. split; [|exact A4].
    apply nth_error_In, repeat_spec in A1. subst y0. exact A3.
Qed.
Lemma project_in_some nout o : (o < nout)%nat -> forall ins m acc, (length ins * nout <= length m)%nat -> exists r, project_in E ins m nout o acc = Ok r.
Proof.
  intro Ho. induction ins as [|s ins IH]; intros m acc L; cbn [project_in]; [eauto|]. cbn [length] in L. destruct (nth_error m o) eqn:Q; [|apply nth_error_None in Q; nia]. apply IH. rewrite skipn_length. nia.
Qed.
Lemma project_all (ins : list chan) m nout spf l : (forall o, In o l -> (o < nout)%nat) -> (length ins * nout <= length m)%nat ->
  exists x, rmap (fun o => project_in E ins m nout o (repeat (zero E) spf)) l = Ok x.
Proof.
  intros H L. induction l as [|o l IH]; cbn [rmap]; [eauto|]. destruct (project_in_some nout o (H o ltac:(now left)) ins m (repeat (zero E) spf) L) as (r & ->). cbn [rbind]. destruct IH as (x & ->); [intros o' Ho'; apply H; now right|]. cbn [rbind]. eauto.
Qed.
(* it succeeds when the channels are as long as a frame and the matrix has a column for each of them *)
Theorem C62_projects : forall (ins : list chan) m spf nout, ins <> [] -> nout <> O -> Forall (fun s => length s = spf) ins -> length m = (length ins * nout)%nat ->
  exists out, project E ins m spf = Ok out /\ length out = nout.
Proof.
  intros ins m spf nout Hi Ho U Lm. destruct (project_ends E ins m spf spf U) as (K & _). destruct (project E ins m spf) as [out|c| | |] eqn:Q; try (destruct K as [(? & K)|(? & K)]; discriminate K).
  - exists out. split; [reflexivity|]. destruct (C62_projected _ _ _ _ Q) as (_ & L & _). destruct ins; [contradiction|]. cbn [length] in *. nia.
  - exfalso. unfold project in Q. destruct ins as [|s ins]; [now apply Hi|]. destruct m as [|a m]; [cbn [length] in Lm; nia|]. assert (Fs : first_ticks (s :: ins) = spf) by (inversion U; assumption).
    assert (Ff : forallb (fun s0 : list T => Nat.eqb (length s0) (first_ticks (s :: ins))) (s :: ins) = true). { apply forallb_forall. rewrite Forall_forall in U. intros c0 Hc. apply Nat.eqb_eq. rewrite Fs. exact (U c0 Hc). }
    rewrite Ff, Fs, Nat.eqb_refl in Q. cbn [negb] in Q. assert (Zm : zlen (a :: m) mod zlen (s :: ins) = 0).
    { unfold zlen. rewrite Lm, Nat2Z.inj_mul, Z.mul_comm. apply Z.mod_mul. cbn [length]. lia. }
    rewrite Zm in Q. change (negb (0 =? 0)) with false in Q. cbv zeta iota in Q.
    assert (Zd : zlen (a :: m) / zlen (s :: ins) = Z.of_nat nout). { unfold zlen. rewrite Lm, Nat2Z.inj_mul, Z.mul_comm. apply Z.div_mul. cbn [length]. lia. }
    rewrite Zd, Nat2Z.id in Q. destruct (project_all (s :: ins) (a :: m) nout spf (seq 0 nout)) as (x & K1); [|lia|rewrite K1 in Q; discriminate Q].
    intros o Hin. apply in_seq in Hin. lia.
Qed.
(* two channels of two samples into three *)
Lemma ex_projected a b c d k0 k1 k2 l0 l1 l2 : let p := a_mul (r_A E) in let s x y := a_add (r_A E) (a_add (r_A E) (zero E) x) y in
  project E [[a; b]; [c; d]] [k0; k1; k2; l0; l1; l2] 2 = Ok [[s (p k0 a) (p l0 c); s (p k0 b) (p l0 d)]; [s (p k1 a) (p l1 c); s (p k1 b) (p l1 d)]; [s (p k2 a) (p l2 c); s (p k2 b) (p l2 d)]].
Proof. reflexivity. Qed.
End Project.
