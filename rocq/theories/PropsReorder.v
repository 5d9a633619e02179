(* C47: the channel order of the output. *)
From Coq Require Import Permutation.
From Verif Require Import Base BitFacts MixPresentation Reorder.

(* ---- Specification ------------------------------------------------------------------------- *)

(* Loudspeaker positions, in the order of the bits of Android's AudioFormat.CHANNEL_OUT_ / java channel mask
   (front, low frequency, back, front of centre, back centre, side, top, bottom, second low frequency). *)
Inductive spk :=
| FL | FR | FC | LFE | BL | BR | FLC | FRC | BC | SL | SR | TC | TFL | TFC | TFR | TBL | TBC | TBR
| TSL | TSR | BFL | BFC | BFR | LFE2.

Definition rank (s : spk) : Z :=
  match s with
  | FL => 0 | FR => 1 | FC => 2 | LFE => 3 | BL => 4 | BR => 5 | FLC => 6 | FRC => 7 | BC => 8 | SL => 9 | SR => 10
  | TC => 11 | TFL => 12 | TFC => 13 | TFR => 14 | TBL => 15 | TBC => 16 | TBR => 17 | TSL => 18 | TSR => 19
  | BFL => 20 | BFC => 21 | BFR => 22 | LFE2 => 23
  end.

(* The order in which IAMF (after ITU-R BS.2051) lists the channels of each sound system. *)
Definition iamf_order (ss : Z) : list spk :=
  match ss with
  | 0 => [FL; FR]
  | 1 => [FL; FR; FC; LFE; BL; BR]
  | 2 => [FL; FR; FC; LFE; BL; BR; TFL; TFR]
  | 3 => [FL; FR; FC; LFE; BL; BR; TFL; TFR; TBL; TBR]
  | 4 => [FL; FR; FC; LFE; BL; BR; TFL; TFR; TBL; TBR; BFC]
  | 5 => [FC; FL; FR; TFL; TFR; SL; SR; BL; BR; TC; LFE; LFE2]
  | 6 => [FL; FR; FC; LFE; SL; SR; BL; BR; TFL; TFR; TBL; TBR; FLC; FRC]
  | 7 => [FL; FR; FC; LFE; BL; BR; FLC; FRC; BC; LFE2; SL; SR; TFL; TFR; TFC; TC; TBL; TBR; TSL; TSR; TBC; BFC; BFL; BFR]
  | 8 => [FL; FR; FC; LFE; SL; SR; BL; BR]
  | 9 => [FL; FR; FC; LFE; SL; SR; BL; BR; TFL; TFR; TBL; TBR]
  | 10 => [FL; FR; FC; LFE; SL; SR; BL; BR; TFL; TFR]
  | 11 => [FL; FR; FC; LFE; TFL; TFR]
  | 12 => [FC]
  | 13 => [FL; FR; FC; LFE; BL; BR; FLC; FRC; SL; SR; TFL; TFR; TBL; TBR; TSL; TSR]
  (* 14 = 7.1.5.4: L7 R7 C LFE Lss7 Rss7 Lrs7 Rrs7, then five top and four bottom channels. *)
  | 14 => [FL; FR; FC; LFE; SL; SR; BL; BR]
  | _ => []
  end.

(* Channels in increasing mask order. *)
Fixpoint ascending (l : list Z) : Prop :=
  match l with [] => True | a :: t => match t with [] => True | b :: _ => a < b end /\ ascending t end.

(* [out] lists the same channels as [inp], now in Android's order. Channels are named by [names] (same positions as
   [inp]): there is a renaming of [out] that pairs each channel with the same speaker and is ascending. *)
Definition in_android_order {A} (names : list spk) (inp out : list A) : Prop :=
  exists names', Permutation (combine names inp) (combine names' out) /\ length names' = length out /\
                 ascending (map rank names').

(* ---- Proofs ---------------------------------------------------------------------------------- *)

Fixpoint insert_s (s : spk) (l : list spk) : list spk :=
  match l with [] => [s] | a :: t => if rank s <? rank a then s :: l else a :: insert_s s t end.
Definition sort_s (l : list spk) : list spk := fold_right insert_s [] l.

(* Solves goals "Permutation l l'" between two literal lists with the same elements. *)
Ltac perm_lit :=
  repeat match goal with
  | |- Permutation [] [] => apply Permutation_refl
  | |- Permutation (?x :: _) ?r =>
      let rec go pre r := match r with
        | x :: ?t => apply (Permutation_cons_app pre t x); cbn [app]
        | ?y :: ?t => go (pre ++ [y]) t
        end in
      match type of x with ?T => go (@nil T) r end
  end.

Ltac take_apart l n :=
  match n with
  | O => destruct l; [|cbn [length] in *; exfalso; lia]
  | S ?k => let a := fresh "a" in destruct l as [|a l]; [cbn [length] in *; exfalso; lia|]; take_apart l k
  end.

Lemma short_of : forall {A} (l : list A) n, (n <= length l)%nat -> (zlen l <? Z.of_nat n) = false.
Proof. intros A l n H. unfold zlen. lia. Qed.

(* A frame of a layout with the number of channels that the layout has comes out complete, channel for channel, in
   Android's order. *)
Theorem C47_android_order :
  forall {A} ss n (frame : list A), 0 <= ss <= 13 ->
    nth_error ss_channels (Z.to_nat ss) = Some n -> zlen frame = n ->
    exists out, reorder ForAndroid ss frame = Ok out /\ in_android_order (iamf_order ss) frame out.
Proof.
  intros A ss n frame Hss Hn Hl.
  assert (Hc : ss = 0 \/ ss = 1 \/ ss = 2 \/ ss = 3 \/ ss = 4 \/ ss = 5 \/ ss = 6 \/ ss = 7 \/ ss = 8 \/ ss = 9 \/
               ss = 10 \/ ss = 11 \/ ss = 12 \/ ss = 13) by lia.
  unfold zlen in Hl.
  repeat (destruct Hc as [Hc|Hc]); subst ss; cbn in Hn; injection Hn as <-;
  (let k := match type of Hl with _ = ?z => eval compute in (Z.to_nat z) end in take_apart frame k);
  (eexists; split; [reflexivity|]);
  match goal with |- in_android_order (iamf_order ?s) _ _ =>
    exists (sort_s (iamf_order s)); split; [|split; [reflexivity|vm_compute; repeat split; reflexivity]];
    let x := eval vm_compute in (sort_s (iamf_order s)) in change (sort_s (iamf_order s)) with x
  end; cbn [iamf_order combine]; perm_lit.
Qed.

(* Nothing is ever lost, duplicated or read out of bounds, whatever the number of channels and the sound system; a
   frame with too few channels is refused. *)
Lemma reorder_total : forall {A} sch ss (l : list A),
  (exists out, reorder sch ss l = Ok out /\ Permutation l out) \/
  (reorder sch ss l = Err InvalidArgument /\ sch = ForAndroid /\ 5 <= ss <= 10 /\
   exists n, nth_error ss_channels (Z.to_nat ss) = Some n /\ zlen l < n).
Proof.
  intros A sch ss l. destruct sch; cbn [reorder]; [left; exists l; split; [reflexivity|apply Permutation_refl]|].
  destruct ((ss =? 8) || (ss =? 9) || (ss =? 10)) eqn:E1.
  - unfold swap_back_and_sides. destruct (zlen l <? 8) eqn:E.
    + right. split; [reflexivity|]. split; [reflexivity|]. split; [lia|].
      assert (Hc : ss = 8 \/ ss = 9 \/ ss = 10) by lia.
      repeat (destruct Hc as [Hc|Hc]); subst ss; eexists; (split; [reflexivity|lia]).
    + left. unfold zlen in E.
      do 8 (destruct l as [|? l]; [cbn [length] in E; lia|]).
      eexists; split; [reflexivity|]. do 4 apply perm_skip.
      perm_lit. 
      all: try apply Permutation_refl.
  - destruct (ss =? 5) eqn:E2; [|destruct (ss =? 6) eqn:E3; [|destruct (ss =? 7) eqn:E4]].
    all: try (left; exists l; split; [reflexivity|apply Permutation_refl]).
    + apply Z.eqb_eq in E2. subst ss. unfold reorder_f. destruct (zlen l <? 11) eqn:E.
      * right. split; [reflexivity|]. split; [reflexivity|]. split; [lia|]. eexists; (split; [reflexivity|lia]).
      * left. unfold zlen in E.
        do 11 (destruct l as [|? l]; [cbn [length] in E; lia|]).
        eexists; split; [reflexivity|]. perm_lit. all: try apply Permutation_refl.
    + apply Z.eqb_eq in E3. subst ss. unfold reorder_g. destruct (zlen l <? 14) eqn:E.
      * right. split; [reflexivity|]. split; [reflexivity|]. split; [lia|]. eexists; (split; [reflexivity|lia]).
      * left. unfold zlen in E.
        do 14 (destruct l as [|? l]; [cbn [length] in E; lia|]).
        eexists; split; [reflexivity|]. perm_lit. all: try apply Permutation_refl.
    + apply Z.eqb_eq in E4. subst ss. unfold reorder_h. destruct (zlen l <? 24) eqn:E.
      * right. split; [reflexivity|]. split; [reflexivity|]. split; [lia|]. eexists; (split; [reflexivity|lia]).
      * left. unfold zlen in E.
        do 24 (destruct l as [|? l]; [cbn [length] in E; lia|]).
        eexists; split; [reflexivity|]. perm_lit. all: try apply Permutation_refl.
Qed.

Theorem C47_nothing_lost : forall {A} sch ss (l : list A) r,
  reorder sch ss l = r ->
  (exists out, r = Ok out /\ Permutation l out) \/
  (r = Err InvalidArgument /\ exists n, nth_error ss_channels (Z.to_nat ss) = Some n /\ zlen l < n).
Proof.
  intros A sch ss l r <-. destruct (reorder_total sch ss l) as [H|[H [_ [_ H']]]]; [left; exact H|right].
  split; assumption.
Qed.

(* Without the Android scheme, and for every layout already in that order, frames are passed through. *)
Theorem C47_identity : forall {A} ss (l : list A),
  reorder DefaultNoOp ss l = Ok l /\
  (~ (5 <= ss <= 10) -> reorder ForAndroid ss l = Ok l).
Proof.
  intros A ss l. split; [reflexivity|]. intros H. cbn [reorder].
  replace (ss =? 8) with false by lia. replace (ss =? 9) with false by lia. replace (ss =? 10) with false by lia.
  replace (ss =? 5) with false by lia. replace (ss =? 6) with false by lia. replace (ss =? 7) with false by lia.
  reflexivity.
Qed.

(* 7.1.5.4 (sound system 14) begins with the same eight channels as 7.1 but is not reordered. *)
Theorem C47_7154_refuted :
  ~ (forall (frame : list Z), zlen frame = 17 ->
       exists out, reorder ForAndroid 14 frame = Ok out /\
         in_android_order (iamf_order 14) (firstn 8 frame) (firstn 8 out)).
Proof.
  intros H.
  destruct (H [0;1;2;3;4;5;6;7;8;9;10;11;12;13;14;15;16] eq_refl) as [out [E [names [HP [HL HA]]]]].
  cbn in E. injection E as <-. cbn [firstn] in *.
  do 8 (destruct names as [|? names]; [cbn [length] in HL; lia|]).
  destruct names; [|cbn [length] in HL; lia].
  cbn [combine iamf_order] in HP.
  assert (H4 : In (SL, 4) [(s, 0); (s0, 1); (s1, 2); (s2, 3); (s3, 4); (s4, 5); (s5, 6); (s6, 7)]).
  { eapply Permutation_in; [exact HP|]. cbn. tauto. }
  assert (H6 : In (BL, 6) [(s, 0); (s0, 1); (s1, 2); (s2, 3); (s3, 4); (s4, 5); (s5, 6); (s6, 7)]).
  { eapply Permutation_in; [exact HP|]. cbn. tauto. }
  cbn [In] in H4, H6.
  assert (E3 : s3 = SL) by (repeat (destruct H4 as [H4|H4]; [congruence|]); contradiction).
  assert (E5 : s5 = BL) by (repeat (destruct H6 as [H6|H6]; [congruence|]); contradiction).
  subst s3 s5. cbn [map ascending rank] in HA. lia.
Qed.

(* Witness: 7.1 with samples naming their channel. *)
Example C47_example :
  reorder ForAndroid 8 [FL; FR; FC; LFE; SL; SR; BL; BR] = Ok [FL; FR; FC; LFE; BL; BR; SL; SR] /\
  reorder ForAndroid 7 (iamf_order 7) =
  Ok [FL; FR; FC; LFE; BL; BR; FLC; FRC; BC; SL; SR; TC; TFL; TFC; TFR; TBL; TBC; TBR; TSL; TSR; BFL; BFC; BFR; LFE2].
Proof. split; reflexivity. Qed.
