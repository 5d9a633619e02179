(* What the queue of frames holds: per channel a list of samples, cut into frames. *)
From Verif Require Import Base SubFrames.
From Coq Require Import Lia Arith.PeanoNat.

Section Facts.
Context {X : Type}.
Variable zero : X.
Notation sframes := (sframes X).

Lemma upd_at_length : forall {Y} (l : list Y) i f, length (upd_at i f l) = length l.
Proof. induction l; intros [|i] f; cbn [upd_at length]; auto. Qed.
Lemma upd_at_nth_same : forall {Y} (l : list Y) i f x, nth_error l i = Some x -> nth_error (upd_at i f l) i = Some (f x).
Proof. induction l as [|a t IH]; intros [|i] f x H; cbn in *; try discriminate; [congruence | eauto]. Qed.
Lemma upd_at_nth_other : forall {Y} (l : list Y) i j f, i <> j -> nth_error (upd_at i f l) j = nth_error l j.
Proof. induction l as [|a t IH]; intros [|i] [|j] f H; cbn in *; auto; try congruence. Qed.
Lemma upd_at_map : forall {Y W} (h : Y -> W) (k : Y -> Y) (f : W -> W) l i x,
  nth_error l i = Some x -> h (k x) = f (h x) -> map h (upd_at i k l) = upd_at i f (map h l).
Proof.
  induction l as [|a t IH]; intros [|i] x H E; cbn in *; try discriminate; auto.
  - injection H as ->. now rewrite E.
  - f_equal. eauto.
Qed.
Lemma upd_at_map_out : forall {Y W} (h : Y -> W) (k : Y -> Y) l i x,
  nth_error l i = Some x -> h (k x) = h x -> map h (upd_at i k l) = map h l.
Proof.
  induction l as [|a t IH]; intros [|i] x H E; cbn in *; try discriminate; auto.
  - injection H as ->. now rewrite E.
  - f_equal. eauto.
Qed.
Lemma upd_at_ext : forall {Y} (f g : Y -> Y) l i x, nth_error l i = Some x -> f x = g x -> upd_at i f l = upd_at i g l.
Proof.
  induction l as [|a t IH]; intros [|i] x H E; cbn in *; try discriminate; auto.
  - injection H as ->. now rewrite E.
  - f_equal. eauto.
Qed.
Lemma upd_at_seq : forall {W} (g : nat -> W) f F a p, upd_at p f (map g (seq a F)) = map (fun i => if Nat.eqb i (a + p) then f (g i) else g i) (seq a F).
Proof.
  induction F as [|F IH]; intros a p; cbn [seq map upd_at]; [now destruct p|].
  destruct p as [|p]; cbn [upd_at].
  - rewrite Nat.add_0_r, Nat.eqb_refl. f_equal. apply map_ext_in. intros i Hi. apply in_seq in Hi.
    destruct (Nat.eqb_spec i a); [lia | reflexivity].
  - destruct (Nat.eqb_spec a (a + S p)); [lia|]. f_equal. rewrite IH. apply map_ext. intro i. now rewrite Nat.add_succ_r.
Qed.

Lemma skipn_skipn' : forall {Y} (a b : nat) (l : list Y), skipn (S b * a) l = skipn (b * a) (skipn a l).
Proof.
  intros Y a b l. change (S b * a)%nat with (a + b * a)%nat. generalize (b * a)%nat as m. revert l.
  induction a as [|a IH]; intros l m; [reflexivity|]. destruct l as [|x l]; [now rewrite !skipn_nil | exact (IH l m)].
Qed.
(* the i-th frame of a channel which holds col *)
Definition slice (n i : nat) (col : list X) : list X := firstn n (skipn (i * n) col).
Definition row (n : nat) (cols : list (list X)) (i : nat) : list (list X) := map (slice n i) cols.
Definition pos (n : nat) (col : list X) : nat := (length col - 1) / n.
Definition height (n : nat) (cols : list (list X)) : nat := S (list_max (map (pos n) cols)).
Definition built (n : nat) (cols : list (list X)) : sframes :=
  mkSf (length cols) n (map (row n cols) (seq 0 (height n cols))) (map (fun c => Some (pos n c)) cols).
Definition holds (n : nat) (cols : list (list X)) (s : sframes) : Prop :=
  s = built n cols \/
  (Forall (fun c => c = []) cols /\ sf_nch s = length cols /\ sf_n s = n /\ sf_frames s = [] /\ length (sf_at s) = length cols).

Lemma list_max_zero : forall (cols : list (list X)) n, Forall (fun c => c = []) cols -> list_max (map (pos n) cols) = O.
Proof.
  induction 1 as [|c t -> _ IH]; [reflexivity|]. cbn [map list_max fold_right]. change (fold_right Nat.max O (map (pos n) t)) with (list_max (map (pos n) t)).
  rewrite IH. unfold pos. cbn [length Nat.sub]. destruct n; [reflexivity|]. rewrite Nat.div_0_l by discriminate. reflexivity.
Qed.
Lemma slice_nil : forall n i, slice n i [] = [].
Proof. intros. unfold slice. rewrite skipn_nil. apply firstn_nil. Qed.
Lemma ensure_holds : forall n cols s, holds n cols s -> ensure s = built n cols.
Proof.
  intros n cols s [-> | (HF & Hc & Hn & Hf & Ha)].
  - unfold ensure, built. cbn [sf_frames sf_nch sf_n sf_at]. unfold height. cbn [seq map]. reflexivity.
  - unfold ensure, append_empty. rewrite Hf. cbn [sf_frames]. rewrite app_nil_l, Hc, Hn. unfold built, height.
    rewrite list_max_zero by assumption. cbn [seq map]. f_equal.
    + f_equal. unfold row. clear -HF. induction HF as [|c t -> _ IH]; cbn [length repeat map]; [reflexivity|]. now rewrite slice_nil, IH.
    + assert (E : forall (l : list (option nat)) (m : list (list X)), Forall (fun c => c = []) m -> length l = length m ->
        map (fun _ => Some O) l = map (fun c => Some (pos n c)) m).
      { clear. intros l m HF. revert l. induction HF as [|c t -> _ IH]; intros [|a l] E; cbn in *; try discriminate; [reflexivity|].
        rewrite IH by congruence. f_equal. unfold pos. cbn. destruct n; [reflexivity|]. now rewrite Nat.div_0_l by discriminate. }
      now apply E.
Qed.
Lemma front_holds : forall n cols s, holds n cols s -> sf_front s = map (firstn n) cols.
Proof.
  intros. unfold sf_front. rewrite (ensure_holds n cols) by assumption. unfold built, height. cbn [sf_frames seq map hd].
  unfold row, slice. apply map_ext. intro c. now rewrite Nat.mul_0_l.
Qed.
Lemma new_holds : forall nch n, holds n (repeat [] nch) (sf_new nch n).
Proof.
  intros. unfold sf_new. left. apply ensure_holds. right. cbn [sf_nch sf_n sf_frames sf_at]. rewrite !repeat_length.
  repeat split; auto. apply Forall_forall. intros c Hc. now apply repeat_spec in Hc.
Qed.

Lemma pos_in_max : forall n cols c col, nth_error cols c = Some col -> (pos n col <= list_max (map (pos n) cols))%nat.
Proof.
  intros n cols c col H. assert (L : (list_max (map (pos n) cols) <= list_max (map (pos n) cols))%nat) by lia.
  apply list_max_le in L. rewrite Forall_forall in L. apply L. apply in_map. eapply nth_error_In; eassumption.
Qed.
Lemma max_upd : forall n cols c col col', nth_error cols c = Some col -> (pos n col <= pos n col')%nat ->
  list_max (map (pos n) (upd_at c (fun _ => col') cols)) = Nat.max (list_max (map (pos n) cols)) (pos n col').
Proof.
  intros n. induction cols as [|a t IH]; intros [|c] col col' H E; cbn in H; try discriminate.
  - injection H as ->. cbn [upd_at map list_max fold_right]. change (fold_right Nat.max O (map (pos n) t)) with (list_max (map (pos n) t)). lia.
  - cbn [upd_at map list_max fold_right]. change (fold_right Nat.max O (map (pos n) t)) with (list_max (map (pos n) t)).
    change (fold_right Nat.max O (map (pos n) (upd_at c (fun _ => col') t))) with (list_max (map (pos n) (upd_at c (fun _ => col') t))).
    rewrite (IH c col col') by assumption. lia.
Qed.

(* where a channel goes on: the position of the frame with room *)
Definition room (n : nat) (col : list X) : nat := length col / n.
Lemma room_pos : forall n col, (0 < n)%nat ->
  (length (slice n (pos n col) col) = n /\ room n col = S (pos n col)) \/
  (length (slice n (pos n col) col) <> n /\ room n col = pos n col).
Proof.
  intros n col Hn. unfold slice, room, pos. set (t := length col). rewrite firstn_length, skipn_length. fold t.
  destruct (Nat.eq_dec t 0) as [E | E].
  - right. rewrite E. cbn [Nat.sub]. rewrite Nat.div_0_l by lia. split; [lia | reflexivity].
  - pose proof (Nat.div_mod (t - 1) n ltac:(lia)) as D. pose proof (Nat.mod_upper_bound (t - 1) n ltac:(lia)) as M.
    set (q := ((t - 1) / n)%nat) in *. set (r := ((t - 1) mod n)%nat) in *.
    destruct (Nat.eq_dec (S r) n) as [F | F].
    + left. split; [nia|]. symmetry. apply (Nat.div_unique t n (S q) 0); nia.
    + right. split; [nia|]. symmetry. apply (Nat.div_unique t n q (S r)); nia.
Qed.
Lemma slice_app : forall n col y i, (0 < n)%nat -> (length (slice n (room n col) col) + length y <= n)%nat ->
  (i <= room n col)%nat -> slice n i (col ++ y) = if Nat.eqb i (room n col) then slice n i col ++ y else slice n i col.
Proof.
  intros n col y i Hn Hy Hi. pose proof (Nat.div_mod (length col) n ltac:(lia)) as D. pose proof (Nat.mod_upper_bound (length col) n ltac:(lia)) as M.
  fold (room n col) in D. unfold slice in *. rewrite firstn_length, skipn_length in Hy.
  rewrite skipn_app, firstn_app, skipn_length. destruct (Nat.eqb_spec i (room n col)) as [-> | E].
  - f_equal. replace (room n col * n - length col)%nat with O by nia. rewrite skipn_O. apply firstn_all2. nia.
  - replace (n - (length col - i * n))%nat with O by nia. now rewrite firstn_O, app_nil_r.
Qed.
Lemma slice_above : forall n col i, (0 < n)%nat -> (room n col < i)%nat -> slice n i col = [].
Proof.
  intros n col i Hn Hi. unfold slice. rewrite skipn_all2; [apply firstn_nil|].
  pose proof (Nat.div_mod (length col) n ltac:(lia)). pose proof (Nat.mod_upper_bound (length col) n ltac:(lia)). fold (room n col) in *. nia.
Qed.
Lemma pos_app : forall n col y, (0 < n)%nat -> y <> [] -> (length (slice n (room n col) col) + length y <= n)%nat -> pos n (col ++ y) = room n col.
Proof.
  intros n col y Hn Hy H. unfold slice in H. rewrite firstn_length, skipn_length in H. unfold pos. rewrite app_length.
  pose proof (Nat.div_mod (length col) n ltac:(lia)) as D. pose proof (Nat.mod_upper_bound (length col) n ltac:(lia)) as M. fold (room n col) in D.
  assert (length y <> 0)%nat by (now destruct y).
  symmetry. apply (Nat.div_unique _ n _ (length col mod n + length y - 1)); nia.
Qed.
Lemma room_short : forall n col, (0 < n)%nat -> (length (slice n (room n col) col) < n)%nat /\ length (slice n (room n col) col) = (length col mod n)%nat.
Proof.
  intros n col Hn. unfold slice. rewrite firstn_length, skipn_length.
  pose proof (Nat.div_mod (length col) n ltac:(lia)) as D. pose proof (Nat.mod_upper_bound (length col) n ltac:(lia)) as M. fold (room n col) in D.
  nia.
Qed.

(* what sf_seek arrives at: the list is as tall as the channel needs, the iterator of the channel is at the frame with room *)
Definition sought (n : nat) (cols : list (list X)) (c : nat) (r : nat) : sframes :=
  mkSf (length cols) n (map (row n cols) (seq 0 (Nat.max (height n cols) (S r))))
       (upd_at c (fun _ => Some r) (map (fun k => Some (pos n k)) cols)).
Lemma upd_at_id : forall {Y} (l : list Y) i x, nth_error l i = Some x -> upd_at i (fun _ => x) l = l.
Proof. induction l as [|a t IH]; intros [|i] x H; cbn in *; try discriminate; [congruence | f_equal; auto]. Qed.
Lemma seek_sought : forall n cols s c col, (0 < n)%nat -> holds n cols s -> nth_error cols c = Some col ->
  sf_seek c s = Ok (sought n cols c (room n col)).
Proof.
  intros n cols s c col Hn H Hc. unfold sf_seek. rewrite (ensure_holds n cols) by assumption.
  unfold append_empty, built. cbn [sf_at sf_frames sf_n sf_nch].
  rewrite (map_nth_error (fun k => Some (pos n k)) c cols Hc).
  pose proof (pos_in_max n cols c col Hc) as Hp.
  assert (E1 : nth_error (map (row n cols) (seq 0 (height n cols))) (pos n col) = Some (row n cols (pos n col))).
  { rewrite (map_nth_error (row n cols) (pos n col) (seq 0 (height n cols)) (d := pos n col)); [reflexivity|].
    rewrite (nth_error_nth' _ O) by (rewrite seq_length; unfold height; lia). now rewrite seq_nth by (unfold height; lia). }
  rewrite E1. unfold row at 1. rewrite (map_nth_error (slice n (pos n col)) c cols Hc).
  destruct (room_pos n col Hn) as [(L & R) | (L & R)].
  - rewrite L, Nat.eqb_refl, R. rewrite !map_length, !seq_length. cbv zeta. f_equal. unfold sought.
    destruct (Nat.eqb_spec (pos n col) (height n cols - 1)) as [E | E].
    + cbn [sf_nch sf_n sf_frames sf_at]. f_equal.
      replace (Nat.max (height n cols) (S (S (pos n col)))) with (height n cols + 1)%nat by (unfold height in *; lia).
      rewrite seq_app, map_app. f_equal. cbn [seq map Nat.add]. f_equal. unfold row.
      assert (G : forall l : list (list X), Forall (fun k => slice n (height n cols) k = []) l -> repeat [] (length l) = map (slice n (height n cols)) l).
      { induction 1 as [|k t Hk _ IH]; cbn [length repeat map]; [reflexivity | now rewrite Hk, IH]. }
      apply G. apply Forall_forall. intros k Hk. apply In_nth_error in Hk. destruct Hk as (j & Hj).
      pose proof (pos_in_max n cols j k Hj) as P.
      destruct (room_pos n k Hn) as [(L2 & R2) | (L2 & R2)].
      * destruct (Nat.eq_dec (pos n k) (pos n col)).
        -- unfold slice. rewrite skipn_all2; [apply firstn_nil|].
           pose proof (room_short n k Hn) as (A1 & A2). pose proof (Nat.div_mod (length k) n ltac:(lia)) as D. fold (room n k) in D.
           unfold slice in L2. rewrite firstn_length, skipn_length in L2. unfold height in *.
           unfold pos in *. pose proof (Nat.div_mod (length k - 1) n ltac:(lia)) as D2. pose proof (Nat.mod_upper_bound (length k - 1) n ltac:(lia)) as M2. nia.
        -- apply slice_above; [exact Hn|]. unfold height in *. lia.
      * apply slice_above; [exact Hn|]. unfold height in *. lia.
    + cbn [sf_nch sf_n sf_frames sf_at]. f_equal. f_equal. f_equal. unfold height in *. lia.
  - destruct (Nat.eqb_spec (length (slice n (pos n col) col)) n) as [E | _]; [contradiction|]. f_equal. rewrite R. unfold sought.
    f_equal.
    + f_equal. f_equal. unfold height. lia.
    + symmetry. apply upd_at_id. now apply map_nth_error with (f := fun k => Some (pos n k)) in Hc.
Qed.
Lemma sought_channel : forall n cols c col, (0 < n)%nat -> nth_error cols c = Some col ->
  sf_channel c (sought n cols c (room n col)) = Ok (slice n (room n col) col).
Proof.
  intros n cols c col Hn Hc. unfold sf_channel, sought. cbn [sf_at sf_frames].
  rewrite (upd_at_nth_same _ c _ (Some (pos n col))) by (now apply map_nth_error with (f := fun k => Some (pos n k)) in Hc).
  rewrite (map_nth_error (row n cols) (room n col) (seq 0 (Nat.max (height n cols) (S (room n col)))) (d := room n col)).
  2: { rewrite (nth_error_nth' _ O) by (rewrite seq_length; lia). now rewrite seq_nth by lia. }
  unfold row. now rewrite (map_nth_error (slice n (room n col)) c cols Hc).
Qed.
Lemma sought_extend : forall n cols c col y, (0 < n)%nat -> nth_error cols c = Some col -> y <> [] ->
  (length (slice n (room n col) col) + length y <= n)%nat ->
  sf_extend c y (sought n cols c (room n col)) = built n (upd_at c (fun _ => col ++ y) cols).
Proof.
  intros n cols c col y Hn Hc Hy Hl. unfold sf_extend, sought. cbn [sf_at sf_frames sf_nch sf_n].
  rewrite (upd_at_nth_same _ c _ (Some (pos n col))) by (now apply map_nth_error with (f := fun k => Some (pos n k)) in Hc).
  unfold built. rewrite upd_at_length. f_equal.
  - rewrite upd_at_seq. cbn [Nat.add].
    assert (H : height n (upd_at c (fun _ => col ++ y) cols) = Nat.max (height n cols) (S (room n col))).
    { unfold height. rewrite (max_upd n cols c col); [| exact Hc |]; rewrite pos_app by assumption; [lia|].
      destruct (room_pos n col Hn) as [(_ & R) | (_ & R)]; lia. }
    rewrite H. apply map_ext_in. intros i Hi. apply in_seq in Hi. unfold row.
    destruct (Nat.eqb_spec i (room n col)) as [-> | E].
    + symmetry. apply (upd_at_map (slice n (room n col)) (fun _ => col ++ y) (fun ch => ch ++ y) cols c col Hc).
      rewrite slice_app by (assumption || lia). now rewrite Nat.eqb_refl.
    + symmetry. apply (upd_at_map_out (slice n i) (fun _ => col ++ y) cols c col Hc).
      destruct (le_lt_dec i (room n col)).
      * rewrite slice_app by (assumption || lia). destruct (Nat.eqb_spec i (room n col)); [lia | reflexivity].
      * rewrite (slice_above n col) by (assumption || lia). unfold slice. rewrite skipn_all2; [apply firstn_nil|].
        rewrite app_length. pose proof (room_short n col Hn) as (_ & A2). rewrite A2 in Hl.
        pose proof (Nat.div_mod (length col) n ltac:(lia)) as D. fold (room n col) in D. nia.
  - symmetry. apply (upd_at_map (fun k => Some (pos n k)) (fun _ => col ++ y) (fun _ => Some (room n col)) cols c col Hc).
    now rewrite pos_app by assumption.
Qed.

Lemma push_holds : forall n cols s c col x, (0 < n)%nat -> holds n cols s -> nth_error cols c = Some col ->
  sf_push c x s = Ok (built n (upd_at c (fun _ => col ++ [x]) cols)).
Proof.
  intros n cols s c col x Hn H Hc. unfold sf_push.
  assert (Hl : (c < length cols)%nat) by (apply nth_error_Some; congruence).
  assert (E : sf_nch s = length cols) by (destruct H as [-> | (_ & E & _)]; [reflexivity | exact E]).
  rewrite E. destruct (Nat.ltb_spec c (length cols)); [|lia].
  rewrite (seek_sought n cols s c col) by assumption. cbn [rbind]. f_equal. apply sought_extend; auto; [discriminate|].
  pose proof (room_short n col Hn). cbn [length]. lia.
Qed.
Lemma upd_at_twice : forall {Y} (l : list Y) i a b, upd_at i (fun _ => a) (upd_at i (fun _ => b) l) = upd_at i (fun _ => a) l.
Proof. induction l as [|x t IH]; intros [|i] a b; cbn [upd_at]; auto. now rewrite IH. Qed.
Lemma push_all_holds : forall n xs cols s c col, (0 < n)%nat -> holds n cols s -> nth_error cols c = Some col ->
  exists s', push_all c xs s = Ok s' /\ holds n (upd_at c (fun _ => col ++ xs) cols) s'.
Proof.
  intros n. induction xs as [|x t IH]; intros cols s c col Hn H Hc; cbn [push_all].
  - exists s. split; [reflexivity|]. rewrite app_nil_r, upd_at_id; assumption.
  - rewrite (push_holds n cols s c col) by assumption. cbn [rbind].
    destruct (IH (upd_at c (fun _ => col ++ [x]) cols) (built n (upd_at c (fun _ => col ++ [x]) cols)) c (col ++ [x]) Hn) as (s' & E & H').
    + now left.
    + now apply (upd_at_nth_same cols c (fun _ => col ++ [x]) col).
    + exists s'. split; [exact E|]. now rewrite upd_at_twice, <- app_assoc in H'.
Qed.

Lemma pad_row_holds : forall n k c pre suf s want m0 m t, (0 < n)%nat ->
  Forall (fun col => length col = t) suf -> length suf = k -> length pre = c -> m = Nat.min (n - t mod n) want -> (0 < want)%nat ->
  holds n (pre ++ suf) s ->
  exists s', sf_pad_row zero k c want m0 s = Ok (match k with O => m0 | _ => m end, s') /\
             holds n (pre ++ map (fun col => col ++ repeat zero m) suf) s'.
Proof.
  intros n. induction k as [|k IH]; intros c pre suf s want m0 m t Hn Ht Hk Hc Hm Hw H.
  - destruct suf; [|discriminate]. exists s. cbn [sf_pad_row map]. auto.
  - destruct suf as [|col suf]; [discriminate|]. cbn [sf_pad_row].
    assert (Hcol : nth_error (pre ++ col :: suf) c = Some col) by (rewrite nth_error_app2 by lia; now rewrite Hc, Nat.sub_diag).
    rewrite (seek_sought n _ s c col Hn H Hcol). cbn [rbind]. rewrite sought_channel by assumption. cbn [rbind].
    inversion Ht as [|? ? L Ht']; subst. pose proof (room_short n col Hn) as (R1 & R2).
    pose proof (Nat.mod_upper_bound (length col) n ltac:(lia)) as M.
    set (m := Nat.min (n - length col mod n) want) in *.
    change (sf_n (sought n (pre ++ col :: suf) (length pre) (room n col))) with n. rewrite R2. fold m.
    destruct (Nat.eqb_spec m 0) as [E | E]; [unfold m in E; lia|].
    rewrite sought_extend; try assumption.
    2: { intro F. apply (f_equal (@length X)) in F. rewrite repeat_length in F. cbn in F. contradiction. }
    2: { rewrite R2, repeat_length. unfold m. lia. }
    assert (G : forall (p : list (list X)) y, upd_at (length p) (fun _ => y) (p ++ col :: suf) = (p ++ [y]) ++ suf).
    { induction p as [|a p IHp]; intro y; cbn [length upd_at app]; [reflexivity | now rewrite IHp]. }
    rewrite G.
    destruct (IH (S (length pre)) (pre ++ [col ++ repeat zero m]) suf (built n ((pre ++ [col ++ repeat zero m]) ++ suf)) want m m (length col))
      as (s' & E' & H'); auto.
    + rewrite app_length. cbn [length]. lia.
    + now left.
    + exists s'. rewrite E'. split; [destruct k; reflexivity|]. rewrite <- app_assoc in H'. exact H'.
Qed.
Lemma pad_loop_holds : forall n fuel want cols s t, (0 < n)%nat -> cols <> [] -> (want <= fuel)%nat ->
  Forall (fun col => length col = t) cols -> holds n cols s ->
  exists s', sf_pad_loop zero fuel want s = Ok s' /\ holds n (map (fun col => col ++ repeat zero want) cols) s'.
Proof.
  intros n. induction fuel as [|fuel IH]; intros want cols s t Hn Hne Hf Ht H.
  - replace want with O by lia. exists s. cbn [sf_pad_loop]. split; [reflexivity|]. cbn [repeat].
    erewrite map_ext; [rewrite map_id; exact H|]. intro; apply app_nil_r.
  - destruct want as [|w]; cbn [sf_pad_loop].
    + exists s. split; [reflexivity|]. cbn [repeat]. erewrite map_ext; [rewrite map_id; exact H|]. intro; apply app_nil_r.
    + assert (E : sf_nch s = length cols) by (destruct H as [-> | (_ & E & _)]; [reflexivity | exact E]).
      set (m := Nat.min (n - t mod n) (S w)). pose proof (Nat.mod_upper_bound t n ltac:(lia)) as M.
      destruct (pad_row_holds n (length cols) 0 [] cols s (S w) 0 m t) as (s1 & E1 & H1); auto; [lia|].
      rewrite E, E1. cbn [rbind fst snd]. cbn [app] in H1.
      replace (match length cols with O => O | S _ => m end) with m by (destruct cols; [contradiction | reflexivity]).
      destruct (IH (S w - m)%nat (map (fun col => col ++ repeat zero m) cols) s1 (t + m)%nat) as (s2 & E2 & H2); auto.
      * destruct cols; [contradiction | discriminate].
      * unfold m. lia.
      * apply Forall_map. eapply Forall_impl; [|exact Ht]. intros a Ha. cbv beta in *. rewrite app_length, repeat_length. lia.
      * exists s2. split; [exact E2|]. rewrite map_map in H2. erewrite map_ext; [exact H2|]. intro a. cbv beta.
        rewrite <- app_assoc, <- repeat_app. f_equal. f_equal. unfold m. lia.
Qed.
Lemma pad_holds : forall n k cols s t, (0 < n)%nat -> cols <> [] -> (0 <= k)%Z ->
  Forall (fun col => length col = t) cols -> holds n cols s ->
  exists s', sf_pad zero k s = Ok s' /\ holds n (map (fun col => col ++ repeat zero (Z.to_nat k)) cols) s'.
Proof.
  intros n k cols s t Hn Hne Hk Ht H. unfold sf_pad. destruct (Z.ltb_spec k 0); [lia|]. eapply pad_loop_holds; eauto.
Qed.
Lemma max_same : forall n (cols : list (list X)) t, cols <> [] -> Forall (fun col => length col = t) cols -> list_max (map (pos n) cols) = ((t - 1) / n)%nat.
Proof.
  intros n cols t Hne HF. induction HF as [|a l Ha HF IH]; [contradiction|].
  cbn [map list_max fold_right]. change (fold_right Nat.max O (map (pos n) l)) with (list_max (map (pos n) l)).
  unfold pos at 1. rewrite Ha. destruct l as [|b l]; [apply Nat.max_0_r|]. rewrite IH by discriminate. lia.
Qed.
Lemma pop_holds : forall n cols s t, (0 < n)%nat -> cols <> [] -> (n <= t)%nat ->
  Forall (fun col => length col = t) cols -> holds n cols s -> holds n (map (skipn n) cols) (sf_pop s).
Proof.
  intros n cols s t Hn Hne Hnt Ht [-> | (HF & _)].
  2: { exfalso. destruct cols as [|a l]; [contradiction|]. inversion HF; inversion Ht; subst. cbn [length] in *. lia. }
  assert (S1 : Forall (fun col => length col = t - n)%nat (map (skipn n) cols)).
  { apply Forall_map. eapply Forall_impl; [|exact Ht]. intros a Ha. cbv beta in *. rewrite skipn_length. lia. }
  unfold sf_pop, built, height. cbn [sf_frames seq map]. rewrite (max_same n cols t) by assumption.
  cbn [sf_nch sf_n sf_at]. rewrite map_map.
  destruct (Nat.eq_dec t n) as [E | E].
  - right. cbn [sf_nch sf_n sf_frames sf_at]. rewrite !map_length. subst t. repeat split; auto.
    + eapply Forall_impl; [|exact S1]. intros a Ha. cbv beta in Ha. rewrite Nat.sub_diag in Ha. now destruct a.
    + replace ((n - 1) / n)%nat with O by (symmetry; apply Nat.div_small; lia). reflexivity.
  - left. unfold built, height. rewrite (max_same n (map (skipn n) cols) (t - n)) by (assumption || (destruct cols; [contradiction | discriminate])).
    rewrite !map_length. f_equal.
    + assert (D : ((t - 1) / n = S ((t - n - 1) / n))%nat).
      { replace (t - 1)%nat with ((t - n - 1) + 1 * n)%nat by lia. rewrite Nat.div_add by lia. lia. }
      rewrite D, <- seq_shift, map_map. apply map_ext. intro i. unfold row. rewrite map_map. apply map_ext. intro col.
      unfold slice. f_equal. apply skipn_skipn'.
    + rewrite map_map. apply map_ext_in. intros a Ha. rewrite Forall_forall in Ht. specialize (Ht a Ha). unfold pos. rewrite skipn_length, Ht.
      replace (t - 1)%nat with ((t - n - 1) + 1 * n)%nat by lia. rewrite Nat.div_add by lia. now rewrite Nat.add_1_r.
Qed.
Lemma empty_holds : forall n cols s, (0 < n)%nat -> holds n cols s -> sf_empty s = true <-> Forall (fun c => c = []) cols.
Proof.
  intros n cols s Hn H. split.
  - intro E. destruct H as [-> | (HF & _)]; [|exact HF]. unfold sf_empty, built, height in E. cbn [sf_frames seq map forallb] in E.
    apply andb_true_iff in E. destruct E as (E & _). rewrite forallb_forall in E. apply Forall_forall. intros col Hc.
    specialize (E (slice n 0 col) (in_map _ _ _ Hc)). unfold slice in E. rewrite Nat.mul_0_l, skipn_O in E.
    destruct col; [reflexivity|]. destruct n; [lia|]. discriminate.
  - intro HF. destruct H as [-> | (_ & _ & _ & E & _)]; [|unfold sf_empty; now rewrite E].
    unfold sf_empty, built. cbn [sf_frames]. apply forallb_forall. intros r Hr. apply in_map_iff in Hr. destruct Hr as (i & <- & _).
    apply forallb_forall. intros ch Hch. unfold row in Hch. apply in_map_iff in Hch. destruct Hch as (col & <- & Hcol).
    rewrite Forall_forall in HF. rewrite (HF col Hcol), slice_nil. reflexivity.
Qed.
Lemma holds_shape : forall n cols s, holds n cols s -> sf_nch s = length cols /\ sf_n s = n.
Proof. intros n cols s [-> | (_ & A & B & _)]; auto. Qed.
End Facts.
