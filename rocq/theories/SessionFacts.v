From Verif Require Import Base WriteBuf ReadBuf Leb BufSpec LebSpec BitFacts WriteBufFacts ReadBufFacts LebFacts
  ParseFacts EndToEnd ObuHeader ObuHeaderFacts FrameFacts SeqFacts PureFacts SimpleObus CodecConfig Params Timing ParamManager
  Processor PropsObu ProcFacts StreamSpec StreamFacts Session.

(* ---- facts about [classify] ---- *)
Lemma classify_ext D s l e : match classify D s l with CWait => True | x => classify D s (l ++ e) = x end.
Proof.
  unfold classify. rewrite bytes_bits_app. pose proof (prun_ext fill_header_metadata (bytes_bits l) (bytes_bits e)) as X.
  pose proof (fill_total (bytes_bits l)) as FT.
  destruct (prun fill_header_metadata (bytes_bits l)) as [|c|[t total] r]; [exact I| |]; rewrite X; [reflexivity|].
  destruct (zlen l <? total) eqn:E; [exact I|].
  specialize (FT _ _ _ eq_refl). unfold zlen in *. rewrite app_length. replace (Z.of_nat (length l + length e) <? total) with false by lia.
  rewrite firstn_app. replace (Z.to_nat total - length l)%nat with O by lia. cbn [firstn]. rewrite app_nil_r.
  destruct (prun read_header _) as [|c|[h n] w]; try reflexivity. destruct (effect D s h n total w); auto.
Qed.

(* the two ways of not going on, and what every processed OBU looks like *)
Definition idle (D : descs) (s : pst) (l : list Z) : Prop :=
  classify D s l = CWait \/ classify D s l = CDone 0 (mkOut (Ok tt) s INone false).
Lemma classify_done D s l adv o : classify D s l = CDone adv o ->
  o = mkOut (Ok tt) s INone false /\ adv = 0 \/
  (exists s1 it, o = mkOut (Ok tt) s1 it true /\ 1 <= adv <= zlen l) \/
  (exists r s1 it, o = mkOut r s1 it false /\ match r with Abort | UB | Diverge => True | _ => False end).
Proof.
  unfold classify. pose proof (fill_total (bytes_bits l)) as FT.
  destruct (prun fill_header_metadata (bytes_bits l)) as [|c|[t total] r]; try discriminate.
  specialize (FT _ _ _ eq_refl).
  destruct (zlen l <? total) eqn:E; [discriminate|].
  destruct (prun read_header _) as [|c|[h n] w] eqn:Eh; try discriminate.
  assert (1 <= total) as H1.
  { assert (total = 0 \/ 1 <= total) as [->|?] by lia; [|assumption]. change (Z.to_nat 0) with O in Eh. cbn [firstn] in Eh. discriminate. }
  unfold effect. destruct (temporal_unit_type (h_type h)).
  - destruct (store D s h (lparse D h n w)) as [[st s1] it].
    destruct st; intro H; injection H as <- <-; right; try (left; eexists _, _; split; [reflexivity|lia]); right; eexists _, _, _; split; try reflexivity; exact I.
  - destruct (_ && _); [intro H; injection H as <- <-; left; auto|].
    destruct (_ || _ || _ || _); [destruct (h_red h); [|discriminate]|]; intro H; injection H as <- <-; right; left; eexists _, _; split; try reflexivity; lia.
Qed.

(* ---- what a drained stream of bytes yields ---- *)
Definition advance (u : units) (i : item) : list outunit * units :=
  let '(u1, de) := collect u i in
  match close false true de u1 with Some (out, u2) => (opt_list out, u2) | None => ([], u1) end.

Inductive flows (D : descs) : pst -> units -> list Z -> list outunit -> pst -> units -> list Z -> bool -> Prop :=
| F_idle s u l : idle D s l -> flows D s u l [] s u l true
| F_bad s u l : classify D s l = CBad -> flows D s u l [] s u l false
| F_crash s u l adv r s1 it : classify D s l = CDone adv (mkOut r s1 it false) -> match r with Ok _ => False | _ => True end ->
    flows D s u l [] s1 u l false
| F_step s u l adv s1 it os1 u1 os s2 u2 rest b :
    classify D s l = CDone adv (mkOut (Ok tt) s1 it true) -> advance u it = (os1, u1) ->
    flows D s1 u1 (skipn (Z.to_nat adv) l) os s2 u2 rest b -> flows D s u l (os1 ++ os) s2 u2 rest b.

Lemma flows_det D s u l os s1 u1 r b : flows D s u l os s1 u1 r b -> forall os' s1' u1' r' b', flows D s u l os' s1' u1' r' b' ->
  os = os' /\ s1 = s1' /\ u1 = u1' /\ r = r' /\ b = b'.
Proof.
  induction 1 as [s u l I|s u l E|s u l adv r s1 it E N|s u l adv s1 it os1 u1 os s2 u2 rest b E A _ IH];
    intros os' s1' u1' r' b' H; inversion H as [? ? ? I'|? ? ? E'|? ? ? ? ? ? ? E' N'|? ? ? ? ? ? ? ? ? ? ? ? ? E' A' F']; subst;
    try (repeat split; reflexivity);
    try (destruct I as [I|I]; congruence); try (destruct I' as [I'|I']; congruence);
    try (rewrite E in E'; injection E' as; subst; contradiction); try congruence.
  - destruct I as [I|I]; rewrite I in E'; [discriminate|injection E' as; subst; contradiction].
  - destruct I' as [I'|I']; rewrite I' in E; [discriminate|injection E as; subst; contradiction].
  - rewrite E in E'. injection E' as -> ->. subst. auto.
  - rewrite E in E'. injection E' as -> -> ->. rewrite A in A'. injection A' as -> ->.
    destruct (IH _ _ _ _ _ F') as (-> & -> & -> & -> & ->). auto.
Qed.

Lemma skipn_app' {A} n (l e : list A) : (n <= length l)%nat -> skipn n (l ++ e) = skipn n l ++ e.
Proof. intro H. rewrite skipn_app. replace (n - length l)%nat with O by lia. reflexivity. Qed.
Lemma done_ext D s l e adv o : classify D s l = CDone adv o -> classify D s (l ++ e) = CDone adv o.
Proof. intro E. pose proof (classify_ext D s l e) as X. rewrite E in X. exact X. Qed.

(* more data continues where processing stopped *)
Lemma flows_app D s u l os s1 u1 r b : flows D s u l os s1 u1 r b -> forall e,
  if b then forall os' s2 u2 r' b', flows D s1 u1 (r ++ e) os' s2 u2 r' b' -> flows D s u (l ++ e) (os ++ os') s2 u2 r' b'
  else flows D s u (l ++ e) os s1 u1 (r ++ e) false.
Proof.
  induction 1 as [s u l I|s u l E|s u l adv r s1 it E N|s u l adv s1 it os1 u1 os s2 u2 rest b E A _ IH]; intro e.
  - intros. assumption.
  - apply F_bad. pose proof (classify_ext D s l e) as X. rewrite E in X. exact X.
  - eapply F_crash; [apply done_ext; exact E|exact N].
  - pose proof (classify_done _ _ _ _ _ E) as [[? _]|[(? & ? & _ & Ha)|(? & ? & ? & X & _)]]; try discriminate.
    unfold zlen in Ha. specialize (IH e). rewrite <- skipn_app' in IH by lia.
    destruct b; [intros os' s3 u3 r' b' F; rewrite <- app_assoc|]; eapply F_step; try (apply done_ext; exact E); try exact A; auto.
Qed.

(* ---- process_unit and drain on the abstract cursor ---- *)
Definition arun_with : forall A, rprog A -> cur -> res A * cur := fun A => @arun A.
(* what the pending temporal unit looks like between two OBUs *)
Definition one_time (t : Z) (fs : list oframe) (bs : list oblock) : Prop :=
  (fs <> [] \/ bs <> []) /\ Forall (fun f => of_start f = t) fs /\ Forall (fun b => ob_start b = t) bs.
Definition uinv (u : units) : Prop :=
  u_next u = tud_empty /\
  match tu_time (u_cur u) with
  | None => tu_frames (u_cur u) = [] /\ tu_blocks (u_cur u) = []
  | Some t => one_time t (tu_frames (u_cur u)) (tu_blocks (u_cur u))
  end.
Definition item_frames (i : item) : list oframe := match i with IFrame f => [f] | _ => [] end.
Definition item_blocks (i : item) : list oblock := match i with IBlock b => [b] | _ => [] end.
Definition good_unit (o : outunit) : Prop := one_time (un_time o) (un_frames o) (un_blocks o).

Lemma close_full {A B} t (fs : list oframe) (bs : list oblock) (x : A) (y : B) : one_time t fs bs ->
  match fs, bs with [], [] => inl x | _, _ => inr y end = inr y.
Proof. intros [[H|H] _]; destruct fs, bs; try reflexivity; contradiction H; reflexivity. Qed.
Lemma close_some t fs bs (x y : option (option outunit * units)) : one_time t fs bs ->
  match fs, bs with [], [] => x | _, _ => y end = y.
Proof. intros [[H|H] _]; destruct fs, bs; try reflexivity; contradiction H; reflexivity. Qed.
Lemma one_time_f t fs bs f : (fs = [] /\ bs = []) \/ one_time t fs bs -> of_start f = t -> one_time t (fs ++ [f]) bs.
Proof.
  intros H E. split; [left; destruct fs; discriminate|].
  destruct H as [[-> ->]|(_ & H1 & H2)]; split; try apply Forall_app; auto.
Qed.
Lemma one_time_b t fs bs b : (fs = [] /\ bs = []) \/ one_time t fs bs -> ob_start b = t -> one_time t fs (bs ++ [b]).
Proof.
  intros H E. split; [right; destruct bs; discriminate|].
  destruct H as [[-> ->]|(_ & H1 & H2)]; split; try apply Forall_app; auto.
Qed.

Lemma advance_spec u it os u1 : uinv u -> advance u it = (os, u1) ->
  uinv u1 /\ Forall good_unit os /\
  tu_frames (u_cur u) ++ item_frames it = flat_map un_frames os ++ tu_frames (u_cur u1) /\
  tu_blocks (u_cur u) ++ item_blocks it = flat_map un_blocks os ++ tu_blocks (u_cur u1).
Proof.
  destruct u as [[bs fs dl tm] nx]. unfold uinv. cbn [u_cur u_next tu_time tu_frames tu_blocks]. intros [-> H].
  unfold advance, collect. cbn [u_cur u_next tu_time tu_frames tu_blocks tu_delim].
  assert (forall t0 (x : outunit), x = mkOu fs bs t0 -> one_time t0 fs bs -> Forall good_unit [x]) as G.
  { intros t0 x -> Hx. constructor; [exact Hx|constructor]. }
  destruct it as [|f|b|h].
  - unfold close. cbn. intro E. injection E as <- <-. cbn. rewrite !app_nil_r. split; [split; [reflexivity|auto]|auto].
  - unfold add_data. cbn [u_cur u_next tu_time tud_at tu_frames tu_blocks tu_delim].
    destruct tm as [t0|]; cbn [tu_time tud_at].
    + destruct (t0 =? of_start f) eqn:Et.
      * unfold close. cbn. intro E. injection E as <- <-. cbn. rewrite app_nil_r. split; [split; [reflexivity|apply one_time_f; auto; lia]|auto].
      * unfold close. cbn [u_cur u_next tud_push tud_at tu_time tud_empty tu_frames tu_blocks negb andb orb tu_delim app].
        rewrite (close_some _ _ _ _ _ H). intro E. injection E as <- <-. cbn. rewrite !app_nil_r.
        split; [split; [reflexivity|repeat split; auto; left; discriminate]|]. split; [eapply G; [reflexivity|exact H]|auto].
    + rewrite Z.eqb_refl. unfold close. cbn. intro E. injection E as <- <-. cbn. rewrite app_nil_r. split; [split; [reflexivity|apply one_time_f; auto; lia]|auto].
  - unfold add_data. cbn [u_cur u_next tu_time tud_at tu_frames tu_blocks tu_delim].
    destruct tm as [t0|]; cbn [tu_time tud_at].
    + destruct (t0 =? ob_start b) eqn:Et.
      * unfold close. cbn. intro E. injection E as <- <-. cbn. rewrite app_nil_r. split; [split; [reflexivity|apply one_time_b; auto; lia]|auto].
      * unfold close. cbn [u_cur u_next tud_push tud_at tu_time tud_empty tu_frames tu_blocks negb andb orb tu_delim app].
        rewrite (close_some _ _ _ _ _ H). intro E. injection E as <- <-. cbn. rewrite !app_nil_r.
        split; [split; [reflexivity|repeat split; auto; right; discriminate]|]. split; [eapply G; [reflexivity|exact H]|auto].
    + rewrite Z.eqb_refl. unfold close. cbn. intro E. injection E as <- <-. cbn. rewrite app_nil_r. split; [split; [reflexivity|apply one_time_b; auto; lia]|auto].
  - unfold close. cbn [u_cur u_next tu_time tud_empty tu_frames tu_blocks negb andb orb].
    destruct dl; cbn [orb item_frames item_blocks].
    + destruct tm as [t0|].
      * rewrite (close_some _ _ _ _ _ H). intro E. injection E as <- <-. cbn. rewrite !app_nil_r.
        split; [split; [reflexivity|auto]|]. split; [eapply G; [reflexivity|exact H]|auto].
      * destruct H as [-> ->]. intro E. injection E as <- <-. cbn. split; [split; [reflexivity|auto]|auto].
    + intro E. injection E as <- <-. cbn. rewrite !app_nil_r. split; [split; [reflexivity|auto]|auto].
Qed.

(* ---- process_unit and drain on the abstract cursor ---- *)
Definition on (c : cur) (l : list Z) : Prop := cok c /\ skipn (c_pos c) (c_bits c) = bytes_bits l.
Lemma on_len c l : on c l -> (length (c_bits c) = c_pos c + 8 * length l)%nat.
Proof. intros [K H]. unfold cok in K. pose proof (f_equal (@length bool) H) as L. rewrite skipn_length, bytes_bits_length in L. lia. Qed.
Lemma on_move c l c' adv : on c l -> c_bits c' = c_bits c -> Z.of_nat (c_pos c') = Z.of_nat (c_pos c) + 8 * adv -> 0 <= adv <= zlen l ->
  on c' (skipn (Z.to_nat adv) l).
Proof.
  intros [K H] B P Ha. pose proof (on_len _ _ (conj K H)) as L. unfold zlen in Ha. split.
  - unfold cok. rewrite B. lia.
  - rewrite B. replace (c_pos c') with (c_pos c + 8 * Z.to_nat adv)%nat by lia. rewrite <- skipn_skipn', H. apply eq_sym, bytes_bits_skipn.
Qed.
Lemma close_eos_false cont de u : close false cont de u = close false true de u.
Proof. unfold close. destruct cont; reflexivity. Qed.

Definition unit_post (D : descs) (s : pst) (u : units) (l : list Z) (c : cur) (x : res (option outunit * bool) * pst * units * cur) : Prop :=
  match x with
  | (Ok (out, cont), s1, u1, c1) =>
      exists l1, on c1 l1 /\ c_bits c1 = c_bits c /\ (length l1 <= length l)%nat /\ uinv u1 /\
      if cont then (length l1 < length l)%nat /\
                   forall os s2 u2 r b, flows D s1 u1 l1 os s2 u2 r b -> flows D s u l (opt_list out ++ os) s2 u2 r b
      else out = None /\ flows D s u l [] s1 u1 l1 true /\ idle D s1 l1
  | (_, s1, u1, _) => exists r, flows D s u l [] s1 u1 r false
  end.

Lemma unit_flows D k : forall s u c l, on c l -> zlen l < 2^32 - 64 -> uinv u -> (length l < k)%nat ->
  unit_post D s u l c (process_unit arun_with k D false s u c).
Proof.
  induction k as [|k IH]; intros s u c l Hon Hl Hu Hk; [lia|]. cbn [process_unit]. unfold arun_with at 1.
  pose proof Hon as [K Hs]. pose proof (step_spec D s c l K Hs Hl) as Sp.
  destruct (classify D s l) as [| |adv o] eqn:Ec.
  - rewrite Sp. cbn [po_status po_item po_cont po_state collect]. rewrite close_eos_false.
    destruct Hu as [Hn Hu]. unfold close. rewrite Hn. cbn [tud_empty tu_time negb andb orb].
    exists l. split; [exact Hon|]. split; [reflexivity|]. split; [lia|]. split; [split; assumption|].
    split; [reflexivity|]. split; [|left; exact Ec]. apply F_idle. left. exact Ec.
  - destruct Sp as (e & c' & Sp). rewrite Sp. cbn [rcast]. exists l. apply F_bad. exact Ec.
  - destruct Sp as (c' & Sp & Hb & Ha & Hp). rewrite Sp.
    destruct (classify_done _ _ _ _ _ Ec) as [[-> ->]|[(s1 & it & -> & Ha1)|(r & s1 & it & -> & Hr)]]; cbn [po_status po_item po_cont po_state] in *.
    + cbn [collect]. rewrite close_eos_false.
      destruct Hu as [Hn Hu]. unfold close. rewrite Hn. cbn [tud_empty tu_time negb andb orb].
      destruct (Hp eq_refl) as [Hp' _]. exists l. split; [exact (on_move _ _ _ _ Hon Hb Hp' Ha)|]. split; [exact Hb|]. split; [lia|].
      split; [split; assumption|]. split; [reflexivity|]. split; [|right; exact Ec]. apply F_idle. right. exact Ec.
    + destruct (Hp eq_refl) as [Hp' _]. pose proof (on_move _ _ _ _ Hon Hb Hp' Ha) as Hon'.
      destruct (advance u it) as [os1 ua] eqn:Ea. destruct (advance_spec _ _ _ _ Hu Ea) as (Hu1 & _).
      pose proof Ea as Ea'. unfold advance in Ea'.
      destruct (collect u it) as [u1 de] eqn:Eco. unfold zlen in Ha, Ha1.
      destruct (close false true de u1) as [[out u2]|] eqn:Ecl.
      * injection Ea' as <- <-. exists (skipn (Z.to_nat adv) l). split; [exact Hon'|]. split; [exact Hb|].
        rewrite skipn_length. split; [lia|]. split; [exact Hu1|]. split; [lia|].
        intros os s2 u3 r b F. eapply F_step; eassumption.
      * injection Ea' as <- <-.
        assert (zlen (skipn (Z.to_nat adv) l) < 2^32 - 64) as Hl' by (unfold zlen in *; rewrite skipn_length; lia).
        specialize (IH s1 u1 c' _ Hon' Hl' Hu1 ltac:(rewrite skipn_length; lia)).
        unfold unit_post in *. destruct (process_unit arun_with k D false s1 u1 c') as [[[r s2] u2] c2].
        destruct r as [[out cont]| | | |]; try (destruct IH as [rr IH]; exists rr; change (@nil outunit) with (@nil outunit ++ []); eapply F_step; eassumption).
        destruct IH as (l1 & On1 & B1 & L1 & U1 & IH). rewrite skipn_length in *. exists l1.
        split; [exact On1|]. split; [congruence|]. split; [lia|]. split; [exact U1|]. destruct cont.
        -- destruct IH as [L2 IH]. split; [lia|]. intros os s3 u3 r b F.
           change (opt_list out ++ os) with ([] ++ (opt_list out ++ os)). eapply F_step; eauto.
        -- destruct IH as (-> & F & I). split; [reflexivity|]. split; [|exact I].
           change (@nil outunit) with (@nil outunit ++ []). eapply F_step; eassumption.
    + destruct r; try contradiction; cbn [rcast]; exists l; eapply F_crash; try exact Ec; exact I.
Qed.

Definition aflush (c : cur) : res unit * cur := (Ok tt, mkC (skipn (8 * (c_pos c / 8)) (c_bits c)) (c_pos c mod 8) (Some false)).
Lemma on_flush c l : on c l -> on (snd (aflush c)) l.
Proof.
  intros Hon. pose proof (on_len _ _ Hon) as L. destruct Hon as [K H]. unfold aflush, on, cok in *. cbn [snd c_pos c_bits].
  pose proof (Nat.div_mod_eq (c_pos c) 8) as Q. rewrite skipn_length. split; [lia|].
  rewrite skipn_skipn'. rewrite <- Q. exact H.
Qed.

Definition drain_post (D : descs) (s : pst) (u : units) (l : list Z) (c : cur) (x : list outunit * res unit * pst * units * cur) : Prop :=
  match x with
  | (os, Ok _, s1, u1, c1) =>
      exists l1, on c1 l1 /\ (c_pos c1 < 8)%nat /\ (length (c_bits c1) <= length (c_bits c))%nat /\ (length l1 <= length l)%nat /\ uinv u1 /\
      flows D s u l os s1 u1 l1 true /\ idle D s1 l1
  | (os, _, s1, u1, _) => exists r, flows D s u l os s1 u1 r false
  end.
Lemma drain_flows D n k : forall s u c l, on c l -> zlen l < 2^32 - 64 -> uinv u -> (length l < k)%nat -> (length l < n)%nat ->
  drain_post D s u l c (drain arun_with aflush n k D s u c).
Proof.
  induction n as [|n IH]; intros s u c l Hon Hl Hu Hk Hn; [lia|]. cbn [drain].
  pose proof (unit_flows D k s u c l Hon Hl Hu Hk) as U. unfold unit_post in U.
  destruct (process_unit arun_with k D false s u c) as [[[r s1] u1] c1]. unfold drain_post.
  destruct r as [[out cont]| | | |]; cbn [rcast]; try exact U.
  destruct U as (l1 & On1 & B1 & L1 & U1 & U). pose proof (on_flush _ _ On1) as On2.
  unfold aflush at 1. set (c2 := mkC (skipn (8 * (c_pos c1 / 8)) (c_bits c1)) (c_pos c1 mod 8) (Some false)).
  change (snd (aflush c1)) with c2 in On2.
  assert (length (c_bits c2) <= length (c_bits c))%nat as Lb by (unfold c2; cbn [c_bits]; rewrite skipn_length, B1; lia).
  destruct cont.
  - destruct U as [L2 U]. unfold zlen in Hl.
    specialize (IH s1 u1 c2 l1 On2 ltac:(unfold zlen; lia) U1 ltac:(lia) ltac:(lia)). unfold drain_post in IH.
    destruct (drain arun_with aflush n k D s1 u1 c2) as [[[[os r] s2] u2] c3].
    destruct r; try (destruct IH as [rr IH]; exists rr; apply U; exact IH).
    destruct IH as (l2 & On3 & P3 & B3 & L3 & U3 & F & I). exists l2. split; [exact On3|]. split; [exact P3|]. split; [lia|]. split; [lia|]. split; [exact U3|].
    split; [apply U; exact F|exact I].
  - destruct U as (-> & F & I). exists l1. split; [exact On2|]. split; [unfold c2; cbn [c_pos]; apply Nat.mod_upper_bound; discriminate|]. split; [exact Lb|]. split; [lia|]. split; [exact U1|]. split; assumption.
Qed.

(* ---- the concrete buffer ---- *)
Lemma unit_refines fuel D k eos : (8 <= fuel)%nat -> forall s u r c, rrel r c ->
  fst (process_unit (crun_with fuel) k D eos s u r) = fst (process_unit arun_with k D eos s u c) /\
  rrel (snd (process_unit (crun_with fuel) k D eos s u r)) (snd (process_unit arun_with k D eos s u c)).
Proof.
  intro Hf. induction k as [|k IH]; intros s u r c R; cbn [process_unit]; [auto|].
  unfold crun_with at 1 3. unfold arun_with at 1 3.
  destruct (crun_refines fuel (proc_obu D s) Hf r c R) as [E R1].
  destruct (crun fuel (proc_obu D s) r) as [x r1], (arun (proc_obu D s) c) as [y c1]. cbn [fst snd] in E, R1. subst y.
  destruct x as [o| | | |]; cbn [fst snd]; auto.
  destruct (po_status o); cbn [fst snd]; auto.
  destruct (collect u (po_item o)) as [u1 de]. destruct (close eos (po_cont o) de u1) as [[out u2]|]; cbn [fst snd]; auto.
  destruct (po_cont o); cbn [fst snd]; auto.
Qed.
Lemma drain_refines fuel D k n : (8 <= fuel)%nat -> forall s u r c, rrel r c ->
  fst (drain (crun_with fuel) r_flush n k D s u r) = fst (drain arun_with aflush n k D s u c) /\
  rrel (snd (drain (crun_with fuel) r_flush n k D s u r)) (snd (drain arun_with aflush n k D s u c)).
Proof.
  intro Hf. induction n as [|n IH]; intros s u r c R; cbn [drain]; [auto|].
  destruct (unit_refines fuel D k false Hf s u r c R) as [E R1].
  destruct (process_unit (crun_with fuel) k D false s u r) as [[[x s1] u1] r1], (process_unit arun_with k D false s u c) as [[[y s1'] u1'] c1].
  cbn [fst snd] in E, R1. injection E as <- <- <-.
  destruct x as [[out cont]| | | |]; cbn [fst snd]; auto.
  destruct (rrel_flush _ _ R1) as (r2 & Ef & R2). rewrite Ef. unfold aflush at 1 3.
  destruct cont; cbn [fst snd]; auto.
  destruct (IH s1 u1 r2 _ R2) as [E R3].
  destruct (drain (crun_with fuel) r_flush n k D s1 u1 r2) as [[[[os x] s2] u2] r3].
  destruct (drain arun_with aflush n k D s1 u1 _) as [[[[os' x'] s2'] u2'] c3]. cbn [fst snd] in *. injection E as <- <- <- <-. auto.
Qed.

Lemma push_ok b r c r1 : rrel r c -> (length (c_bits c) <= 8 * Z.to_nat (2^22))%nat -> Forall byteP b -> r_push b r = (Ok tt, r1) ->
  rrel r1 (mkC (c_bits c ++ bytes_bits b) (c_pos c) (c_valid c)) /\ (length (c_bits c ++ bytes_bits b) <= 8 * Z.to_nat (2^22))%nat.
Proof.
  intros R L Hb. pose proof (rrel_len _ _ R) as Lr. unfold r_push.
  change (Z.to_nat (2^22)) with (Z.to_nat 4194304) in *. change (2^22) with 4194304 in *. unfold zlen.
  unfold u64. rewrite Z.mod_small by (change (2^64) with 18446744073709551616; lia).
  destruct (_ >? _) eqn:E; [discriminate|]. intro H. injection H as <-. split.
  - eapply rrel_push; [exact R|exact Hb|reflexivity].
  - rewrite app_length, bytes_bits_length. lia.
Qed.

Definition session_post (D : descs) (s : pst) (u : units) (l : list Z) (x : list outunit * ending * pst * units * rbuf) : Prop :=
  match x with
  | (os, Finished, s1, u1, r1) =>
      exists l1 c1, rrel r1 c1 /\ on c1 l1 /\ (length (c_bits c1) <= 8 * Z.to_nat (2^22))%nat /\ uinv u1 /\
      flows D s u l os s1 u1 l1 true /\ idle D s1 l1
  | (os, Failed, s1, u1, _) => exists r, flows D s u l os s1 u1 r false
  | (_, Refused, _, _, _) => True
  end.
Lemma session_flows fuel k D : (8 <= fuel)%nat -> 2^22 < Z.of_nat k -> forall chunks s u r c l,
  Forall (Forall byteP) chunks -> rrel r c -> on c l -> (length (c_bits c) <= 8 * Z.to_nat (2^22))%nat -> uinv u -> idle D s l ->
  session_post D s u (l ++ concat chunks) (session fuel k D chunks s u r).
Proof.
  intros Hf Hk. change (2^22) with 4194304 in *. induction chunks as [|x xs IH]; intros s u r c l Hb R Hon Hc Hu Hi; cbn [session concat].
  - exists l, c. rewrite app_nil_r. split; [exact R|]. split; [exact Hon|]. split; [exact Hc|]. split; [exact Hu|]. split; [|exact Hi].
    apply F_idle. exact Hi.
  - apply Forall_cons_iff in Hb as [Hx Hxs]. destruct (r_push x r) as [st r1] eqn:Ep.
    assert (st = Ok tt \/ exists e, st = Err e) as [->|[e ->]] by (unfold r_push in Ep; destruct (_ >? _) in Ep; injection Ep as <- _; eauto); [|exact I].
    destruct (push_ok x r c r1 R Hc Hx Ep) as [R1 Hc1]. set (c1 := mkC (c_bits c ++ bytes_bits x) (c_pos c) (c_valid c)) in *.
    change (Z.to_nat (2^22)) with (Z.to_nat 4194304) in *.
    assert (on c1 (l ++ x)) as On1.
    { pose proof (on_len _ _ Hon). destruct Hon as [K H0]. unfold on, cok, c1 in *. cbn [c_bits c_pos]. rewrite app_length. split; [lia|].
      rewrite skipn_app' by lia. rewrite H0. symmetry. apply bytes_bits_app. }
    pose proof (on_len _ _ On1) as L1. unfold c1 in L1 at 1. cbn [c_bits] in L1.
    assert (zlen (l ++ x) < 2^32 - 64) as Hl by (unfold zlen; change (2^32) with 4294967296; lia).
    pose proof (drain_flows D k k s u c1 (l ++ x) On1 Hl Hu ltac:(lia) ltac:(lia)) as Dr.
    destruct (drain_refines fuel D k k Hf s u r1 c1 R1) as [E R2].
    destruct (drain (crun_with fuel) r_flush k k D s u r1) as [[[[os st] s1] u1] r2].
    destruct (drain arun_with aflush k k D s u c1) as [[[[os' st'] s1'] u1'] c2]. cbn [fst snd] in E, R2. injection E as <- <- <- <-.
    unfold drain_post in Dr. rewrite app_assoc.
    destruct st; try (destruct Dr as [rr Dr]; pose proof (flows_app _ _ _ _ _ _ _ _ _ Dr (concat xs)) as A; eexists; exact A).
    destruct Dr as (l2 & On2 & _ & B2 & L2 & U2 & F & I2).
    assert (length (c_bits c2) <= 8 * Z.to_nat 4194304)%nat as Hc2 by (unfold c1 in B2; cbn [c_bits] in B2; lia).
    specialize (IH s1 u1 r2 c2 l2 Hxs R2 On2 Hc2 U2 I2).
    destruct (session fuel k D xs s1 u1 r2) as [[[[os2 e] s2] u2] r3]. unfold session_post in *.
    pose proof (flows_app _ _ _ _ _ _ _ _ _ F (concat xs)) as A. cbv iota beta in A.
    destruct e; [|exact I|].
    + destruct IH as (l3 & c3 & R3 & On3 & Hc3 & U3 & F3 & I3). exists l3, c3. split; [exact R3|]. split; [exact On3|]. split; [exact Hc3|].
      split; [exact U3|]. split; [apply A; exact F3|exact I3].
    + destruct IH as [rr IH]. exists rr. apply A. exact IH.
Qed.

(* the final call *)
Lemma finish fuel k D s u r c l : (8 <= fuel)%nat -> (1 <= k)%nat -> rrel r c -> on c l -> zlen l < 2^32 - 64 -> idle D s l -> uinv u ->
  exists r1, process_unit (crun_with fuel) k D true s u r =
    match close true false false u with
    | Some (out, u2) => (Ok (out, false), s, u2, r1)
    | None => (Ok (None, false), s, u, r1)
    end.
Proof.
  intros Hf Hk R Hon Hl Hi Hu. destruct k as [|k]; [lia|].
  destruct (unit_refines fuel D (S k) true Hf s u r c R) as [E _].
  destruct (process_unit (crun_with fuel) (S k) D true s u r) as [[[x s1] u1] r1]. cbn [fst] in E. exists r1.
  assert (exists c1, process_unit arun_with (S k) D true s u c =
    match close true false false u with Some (out, u2) => (Ok (out, false), s, u2, c1) | None => (Ok (None, false), s, u, c1) end) as [c1 Ea].
  { cbn [process_unit]. unfold arun_with at 1. destruct Hon as [K Hs]. pose proof (step_spec D s c l K Hs Hl) as Sp.
    destruct Hi as [Hi|Hi]; rewrite Hi in Sp.
    - rewrite Sp. eexists. cbn [po_status po_item po_cont po_state collect]. destruct (close true false false u) as [[? ?]|]; reflexivity.
    - destruct Sp as (c' & Sp & _). rewrite Sp. eexists. cbn [po_status po_item po_cont po_state collect].
      destruct (close true false false u) as [[? ?]|]; reflexivity. }
  rewrite Ea in E. destruct (close true false false u) as [[out u2]|]; cbn [fst] in E; injection E as -> -> ->; reflexivity.
Qed.
