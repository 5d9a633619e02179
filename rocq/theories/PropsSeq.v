(* C54: the OBU sequencers (encoder output). *)
From Verif Require Import Base WriteBuf ReadBuf Leb BufSpec ObuHeader SimpleObus CodecConfig Params AudioElement MixPresentation AeData Profile TempUnit Sequencer.

(* ================= SPEC ================= *)
Definition all_succeed (rs : list (res unit)) : Prop := Forall (fun r => r = Ok tt) rs.
(* The protocol between a sequencer and its concrete class: descriptors first and once, then temporal units, then optionally final
   descriptors, then the end; a refusal is followed by an abort; after the end nothing but aborts. *)
Inductive pstate := PStart | POpen | PFinal | PRefused | PDone.
Definition proto (delay : bool) (st : pstate) (e : event) (refused : bool) : option pstate :=
  let go (x : pstate) := Some (if refused : bool then PRefused else x) in
  match st, e with
  | PStart, SDescs _ => go POpen
  | PStart, SFinal _ => if delay : bool then go PFinal else None
  | POpen, SUnit _ _ _ _ => go POpen
  | POpen, SFinal _ => go PFinal
  | (PStart | POpen | PFinal), SClose => Some PDone
  | (PStart | POpen | PRefused | PDone), SAbort => Some PDone
  | _, _ => None
  end.
Fixpoint follows (delay : bool) (answer : concrete) (before : list event) (st : pstate) (log : list event) : option pstate :=
  match log with
  | [] => Some st
  | e :: t => match proto delay st e (match answer before e with None => false | Some _ => true end) with
              | Some st' => follows delay answer (before ++ [e]) st' t
              | None => None
              end
  end.
(* The serialised forms. *)
(* A unit is announced as a key frame if one of its arbitrary OBUs is a temporal delimiter which does not say "not a key frame". *)
Definition key_frame (u : tunit) : Prop := exists a, In a (tu_arb u) /\ ar_type a = kTemporalDelimiter /\ h_flag (ob_h (ar_obu a)) = false.
Definition unit_event (g : lebgen) (delims : bool) (u : tunit) (e : event) : Prop :=
  exists b key, serialize (write_unit g delims u) true = Ok b /\ (key = true <-> key_frame u) /\ e = SUnit (tu_start u) (s32 (tu_un u)) key b.
Definition event_bytes (e : event) : list Z := match e with SUnit _ _ _ b => b | _ => [] end.
Definition silent (u : tunit) : Prop := tu_un u = 0.
(* When the first sample that is kept is played. *)
Definition first_kept (us : list tunit) : option Z :=
  option_map (fun u => s64 (tu_start u + tu_trim u)) (find (fun u => negb (tu_un u =? 0)) us).
(* Histories without misuse. *)
Inductive orderly : list scall -> Prop :=
| Or_nothing : orderly []
| Or_closed : orderly [Close]
| Or_open d us : orderly (PushDescriptors d :: map PushUnit us)
| Or_close d us : orderly (PushDescriptors d :: map PushUnit us ++ [Close])
| Or_update d us d' : orderly (PushDescriptors d :: map PushUnit us ++ [UpdateAndClose d']).
(* Trimming at the start comes before the first sample that is kept. *)
Inductive trims_first : list tunit -> Prop :=
| Tr_silent us : Forall silent us -> trims_first us
| Tr_first us u vs : Forall silent us -> tu_un u <> 0 -> Forall (fun v => tu_trim v <= 0) vs -> trims_first (us ++ u :: vs).
(* What the descriptors say about the samples: one frame size and one sample rate for all codec configs; 16 bits if their bit depths differ. *)
Definition describes (d : descset) (b : list Z) (s : stats) : Prop :=
  let cs := map (fun x => ob_v (snd x)) (de_codecs d) in
  st_obus s = b /\ st_pts s = None /\
  (cs = [] -> st_spf s = 1024 /\ st_rate s = 48000 /\ st_bits s = 16) /\
  (forall c, In c cs -> cc_frame (fst c) = st_spf s /\ fst (fst (snd c)) = st_rate s) /\
  (forall c, In c cs -> (forall c', In c' cs -> snd (snd c') = snd (snd c)) -> st_bits s = snd (snd c)) /\
  (forall c c', In c cs -> In c' cs -> snd (snd c) <> snd (snd c') -> st_bits s = 16).
(* The end of a session: nothing, Close, or UpdateDescriptorObusAndClose, whose descriptors must have the same size and say the same. *)
Inductive closing (g : lebgen) (b : list Z) (s : stats) : list scall -> list event -> Prop :=
| Cl_open : closing g b s [] []
| Cl_close : closing g b s [Close] [SClose]
| Cl_same d' : serialize (serialize_descriptors g d') false = Ok b -> closing g b s [UpdateAndClose d'] [SClose]
| Cl_new d' b' s' : serialize (serialize_descriptors g d') false = Ok b' -> b' <> b -> zlen b' = zlen b -> describes d' b' s' ->
    st_spf s' = st_spf s /\ st_rate s' = st_rate s /\ st_bits s' = st_bits s -> closing g b s [UpdateAndClose d'] [SFinal b'; SClose].

(* ================= proofs ================= *)
Lemma key_frame_iff u : is_key_frame u = true <-> key_frame u.
Proof.
  unfold is_key_frame, key_frame. rewrite existsb_exists. split; intros (a & H); exists a.
  - destruct H as [H1 H2]. apply andb_true_iff in H2 as [H2 H3]. apply negb_true_iff in H3. split; [exact H1|]. split; [lia|exact H3].
  - destruct H as (H1 & H2 & H3). split; [exact H1|]. rewrite H2, H3. reflexivity.
Qed.
Lemma unit_event_bytes g delims u e : unit_event g delims u e -> exists b, serialize (write_unit g delims u) true = Ok b /\ e = SUnit (tu_start u) (s32 (tu_un u)) (is_key_frame u) b.
Proof.
  intros (b & key & E1 & E2 & ->). exists b. split; [exact E1|]. f_equal. rewrite <- key_frame_iff in E2. destruct key, (is_key_frame u); try reflexivity; [symmetry; apply E2; reflexivity|apply E2; reflexivity].
Qed.
(* Writing never crashes. *)
Definition bok (w : wbuf) : Prop := 0 <= w_off w <= 8 * zlen (w_bytes w).
Definition clean {A} (r : res A) : Prop := match r with Ok _ | Err _ => True | _ => False end.
Lemma set_nth_some {A} i (x : A) l : (i < length l)%nat -> exists l', set_nth i x l = Some l' /\ length l' = length l.
Proof.
  revert i. induction l as [|a l IH]; intros i H; [cbn [length] in H; lia|]. destruct i as [|i]; cbn [set_nth]; [eauto|].
  destruct (IH i) as (l' & -> & E); [cbn [length] in H; lia|]. eexists. split; [reflexivity|]. cbn [length]. congruence.
Qed.
Lemma write_bit_clean b w : 0 <= w_off w < 8 * zlen (w_bytes w) -> exists w', write_bit b w = (Ok tt, w') /\ w_off w' = w_off w + 1 /\ zlen (w_bytes w') = zlen (w_bytes w).
Proof.
  intro H. unfold write_bit. replace (w_off w <? 0) with false by lia. rewrite Z.shiftr_div_pow2 by lia. change (2^3) with 8.
  assert (Z.to_nat (w_off w / 8) < length (w_bytes w))%nat as L.
  { apply Nat2Z.inj_lt. rewrite Z2Nat.id by (apply Z.div_pos; lia). apply Z.div_lt_upper_bound; unfold zlen in H; lia. }
  destruct (nth_error (w_bytes w) (Z.to_nat (w_off w / 8))) as [x|] eqn:E; [|apply nth_error_None in E; lia]. cbv zeta.
  match goal with |- context [set_nth _ ?y _] => destruct (set_nth_some (Z.to_nat (w_off w / 8)) y (w_bytes w) L) as (l & -> & El) end.
  eexists. split; [reflexivity|]. cbn [w_off w_bytes]. unfold zlen. rewrite El. auto.
Qed.
Lemma write_bits_clean d k : forall w, bok w -> w_off w + Z.of_nat k <= 8 * zlen (w_bytes w) -> exists w', write_bits_loop k d w = (Ok tt, w') /\ bok w'.
Proof.
  induction k as [|k IH]; intros w B H; cbn [write_bits_loop]; [eauto|].
  destruct (write_bit_clean (Z.testbit d (Z.of_nat k)) w) as (w' & -> & E1 & E2); [unfold bok in B; lia|]. apply IH; unfold bok in *; lia.
Qed.
Lemma write_bytes_clean d k : forall w, bok w -> w_off w + 8 * Z.of_nat k <= 8 * zlen (w_bytes w) -> exists w', write_bytes_loop k d w = (Ok tt, w') /\ bok w'.
Proof.
  induction k as [|k IH]; intros w B H; cbn [write_bytes_loop]; [eauto|]. unfold bok in B.
  assert (Z.to_nat (w_off w / 8) < length (w_bytes w))%nat as L.
  { apply Nat2Z.inj_lt. rewrite Z2Nat.id by (apply Z.div_pos; lia). apply Z.div_lt_upper_bound; unfold zlen in H; lia. }
  match goal with |- context [set_nth _ ?y _] => destruct (set_nth_some (Z.to_nat (w_off w / 8)) y (w_bytes w) L) as (l & -> & El) end.
  apply IH; unfold bok in *; cbn [w_off w_bytes]; unfold zlen in *; rewrite El; lia.
Qed.
Lemma maybe_resize_fits n off buf : 0 <= off -> 0 <= n -> off + n <= 8 * zlen (maybe_resize n off buf) .
Proof.
  intros H1 H2. unfold maybe_resize. destruct (off + n <=? zlen buf * 8) eqn:E; [lia|]. cbv zeta. unfold zlen in *. rewrite app_length, firstn_length, repeat_length.
  set (r := (off + n) / 8 + (if (off + n) mod 8 =? 0 then 0 else 1)). assert (off + n <= 8 * r).
  { subst r. pose proof (Z_div_mod_eq_full (off + n) 8). pose proof (Z.mod_pos_bound (off + n) 8). destruct ((off + n) mod 8 =? 0) eqn:F; lia. }
  lia.
Qed.
Lemma write_unsigned_clean m d n w : bok w -> exists r w', internal_write_unsigned m d n w = (r, w') /\ clean r /\ bok w'.
Proof.
  intro B. unfold internal_write_unsigned. destruct (n <? 0) eqn:E1; [eexists _, _; split; [reflexivity|split; [exact I|exact B]]|].
  destruct (n =? 0) eqn:E2; [eexists _, _; split; [reflexivity|split; [exact I|exact B]]|]. destruct (m >? 64); [eexists _, _; split; [reflexivity|split; [exact I|exact B]]|].
  destruct (n >? m); [eexists _, _; split; [reflexivity|split; [exact I|exact B]]|]. destruct (negb (n =? 64) && _); [eexists _, _; split; [reflexivity|split; [exact I|exact B]]|].
  cbv zeta. pose proof (maybe_resize_fits n (w_off w) (w_bytes w) ltac:(unfold bok in B; lia) ltac:(lia)) as F.
  assert (bok (mkW (maybe_resize n (w_off w) (w_bytes w)) (w_off w))) as B1 by (unfold bok in *; cbn [w_off w_bytes]; lia).
  destruct (_ && _).
  - destruct (write_bytes_clean d (Z.to_nat (n / 8)) _ B1) as (w' & -> & B2); [|eexists _, _; split; [reflexivity|split; [exact I|exact B2]]].
    cbn [w_off w_bytes]. rewrite Z2Nat.id by (apply Z.div_pos; lia). pose proof (Z.mul_div_le n 8). lia.
  - destruct (write_bits_clean d (Z.to_nat n) _ B1) as (w' & -> & B2); [cbn [w_off w_bytes]; lia|]. eexists _, _. split; [reflexivity|split; [exact I|exact B2]].
Qed.
Lemma write_span_clean l : forall w, bok w -> exists r w', write_span_loop l w = (r, w') /\ clean r /\ bok w'.
Proof.
  induction l as [|b l IH]; intros w B; cbn [write_span_loop]; [eexists _, _; split; [reflexivity|split; [exact I|exact B]]|].
  destruct (write_unsigned_clean 32 b 8 w B) as (r & w' & -> & C & B1). destruct r as [x| | | |]; try contradiction; [apply IH; exact B1|].
  eexists _, _. split; [reflexivity|split; [exact I|exact B1]].
Qed.
Lemma wrun_clean p : forall w, bok w -> exists r w', wrun p w = (r, w') /\ clean r /\ bok w'.
Proof.
  induction p as [|i p IH]; intros w B; cbn [wrun]; [eexists _, _; split; [reflexivity|split; [exact I|exact B]]|].
  assert (exists r w', winstr_run i w = (r, w') /\ clean r /\ bok w') as (r & w' & -> & C & B1).
  { destruct i as [m d n|l|c]; cbn [winstr_run]; [apply write_unsigned_clean; exact B| |eexists _, _; split; [reflexivity|split; [exact I|exact B]]].
    unfold write_uint8_span. destruct (w_off w mod 8 =? 0).
    - eexists _, _. split; [reflexivity|split; [exact I|]]. unfold bok, zlen in *. cbn [w_off w_bytes]. rewrite app_length. lia.
    - apply write_span_clean. pose proof (maybe_resize_fits (zlen l * 8) (w_off w) (w_bytes w) ltac:(unfold bok in B; lia) ltac:(unfold zlen; lia)).
      unfold bok, zlen in *. cbn [w_off w_bytes]. lia. }
  destruct r as [x| | | |]; try contradiction; [apply IH; exact B1|]. eexists _, _. split; [reflexivity|split; [exact I|exact B1]].
Qed.
Lemma serialize_clean p a : clean (serialize p a).
Proof.
  unfold serialize. destruct (wrun_clean p w_empty) as (r & w & -> & C & _); [unfold bok, zlen, w_empty; cbn [w_off w_bytes length]; lia|].
  destruct r; try contradiction; [|exact I]. destruct (_ && _); exact I.
Qed.
Lemma statistics_clean d b : clean (statistics d b).
Proof.
  unfold statistics. destruct (common_rate_and_depth _ _) as [[r x] []]; [exact I|]. unfold common_frame. destruct (map _ _); [exact I|].
  destruct (forallb _ _); exact I.
Qed.

(* Statistics. *)
Lemma distinct_one l x : In x l -> (forall y, In y l -> y = x) -> distinct l = [x].
Proof.
  intros I A. unfold distinct. assert (forall y, In y (nodup Z.eq_dec l) <-> In y l) as N by (intro; apply nodup_In). pose proof (NoDup_nodup Z.eq_dec l) as D.
  destruct (nodup Z.eq_dec l) as [|a [|b r]].
  - apply N in I. destruct I.
  - f_equal. apply A, N. left. reflexivity.
  - exfalso. assert (a = b) by (transitivity x; [|symmetry]; apply A, N; [left|right; left]; reflexivity). subst b. inversion D as [|? ? D1 D2]. apply D1. left. reflexivity.
Qed.
Lemma distinct_single l x : distinct l = [x] -> forall y, In y l -> y = x.
Proof. intros E y H. apply (nodup_In Z.eq_dec) in H. unfold distinct in E. rewrite E in H. destruct H as [H|[]]. auto. Qed.
Lemma distinct_nil l : distinct l = [] -> l = [].
Proof. intro E. destruct l as [|x l]; [reflexivity|]. assert (In x (distinct (x :: l))) as H by (apply nodup_In; left; reflexivity). rewrite E in H. destruct H. Qed.
Lemma common_frame_all l n : common_frame l = Ok n -> (l = [] -> n = 1024) /\ forall x, In x l -> x = n.
Proof.
  unfold common_frame. destruct l as [|m t]; [intros [= <-]; split; [reflexivity|intros x []]|]. destruct (forallb (Z.eqb m) t) eqn:F; [|discriminate]. intros [= <-]. split; [discriminate|].
  intros x [H|H]; [auto|]. rewrite forallb_forall in F. specialize (F x H). lia.
Qed.
Lemma common_frame_same l : (forall x y, In x l -> In y l -> x = y) -> exists n, common_frame l = Ok n.
Proof.
  intro A. unfold common_frame. destruct l as [|m t]; [eauto|]. replace (forallb (Z.eqb m) t) with true; [eauto|]. symmetry. apply forallb_forall. intros x H. apply Z.eqb_eq. apply A; [left; reflexivity|right; exact H].
Qed.
Lemma statistics_describes d b s : statistics d b = Ok s -> describes d b s.
Proof.
  unfold statistics, describes. set (cs := map (fun x => ob_v (snd x)) (de_codecs d)). unfold common_rate_and_depth.
  set (rates := map (fun c => fst (fst (snd c))) cs). set (depths := map (fun c => snd (snd c)) cs).
  assert (forall c, In c cs -> In (fst (fst (snd c))) rates /\ In (snd (snd c)) depths /\ In (cc_frame (fst c)) (map (fun c => cc_frame (fst c)) cs)) as IN.
  { intros c H. repeat split; apply in_map_iff; exists c; auto. }
  destruct (distinct rates) as [|r rs] eqn:ER.
  - apply distinct_nil in ER. subst rates. destruct cs; [|discriminate]. cbn [map common_frame rbind]. intros [= <-]. cbn. repeat split; try contradiction.
  - destruct rs as [|]; [|discriminate]. destruct (common_frame _) as [n| | | |] eqn:EF; cbn [rbind]; try discriminate. intros [= <-]. cbn [st_spf st_rate st_bits st_pts st_obus].
    destruct (common_frame_all _ _ EF) as [_ EF'].
    split; [reflexivity|]. split; [reflexivity|]. split; [intro X; subst rates; rewrite X in ER; discriminate|].
    split; [intros c H; split; [apply EF', IN, H|apply (distinct_single _ _ ER), IN, H]|]. split.
    + intros c H A. rewrite (distinct_one depths (snd (snd c))); [reflexivity|apply IN, H|]. intros y Y. apply in_map_iff in Y as (c' & <- & Y). apply A, Y.
    + intros c c' H H' N. destruct (distinct depths) as [|x [|]] eqn:ED; [reflexivity| |reflexivity]. exfalso. apply N.
      transitivity x; [|symmetry]; apply (distinct_single _ _ ED), IN; assumption.
Qed.
(* One frame size, one sample rate. *)
Definition uniform (d : descset) : Prop :=
  let cs := map (fun x => ob_v (snd x)) (de_codecs d) in
  forall c c', In c cs -> In c' cs -> cc_frame (fst c) = cc_frame (fst c') /\ fst (fst (snd c)) = fst (fst (snd c')).
Lemma statistics_uniform d b : uniform d -> exists s, statistics d b = Ok s.
Proof.
  unfold uniform, statistics. set (cs := map (fun x => ob_v (snd x)) (de_codecs d)). intro U. unfold common_rate_and_depth.
  destruct (common_frame_same (map (fun c => cc_frame (fst c)) cs)) as (n & EN).
  { intros x y X Y. apply in_map_iff in X as (c & <- & X), Y as (c' & <- & Y). apply U; assumption. }
  rewrite EN. destruct cs as [|c cs'] eqn:EC; [cbn [map distinct nodup rbind]; eauto|]. rewrite <- EC in *.
  rewrite (distinct_one _ (fst (fst (snd c)))); [cbn [rbind]; eauto| |].
  - apply in_map_iff. exists c. split; [reflexivity|]. rewrite EC. left. reflexivity.
  - intros y Y. apply in_map_iff in Y as (c' & <- & Y). apply U; [exact Y|]. rewrite EC. left. reflexivity.
Qed.

Lemma describes_statistics d b s : describes d b s -> statistics d b = Ok s.
Proof.
  intro D. destruct (statistics_uniform d b) as (s' & E).
  { destruct D as (_ & _ & _ & D & _). intros c c' H H'. destruct (D c H), (D c' H'). split; congruence. }
  rewrite E. f_equal. apply statistics_describes in E. unfold describes in D, E. set (cs := map (fun x => ob_v (snd x)) (de_codecs d)) in *.
  destruct D as (D1 & D2 & D3 & D4 & D5 & D6), E as (E1 & E2 & E3 & E4 & E5 & E6). destruct s as [x1 x2 x3 x4 x5], s' as [y1 y2 y3 y4 y5].
  cbn [st_spf st_rate st_bits st_pts st_obus] in *. subst x4 x5 y4 y5. assert (cs = [] \/ exists c, In c cs) as [X|(c & X)] by (destruct cs as [|c cs']; [left; reflexivity|right; exists c; left; reflexivity]).
  - specialize (D3 X). specialize (E3 X). destruct D3 as (-> & -> & ->), E3 as (-> & -> & ->). reflexivity.
  - destruct (D4 c X) as [<- <-], (E4 c X) as [<- <-]. f_equal.
    destruct (Forall_Exists_dec (fun c' => snd (snd c') = snd (snd c)) (fun c' => Z.eq_dec _ _) cs) as [A|A].
    + rewrite Forall_forall in A. rewrite (D5 c X A), (E5 c X A). reflexivity.
    + apply Exists_exists in A as (c' & Y & N). rewrite (D6 c' c Y X N), (E6 c' c Y X N). reflexivity.
Qed.

(* ---- C54 ---- *)
Section Seq.
Variables (g : lebgen) (delims delay : bool) (answer : concrete).
Notation ask := (ask answer). Notation ask_all := (ask_all answer). Notation close := (close answer).
Notation push_unit := (push_unit g delims delay answer). Notation push_descriptors := (push_descriptors g delay answer).
Notation update_and_close := (update_and_close g answer). Notation sq_step := (sq_step g delims delay answer). Notation sq_calls := (sq_calls g delims delay answer).
Notation follows := (follows delay answer).

Lemma follows_app a : forall b x st, follows x st (a ++ b) = match follows x st a with Some st' => follows (x ++ a) st' b | None => None end.
Proof.
  induction a as [|e a IH]; intros b x st; cbn [app PropsSeq.follows]; [rewrite app_nil_r; reflexivity|].
  destruct (proto _ _ _ _); [|reflexivity]. rewrite IH. rewrite <- app_assoc. reflexivity.
Qed.
Lemma follows_snoc log e st : follows [] PStart log = Some st ->
  follows [] PStart (log ++ [e]) = proto delay st e (match answer log e with None => false | Some _ => true end).
Proof. intro H. rewrite follows_app, H. cbn [app PropsSeq.follows]. destruct (proto _ _ _ _); reflexivity. Qed.

Definition of_phase (p : phase) : pstate := match p with Initialized | DescriptorsGiven => PStart | DescriptorsOut => POpen | Closed => PDone end.
Record inv (q : sequencer) : Prop := {
  iv_log : follows [] PStart (q_log q) = Some (of_phase (q_phase q));
  iv_new : q_phase q = Initialized -> q_stats q = None /\ q_delayed q = [];
  iv_given : q_phase q = DescriptorsGiven -> delay = true /\ (exists s, q_stats q = Some s /\ st_pts s = None);
  iv_out : q_phase q = DescriptorsOut -> q_stats q <> None /\ q_delayed q = [];
  iv_kept : q_phase q = DescriptorsOut -> delay = true -> exists s, q_stats q = Some s /\ st_pts s <> None;
  iv_units : Forall (fun e => exists t n k b, e = SUnit t n k b) (q_delayed q) }.

Definition fine (x : res unit * sequencer) : Prop := clean (fst x) /\ inv (snd x).
(* What a guarded body may do: succeed well, or fail in a state from which an abort is allowed. *)
Definition body_fine (x : res unit * sequencer) : Prop :=
  match x with
  | (Ok _, q) => inv q
  | (Err _, q) => (exists st, follows [] PStart (q_log q) = Some st /\ st <> PFinal) /\ Forall (fun e => exists t n k b, e = SUnit t n k b) (q_delayed q)
  | _ => False
  end.
Lemma guarded_fine x : body_fine x -> fine (guarded x).
Proof.
  destruct x as [[[]|c| | |] q]; cbn [body_fine guarded]; try contradiction; intro H; (split; [exact I|]); [exact H|]. cbn [snd]. destruct H as [(st & H & N) U].
  split; cbn [do_abort q_phase q_stats q_delayed q_log]; try (intro; discriminate); [|exact U]. rewrite (follows_snoc _ _ _ H). destruct st; try reflexivity. destruct (N eq_refl).
Qed.
Lemma inv_fail c q : inv q -> body_fine (Err c, q).
Proof. intro H. split; [|exact (iv_units _ H)]. exists (of_phase (q_phase q)). split; [exact (iv_log _ H)|]. destruct (q_phase q); discriminate. Qed.
Lemma if_split (P : res unit * sequencer -> Prop) (b : bool) x y : (b = true -> P x) -> (b = false -> P y) -> P (if b then x else y).
Proof. destruct b; auto. Qed.
(* Asking for units. *)
Definition units (l : list event) : Prop := Forall (fun e => exists t n k b, e = SUnit t n k b) l.
Lemma ask_units l : forall q, follows [] PStart (q_log q) = Some POpen -> units l ->
  match ask_all l q with
  | (Ok _, q') => q' = mkSq (q_phase q) (q_stats q) (q_delayed q) (q_log q ++ l) /\ follows [] PStart (q_log q ++ l) = Some POpen
  | (Err _, q') => q_delayed q' = q_delayed q /\ follows [] PStart (q_log q') = Some PRefused
  | _ => False
  end.
Proof.
  induction l as [|e l IH]; intros q L F; cbn [Sequencer.ask_all]; [rewrite app_nil_r; destruct q; auto|].
  inversion F as [|? ? (t & n & k & b & ->) F']; subst. unfold Sequencer.ask at 1. pose proof (follows_snoc _ (SUnit t n k b) _ L) as L1.
  destruct (answer (q_log q) (SUnit t n k b)) eqn:A; [split; [reflexivity|exact L1]|].
  match goal with |- context [ask_all l ?x] => specialize (IH x L1 F'); destruct (ask_all l x) as [[[]| | | |] q'] end; try contradiction; [|exact IH].
  cbn [q_phase q_stats q_delayed q_log] in IH. rewrite <- app_assoc in IH. exact IH.
Qed.
Lemma ask_unit t n k b q : inv q -> q_phase q = DescriptorsOut -> body_fine (ask (SUnit t n k b) q).
Proof.
  intros H E. pose proof (iv_log _ H) as L. rewrite E in L. cbn [of_phase] in L. unfold Sequencer.ask.
  destruct (answer (q_log q) (SUnit t n k b)) eqn:A; cbn [body_fine].
  - split; [|exact (iv_units _ H)]. exists PRefused. split; [|discriminate]. cbn [q_log]. rewrite (follows_snoc _ _ _ L), A. reflexivity.
  - destruct H as [H1 H2 H3 H4 H6 H5]. split; cbn [q_phase q_stats q_delayed q_log]; try assumption. rewrite (follows_snoc _ _ _ L), A, E. reflexivity.
Qed.
Lemma push_descriptors_fine d q : inv q -> fine (push_descriptors d q).
Proof.
  intro H. unfold Sequencer.push_descriptors. apply guarded_fine. destruct (q_phase q) eqn:E; try (apply inv_fail; exact H).
  destruct (iv_new _ H E) as [N D]. pose proof (iv_log _ H) as L. rewrite E in L. cbn [of_phase] in L.
  pose proof (serialize_clean (serialize_descriptors g d) false) as C. destruct (serialize _ _) as [b|c| | |]; cbn [rbind]; try contradiction.
  2:{ split; [|exact (iv_units _ H)]. exists PStart. split; [exact L|discriminate]. }
  assert (forall s, statistics d b = Ok s -> st_pts s = None) as PT.
  { intros s. unfold statistics. destruct (common_rate_and_depth _ _) as [[r x] []]; [discriminate|]. destruct (common_frame _); cbn [rbind]; try discriminate. intros [= <-]. reflexivity. }
  pose proof (statistics_clean d b) as C2. destruct (statistics d b) as [s|c| | |]; try contradiction.
  2:{ split; [|exact (iv_units _ H)]. exists PStart. split; [exact L|discriminate]. }
  specialize (PT s eq_refl). cbv zeta. apply if_split; intro DL.
  - split; cbn [set_stats to_phase q_phase q_stats q_delayed q_log]; try (intro; discriminate); [exact L| |exact (iv_units _ H)]. intros _. split; [exact DL|]. eauto.
  - unfold Sequencer.ask. cbn [set_stats to_phase q_phase q_stats q_delayed q_log]. destruct (answer (q_log q) (SDescs s)) eqn:A.
    + split; [|exact (iv_units _ H)]. exists PRefused. split; [|discriminate]. cbn [q_log]. rewrite (follows_snoc _ _ _ L), A. reflexivity.
    + split; cbn [to_phase q_phase q_stats q_delayed q_log]; try (intro; discriminate); [|intros _; split; [discriminate|exact D]|intros _ X; congruence|exact (iv_units _ H)].
      rewrite (follows_snoc _ _ _ L), A. reflexivity.
Qed.
Lemma push_unit_fine u q : inv q -> fine (push_unit u q).
Proof.
  intro H. unfold Sequencer.push_unit. apply guarded_fine. pose proof (serialize_clean (write_unit g delims u) true) as C. pose proof (iv_log _ H) as L.
  assert (q_phase q = DescriptorsGiven \/ q_phase q = DescriptorsOut -> body_fine
    match serialize (write_unit g delims u) true with
      | Ok b =>
          let e := SUnit (tu_start u) (s32 (tu_un u)) (is_key_frame u) b in
          match q_stats q with
          | None => (UB, q)
          | Some s => match st_pts s with
                      | None => initial_unit delay answer u e s q
                      | Some _ => if tu_trim u >? 0 then (Err InvalidArgument, q) else ask e q
                      end
          end
      | Err c => (Err c, q) | Abort => (Abort, q) | UB => (UB, q) | Diverge => (Diverge, q)
      end) as M; [|destruct (q_phase q); try (apply inv_fail; exact H); apply M; auto].
  intro PH. destruct (serialize _ _) as [b|c| | |]; try contradiction; [|apply inv_fail; exact H]. cbv zeta. set (e := SUnit _ _ _ b).
  destruct (q_stats q) as [s|] eqn:ES.
  2:{ destruct PH as [E|E]; [destruct (iv_given _ H E) as (_ & s & X & _)|destruct (iv_out _ H E) as [X _]]; congruence. }
  destruct (st_pts s) as [pt|] eqn:EP.
  { destruct (tu_trim u >? 0); [apply inv_fail; exact H|]. apply ask_unit; [exact H|]. destruct PH as [E|E]; [|exact E].
    destruct (iv_given _ H E) as (_ & s' & X & Y). congruence. }
  unfold initial_unit. cbv zeta. set (q1 := if negb (tu_un u =? 0) then set_stats (with_pts s (s64 (tu_start u + tu_trim u))) q else q).
  assert (q_phase q1 = q_phase q /\ q_log q1 = q_log q /\ q_delayed q1 = q_delayed q /\ q_stats q1 <> None) as (E1 & E2 & E3 & E4).
  { subst q1. destruct (tu_un u =? 0); cbn [negb set_stats q_phase q_log q_delayed q_stats]; [|repeat split; discriminate]. rewrite ES. repeat split; discriminate. }
  apply if_split; intro DL.
  - apply Bool.negb_true_iff in DL. apply ask_unit.
    + destruct H as [H1 H2 H3 H4 H6 H5]. split; rewrite ?E1, ?E2, ?E3; try assumption.
      * intro X. destruct PH; congruence.
      * intro X. destruct (H3 X). congruence.
      * intro X. split; [exact E4|]. apply H4. exact X.
      * congruence.
    + rewrite E1. destruct PH as [E|E]; [|exact E]. destruct (iv_given _ H E). congruence.
  - apply Bool.negb_false_iff in DL. destruct PH as [E|E]; [|destruct (iv_kept _ H E DL) as (s' & X & Y); congruence]. rewrite E in L. cbn [of_phase] in L.
    destruct (tu_un u =? 0) eqn:EU.
    + subst q1. cbn [negb] in *. cbn [body_fine]. destruct H as [H1 H2 H3 H4 H6 H5].
      split; cbn [q_phase q_stats q_delayed q_log]; try assumption; try (intro; congruence). apply Forall_app. split; [exact H5|].
      constructor; [|constructor]. subst e. eauto.
    + cbn [negb] in *. subst q1. cbn [set_stats q_stats].
      unfold Sequencer.ask at 1. cbn [q_phase q_stats q_delayed q_log set_stats]. pose proof (iv_units _ H) as U.
      set (s1 := with_pts s _). pose proof (follows_snoc _ (SDescs s1) _ L) as L1. destruct (answer (q_log q) (SDescs s1)) eqn:A.
      * split; [|exact U]. exists PRefused. split; [exact L1|discriminate].
      * cbn [q_phase q_stats q_delayed q_log to_phase] in *.
        match goal with |- context [ask_all ?l ?x] => pose proof (ask_units l x L1 U) as B; destruct (ask_all l x) as [[[]|c| | |] q3] end; try contradiction.
        -- destruct B as [-> L2]. cbn [q_phase q_stats q_delayed q_log] in *. apply ask_unit; [|reflexivity]. split; cbn [q_phase q_stats q_delayed q_log]; try (intro; discriminate).
           ++ exact L2.
           ++ intros _. split; [discriminate|reflexivity].
           ++ intros _ _. exists s1. split; [reflexivity|]. discriminate.
           ++ constructor.
        -- destruct B as [B1 B2]. split; [|rewrite B1; exact U]. exists PRefused. split; [exact B2|discriminate].
Qed.
Definition descriptors_welcome : Prop := delay = false \/ forall log s, answer log (SDescs s) = None.
Lemma close_fine q : descriptors_welcome -> inv q -> fine (close q).
Proof.
  intros W H. pose proof (iv_log _ H) as L. pose proof (iv_units _ H) as U. unfold Sequencer.close. cbv zeta. destruct (q_phase q) eqn:E; cbn [of_phase] in L.
  - split; [exact I|]. split; cbn [snd q_phase q_stats q_delayed q_log]; try (intro; discriminate); [|exact U]. rewrite (follows_snoc _ _ _ L). reflexivity.
  - destruct (iv_given _ H E) as (DL & s & ES & EP). rewrite ES. destruct W as [W|W]; [congruence|]. unfold Sequencer.ask, set_stats, to_phase. cbn [q_phase q_stats q_delayed q_log]. rewrite W. split; [exact I|].
    split; cbn [snd q_phase q_stats q_delayed q_log]; try (intro; discriminate); [|exact U]. pose proof (follows_snoc _ (SDescs (with_pts s 0)) _ L) as L1. rewrite W in L1.
    rewrite (follows_snoc _ _ _ L1). reflexivity.
  - split; [exact I|]. split; cbn [snd q_phase q_stats q_delayed q_log]; try (intro; discriminate); [|exact U]. rewrite (follows_snoc _ _ _ L). reflexivity.
  - split; [exact I|exact H].
Qed.
Lemma close_out q : q_phase q = DescriptorsOut -> close q = (Ok tt, mkSq Closed (q_stats q) (q_delayed q) (q_log q ++ [SClose])).
Proof. intro E. unfold Sequencer.close. rewrite E. reflexivity. Qed.
Lemma update_fine d q : descriptors_welcome -> inv q -> fine (update_and_close d q).
Proof.
  intros W H. unfold Sequencer.update_and_close. apply guarded_fine. pose proof (serialize_clean (serialize_descriptors g d) false) as C. pose proof (iv_log _ H) as L.
  assert (q_phase q = DescriptorsGiven \/ q_phase q = DescriptorsOut -> body_fine
      match serialize (serialize_descriptors g d) false with
      | Ok b =>
          match q_stats q with
          | None => (UB, q)
          | Some s =>
              if bytes_eq_dec b (st_obus s) then close q
              else match statistics d b with
                   | Ok n =>
                       if negb ((st_spf s =? st_spf n) && (st_rate s =? st_rate n) && (st_bits s =? st_bits n)) then (Err FailedPrecondition, q)
                       else if negb (zlen (st_obus s) =? zlen b) then (Err Unimplemented, q)
                       else match ask (SFinal b) q with
                            | (Ok _, q1) => close (to_phase DescriptorsOut q1)
                            | x => x
                            end
                   | Err c => (Err c, q) | Abort => (Abort, q) | UB => (UB, q) | Diverge => (Diverge, q)
                   end
          end
      | Err c => (Err c, q) | Abort => (Abort, q) | UB => (UB, q) | Diverge => (Diverge, q)
      end) as M; [|destruct (q_phase q); try (apply inv_fail; exact H); apply M; auto].
  intro PH. destruct (serialize _ _) as [b|c| | |]; try contradiction; [|apply inv_fail; exact H].
  destruct (q_stats q) as [s|] eqn:ES.
  2:{ destruct PH as [E|E]; [destruct (iv_given _ H E) as (_ & s & X & _)|destruct (iv_out _ H E) as [X _]]; congruence. }
  destruct (bytes_eq_dec b (st_obus s)).
  { pose proof (close_fine q W H) as [F1 F2]. destruct (close q) as [[[]|c| | |] q']; cbn [fst snd] in *; try contradiction; [exact F2|]. apply inv_fail. exact F2. }
  pose proof (statistics_clean d b) as C2. destruct (statistics d b) as [n0|c| | |]; try contradiction; [|apply inv_fail; exact H].
  destruct (negb _); [apply inv_fail; exact H|]. destruct (negb _); [apply inv_fail; exact H|]. unfold Sequencer.ask. pose proof (follows_snoc _ (SFinal b) _ L) as L1.
  pose proof (iv_units _ H) as U. destruct (answer (q_log q) (SFinal b)) eqn:A.
  - split; [|exact U]. exists PRefused. split; [|discriminate]. cbn [q_log]. rewrite L1. destruct PH as [E|E]; rewrite E; [|reflexivity].
    destruct (iv_given _ H E) as (DL & _). cbn [of_phase proto]. rewrite DL. reflexivity.
  - rewrite close_out by reflexivity. cbn [to_phase q_phase q_stats q_delayed q_log body_fine]. split; cbn [q_phase q_stats q_delayed q_log]; try (intro; discriminate); [|exact U].
    assert (follows [] PStart (q_log q ++ [SFinal b]) = Some PFinal) as L2.
    { rewrite L1. destruct PH as [E|E]; rewrite E; [|reflexivity]. destruct (iv_given _ H E) as (DL & _). cbn [of_phase proto]. rewrite DL. reflexivity. }
    rewrite (follows_snoc _ _ _ L2). reflexivity.
Qed.
Lemma inv_new : inv sq_new.
Proof. split; cbn; try (intro; discriminate); auto. Qed.
Lemma step_fine c q : descriptors_welcome -> inv q -> fine (sq_step c q).
Proof.
  intros W H. destruct c; cbn [Sequencer.sq_step]; [apply push_descriptors_fine|apply push_unit_fine|apply update_fine|apply close_fine|]; try assumption.
  apply (guarded_fine (Err Unknown, q)) . apply inv_fail. exact H.
Qed.

Lemma sq_calls_app a : forall b q, sq_calls (a ++ b) q = (fst (sq_calls a q) ++ fst (sq_calls b (snd (sq_calls a q))), snd (sq_calls b (snd (sq_calls a q)))).
Proof.
  induction a as [|c a IH]; intros b q; cbn [app Sequencer.sq_calls fst snd]; [destruct (sq_calls b q); reflexivity|].
  destruct (sq_step c q) as [r q1]. rewrite IH. destruct (sq_calls a q1) as [ra qa]. cbn [fst snd app]. reflexivity.
Qed.
Lemma calls_inv cs : descriptors_welcome -> forall q, inv q -> Forall clean (fst (sq_calls cs q)) /\ inv (snd (sq_calls cs q)).
Proof.
  intro W. induction cs as [|c cs IH]; intros q H; cbn [Sequencer.sq_calls]; [split; [constructor|exact H]|].
  pose proof (step_fine c q W H) as [F1 F2]. destruct (sq_step c q) as [r q1]. cbn [fst snd] in *. destruct (IH q1 F2) as [G1 G2]. destruct (sq_calls cs q1). cbn [fst snd] in *.
  split; [constructor; assumption|exact G2].
Qed.
(* Whatever is called and whatever the concrete class answers, no call crashes and the concrete class is asked according to the protocol. *)
Theorem C54_protocol cs : descriptors_welcome ->
  Forall clean (fst (sq_calls cs sq_new)) /\
  exists st, follows [] PStart (q_log (snd (sq_calls cs sq_new))) = Some st /\ st <> PRefused /\ st <> PFinal.
Proof.
  intro W. destruct (calls_inv cs W sq_new inv_new) as [H1 H2]. split; [exact H1|]. eexists. split; [exact (iv_log _ H2)|].
  destruct (q_phase _); split; discriminate.
Qed.
(* The end of a session: a successful close, an abort, or any failure other than of Close. *)
Definition ends (c : scall) (r : res unit) : Prop :=
  match c with AbortCall => True | Close => r = Ok tt | UpdateAndClose _ => True | _ => r <> Ok tt end.
Lemma closed_calls cs : forall q, q_phase q = Closed ->
  Forall2 (fun c r => c = AbortCall \/ r = Err FailedPrecondition) cs (fst (sq_calls cs q)) /\
  (exists n, q_log (snd (sq_calls cs q)) = q_log q ++ repeat SAbort n) /\ q_phase (snd (sq_calls cs q)) = Closed.
Proof.
  induction cs as [|c cs IH]; intros q H; cbn [Sequencer.sq_calls fst snd]; [split; [constructor|split; [exists 0%nat; cbn [repeat]; rewrite app_nil_r; reflexivity|exact H]]|].
  assert (exists r q1, sq_step c q = (r, q1) /\ (c = AbortCall \/ r = Err FailedPrecondition) /\ q_phase q1 = Closed /\ exists n, q_log q1 = q_log q ++ repeat SAbort n) as (r & q1 & E & R & P & n & L).
  { destruct c; cbn [Sequencer.sq_step]; unfold Sequencer.push_descriptors, Sequencer.push_unit, Sequencer.update_and_close, Sequencer.close; rewrite ?H; cbn [guarded].
    5:{ eexists _, _. split; [reflexivity|]. split; [left; reflexivity|]. split; [reflexivity|]. exists 1%nat. reflexivity. }
    4:{ eexists _, _. split; [reflexivity|]. split; [right; reflexivity|]. split; [exact H|]. exists 0%nat. cbn [repeat]. rewrite app_nil_r. reflexivity. }
    all: eexists _, _; (split; [reflexivity|]); (split; [right; reflexivity|]); (split; [reflexivity|]); exists 1%nat; reflexivity. }
  rewrite E. destruct (IH q1 P) as (I1 & (m & I2) & I3). destruct (sq_calls cs q1) as [rs q2]. cbn [fst snd] in *. split; [constructor; assumption|]. split; [|exact I3].
  exists (n + m)%nat. rewrite I2, L, repeat_app, app_assoc. reflexivity.
Qed.
Lemma guarded_ends x : fst (guarded x) <> Ok tt -> clean (fst (guarded x)) -> q_phase (snd (guarded x)) = Closed.
Proof. destruct x as [[[]|c| | |] q]; cbn [guarded fst snd clean]; intros N C; try contradiction; reflexivity. Qed.
Lemma close_ends q : fst (close q) = Ok tt -> q_phase (snd (close q)) = Closed.
Proof.
  unfold Sequencer.close, Sequencer.ask. cbv zeta. destruct (q_phase q); cbn [fst snd q_phase]; try reflexivity; try discriminate.
  destruct (q_stats q); cbn [fst snd]; [|discriminate]. destruct (answer _ _); cbn [fst snd]; [discriminate|reflexivity].
Qed.
Lemma update_ok_ends d q : fst (update_and_close d q) = Ok tt -> q_phase (snd (update_and_close d q)) = Closed.
Proof.
  unfold Sequencer.update_and_close. match goal with |- context [guarded ?x] => set (y := x) end.
  enough (fst y = Ok tt -> q_phase (snd y) = Closed) as X; [destruct y as [[[]|c| | |] q']; cbn [guarded fst snd] in *; try discriminate; exact X|]. subst y.
  assert (forall A (P : Prop) c (x : A), (@Err unit c) = Ok tt -> P) as XX by (intros; discriminate).
  destruct (q_phase q); cbn [fst snd]; try discriminate.
  all: destruct (serialize _ _); cbn [fst snd]; try discriminate; destruct (q_stats q); cbn [fst snd]; try discriminate.
  all: destruct (bytes_eq_dec _ _); [apply close_ends|]; destruct (statistics d _); cbn [fst snd]; try discriminate.
  all: destruct (negb _); cbn [fst snd]; try discriminate; destruct (negb _); cbn [fst snd]; try discriminate.
  all: unfold Sequencer.ask; destruct (answer _ _); cbn [fst snd]; try discriminate; apply close_ends.
Qed.
Theorem C54_after_the_end cs1 c cs2 : descriptors_welcome ->
  let '(rs1, q1) := sq_calls cs1 sq_new in
  let '(r, q2) := sq_step c q1 in
  let '(rs, q3) := sq_calls (cs1 ++ c :: cs2) sq_new in
  ends c r ->
  Forall2 (fun c' r' => c' = AbortCall \/ r' = Err FailedPrecondition) cs2 (skipn (S (length cs1)) rs) /\
  (exists n, q_log q3 = q_log q2 ++ repeat SAbort n) /\
  (r <> Ok tt -> exists l, q_log q2 = l ++ [SAbort]).
Proof.
  intro W. pose proof (calls_inv cs1 W sq_new inv_new) as [_ H1]. rewrite sq_calls_app.
  destruct (sq_calls cs1 sq_new) as [rs1 q1] eqn:E1. cbn [fst snd] in *. assert (length rs1 = length cs1) as LEN.
  { replace rs1 with (fst (sq_calls cs1 sq_new)) by (rewrite E1; reflexivity). clear. generalize sq_new. induction cs1 as [|c l IH]; intro q; cbn [Sequencer.sq_calls]; [reflexivity|].
    destruct (sq_step c q) as [r q1]. specialize (IH q1). destruct (sq_calls l q1). cbn [fst length] in *. congruence. }
  cbn [Sequencer.sq_calls]. pose proof (step_fine c q1 W H1) as [F1 F2]. destruct (sq_step c q1) as [r q2] eqn:E2. cbn [fst snd] in *.
  destruct (sq_calls cs2 q2) as [rs2 q3] eqn:E3. cbn [fst snd]. intro EN.
  assert (q_phase q2 = Closed /\ (r <> Ok tt -> exists l, q_log q2 = l ++ [SAbort])) as [P A].
  { assert (forall x, (r, q2) = guarded x -> r <> Ok tt -> exists l, q_log q2 = l ++ [SAbort]) as GA.
    { intros x X N. destruct x as [[[]|y| | |] q']; cbn [guarded] in X; injection X as -> ->; try contradiction. eexists. reflexivity. }
    destruct c; cbn [Sequencer.sq_step ends] in *.
    - split; [|apply (GA _ (eq_sym E2))]. pose proof (guarded_ends _ ltac:(unfold Sequencer.push_descriptors in E2; rewrite E2; exact EN) ltac:(unfold Sequencer.push_descriptors in E2; rewrite E2; exact F1)) as X.
      unfold Sequencer.push_descriptors in E2. rewrite E2 in X. exact X.
    - split; [|apply (GA _ (eq_sym E2))]. pose proof (guarded_ends _ ltac:(unfold Sequencer.push_unit in E2; rewrite E2; exact EN) ltac:(unfold Sequencer.push_unit in E2; rewrite E2; exact F1)) as X.
      unfold Sequencer.push_unit in E2. rewrite E2 in X. exact X.
    - split; [|apply (GA _ (eq_sym E2))]. destruct r as [[]|x| | |]; try contradiction; [pose proof (update_ok_ends d q1) as X; rewrite E2 in X; exact (X eq_refl)|].
      unfold Sequencer.update_and_close in E2. match type of E2 with guarded ?x = _ => pose proof (guarded_ends x) as X; rewrite E2 in X end. apply X; [discriminate|exact I].
    - split; [pose proof (close_ends q1) as X; rewrite E2 in X; exact (X EN)|]. congruence.
    - injection E2 as <- <-. split; [reflexivity|]. congruence. }
  destruct (closed_calls cs2 q2 P) as (C1 & C2 & _). rewrite E3 in C1, C2. cbn [fst snd] in *. split; [|split; [exact C2|exact A]].
  rewrite skipn_app. rewrite skipn_all2 by lia. replace (S (length cs1) - length rs1)%nat with 1%nat by lia. exact C1.
Qed.

(* ---- sessions in which everything succeeds ---- *)
Definition kept_stats (s : stats) (us : list tunit) : stats := match first_kept us with Some t => with_pts s t | None => s end.
Definition open_state (d : descset) (us : list tunit) (q : sequencer) : Prop :=
  exists b s es, serialize (serialize_descriptors g d) false = Ok b /\ statistics d b = Ok s /\ Forall2 (unit_event g delims) us es /\ trims_first us /\
  q_stats q = Some (kept_stats s us) /\
  match delay, first_kept us with
  | true, None => q_phase q = DescriptorsGiven /\ q_delayed q = es /\ q_log q = []
  | true, Some _ => q_phase q = DescriptorsOut /\ q_delayed q = [] /\ q_log q = SDescs (kept_stats s us) :: es
  | false, _ => q_phase q = DescriptorsOut /\ q_delayed q = [] /\ q_log q = SDescs s :: es
  end.
Lemma first_kept_app us vs : first_kept (us ++ vs) = match first_kept us with Some t => Some t | None => first_kept vs end.
Proof. unfold first_kept. induction us as [|u us IH]; cbn [app find]; [reflexivity|]. destruct (negb _); [reflexivity|exact IH]. Qed.
Lemma first_kept_none us : first_kept us = None <-> Forall silent us.
Proof.
  unfold first_kept. induction us as [|u us IH]; cbn [find]; [split; [constructor|reflexivity]|]. unfold silent at 1 in IH. destruct (tu_un u =? 0) eqn:E; cbn [negb option_map].
  - rewrite IH. split; [intro; constructor; [unfold silent; lia|assumption]|intro H; inversion H; assumption].
  - split; [discriminate|]. intro H. inversion H as [|? ? X]. unfold silent in X. lia.
Qed.
Lemma trims_snoc us u : trims_first us -> (first_kept us <> None -> tu_trim u <= 0) -> trims_first (us ++ [u]).
Proof.
  intros T H. destruct T as [us F|us v vs F N G].
  - destruct (Z.eq_dec (tu_un u) 0); [apply Tr_silent, Forall_app; split; [exact F|constructor; [assumption|constructor]]|]. apply Tr_first; [assumption..|constructor].
  - rewrite <- app_assoc. cbn [app]. apply Tr_first; [assumption..|]. apply Forall_app. split; [exact G|]. constructor; [|constructor]. apply H.
    rewrite first_kept_app. apply first_kept_none in F. rewrite F. unfold first_kept. cbn [find]. replace (tu_un v =? 0) with false by lia. discriminate.
Qed.
Lemma guarded_ok x q : guarded x = (Ok tt, q) -> x = (Ok tt, q).
Proof. destruct x as [[[]|c| | |] q']; cbn [guarded]; congruence. Qed.
Lemma push_first d q : push_descriptors d sq_new = (Ok tt, q) -> open_state d [] q.
Proof.
  unfold Sequencer.push_descriptors. cbn [sq_new q_phase to_phase q_stats q_delayed q_log].
  pose proof (serialize_clean (serialize_descriptors g d) false) as C. destruct (serialize _ _) as [b|c| | |] eqn:EB; cbn [rbind]; try contradiction; [|discriminate].
  pose proof (statistics_clean d b) as C2. destruct (statistics d b) as [s|c| | |] eqn:ES; try contradiction; [|discriminate]. cbv zeta. unfold open_state.
  intro H. apply guarded_ok in H. exists b, s, []. split; [exact EB|]. split; [exact ES|]. split; [constructor|]. split; [apply Tr_silent; constructor|].
  destruct delay; [injection H as <-; repeat split|]. unfold Sequencer.ask in H. cbn [q_log set_stats] in H. destruct (answer _ _); [discriminate|]. injection H as <-. repeat split.
Qed.
Lemma ask_all_ok l : forall q q', ask_all l q = (Ok tt, q') -> q' = mkSq (q_phase q) (q_stats q) (q_delayed q) (q_log q ++ l).
Proof.
  induction l as [|e l IH]; intros q q'; cbn [Sequencer.ask_all]; [intros [= <-]; rewrite app_nil_r; destruct q; reflexivity|]. unfold Sequencer.ask at 1.
  destruct (answer _ _); [discriminate|]. intro H. apply IH in H. cbn [q_phase q_stats q_delayed q_log] in H. rewrite <- app_assoc in H. exact H.
Qed.
Lemma push_next d us u q q' : open_state d us q -> push_unit u q = (Ok tt, q') -> open_state d (us ++ [u]) q'.
Proof.
  intros (b & s & es & EB & ES & F & T & ST & Q) H. unfold Sequencer.push_unit in H. apply guarded_ok in H.
  assert (q_phase q = DescriptorsGiven \/ q_phase q = DescriptorsOut) as PH by (destruct delay, (first_kept us); destruct Q as (-> & _); auto).
  assert (match serialize (write_unit g delims u) true with
      | Ok b =>
          let e := SUnit (tu_start u) (s32 (tu_un u)) (is_key_frame u) b in
          match q_stats q with
          | None => (UB, q)
          | Some s => match st_pts s with
                      | None => initial_unit delay answer u e s q
                      | Some _ => if tu_trim u >? 0 then (Err InvalidArgument, q) else ask e q
                      end
          end
      | Err c => (Err c, q) | Abort => (Abort, q) | UB => (UB, q) | Diverge => (Diverge, q)
      end = (Ok tt, q')) as H' by (destruct PH as [E|E]; rewrite E in H; exact H). clear H.
  destruct (serialize _ true) as [ub|c| | |] eqn:EU; try discriminate. cbv zeta in H'. set (e := SUnit _ _ _ ub) in *.
  assert (unit_event g delims u e) as UE by (exists ub, (is_key_frame u); split; [assumption|]; split; [apply key_frame_iff|auto]).
  assert (Forall2 (unit_event g delims) (us ++ [u]) (es ++ [e])) as F' by (apply Forall2_app; [exact F|constructor; [exact UE|constructor]]).
  assert (st_pts s = None) as PN by (destruct (statistics_describes _ _ _ ES) as (_ & X & _); exact X).
  rewrite ST in H'. exists b, s, (es ++ [e]). split; [exact EB|]. split; [exact ES|]. split; [exact F'|].
  unfold kept_stats in *. rewrite first_kept_app. destruct (first_kept us) as [t|] eqn:FK.
  - cbn [with_pts st_pts] in H'. destruct (tu_trim u >? 0) eqn:ET; [discriminate|]. unfold Sequencer.ask in H'. destruct (answer _ _); [discriminate|]. injection H' as <-.
    split; [apply trims_snoc; [exact T|intros _; lia]|]. cbn [q_stats q_phase q_delayed q_log]. split; [exact ST|].
    destruct delay; destruct Q as (Q1 & Q2 & ->); (split; [exact Q1|split; [exact Q2|reflexivity]]).
  - rewrite PN in H'. split; [apply trims_snoc; [exact T|congruence]|]. unfold initial_unit in H'. cbv zeta in H'. unfold first_kept. cbn [find].
    destruct (tu_un u =? 0) eqn:EZ; cbn [negb option_map] in *.
    + destruct delay; cbn [negb] in H'.
      * injection H' as <-. cbn [q_stats q_phase q_delayed q_log]. destruct Q as (Q1 & Q2 & Q3). rewrite Q2. auto.
      * unfold Sequencer.ask in H'. destruct (answer _ _); [discriminate|]. injection H' as <-. cbn [q_stats q_phase q_delayed q_log]. destruct Q as (Q1 & Q2 & ->). auto.
    + destruct delay; cbn [negb] in H'.
      * cbn [set_stats q_stats] in H'. unfold Sequencer.ask at 1 in H'. destruct (answer _ _); [discriminate|]. cbn [to_phase q_stats q_phase q_delayed q_log] in H'.
        destruct (ask_all _ _) as [[[]| | | |] q3] eqn:EA; try discriminate. apply ask_all_ok in EA. subst q3. unfold Sequencer.ask in H'. destruct (answer _ _); [discriminate|]. injection H' as <-.
        cbn [q_stats q_phase q_delayed q_log]. destruct Q as (Q1 & -> & ->). split; [reflexivity|]. split; [reflexivity|]. split; [reflexivity|]. rewrite <- app_assoc. reflexivity.
      * unfold Sequencer.ask in H'. destruct (answer _ _); [discriminate|]. injection H' as <-. cbn [set_stats q_stats q_phase q_delayed q_log]. destruct Q as (Q1 & Q2 & ->). auto.
Qed.

Lemma push_all d us : forall vs q, open_state d vs q -> all_succeed (fst (sq_calls (map PushUnit us) q)) -> open_state d (vs ++ us) (snd (sq_calls (map PushUnit us) q)).
Proof.
  induction us as [|u us IH]; intros vs q O A; cbn [map Sequencer.sq_calls Sequencer.sq_step] in *; [rewrite app_nil_r; exact O|].
  destruct (push_unit u q) as [r q1] eqn:E. specialize (IH (vs ++ [u]) q1). destruct (sq_calls _ q1) as [rs q2]. cbn [fst snd] in *. inversion A; subst.
  rewrite <- app_assoc in IH. apply IH; [|assumption]. eapply push_next; eassumption.
Qed.
Lemma close_open d us q q' : open_state d us q -> close q = (Ok tt, q') -> delay = false \/ first_kept us <> None -> q_log q' = q_log q ++ [SClose] /\ q_phase q' = Closed.
Proof.
  intros (b & s & es & EB & ES & F & T & ST & Q) H M.
  assert (q_phase q = DescriptorsOut) as P by (destruct delay, (first_kept us); destruct Q as (Q1 & _); auto; destruct M; congruence).
  rewrite (close_out _ P) in H. injection H as <-. auto.
Qed.
Lemma update_open d us q d' q' : open_state d us q -> update_and_close d' q = (Ok tt, q') -> delay = false \/ first_kept us <> None ->
  exists b s fin, serialize (serialize_descriptors g d) false = Ok b /\ statistics d b = Ok s /\ closing g b s [UpdateAndClose d'] fin /\ q_log q' = q_log q ++ fin.
Proof.
  intros O H M. pose proof O as (b & s & es & EB & ES & F & T & ST & Q).
  assert (q_phase q = DescriptorsOut) as P by (destruct delay, (first_kept us); destruct Q as (Q1 & _); auto; destruct M; congruence).
  unfold Sequencer.update_and_close in H. apply guarded_ok in H. rewrite P, ST in H. pose proof (serialize_clean (serialize_descriptors g d') false) as C.
  destruct (serialize (serialize_descriptors g d') false) as [b'| | | |] eqn:EB'; try contradiction; [|discriminate].
  destruct (statistics_describes _ _ _ ES) as (OB & _). exists b, s.
  assert (st_obus (kept_stats s us) = b /\ st_spf (kept_stats s us) = st_spf s /\ st_rate (kept_stats s us) = st_rate s /\ st_bits (kept_stats s us) = st_bits s) as (K1 & K2 & K3 & K4)
    by (unfold kept_stats; destruct (first_kept us); cbn [with_pts st_obus st_spf st_rate st_bits]; auto).
  rewrite K1, K2, K3, K4 in H. destruct (bytes_eq_dec b' b) as [->|N].
  - exists [SClose]. split; [exact EB|]. split; [exact ES|]. split; [constructor; exact EB'|]. eapply close_open; eassumption.
  - destruct (statistics d' b') as [s'| | | |] eqn:ES'; try discriminate. destruct (negb _) eqn:N1 in H; [discriminate|]. destruct (negb _) eqn:N2 in H; [discriminate|].
    unfold Sequencer.ask in H. destruct (answer _ _); [discriminate|]. rewrite close_out in H by reflexivity. injection H as <-. exists [SFinal b'; SClose].
    split; [exact EB|]. split; [exact ES|]. apply Bool.negb_false_iff in N1, N2. split; [|cbn [to_phase q_log]; rewrite <- app_assoc; reflexivity].
    apply Cl_new with (s' := s'); try assumption; [lia|apply statistics_describes; exact ES'|]. lia.
Qed.
(* What is pushed arrives, in order; what arrives was pushed. *)
Theorem C54_session d us tl :
  let '(rs, q) := sq_calls (PushDescriptors d :: map PushUnit us ++ tl) sq_new in
  all_succeed rs -> delay = false \/ first_kept us <> None -> tl = [] \/ tl = [Close] \/ (exists d', tl = [UpdateAndClose d']) ->
  exists b s es fin,
    serialize (serialize_descriptors g d) false = Ok b /\ describes d b s /\ Forall2 (unit_event g delims) us es /\ trims_first us /\
    closing g b s tl fin /\
    q_log q = SDescs (mkSt (st_spf s) (st_rate s) (st_bits s) (if delay then first_kept us else None) b) :: es ++ fin.
Proof.
  cbn [Sequencer.sq_calls Sequencer.sq_step]. destruct (push_descriptors d sq_new) as [r q0] eqn:E0. rewrite sq_calls_app.
  pose proof (push_all d us [] q0) as PA. destruct (sq_calls (map PushUnit us) q0) as [rs1 q1]. cbn [fst snd app] in *.
  intros A M TL. apply Forall_cons_iff in A as [A0 A]. apply Forall_app in A as [A1 A2]. cbn beta in A0. subst r. specialize (PA (push_first _ _ E0) A1).
  assert (exists b s fin, serialize (serialize_descriptors g d) false = Ok b /\ statistics d b = Ok s /\ closing g b s tl fin /\ q_log (snd (sq_calls tl q1)) = q_log q1 ++ fin) as (b & s & fin & EB & ES & CL & LG).
  { pose proof PA as (b & s & es & EB & ES & _). destruct TL as [-> | [-> | [d' ->]]]; cbn [Sequencer.sq_calls Sequencer.sq_step] in A2 |- *.
    - exists b, s, []. cbn [snd]. rewrite app_nil_r. split; [exact EB|]. split; [exact ES|]. split; [constructor|reflexivity].
    - destruct (close q1) as [r q2] eqn:EC. cbn [fst snd] in *. apply Forall_cons_iff in A2 as [A2 _]. cbn beta in A2. subst r. exists b, s, [SClose].
      split; [exact EB|]. split; [exact ES|]. split; [constructor|]. eapply close_open; eassumption.
    - destruct (update_and_close d' q1) as [r q2] eqn:EC. cbn [fst snd] in *. apply Forall_cons_iff in A2 as [A2 _]. cbn beta in A2. subst r. eapply update_open; eassumption. }
  destruct PA as (b' & s' & es & EB' & ES' & F & T & ST & Q). assert (b' = b) by congruence. subst b'. assert (s' = s) by congruence. subst s'.
  pose proof (statistics_describes _ _ _ ES) as D. exists b, s, es, fin. split; [exact EB|]. split; [exact D|]. split; [exact F|]. split; [exact T|]. split; [exact CL|].
  destruct D as (D1 & D2 & _). rewrite LG. unfold kept_stats in *. destruct s as [x1 x2 x3 x4 x5]. cbn [st_spf st_rate st_bits st_pts st_obus] in *. subst x4 x5.
  destruct delay; [destruct (first_kept us); [|destruct M; congruence]|]; destruct Q as (Q1 & Q2 & ->); reflexivity.
Qed.
Lemma out_orderly cs : forall q, q_phase q = DescriptorsGiven \/ q_phase q = DescriptorsOut -> all_succeed (fst (sq_calls cs q)) -> ~ In AbortCall cs ->
  exists us, cs = map PushUnit us \/ cs = map PushUnit us ++ [Close] \/ exists d', cs = map PushUnit us ++ [UpdateAndClose d'].
Proof.
  assert (forall cs q, q_phase q = Closed -> all_succeed (fst (sq_calls cs q)) -> ~ In AbortCall cs -> cs = []) as CLO.
  { intros l q P A N. destruct (closed_calls l q P) as (F & _). destruct l as [|c l]; [reflexivity|]. destruct (fst (sq_calls (c :: l) q)) as [|r rs]; [inversion F|].
    inversion F as [|? ? ? ? [X|X]]; subst; [destruct N; left; reflexivity|]. apply Forall_cons_iff in A as [A _]. discriminate. }
  induction cs as [|c cs IH]; intros q P A N; [exists []; auto|]. cbn [Sequencer.sq_calls] in A. destruct (sq_step c q) as [r q1] eqn:E.
  specialize (IH q1). specialize (CLO cs q1). destruct (sq_calls cs q1) as [rs q2]. cbn [fst] in *. apply Forall_cons_iff in A as [A0 A]. cbn beta in A0. subst r.
  assert (~ In AbortCall cs) as N' by (intro X; apply N; right; exact X). destruct c; cbn [Sequencer.sq_step] in E.
  - unfold Sequencer.push_descriptors in E. apply guarded_ok in E. destruct P as [P|P]; rewrite P in E; discriminate.
  - destruct IH as (us & IH); [|exact A|exact N'|exists (u :: us); destruct IH as [-> | [-> | [d' ->]]]; [left|right; left|right; right; exists d']; reflexivity].
    unfold Sequencer.push_unit in E. apply guarded_ok in E.
    assert (forall e q q', ask e q = (Ok tt, q') -> q_phase q' = q_phase q) as AP by (intros e x y; unfold Sequencer.ask; destruct (answer _ _); [discriminate|intros [= <-]; reflexivity]).
    destruct P as [P|P]; rewrite P in E; (destruct (serialize _ _); try discriminate); (destruct (q_stats q) as [s|] eqn:ES; [|discriminate]); cbv zeta in E.
    all: destruct (st_pts s); [destruct (_ >? _); [discriminate|apply AP in E; rewrite E; auto]|]; unfold initial_unit in E; cbv zeta in E.
    all: assert (forall x, q_phase (if negb (tu_un u =? 0) then set_stats x q else q) = q_phase q) as QP by (intro; destruct (tu_un u =? 0); reflexivity).
    all: destruct (negb delay); [apply AP in E; rewrite E, QP; auto|].
    all: destruct (tu_un u =? 0); cbn [negb] in E; [injection E as <-; cbn [q_phase]; auto|]; cbn [set_stats q_stats] in E; unfold Sequencer.ask at 1 in E; (destruct (answer _ _); [discriminate|]).
    all: destruct (ask_all _ _) as [[[]| | | |] q3] eqn:EA; try discriminate; apply ask_all_ok in EA; apply AP in E; rewrite E; cbn [q_phase]; subst q3; auto.
  - pose proof (update_ok_ends d q) as X. rewrite E in X. rewrite (CLO (X eq_refl) A N'). exists []. right. right. exists d. reflexivity.
  - pose proof (close_ends q) as X. rewrite E in X. rewrite (CLO (X eq_refl) A N'). exists []. auto.
  - destruct N. left. reflexivity.
Qed.
(* Nothing succeeds out of order. *)
Theorem C54_orderly cs : all_succeed (fst (sq_calls cs sq_new)) -> ~ In AbortCall cs -> orderly cs.
Proof.
  intros A N. destruct cs as [|c cs]; [constructor|]. cbn [Sequencer.sq_calls] in A. destruct (sq_step c sq_new) as [r q] eqn:E.
  pose proof (out_orderly cs q) as O. pose proof (closed_calls cs q) as CL. destruct (sq_calls cs q) as [rs q']. cbn [fst] in *. apply Forall_cons_iff in A as [A0 A]. cbn beta in A0. subst r.
  assert (~ In AbortCall cs) as N' by (intro X; apply N; right; exact X). destruct c; cbn [Sequencer.sq_step] in E.
  - destruct O as (us & O); [|exact A|exact N'|destruct O as [-> | [-> | [d' ->]]]; constructor].
    apply push_first in E as (b & s & es & EB & ES & F & T & ST & Q). destruct delay; [left|right]; apply Q.
  - unfold Sequencer.push_unit in E. apply guarded_ok in E. discriminate.
  - unfold Sequencer.update_and_close in E. apply guarded_ok in E. discriminate.
  - unfold Sequencer.close in E. cbn [sq_new q_phase] in E. injection E as <-. destruct (CL eq_refl) as (F & _).
    destruct cs as [|c cs]; [constructor|]. destruct rs as [|r rs]; inversion F as [|? ? ? ? [X|X]]; subst; [destruct N'; left; reflexivity|]. apply Forall_cons_iff in A as [A _]. discriminate.
  - destruct N. left. reflexivity.
Qed.

Lemma trims_mid l : trims_first l -> forall vs u us, l = vs ++ u :: us -> first_kept vs <> None -> tu_trim u <= 0.
Proof.
  intros T vs u us E K. destruct T as [l F|l v ws F N G].
  - subst l. apply Forall_app in F as [F _]. apply first_kept_none in F. contradiction.
  - apply app_eq_app in E as (m & [[E1 E2]|[E1 E2]]).
    + subst l. apply Forall_app in F as [F _]. apply first_kept_none in F. contradiction.
    + destruct m as [|w m]; cbn [app] in E2; [rewrite app_nil_r in E1; subst vs; apply first_kept_none in F; contradiction|]. injection E2 as <- E2. subst ws.
      apply Forall_app in G as [_ G]. inversion G. assumption.
Qed.
Lemma accept_unit d us u e q : (forall log e, answer log e = None) -> open_state d us q -> unit_event g delims u e -> (first_kept us <> None -> tu_trim u <= 0) ->
  fst (push_unit u q) = Ok tt.
Proof.
  intros Y (b & s & es & EB & ES & F & T & ST & Q) (ub & UB & ->)%unit_event_bytes K. unfold Sequencer.push_unit.
  assert (forall e q, ask e q = (Ok tt, mkSq (q_phase q) (q_stats q) (q_delayed q) (q_log q ++ [e]))) as AK by (intros; unfold Sequencer.ask; rewrite Y; reflexivity).
  assert (forall l q, exists q', ask_all l q = (Ok tt, q')) as AL by (clear - AK; intro l; induction l as [|x l IH]; intro q; cbn [Sequencer.ask_all]; [eauto|rewrite AK; apply IH]).
  assert (q_phase q = DescriptorsGiven \/ q_phase q = DescriptorsOut) as PH by (destruct delay, (first_kept us); destruct Q as (-> & _); auto).
  rewrite UB, ST. cbv zeta. match goal with |- context [match st_pts ?s' with Some _ => ?X | None => ?Z end] => enough (fst (match st_pts s' with Some _ => X | None => Z end) = Ok tt) as M end.
  { destruct PH as [-> | ->]; destruct (match st_pts _ with Some _ => _ | None => _ end) as [[[]| | | |] ?]; cbn [fst guarded] in *; congruence. }
  destruct (statistics_describes _ _ _ ES) as (_ & PN & _). unfold kept_stats. destruct (first_kept us) as [t|] eqn:FK.
  - cbn [with_pts st_pts]. replace (tu_trim u >? 0) with false by (specialize (K ltac:(discriminate)); lia). rewrite AK. reflexivity.
  - rewrite PN. unfold initial_unit. cbv zeta. destruct (negb delay); [rewrite AK; reflexivity|]. destruct (tu_un u =? 0); cbn [negb]; [reflexivity|].
    cbn [set_stats q_stats]. rewrite AK. destruct (AL (q_delayed q) (to_phase DescriptorsOut (mkSq (q_phase q) (Some (with_pts s (s64 (tu_start u + tu_trim u)))) (q_delayed q) (q_log q ++ [SDescs (with_pts s (s64 (tu_start u + tu_trim u)))])))) as (q' & EL).
    cbn [q_phase q_stats q_delayed q_log set_stats] in *. rewrite EL. rewrite AK. reflexivity.
Qed.
Lemma accept_units d us : (forall log e, answer log e = None) -> forall vs q es, open_state d vs q -> Forall2 (unit_event g delims) us es -> trims_first (vs ++ us) ->
  all_succeed (fst (sq_calls (map PushUnit us) q)).
Proof.
  intro Y. induction us as [|u us IH]; intros vs q es O F T; cbn [map Sequencer.sq_calls Sequencer.sq_step]; [constructor|]. inversion F as [|? e ? es' UE F']; subst.
  pose proof (accept_unit d vs u e q Y O UE (trims_mid _ T vs u us eq_refl)) as A. destruct (push_unit u q) as [r q1] eqn:E. cbn [fst] in A. subst r.
  specialize (IH (vs ++ [u]) q1 es'). destruct (sq_calls _ q1). cbn [fst] in *. constructor; [reflexivity|]. apply IH; [eapply push_next; eassumption|exact F'|].
  rewrite <- app_assoc. exact T.
Qed.
(* Conversely nothing fails without a reason: writable descriptors and units, consistent codec configs, trimming first, a willing concrete class. *)
Theorem C54_accepts d us tl b s es fin : (forall log e, answer log e = None) ->
  serialize (serialize_descriptors g d) false = Ok b -> describes d b s -> Forall2 (unit_event g delims) us es -> trims_first us -> closing g b s tl fin ->
  all_succeed (fst (sq_calls (PushDescriptors d :: map PushUnit us ++ tl) sq_new)).
Proof.
  intros Y EB D F T CL. apply describes_statistics in D. cbn [Sequencer.sq_calls Sequencer.sq_step].
  assert (exists q0, push_descriptors d sq_new = (Ok tt, q0)) as (q0 & E0).
  { unfold Sequencer.push_descriptors. cbn [sq_new q_phase]. rewrite EB. cbn [rbind]. rewrite D. cbv zeta. destruct delay; [eexists; reflexivity|]. unfold Sequencer.ask. rewrite Y. eexists. reflexivity. }
  rewrite E0. pose proof (push_first _ _ E0) as O. rewrite sq_calls_app. pose proof (accept_units d us Y [] q0 es O F T) as A. pose proof (push_all d us [] q0 O A) as O1. cbn [app] in O1.
  destruct (sq_calls (map PushUnit us) q0) as [rs1 q1]. cbn [fst snd] in *. constructor; [reflexivity|]. apply Forall_app. split; [exact A|].
  destruct O1 as (b' & s' & es' & EB' & ES' & _ & _ & ST & Q). assert (b' = b) by congruence. subst b'. assert (s' = s) by congruence. subst s'.
  assert (exists q2, close q1 = (Ok tt, q2)) as (q2 & EC).
  { unfold Sequencer.close. cbv zeta. rewrite ST. unfold Sequencer.ask. assert (q_phase q1 = DescriptorsGiven \/ q_phase q1 = DescriptorsOut) as [-> | ->]
      by (destruct delay, (first_kept us); destruct Q as (-> & _); auto); [rewrite Y|]; eauto. }
  assert (forall d', all_succeed (fst (sq_calls [UpdateAndClose d'] q1)) <-> fst (update_and_close d' q1) = Ok tt) as UP.
  { intro d'. cbn [Sequencer.sq_calls Sequencer.sq_step]. destruct (update_and_close d' q1). cbn [fst]. split; [intro H; inversion H; assumption|intro; constructor; [assumption|constructor]]. }
  destruct (statistics_describes _ _ _ D) as (OB & _).
  assert (st_obus (kept_stats s us) = b /\ st_spf (kept_stats s us) = st_spf s /\ st_rate (kept_stats s us) = st_rate s /\ st_bits (kept_stats s us) = st_bits s) as (K1 & K2 & K3 & K4)
    by (unfold kept_stats; destruct (first_kept us); cbn [with_pts st_obus st_spf st_rate st_bits]; auto).
  assert (q_phase q1 = DescriptorsGiven \/ q_phase q1 = DescriptorsOut) as PH by (destruct delay, (first_kept us); destruct Q as (-> & _); auto).
  destruct CL as [| |d' EB1|d' b1 s1 EB1 N L D1 (S1 & S2 & S3)].
  - constructor.
  - cbn [Sequencer.sq_calls Sequencer.sq_step]. rewrite EC. cbn [fst]. constructor; [reflexivity|constructor].
  - apply UP. unfold Sequencer.update_and_close. rewrite EB1, ST, K1. destruct (bytes_eq_dec b b) as [_|X]; [|congruence].
    destruct PH as [-> | ->]; rewrite EC; reflexivity.
  - apply UP. apply describes_statistics in D1. unfold Sequencer.update_and_close. rewrite EB1, ST, K1, K2, K3, K4, D1. destruct (bytes_eq_dec b1 b) as [X|_]; [congruence|].
    rewrite S1, S2, S3, !Z.eqb_refl, L, Z.eqb_refl. cbn [andb negb]. unfold Sequencer.ask. rewrite Y, close_out by reflexivity. destruct PH as [-> | ->]; reflexivity.
Qed.
End Seq.

(* ---- the concrete sequencers ---- *)
Lemma file_app a b : file_of (a ++ b) = fold_left file_event b (file_of a).
Proof. apply fold_left_app. Qed.
Lemma file_units g delims us es : Forall2 (unit_event g delims) us es -> forall b, fold_left file_event es (mkF true (Some b)) = mkF true (Some (b ++ concat (map event_bytes es))).
Proof.
  induction 1 as [|u e us es (ub & _ & ->)%unit_event_bytes F IH]; intro b; cbn [fold_left map concat]; [rewrite app_nil_r; reflexivity|].
  cbn [file_event f_open f_bytes option_map event_bytes]. rewrite IH, app_assoc. reflexivity.
Qed.
Lemma overwrite_same b b' r : zlen b' = zlen b -> overwrite b' (b ++ r) = b' ++ r.
Proof. intro H. unfold overwrite, zlen in *. rewrite skipn_app, skipn_all2 by lia. replace (length b' - length b)%nat with 0%nat by lia. reflexivity. Qed.
(* The file: the descriptors of the closing call, or else of the first, followed by the temporal units. *)
Theorem C54_file g delims answer d us d' (upd : bool) :
  let '(rs, q) := sq_calls g delims false answer (PushDescriptors d :: map PushUnit us ++ [if upd then UpdateAndClose d' else Close]) sq_new in
  all_succeed rs ->
  exists b es, serialize (serialize_descriptors g (if upd then d' else d)) false = Ok b /\ Forall2 (unit_event g delims) us es /\
    file_of (q_log q) = mkF false (Some (b ++ concat (map event_bytes es))).
Proof.
  pose proof (C54_session g delims false answer d us [if upd then UpdateAndClose d' else Close]) as S0. destruct (sq_calls _ _ _ _ _ _) as [rs q]. intro A.
  destruct (S0 A (or_introl eq_refl)) as (b & s & es & fin & EB & D & F & T & CL & ->); [destruct upd; eauto|].
  cbn [app]. change (SDescs ?x :: es ++ fin) with ([SDescs x] ++ es ++ fin). rewrite !file_app, fold_left_app. unfold file_of. cbn [fold_left file_event st_obus].
  rewrite (file_units _ _ _ _ F). destruct upd; inversion CL; subst; cbn [fold_left file_event f_open f_bytes option_map]; [eauto..|].
  - rewrite overwrite_same by assumption. eauto.
  - eauto.
Qed.
(* The streaming sequencer: after each unit its bytes; after closing the final descriptors. *)
Lemma streaming_app a b : streaming (a ++ b) = fold_left streaming_event b (streaming a).
Proof. apply fold_left_app. Qed.
Lemma last_cons {A} (l : list A) : forall a d, last (a :: l) d = last l a.
Proof. induction l as [|b l IH]; intros a d; [reflexivity|]. change (last (a :: b :: l) d) with (last (b :: l) d). rewrite !IH. reflexivity. Qed.
Lemma streaming_units g delims us es : Forall2 (unit_event g delims) us es -> forall x, fold_left streaming_event es x = (fst x, last (map event_bytes es) (snd x)).
Proof.
  induction 1 as [|u e us es (ub & _ & ->)%unit_event_bytes F IH]; intros [x y]; cbn [fold_left map]; [reflexivity|]. rewrite IH. cbn [streaming_event fst snd event_bytes].
  f_equal. symmetry. apply last_cons.
Qed.
Theorem C54_streaming g delims answer d us u :
  let '(rs, q) := sq_calls g delims false answer (PushDescriptors d :: map PushUnit (us ++ [u])) sq_new in
  all_succeed rs ->
  exists b ub, serialize (serialize_descriptors g d) false = Ok b /\ serialize (write_unit g delims u) true = Ok ub /\ streaming (q_log q) = (b, ub).
Proof.
  pose proof (C54_session g delims false answer d (us ++ [u]) []) as S0. rewrite app_nil_r in S0. destruct (sq_calls _ _ _ _ _ _) as [rs q]. intro A.
  destruct (S0 A (or_introl eq_refl) (or_introl eq_refl)) as (b & s & es & fin & EB & D & F & T & CL & ->). inversion CL; subst fin. rewrite app_nil_r.
  unfold streaming. cbn [fold_left streaming_event st_obus fst snd]. rewrite (streaming_units _ _ _ _ F). cbn [fst snd].
  apply Forall2_app_inv_l in F as (es1 & es2 & _ & F2 & ->). inversion F2 as [|? e ? ? (ub & UB & ->)%unit_event_bytes F3]; subst. inversion F3; subst. exists b, ub. split; [exact EB|]. split; [exact UB|].
  rewrite map_app. cbn [map event_bytes]. rewrite last_last. reflexivity.
Qed.
Theorem C54_streaming_closed g delims answer d us d' (upd : bool) :
  let '(rs, q) := sq_calls g delims false answer (PushDescriptors d :: map PushUnit us ++ [if upd then UpdateAndClose d' else Close]) sq_new in
  all_succeed rs ->
  exists b, serialize (serialize_descriptors g (if upd then d' else d)) false = Ok b /\ streaming (q_log q) = (b, []).
Proof.
  pose proof (C54_session g delims false answer d us [if upd then UpdateAndClose d' else Close]) as S0. destruct (sq_calls _ _ _ _ _ _) as [rs q]. intro A.
  destruct (S0 A (or_introl eq_refl)) as (b & s & es & fin & EB & D & F & T & CL & ->); [destruct upd; eauto|].
  unfold streaming. cbn [fold_left streaming_event st_obus fst snd]. rewrite fold_left_app, (streaming_units _ _ _ _ F).
  destruct upd; inversion CL; subst; cbn [fold_left streaming_event fst snd]; eauto.
Qed.
(* A file is left behind only by a successful close. *)
Lemma file_protocol answer log : forall before f st st', follows false answer before st log = Some st' ->
  (match st with PStart => f = mkF false None | PDone => f_open f = false | _ => f_open f = true end) ->
  (st = PDone -> f_bytes f <> None -> In SClose before) ->
  let f' := fold_left file_event log f in
  (match st' with PStart => f' = mkF false None | PDone => f_open f' = false | _ => f_open f' = true end) /\
  (st' = PDone -> f_bytes f' <> None -> In SClose (before ++ log)).
Proof.
  induction log as [|e log IH]; intros before f st st' H1 H2 H3; cbn [follows] in H1; [injection H1 as <-; cbn [fold_left]; rewrite app_nil_r; auto|].
  destruct (proto _ _ _ _) as [st1|] eqn:EP; [|discriminate]. cbn [fold_left].
  specialize (IH (before ++ [e]) (file_event f e) st1 st' H1). rewrite <- app_assoc in IH. apply IH.
  - destruct st, e; cbn [proto] in EP; try discriminate; injection EP as <-; try subst f; try destruct (answer _ _); cbn [file_event f_open]; try reflexivity; try assumption.
    all: rewrite ?H2; reflexivity.
  - destruct st, e; cbn [proto] in EP; try discriminate; injection EP as <-; try destruct (answer _ _); try discriminate; intros _; cbn [file_event f_bytes]; intro X; try (apply in_or_app; right; left; reflexivity).
    all: try (subst f; cbn [file_event f_open f_bytes] in X; congruence). all: try (rewrite H2 in X; cbn [f_bytes] in X; congruence).
    rewrite H2 in X. apply in_or_app. left. exact (H3 eq_refl X).
Qed.
Section Left.
Variables (g : lebgen) (delims : bool) (answer : concrete).
(* What a step adds to the log. *)
Definition quiet (q : sequencer) (x : res unit * sequencer) : Prop := exists l, q_log (snd x) = q_log q ++ l /\ ~ In SClose l.
Lemma quiet_refl q r : quiet q (r, q).
Proof. exists []. rewrite app_nil_r. split; [reflexivity|intros []]. Qed.
Lemma quiet_guarded q x : quiet q x -> quiet q (guarded x).
Proof.
  intros (l & E & N). destruct x as [[[]|c| | |] q']; cbn [guarded snd do_abort] in *; try (exists l; split; assumption).
  exists (l ++ [SAbort]). unfold quiet. cbn [snd do_abort q_log]. rewrite E, app_assoc. split; [reflexivity|]. intro I. apply in_app_or in I as [I|[I|[]]]; [contradiction|discriminate].
Qed.
Lemma quiet_ask q0 q e : (exists l, q_log q = q_log q0 ++ l /\ ~ In SClose l) -> e <> SClose -> quiet q0 (ask answer e q).
Proof.
  intros (l & E & N) NE. exists (l ++ [e]). unfold ask. cbn [snd q_log]. rewrite E, app_assoc. split; [reflexivity|]. intro I. apply in_app_or in I as [I|[I|[]]]; [contradiction|congruence].
Qed.
Lemma step_closes c q r q' : inv false answer q -> sq_step g delims false answer c q = (r, q') ->
  exists l, q_log q' = q_log q ++ l /\ (In SClose l -> r = Ok tt /\ (c = Close \/ exists d, c = UpdateAndClose d)).
Proof.
  intros H E. assert (forall x, quiet q x -> x = (r, q') -> exists l, q_log q' = q_log q ++ l /\ (In SClose l -> r = Ok tt /\ (c = Close \/ exists d, c = UpdateAndClose d))) as QX.
  { intros x (l & E1 & N) ->. exists l. split; [exact E1|]. intro; contradiction. }
  assert (forall e, e <> SClose -> quiet q (ask answer e q)) as QA by (intros e NE; apply quiet_ask; [exists []; rewrite app_nil_r; split; [reflexivity|intros []]|exact NE]).
  destruct c; cbn [sq_step] in E.
  - refine (QX _ _ E). unfold push_descriptors. apply quiet_guarded. destruct (q_phase q); try apply quiet_refl. destruct (rbind _ _); try (exists []; rewrite app_nil_r; split; [reflexivity|intros []]).
    unfold ask. cbn [set_stats to_phase q_log q_phase q_stats q_delayed]. destruct (answer _ _); (exists [SDescs a]; split; [reflexivity|]; intros [X|[]]; discriminate).
  - refine (QX _ _ E). unfold push_unit. apply quiet_guarded.
    assert (q_phase q <> DescriptorsGiven) as NG by (intro X; destruct (iv_given _ _ _ H X); discriminate).
    destruct (q_phase q); try apply quiet_refl; [contradiction|]. destruct (serialize _ _); try apply quiet_refl. cbv zeta. destruct (q_stats q) as [s|]; try apply quiet_refl.
    destruct (st_pts s); [destruct (_ >? _); [apply quiet_refl|apply QA; discriminate]|]. unfold initial_unit. cbn [negb]. apply quiet_ask; [|discriminate].
    exists []. rewrite app_nil_r. split; [destruct (negb _); reflexivity|intros []].
  - destruct r as [[]| | | |].
    { unfold update_and_close in E. apply guarded_ok in E. assert (exists l, q_log q' = q_log q ++ l) as (l & L); [|exists l; split; [exact L|eauto]].
      assert (forall q1 q2, close answer q1 = (Ok tt, q2) -> exists l, q_log q2 = q_log q1 ++ l) as CC.
      { intros q1 q2. unfold close. cbv zeta. destruct (q_phase q1); try discriminate; try (intros [= <-]; cbn [q_log]; eauto). destruct (q_stats q1); [|discriminate]. unfold ask. destruct (answer _ _); [discriminate|].
        intros [= <-]. cbn [q_log set_stats to_phase]. rewrite <- app_assoc. eauto. }
      destruct (q_phase q); try discriminate; (destruct (serialize _ _); try discriminate); (destruct (q_stats q); try discriminate); (destruct (bytes_eq_dec _ _); [apply CC in E; exact E|]).
      all: (destruct (statistics _ _); try discriminate); (destruct (negb _); [discriminate|]); (destruct (negb _); [discriminate|]); unfold ask in E; (destruct (answer _ _); [discriminate|]).
      all: apply CC in E as (l & E); cbn [q_log to_phase] in E; rewrite <- app_assoc in E; eauto. }
    all: match type of E with _ = (?r0, _) => assert (r0 <> Ok tt) as NR by discriminate; revert E NR; generalize r0 end; clear r QX || clear QX; intros r E NR.
    all: assert (exists l, q_log q' = q_log q ++ l /\ ~ In SClose l) as (l & L1 & L2); [|exists l; split; [exact L1|contradiction]].
    all: unfold update_and_close in E; match type of E with guarded ?x = _ => assert (fst x <> Ok tt -> quiet q x) as QB; [|pose proof (quiet_guarded q x) as QG; rewrite E in QG; apply QG; apply QB; intro X; destruct x as [[[]| | | |] ?]; cbn [guarded fst] in *; congruence] end.
    all: assert (q_phase q <> DescriptorsGiven) as NG by (intro X; destruct (iv_given _ _ _ H X); discriminate).
    all: destruct (q_phase q) eqn:P; try (intros _; apply quiet_refl); [contradiction|]; (destruct (serialize _ _); try (intros _; apply quiet_refl)); (destruct (q_stats q); try (intros _; apply quiet_refl)).
    all: (destruct (bytes_eq_dec _ _); [rewrite close_out by exact P; cbn [fst]; congruence|]); (destruct (statistics _ _); try (intros _; apply quiet_refl)); (destruct (negb _); [intros _; apply quiet_refl|]); (destruct (negb _); [intros _; apply quiet_refl|]).
    all: specialize (QA (SFinal a) ltac:(discriminate)); destruct (ask answer (SFinal a) q) as [[[]| | | |] q1]; try (intros _; exact QA); rewrite close_out by reflexivity; cbn [fst]; congruence.
  - unfold close in E. cbv zeta in E. destruct (q_phase q) eqn:P.
    + injection E as <- <-. cbn [q_log]. exists [SClose]. auto.
    + destruct (iv_given _ _ _ H P). discriminate.
    + injection E as <- <-. cbn [q_log]. exists [SClose]. auto.
    + injection E as <- <-. exists []. rewrite app_nil_r. split; [reflexivity|intros []].
  - injection E as <- <-. exists [SAbort]. split; [reflexivity|]. intros [X|[]]; discriminate.
Qed.
Lemma log_closes cs : forall q, inv false answer q -> In SClose (q_log (snd (sq_calls g delims false answer cs q))) ->
  In SClose (q_log q) \/ exists c, In (c, Ok tt) (combine cs (fst (sq_calls g delims false answer cs q))) /\ (c = Close \/ exists d, c = UpdateAndClose d).
Proof.
  induction cs as [|c cs IH]; intros q H I; cbn [sq_calls] in *; [left; exact I|].
  pose proof (step_fine g delims false answer c q (or_introl eq_refl) H) as [_ F]. destruct (sq_step g delims false answer c q) as [r q1] eqn:E. cbn [snd] in F. specialize (IH q1 F).
  destruct (sq_calls g delims false answer cs q1) as [rs q2]. cbn [fst snd combine] in *. destruct (IH I) as [J|(c' & J & K)]; [|right; exists c'; split; [right; exact J|exact K]].
  destruct (step_closes c q r q1 H E) as (l & L & M). rewrite L in J. apply in_app_or in J as [J|J]; [left; exact J|]. destruct (M J) as [-> X]. right. exists c. split; [left; reflexivity|exact X].
Qed.
Theorem C54_file_left cs :
  let '(rs, q) := sq_calls g delims false answer cs sq_new in
  f_bytes (file_of (q_log q)) <> None -> f_open (file_of (q_log q)) = true \/ exists c, In (c, Ok tt) (combine cs rs) /\ (c = Close \/ exists d, c = UpdateAndClose d).
Proof.
  pose proof (calls_inv g delims false answer cs (or_introl eq_refl) sq_new (inv_new _ _)) as [_ H]. pose proof (log_closes cs sq_new (inv_new _ _)) as C.
  destruct (sq_calls g delims false answer cs sq_new) as [rs q]. cbn [fst snd] in *. intro N.
  destruct (file_protocol answer (q_log q) [] (mkF false None) PStart _ (iv_log _ _ _ H) eq_refl ltac:(discriminate)) as [F1 F2]. fold (file_of (q_log q)) in F1, F2. cbn [app] in F2.
  destruct (q_phase q); cbn [of_phase] in F1, F2; [rewrite F1 in N; destruct (N eq_refl)|rewrite F1 in N; destruct (N eq_refl)|left; exact F1|]. right.
  destruct (C (F2 eq_refl N)) as [[]|X]. exact X.
Qed.
End Left.

(* ---- examples and refutations ---- *)
Definition sx_codec : codec_config * cstats := (mkCC 1 1768973165 8 0 (DLpcm (mkLpcm 1 16 48000)), (48000, 48000, 16)).
Definition sx_ae : aed := mkAed (mkAE 3 0 0 1 [0] [] (ACScal 0 [mkLy 1 false false 0 1 1 0 0 0 None])) sx_codec [(0, [L2; R2])] [] [mkCh 2 0 0 0].
Definition sx_gain (i : Z) : pdef := mkPD (mkPB i 48000 0 None) (KMixGain 0).
Definition sx_mix (loudness : Z) : mixp := mkMP 7 0 [] [] [mkSM [mkSA 3 [] (mkRC 0 0 0 [] None []) (sx_gain 64)] (sx_gain 65) [mkLO 2 (LSs 0 0) 0 loudness 0 0 [] []]] None None.
Definition sx_d (loudness : Z) : descset :=
  mkDescs (mkOb default_header (mkSeq 0 0) []) [] [(1, mkOb default_header sx_codec [])] [(3, mkOb default_header sx_ae [])] [mkOb default_header (sx_mix loudness) []] [].
Definition sx_u (start trim un x : Z) : tunit := mkTU [] [mkOb default_header (mkAF 0 [x; 2; 3; 4]) []] [] start trim un.
Definition yes : concrete := fun _ _ => None.
Definition sx_run (delay : bool) (a : concrete) (cs : list scall) := sq_calls LebMin true delay a cs sq_new.
Example C54_ex :
  let '(rs, q) := sx_run false yes [PushDescriptors (sx_d 0); PushUnit (sx_u 0 8 0 1); PushUnit (sx_u 8 3 5 5); PushUnit (sx_u 16 0 8 9); UpdateAndClose (sx_d 300)] in
  all_succeed rs /\ file_of (q_log q) = mkF false (Some
  [248;6;105;97;109;102;0;0; 0;14;1;105;112;99;109;8;0;0;1;16;0;0;187;128; 8;10;3;0;1;1;0;0;32;16;1;1;
   16;28;7;0;1;1;3;0;0;64;128;247;2;128;0;0;65;128;247;2;128;0;0;1;128;0;1;44;0;0;
   32;0;48;4;1;2;3;4; 32;0;48;4;5;2;3;4; 32;0;48;4;9;2;3;4]) /\ length (q_log q) = 6%nat.
Proof. vm_compute. repeat constructor. Qed.
Example C54_delayed_ex :
  let '(rs, q) := sx_run true yes [PushDescriptors (sx_d 0); PushUnit (sx_u 0 8 0 1); PushUnit (sx_u 8 3 5 5); Close] in
  all_succeed rs /\ first_kept [sx_u 0 8 0 1; sx_u 8 3 5 5] = Some 11 /\ match q_log q with [SDescs s; SUnit 0 0 false _; SUnit 8 5 false _; SClose] => st_pts s = Some 11 | _ => False end.
Proof. vm_compute. repeat constructor. Qed.
(* When descriptors are delayed and every sample is trimmed, the units are lost although every call succeeds (F39). *)
Theorem C54_session_delayed_false :
  exists us, us <> [] /\ let '(rs, q) := sx_run true yes (PushDescriptors (sx_d 0) :: map PushUnit us ++ [Close]) in
  all_succeed rs /\ forall t n k b, ~ In (SUnit t n k b) (q_log q).
Proof.
  exists [sx_u 0 8 0 1]. split; [discriminate|]. vm_compute. split; [repeat constructor|]. intros t n k b [H|[H|[]]]; discriminate.
Qed.
(* When descriptors are delayed and refused in Close, a later unit is pushed without descriptors (F40). *)
Theorem C54_protocol_refused_false :
  exists a cs, let '(rs, q) := sx_run true a cs in
  follows true a [] PStart (q_log q) = None /\ exists t n k b, In (SUnit t n k b) (q_log q) /\ forall s, In (SDescs s) (q_log q) -> forall l, a l (SDescs s) <> None.
Proof.
  exists (fun _ e => match e with SDescs _ => Some Unknown | _ => None end), [PushDescriptors (sx_d 0); Close; PushUnit (sx_u 0 0 8 1)].
  vm_compute. split; [reflexivity|]. eexists _, _, _, _. split; [right; left; reflexivity|]. discriminate.
Qed.
(* Misuse after closing empties the streaming sequencer (but not the file). *)
Example C54_misuse_ex :
  let '(rs, q) := sx_run false yes [PushDescriptors (sx_d 0); Close; PushUnit (sx_u 0 0 8 1)] in
  rs = [Ok tt; Ok tt; Err FailedPrecondition] /\ streaming (q_log q) = ([], []) /\ f_bytes (file_of (q_log q)) <> None.
Proof. vm_compute. repeat constructor. discriminate. Qed.
(* Updating before the first kept sample of a delayed session gives final descriptors without initial ones. *)
Example C54_update_first_ex :
  match sx_run true yes [PushDescriptors (sx_d 0); UpdateAndClose (sx_d 300)] with (rs, q) => all_succeed rs /\ match q_log q with [SFinal _; SClose] => True | _ => False end end.
Proof. vm_compute. repeat constructor. Qed.
