(* C29 (a stream of OBUs), C40 (temporal units partition the stream), C41 (no stream crashes the processor),
   C42 (demixing and recon gain parameters of decoded frames), C43 (a lost parameter block). *)
From Verif Require Import Base WriteBuf ReadBuf Leb BufSpec LebSpec BitFacts WriteBufFacts ReadBufFacts LebFacts
  ParseFacts EndToEnd ObuHeader ObuHeaderFacts FrameFacts SeqFacts PureFacts SimpleObus CodecConfig Params Timing PropsTiming ParamManager PropsPM
  Processor PropsObu ProcFacts StreamSpec StreamFacts Session SessionFacts PropsProc.

(* ================= SPEC ================= *)
(* What processing each OBU of a sequence, one after the other, yields. *)
Inductive decoded (fuel cap : nat) (D : descs) : pst -> list (list Z) -> list item -> pst -> Prop :=
| D_nil s : decoded fuel cap D s [] [] s
| D_cons s o os it its s1 s2 : is_obu o -> process_at fuel cap D s 0 o = Ok (mkOut (Ok tt) s1 it true, 8 * zlen o) ->
    decoded fuel cap D s1 os its s2 -> decoded fuel cap D s (o :: os) (it :: its) s2.

(* Grouping into temporal units: a unit ends before an item with another timestamp, or at a temporal delimiter if there was one
   since the unit began.  [seen]: a delimiter was seen; [cur]: the unit begun. *)
Definition add_item (u : outunit) (i : item) : outunit := mkOu (un_frames u ++ item_frames i) (un_blocks u ++ item_blocks i) (un_time u).
Fixpoint group (seen : bool) (cur : option outunit) (its : list item) : list outunit :=
  let data i t rest :=
    match cur with
    | None => group seen (Some (mkOu (item_frames i) (item_blocks i) t)) rest
    | Some u => if un_time u =? t then group seen (Some (add_item u i)) rest
                else u :: group false (Some (mkOu (item_frames i) (item_blocks i) t)) rest
    end in
  match its with
  | [] => opt_list cur
  | INone :: rest => group seen cur rest
  | IDelim _ :: rest => match seen, cur with
                        | true, Some u => u :: group false None rest
                        | _, _ => group true cur rest
                        end
  | IFrame f :: rest => data (IFrame f) (of_start f) rest
  | IBlock b :: rest => data (IBlock b) (ob_start b) rest
  end.

(* ---- the pending unit as an [outunit] ---- *)
Definition cur_of (u : units) : option outunit :=
  match tu_time (u_cur u) with Some t => Some (mkOu (tu_frames (u_cur u)) (tu_blocks (u_cur u)) t) | None => None end.
Definition seen_of (u : units) : bool := match tu_delim (u_cur u) with Some _ => true | None => false end.
Lemma advance_group u it os u1 rest : uinv u -> advance u it = (os, u1) ->
  group (seen_of u) (cur_of u) (it :: rest) = os ++ group (seen_of u1) (cur_of u1) rest.
Proof.
  destruct u as [[bs fs dl tm] nx]. unfold uinv. cbn [u_cur u_next tu_time tu_frames tu_blocks]. intros [-> H].
  unfold advance, collect. cbn [u_cur u_next tu_time tu_frames tu_blocks tu_delim].
  unfold cur_of at 1, seen_of at 1. cbn [u_cur tu_time tu_frames tu_blocks tu_delim]. cbn [group].
  destruct it as [|f|b|h].
  - unfold close. cbn. intro E. injection E as <- <-. reflexivity.
  - unfold add_data. cbn [u_cur u_next tu_time tud_at tu_frames tu_blocks tu_delim].
    destruct tm as [t0|]; cbn [tu_time tud_at un_time].
    + destruct (t0 =? of_start f) eqn:Et.
      * unfold close. cbn. intro E. injection E as <- <-. unfold add_item. cbn. rewrite app_nil_r. reflexivity.
      * unfold close. cbn [u_cur u_next tud_push tud_at tu_time tud_empty tu_frames tu_blocks negb andb orb tu_delim app].
        rewrite (close_some _ _ _ _ _ H). intro E. injection E as <- <-. reflexivity.
    + rewrite Z.eqb_refl. unfold close. cbn. destruct H as [-> ->]. intro E. injection E as <- <-. reflexivity.
  - unfold add_data. cbn [u_cur u_next tu_time tud_at tu_frames tu_blocks tu_delim].
    destruct tm as [t0|]; cbn [tu_time tud_at un_time].
    + destruct (t0 =? ob_start b) eqn:Et.
      * unfold close. cbn. intro E. injection E as <- <-. unfold add_item. cbn. rewrite app_nil_r. reflexivity.
      * unfold close. cbn [u_cur u_next tud_push tud_at tu_time tud_empty tu_frames tu_blocks negb andb orb tu_delim app].
        rewrite (close_some _ _ _ _ _ H). intro E. injection E as <- <-. reflexivity.
    + rewrite Z.eqb_refl. unfold close. cbn. destruct H as [-> ->]. intro E. injection E as <- <-. reflexivity.
  - unfold close. cbn [u_cur u_next tu_time tud_empty tu_frames tu_blocks negb andb orb].
    destruct dl; cbn [orb].
    + destruct tm as [t0|].
      * rewrite (close_some _ _ _ _ _ H). intro E. injection E as <- <-. reflexivity.
      * destruct H as [-> ->]. intro E. injection E as <- <-. reflexivity.
    + intro E. injection E as <- <-. reflexivity.
Qed.
Lemma finish_group u : uinv u ->
  match close true false false u with Some (out, u2) => opt_list out = opt_list (cur_of u) /\ cur_of u2 = None | None => False end.
Proof.
  destruct u as [[bs fs dl tm] nx]. unfold uinv. cbn [u_cur u_next tu_time tu_frames tu_blocks]. intros [-> H].
  unfold close, cur_of. cbn [u_cur u_next tu_time tud_empty tu_frames tu_blocks negb andb orb].
  destruct tm as [t|].
  - rewrite (close_some _ _ _ _ _ H). split; reflexivity.
  - destruct H as [-> ->]. split; reflexivity.
Qed.

(* ---- streams of OBUs ---- *)
Lemma process_classify_obu fuel cap D s o x q : (8 <= fuel)%nat -> (1 <= cap)%nat -> is_obu o ->
  process_at fuel cap D s 0 o = Ok (x, q) -> po_cont x = true -> classify D s o = CDone (zlen o) x.
Proof.
  intros Hf Hc Ho E Hx. pose proof (obu_bytes _ Ho) as By. pose proof (obu_len _ Ho) as Hl.
  pose proof (process_classify fuel cap D s [] o Hf Hc By ltac:(change (2^32) with 4294967296; change (2^21) with 2097152 in *; lia)) as P. cbn [app] in P. change (zlen []) with 0 in P.
  destruct (classify_obu D s o [] Ho) as (N & _ & A). destruct (classify D s o) as [| |adv y]; [contradiction|rewrite E in P; contradiction|].
  destruct P as (q' & P & _). rewrite E in P. injection P as <- <-. specialize (A _ _ eq_refl). rewrite Hx in A. rewrite A. reflexivity.
Qed.
Lemma decoded_flows fuel cap D s os its s1 : (8 <= fuel)%nat -> (1 <= cap)%nat -> decoded fuel cap D s os its s1 -> forall u, uinv u ->
  exists us u1, flows D s u (concat os) us s1 u1 [] true /\ uinv u1 /\
    forall rest, group (seen_of u) (cur_of u) (its ++ rest) = us ++ group (seen_of u1) (cur_of u1) rest.
Proof.
  intros Hf Hc. induction 1 as [s|s o os it its s1 s2 Ho E _ IH]; intros u Hu.
  - exists [], u. split; [apply F_idle; left; reflexivity|]. split; [exact Hu|]. reflexivity.
  - destruct (advance u it) as [us1 u1] eqn:A. destruct (advance_spec _ _ _ _ Hu A) as (Hu1 & _).
    destruct (IH u1 Hu1) as (us2 & u2 & F & Hu2 & G). exists (us1 ++ us2), u2. split; [|split; [exact Hu2|]].
    + cbn [concat]. eapply F_step; [|exact A|].
      * apply (done_ext _ _ _ _ _ _ (process_classify_obu _ _ _ _ _ _ _ Hf Hc Ho E eq_refl)).
      * unfold zlen. rewrite Nat2Z.id, skipn_app, skipn_all, Nat.sub_diag. exact F.
    + intro rest. cbn [app]. rewrite (advance_group _ _ _ _ _ Hu A), G, app_assoc. reflexivity.
Qed.

(* Any chunking of a sequence of OBUs is decoded to exactly what the OBUs, processed one by one and grouped, give. *)
Theorem C29_stream_of_obus : forall fuel cap k D s os its s1 chunks units_out ending_out s_out pending,
  (8 <= fuel)%nat -> (1 <= cap)%nat -> 2^22 < Z.of_nat k -> decoded fuel cap D s os its s1 ->
  Forall (Forall byteP) chunks -> concat chunks = concat os ->
  whole_session fuel k D chunks s = (units_out, ending_out, s_out, pending) -> ending_out <> Refused ->
  ending_out = Finished /\ s_out = s1 /\ units_out = group false None its.
Proof.
  intros fuel cap k D s os its s1 chunks uo eo so pe Hf Hc Hk Hd Hb Ecat. unfold whole_session.
  pose proof (srel_init 1024 ltac:(lia)) as [R0 _]. change (view s_empty) with (mkC [] 0 None) in R0.
  assert (on (mkC [] 0 None) []) as O0 by (split; [unfold cok; cbn [c_pos c_bits length]; lia|reflexivity]).
  assert (uinv (mkU tud_empty tud_empty)) as U0 by (split; [reflexivity|split; reflexivity]).
  assert (idle D s []) as I0 by (left; reflexivity).
  assert (length (c_bits (mkC [] 0 None)) <= 8 * Z.to_nat (2^22))%nat as L0 by (cbn [c_bits length]; lia).
  pose proof (session_flows fuel k D Hf Hk chunks s _ _ _ [] Hb R0 O0 L0 U0 I0) as Sa. cbn [app] in Sa. rewrite Ecat in Sa.
  destruct (decoded_flows _ _ _ _ _ _ _ Hf Hc Hd _ U0) as (us & u1 & F & U1 & G).
  assert (Hk1 : (1 <= k)%nat) by (change (2^22) with 4194304 in Hk; lia).
  destruct (session fuel k D chunks s (mkU tud_empty tud_empty) (r_stream 1024)) as [[[[oa ea1] s2] u2] r1].
  unfold session_post in Sa.
  destruct ea1; [destruct Sa as (l1 & c1 & R1 & On1 & Hc1 & U2 & F1 & I1)|intros E; injection E as <- <- <- <-; contradiction|destruct Sa as [x1 F1]];
    destruct (flows_det _ _ _ _ _ _ _ _ _ F _ _ _ _ _ F1) as (-> & -> & -> & X & Y); [|discriminate].
  subst l1. destruct (finish fuel k D s2 u2 r1 c1 [] Hf Hk1 R1 On1 ltac:(reflexivity) I1 U2) as [ra ->].
  pose proof (finish_group _ U2) as Fg. destruct (close true false false u2) as [[out u3]|]; [|contradiction].
  destruct Fg as [Fg _]. intros E _. injection E as <- <- <- <-. split; [reflexivity|]. split; [reflexivity|].
  specialize (G []). rewrite app_nil_r in G. change (seen_of (mkU tud_empty tud_empty)) with false in G. change (cur_of (mkU tud_empty tud_empty)) with (@None outunit) in G.
  rewrite G. cbn [group]. rewrite Fg. reflexivity.
Qed.

(* ---- no push is refused if the chunks have less than 2 MiB ---- *)
Lemma flows_boundary fuel cap D s u l us s1 u1 rest b : (8 <= fuel)%nat -> (1 <= cap)%nat -> flows D s u l us s1 u1 rest b -> forall e os its s',
  decoded fuel cap D s os its s' -> l ++ e = concat os -> exists os' its', decoded fuel cap D s1 os' its' s' /\ rest ++ e = concat os'.
Proof.
  intros Hf Hc. induction 1 as [s u l I|s u l E|s u l adv r s1 it E N|s u l adv s1 it os1 u1 os s2 u2 rest b E A _ IH]; intros e obus its s' Hd El.
  - eauto.
  - eauto.
  - exfalso. inversion Hd as [|? o os' it' its' s1' s2' Ho P Hd']; subst.
    + cbn [concat] in El. apply app_eq_nil in El as [-> _]. discriminate.
    + apply (process_classify_obu _ _ _ _ _ _ _ Hf Hc Ho) in P; [|reflexivity]. apply (done_ext _ _ _ (concat os')) in P.
      apply (done_ext _ _ _ e) in E. cbn [concat] in El. rewrite El, P in E. discriminate.
  - inversion Hd as [|? o os' it' its' s1' s2' Ho P Hd']; subst.
    + cbn [concat] in El. apply app_eq_nil in El as [-> _]. discriminate.
    + apply (process_classify_obu _ _ _ _ _ _ _ Hf Hc Ho) in P; [|reflexivity]. apply (done_ext _ _ _ (concat os')) in P.
      pose proof (classify_done _ _ _ _ _ E) as [[X _]|[(? & ? & _ & Ha)|(? & ? & ? & X & _)]]; try discriminate.
      apply (done_ext _ _ _ e) in E. cbn [concat] in El. rewrite El, P in E. injection E as <- <- <-.
      eapply IH; [exact Hd'|]. unfold zlen in *. rewrite Nat2Z.id in *. rewrite <- skipn_app' by lia. rewrite El, skipn_app, skipn_all, Nat.sub_diag. reflexivity.
Qed.
Lemma idle_short fuel cap D s l e os its s' : (8 <= fuel)%nat -> (1 <= cap)%nat -> idle D s l -> decoded fuel cap D s os its s' -> l ++ e = concat os ->
  zlen l <= 2^21 + 8.
Proof.
  intros Hf Hc Hi Hd El. change (2^21) with 2097152. inversion Hd as [|? o os' it' its' s1' s2' Ho P Hd']; subst.
  - cbn [concat] in El. apply app_eq_nil in El as [-> _]. discriminate.
  - pose proof (obu_len _ Ho) as Lo. change (2^21) with 2097152 in Lo. destruct (Z_lt_le_dec (zlen l) (zlen o)) as [L|L]; [lia|].
    exfalso. apply (process_classify_obu _ _ _ _ _ _ _ Hf Hc Ho) in P; [|reflexivity]. cbn [concat] in El.
    assert (l = o ++ skipn (length o) l) as E.
    { rewrite <- (firstn_skipn (length o) l) at 1. f_equal.
      pose proof (f_equal (firstn (length o)) El) as X. unfold zlen in L. rewrite !firstn_app, firstn_all in X.
      replace (length o - length l)%nat with O in X by lia. rewrite Nat.sub_diag in X. cbn [firstn] in X. rewrite !app_nil_r in X. exact X. }
    apply (done_ext _ _ _ (skipn (length o) l)) in P. rewrite <- E in P. destruct Hi as [Hi|Hi]; rewrite Hi in P; discriminate.
Qed.
Lemma session_accepts fuel cap k D : (8 <= fuel)%nat -> (1 <= cap)%nat -> 2^22 < Z.of_nat k -> forall chunks s u r c l os its s',
  Forall (Forall byteP) chunks -> Forall (fun x => zlen x <= 2^21 - 8) chunks -> rrel r c -> on c l -> (c_pos c < 8)%nat -> uinv u -> idle D s l ->
  decoded fuel cap D s os its s' -> l ++ concat chunks = concat os ->
  match session fuel k D chunks s u r with (_, Refused, _, _, _) => False | _ => True end.
Proof.
  intros Hf Hcap Hk. change (2^22) with 4194304 in *. change (2^21) with 2097152. induction chunks as [|x xs IH]; intros s u r c l os its s' Hb Hz R Hon Hp Hu Hi Hd El; cbn [session]; [exact I|].
  apply Forall_cons_iff in Hb as [Hx Hxs]. apply Forall_cons_iff in Hz as [Hzx Hzs].
  pose proof (rrel_len _ _ R) as Lr. pose proof (on_len _ _ Hon) as Lo.
  pose proof (idle_short _ _ _ _ _ _ _ _ _ Hf Hcap Hi Hd El) as Sh. change (2^21) with 2097152 in Sh.
  assert (c_pos c = 0)%nat as P0 by lia. unfold zlen in *.
  assert (exists r1, r_push x r = (Ok tt, r1)) as [r1 Ep].
  { unfold r_push. unfold zlen, u64. change (2^22) with 4194304. change (2^64) with 18446744073709551616. rewrite Z.mod_small by lia.
    replace (Z.of_nat (length x) >? _) with false by lia. eauto. }
  rewrite Ep. assert (length (c_bits c) <= 8 * Z.to_nat (2^22))%nat as Hc by (change (2^22) with 4194304; lia).
  destruct (push_ok x r c r1 R Hc Hx Ep) as [R1 Hc1]. set (c1 := mkC (c_bits c ++ bytes_bits x) (c_pos c) (c_valid c)) in *.
  change (Z.to_nat (2^22)) with (Z.to_nat 4194304) in *.
  assert (on c1 (l ++ x)) as On1.
  { destruct Hon as [K H0]. unfold on, cok, c1 in *. cbn [c_bits c_pos]. rewrite app_length. split; [lia|].
    rewrite skipn_app' by lia. rewrite H0. symmetry. apply bytes_bits_app. }
  pose proof (on_len _ _ On1) as L1. unfold c1 in L1 at 1. cbn [c_bits] in L1.
  assert (zlen (l ++ x) < 2^32 - 64) as Hl by (unfold zlen; change (2^32) with 4294967296; lia).
  pose proof (drain_flows D k k s u c1 (l ++ x) On1 Hl Hu ltac:(lia) ltac:(lia)) as Dr.
  destruct (drain_refines fuel D k k Hf s u r1 c1 R1) as [E R2].
  destruct (drain (crun_with fuel) r_flush k k D s u r1) as [[[[us st] s1] u1] r2].
  destruct (drain arun_with aflush k k D s u c1) as [[[[us' st'] s1'] u1'] c2]. cbn [fst snd] in E, R2. injection E as <- <- <- <-.
  unfold drain_post in Dr. destruct st; try exact I.
  destruct Dr as (l2 & On2 & Pp & B2 & L2 & U2 & F & I2). cbn [concat] in El. rewrite app_assoc in El.
  destruct (flows_boundary _ _ _ _ _ _ _ _ _ _ _ Hf Hcap F _ _ _ _ Hd El) as (os' & its' & Hd' & El').
  specialize (IH s1 u1 r2 c2 l2 os' its' s' Hxs Hzs R2 On2 Pp U2 I2 Hd' El').
  destruct (session fuel k D xs s1 u1 r2) as [[[[us2 e] s2] u2] r3]. destruct e; auto.
Qed.
Theorem C29_small_chunks_are_accepted : forall fuel cap k D s os its s1 chunks,
  (8 <= fuel)%nat -> (1 <= cap)%nat -> 2^22 < Z.of_nat k -> decoded fuel cap D s os its s1 ->
  Forall (Forall byteP) chunks -> concat chunks = concat os -> Forall (fun x => zlen x <= 2^21 - 8) chunks ->
  exists pending, whole_session fuel k D chunks s = (group false None its, Finished, s1, pending).
Proof.
  intros fuel cap k D s os its s1 chunks Hf Hc Hk Hd Hb Ecat Hz.
  destruct (whole_session fuel k D chunks s) as [[[uo eo] so] pe] eqn:E.
  pose proof (C29_stream_of_obus fuel cap k D s os its s1 chunks uo eo so pe Hf Hc Hk Hd Hb Ecat E) as T.
  assert (eo <> Refused) as N; [|destruct (T N) as (-> & -> & ->); exists pe; reflexivity].
  unfold whole_session in E. pose proof (srel_init 1024 ltac:(lia)) as [R0 _]. change (view s_empty) with (mkC [] 0 None) in R0.
  assert (on (mkC [] 0 None) []) as O0 by (split; [unfold cok; cbn [c_pos c_bits length]; lia|reflexivity]).
  assert (uinv (mkU tud_empty tud_empty)) as U0 by (split; [reflexivity|split; reflexivity]).
  pose proof (session_accepts fuel cap k D Hf Hc Hk chunks s (mkU tud_empty tud_empty) _ _ [] os its s1 Hb Hz R0 O0 ltac:(cbn [c_pos]; lia) U0 (or_introl eq_refl) Hd Ecat) as A.
  destruct (session fuel k D chunks s (mkU tud_empty tud_empty) (r_stream 1024)) as [[[[oa ea1] s2] u2] r1].
  destruct ea1; [|contradiction|injection E as _ <- _ _; discriminate].
  destruct (process_unit (crun_with fuel) k D true s2 u2 r1) as [[[[[o2 c2]| | | |] s3] u3] r3]; injection E as _ <- _ _; discriminate.
Qed.

(* ---- C40 ---- *)
Definition cur_list (c : option outunit) : list outunit := opt_list c.
Lemma group_partition : forall its seen cur, match cur with Some u => good_unit u | None => True end ->
  Forall good_unit (group seen cur its) /\
  flat_map un_frames (group seen cur its) = flat_map un_frames (opt_list cur) ++ flat_map item_frames its /\
  flat_map un_blocks (group seen cur its) = flat_map un_blocks (opt_list cur) ++ flat_map item_blocks its.
Proof.
  induction its as [|it its IH]; intros seen cur Hc.
  - cbn [group]. cbn [flat_map]. rewrite !app_nil_r. split; [|auto]. destruct cur; cbn [opt_list]; auto.
  - assert (forall t, item_frames it <> [] \/ item_blocks it <> [] -> Forall (fun f => of_start f = t) (item_frames it) -> Forall (fun b => ob_start b = t) (item_blocks it) ->
      let g := match cur with
        | None => group seen (Some (mkOu (item_frames it) (item_blocks it) t)) its
        | Some u => if un_time u =? t then group seen (Some (add_item u it)) its else u :: group false (Some (mkOu (item_frames it) (item_blocks it) t)) its
        end in
      Forall good_unit g /\ flat_map un_frames g = flat_map un_frames (opt_list cur) ++ flat_map item_frames (it :: its) /\
      flat_map un_blocks g = flat_map un_blocks (opt_list cur) ++ flat_map item_blocks (it :: its)) as Data.
    { intros t Hne Hf Hb g. unfold g. cbn [flat_map]. destruct cur as [u|].
      - destruct (un_time u =? t) eqn:Et.
        + assert (good_unit (add_item u it)) as Gd.
          { destruct Hc as (Hc1 & Hc2 & Hc3). unfold good_unit, one_time, add_item. cbn [un_frames un_blocks un_time].
            replace (un_time u) with t in * by lia. split; [|split; apply Forall_app; auto].
            destruct Hne as [H|H]; [left|right]; intro X; apply app_eq_nil in X as [_ X]; contradiction. }
          destruct (IH seen (Some (add_item u it)) Gd) as (A & B & C). split; [exact A|]. rewrite B, C. unfold add_item. cbn [opt_list flat_map un_frames un_blocks].
          rewrite !app_nil_r, <- !app_assoc. auto.
        + assert (good_unit (mkOu (item_frames it) (item_blocks it) t)) as Gd by (split; [exact Hne|auto]).
          destruct (IH false (Some _) Gd) as (A & B & C). split; [constructor; assumption|]. cbn [flat_map opt_list]. rewrite B, C. cbn [opt_list flat_map un_frames un_blocks].
          rewrite !app_nil_r. auto.
      - assert (good_unit (mkOu (item_frames it) (item_blocks it) t)) as Gd by (split; [exact Hne|auto]).
        destruct (IH seen (Some _) Gd) as (A & B & C). split; [exact A|]. rewrite B, C. cbn [opt_list flat_map un_frames un_blocks app]. rewrite !app_nil_r. auto. }
    destruct it as [|f|b|h].
    + cbn [group flat_map item_frames item_blocks app]. apply IH. exact Hc.
    + apply (Data (of_start f)); cbn [item_frames item_blocks]; try (left; discriminate); repeat constructor.
    + apply (Data (ob_start b)); cbn [item_frames item_blocks]; try (right; discriminate); repeat constructor.
    + cbn [group flat_map item_frames item_blocks app]. destruct seen; [destruct cur as [u|]|]; try (apply IH; exact Hc).
      destruct (IH false None I) as (A & B & C). split; [constructor; assumption|]. cbn [flat_map opt_list]. rewrite B, C. cbn [opt_list flat_map app]. rewrite !app_nil_r. auto.
Qed.
(* Every accepted audio frame and parameter block is in exactly one temporal unit, in stream order; a unit is not empty and all
   its frames and blocks start at its timestamp. *)
Theorem C40_units_partition_the_stream : forall fuel cap k D s os its s1 chunks units_out ending_out s_out pending,
  (8 <= fuel)%nat -> (1 <= cap)%nat -> 2^22 < Z.of_nat k -> decoded fuel cap D s os its s1 ->
  Forall (Forall byteP) chunks -> concat chunks = concat os ->
  whole_session fuel k D chunks s = (units_out, ending_out, s_out, pending) -> ending_out <> Refused ->
  flat_map un_frames units_out = flat_map item_frames its /\
  flat_map un_blocks units_out = flat_map item_blocks its /\
  Forall (fun u => (un_frames u <> [] \/ un_blocks u <> []) /\
                   Forall (fun f => of_start f = un_time u) (un_frames u) /\ Forall (fun b => ob_start b = un_time u) (un_blocks u)) units_out.
Proof.
  intros fuel cap k D s os its s1 chunks uo eo so pe Hf Hc Hk Hd Hb Ecat E Hn.
  destruct (C29_stream_of_obus fuel cap k D s os its s1 chunks uo eo so pe Hf Hc Hk Hd Hb Ecat E Hn) as (_ & _ & ->).
  destruct (group_partition its false None I) as (A & B & C). cbn [opt_list flat_map app] in B, C. auto.
Qed.
(* Two neighbouring units have different timestamps unless a temporal delimiter separates them. *)
Fixpoint changes (l : list outunit) : Prop :=
  match l with u :: ((v :: _) as t) => un_time u <> un_time v /\ changes t | _ => True end.
Definition not_delim (i : item) : Prop := match i with IDelim _ => False | _ => True end.
Lemma group_head its : forall seen c, exists u t, group seen (Some c) its = u :: t /\ un_time u = un_time c.
Proof.
  induction its as [|it its IH]; intros seen c; [cbn; eauto|]. destruct it as [|f|b|h]; cbn [group].
  - apply IH.
  - destruct (un_time c =? _); [destruct (IH seen (add_item c (IFrame f))) as (u & t & E1 & E2); exists u, t; split; [exact E1|exact E2]|eauto].
  - destruct (un_time c =? _); [destruct (IH seen (add_item c (IBlock b))) as (u & t & E1 & E2); exists u, t; split; [exact E1|exact E2]|eauto].
  - destruct seen; [eauto|apply IH].
Qed.
Theorem C40_no_needless_split : forall its seen cur, Forall not_delim its -> changes (group seen cur its).
Proof.
  induction its as [|it its IH]; intros seen cur H; [destruct cur; exact I|]. apply Forall_cons_iff in H as [H1 H2].
  assert (forall t, t <> match cur with Some c => un_time c | None => t + 1 end -> forall c0, cur = Some c0 -> forall x, un_time x = t -> changes (c0 :: group false (Some x) its)) as Data.
  { intros t Ht c0 -> x Hx. destruct (group_head its false x) as (u & r & E & Eu). specialize (IH false (Some x) H2). rewrite E in *. split; [congruence|exact IH]. }
  destruct it as [|f|b|h]; cbn [group]; [apply IH; exact H2| | |contradiction].
  - destruct cur as [c|]; [|apply IH; exact H2]. destruct (un_time c =? of_start f) eqn:E; [apply IH; exact H2|].
    apply (Data (of_start f)); [cbn; lia|reflexivity|reflexivity].
  - destruct cur as [c|]; [|apply IH; exact H2]. destruct (un_time c =? ob_start b) eqn:E; [apply IH; exact H2|].
    apply (Data (ob_start b)); [cbn; lia|reflexivity|reflexivity].
Qed.

(* ---- C41, C42: in the decoder no parameter block ever reaches the parameters manager ---- *)
Definition quiet (m : pm) : Prop :=
  (forall a s, m_find a (pm_ds m) = Some s -> m_find (ds_pid s) (pm_db m) = Some None) /\
  (forall a s, m_find a (pm_rs m) = Some s -> m_find (rs_pid s) (pm_rb m) = Some None).
Lemma new_quiet aes m : NoDup (map fst aes) -> pm_new aes = Ok m -> quiet m.
Proof. intros N E. destruct (new_fresh _ _ N E) as (_ & F2 & _ & _ & _ & F6 & _). split; assumption. Qed.
Lemma m_set_same {V} k (v : V) m : m_find k m = Some v -> m_set k v m = m.
Proof.
  induction m as [|[i x] m IH]; cbn [m_find m_set]; [discriminate|]. destruct (i =? k) eqn:E; intro H.
  - injection H as ->. reflexivity.
  - rewrite (IH H). reflexivity.
Qed.
Definition default_dmix (m : pm) (ae : Z) : res dmix :=
  match m_find ae (pm_ds m) with None => Ok (mkDmix 707 707 707 707 0 0 0 false) | Some s => mode_to_params (ds_mode s) (ds_w s) Default end.
Lemma quiet_get m ae : quiet m -> get_down_mixing m ae = (default_dmix m ae, m).
Proof. intros [Q _]. unfold get_down_mixing, default_dmix. destruct (m_find ae (pm_ds m)) as [s|] eqn:E; [|reflexivity]. rewrite (Q _ _ E). reflexivity. Qed.
Lemma quiet_recon m ae n : quiet m -> get_recon_gains m ae n = Ok (default_gains n).
Proof. intros [_ Q]. unfold get_recon_gains. destruct (m_find ae (pm_rs m)) as [s|] eqn:E; [|reflexivity]. rewrite (Q _ _ E). reflexivity. Qed.
Lemma quiet_update m ae t : quiet m -> update_demixing m ae t = (Ok tt, m) /\ update_recon m ae t = (Ok tt, m).
Proof.
  intros [Q1 Q2]. unfold update_demixing, update_recon, update_parameter. split.
  - destruct (m_find ae (pm_ds m)) as [s|] eqn:E; [|reflexivity]. rewrite (Q1 _ _ E). reflexivity.
  - destruct (m_find ae (pm_rs m)) as [s|] eqn:E; [|reflexivity]. rewrite (Q2 _ _ E). cbn [rbind]. destruct s as [p n]. cbn [rs_pid rs_next] in *.
    rewrite (m_set_same _ _ _ E). destruct m; reflexivity.
Qed.
Lemma quiet_elements l t m : quiet m -> update_elements l t m = (Ok tt, m).
Proof.
  intro Q. induction l as [|a l IH]; cbn [update_elements]; [reflexivity|]. destruct (quiet_update m (ai_id a) t Q) as [-> ->]. exact IH.
Qed.
Lemma mode_ok_or_err md p r : (exists x, mode_to_params md p r = Ok x) \/ mode_to_params md p r = Err InvalidArgument.
Proof. unfold mode_to_params. destruct (m_find md mode_table) as [[[[[a b] c] d] o]|]; [|auto]. destruct (m_find _ w_table); eauto. Qed.
Lemma global_ok_or_err g : (exists x, global_timestamp g = Ok x) \/ global_timestamp g = Err InvalidArgument.
Proof. unfold global_timestamp. destruct (g_audio g) as [|[i d] l]; [auto|]. destruct (forallb _ _); eauto. Qed.
Definition calm (r : res unit) : Prop := match r with Ok _ | Err _ => True | _ => False end.
Definition frame_ok (D : descs) (m : pm) (f : oframe) : Prop :=
  exists a, In a (d_aes D) /\ ai_id a = of_element f /\ Ok (of_dmix f) = default_dmix m (ai_id a) /\ of_gains f = default_gains (ai_layers a).
Lemma element_in D i a : element_of D i = Some a -> In a (d_aes D).
Proof. apply find_some. Qed.
Lemma store_calm D s h p r s1 it : quiet (ps_pm s) -> store D s h p = (r, s1, it) ->
  calm r /\ ps_pm s1 = ps_pm s /\ match it with IFrame f => frame_ok D (ps_pm s) f | _ => True end.
Proof.
  intro Q. destruct p as [c|[f|d b|]]; cbn [store].
  - intro E. injection E as <- <- <-. repeat split.
  - unfold store_frame. destruct (element_of D (af_id f)) as [a|] eqn:Ea; [|intro E; injection E as <- <- <-; repeat split].
    unfold generate_frame. destruct (negb _); [intro E; injection E as <- <- <-; repeat split|].
    unfold next_audio, get_timestamps. destruct (m_find (af_id f) (g_audio (ps_g s))) as [d|]; [|intro E; injection E as <- <- <-; repeat split].
    cbv iota beta. rewrite (quiet_get _ _ Q). cbv iota beta. rewrite (quiet_recon _ _ _ Q).
    assert (default_dmix (ps_pm s) (ai_id a) = Err InvalidArgument \/ exists x, default_dmix (ps_pm s) (ai_id a) = Ok x) as [Ed|[x Ed]].
    { unfold default_dmix. destruct (m_find (ai_id a) (pm_ds (ps_pm s))) as [ds|]; [|eauto]. destruct (mode_ok_or_err (ds_mode ds) (ds_w ds) Default) as [X|X]; auto. }
    + rewrite Ed. cbn [rbind rcast]. intro E. injection E as <- <- <-. repeat split.
    + rewrite Ed. cbn [rbind]. unfold update_states. cbn [ps_g ps_pm].
      destruct (global_ok_or_err (mkG (m_set (af_id f) (mkTd (td_rate d) (s64 (td_stamp d + ai_spf a))) (g_audio (ps_g s))) (g_param (ps_g s)))) as [[[t|] Eg]|Eg]; rewrite Eg;
        try rewrite (quiet_elements _ _ _ Q); intro E; injection E as <- <- <-; cbn [calm ps_pm]; (split; [exact I|]; split; [reflexivity|]);
        exists a; cbn [of_element of_dmix of_gains]; (split; [eapply element_in; exact Ea|]; split; [reflexivity|]; split; [congruence|reflexivity]).
  - unfold store_block. destruct (global_ok_or_err (ps_g s)) as [[[t|] Eg]|Eg]; rewrite Eg; try (intro E; injection E as <- <- <-; repeat split).
    unfold next_param, get_timestamps. destruct (m_find (bl_id b) (g_param (ps_g s))) as [d0|]; cbv iota beta.
    + cbn [rthen]. unfold compare_timestamps, veq, vcond. destruct (_ =? _); cbn; intro E; injection E as <- <- <-; repeat split.
    + cbn. intro E; injection E as <- <- <-; repeat split.
  - intro E. injection E as <- <- <-. repeat split.
Qed.
Lemma classify_calm D s l adv o : quiet (ps_pm s) -> classify D s l = CDone adv o ->
  po_status o = Ok tt /\ ps_pm (po_state o) = ps_pm s /\ match po_item o with IFrame f => frame_ok D (ps_pm s) f | _ => True end.
Proof.
  intros Q. unfold classify. destruct (prun fill_header_metadata (bytes_bits l)) as [|c|[t total] r]; try discriminate.
  destruct (zlen l <? total); [discriminate|]. destruct (prun read_header _) as [|c|[h n] w]; try discriminate.
  unfold effect. destruct (temporal_unit_type (h_type h)).
  - destruct (store D s h (lparse D h n w)) as [[st s1] it] eqn:E. destruct (store_calm _ _ _ _ _ _ _ Q E) as (C & P & F).
    destruct st; try contradiction; intro H; injection H as _ <-; cbn [po_status po_state po_item]; auto.
  - assert (forall a, CDone a (mkOut (Ok tt) s INone false) = CDone adv o \/ CDone a (mkOut (Ok tt) s INone true) = CDone adv o ->
      po_status o = Ok tt /\ ps_pm (po_state o) = ps_pm s /\ match po_item o with IFrame f => frame_ok D (ps_pm s) f | _ => True end) as X.
    { intros a [H|H]; injection H as _ <-; cbn [po_status po_state po_item]; auto. }
    destruct ((h_type h =? kSequenceHeader) && negb (h_red h)); [intro H; apply (X 0); auto|].
    destruct ((h_type h =? kSequenceHeader) || (h_type h =? kCodecConfig) || (h_type h =? kAudioElement) || (h_type h =? kMixPresentation));
      [destruct (h_red h); [|discriminate]|]; intro H; apply (X total); auto.
Qed.
Lemma flows_calm D s u l os s1 u1 r b : flows D s u l os s1 u1 r b -> quiet (ps_pm s) -> uinv u -> forall P, P = frame_ok D (ps_pm s) ->
  Forall P (tu_frames (u_cur u)) ->
  ps_pm s1 = ps_pm s /\ Forall P (flat_map un_frames os) /\ Forall P (tu_frames (u_cur u1)).
Proof.
  induction 1 as [s u l I|s u l E|s u l adv r s1 it E N|s u l adv s1 it os1 u1 os s2 u2 rest b E A _ IH]; intros Q Hu P EP HP.
  - repeat split; cbn [flat_map]; auto.
  - repeat split; cbn [flat_map]; auto.
  - destruct (classify_calm _ _ _ _ _ Q E) as (X & _). cbn [po_status] in X. subst r. contradiction.
  - destruct (classify_calm _ _ _ _ _ Q E) as (_ & X & Y). cbn [po_state po_item] in X, Y.
    destruct (advance_spec _ _ _ _ Hu A) as (Hu1 & _ & Ef & _).
    assert (Forall P (tu_frames (u_cur u) ++ item_frames it)) as Z.
    { apply Forall_app. split; [exact HP|]. destruct it; cbn [item_frames]; auto. constructor; [rewrite EP; exact Y|constructor]. }
    rewrite Ef in Z. apply Forall_app in Z as [Z1 Z2].
    destruct (IH ltac:(rewrite X; exact Q) Hu1 P ltac:(rewrite X; exact EP) Z2) as (I1 & I2 & I3).
    split; [congruence|]. split; [|exact I3]. rewrite flat_map_app. apply Forall_app. auto.
Qed.

(* process_unit and drain end with Ok or Err *)
Lemma unit_calm D k eos : forall s u c l, on c l -> zlen l < 2^32 - 64 -> (length l < k)%nat -> quiet (ps_pm s) ->
  match process_unit arun_with k D eos s u c with
  | (Ok (_, cont), s1, _, c1) => ps_pm s1 = ps_pm s /\ exists l1, on c1 l1 /\ (length l1 <= length l)%nat /\ (cont = true -> (length l1 < length l)%nat)
  | (Err _, s1, _, _) => ps_pm s1 = ps_pm s
  | _ => False
  end.
Proof.
  induction k as [|k IH]; intros s u c l Hon Hl Hk Q; [lia|]. cbn [process_unit]. unfold arun_with at 1.
  pose proof Hon as [K Hs]. pose proof (step_spec D s c l K Hs Hl) as Sp.
  destruct (classify D s l) as [| |adv o] eqn:Ec.
  - rewrite Sp. cbn [po_status po_item po_cont po_state collect].
    assert (on (mkC (c_bits c) (c_pos c) (Some true)) l) as On' by exact Hon.
    destruct (close eos false false u) as [[out u2]|]; (split; [reflexivity|]; exists l; split; [exact On'|]; split; [lia|discriminate]).
  - destruct Sp as (e & c' & Sp). rewrite Sp. reflexivity.
  - destruct Sp as (c' & Sp & Hb & Ha & Hp). rewrite Sp. destruct (classify_calm _ _ _ _ _ Q Ec) as (X & Y & _). rewrite X.
    destruct (Hp X) as [Hp' _]. pose proof (on_move _ _ _ _ Hon Hb Hp' Ha) as Hon'. unfold zlen in Ha, Hl.
    assert (po_cont o = true -> 1 <= adv) as H1.
    { intro Hc. destruct (classify_done _ _ _ _ _ Ec) as [[-> _]|[(s1 & it & -> & Ha1)|(r & s1 & it & -> & Hr)]]; try discriminate. lia. }
    assert (length (skipn (Z.to_nat adv) l) <= length l)%nat as L1 by (rewrite skipn_length; lia).
    assert (po_cont o = true -> (length (skipn (Z.to_nat adv) l) < length l)%nat) as L2 by (intro Hc; specialize (H1 Hc); rewrite skipn_length; lia).
    destruct (collect u (po_item o)) as [u1 de]. destruct (close eos (po_cont o) de u1) as [[out u2]|]; [split; [exact Y|]; eauto|].
    destruct (po_cont o); [|split; [exact Y|]; exists (skipn (Z.to_nat adv) l); split; [exact Hon'|]; split; [exact L1|discriminate]].
    specialize (L2 eq_refl). specialize (IH (po_state o) u1 c' _ Hon' ltac:(unfold zlen; lia) ltac:(lia) ltac:(rewrite Y; exact Q)).
    destruct (process_unit arun_with k D eos (po_state o) u1 c') as [[[r s2] u3] c2]. destruct r as [[out cont]| | | |]; try contradiction; [|congruence].
    destruct IH as (I1 & l1 & On1 & I2 & I3). split; [congruence|]. exists l1. split; [exact On1|]. split; [lia|]. intro; specialize (I3 H). lia.
Qed.
Lemma drain_calm D n k : forall s u c l, on c l -> zlen l < 2^32 - 64 -> (length l < k)%nat -> (length l < n)%nat -> quiet (ps_pm s) ->
  match drain arun_with aflush n k D s u c with (_, r, s1, _, _) => calm r /\ ps_pm s1 = ps_pm s end.
Proof.
  induction n as [|n IH]; intros s u c l Hon Hl Hk Hn Q; [lia|]. cbn [drain].
  pose proof (unit_calm D k false s u c l Hon Hl Hk Q) as U.
  destruct (process_unit arun_with k D false s u c) as [[[r s1] u1] c1].
  destruct r as [[out cont]| | | |]; try contradiction; [|cbn [rcast calm]; auto].
  destruct U as (Y & l1 & On1 & L1 & L2). unfold aflush at 1. destruct cont; [|cbn [calm]; auto].
  specialize (L2 eq_refl). pose proof (on_flush _ _ On1) as On2. unfold aflush in On2. cbn [snd] in On2. unfold zlen in Hl.
  specialize (IH s1 u1 _ l1 On2 ltac:(unfold zlen; lia) ltac:(lia) ltac:(lia) ltac:(rewrite Y; exact Q)).
  destruct (drain arun_with aflush n k D s1 u1 _) as [[[[os r] s2] u2] c3]. destruct IH as [I1 I2]. split; [exact I1|congruence].
Qed.

(* No sequence of bytes, however chunked, makes temporal unit processing abort, hit undefined behaviour or run forever. *)
Theorem C41_processing_never_crashes : forall fuel k D aes chunks last s u r os e s1 u1 b1 b2,
  (8 <= fuel)%nat -> 2^22 < Z.of_nat k -> NoDup (map fst aes) -> pm_new aes = Ok (ps_pm s) ->
  Forall (Forall byteP) (chunks ++ [last]) -> u = mkU tud_empty tud_empty -> r = r_stream 1024 ->
  session fuel k D chunks s u r = (os, e, s1, u1, b1) -> e = Finished -> r_push last b1 = (Ok tt, b2) ->
  exists os2 st s2 u2 b3, drain (crun_with fuel) r_flush k k D s1 u1 b2 = (os2, st, s2, u2, b3) /\ (st = Ok tt \/ exists c, st = Err c).
Proof.
  intros fuel k D aes chunks last s u r os e s1 u1 b1 b2 Hf Hk N Enew Hb -> -> E -> Ep. change (2^22) with 4194304 in Hk.
  pose proof (new_quiet _ _ N Enew) as Q. apply Forall_app in Hb as [Hb Hlast]. apply Forall_cons_iff in Hlast as [Hlast _].
  pose proof (srel_init 1024 ltac:(lia)) as [R0 _]. change (view s_empty) with (mkC [] 0 None) in R0.
  assert (on (mkC [] 0 None) []) as O0 by (split; [unfold cok; cbn [c_pos c_bits length]; lia|reflexivity]).
  assert (uinv (mkU tud_empty tud_empty)) as U0 by (split; [reflexivity|split; reflexivity]).
  assert (length (c_bits (mkC [] 0 None)) <= 8 * Z.to_nat (2^22))%nat as L0 by (cbn [c_bits length]; lia).
  pose proof (session_flows fuel k D Hf Hk chunks s _ _ _ [] Hb R0 O0 L0 U0 (or_introl eq_refl)) as Sa. rewrite E in Sa.
  destruct Sa as (l1 & c1 & R1 & On1 & Hc1 & U1 & F1 & _).
  destruct (flows_calm _ _ _ _ _ _ _ _ _ F1 Q U0 _ eq_refl (Forall_nil _)) as (Y & _).
  destruct (push_ok _ _ _ _ R1 Hc1 Hlast Ep) as [R2 Hc2]. set (c2 := mkC _ _ _) in R2.
  change (Z.to_nat (2^22)) with (Z.to_nat 4194304) in *. pose proof (on_len _ _ On1) as Lo.
  assert (on c2 (l1 ++ last)) as On2.
  { destruct On1 as [K H0]. unfold on, cok, c2 in *. cbn [c_bits c_pos]. rewrite app_length. split; [lia|].
    rewrite skipn_app' by lia. rewrite H0. symmetry. apply bytes_bits_app. }
  pose proof (on_len _ _ On2) as L2. unfold c2 in L2 at 1. cbn [c_bits] in L2.
  pose proof (drain_calm D k k s1 u1 c2 (l1 ++ last) On2 ltac:(unfold zlen; change (2^32) with 4294967296; lia) ltac:(lia) ltac:(lia) ltac:(rewrite Y; exact Q)) as Dr.
  destruct (drain_refines fuel D k k Hf s1 u1 b2 c2 R2) as [E2 _].
  destruct (drain (crun_with fuel) r_flush k k D s1 u1 b2) as [[[[us st] s2] u2] r2].
  destruct (drain arun_with aflush k k D s1 u1 c2) as [[[[us' st'] s2'] u2'] c3]. cbn [fst] in E2. injection E2 as <- <- <- <-.
  exists us, st, s2, u2, r2. split; [reflexivity|]. destruct Dr as [C _]. destruct st as [[]| | | |]; try contradiction; eauto.
Qed.

(* SPEC: the parameters an audio element's frames get when no parameter block applies: those of its demixing definition. *)
Definition definition_default (aes : list (Z * list pdef)) (ae : Z) (x : dmix) : Prop :=
  (exists defs d pid mode w, In (ae, defs) aes /\ In d defs /\ is_demixing pid mode w d /\ spec_params mode w = Ok x) \/
  ((forall defs d pid mode w, In (ae, defs) aes -> In d defs -> ~ is_demixing pid mode w d) /\ x = mkDmix 707 707 707 707 0 0 0 false).
(* Whatever demixing or recon gain parameter blocks the stream contains, every decoded frame carries the defaults. *)
Theorem C42_blocks_are_never_applied : forall fuel k D aes s chunks units_out ending_out s_out pending f,
  (8 <= fuel)%nat -> 2^22 < Z.of_nat k -> NoDup (map fst aes) -> pm_new aes = Ok (ps_pm s) -> Forall (Forall byteP) chunks ->
  (forall a, In a (d_aes D) -> 0 <= ai_layers a) ->
  whole_session fuel k D chunks s = (units_out, ending_out, s_out, pending) -> ending_out <> Refused -> In f (flat_map un_frames units_out) ->
  exists a, In a (d_aes D) /\ ai_id a = of_element f /\ definition_default aes (of_element f) (of_dmix f) /\ default_layers (ai_layers a) (of_gains f).
Proof.
  intros fuel k D aes s chunks uo eo so pe f Hf Hk N Enew Hb Hlay. unfold whole_session.
  pose proof (new_quiet _ _ N Enew) as Q.
  pose proof (srel_init 1024 ltac:(lia)) as [R0 _]. change (view s_empty) with (mkC [] 0 None) in R0.
  assert (on (mkC [] 0 None) []) as O0 by (split; [unfold cok; cbn [c_pos c_bits length]; lia|reflexivity]).
  assert (uinv (mkU tud_empty tud_empty)) as U0 by (split; [reflexivity|split; reflexivity]).
  assert (length (c_bits (mkC [] 0 None)) <= 8 * Z.to_nat (2^22))%nat as L0 by (cbn [c_bits length]; lia).
  pose proof (session_flows fuel k D Hf Hk chunks s _ _ _ [] Hb R0 O0 L0 U0 (or_introl eq_refl)) as Sa. cbn [app] in Sa.
  assert (Hk1 : (1 <= k)%nat) by (change (2^22) with 4194304 in Hk; lia).
  assert (forall fs, Forall (frame_ok D (ps_pm s)) fs -> In f fs ->
    exists a, In a (d_aes D) /\ ai_id a = of_element f /\ definition_default aes (of_element f) (of_dmix f) /\ default_layers (ai_layers a) (of_gains f)) as Fin.
  { intros fs Hfs Hin. rewrite Forall_forall in Hfs. destruct (Hfs _ Hin) as (a & I1 & I2 & I3 & I4). exists a. split; [exact I1|]. split; [exact I2|]. split.
    - rewrite <- I2. unfold default_dmix in I3. destruct (new_fresh _ _ N Enew) as (F1 & _ & _ & F4 & _).
      destruct (m_find (ai_id a) (pm_ds (ps_pm s))) as [ds|] eqn:Ed.
      + left. destruct (F1 _ _ Ed) as (defs & d & pid & mode & w & J1 & J2 & J3 & ->). exists defs, d, pid, mode, w. repeat split; try assumption.
        cbn [ds_mode ds_w] in I3. rewrite mode_to_params_spec in I3. congruence.
      + right. split; [|congruence]. intros defs d pid mode w J1 J2 J3. rewrite (F4 _ _ _ _ _ _ J1 J2 J3) in Ed. discriminate.
    - rewrite I4. apply default_gains_ok. apply Hlay. exact I1. }
  destruct (session fuel k D chunks s (mkU tud_empty tud_empty) (r_stream 1024)) as [[[[oa ea1] s2] u2] r1].
  unfold session_post in Sa.
  destruct ea1; [destruct Sa as (l1 & c1 & R1 & On1 & Hc1 & U2 & F1 & I1)|intros E; injection E as <- <- <- <-; contradiction|destruct Sa as [x1 F1]];
    destruct (flows_calm _ _ _ _ _ _ _ _ _ F1 Q U0 _ eq_refl (Forall_nil _)) as (Y1 & Y2 & Y3).
  - assert (zlen l1 < 2^32 - 64) as Hl1.
    { apply on_len in On1. change (Z.to_nat (2^22)) with (Z.to_nat 4194304) in Hc1. change (2^32) with 4294967296. unfold zlen. lia. }
    destruct (finish fuel k D s2 u2 r1 c1 l1 Hf Hk1 R1 On1 Hl1 I1 U2) as [ra ->].
    pose proof (finish_group _ U2) as Fg. destruct (close true false false u2) as [[out u3]|]; [|contradiction]. destruct Fg as [Fg _].
    intros E _ Hin. injection E as <- <- <- <-. rewrite flat_map_app, Fg in Hin. eapply Fin; [|exact Hin]. apply Forall_app. split; [exact Y2|].
    unfold cur_of. destruct (tu_time (u_cur u2)); cbn [opt_list flat_map un_frames]; rewrite ?app_nil_r; auto.
  - intros E _ Hin. injection E as <- <- <- <-. eapply Fin; [exact Y2|exact Hin].
Qed.
