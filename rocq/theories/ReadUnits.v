(* What temporal units consist of: audio frames and parameter blocks which were read from bytes. *)
From Verif Require Import Base WriteBuf ReadBuf Leb BufSpec LebSpec BitFacts WriteBufFacts ReadBufFacts LebFacts
  ParseFacts EndToEnd ObuHeader ObuHeaderFacts FrameFacts SeqFacts PureFacts SimpleObus CodecConfig Params PropsParams Timing ParamManager
  Processor PropsObu ProcFacts StreamSpec StreamFacts Session SessionFacts.

(* ================= SPEC ================= *)
(* A parameter block read under a definition of the descriptors. *)
Definition read_with (D : descs) (d : pdef) (b : pblock) : Prop :=
  exists i h n c c', m_find i (d_defs D) = Some d /\ cok c /\ arun (read_pblock d h n) c = (Ok b, c').
(* ... with its time *)
Definition read_block (D : descs) (b : oblock) : Prop :=
  exists d, read_with D d (ob_obu b) /\ ob_end b = s64 (ob_start b + block_duration d (ob_obu b)).
(* An audio frame of a substream of the descriptors, as long as the frames of its audio element *)
Definition read_frame (D : descs) (f : oframe) : Prop :=
  0 <= h_trim_start (of_header f) /\ 0 <= h_trim_end (of_header f) /\ exists a, element_of D (af_id (of_obu f)) = Some a /\ of_end f = s64 (of_start f + ai_spf a).
Definition read_unit (D : descs) (u : outunit) : Prop :=
  (forall f, In f (un_frames u) -> read_frame D f) /\ (forall b, In b (un_blocks u) -> read_block D b).

Definition read_item (D : descs) (i : item) : Prop := match i with IFrame f => read_frame D f | IBlock b => read_block D b | _ => True end.
Definition read_tud (D : descs) (t : tud) : Prop := (forall f, In f (tu_frames t) -> read_frame D f) /\ (forall b, In b (tu_blocks t) -> read_block D b).
Definition read_units (D : descs) (u : units) : Prop := read_tud D (u_cur u) /\ read_tud D (u_next u).

Lemma cok_after {A} (p : rprog A) c a c' : arun p c = (Ok a, c') -> cok c -> cok c'.
Proof. intros E H. pose proof (arun_cok p c H) as X. rewrite E in X. exact X. Qed.
Lemma uleb_sz_nonneg c v c' : cok c -> arun ruleb_sz c = (Ok v, c') -> 0 <= fst v /\ cok c'.
Proof.
  intros K E. split; [|pose proof (arun_cok ruleb_sz c K) as H; rewrite E in H; exact H].
  assert (arun ruleb c = (Ok (fst v), c')) as E1 by (unfold ruleb; rewrite arun_bind, E; reflexivity).
  destruct (arun_ruleb_range _ _ _ K E1) as ([H _] & _). exact H.
Qed.
Lemma header_trims c h n c' : cok c -> arun read_header c = (Ok (h, n), c') -> 0 <= h_trim_start h /\ 0 <= h_trim_end h.
Proof.
  intros K E. unfold read_header in E.
  apply arun_bind_ok in E as (t & c1 & E1 & E). apply cok_after in E1 as K1; [|exact K]. apply arun_bind_ok in E as (r & c2 & E2 & E). apply cok_after in E2 as K2; [|exact K1].
  apply arun_bind_ok in E as (f & c3 & E3 & E). apply cok_after in E3 as K3; [|exact K2]. apply arun_bind_ok in E as (x & c4 & E4 & E). apply cok_after in E4 as K4; [|exact K3].
  apply arun_bind_ok in E as (os & c5 & E5 & E). apply cok_after in E5 as K5; [|exact K4]. apply arun_rres_ok in E as ([] & _ & E). cbv zeta in E.
  apply arun_bind_ok in E as (tr & c6 & E6 & E). apply arun_bind_ok in E as (es & c7 & E7 & E). cbv zeta in E. apply arun_rcheck_ok in E as [_ E].
  apply arun_bind_ok in E as (eb & c8 & E8 & E). apply arun_rres_ok in E as ([] & _ & E). cbn [arun] in E. injection E as <- _ _. cbn [h_trim_start h_trim_end].
  destruct (trimming_flag _).
  - apply arun_bind_ok in E6 as (e & d1 & F1 & E6). apply arun_bind_ok in E6 as (s & d2 & F2 & E6). cbn [arun] in E6. injection E6 as <- _. cbn [fst snd].
    destruct (uleb_sz_nonneg _ _ _ K5 F1) as [N1 L1]. destruct (uleb_sz_nonneg _ _ _ L1 F2) as [N2 _]. split; assumption.
  - cbn [arun] in E6. injection E6 as <- _. cbn [fst snd]. lia.
Qed.
Lemma parse_reads D h n c d b c' : cok c -> arun (parse_payload D h n) c = (Ok (inr (PBlock d b)), c') -> read_with D d b.
Proof.
  intros K E. unfold parse_payload in E. destruct (is_audio_frame (h_type h)).
  { apply arun_bind_ok in E as (x & c1 & E1 & E). cbn [arun] in E. injection E as E _. destruct x; discriminate E. }
  destruct (h_type h =? kParameterBlock).
  - apply arun_bind_ok in E as (i & c1 & E1 & E). apply cok_after in E1 as K1; [|exact K]. destruct i as [er|i]; [cbn [arun] in E; discriminate E|].
    destruct (m_find i (d_defs D)) as [d0|] eqn:Ef; [|cbn [arun] in E; discriminate E]. apply arun_bind_ok in E as (x & c2 & E2 & E). cbn [arun] in E. injection E as E _.
    destruct x as [er|[b0 ft]]; [discriminate E|]. cbn [fst] in E. injection E as -> ->. rewrite arun_rcatch in E2.
    destruct (arun (read_payload n (read_pblock d h n)) c1) as [[y|er| | |] c3] eqn:Er; try discriminate E2. injection E2 as -> ->.
    unfold read_payload in Er. rewrite arun_bind, arun_rtell in Er. cbn [c_bits c_pos] in Er. apply arun_bind_ok in Er as (a & c4 & E4 & Er).
    exists i, h, n. exists (mkC (c_bits c1) (c_pos c1) (Some true)), c4. split; [exact Ef|]. split; [exact K1|]. replace b with a; [exact E4|].
    rewrite arun_bind, arun_rtell in Er. cbv zeta in Er. repeat match type of Er with context[if ?q then _ else _] => destruct q end; try discriminate Er; [cbn [arun] in Er; injection Er as <- _; reflexivity|].
    apply arun_bind_ok in Er as (ft1 & c5 & E5 & Er). cbn [arun] in Er. injection Er as <- _. reflexivity.
  - apply arun_bind_ok in E as (x & c1 & E1 & E). cbn [arun] in E. injection E as E _. destruct x; discriminate E.
Qed.
Lemma store_reads D s h p st s1 it : 0 <= h_trim_start h /\ 0 <= h_trim_end h -> (forall d b, p = inr (PBlock d b) -> read_with D d b) -> store D s h p = (st, s1, it) -> read_item D it.
Proof.
  intros Ht Hp E. destruct p as [er|[f|d b|]]; cbn [store] in E.
  - injection E as <- <- <-. exact I.
  - unfold store_frame in E. destruct (element_of D (af_id f)) as [a|] eqn:Ea; [|injection E as <- <- <-; exact I]. destruct (generate_frame a h f s) as [r s0] eqn:Eg.
    destruct r as [o| | | |]; try (injection E as <- <- <-; exact I). destruct (update_states D s0) as [r2 s2]. injection E as <- <- <-. cbn [read_item].
    unfold generate_frame in Eg. destruct (negb _); [discriminate Eg|]. destruct (next_audio (ps_g s) (af_id f) (ai_spf a)) as [[[r1 start] stop] g1] eqn:En. destruct r1; try discriminate Eg.
    destruct (get_down_mixing (ps_pm s) (ai_id a)) as [r3 m1]. cbv zeta in Eg. injection Eg as Eg _. destruct r3; try discriminate Eg. cbn [rbind] in Eg.
    destruct (get_recon_gains m1 (ai_id a) (ai_layers a)); try discriminate Eg. cbn [rbind] in Eg. injection Eg as <-. split; [apply Ht|]. split; [apply Ht|]. exists a. cbn [of_obu of_start of_end]. split; [exact Ea|]. unfold next_audio, get_timestamps in En.
    destruct (m_find (af_id f) (g_audio (ps_g s))); injection En; intros; subst; try congruence; reflexivity.
  - unfold store_block in E. destruct (global_timestamp (ps_g s)) as [[t|]| | | |]; try (injection E as <- <- <-; exact I).
    destruct (next_param (ps_g s) (bl_id b) t (block_duration d b)) as [[[r a] z] g1] eqn:En. destruct r; injection E as <- <- <-; try exact I. exists d. split; [exact (Hp d b eq_refl)|]. cbn [ob_obu ob_start ob_end].
    unfold next_param, get_timestamps in En. destruct (m_find (bl_id b) (g_param (ps_g s))); injection En; intros; subst; try congruence; reflexivity.
  - injection E as <- <- <-. exact I.
Qed.
(* One OBU *)
Lemma proc_reads D s c o c' : cok c -> arun (proc_obu D s) c = (Ok o, c') -> read_item D (po_item o).
Proof.
  intros K E. unfold proc_obu in E. apply arun_bind_ok in E as (m & c1 & E1 & E). apply cok_after in E1 as K1; [|exact K].
  destruct m as [er|t]; [destruct er; cbn [arun] in E; try discriminate E; injection E as <- _; exact I|].
  apply arun_bind_ok in E as (a & c2 & E2 & E). apply cok_after in E2 as K2; [|exact K1]. destruct (a <? snd t); [cbn [arun] in E; injection E as <- _; exact I|].
  apply arun_bind_ok in E as (p0 & c3 & E3 & E). apply cok_after in E3 as K3; [|exact K2]. apply arun_bind_ok in E as ([h n] & c4 & E4 & E). apply cok_after in E4 as K4; [|exact K3].
  pose proof (header_trims _ _ _ _ K3 E4) as Ht. cbn [fst snd] in E. destruct (temporal_unit_type (h_type h)).
  - apply arun_bind_ok in E as (x & c5 & E5 & E). apply cok_after in E5 as K5; [|exact K4].
    destruct (store D s h x) as [[st s1] it] eqn:Es.
    assert (read_item D it) as R. { apply (store_reads D s h x st s1 it Ht); [|exact Es]. intros d b ->. exact (parse_reads _ _ _ _ _ _ _ K4 E5). }
    destruct st; try (cbn [arun] in E; injection E as <- _; exact R). apply arun_bind_ok in E as (fin & c6 & E6 & E). cbn [arun] in E. injection E as <- _. exact R.
  - destruct (_ && _); [apply arun_bind_ok in E as (z & c5 & E5 & E); cbn [arun] in E; injection E as <- _; exact I|].
    destruct (_ || _).
    + apply arun_rcheck_ok in E as [_ E]. apply arun_bind_ok in E as (z & c5 & E5 & E). cbn [arun] in E. injection E as <- _. exact I.
    + apply arun_bind_ok in E as (z & c5 & E5 & E). cbn [arun] in E. injection E as <- _. exact I.
Qed.
(* Collecting *)
Lemma push_reads D t i : read_tud D t -> read_item D i -> read_tud D (tud_push t i).
Proof.
  intros [H1 H2] Hi. destruct i as [|f|b|h]; cbn [tud_push]; [split; assumption| | |split; assumption]; split; cbn [tu_frames tu_blocks]; try assumption; intros x Hx; apply in_app_or in Hx as [Hx|[<-|[]]]; auto.
Qed.
Lemma at_reads D t x : read_tud D t -> read_tud D (tud_at t x). Proof. auto. Qed.
Lemma add_reads D u i t : read_units D u -> read_item D i -> read_units D (add_data u i t).
Proof.
  intros [H1 H2] Hi. unfold add_data. set (cur := match tu_time (u_cur u) with None => tud_at (u_cur u) t | Some _ => u_cur u end). assert (read_tud D cur) as Hc by (unfold cur; destruct (tu_time (u_cur u)); assumption). clearbody cur.
  destruct (tu_time cur) as [t0|]; [destruct (t0 =? t)|]; split; cbn [u_cur u_next]; auto using push_reads, at_reads.
Qed.
Lemma collect_reads D u i : read_units D u -> read_item D i -> read_units D (fst (collect u i)).
Proof. intros H Hi. destruct i as [|f|b|h]; cbn [collect fst]; auto using add_reads. Qed.
Lemma empty_reads D : read_units D (mkU tud_empty tud_empty). Proof. split; split; intros ? []. Qed.
Lemma close_reads D eos cont de u out u2 : read_units D u -> close eos cont de u = Some (out, u2) -> read_units D u2 /\ forall x, out = Some x -> read_unit D x.
Proof.
  intros [H1 H2] E. unfold close in E. destruct (_ || _ || _); [|discriminate E].
  assert (forall t, read_unit D (mkOu (tu_frames (u_cur u)) (tu_blocks (u_cur u)) t)) as K by (intro t; exact H1).
  assert (read_units D (mkU (u_next u) tud_empty)) as N by (split; [exact H2|split; intros ? []]).
  destruct (tu_frames (u_cur u)) as [|f fs] eqn:Ef, (tu_blocks (u_cur u)) as [|b bs] eqn:Eb; injection E as <- <-;
    (split; [first [exact N|split; assumption]|]); intros x Hx; try discriminate Hx; injection Hx as <-; apply K.
Qed.
Lemma unit_reads D k eos : forall s u c r s1 u1 c1, cok c -> read_units D u -> process_unit arun_with k D eos s u c = (r, s1, u1, c1) ->
  read_units D u1 /\ forall x cont, r = Ok (Some x, cont) -> read_unit D x.
Proof.
  induction k as [|k IH]; intros s u c r s1 u1 c1 K H E; cbn [process_unit] in E; [injection E as <- <- <- <-; split; [exact H|discriminate]|].
  unfold arun_with at 1 in E. destruct (arun (proc_obu D s) c) as [o c2] eqn:Eo. destruct o as [o|er| | |]; try (injection E as <- <- <- <-; split; [exact H|discriminate]).
  pose proof (proc_reads _ _ _ _ _ K Eo) as Hi. pose proof (arun_cok (proc_obu D s) c K) as K2. rewrite Eo in K2. cbn [snd] in K2.
  destruct (po_status o) as [[]|er| | |]; try (injection E as <- <- <- <-; split; [exact H|discriminate]).
  pose proof (collect_reads D u (po_item o) H Hi) as Hu. destruct (collect u (po_item o)) as [u3 de]. cbn [fst] in Hu.
  destruct (close eos (po_cont o) de u3) as [[out u2]|] eqn:Ec.
  - injection E as <- <- <- <-. destruct (close_reads _ _ _ _ _ _ _ Hu Ec) as [C1 C2]. split; [exact C1|]. intros x cont Hx. injection Hx as -> _. apply C2. reflexivity.
  - destruct (po_cont o); [|injection E as <- <- <- <-; split; [exact Hu|discriminate]]. exact (IH _ _ _ _ _ _ _ K2 Hu E).
Qed.
