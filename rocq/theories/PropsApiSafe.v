(* C48: no history of API calls crashes the decoder. *)
From Verif Require Import Base WriteBuf ReadBuf Leb BufSpec LebSpec BitFacts WriteBufFacts ReadBufFacts LebFacts
  ParseFacts EndToEnd ObuHeader ObuHeaderFacts FrameFacts SeqFacts PureFacts SimpleObus CodecConfig Params Timing ParamManager
  Processor PropsObu ProcFacts StreamSpec StreamFacts Session SessionFacts PropsProc PropsSession
  MixPresentation Reorder PropsReorder Pcm PropsPcm PropsLoss DecoderApi PropsDecoder ReadUnits.

(* ================= SPEC ================= *)
(* What is asked of the parts which are not modelled.  Creating the processor: it starts with the parameter state made from some
   audio elements, its answers are values or errors, and the parser does not end before where it began.  Rendering: for some
   property I of the renderer's state (which may depend on the descriptors), creation gives a state with I; rendering a unit which
   was read with these descriptors in a state with I does not crash, and I still holds. *)
Definition answers {A} (r : res A) : Prop := crashed r = false.
Record sane {M R} (I : descs -> R -> Prop) (e : env M R) : Prop := mkSane {
  sane_create : forall fromd m c y c', cok c -> (length (c_bits c) <= 8 * Z.to_nat (2^22))%nat ->
    arun (e_create e fromd m) c = (Ok y, c') -> answers y /\ forall np ins, y = Ok (Some np, ins) ->
    (c_pos c <= c_pos c')%nat /\ (exists aes, NoDup (map fst aes) /\ pm_new aes = Ok (ps_pm (np_s np))) /\
    answers (np_mix np) /\ answers (np_layout np) /\ answers (np_rate np) /\ answers (np_size np) /\
    (forall t s, np_layout np = Ok (t, s) -> answers (num_channels t s)) /\ I (np_D np) (np_R np);
  sane_render : forall D r u pending, I D r -> read_unit D u -> answers (fst (fst (e_render e r u pending))) /\ I D (snd (e_render e r u pending)) }.
(* Either channels are not reordered, or the layout is never one of those which are (3.1.2 to 7.1.4 etc., sound systems F to J and 10). *)
Definition order_kept {M R} (e : env M R) (sch : scheme) : Prop :=
  sch = DefaultNoOp \/
  forall fromd m c np ins c' t ss rs, arun (e_create e fromd m) c = (Ok (Ok (Some np, ins)), c') -> np_layout np = Ok (t, LSs ss rs) -> ~ (5 <= ss <= 10).
(* The caller passes bytes, and buffers which fit into memory. *)
Definition call_ok {M} (c : call M) : Prop :=
  match c with CDecode x => Forall byteP x | CGet span => zlen span < 2^64 | _ => True end.
(* No reset was answered with an error (F22). *)
Definition resets_ok {M} (cs : list (call M)) (rs : list reply) : Prop :=
  Forall (fun p => is_reset (fst p) = true -> forall x, r_status (snd p) <> Err x) (combine cs rs).

(* ================= one OBU, from any position ================= *)
Lemma step_safe D s c : cok c -> Z.of_nat (c_left c) < 8 * (2^32 - 64) -> quiet (ps_pm s) ->
  exists r c', arun (proc_obu D s) c = (r, c') /\
  match r with
  | Ok o => calm (po_status o) /\ ps_pm (po_state o) = ps_pm s /\ (po_status o = Ok tt -> po_cont o = true -> (c_pos c + 8 <= c_pos c')%nat)
  | Err _ => True
  | _ => False
  end.
Proof.
  intros Hc Hl Q. unfold c_left in Hl. set (B := skipn (c_pos c) (c_bits c)).
  assert (length B = length (c_bits c) - c_pos c)%nat as LB by (unfold B; apply skipn_length). unfold cok in Hc.
  set (c0 := mkC (c_bits c) (c_pos c) (Some true)). assert (cok c0) as K0 by exact Hc.
  pose proof (arun_prun _ pure_fill c0 K0) as P. cbn [c_pos c_bits c0] in P. fold c0 in P. fold B in P.
  pose proof (fill_total B) as FT. unfold proc_obu. rewrite arun_bind, arun_rcatch, (arun_peek c Hc). fold c0.
  destruct (prun fill_header_metadata B) as [|er|[t total] r'] eqn:Ef.
  - destruct P as [c' P]. rewrite P. eexists _, _. split; [reflexivity|]. cbn. repeat split; auto. discriminate.
  - destruct P as [c' P]. rewrite P. pose proof (fill_err B er Ef) as ->. eexists _, _. split; [reflexivity|]. exact I.
  - destruct P as [v P]. rewrite P. specialize (FT _ _ _ eq_refl). cbn [snd]. rewrite arun_bind.
    assert (arun ravail c0 = (Ok (Z.of_nat (length B) / 8), c0)) as Ea.
    { unfold ravail, rop1. cbn [arun aop]. unfold c_left. cbn [c_pos c_bits c0]. rewrite LB. reflexivity. }
    rewrite Ea. destruct (_ <? total) eqn:Et; [eexists _, _; split; [reflexivity|]; cbn; repeat split; auto; discriminate|].
    assert (8 * total <= Z.of_nat (length B)) as Ht by (pose proof (Z.mul_div_le (Z.of_nat (length B)) 8 ltac:(lia)); lia).
    rewrite arun_bind, arun_rtell. cbn [c_bits c_pos c0]. fold c0. rewrite arun_bind.
    pose proof (arun_prun _ pure_header c0 K0) as Ph. cbn [c_pos c_bits c0] in Ph. fold c0 in Ph. fold B in Ph.
    destruct (arun_valid read_header c0 eq_refl) as [Vh _].
    destruct (prun read_header B) as [|er|[h n] r] eqn:Eh.
    { destruct Ph as [c' Ph]. rewrite Ph. eexists _, _. split; [reflexivity|]. exact I. }
    { destruct Ph as [c' Ph]. rewrite Ph. eexists _, _. split; [reflexivity|]. exact I. }
    destruct Ph as [v2 Ph]. rewrite Ph in Vh |- *. cbn [snd c_valid] in Vh. subst v2.
    destruct (header_shape _ _ _ _ Eh ltac:(lia)) as (t2 & total2 & r2 & E2 & _ & Hn & Htm & L2 & L3). rewrite Ef in E2. injection E2 as <- <- <-.
    assert (1 <= total - n) as Hh.
    { pose proof Eh as Eh'. unfold read_header in Eh'. rewrite prun_bind in Eh'.
      destruct (prun (rlit 5 64) B) as [|?|t1 r1] eqn:E1; try discriminate. pose proof (prun_lit_ok _ _ _ _ _ E1) as L1.
      destruct (prun_rest _ _ _ _ Eh') as [u1 Eu]. pose proof (f_equal (@length bool) Eu) as Lu. rewrite app_length in Lu.
      change (Z.to_nat 5) with 5%nat in L1. lia. }
    cbn [fst snd]. set (q := (length (c_bits c) - length r)%nat).
    assert (Z.of_nat q = Z.of_nat (c_pos c) + 8 * (total - n)) as Hq by (unfold q; lia).
    assert (0 <= Z.of_nat (c_pos c) <= zlen (c_bits c)) as R0 by (unfold zlen in *; lia).
    assert (Z.of_nat q + 8 * n <= zlen (c_bits c)) as Rq by (unfold zlen; lia).
    destruct (temporal_unit_type (h_type h)).
    + rewrite arun_bind. set (c1 := mkC (c_bits c) q (Some true)).
      assert (cok c1) as K1 by (unfold cok, zlen in *; cbn [c_pos c_bits c1]; lia).
      set (w := firstn (Z.to_nat (8 * n)) r). set (ee := skipn (Z.to_nat (8 * n)) r).
      assert (skipn (c_pos c1) (c_bits c1) = w ++ ee) as S1.
      { unfold w, ee. rewrite firstn_skipn. cbn [c_pos c_bits c1]. destruct (prun_rest _ _ _ _ Eh) as [u Eu]. pose proof (f_equal (@length bool) Eu) as Q2. rewrite app_length in Q2.
        replace q with (c_pos c + length u)%nat by (unfold q; lia).
        rewrite <- skipn_skipn'. fold B. rewrite Eu, skipn_app, skipn_all, Nat.sub_diag. reflexivity. }
      assert (zlen w = 8 * n) as Hw by (unfold zlen, w; rewrite firstn_length; lia).
      destruct (parse_local D h n c1 w ee K1 S1 Hw) as (x & c2 & E2 & _ & B2 & V2 & P2). rewrite E2.
      destruct c2 as [b2 p2 v2]. cbn [c_bits c_valid c_pos c1] in B2, V2, P2. subst b2 v2.
      destruct (store D s h x) as [[st s1] it] eqn:Est. destruct (store_calm _ _ _ _ _ _ _ Q Est) as (C & Pm & _).
      destruct st as [[]|er| | |]; try contradiction.
      * cbn [arun]. eexists _, _. split; [reflexivity|]. cbn [po_status po_state po_cont c_pos]. split; [exact I|]. split; [exact Pm|].
        intros _ _. destruct x as [er|y]; [cbn [store] in Est; discriminate|]. lia.
      * rewrite arun_bind, arun_rcatch, arun_bind, arun_rseek_ok by exact R0. rewrite Nat2Z.id, arun_rignore by (unfold zlen in *; lia). cbn [arun].
        eexists _, _. split; [reflexivity|]. cbn [po_status po_state po_cont c_pos]. split; [exact I|]. split; [exact Pm|]. intros _ _. lia.
    + destruct ((h_type h =? kSequenceHeader) && negb (h_red h)).
      { rewrite arun_bind, arun_rseek_ok by exact R0. cbn [arun]. eexists _, _. split; [reflexivity|]. cbn. repeat split; auto. discriminate. }
      destruct (_ || _ || _ || _).
      { destruct (h_red h); cbn [rcheck rb]; [|cbn [arun]; eexists _, _; split; [reflexivity|exact I]].
        rewrite arun_bind, arun_rignore by lia. cbn [arun]. eexists _, _. split; [reflexivity|]. cbn [po_status po_state po_cont c_pos]. repeat split. intros _ _. lia. }
      rewrite arun_bind, arun_rignore by lia. cbn [arun]. eexists _, _. split; [reflexivity|]. cbn [po_status po_state po_cont c_pos]. repeat split. intros _ _. lia.
Qed.

Lemma unit_safe D k eos : forall s u c, cok c -> (length (c_bits c) <= 8 * Z.to_nat (2^22))%nat -> (c_left c < 8 * k)%nat -> quiet (ps_pm s) ->
  match process_unit arun_with k D eos s u c with
  | (Ok _, s1, _, c1) | (Err _, s1, _, c1) => ps_pm s1 = ps_pm s /\ c_bits c1 = c_bits c
  | _ => False
  end.
Proof.
  induction k as [|k IH]; intros s u c Hc Hl Hk Q; [lia|]. cbn [process_unit]. unfold arun_with at 1.
  change (Z.to_nat (2^22)) with (Z.to_nat 4194304) in *.
  destruct (step_safe D s c Hc ltac:(unfold c_left; change (2^32) with 4294967296; lia) Q) as (r & c1 & E & H).
  pose proof (arun_bits (proc_obu D s) c) as Bc. pose proof (arun_cok (proc_obu D s) c Hc) as Kc. rewrite E in Bc, Kc |- *. cbn [snd] in Bc, Kc.
  destruct r as [o|er| | |]; try contradiction; [|cbn [rcast]; auto]. destruct H as (H1 & H2 & H3).
  destruct (po_status o) as [[]|er| | |] eqn:Es; try contradiction; [|cbn [rcast]; auto].
  destruct (collect u (po_item o)) as [u1 de]. destruct (close eos (po_cont o) de u1) as [[out u2]|]; [auto|].
  destruct (po_cont o); [|auto]. specialize (H3 eq_refl eq_refl). unfold c_left, cok in *.
  assert (length (c_bits c1) - c_pos c1 < 8 * k)%nat as Hk1 by (rewrite Bc in *; lia).
  specialize (IH (po_state o) u1 c1 Kc ltac:(rewrite Bc; exact Hl) Hk1 ltac:(rewrite H2; exact Q)).
  destruct (process_unit arun_with k D eos (po_state o) u1 c1) as [[[r2 s2] u3] c2]. destruct r2; try contradiction; destruct IH; split; congruence.
Qed.

(* ================= the decoder ================= *)
Definition in_order (sch : scheme) (ss : Z) : Prop := sch = DefaultNoOp \/ ~ (5 <= ss <= 10).
Definition holds_buf (b : rbuf) : Prop := exists c, rrel b c /\ (length (c_bits c) <= 8 * Z.to_nat (2^22))%nat.
Lemma holds_push b x : holds_buf b -> Forall byteP x ->
  (exists b1, r_push x b = (Ok tt, b1) /\ holds_buf b1) \/ (exists er, r_push x b = (Err er, b)).
Proof.
  intros (c & Rc & Lc) Hx. destruct (r_push x b) as [s b1] eqn:E. pose proof E as E'. unfold r_push in E'. destruct (_ >? _) in E'; injection E' as <- <-; [right; eauto|left].
  eexists. split; [reflexivity|]. destruct (push_ok _ _ _ _ Rc Lc Hx E) as [R1 L1]. eexists. split; eassumption.
Qed.
Lemma holds_create : holds_buf (r_stream 1024).
Proof.
  pose proof (srel_init 1024 ltac:(lia)) as [R0 _]. change (view s_empty) with (mkC [] 0 None) in R0.
  exists (mkC [] 0 None). split; [exact R0|]. cbn [c_bits length]. lia.
Qed.
Lemma holds_flush b : holds_buf b -> exists b1, r_flush b = (Ok tt, b1) /\ holds_buf b1.
Proof.
  intros (c & Rc & Lc). destruct (rrel_flush _ _ Rc) as (b1 & E & R1). exists b1. split; [exact E|]. eexists. split; [exact R1|]. cbn [c_bits].
  rewrite skipn_length. lia.
Qed.
Lemma holds_cok b c : rrel b c -> cok c.
Proof. intro Rc. pose proof (rrel_pos_le _ _ Rc). pose proof (rrel_len _ _ Rc). unfold cok. lia. Qed.

Lemma in_order_ok sch ss (f : frame) : in_order sch ss -> exists f', reorder sch ss f = Ok f'.
Proof.
  intro H. destruct (reorder_total sch ss f) as [(o & E & _)|(_ & E1 & E2 & _)]; [eauto|]. exfalso. subst sch. destruct H as [H|H]; [discriminate|contradiction].
Qed.

Section Safe.
Context {M R : Type} (I : descs -> R -> Prop) (fuel k : nat) (e : env M R).
Hypothesis Hf : (8 <= fuel)%nat.
Hypothesis Hk : 2^22 < Z.of_nat k.
Hypothesis Hsane : sane I e.
Notation st := (dstate M R).

Definition good_mix (d : st) (m : Z * (Z * speclay)) : Prop :=
  answers (num_channels (fst (snd m)) (snd (snd m))) /\ match snd (snd m) with LSs ss _ => in_order (ds_scheme d) ss | _ => True end.
Record sound (d : st) : Prop := mkSound {
  so_buf : holds_buf (ds_buf d);
  so_proc : match ds_proc d with
            | Some p => p_gen p = ds_gen d /\ quiet (ps_pm (p_s p)) /\ answers (p_rate p) /\ answers (p_size p) /\ I (p_D p) (p_R p) /\ read_units (p_D p) (p_u p) /\ exists m, ds_mix d = Some m
            | None => True
            end;
  so_mix : match ds_mix d with Some m => good_mix d m | None => True end;
  so_reord : match ds_reord d with Some (sch, ss) => in_order sch ss | None => True end;
  so_desc : Forall byteP (ds_desc d);
  so_env : order_kept e (ds_scheme d) }.

(* Creating the processor. *)
Lemma create_safe (d : st) r d1 : holds_buf (ds_buf d) -> Forall byteP (ds_desc d) -> order_kept e (ds_scheme d) ->
  match ds_mix d with Some m => good_mix d m | None => True end ->
  create_processor fuel e d = (r, d1) ->
  crashed r = false /\ holds_buf (ds_buf d1) /\ Forall byteP (ds_desc d1) /\ match ds_mix d1 with Some m => good_mix d1 m | None => True end /\
  (r = Ok tt -> exists p, ds_proc d1 = Some p /\ quiet (ps_pm (p_s p)) /\ answers (p_rate p) /\ answers (p_size p) /\ I (p_D p) (p_R p) /\ read_units (p_D p) (p_u p)).
Proof.
  intros (c & Rc & Lc) Hd Ho Hm. unfold create_processor.
  destruct (crun_refines fuel (create_prog e (ds_fromd d) (ds_req d)) Hf (ds_buf d) c Rc) as [E R1].
  pose proof (arun_bits (create_prog e (ds_fromd d) (ds_req d)) c) as Bc.
  destruct (crun fuel (create_prog e (ds_fromd d) (ds_req d)) (ds_buf d)) as [x b1], (arun (create_prog e (ds_fromd d) (ds_req d)) c) as [x' c1] eqn:Ea.
  cbn [fst snd] in E, R1, Bc. subst x'.
  assert (holds_buf b1) as H1 by (exists c1; split; [exact R1|rewrite Bc; exact Lc]).
  (* the program *)
  assert ((exists er, x = Ok (Err er)) \/ (exists er, x = Err er) \/ exists np bytes fromd m ins ca cb, x = Ok (Ok (np, bytes)) /\ Forall byteP bytes /\ cok ca /\ (length (c_bits ca) <= 8 * Z.to_nat (2^22))%nat /\ arun (e_create e fromd m) ca = (Ok (Ok (Some np, ins)), cb)) as X.
  { pose proof (holds_cok _ _ Rc) as K. unfold create_prog in Ea. rewrite arun_bind, arun_rtell in Ea. set (c0 := mkC (c_bits c) (c_pos c) (Some true)) in Ea.
    assert (cok c0) as K0 by exact K. rewrite arun_bind, arun_rcatch in Ea.
    destruct (arun_valid (e_create e (ds_fromd d) (ds_req d)) c0 eq_refl) as [V [[o Hr]|[er Hr]]].
    2:{ destruct (arun (e_create e (ds_fromd d) (ds_req d)) c0) as [y c2]. cbn [fst] in Hr. subst y. cbn [arun] in Ea. injection Ea as <- _. left. eauto. }
    pose proof (arun_cok (e_create e (ds_fromd d) (ds_req d)) c0 K0) as K2. pose proof (arun_bits (e_create e (ds_fromd d) (ds_req d)) c0) as B2.
    destruct (arun (e_create e (ds_fromd d) (ds_req d)) c0) as [y [b2 p2 v2]] eqn:Ec. cbn [fst snd c_valid c_bits c0] in *. subst y v2 b2.
    destruct (sane_create I e Hsane _ _ _ _ _ K0 Lc Ec) as (Ay & Hp).
    destruct o as [[[np|] ins]|er| | |]; [|cbn [arun] in Ea; injection Ea as <- _; left; eauto|cbn [arun] in Ea; injection Ea as <- _; left; eauto|discriminate Ay..].
    destruct (Hp _ _ eq_refl) as (Hp' & _). clear Hp. rename Hp' into Hp. cbn [c_pos c0] in Hp. unfold cok in *. cbn [c_pos c_bits] in *.
    rewrite arun_bind, arun_rtell in Ea. cbn [c_pos c_bits] in Ea. cbv zeta in Ea.
    assert (0 <= Z.quot (Z.of_nat p2 - Z.of_nat (c_pos c)) 8 /\ 8 * Z.quot (Z.of_nat p2 - Z.of_nat (c_pos c)) 8 <= Z.of_nat p2 - Z.of_nat (c_pos c)) as [Q0 Q1].
    { rewrite Z.quot_div_nonneg by lia. split; [apply Z.div_pos; lia|apply Z.mul_div_le; lia]. }
    set (n := Z.quot _ _) in *. replace (n <? 0) with false in Ea by lia.
    rewrite arun_bind, arun_rseek_ok in Ea by (unfold zlen; lia). rewrite Nat2Z.id, arun_bind in Ea. fold c0 in Ea.
    pose proof (arun_span (Z.to_nat n) c0 K) as Sp. cbn [c_bits c_pos c0] in Sp. fold c0 in Sp.
    replace (8 * Z.to_nat n <=? length (c_bits c) - c_pos c)%nat with true in Sp by lia.
    destruct Sp as (bs & v & Sp & _ & Bb & _). rewrite Sp in Ea. cbn [arun] in Ea. injection Ea as <- _. right. right. exists np, bs. eexists _, _, _, c0, _. eauto 10. }
  destruct X as [[er ->]|[[er ->]|(np & bytes & fd & m & ins & ca & cb & -> & Bb & Ka & La & Ec)]].
  - cbn [crash]. intro H. injection H as <- <-. cbn. split; [reflexivity|]. split; [exact H1|]. split; [exact Hd|]. split; [exact Hm|]. discriminate.
  - cbn [crash]. intro H. injection H as <- <-. cbn. split; [reflexivity|]. split; [exact H1|]. split; [exact Hd|]. split; [exact Hm|]. discriminate.
  - destruct (sane_create I e Hsane _ _ _ _ _ Ka La Ec) as (_ & X). destruct (X _ _ eq_refl) as (_ & (aes & N & Ep) & A1 & A2 & A3 & A4 & A5 & A6). clear X.
    destruct (holds_flush _ H1) as (b2 & Ef & H2). rewrite Ef.
    destruct (np_mix np) as [mix|er| | |]; try discriminate A1;
      [|cbn [crash]; intro H; injection H as <- <-; cbn; split; [reflexivity|]; split; [exact H2|]; split; [exact Bb|]; split; [exact Hm|]; discriminate].
    destruct (np_layout np) as [[t s]|er| | |] eqn:El; try discriminate A2;
      [|cbn [crash]; intro H; injection H as <- <-; cbn; split; [reflexivity|]; split; [exact H2|]; split; [exact Bb|]; split; [exact Hm|]; discriminate].
    intro H. injection H as <- <-. cbn. split; [reflexivity|]. split; [exact H2|]. split; [exact Bb|]. split.
    + split; cbn [fst snd]; [apply A5; reflexivity|]. cbn [ds_scheme set_proc set_mix set_buf set_desc]. destruct s as [ss rsv|]; [|exact Logic.I].
      destruct Ho as [Ho|Ho]; [left; exact Ho|right]. eapply Ho; eassumption.
    + intros _. eexists. split; [reflexivity|]. cbn. split; [exact (new_quiet _ _ N Ep)|]. split; [auto|]. split; [auto|]. split; [exact A6|apply empty_reads].
Qed.

Lemma decode_one_safe eos (d : st) r d1 fs : sound d -> decode_one fuel k e eos d = (r, d1, fs) -> crashed r = false /\ sound d1.
Proof.
  intros [(c & Rc & Lc) Sp Sm Sr Sd Se] E. destruct (decode_one_kept _ _ _ _ _ _ _ _ E) as (Kp & Ken & Kro). unfold kept in Kp.
  destruct Kp as (K1 & K2 & K3 & K4 & K5 & K6 & K7 & K8 & K9 & K10 & K11).
  assert (holds_buf (ds_buf d1) -> match ds_proc d1 with Some p => quiet (ps_pm (p_s p)) /\ I (p_D p) (p_R p) /\ read_units (p_D p) (p_u p) | None => True end -> sound d1) as Fin.
  { intros H1 H2. split; try assumption.
    - destruct (ds_proc d) as [p|], (ds_proc d1) as [p1|]; try discriminate; auto. cbn [option_map] in *. injection K8 as K8. injection K9 as K9. injection K10 as K10.
      rewrite K7, K10, K8, K9, K4. destruct H2 as (H2 & H3 & H4). destruct Sp as (? & ? & ? & ? & ? & ? & ?). auto 10.
    - rewrite K4. unfold good_mix. rewrite K5. exact Sm.
    - rewrite Kro. exact Sr.
    - rewrite K3. exact Sd.
    - rewrite K5. exact Se. }
  unfold decode_one in E. destruct (ds_proc d) as [p|] eqn:Ep.
  2:{ injection E as <- <- <-. split; [reflexivity|]. apply Fin; [exists c; auto|rewrite Ep; exact Logic.I]. }
  destruct Sp as (G & Q & A1 & A2 & A3 & A4 & m & Em). rewrite G, Nat.eqb_refl in E. cbn [negb] in E.
  pose proof (unit_safe (p_D p) k eos (p_s p) (p_u p) c (holds_cok _ _ Rc) Lc) as U.
  assert (c_left c < 8 * k)%nat as Hl by (unfold c_left; change (2^22) with 4194304 in *; lia). specialize (U Hl Q).
  destruct (unit_refines fuel (p_D p) k eos Hf (p_s p) (p_u p) (ds_buf d) c Rc) as [Eu R1].
  destruct (process_unit (crun_with fuel) k (p_D p) eos (p_s p) (p_u p) (ds_buf d)) as [[[x s1] u1] b1], (process_unit arun_with k (p_D p) eos (p_s p) (p_u p) c) as [[[y s1'] u1'] c1] eqn:Ey.
  cbn [fst snd] in Eu, R1. injection Eu as <- <- <-. destruct (unit_reads _ _ _ _ _ _ _ _ _ _ (holds_cok _ _ Rc) A4 Ey) as [W1 W2].
  assert (holds_buf b1) as H1 by (exists c1; split; [exact R1|destruct x; try contradiction; destruct U as [_ U]; rewrite U; exact Lc]).
  assert (quiet (ps_pm s1)) as Q1 by (destruct x; try contradiction; destruct U as [U _]; rewrite U; exact Q).
  destruct (holds_flush _ H1) as (b2 & Ef & H2).
  destruct x as [[out cont]|er| | |]; try contradiction.
  2:{ injection E as <- <- <-. split; [reflexivity|]. apply Fin; cbn; [exact H1|auto]. }
  destruct out as [ou|].
  - destruct (render_unit e (p_R p) ou (ds_frame d)) as [[x old] r1] eqn:Er.
    assert (answers x /\ I (p_D p) r1) as [Ax Ir].
    { unfold render_unit in Er. destruct (un_frames ou); [injection Er as <- <- <-; split; [reflexivity|exact A3]|].
      pose proof (sane_render I e Hsane (p_D p) (p_R p) ou (ds_frame d) A3 (W2 _ _ eq_refl)) as X. destruct (e_render e (p_R p) ou (ds_frame d)) as [[z ?] ?]. injection Er as <- <- <-. exact X. }
    destruct x as [f|er| | |]; try discriminate Ax.
    2:{ injection E as <- <- <-. split; [reflexivity|]. apply Fin; cbn; [exact H1|auto]. }
    assert (exists f', match ds_reord d with Some (sch, ss) => reorder sch ss f | None => Ok f end = Ok f') as [f' Er'].
    { destruct (ds_reord d) as [[sch ss]|]; [apply in_order_ok; exact Sr|eauto]. }
    rewrite Er' in E. cbn [ds_buf set_frame set_proc set_buf] in E. rewrite Ef in E. injection E as <- <- <-. split; [reflexivity|]. apply Fin; cbn; [exact H2|auto].
  - cbn [ds_buf set_frame set_proc set_buf] in E. rewrite Ef in E. injection E as <- <- <-. split; [reflexivity|]. apply Fin; cbn; [exact H2|auto].
Qed.

Lemma reset_safe (d : st) r d1 : sound d -> reset fuel e d = (r, d1) ->
  crashed (r_status r) = false /\ ((forall x, r_status r <> Err x) -> sound d1 /\ exists m, ds_mix d1 = Some m).
Proof.
  intros [Sb Sp Sm Sr Sd Se]. unfold reset. destruct (ds_fromd d); cbn [negb].
  2:{ intro E. injection E as <- <-. split; [reflexivity|]. cbn [r_status]. intro H. contradiction (H Unknown). reflexivity. }
  set (d2 := set_fresh_buf _ _). change (ds_desc d2) with (ds_desc d). change (ds_buf d2) with (r_stream 1024).
  destruct (holds_push _ _ holds_create Sd) as [(b1 & Ep & H1)|(er & Ep)]; rewrite Ep.
  2:{ intro E. injection E as <- <-. split; [reflexivity|]. cbn [r_status to_iamf]. intro H. contradiction (H Unknown). reflexivity. }
  destruct (create_processor fuel e (set_buf d2 b1)) as [x d3] eqn:Ec.
  destruct (create_safe (set_buf d2 b1) x d3 H1 Sd Se Sm Ec) as (C & H3 & D3 & M3 & P3).
  destruct (create_processor_kept _ _ _ _ _ Ec) as (K1 & K2 & K3 & K4 & K5 & K6 & K7 & K8 & K9 & K10).
  intro E. injection E as <- <-. cbn [r_status]. split; [destruct x; try discriminate C; reflexivity|].
  intro H. destruct x as [[]|er| | |]; try discriminate C; [|contradiction (H Unknown); reflexivity].
  destruct (K9 eq_refl) as (p & Ep3 & Eg & m & Em). destruct (P3 eq_refl) as (p' & Ep' & Pq & Pr & Ps & Pi & Pu). rewrite Ep3 in Ep'. injection Ep' as <-.
  split; [|eauto]. split; try assumption.
  - rewrite Ep3, K5. split; [exact Eg|]. eauto 15.
  - rewrite K7. exact Logic.I.
  - rewrite K3. exact Se.
Qed.

Lemma step_safe_api c (d : st) r d1 : sound d -> call_ok c -> step fuel k e c d = (r, d1) ->
  crashed (r_status r) = false /\ ((is_reset c = true -> forall x, r_status r <> Err x) -> sound d1).
Proof.
  intros S0 Hc E. destruct c as [x|span| | |m]; cbn [step call_ok is_reset] in *.
  - unfold decode in E. destruct (ds_ended d); [injection E as <- <-; split; [reflexivity|auto]|].
    destruct (holds_push _ _ (so_buf _ S0) Hc) as [(b1 & Ep & H1)|(er & Ep)]; rewrite Ep in E.
    2:{ injection E as <- <-. split; [reflexivity|]. intros _. destruct S0. split; assumption. }
    assert (sound (set_buf d b1)) as S1 by (destruct S0; split; assumption).
    destruct (ds_proc (set_buf d b1)) as [p|] eqn:Epr.
    + set (d2 := set_reord _ _) in E.
      assert (sound d2) as S2.
      { destruct S1 as [A1 A2 A3 A4 A5 A6]. split; try assumption. cbn [ds_reord d2 set_reord]. unfold reorderer_for.
        destruct (ds_mix (set_buf d b1)) as [[mx [t [ss rsv|]]]|]; [|exact A4..]. destruct A3 as [_ A3]. exact A3. }
      destruct (ds_frame d2); [|injection E as <- <-; split; [reflexivity|auto]].
      destruct (decode_one _ _ _ _ _) as [[y d3] fs] eqn:E1. injection E as <- <-. destruct (decode_one_safe _ _ _ _ _ S2 E1). auto.
    + destruct (create_processor fuel e (set_buf d b1)) as [y d2] eqn:Ec. injection E as <- <-. cbn [r_status].
      destruct S1 as [A1 A2 A3 A4 A5 A6]. destruct (create_safe _ _ _ A1 A5 A6 A3 Ec) as (C & H3 & D3 & M3 & P3).
      destruct (create_processor_kept _ _ _ _ _ Ec) as (K1 & K2 & K3 & K4 & K5 & K6 & K7 & K8 & K9 & K10).
      split; [destruct y as [|[]| | |]; try discriminate C; reflexivity|]. intros _.
      split; try assumption; [|rewrite K7; exact A4|rewrite K3; exact A6].
      destruct y as [[]|er| | |]; try discriminate C; [|rewrite K10 by discriminate; rewrite Epr; exact Logic.I].
      destruct (K9 eq_refl) as (p & Ep3 & Eg & m & Em). destruct (P3 eq_refl) as (p' & Ep' & Pq & Pr & Ps & Pi & Pu). rewrite Ep3 in Ep'. injection Ep' as <-.
      rewrite Ep3, K5. split; [exact Eg|]. eauto 15.
  - unfold get_unit in E. destruct (ds_frame d) as [|ch f] eqn:Ef; [injection E as <- <-; split; [reflexivity|auto]|]. rewrite <- Ef in E.
    destruct (C33_any_frame_is_safe (ds_frame d) (ds_type d) span 0 Hc) as (x & sp & w & Ew & _ & Hx & _). rewrite Ew in E.
    assert (forall d0, sound d0 -> forall y, crashed y = false ->
      (let '(r0, d2, fs) := decode_one fuel k e (ds_fromd d || ds_ended d) d0 in
       (mkReply (match r0 with Ok _ => y | _ => r0 end) (firstn (Z.to_nat w) sp) fs, d2)) = (r, d1) -> crashed (r_status r) = false /\ sound d1) as X.
    { intros d0 Sd y Hy E0. destruct (decode_one _ _ _ _ d0) as [[z d2] fs] eqn:E1. destruct (decode_one_safe _ _ _ _ _ Sd E1) as [C S2].
      injection E0 as <- <-. cbn [r_status]. split; [destruct z; auto|exact S2]. }
    destruct Hx as [->|[-> _]].
    + destruct (X (set_frame d []) ltac:(destruct S0; split; assumption) (Ok tt) eq_refl E). auto.
    + destruct (X d S0 (Err Unknown) eq_refl E). auto.
  - unfold signal_end in E. assert (sound (set_ended d true)) as S1 by (destruct S0; split; assumption).
    destruct (ds_fromd (set_ended d true)), (ds_frame (set_ended d true)), (ds_proc (set_ended d true)); try (injection E as <- <-; split; [reflexivity|auto]).
    destruct (decode_one _ _ _ _ _) as [[y d3] fs] eqn:E1. injection E as <- <-. destruct (decode_one_safe _ _ _ _ _ S1 E1). auto.
  - destruct (reset_safe _ _ _ S0 E) as [C S1]. split; [exact C|]. intro H. apply (S1 (H eq_refl)).
  - unfold reset_with_mix in E. destruct (ds_fromd d) eqn:Efd; cbn [negb] in E.
    2:{ injection E as <- <-. split; [reflexivity|]. cbn [r_status]. intro H. contradiction (H eq_refl Unknown). reflexivity. }
    destruct (reset fuel e (set_req d m)) as [r1 d2] eqn:E1.
    assert (sound (set_req d m)) as S1 by (destruct S0; split; assumption).
    destruct (reset_safe _ _ _ S1 E1) as [C S2]. destruct (r_status r1) as [[]|er| | |] eqn:Es; try discriminate C.
    2:{ injection E as <- <-. rewrite Es. split; [reflexivity|]. intro H. contradiction (H eq_refl er). reflexivity. }
    destruct (S2 ltac:(discriminate)) as [S3 [[mix lay] Em]]. rewrite Em in E.
    assert (crashed (api_layout lay) = false) as Ca.
    { destruct lay as [t [ss rsv|rsv]]; cbn [api_layout]; [destruct (negb _); [reflexivity|destruct (_ && _); reflexivity]|destruct (t =? 3); reflexivity]. }
    destruct (api_layout lay); try discriminate Ca; injection E as <- <-; split; try reflexivity; intros _; exact S3.
Qed.

Lemma calls_safe cs : forall (d : st) rs d1, sound d -> Forall call_ok cs -> calls fuel k e cs d = (rs, d1) -> resets_ok cs rs ->
  no_crash rs /\ sound d1.
Proof.
  induction cs as [|c cs IH]; intros d rs d1 S0 Hc E Hr; cbn [calls] in E.
  - injection E as <- <-. split; [constructor|exact S0].
  - apply Forall_cons_iff in Hc as [Hc1 Hc2]. destruct (step fuel k e c d) as [r d2] eqn:Es.
    destruct (step_safe_api _ _ _ _ S0 Hc1 Es) as [C S1]. rewrite C in E.
    destruct (calls fuel k e cs d2) as [rs2 d3] eqn:Ec. injection E as <- <-. unfold resets_ok in Hr. cbn [combine] in Hr.
    apply Forall_cons_iff in Hr as [Hr1 Hr2]. destruct (IH _ _ _ (S1 Hr1) Hc2 Ec Hr2) as [N S3]. split; [constructor; [exact C|exact N]|exact S3].
Qed.
Lemma sound_create m sch ty : order_kept e sch -> sound (create m sch ty).
Proof. intro H. split; cbn; auto. apply holds_create. Qed.
Lemma sound_getters (d : st) : sound d -> answers (get_mix d) /\ answers (get_channels d) /\ answers (get_rate d) /\ answers (get_size d).
Proof.
  intros [_ Sp Sm _ _ _]. unfold answers, get_mix, get_channels, get_rate, get_size, complete in *. destruct (ds_proc d) as [p|]; cbn [negb]; [|auto].
  destruct Sp as (_ & _ & A1 & A2 & _ & _ & [mix [t s]] & Em). rewrite Em in *. destruct Sm as [A3 _]. unfold answers in *. cbn [fst snd] in A3.
  split; [destruct (api_layout (t, s)); reflexivity|]. split; [destruct (num_channels t s); auto|]. split; [destruct (p_rate p); auto|destruct (p_size p); auto].
Qed.
End Safe.

(* Whatever the calls, in whatever order, with whatever bytes and buffers, also after calls which failed: every call returns, and the
   getters answer.  Excluded: an error from Reset or ResetWithNewMix earlier in the history (F22), and channel reordering (F31). *)
Theorem C48_never_crashes_partial : forall M R (I : descs -> R -> Prop) fuel k (e : env M R) m sch ty cs rs d1,
  (8 <= fuel)%nat -> 2^22 < Z.of_nat k -> sane I e -> order_kept e sch -> Forall call_ok cs ->
  calls fuel k e cs (create m sch ty) = (rs, d1) -> resets_ok cs rs ->
  no_crash rs /\ length rs = length cs /\ answers (get_mix d1) /\ answers (get_channels d1) /\ answers (get_rate d1) /\ answers (get_size d1).
Proof.
  intros M R I fuel k e m sch ty cs rs d1 Hf Hk Hs Ho Hc E Hr.
  destruct (calls_safe I fuel k e Hf Hk Hs cs _ _ _ (sound_create I e m sch ty Ho) Hc E Hr) as [N S1]. split; [exact N|]. split; [|exact (sound_getters I e d1 S1)].
  clear - E N. revert E N. generalize (@create M R m sch ty). revert rs d1. induction cs as [|c cs IH]; intros rs d1 d E N; cbn [calls] in E; [injection E as <- <-; reflexivity|].
  destruct (step fuel k e c d) as [r d2]. destruct (crashed (r_status r)) eqn:C.
  - injection E as <- <-. apply Forall_cons_iff in N as [N _]. congruence.
  - destruct (calls fuel k e cs d2) as [rs2 d3] eqn:Ec. injection E as <- <-. apply Forall_cons_iff in N as [_ N]. cbn [length]. f_equal. eapply IH; eassumption.
Qed.
(* The same for decoders made from descriptors. *)
Theorem C48_never_crashes_from_descriptors_partial : forall M R (I : descs -> R -> Prop) fuel k (e : env M R) m sch ty bytes r0 d0 cs rs d1,
  (8 <= fuel)%nat -> 2^22 < Z.of_nat k -> sane I e -> order_kept e sch -> Forall byteP bytes -> Forall call_ok cs ->
  create_from_descriptors fuel e m sch ty bytes = (r0, d0) -> calls fuel k e cs d0 = (rs, d1) -> resets_ok cs rs ->
  answers r0 /\ no_crash rs /\ answers (get_mix d1) /\ answers (get_channels d1) /\ answers (get_rate d1) /\ answers (get_size d1).
Proof.
  intros M R I fuel k e m sch ty bytes r0 d0 cs rs d1 Hf Hk Hs Ho Hb Hc E0 E Hr. unfold create_from_descriptors in E0.
  pose proof (@sound_create M R I e m sch ty Ho) as S0.
  assert (answers r0 /\ sound I e d0) as [A S1].
  { destruct (holds_push _ _ (so_buf _ _ _ S0) Hb) as [(b1 & Ep & H1)|(er & Ep)]; rewrite Ep in E0.
    2:{ injection E0 as <- <-. split; [reflexivity|]. destruct S0. split; assumption. }
    assert (sound I e (set_fromd (set_buf (create m sch ty) b1) true)) as S1 by (destruct S0; split; assumption).
    destruct (create_processor fuel e _) as [y d2] eqn:Ec. injection E0 as <- <-.
    destruct S1 as [A1 A2 A3 A4 A5 A6]. destruct (create_safe I fuel k e Hf Hs _ _ _ A1 A5 A6 A3 Ec) as (C & H3 & D3 & M3 & P3).
    destruct (create_processor_kept _ _ _ _ _ Ec) as (K1 & K2 & K3 & K4 & K5 & K6 & K7 & K8 & K9 & K10).
    split; [destruct y; try discriminate C; reflexivity|].
    split; try assumption; [|rewrite K7; exact A4|rewrite K3; exact A6].
    destruct y as [[]|er| | |]; try discriminate C; [|rewrite K10 by discriminate; exact Logic.I].
    destruct (K9 eq_refl) as (p & Ep3 & Eg & mm & Em). destruct (P3 eq_refl) as (p' & Ep' & Pq & Pr & Ps & Pi & Pu). rewrite Ep3 in Ep'. injection Ep' as <-.
    rewrite Ep3, K5. split; [exact Eg|]. eauto 15. }
  split; [exact A|]. destruct (calls_safe I fuel k e Hf Hk Hs cs _ _ _ S1 Hc E Hr) as [N S2]. split; [exact N|]. exact (sound_getters I e d1 S2).
Qed.

(* The hypotheses are met: an environment, and histories with garbage, empty and too small buffers, failing calls, calls after the end. *)
Definition big : nat := Z.to_nat 4194305.
Lemma big_ok : 2^22 < Z.of_nat big. Proof. unfold big. rewrite Z2Nat.id by lia. reflexivity. Qed.
Lemma ex_sane : sane (fun _ _ => True) ex_env.
Proof.
  split.
  - intros fromd m c y c' _ _ E. cbn [ex_env e_create] in E. rewrite arun_bind, arun_rcatch in E.
    pose proof (arun_bits (rlit 8 64) c) as Bc.
    assert (c_pos c <= c_pos (snd (arun (rlit 8 64) c)))%nat as Pc.
    { unfold rlit. cbn [rop1 arun]. destruct (aop (OLit 8 64) c) as [[x|er| | |] c2] eqn:Ea; unfold aop in Ea; revert Ea;
        repeat match goal with |- context [if ?b then _ else _] => destruct b end; intro Ea; injection Ea as <- <-; cbn [arun snd c_pos]; lia. }
    destruct (arun (rlit 8 64) c) as [[x|er| | |] c2]; cbn [arun snd] in *; try discriminate E; injection E as <- <-; (split; [reflexivity|]; intros np ins H0; try discriminate H0; injection H0 as <- <-).
    split; [exact Pc|]. split; [|split; [reflexivity|split; [reflexivity|split; [reflexivity|split; [reflexivity|]]]]].
    + exists ex_aes. split; [|vm_compute; reflexivity]. constructor; [intros []|constructor].
    + split; [intros t s H; injection H as <- <-; reflexivity|exact I].
  - intros D r u p _ _. split; [reflexivity|exact I].
Qed.
Definition ex_mess : list (call unit) :=
  [CGet []; CDecode []; CDecode [9]; CGet [0]; CDecode (firstn 12 (concat ex_stream)); CGet [0; 0; 0]; CDecode (skipn 12 (concat ex_stream)); CGet (repeat 0 4);
   CDecode [0; 0; 255; 255]; CGet (repeat 0 4); CDecode [1]; CEnd; CDecode [2]; CGet (repeat 7 9); CEnd].
Example C48_safe_ex : sane (fun _ _ => True) ex_env /\ order_kept ex_env DefaultNoOp /\ Forall call_ok ex_mess /\ 2^22 < Z.of_nat big /\
  exists rs d1, calls 8 big ex_env ex_mess ex_dec = (rs, d1) /\ resets_ok ex_mess rs /\
    In (Err Unknown) (map r_status rs) /\ rendered rs = map ex_frame_at [0; 8; 16].
Proof.
  split; [exact ex_sane|]. split; [left; reflexivity|]. split; [repeat (constructor; [cbn; try (repeat constructor; lia); unfold zlen; cbn; lia|]); constructor|].
  split; [exact big_ok|]. eexists _, _. split; [run|]. split; [repeat constructor; discriminate|]. split; [|run]. cbn. tauto.
Qed.
Example C48_safe_descriptors_ex : exists d0 rs d1,
  create_from_descriptors 8 ex_env tt DefaultNoOp Int16LE [9] = (Ok tt, d0) /\
  let cs := [CDecode [0; 0]; CReset; CDecode (concat ex_stream); CGet [0]; CResetMix tt; CGet []; CDecode (concat ex_stream); CGet (repeat 0 4); CEnd] in
  Forall call_ok cs /\ calls 8 big ex_env cs d0 = (rs, d1) /\ resets_ok cs rs /\ In (Err Unknown) (map r_status rs) /\ rendered rs <> [].
Proof.
  eexists _, _, _. split; [run|]. cbv zeta. split; [repeat (constructor; [cbn; try (repeat constructor; lia); unfold zlen; cbn; lia|]); constructor|].
  split; [run|]. split; [repeat constructor; discriminate|]. split; [cbn; tauto|]. vm_compute. discriminate.
Qed.
