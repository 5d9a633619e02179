(* Facts about ProcessTemporalUnitObu: its effect depends on nothing but the bytes of one OBU and the state. *)
From Verif Require Import Base WriteBuf ReadBuf Leb BufSpec LebSpec BitFacts WriteBufFacts ReadBufFacts LebFacts
  ParseFacts EndToEnd ObuHeader ObuHeaderFacts FrameFacts SeqFacts PureFacts SimpleObus CodecConfig Params Timing ParamManager
  Processor PropsObu.

Ltac pure_tac := repeat (intros; cbv zeta; match goal with
  | |- pure (rb _ _) => apply pure_bind
  | |- pure (RRet _) => constructor
  | |- pure (RFail _) => constructor
  | |- pure (rlit _ _) => apply pure_rlit
  | |- pure rbool => apply pure_rbool
  | |- pure ruleb_sz => apply pure_ruleb_sz
  | |- pure ruleb => apply pure_ruleb
  | |- pure rsigned16 => apply pure_rsigned16
  | |- pure (rspan _) => apply pure_rspan
  | |- pure (rcheck _ _) => apply pure_rcheck
  | |- pure (rres _) => apply pure_rres
  | |- pure (if _ then _ else _) => apply pure_if
  | |- pure (match ?x with _ => _ end) => destruct x
  end).
Lemma pure_header : pure read_header. Proof. unfold read_header. pure_tac. Qed.
Lemma pure_fill : pure fill_header_metadata. Proof. unfold fill_header_metadata. pure_tac. Qed.
Lemma pure_aframe h n : pure (read_aframe h n). Proof. unfold read_aframe. pure_tac. Qed.
Lemma pure_gains f j n : pure (read_gains f j n).
Proof. revert j. induction n as [|n IH]; intro j; cbn [read_gains]; pure_tac; apply IH. Qed.
Lemma pure_layers l : pure (read_layers l).
Proof. induction l as [|b l IH]; cbn [read_layers]; pure_tac; try apply IH; apply pure_gains. Qed.
Lemma pure_pdata k : pure (read_pdata k).
Proof. destruct k; cbn [read_pdata]; pure_tac; try apply pure_layers. unfold read_demix. pure_tac. Qed.
Lemma pure_schedule {A} (p : rprog A) : pure p -> pure (parse_schedule p).
Proof.
  intro Hp. unfold parse_schedule. pure_tac; try exact Hp; try (apply pure_rlist; pure_tac; exact Hp). 
Qed.
Lemma pure_pblock d h n : pure (read_pblock d h n).
Proof.
  unfold read_pblock. pure_tac; [apply pure_rlist, pure_pdata|apply pure_schedule, pure_pdata].
Qed.

(* ---- a payload parser sees only its own bytes ---- *)
Definition same {A} (x y : code + A) : Prop := match x, y with inl _, inl _ => True | inr a, inr b => a = b | _, _ => False end.
Definition lpay {A} (d : rprog A) (w : list bool) : code + (A * list Z) :=
  match prun d w with
  | POk a rest => if (length rest mod 8 =? 0)%nat
                  then match prun (rspan (length rest / 8)) rest with POk f _ => inr (a, f) | _ => inl InvalidArgument end
                  else inl InvalidArgument
  | _ => inl InvalidArgument
  end.

Lemma arun_rcatch {A} (p : rprog A) c :
  arun (rcatch p) c = match arun p c with
                      | (Ok a, c') => (Ok (inr a), c') | (Err e, c') => (Ok (inl e), c')
                      | (Abort, c') => (Abort, c') | (UB, c') => (UB, c') | (Diverge, c') => (Diverge, c') end.
Proof. apply arun_catch. Qed.

Lemma prun_rspan k l : length l = (8 * k)%nat -> exists f, prun (rspan k) l = POk f [].
Proof.
  revert l. induction k as [|k IH]; intros l H; cbn [rspan prun].
  - destruct l; [eauto|discriminate].
  - rewrite prun_bind. unfold rlit, rop1. cbn [prun]. change (legal_width 8 8) with true. cbv iota. change (Z.to_nat 8) with 8%nat.
    replace (8 <=? length l)%nat with true by lia. rewrite prun_bind.
    destruct (IH (skipn 8 l)) as [f E]; [rewrite skipn_length; lia|]. rewrite E. cbn [prun]. eauto.
Qed.

Lemma payload_local {A} (d : rprog A) n c w e :
  pure d -> cok c -> skipn (c_pos c) (c_bits c) = w ++ e -> zlen w = 8 * n ->
  exists x c', arun (rcatch (read_payload n d)) c = (Ok x, c') /\ same x (lpay d w) /\
    c_bits c' = c_bits c /\ c_valid c' = Some true /\
    match x with inr _ => Z.of_nat (c_pos c') = Z.of_nat (c_pos c) + 8 * n | inl _ => True end.
Proof.
  intros Hd Hc Hs Hw. rewrite arun_rcatch. unfold read_payload. rewrite arun_bind, arun_rtell, arun_bind.
  set (c0 := mkC (c_bits c) (c_pos c) (Some true)).
  assert (cok c0) as K0 by exact Hc.
  pose proof (arun_prun d Hd c0 K0) as P. cbn [c_pos c_bits c0] in P. fold c0 in P. rewrite Hs in P.
  destruct (arun_valid d c0 eq_refl) as [V _]. pose proof (arun_bits d c0) as Bd. cbn [c_bits c0] in Bd.
  pose proof (prun_ext d w e) as X. unfold lpay.
  assert (length (c_bits c) = c_pos c + length w + length e)%nat as LL.
  { unfold cok in Hc. pose proof (f_equal (@length bool) Hs) as L. rewrite skipn_length, app_length in L. lia. }
  unfold zlen in Hw.
  destruct (prun d w) as [|er|a r] eqn:E.
  - (* the payload is too short *)
    destruct (prun d (w ++ e)) as [|er|a r].
    + destruct P as [c1 P]. rewrite P in V, Bd |- *. cbn [snd] in V, Bd. eexists _, _. repeat split; assumption.
    + destruct P as [c1 P]. rewrite P in V, Bd |- *. cbn [snd] in V, Bd. eexists _, _. repeat split; assumption.
    + destruct P as [v P]. rewrite P in V |- *. cbn [snd c_valid] in V. subst v. rewrite arun_bind, arun_rtell. cbn [c_pos c_bits c0].
      replace (Z.of_nat (c_pos c) + n * 8 =? Z.of_nat (length (c_bits c) - length r)) with false by lia.
      replace (Z.of_nat (c_pos c) + n * 8 >? Z.of_nat (length (c_bits c) - length r)) with false by lia.
      cbn [arun]. eexists _, _. repeat split.
  - rewrite X in P. destruct P as [c1 P]. rewrite P in V, Bd |- *. cbn [snd] in V, Bd. eexists _, _. repeat split; assumption.
  - rewrite X in P. destruct P as [v P]. rewrite P in V |- *. cbn [snd c_valid] in V. subst v. rewrite arun_bind, arun_rtell. cbn [c_pos c_bits c0].
    destruct (prun_rest _ _ _ _ E) as [u Eu]. pose proof (f_equal (@length bool) Eu) as Lu. rewrite app_length in Lu.
    set (q := (length (c_bits c) - length (r ++ e))%nat).
    assert (q = c_pos c + length u)%nat as Hq by (unfold q; rewrite app_length; lia).
    destruct (Z.of_nat (c_pos c) + n * 8 =? Z.of_nat q) eqn:E1.
    + assert (length r = 0)%nat as L0 by lia. destruct r as [|b r]; [|discriminate]. cbn [length].
      change (0 mod 8 =? 0)%nat with true. change (0 / 8)%nat with O. cbn [rspan prun]. cbn [arun].
      eexists _, _. split; [reflexivity|]. cbn [same c_bits c_valid c_pos]. repeat split. lia.
    + replace (Z.of_nat (c_pos c) + n * 8 >? Z.of_nat q) with true by lia.
      replace (Z.of_nat (c_pos c) + n * 8 - Z.of_nat q) with (Z.of_nat (length r)) by lia.
      destruct (length r mod 8 =? 0)%nat eqn:M.
      * assert (Z.of_nat (length r) mod 8 = 0) as M' by (rewrite Nat.eqb_eq in M; change 8 with (Z.of_nat 8); rewrite <- Nat2Z.inj_mod; lia).
        replace (Z.of_nat (length r) mod 8 =? 0) with true by lia. cbn [negb]. cbv iota. rewrite arun_bind.
        replace (Z.to_nat (Z.of_nat (length r) / 8)) with (length r / 8)%nat by (change 8 with (Z.of_nat 8); rewrite <- Nat2Z.inj_div; lia).
        assert (length r = 8 * (length r / 8))%nat as L8 by (rewrite Nat.eqb_eq in M; pose proof (Nat.div_mod_eq (length r) 8); lia).
        destruct (prun_rspan _ _ L8) as [f F]. rewrite F.
        set (c2 := mkC (c_bits c) q (Some true)).
        assert (cok c2) as K2 by (unfold cok; cbn [c_pos c_bits c2]; lia).
        pose proof (arun_prun _ (pure_rspan (length r / 8)) c2 K2) as P2. cbn [c_pos c_bits c2] in P2. fold c2 in P2.
        assert (skipn q (c_bits c) = r ++ e) as Sk.
        { rewrite Hq, <- skipn_skipn', Hs, Eu, <- app_assoc, skipn_app, skipn_all, Nat.sub_diag. reflexivity. }
        rewrite Sk, (prun_ext_ok _ _ e _ _ F) in P2. destruct P2 as [v P2].
        destruct (arun_valid (rspan (length r / 8)) c2 eq_refl) as [V2 _]. rewrite P2 in V2 |- *. cbn [snd c_valid] in V2. subst v.
        cbn [arun]. eexists _, _. split; [reflexivity|]. cbn [same c_bits c_valid c_pos app]. repeat split. lia.
      * assert (Z.of_nat (length r) mod 8 <> 0) as M' by (rewrite Nat.eqb_neq in M; change 8 with (Z.of_nat 8); rewrite <- Nat2Z.inj_mod; lia).
        replace (Z.of_nat (length r) mod 8 =? 0) with false by lia. cbn [negb arun]. eexists _, _. repeat split.
Qed.

Definition lparse (D : descs) (h : header) (n : Z) (w : list bool) : code + parsed :=
  if is_audio_frame (h_type h) then
    match lpay (read_aframe h n) w with inl c => inl c | inr a => inr (PFrame (fst a)) end
  else if h_type h =? kParameterBlock then
    match prun ruleb w with
    | POk id _ =>
        match m_find id (d_defs D) with
        | None => inl InvalidArgument
        | Some d => match lpay (read_pblock d h n) w with inl c => inl c | inr a => inr (PBlock d (fst a)) end
        end
    | _ => inl InvalidArgument
    end
  else match lpay (read_td h n) w with inl c => inl c | inr _ => inr PDelim end.

(* the parameter ID lies beyond the payload: whatever it is, the block is refused *)
Lemma lpay_pblock_need d h n w : (forall id r, prun ruleb w <> POk id r) -> exists c, lpay (read_pblock d h n) w = inl c.
Proof.
  intro H. unfold lpay, read_pblock. rewrite prun_bind.
  destruct (prun (rres (pd_validate d)) w) as [|c|[] r] eqn:E; [eauto|eauto|].
  assert (r = w) as -> by (destruct (pd_validate d); cbn [rres prun] in E; congruence).
  rewrite prun_bind. destruct (prun ruleb w) as [|c|id r]; [eauto|eauto|]. exfalso. eapply H. reflexivity.
Qed.

Lemma parse_local D h n c w e :
  cok c -> skipn (c_pos c) (c_bits c) = w ++ e -> zlen w = 8 * n ->
  exists x c', arun (parse_payload D h n) c = (Ok x, c') /\ same x (lparse D h n w) /\
    c_bits c' = c_bits c /\ c_valid c' = Some true /\
    match x with inr _ => Z.of_nat (c_pos c') = Z.of_nat (c_pos c) + 8 * n | inl _ => True end.
Proof.
  intros Hc Hs Hw. unfold parse_payload, lparse. destruct (is_audio_frame (h_type h)).
  { rewrite arun_bind. destruct (payload_local _ n c w e (pure_aframe h n) Hc Hs Hw) as (x & c' & E & S & B & V & P).
    rewrite E. cbn [arun]. eexists _, _. split; [reflexivity|].
    destruct x as [?|a], (lpay _ w) as [?|b]; cbn [same] in *; try contradiction; subst; repeat split; assumption. }
  destruct (h_type h =? kParameterBlock).
  - rewrite arun_bind, arun_rcatch. unfold peek_parameter_id. rewrite arun_bind, arun_rtell, arun_bind, arun_rcatch.
    set (c0 := mkC (c_bits c) (c_pos c) (Some true)). assert (cok c0) as K0 by exact Hc.
    pose proof (arun_prun _ pure_ruleb c0 K0) as P. cbn [c_pos c_bits c0] in P. fold c0 in P. rewrite Hs in P.
    destruct (arun_valid ruleb c0 eq_refl) as [V _]. pose proof (arun_bits ruleb c0) as B. cbn [c_bits c0] in B.
    pose proof (prun_ext ruleb w e) as X.
    assert (0 <= Z.of_nat (c_pos c) <= zlen (c_bits c)) as R by (unfold cok, zlen in *; lia).
    assert (forall id c1, arun ruleb c0 = (Ok id, c1) -> c_valid c1 = Some true -> c_bits c1 = c_bits c ->
      same (match m_find id (d_defs D) with
            | None => inl InvalidArgument
            | Some d => match lpay (read_pblock d h n) w with inl c => inl c | inr a => inr (PBlock d (fst a)) end
            end)
           (match prun ruleb w with
            | POk id0 _ => match m_find id0 (d_defs D) with
              | None => inl InvalidArgument
              | Some d => match lpay (read_pblock d h n) w with inl c => inl c | inr a => inr (PBlock d (fst a)) end
              end
            | _ => inl InvalidArgument end)) as Same.
    { intros id c1 Er _ _. destruct (prun ruleb w) as [|er|id0 r0] eqn:Ew.
      - destruct (m_find id (d_defs D)) as [d|]; [|exact I]. destruct (lpay_pblock_need d h n w) as [cc Ec]; [congruence|].
        rewrite Ec. exact I.
      - rewrite X in P. destruct P as [c2 P]. congruence.
      - rewrite X in P. destruct P as [v P]. rewrite P in Er. injection Er as <- _.
        destruct (m_find id0 (d_defs D)) as [d|]; [|exact I]. destruct (lpay _ w); cbn [same]; auto. }
    destruct (arun_valid ruleb c0 eq_refl) as [_ Hr].
    destruct (arun ruleb c0) as [[id|er| | |] [b1 p1 v1]] eqn:Er; cbn [fst snd c_valid c_bits] in *;
      try (destruct Hr as [[? Hr]|[? Hr]]; discriminate); subst v1 b1.
    + specialize (Same id _ eq_refl eq_refl eq_refl).
      rewrite arun_bind, arun_rseek_ok by exact R. rewrite Nat2Z.id. cbn [arun]. fold c0.
      destruct (m_find id (d_defs D)) as [d|] eqn:Ed.
      * rewrite arun_bind.
        destruct (payload_local _ n c0 w e (pure_pblock d h n) K0 Hs Hw) as (x & c' & E & S & B' & V' & P').
        rewrite E. cbn [arun]. eexists _, _. split; [reflexivity|]. split.
        { destruct x as [?|a], (lpay _ w) as [?|b2]; cbn [same] in S; try contradiction; subst; cbn [same] in Same |- *;
            destruct (prun ruleb w); try contradiction; try exact I; try exact Same. }
        repeat split; try assumption. destruct x; auto.
      * cbn [arun]. eexists _, _. split; [reflexivity|]. split; [exact Same|]. repeat split.
    + rewrite arun_bind, arun_rseek_ok by exact R. cbn [arun].
      eexists _, _. split; [reflexivity|]. split; [|repeat split].
      destruct (prun ruleb w) as [|e1|id r]; [exact I|exact I|]. rewrite X in P. destruct P as [v P]. congruence.
  - rewrite arun_bind. assert (pure (read_td h n)) as Pt by constructor.
    destruct (payload_local _ n c w e Pt Hc Hs Hw) as (x & c' & E & S & B & V & P).
    rewrite E. cbn [arun]. eexists _, _. split; [reflexivity|].
    destruct x as [?|a], (lpay _ w) as [?|b]; cbn [same] in *; try contradiction; subst; repeat split; assumption.
Qed.

(* ---- the header ---- *)
Lemma u32_id v : 0 <= v < 2^32 -> u32 v = v.
Proof. apply Z.mod_small. Qed.
Lemma prun_lit_ok n m l v r : prun (rlit n m) l = POk v r -> (length l = Z.to_nat n + length r)%nat.
Proof.
  unfold rlit, rop1. cbn [prun]. destruct (legal_width n m); [|discriminate]. destruct (_ <=? _)%nat eqn:E; [|discriminate].
  intro H. injection H as _ <-. rewrite skipn_length. lia.
Qed.
Lemma prun_bool_ok l v r : prun rbool l = POk v r -> (length l = 1 + length r)%nat.
Proof.
  unfold rbool. rewrite prun_bind. destruct (prun (rlit 1 64) l) as [|c|x r1] eqn:E; try discriminate. cbn [prun].
  intro H. injection H as _ <-. apply prun_lit_ok in E. exact E.
Qed.
Lemma prun_leb_ok l x k r : prun ruleb_sz l = POk (x, k) r -> Z.of_nat (length l) = 8 * k + Z.of_nat (length r) /\ 1 <= k <= 8 /\ 0 <= x < 2^32.
Proof.
  intro E. set (c := mkC l 0 (Some true)). assert (cok c) as K by (unfold cok; cbn; lia).
  pose proof (arun_prun _ pure_ruleb_sz c K) as P. cbn [c_pos c_bits c skipn] in P. fold c in P. rewrite E in P. destruct P as [v P].
  destruct (arun_uleb_ok _ _ _ _ K P) as (lb & rest & _ & _ & _ & Hk & Hk8 & Hx & Hp & _ & _). cbn [c_pos c] in Hp.
  apply prun_rest_len in E. unfold zlen in Hk. lia.
Qed.
Lemma prun_span_ok k l f r : prun (rspan k) l = POk f r -> (length l = 8 * k + length r)%nat /\ length f = k.
Proof.
  revert l f r. induction k as [|k IH]; intros l f r; cbn [rspan prun].
  - intro H. injection H as <- <-. split; [lia|reflexivity].
  - rewrite prun_bind. destruct (prun (rlit 8 8) l) as [|c|x r1] eqn:E; try discriminate. rewrite prun_bind.
    destruct (prun (rspan k) r1) as [|c|f1 r2] eqn:E2; try discriminate. cbn [prun]. intro H. injection H as <- <-.
    apply IH in E2 as [L2 F2]. apply prun_lit_ok in E. change (Z.to_nat 8) with 8%nat in E. cbn [length]. lia.
Qed.

(* an accepted header: where the payload starts and how long it is (unless the extension has more than 4 billion bytes) *)
Lemma header_shape l h n r :
  prun read_header l = POk (h, n) r -> Z.of_nat (length l) < 8 * (2^32 - 64) ->
  exists t total r', prun fill_header_metadata l = POk (t, total) r' /\ t = h_type h /\ 0 <= n /\ 0 <= total <= 2^21 + 10 /\
    Z.of_nat (length l) - Z.of_nat (length r) = 8 * (total - n) /\ Z.of_nat (length l) - Z.of_nat (length r') <= 8 * total.
Proof.
  intros E Hlen. unfold read_header in E. unfold fill_header_metadata. rewrite prun_bind in E; rewrite prun_bind.
  destruct (prun (rlit 5 64) l) as [|c|t r1] eqn:E1; try discriminate. rewrite prun_bind in E; rewrite prun_bind.
  destruct (prun rbool r1) as [|c|red r2] eqn:E2; try discriminate. rewrite prun_bind in E; rewrite prun_bind.
  destruct (prun rbool r2) as [|c|flag r3] eqn:E3; try discriminate. rewrite prun_bind in E; rewrite prun_bind.
  destruct (prun rbool r3) as [|c|ext r4] eqn:E4; try discriminate. rewrite prun_bind in E; rewrite prun_bind.
  destruct (prun ruleb_sz r4) as [|c|[os k] r5] eqn:E5; try discriminate. cbn [fst snd] in E |- *. cbn [prun].
  rewrite prun_bind in E. destruct (under_two_megabytes os k) as [[]|c| | |] eqn:E6; cbn [rres prun] in E; try discriminate.
  rewrite prun_bind in E.
  set (h0 := mkH t red flag 0 0 None) in *.
  destruct (prun (if trimming_flag h0 then _ else _) r5) as [|c|[[te se] [ts ss]] r6] eqn:E7; try discriminate.
  rewrite prun_bind in E. cbn [fst snd] in E.
  destruct (prun (if ext then ruleb_sz else RRet (0, 0)) r6) as [|c|[es kes] r7] eqn:E8; try discriminate. cbn [fst snd] in E.
  rewrite prun_bind in E. set (pay := obu_payload_size os se ss kes es) in *.
  destruct (pay <? 0) eqn:E9; cbn [negb rcheck prun] in E; [discriminate|].
  rewrite prun_bind in E.
  destruct (prun (if ext then _ else _) r7) as [|c|eb r8] eqn:E10; try discriminate.
  rewrite prun_bind in E. destruct (header_validate _) as [[]|c| | |]; cbn [rres prun] in E; try discriminate.
  injection E as <- <- <-.
  apply prun_lit_ok in E1. apply prun_bool_ok in E2. apply prun_bool_ok in E3. apply prun_bool_ok in E4. change (Z.to_nat 5) with 5%nat in E1.
  apply prun_leb_ok in E5 as (L5 & K5 & O5).
  assert (0 <= se <= 8 /\ 0 <= ss <= 8 /\ Z.of_nat (length r5) = 8 * (se + ss) + Z.of_nat (length r6)) as (Hse & Hss & L6).
  { destruct (trimming_flag h0).
    - rewrite prun_bind in E7. destruct (prun ruleb_sz r5) as [|c|[a ka] ra] eqn:Ea; try discriminate. rewrite prun_bind in E7.
      destruct (prun ruleb_sz ra) as [|c|[b kb] rb'] eqn:Eb; try discriminate. cbn [prun] in E7. injection E7 as <- <- <- <- <-.
      apply prun_leb_ok in Ea as (La & Ka & _). apply prun_leb_ok in Eb as (Lb & Kb & _). lia.
    - cbn [prun] in E7. injection E7 as <- <- <- <- <-. lia. }
  assert (0 <= kes <= 8 /\ 0 <= es /\ es + 64 < 2^32 /\ Z.of_nat (length r6) = 8 * (kes + es) + Z.of_nat (length r8)) as (Hk & He & He2 & L8).
  { destruct ext.
    - apply prun_leb_ok in E8 as (La & Ka & Oa). rewrite prun_bind in E10.
      destruct (prun (rspan _) r7) as [|c|f rf] eqn:Ef; try discriminate. cbn [prun] in E10. injection E10 as <- <-.
      apply prun_span_ok in Ef as [Lf _]. change (2^32) with 4294967296 in *. lia.
    - cbn [prun] in E8, E10. injection E8 as <- <- <-. injection E10 as _ <-. change (2^32) with 4294967296. lia. }
  unfold under_two_megabytes in E6. replace (k <=? 8) with true in E6 by lia.
  assert (u32 (2^21 - 1 - k) = 2^21 - 1 - k) as Hu by (apply u32_id; change (2^32) with 4294967296; change (2^21) with 2097152; lia).
  rewrite Hu in E6. change (2^21) with 2097152 in *. destruct (os >? 2097152 - 1 - k) eqn:E11; [discriminate|].
  assert (pay = os - (se + ss + kes + es)) as Hpay.
  { unfold pay, obu_payload_size. rewrite u32_id; [reflexivity|change (2^32) with 4294967296 in *; lia]. }
  eexists _, _, _. split; [reflexivity|]. cbn [h_type]. split; [reflexivity|].
  rewrite u32_id by (change (2^32) with 4294967296; lia). lia.
Qed.

(* headers read only the OBU's own bytes *)
Lemma header_window o e h n r t total r' :
  prun fill_header_metadata o = POk (t, total) r' -> zlen o = 8 * total -> Z.of_nat (length (o ++ e)) < 8 * (2^32 - 64) ->
  prun read_header (o ++ e) = POk (h, n) r -> exists w, prun read_header o = POk (h, n) w /\ r = w ++ e /\ zlen w = 8 * n.
Proof.
  intros Ef Ho Hl E. unfold zlen in *. pose proof Ef as Ef'. apply (prun_ext_ok _ _ e) in Ef'.
  destruct (header_shape _ _ _ _ E Hl) as (t2 & total2 & r2 & E2 & _ & Hn & Ht & L2 & _). rewrite Ef' in E2. injection E2 as <- <- _.
  pose proof (prun_ext read_header o e) as X. rewrite app_length in *.
  destruct (prun read_header o) as [|c|[h0 n0] w] eqn:Eo.
  - rewrite E in X. lia.
  - rewrite E in X. discriminate.
  - rewrite E in X. injection X as <- <- ->. exists w. split; [reflexivity|]. split; [reflexivity|]. rewrite app_length in L2. lia.
Qed.

(* ---- one OBU ---- *)
Inductive cls := CWait | CBad | CDone (advance : Z) (o : pout).
Definition effect (D : descs) (s : pst) (h : header) (n total : Z) (w : list bool) : cls :=
  if temporal_unit_type (h_type h) then
    let '(st, s1, it) := store D s h (lparse D h n w) in
    match st with
    | Ok _ | Err _ => CDone total (mkOut (Ok tt) s1 it true)
    | _ => CDone total (mkOut st s1 it false)
    end
  else if (h_type h =? kSequenceHeader) && negb (h_red h) then CDone 0 (mkOut (Ok tt) s INone false)
  else if (h_type h =? kSequenceHeader) || (h_type h =? kCodecConfig) || (h_type h =? kAudioElement) || (h_type h =? kMixPresentation) then
    if h_red h then CDone total (mkOut (Ok tt) s INone true) else CBad
  else CDone total (mkOut (Ok tt) s INone true).
Definition classify (D : descs) (s : pst) (l : list Z) : cls :=
  match prun fill_header_metadata (bytes_bits l) with
  | PNeed => CWait
  | PErr _ => CBad
  | POk (_, total) _ =>
      if zlen l <? total then CWait
      else match prun read_header (bytes_bits (firstn (Z.to_nat total) l)) with
           | POk (h, n) w => effect D s h n total w
           | _ => CBad
           end
  end.

Lemma leb_err k le mx i acc l c : prun (rleb_loop k le mx i acc) l = PErr c -> c = InvalidArgument.
Proof.
  revert i acc l. induction k as [|k IH]; intros i acc l; cbn [rleb_loop prun]; [discriminate|]. rewrite prun_bind.
  destruct (prun (rlit 8 64) l) as [|e|v r] eqn:E; try discriminate.
  - unfold rlit, rop1 in E. cbn [prun] in E. change (legal_width 8 64) with true in E. cbv iota in E.
    destruct (_ <=? _)%nat in E; discriminate.
  - cbv zeta. destruct (_ && _); [cbn [prun]; congruence|]. destruct (_ >? _); [cbn [prun]; congruence|].
    destruct (_ =? 0); [discriminate|]. apply IH.
Qed.
Lemma lit_err n l c : legal_width n 64 = true -> prun (rlit n 64) l <> PErr c.
Proof. intro W. unfold rlit, rop1. cbn [prun]. rewrite W. destruct (_ <=? _)%nat; discriminate. Qed.
Lemma bool_err l c : prun rbool l <> PErr c.
Proof.
  unfold rbool. rewrite prun_bind. pose proof (lit_err 1 l c eq_refl). destruct (prun (rlit 1 64) l); cbn [prun]; congruence.
Qed.
Lemma fill_err l c : prun fill_header_metadata l = PErr c -> c = InvalidArgument.
Proof.
  unfold fill_header_metadata. rewrite prun_bind. pose proof (fun c => lit_err 5 l c eq_refl) as H0.
  destruct (prun (rlit 5 64) l) as [|e|t r1]; [discriminate|exfalso; eapply H0; reflexivity|].
  rewrite prun_bind. pose proof (bool_err r1) as H1. destruct (prun rbool r1) as [|e|x r2]; [discriminate|exfalso; eapply H1; reflexivity|].
  rewrite prun_bind. pose proof (bool_err r2) as H2. destruct (prun rbool r2) as [|e|y r3]; [discriminate|exfalso; eapply H2; reflexivity|].
  rewrite prun_bind. pose proof (bool_err r3) as H3. destruct (prun rbool r3) as [|e|z r4]; [discriminate|exfalso; eapply H3; reflexivity|].
  rewrite prun_bind. destruct (prun ruleb_sz r4) as [|e|os r5] eqn:E; cbn [prun]; try discriminate.
  intro H. injection H as <-. eapply leb_err. exact E.
Qed.

Lemma fill_total l t total r : prun fill_header_metadata l = POk (t, total) r -> 0 <= total.
Proof.
  unfold fill_header_metadata. rewrite prun_bind. destruct (prun (rlit 5 64) l) as [|e|t0 r1]; try discriminate.
  rewrite prun_bind. destruct (prun rbool r1) as [|e|x r2]; try discriminate.
  rewrite prun_bind. destruct (prun rbool r2) as [|e|y r3]; try discriminate.
  rewrite prun_bind. destruct (prun rbool r3) as [|e|z r4]; try discriminate.
  rewrite prun_bind. destruct (prun ruleb_sz r4) as [|e|os r5] eqn:E; cbn [prun]; try discriminate.
  intro H. injection H as _ <- _. apply Z.mod_pos_bound. reflexivity.
Qed.

Lemma store_same D s h x y : same x y ->
  store D s h x = store D s h y \/ exists a b, store D s h x = (Err a, s, INone) /\ store D s h y = (Err b, s, INone).
Proof. destruct x, y; cbn [same]; try contradiction; [right; cbn [store]; eauto|intros ->; left; reflexivity]. Qed.

Lemma arun_rignore bs pos v n : 0 <= n -> Z.of_nat pos + 8 * n <= zlen bs ->
  arun (rignore n) (mkC bs pos v) = (Ok tt, mkC bs (Z.to_nat (Z.of_nat pos + 8 * n)) (Some true)).
Proof.
  intros Hn H. unfold rignore. rewrite arun_bind, arun_rtell. cbn [c_bits c_pos].
  rewrite arun_rseek_ok by lia. do 2 f_equal. lia.
Qed.

Lemma step_spec D s c l :
  cok c -> skipn (c_pos c) (c_bits c) = bytes_bits l -> zlen l < 2^32 - 64 ->
  match classify D s l with
  | CWait => arun (proc_obu D s) c = (Ok (mkOut (Ok tt) s INone false), mkC (c_bits c) (c_pos c) (Some true))
  | CBad => exists e c', arun (proc_obu D s) c = (Err e, c')
  | CDone adv o => exists c', arun (proc_obu D s) c = (Ok o, c') /\ c_bits c' = c_bits c /\ 0 <= adv <= zlen l /\
      (po_status o = Ok tt -> Z.of_nat (c_pos c') = Z.of_nat (c_pos c) + 8 * adv /\ c_valid c' = Some true)
  end.
Proof.
  intros Hc Hs Hl.
  assert (length (c_bits c) = c_pos c + 8 * length l)%nat as LL.
  { unfold cok in Hc. pose proof (f_equal (@length bool) Hs) as L. rewrite skipn_length, bytes_bits_length in L. lia. }
  unfold classify. set (c0 := mkC (c_bits c) (c_pos c) (Some true)).
  assert (cok c0) as K0 by exact Hc.
  pose proof (arun_prun _ pure_fill c0 K0) as P. cbn [c_pos c_bits c0] in P. fold c0 in P. rewrite Hs in P.
  pose proof (fill_err (bytes_bits l)) as FE. pose proof (fill_total (bytes_bits l)) as FT.
  destruct (prun fill_header_metadata (bytes_bits l)) as [|er|[t total] r'] eqn:Ef; unfold proc_obu; rewrite arun_bind, arun_rcatch, (arun_peek c Hc); fold c0.
  - destruct P as [c' P]. rewrite P. reflexivity.
  - destruct P as [c' P]. rewrite P. rewrite (FE er eq_refl). eexists _, _. reflexivity.
  - destruct P as [v P]. rewrite P. specialize (FT _ _ _ eq_refl). cbn [snd]. rewrite arun_bind.
    assert (arun ravail c0 = (Ok (zlen l), c0)) as Ea.
    { unfold ravail, rop1. cbn [arun aop]. unfold c_left. cbn [c_pos c_bits c0]. rewrite LL.
      replace (c_pos c + 8 * length l - c_pos c)%nat with (8 * length l)%nat by lia. unfold zlen.
      replace (Z.of_nat (8 * length l)) with (Z.of_nat (length l) * 8) by lia. rewrite Z.div_mul by discriminate. reflexivity. }
    rewrite Ea. destruct (zlen l <? total) eqn:Et; [reflexivity|].
    rewrite arun_bind, arun_rtell. cbn [c_bits c_pos c0]. fold c0. rewrite arun_bind.
    set (o := firstn (Z.to_nat total) l). set (e := skipn (Z.to_nat total) l).
    assert (l = o ++ e) as El by (symmetry; apply firstn_skipn).
    assert (bytes_bits l = bytes_bits o ++ bytes_bits e) as Eb by (rewrite El at 1; apply bytes_bits_app).
    assert (Z.of_nat (length o) = total) as Lo by (unfold o, zlen in *; rewrite firstn_length; lia).
    assert (zlen (bytes_bits o) = 8 * total) as Lo8 by (unfold zlen; rewrite bytes_bits_length; lia).
    assert (Z.of_nat (length (bytes_bits l)) < 8 * (2^32 - 64)) as Hl8 by (rewrite bytes_bits_length; unfold zlen in Hl; lia).
    assert (exists r2, prun fill_header_metadata (bytes_bits o) = POk (t, total) r2 \/ (forall h n r, prun read_header (bytes_bits l) <> POk (h, n) r)) as [r2 Fo].
    { destruct (prun read_header (bytes_bits l)) as [|er|[h n] r] eqn:Eh; try (exists []; right; congruence).
      destruct (header_shape _ _ _ _ Eh Hl8) as (t2 & total2 & r2 & E2 & _ & Hn & Ht & L2 & L3). rewrite Ef in E2. injection E2 as <- <- <-.
      pose proof (prun_ext fill_header_metadata (bytes_bits o) (bytes_bits e)) as X. rewrite <- Eb, Ef in X.
      destruct (prun fill_header_metadata (bytes_bits o)) as [|er|[ta tb] ra]; try discriminate.
      - exfalso. rewrite Eb, app_length in L3. unfold zlen in Lo8. lia.
      - injection X as <- <- _. exists ra. left. reflexivity. }
    pose proof (arun_prun _ pure_header c0 K0) as Ph. cbn [c_pos c_bits c0] in Ph. fold c0 in Ph. rewrite Hs in Ph.
    destruct (arun_valid read_header c0 eq_refl) as [Vh _]. pose proof (arun_bits read_header c0) as Bh.
    pose proof (prun_ext read_header (bytes_bits o) (bytes_bits e)) as X. rewrite <- Eb in X.
    destruct (prun read_header (bytes_bits l)) as [|er|[h n] r] eqn:Eh.
    { destruct Ph as [c' Ph]. rewrite Ph.
      destruct (prun read_header (bytes_bits o)) as [|?|[? ?] ?]; try discriminate; eexists _, _; reflexivity. }
    { destruct Ph as [c' Ph]. rewrite Ph.
      destruct (prun read_header (bytes_bits o)) as [|?|[? ?] ?]; try discriminate; eexists _, _; reflexivity. }
    destruct Fo as [Fo|Fo]; [|exfalso; eapply Fo; reflexivity].
    assert (Z.of_nat (length (bytes_bits o ++ bytes_bits e)) < 8 * (2^32 - 64)) as Hl9 by (rewrite <- Eb; exact Hl8).
    pose proof Eh as Eh2. rewrite Eb in Eh2.
    destruct (header_window _ _ _ _ _ _ _ _ Fo Lo8 Hl9 Eh2) as (w & Ew & -> & Hw). rewrite Ew.
    destruct (header_shape _ _ _ _ Ew ltac:(rewrite app_length in Hl9; lia)) as (t3 & total3 & r3 & E3 & _ & Hn & Ht & L4 & _).
    rewrite Fo in E3. injection E3 as <- <- <-.
    destruct Ph as [v2 Ph]. rewrite Ph in Vh, Bh |- *. cbn [snd c_valid c_bits] in Vh. subst v2. clear Bh.
    assert (0 <= n <= total) as Hnt by (unfold zlen in Lo8, Hw; pose proof (prun_rest_len _ _ _ _ Ew); lia).
    set (q := (length (c_bits c) - length (w ++ bytes_bits e))%nat).
    assert (Z.of_nat q = Z.of_nat (c_pos c) + 8 * (total - n)) as Hq.
    { unfold q, zlen in *. rewrite app_length. rewrite !bytes_bits_length in *.
      assert (length l = length o + length e)%nat by (rewrite El at 1; apply app_length). lia. }
    assert (Z.of_nat (length l) = total + Z.of_nat (length e)) as Lt
      by (assert (length l = length o + length e)%nat by (rewrite El at 1; apply app_length); lia).
    assert (0 <= Z.of_nat (c_pos c) <= zlen (c_bits c)) as R0 by (unfold cok, zlen in *; lia).
    assert (Z.of_nat q + 8 * n <= zlen (c_bits c)) as Rq by (unfold zlen; lia).
    assert (0 <= total <= zlen l) as Rt by (unfold zlen; lia).
    cbn [fst snd]. unfold effect. destruct (temporal_unit_type (h_type h)).
    + rewrite arun_bind. set (c1 := mkC (c_bits c) q (Some true)).
      assert (cok c1) as K1 by (unfold cok, zlen in *; cbn [c_pos c_bits c1]; lia).
      assert (skipn (c_pos c1) (c_bits c1) = w ++ bytes_bits e) as S1.
      { cbn [c_pos c_bits c1]. destruct (prun_rest _ _ _ _ Ew) as [u Eu].
        replace q with (c_pos c + length u)%nat.
        - rewrite <- skipn_skipn', Hs, Eb, Eu, <- app_assoc, skipn_app, skipn_all, Nat.sub_diag. reflexivity.
        - unfold q. rewrite app_length, LL. pose proof (f_equal (@length bool) Eb) as Q. pose proof (f_equal (@length bool) Eu) as Q2.
          rewrite app_length in Q, Q2. rewrite bytes_bits_length in Q. lia. }
      destruct (parse_local D h n c1 w (bytes_bits e) K1 S1 Hw) as (x & c2 & E2 & Sx & B2 & V2 & P2). rewrite E2.
      destruct c2 as [b2 p2 v2]. cbn [c_bits c_valid c_pos c1] in B2, V2, P2. subst b2 v2.
      assert (arun (rseek (Z.of_nat (c_pos c));;; rignore total) (mkC (c_bits c) p2 (Some true)) =
              (Ok tt, mkC (c_bits c) (Z.to_nat (Z.of_nat (c_pos c) + 8 * total)) (Some true))) as Eskip.
      { rewrite arun_bind, arun_rseek_ok by exact R0. rewrite Nat2Z.id, arun_rignore by (unfold zlen in *; lia). reflexivity. }
      destruct (store_same D s h _ _ Sx) as [Es|(a & b & Ex & Ey)].
      * rewrite Es. destruct (store D s h (lparse D h n w)) as [[st s1] it] eqn:Est. destruct st as [[]|er| | |].
        -- cbn [arun]. eexists. split; [reflexivity|]. cbn [c_bits c_pos c_valid po_status]. split; [reflexivity|]. split; [exact Rt|].
           intros _. split; [|reflexivity]. destruct x as [er|y]; [|lia]. cbn [store] in Es. discriminate.
        -- rewrite arun_bind, arun_rcatch, Eskip. cbn [arun]. eexists. split; [reflexivity|]. cbn [c_bits c_pos c_valid po_status].
           split; [reflexivity|]. split; [exact Rt|]. intros _. split; [lia|reflexivity].
        -- cbn [arun]. eexists. split; [reflexivity|]. cbn [c_bits po_status]. split; [reflexivity|]. split; [exact Rt|]. discriminate.
        -- cbn [arun]. eexists. split; [reflexivity|]. cbn [c_bits po_status]. split; [reflexivity|]. split; [exact Rt|]. discriminate.
        -- cbn [arun]. eexists. split; [reflexivity|]. cbn [c_bits po_status]. split; [reflexivity|]. split; [exact Rt|]. discriminate.
      * rewrite Ex, Ey. rewrite arun_bind, arun_rcatch, Eskip. cbn [arun]. eexists. split; [reflexivity|]. cbn [c_bits c_pos c_valid po_status].
        split; [reflexivity|]. split; [exact Rt|]. intros _. split; [lia|reflexivity].
    + destruct ((h_type h =? kSequenceHeader) && negb (h_red h)).
      { rewrite arun_bind, arun_rseek_ok by exact R0. rewrite Nat2Z.id. cbn [arun]. eexists. split; [reflexivity|].
        cbn [c_bits c_pos c_valid po_status]. split; [reflexivity|]. split; [lia|]. intros _. split; [lia|reflexivity]. }
      destruct (_ || _ || _ || _).
      { destruct (h_red h); cbn [rcheck rb]; [|cbn [arun]; eexists _, _; reflexivity].
        rewrite arun_bind, arun_rignore by lia. cbn [arun]. eexists. split; [reflexivity|]. cbn [c_bits c_pos c_valid po_status].
        split; [reflexivity|]. split; [exact Rt|]. intros _. split; [lia|reflexivity]. }
      rewrite arun_bind, arun_rignore by lia. cbn [arun]. eexists. split; [reflexivity|]. cbn [c_bits c_pos c_valid po_status].
      split; [reflexivity|]. split; [exact Rt|]. intros _. split; [lia|reflexivity].
Qed.
