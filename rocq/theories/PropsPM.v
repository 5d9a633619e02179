(* C27, C39: demixing and recon gain parameters over arbitrary histories of the parameters manager. *)
From Verif Require Import Base WriteBuf CodecConfig Params Timing PropsTiming ParamManager.

(* ================= SPEC ================= *)
(* IAMF 3.8.2 / 7.2.2: coefficients (thousandths) and weight offset of each down-mix mode *)
Definition spec_mode (m : Z) : option (Z * Z * Z * Z * Z) :=
  match m with
  | 0 => Some (1000, 1000, 707, 707, -1) | 1 => Some (707, 707, 707, 707, -1) | 2 => Some (1000, 866, 866, 866, -1)
  | 4 => Some (1000, 1000, 707, 707, 1)  | 5 => Some (707, 707, 707, 707, 1)  | 6 => Some (1000, 866, 866, 866, 1)
  | _ => None
  end.
Definition spec_w (i : Z) : option Z := (* ten-thousandths *)
  match i with 0 => Some 0 | 1 => Some 179 | 2 => Some 391 | 3 => Some 658 | 4 => Some 1038 | 5 => Some 2500 | 6 => Some 3962
             | 7 => Some 4342 | 8 => Some 4609 | 9 => Some 4821 | 10 => Some 5000 | _ => None end.
Definition offset (m : Z) : Z := match spec_mode m with Some (_, _, _, _, o) => o | None => 0 end.
(* w(0) = 0, w(k) = Clip3(0, 10, w(k-1) + offset(mode k)); [ms]: the modes of the frames so far, oldest first *)
Definition clip (x : Z) : Z := if x <? 0 then 0 else if 10 <? x then 10 else x.
Definition widx (ms : list Z) : Z := match ms with [] => 0 | _ :: t => fold_left (fun w m => clip (w + offset m)) t 0 end.
Definition spec_params (m i : Z) : res dmix :=
  match spec_mode m, spec_w i with
  | Some (a, b, c, d, o), Some w => Ok (mkDmix a b c d o i w true)
  | _, _ => Err InvalidArgument
  end.

(* ---- histories ---- *)
Inductive op := AddD (b : pbd) | AddR (b : pbd) | GetD (ae : Z) | GetR (ae num_layers : Z) | UpdD (ae t : Z) | UpdR (ae t : Z).
Definition step_pm (m : pm) (o : op) : pm :=
  match o with
  | AddD b => add_demixing m b | AddR b => add_recon m b | GetD ae => snd (get_down_mixing m ae) | GetR _ _ => m
  | UpdD ae t => snd (update_demixing m ae t) | UpdR ae t => snd (update_recon m ae t)
  end.
Definition after_pm (m : pm) (h : list op) : pm := fold_left step_pm h m.
(* the part of a history that concerns one audio element and its parameter ID *)
Inductive lop := LAdd (b : pbd) | LGet | LUpd (t : Z).
Definition demixing_part (ae pid : Z) (o : op) : list lop :=
  match o with
  | AddD b => if p_id b =? pid then [LAdd b] else []
  | GetD a => if a =? ae then [LGet] else []
  | UpdD a t => if a =? ae then [LUpd t] else []
  | _ => []
  end.
Definition recon_part (ae pid : Z) (o : op) : list lop :=
  match o with
  | AddR b => if p_id b =? pid then [LAdd b] else []
  | UpdR a t => if a =? ae then [LUpd t] else []
  | _ => []
  end.
(* the subblock of a demixing parameter block *)
Definition has_mode (b : pbd) (m : Z) : Prop := exists r l, p_subs b = Some (DDemix m r) :: l.
(* completed frames: with a parameter block that continues where the last one ended (the last one added counts), queried at
   least once and then updated; or without a parameter block *)
Inductive frames : list lop -> list Z -> Z -> Prop :=
| frames_nil : frames [] [] 0
| frames_block h ms t adds b m n : frames h ms t -> p_start b = t -> has_mode b m -> spec_mode m <> None ->
    frames (h ++ map LAdd adds ++ [LAdd b] ++ repeat LGet (S n) ++ [LUpd (p_stop b)]) (ms ++ [m]) (p_stop b)
| frames_none h ms t n e : frames h ms t -> frames (h ++ repeat LGet n ++ [LUpd e]) ms t.
Definition is_demixing (pid mode w : Z) (d : pdef) : Prop := exists r r2, pd_kind d = KDemixing mode r w r2 /\ pb_id (pd_base d) = pid.
Definition is_recon (pid : Z) (d : pdef) : Prop := exists f, pd_kind d = KRecon f /\ pb_id (pd_base d) = pid.
(* the parameter ID of element ae's demixing definition is used by no other element's demixing definition *)
Definition unshared (aes : list (Z * list pdef)) (ae pid : Z) : Prop :=
  forall a defs d m w, In (a, defs) aes -> In d defs -> is_demixing pid m w d -> a = ae.
Definition unshared_recon (aes : list (Z * list pdef)) (ae pid : Z) : Prop :=
  forall a defs d, In (a, defs) aes -> In d defs -> is_recon pid d -> a = ae.

(* ================= facts ================= *)
Lemma find_put {V} k k' (v : V) m : m_find k' (m_put k v m) = if k =? k' then Some v else m_find k' m.
Proof.
  unfold m_put. destruct (m_find k m) as [x|] eqn:E.
  - rewrite find_set, E. reflexivity.
  - rewrite find_app. destruct (k =? k') eqn:F; [replace k' with k by lia; rewrite E; reflexivity|]. destruct (m_find k' m); reflexivity.
Qed.
Lemma find_insert {V} k k' (v : V) m : m_find k' (m_insert k v m) = match m_find k' m with Some x => Some x | None => if k =? k' then Some v else None end.
Proof.
  unfold m_insert. destruct (m_find k m) as [x|] eqn:E.
  - destruct (m_find k' m) eqn:F; [reflexivity|]. destruct (k =? k') eqn:G; [replace k' with k in F by lia; congruence|reflexivity].
  - rewrite find_app. reflexivity.
Qed.
Lemma mode_to_params_spec m prev r :
  mode_to_params m prev r = spec_params m (match r with Normal => clip (prev + offset m) | FirstFrame => 0 | Default => prev end).
Proof.
  unfold mode_to_params, spec_params, offset.
  assert (m_find m mode_table = spec_mode m) as ->.
  { unfold mode_table, spec_mode. cbn [m_find]. destruct m as [|m|m]; try reflexivity. do 3 (try destruct m as [m|m|]; try reflexivity). }
  destruct (spec_mode m) as [[[[[a b] c] d] o]|]; [|reflexivity].
  assert (forall i, m_find i w_table = spec_w i) as W.
  { intro i. unfold w_table, spec_w. cbn [m_find]. destruct i as [|p|p]; try reflexivity. do 4 (try destruct p as [p|p|]; try reflexivity). }
  assert (Z.max 0 (Z.min 10 (prev + o)) = clip (prev + o)) as -> by (unfold clip; destruct (prev + o <? 0) eqn:A; destruct (10 <? prev + o) eqn:B; lia).
  rewrite W. reflexivity.
Qed.
Lemma widx_range ms : 0 <= widx ms <= 10.
Proof.
  unfold widx. destruct ms as [|x t]; [lia|]. enough (forall w, 0 <= w <= 10 -> 0 <= fold_left (fun w m => clip (w + offset m)) t w <= 10) by (apply H; lia).
  clear x. induction t as [|m t IH]; intros w Hw; cbn [fold_left]; [exact Hw|]. apply IH. unfold clip. destruct (w + offset m <? 0) eqn:A; [lia|]. destruct (10 <? w + offset m) eqn:B; lia.
Qed.
Lemma widx_snoc ms m : widx (ms ++ [m]) = match ms with [] => 0 | _ => clip (widx ms + offset m) end.
Proof. destruct ms as [|x t]; [reflexivity|]. cbn [app widx]. rewrite fold_left_app. reflexivity. Qed.
Lemma spec_w_range i : 0 <= i <= 10 <-> spec_w i <> None.
Proof.
  split.
  - intro H. assert (In i [0;1;2;3;4;5;6;7;8;9;10]) as I by (cbn [In]; lia). cbn [In] in I. repeat (destruct I as [<-|I]; [discriminate|]). contradiction.
  - unfold spec_w. destruct i as [|p|p]; try lia; [|contradiction]. intro H.
    destruct (Z_le_gt_dec (Z.pos p) 10) as [L|L]; [lia|]. exfalso. apply H. do 4 (try destruct p as [p|p|]; try reflexivity; try lia).
Qed.

(* ---- one audio element in isolation ---- *)
Definition lget (s : dstate) (blk : option pbd) : res dmix * dstate :=
  match blk with
  | None => (mode_to_params (ds_mode s) (ds_w s) Default, s)
  | Some b =>
      if ds_next s =? p_start b then
        match p_subs b with
        | Some (DDemix mode _) :: _ =>
            match mode_to_params mode (ds_prev s) (ds_rule s) with
            | Ok x => (Ok x, mkDs (ds_pid s) (ds_mode s) (ds_w s) (ds_prev s) (dx_widx x) (ds_next s) (ds_rule s))
            | r => (r, s) end
        | _ => (UB, s)
        end
      else (Err InvalidArgument, s)
  end.
Definition lupd (s : dstate) (blk : option pbd) (t : Z) : dstate * option pbd :=
  match blk with
  | None => (s, None)
  | Some b =>
      if t =? p_stop b
      then (mkDs (ds_pid s) (ds_mode s) (ds_w s) (ds_cur s) (ds_cur s) (p_stop b) (match ds_rule s with FirstFrame => Normal | x => x end), None)
      else (mkDs (ds_pid s) (ds_mode s) (ds_w s) (ds_prev s) (ds_cur s) (p_stop b) (ds_rule s), Some b)
  end.
Definition lstep (v : dstate * option pbd) (o : lop) : dstate * option pbd :=
  match o with
  | LAdd b => (fst v, Some b)
  | LGet => (snd (lget (fst v) (snd v)), snd v)
  | LUpd t => lupd (fst v) (snd v) t
  end.
Definition view (m : pm) (ae : Z) (v : dstate * option pbd) : Prop :=
  m_find ae (pm_ds m) = Some (fst v) /\ m_find (ds_pid (fst v)) (pm_db m) = Some (snd v) /\
  forall a s, m_find a (pm_ds m) = Some s -> a <> ae -> ds_pid s <> ds_pid (fst v).
Lemma get_view m ae s blk : view m ae (s, blk) -> fst (get_down_mixing m ae) = fst (lget s blk).
Proof.
  intros (V1 & V2 & _). cbn [fst snd] in *. unfold get_down_mixing, lget, compare_timestamps, veq, vcond. rewrite V1, V2. destruct blk as [b|]; [|reflexivity].
  destruct (ds_next s =? p_start b); [|reflexivity]. destruct (p_subs b) as [|[[]|] ?]; try reflexivity. destruct (mode_to_params _ _ _); reflexivity.
Qed.
Lemma lget_pid s blk : ds_pid (snd (lget s blk)) = ds_pid s.
Proof.
  unfold lget. destruct blk as [b|]; [|reflexivity]. destruct (_ =? _); [|reflexivity]. destruct (p_subs b) as [|[[]|] ?]; try reflexivity. destruct (mode_to_params _ _ _); reflexivity.
Qed.
Lemma get_snd m ae : exists s', snd (get_down_mixing m ae) = m \/ (snd (get_down_mixing m ae) = mkPm (pm_db m) (pm_rb m) (m_set ae s' (pm_ds m)) (pm_rs m) /\
   exists s, m_find ae (pm_ds m) = Some s /\ ds_pid s' = ds_pid s).
Proof.
  unfold get_down_mixing. destruct (m_find ae (pm_ds m)) as [s|] eqn:E; [|exists (mkDs 0 0 0 0 0 0 Normal); left; reflexivity].
  exists (match m_find (ds_pid s) (pm_db m) with Some (Some b) => match p_subs b with Some (DDemix mode _) :: _ => match mode_to_params mode (ds_prev s) (ds_rule s) with
     Ok x => mkDs (ds_pid s) (ds_mode s) (ds_w s) (ds_prev s) (dx_widx x) (ds_next s) (ds_rule s) | _ => s end | _ => s end | _ => s end).
  destruct (m_find (ds_pid s) (pm_db m)) as [[b|]|]; try (left; reflexivity). destruct (compare_timestamps _ _); try (left; reflexivity).
  destruct (p_subs b) as [|[[]|] ?]; try (left; reflexivity). destruct (mode_to_params _ _ _); try (left; reflexivity). right. split; [reflexivity|]. exists s. split; reflexivity.
Qed.
Lemma get_snd_view m ae s blk : view m ae (s, blk) -> m_find ae (pm_ds (snd (get_down_mixing m ae))) = Some (snd (lget s blk)) /\ pm_db (snd (get_down_mixing m ae)) = pm_db m.
Proof.
  intros (V1 & V2 & _). cbn [fst snd] in *. unfold get_down_mixing, lget, compare_timestamps, veq, vcond. rewrite V1, V2. destruct blk as [b|]; [|split; [exact V1|reflexivity]].
  destruct (ds_next s =? p_start b); [|split; [exact V1|reflexivity]]. destruct (p_subs b) as [|[[]|] ?]; try (split; [exact V1|reflexivity]).
  destruct (mode_to_params _ _ _); try (split; [exact V1|reflexivity]). cbn [snd pm_ds pm_db]. rewrite find_set, Z.eqb_refl, V1. split; reflexivity.
Qed.
Lemma upd_snd m ae t : exists s' blocks, (snd (update_demixing m ae t) = m \/ (snd (update_demixing m ae t) = mkPm blocks (pm_rb m) (m_set ae s' (pm_ds m)) (pm_rs m) /\
   exists s, m_find ae (pm_ds m) = Some s /\ ds_pid s' = ds_pid s /\ forall p, p <> ds_pid s -> m_find p blocks = m_find p (pm_db m))).
Proof.
  unfold update_demixing, update_parameter, compare_timestamps, veq, vcond. destruct (m_find ae (pm_ds m)) as [s|] eqn:E; [|exists (mkDs 0 0 0 0 0 0 Normal), []; left; reflexivity].
  destruct (m_find (ds_pid s) (pm_db m)) as [[b|]|]; try (exists (mkDs 0 0 0 0 0 0 Normal), []; left; reflexivity).
  destruct (t =? p_stop b); cbn [snd]; eexists; eexists; right; (split; [reflexivity|]); exists s; (split; [reflexivity|]); (split; [reflexivity|]); [|reflexivity].
  intros p Hp. rewrite find_set. replace (ds_pid s =? p) with false by lia. reflexivity.
Qed.
Lemma upd_snd_view m ae t s blk : view m ae (s, blk) ->
  m_find ae (pm_ds (snd (update_demixing m ae t))) = Some (fst (lupd s blk t)) /\ m_find (ds_pid s) (pm_db (snd (update_demixing m ae t))) = Some (snd (lupd s blk t)).
Proof.
  intros (V1 & V2 & _). cbn [fst snd] in *. unfold update_demixing, update_parameter, lupd, compare_timestamps, veq, vcond. rewrite V1, V2. destruct blk as [b|]; [|split; assumption].
  destruct (t =? p_stop b); cbn [fst snd pm_ds pm_db]; rewrite find_set, Z.eqb_refl, V1; [rewrite find_set, Z.eqb_refl, V2|]; split; reflexivity || assumption.
Qed.
Lemma lstep_pid v o : ds_pid (fst (lstep v o)) = ds_pid (fst v).
Proof. destruct v as [s blk]. destruct o; cbn [lstep fst snd]; [reflexivity|apply lget_pid|]. unfold lupd. destruct blk as [b|]; [|reflexivity]. destruct (_ =? _); reflexivity. Qed.
Lemma step_view m ae v o : view m ae v -> view (step_pm m o) ae (fold_left lstep (demixing_part ae (ds_pid (fst v)) o) v).
Proof.
  intro V. pose proof V as (V1 & V2 & V3). destruct v as [s blk]. cbn [fst snd] in *. destruct o as [b|b|a|a n|a t|a t]; cbn [step_pm demixing_part].
  - unfold add_demixing. destruct (p_id b =? ds_pid s) eqn:E; cbn [fold_left lstep fst snd]; (split; [exact V1|]); cbn [fst snd pm_db pm_ds]; rewrite find_put, E; [split; [reflexivity|]|split; [exact V2|]]; exact V3.
  - split; [exact V1|]. split; [exact V2|exact V3].
  - destruct (a =? ae) eqn:E; cbn [fold_left lstep fst snd].
    + replace a with ae by lia. destruct (get_snd_view m ae s blk V) as [G1 G2]. split; [exact G1|]. cbn [fst snd]. rewrite lget_pid, G2. split; [exact V2|].
      intros a' s' F N. destruct (get_snd m ae) as (s2 & [R|(R & s3 & R1 & R2)]); rewrite R in F; [eapply V3; eassumption|]. cbn [pm_ds] in F. rewrite find_set in F. replace (ae =? a') with false in F by lia. eapply V3; eassumption.
    + destruct (get_snd m a) as (s2 & [R|(R & s3 & R1 & R2)]); rewrite R; [exact V|]. split; cbn [fst snd pm_ds pm_db]; [rewrite find_set, E; exact V1|]. split; [exact V2|].
      intros a' s' F N. rewrite find_set in F. destruct (a =? a') eqn:E2; [rewrite R1 in F; injection F as <-; rewrite R2; eapply V3; [exact R1|lia]|eapply V3; eassumption].
  - exact V.
  - destruct (a =? ae) eqn:E; cbn [fold_left lstep fst snd].
    + replace a with ae by lia. destruct (upd_snd_view m ae t s blk V) as [G1 G2]. pose proof (lstep_pid (s, blk) (LUpd t)) as Pp. cbn [lstep fst snd] in Pp.
      split; [exact G1|]. rewrite Pp. split; [exact G2|].
      intros a' s' F N. destruct (upd_snd m ae t) as (s2 & bl & [R|(R & s3 & R1 & R2 & _)]); rewrite R in F; [eapply V3; eassumption|]. cbn [pm_ds] in F. rewrite find_set in F. replace (ae =? a') with false in F by lia. eapply V3; eassumption.
    + destruct (upd_snd m a t) as (s2 & bl & [R|(R & s3 & R1 & R2 & R3)]); rewrite R; [exact V|]. assert (ds_pid s3 <> ds_pid s) as Np by (eapply V3; [exact R1|lia]).
      split; cbn [fst snd pm_ds pm_db]; [rewrite find_set, E; exact V1|]. split; [rewrite R3 by congruence; exact V2|].
      intros a' s' F N. rewrite find_set in F. destruct (a =? a') eqn:E2; [rewrite R1 in F; injection F as <-; rewrite R2; exact Np|eapply V3; eassumption].
  - unfold update_recon. destruct (m_find a (pm_rs m)) as [r|]; [|exact V]. destruct (update_parameter _ _ _) as [[x y] z]. split; [exact V1|]. split; [exact V2|exact V3].
Qed.
Lemma after_view m ae v h : view m ae v -> view (after_pm m h) ae (fold_left lstep (flat_map (demixing_part ae (ds_pid (fst v))) h) v).
Proof.
  revert m v. induction h as [|o h IH]; intros m v V; [exact V|]. cbn [after_pm fold_left flat_map]. rewrite fold_left_app.
  assert (ds_pid (fst (fold_left lstep (demixing_part ae (ds_pid (fst v)) o) v)) = ds_pid (fst v)) as P.
  { assert (forall l w, ds_pid (fst (fold_left lstep l w)) = ds_pid (fst w)) as Q by (induction l as [|x l I]; intro w; cbn [fold_left]; [reflexivity|rewrite I; apply lstep_pid]). apply Q. }
  set (v' := fold_left lstep (demixing_part ae (ds_pid (fst v)) o) v) in *. assert (view (step_pm m o) ae v') as V' by (apply step_view; exact V).
  clearbody v'. rewrite <- P. apply IH. exact V'.
Qed.

(* ---- creation ---- *)
Lemma pick_defs_ok l d r d' r' : pick_defs l d r = Ok (d', r') ->
  (forall x, d = Some x -> d' = Some x) /\ (forall pid m w, d' = Some (pid, m, w) -> d = Some (pid, m, w) \/ exists x, In x l /\ is_demixing pid m w x) /\
  (forall x pid m w, In x l -> is_demixing pid m w x -> d' = Some (pid, m, w)) /\
  (forall x, r = Some x -> r' = Some x) /\ (forall pid, r' = Some pid -> r = Some pid \/ exists x, In x l /\ is_recon pid x) /\
  (forall x pid, In x l -> is_recon pid x -> r' = Some pid).
Proof.
  revert d r. induction l as [|y l IH]; intros d r E; cbn [pick_defs] in E.
  - injection E as <- <-. repeat split; auto; intros; contradiction.
  - destruct (pd_type (pd_kind y) =? 1) eqn:T1.
    { destruct d; [discriminate|]. destruct (pd_kind y) as [|m r1 w r2| | | | | | | |] eqn:K; try discriminate. apply IH in E as (A & B & C & D & F & G). repeat split.
      - intros x X; discriminate.
      - intros pid m' w' X. destruct (B _ _ _ X) as [Y|(x & I & J)]; [right; exists y; injection Y as <- <- <-; split; [left; reflexivity|exists r1, r2; split; [exact K|reflexivity]]|right; exists x; split; [right; exact I|exact J]].
      - intros x pid m' w' [->|I] J; [|eapply C; eassumption]. destruct J as (q1 & q2 & J1 & J2). rewrite K in J1. injection J1 as -> _ -> _. rewrite <- J2. apply A. reflexivity.
      - exact D.
      - intros pid X. destruct (F _ X) as [Y|(x & I & J)]; [left; exact Y|right; exists x; split; [right; exact I|exact J]].
      - intros x pid [->|I] J; [destruct J as (f & J & _); congruence|eapply G; eassumption]. }
    destruct (pd_type (pd_kind y) =? 2) eqn:T2.
    { destruct r; [discriminate|]. destruct (pd_kind y) as [| |fl| | | | | | |] eqn:K; try discriminate. apply IH in E as (A & B & C & D & F & G). repeat split.
      - exact A.
      - intros pid m' w' X. destruct (B _ _ _ X) as [Y|(x & I & J)]; [left; exact Y|right; exists x; split; [right; exact I|exact J]].
      - intros x pid m' w' [->|I] J; [destruct J as (q1 & q2 & J & _); congruence|eapply C; eassumption].
      - intros x X; discriminate.
      - intros pid X. destruct (F _ X) as [Y|(x & I & J)]; [right; exists y; injection Y as <-; split; [left; reflexivity|exists fl; split; [exact K|reflexivity]]|right; exists x; split; [right; exact I|exact J]].
      - intros x pid [->|I] J; [|eapply G; eassumption]. destruct J as (f & J1 & J2). rewrite <- J2. apply D. reflexivity. }
    apply IH in E as (A & B & C & D & F & G). repeat split.
    + exact A.
    + intros pid m' w' X. destruct (B _ _ _ X) as [Y|(x & I & J)]; [left; exact Y|right; exists x; split; [right; exact I|exact J]].
    + intros x pid m' w' [->|I] J; [destruct J as (q1 & q2 & J & _); rewrite J in T1; discriminate|eapply C; eassumption].
    + exact D.
    + intros pid X. destruct (F _ X) as [Y|(x & I & J)]; [left; exact Y|right; exists x; split; [right; exact I|exact J]].
    + intros x pid [->|I] J; [destruct J as (f & J & _); rewrite J in T2; discriminate|eapply G; eassumption].
Qed.
(* what Create leaves behind: every demixing state comes from a definition of that element, and vice versa *)
Definition fresh_from (aes : list (Z * list pdef)) (m : pm) : Prop :=
  (forall a s, m_find a (pm_ds m) = Some s -> exists defs d pid mode w, In (a, defs) aes /\ In d defs /\ is_demixing pid mode w d /\ s = mkDs pid mode w 0 0 0 FirstFrame) /\
  (forall a s, m_find a (pm_ds m) = Some s -> m_find (ds_pid s) (pm_db m) = Some None) /\
  (forall p b, m_find p (pm_db m) = Some b -> b = None) /\
  (forall a defs d pid mode w, In (a, defs) aes -> In d defs -> is_demixing pid mode w d -> m_find a (pm_ds m) = Some (mkDs pid mode w 0 0 0 FirstFrame)) /\
  (forall a s, m_find a (pm_rs m) = Some s -> exists defs d pid, In (a, defs) aes /\ In d defs /\ is_recon pid d /\ s = mkRs pid 0) /\
  (forall a s, m_find a (pm_rs m) = Some s -> m_find (rs_pid s) (pm_rb m) = Some None) /\
  (forall p b, m_find p (pm_rb m) = Some b -> b = None) /\
  (forall a defs d pid, In (a, defs) aes -> In d defs -> is_recon pid d -> m_find a (pm_rs m) = Some (mkRs pid 0)).
Lemma create_fresh aes m0 m done : NoDup (map fst (done ++ aes)) -> fresh_from done m0 -> pm_create aes m0 = Ok m -> fresh_from (done ++ aes) m.
Proof.
  revert m0 done. induction aes as [|[id defs] aes IH]; intros m0 done N Fr E; cbn [pm_create] in E.
  - injection E as <-. rewrite app_nil_r. exact Fr.
  - destruct (pick_defs defs None None) as [[d r]| | | |] eqn:P; try discriminate. cbn [rbind fst snd] in E.
    replace (done ++ (id, defs) :: aes) with ((done ++ [(id, defs)]) ++ aes) in * by (rewrite <- app_assoc; reflexivity).
    eapply IH; [exact N| |exact E]. clear IH E. apply pick_defs_ok in P as (_ & P1 & P2 & _ & P3 & P4).
    rewrite !map_app in N. cbn [map fst] in N. rewrite <- app_assoc in N. apply NoDup_remove_2 in N.
    assert (~ In id (map fst done)) as Nd by (intro I; apply N; apply in_or_app; left; exact I). clear N.
    destruct Fr as (F1 & F2 & F3 & F4 & F5 & F6 & F7 & F8).
    assert (forall a ds, In (a, ds) done -> a <> id) as Na by (intros a ds I ->; apply Nd; apply in_map_iff; exists (id, ds); auto).
    set (m1 := match d with Some (pid, mode, w) => _ | None => m0 end).
    assert (pm_rb m1 = pm_rb m0 /\ pm_rs m1 = pm_rs m0) as [R1 R2] by (unfold m1; destruct d as [[[? ?] ?]|]; split; reflexivity).
    assert ((forall a s, m_find a (pm_ds m1) = Some s -> exists defs0 d0 pid mode w, In (a, defs0) (done ++ [(id, defs)]) /\ In d0 defs0 /\ is_demixing pid mode w d0 /\ s = mkDs pid mode w 0 0 0 FirstFrame) /\
            (forall a s, m_find a (pm_ds m1) = Some s -> m_find (ds_pid s) (pm_db m1) = Some None) /\
            (forall p b, m_find p (pm_db m1) = Some b -> b = None) /\
            (forall a defs0 d0 pid mode w, In (a, defs0) (done ++ [(id, defs)]) -> In d0 defs0 -> is_demixing pid mode w d0 -> m_find a (pm_ds m1) = Some (mkDs pid mode w 0 0 0 FirstFrame))) as (G1 & G2 & G3 & G4).
    { unfold m1. destruct d as [[[pid mode] w]|].
      - destruct (P1 _ _ _ eq_refl) as [X|(x & I & J)]; [discriminate|]. cbn [pm_ds pm_db]. repeat split.
        + intros a s F. rewrite find_put in F. destruct (id =? a) eqn:Q.
          * injection F as <-. exists defs, x, pid, mode, w. split; [apply in_or_app; right; left; f_equal; lia|auto].
          * destruct (F1 _ _ F) as (ds & d0 & a1 & a2 & a3 & Z1 & Z2). exists ds, d0, a1, a2, a3. split; [apply in_or_app; left; exact Z1|exact Z2].
        + intros a s F. rewrite find_put in F. rewrite find_insert. destruct (id =? a) eqn:Q.
          * injection F as <-. cbn [ds_pid]. destruct (m_find pid (pm_db m0)) eqn:W; [rewrite (F3 _ _ W); reflexivity|rewrite Z.eqb_refl; reflexivity].
          * rewrite (F2 _ _ F). reflexivity.
        + intros p b F. rewrite find_insert in F. destruct (m_find p (pm_db m0)) eqn:W; [injection F as <-; eapply F3; exact W|]. destruct (pid =? p); [injection F as <-; reflexivity|discriminate].
        + intros a ds d0 pid0 mode0 w0 I0 I1 I2. rewrite find_put. apply in_app_or in I0 as [I0|[I0|[]]].
          * replace (id =? a) with false by (specialize (Na _ _ I0); lia). eapply F4; eassumption.
          * injection I0 as -> ->. rewrite Z.eqb_refl. specialize (P2 _ _ _ _ I1 I2). injection P2 as -> -> ->. reflexivity.
      - repeat split; auto.
        + intros a s F. destruct (F1 _ _ F) as (ds & d0 & a1 & a2 & a3 & Z1 & Z2). exists ds, d0, a1, a2, a3. split; [apply in_or_app; left; exact Z1|exact Z2].
        + intros a ds d0 pid0 mode0 w0 I0 I1 I2. apply in_app_or in I0 as [I0|[I0|[]]]; [eapply F4; eassumption|]. injection I0 as -> ->. specialize (P2 _ _ _ _ I1 I2). discriminate. }
    destruct r as [pid|].
    + destruct (P3 _ eq_refl) as [X|(x & I & J)]; [discriminate|]. unfold fresh_from. cbn [pm_ds pm_db pm_rs pm_rb]. rewrite R1, R2.
      split; [exact G1|]. split; [exact G2|]. split; [exact G3|]. split; [exact G4|]. split; [|split; [|split]].
      * intros a s F. rewrite find_put in F. destruct (id =? a) eqn:Q.
        -- injection F as <-. exists defs, x, pid. split; [apply in_or_app; right; left; f_equal; lia|auto].
        -- destruct (F5 _ _ F) as (ds & d0 & a1 & Z1 & Z2). exists ds, d0, a1. split; [apply in_or_app; left; exact Z1|exact Z2].
      * intros a s F. rewrite find_put in F. rewrite find_insert. destruct (id =? a) eqn:Q.
        -- injection F as <-. cbn [rs_pid]. destruct (m_find pid (pm_rb m0)) eqn:W; [rewrite (F7 _ _ W); reflexivity|rewrite Z.eqb_refl; reflexivity].
        -- rewrite (F6 _ _ F). reflexivity.
      * intros p b F. rewrite find_insert in F. destruct (m_find p (pm_rb m0)) eqn:W; [injection F as <-; eapply F7; exact W|]. destruct (pid =? p); [injection F as <-; reflexivity|discriminate].
      * intros a ds d0 pid0 I0 I1 I2. rewrite find_put. apply in_app_or in I0 as [I0|[I0|[]]].
        -- replace (id =? a) with false by (specialize (Na _ _ I0); lia). eapply F8; eassumption.
        -- injection I0 as -> ->. rewrite Z.eqb_refl. specialize (P4 _ _ I1 I2). injection P4 as ->. reflexivity.
    + unfold fresh_from. rewrite R1, R2. split; [exact G1|]. split; [exact G2|]. split; [exact G3|]. split; [exact G4|]. split; [|split; [exact F6|split; [exact F7|]]].
      * intros a s F. destruct (F5 _ _ F) as (ds & d0 & a1 & Z1 & Z2). exists ds, d0, a1. split; [apply in_or_app; left; exact Z1|exact Z2].
      * intros a ds d0 pid0 I0 I1 I2. apply in_app_or in I0 as [I0|[I0|[]]]; [eapply F8; eassumption|]. injection I0 as -> ->. specialize (P4 _ _ I1 I2). discriminate.
Qed.
Lemma new_fresh aes m : NoDup (map fst aes) -> pm_new aes = Ok m -> fresh_from aes m.
Proof. intros N E. apply (create_fresh aes (mkPm [] [] [] []) m [] N); [|exact E]. unfold fresh_from. cbn [pm_ds pm_db pm_rs pm_rb m_find]. repeat split; intros; try discriminate; contradiction. Qed.

(* ---- completed frames ---- *)
Definition dstart (pid dm dw : Z) : dstate * option pbd := (mkDs pid dm dw 0 0 0 FirstFrame, None).
Definition rule_of (ms : list Z) : rule := match ms with [] => FirstFrame | _ => Normal end.
Lemma fold_adds l v : fold_left lstep (map LAdd l) v = (fst v, match rev l with [] => snd v | b :: _ => Some b end).
Proof.
  revert v. induction l as [|b l IH]; intro v; cbn [map fold_left rev]; [destruct v; reflexivity|]. rewrite IH. cbn [lstep fst snd].
  destruct (rev l) as [|x y]; reflexivity.
Qed.
Lemma fold_gets_none n s : fold_left lstep (repeat LGet n) (s, None) = (s, None).
Proof. induction n as [|n IH]; cbn [repeat fold_left lstep lget fst snd]; [reflexivity|exact IH]. Qed.
Lemma rule_mode_params pid dm dw ms t m b : p_start b = t -> has_mode b m -> forall cur,
  fst (lget (mkDs pid dm dw (widx ms) cur t (rule_of ms)) (Some b)) = spec_params m (widx (ms ++ [m])).
Proof.
  intros S (r & l & Hm) cur. unfold lget. cbn [ds_next ds_prev ds_rule ds_pid ds_mode ds_w]. rewrite S, Z.eqb_refl, Hm, mode_to_params_spec, widx_snoc.
  destruct ms as [|x y]; cbn [rule_of]; destruct (spec_params _ _); reflexivity.
Qed.
Lemma spec_params_ok m ms : spec_mode m <> None -> exists x, spec_params m (widx (ms ++ [m])) = Ok x /\ dx_widx x = widx (ms ++ [m]).
Proof.
  intro Hm. unfold spec_params. destruct (spec_mode m) as [[[[[a b] c] d] o]|]; [|contradiction].
  destruct (spec_w (widx (ms ++ [m]))) as [w|] eqn:W; [|exfalso; apply (proj1 (spec_w_range _) (widx_range (ms ++ [m]))); exact W]. eexists. split; reflexivity.
Qed.
Lemma lget_block pid dm dw ms t m b cur : p_start b = t -> has_mode b m -> spec_mode m <> None ->
  snd (lget (mkDs pid dm dw (widx ms) cur t (rule_of ms)) (Some b)) = mkDs pid dm dw (widx ms) (widx (ms ++ [m])) t (rule_of ms).
Proof.
  intros S Hh Hm. pose proof (rule_mode_params pid dm dw ms t m b S Hh cur) as R. destruct (spec_params_ok m ms Hm) as (x & X1 & X2). rewrite X1 in R.
  unfold lget in *. cbn [ds_next ds_prev ds_rule ds_pid ds_mode ds_w] in *. destruct (t =? p_start b); [|discriminate]. destruct (p_subs b) as [|[[]|] ?]; try discriminate.
  destruct (mode_to_params _ _ _) as [y| | | |]; try discriminate. cbn [fst snd] in *. injection R as ->. rewrite X2. reflexivity.
Qed.
Lemma fold_gets_block pid dm dw ms t m b n cur : p_start b = t -> has_mode b m -> spec_mode m <> None ->
  fold_left lstep (repeat LGet n) (mkDs pid dm dw (widx ms) cur t (rule_of ms), Some b) =
  (mkDs pid dm dw (widx ms) (match n with O => cur | _ => widx (ms ++ [m]) end) t (rule_of ms), Some b).
Proof.
  intros S Hh Hm. revert cur. induction n as [|n IH]; intro cur; cbn [repeat fold_left]; [reflexivity|]. cbn [lstep fst snd]. rewrite (lget_block pid dm dw ms t m b cur S Hh Hm).
  rewrite IH. destruct n; reflexivity.
Qed.
Lemma frames_state pid dm dw hs ms t : frames hs ms t ->
  fold_left lstep hs (dstart pid dm dw) = (mkDs pid dm dw (widx ms) (widx ms) t (rule_of ms), None).
Proof.
  induction 1 as [|h ms t adds b m n F IH St Hh Hm|h ms t n e F IH]; [reflexivity| |].
  - rewrite !fold_left_app, IH, fold_adds. cbn [fold_left lstep fst snd]. rewrite (fold_gets_block pid dm dw ms t m b (S n)) by assumption.
    unfold lstep, lupd. cbn [fst snd ds_pid ds_mode ds_w ds_cur ds_rule]. rewrite Z.eqb_refl. destruct ms; reflexivity.
  - rewrite !fold_left_app, IH, fold_gets_none. reflexivity.
Qed.
Lemma history_view aes m ae defs d pid dm dw h : NoDup (map fst aes) -> pm_new aes = Ok m -> In (ae, defs) aes -> In d defs -> is_demixing pid dm dw d ->
  unshared aes ae pid -> view (after_pm m h) ae (fold_left lstep (flat_map (demixing_part ae pid) h) (dstart pid dm dw)).
Proof.
  intros N E I1 I2 I3 U. destruct (new_fresh _ _ N E) as (F1 & F2 & F3 & F4 & _).
  pose proof (F4 _ _ _ _ _ _ I1 I2 I3) as S. apply (after_view m ae (dstart pid dm dw) h). split; [exact S|]. split; [exact (F2 _ _ S)|].
  intros a s Fa Na Q. destruct (F1 _ _ Fa) as (ds & d0 & p & m0 & w0 & J1 & J2 & J3 & ->). cbn [ds_pid] in Q. cbn [dstart fst ds_pid] in Q. subst p. apply Na. eapply U; eassumption.
Qed.

(* ================= THEOREMS ================= *)
(* C27: a demixing query for an audio element whose demixing parameter ID is its own, after any history of the manager
   (arbitrarily interleaved with other elements and parameters) in which this element's frames completed *)
Definition own_demixing aes m ae pid dm dw : Prop :=
  NoDup (map fst aes) /\ pm_new aes = Ok m /\ (exists defs d, In (ae, defs) aes /\ In d defs /\ is_demixing pid dm dw d) /\ unshared aes ae pid.
Theorem C27_weight_recursion_partial aes m ae pid dm dw h hs ms t adds b md n :
  own_demixing aes m ae pid dm dw -> frames hs ms t ->
  flat_map (demixing_part ae pid) h = hs ++ map LAdd adds ++ [LAdd b] ++ repeat LGet n ->
  has_mode b md -> spec_mode md <> None \/ n = O ->
  fst (get_down_mixing (after_pm m h) ae) = (if p_start b =? t then spec_params md (widx (ms ++ [md])) else Err InvalidArgument).
Proof.
  intros (N & E & (defs & d & I1 & I2 & I3) & U) F Hp Hh Hn. pose proof (history_view _ _ _ _ _ _ _ _ h N E I1 I2 I3 U) as V. rewrite Hp in V.
  rewrite !fold_left_app, (frames_state _ _ _ _ _ _ F), fold_adds in V. cbn [fold_left lstep fst snd] in V.
  destruct (p_start b =? t) eqn:S.
  - assert (p_start b = t) as S' by lia.
    assert (exists cur, fold_left lstep (repeat LGet n) (mkDs pid dm dw (widx ms) (widx ms) t (rule_of ms), Some b) = (mkDs pid dm dw (widx ms) cur t (rule_of ms), Some b)) as (cur & G).
    { destruct Hn as [Hm| ->]; [eexists; apply (fold_gets_block pid dm dw ms t md b n); assumption|exists (widx ms); reflexivity]. }
    rewrite G in V. rewrite (get_view _ _ _ _ V). apply rule_mode_params; assumption.
  - assert (forall k, fold_left lstep (repeat LGet k) (mkDs pid dm dw (widx ms) (widx ms) t (rule_of ms), Some b) = (mkDs pid dm dw (widx ms) (widx ms) t (rule_of ms), Some b)) as G.
    { induction k as [|k IH]; cbn [repeat fold_left]; [reflexivity|]. cbn [lstep fst snd]. unfold lget. cbn [ds_next]. replace (t =? p_start b) with false by lia. exact IH. }
    rewrite G in V. rewrite (get_view _ _ _ _ V). unfold lget. cbn [ds_next]. replace (t =? p_start b) with false by lia. reflexivity.
Qed.
(* without a parameter block for this frame the definition's defaults apply, whatever the recursion's state *)
Theorem C27_no_block_partial aes m ae pid dm dw h hs ms t n :
  own_demixing aes m ae pid dm dw -> frames hs ms t -> flat_map (demixing_part ae pid) h = hs ++ repeat LGet n ->
  fst (get_down_mixing (after_pm m h) ae) = spec_params dm dw.
Proof.
  intros (N & E & (defs & d & I1 & I2 & I3) & U) F Hp. pose proof (history_view _ _ _ _ _ _ _ _ h N E I1 I2 I3 U) as V. rewrite Hp in V.
  rewrite !fold_left_app, (frames_state _ _ _ _ _ _ F), fold_gets_none in V. rewrite (get_view _ _ _ _ V). unfold lget. cbn [ds_mode ds_w]. apply mode_to_params_spec.
Qed.
(* completing a frame succeeds exactly if the frame ends where its parameter block ends; a frame without block always completes *)
Theorem C27_update_partial aes m ae pid dm dw h hs ms t tail e :
  own_demixing aes m ae pid dm dw -> frames hs ms t -> flat_map (demixing_part ae pid) h = hs ++ tail ->
  (forall adds b n, tail = map LAdd adds ++ [LAdd b] ++ repeat LGet n ->
     fst (update_demixing (after_pm m h) ae e) = (if e =? p_stop b then Ok tt else Err InvalidArgument)) /\
  (forall n, tail = repeat LGet n -> fst (update_demixing (after_pm m h) ae e) = Ok tt).
Proof.
  intros (N & E & (defs & d & I1 & I2 & I3) & U) F Hp. pose proof (history_view _ _ _ _ _ _ _ _ h N E I1 I2 I3 U) as V. rewrite Hp in V.
  rewrite fold_left_app, (frames_state _ _ _ _ _ _ F) in V. split.
  - intros adds b n ->. rewrite !fold_left_app, fold_adds in V. cbn [fold_left lstep fst snd] in V.
    assert (forall k s, snd (fold_left lstep (repeat LGet k) (s, Some b)) = Some b) as G by (induction k as [|k IH]; intro s; cbn [repeat fold_left]; [reflexivity|apply IH]).
    destruct V as (V1 & V2 & _). rewrite G in V2. unfold update_demixing, update_parameter, compare_timestamps, veq, vcond. rewrite V1, V2. destruct (e =? p_stop b); reflexivity.
  - intros n ->. rewrite fold_gets_none in V. destruct V as (V1 & V2 & _). cbn [fst snd ds_pid] in *. unfold update_demixing, update_parameter. rewrite V1. cbn [ds_pid]. rewrite V2. reflexivity.
Qed.
(* the weight index stays in range, so the parameters of a legal mode are always defined *)
Theorem C27_weight_in_range ms m : 0 <= widx ms <= 10 /\ (spec_mode m <> None -> exists x, spec_params m (widx ms) = Ok x /\ 0 <= dx_w x <= 5000 /\ dx_widx x = widx ms).
Proof.
  pose proof (widx_range ms) as R. split; [exact R|]. intro Hm. unfold spec_params. destruct (spec_mode m) as [[[[[a b] c] d] o]|]; [|contradiction].
  destruct (spec_w (widx ms)) as [w|] eqn:W; [|exfalso; apply (proj1 (spec_w_range _) R); exact W]. eexists. split; [reflexivity|]. split; [|reflexivity]. cbn [dx_w].
  unfold spec_w in W. destruct (widx ms) as [|p|p]; [injection W as <-; lia| |discriminate]. do 4 (try destruct p as [p|p|]; try discriminate; try (injection W as <-; lia)).
Qed.
(* an audio element without a demixing definition: fixed defaults, not part of the bitstream *)
Theorem C27_no_definition aes m ae h : NoDup (map fst aes) -> pm_new aes = Ok m ->
  (forall defs d pid dm dw, In (ae, defs) aes -> In d defs -> ~ is_demixing pid dm dw d) ->
  get_down_mixing (after_pm m h) ae = (Ok (mkDmix 707 707 707 707 0 0 0 false), after_pm m h) /\
  forall e, update_demixing (after_pm m h) ae e = (Ok tt, after_pm m h).
Proof.
  intros N E Hno. destruct (new_fresh _ _ N E) as (F1 & _).
  assert (m_find ae (pm_ds m) = None) as A.
  { destruct (m_find ae (pm_ds m)) as [s|] eqn:Q; [|reflexivity]. destruct (F1 _ _ Q) as (ds & d0 & p & m0 & w0 & J1 & J2 & J3 & _). exfalso. eapply Hno; eassumption. }
  assert (forall m', m_find ae (pm_ds m') = None -> m_find ae (pm_ds (after_pm m' h)) = None) as B.
  { induction h as [|o h IH]; intros m' Q; [exact Q|]. cbn [after_pm fold_left]. apply IH. destruct o as [b|b|a|a n|a t|a t]; cbn [step_pm]; try exact Q.
    - destruct (get_snd m' a) as (s2 & [R|(R & s3 & R1 & R2)]); rewrite R; [exact Q|]. cbn [pm_ds]. rewrite find_set. destruct (a =? ae) eqn:X; [replace a with ae in R1 by lia; congruence|exact Q].
    - destruct (upd_snd m' a t) as (s2 & bl & [R|(R & s3 & R1 & _)]); rewrite R; [exact Q|]. cbn [pm_ds]. rewrite find_set. destruct (a =? ae) eqn:X; [replace a with ae in R1 by lia; congruence|exact Q].
    - unfold update_recon. destruct (m_find a (pm_rs m')); [|exact Q]. destruct (update_parameter _ _ _) as [[x y] z]. exact Q. }
  specialize (B _ A). unfold get_down_mixing, update_demixing. rewrite B. split; [reflexivity|]. intro e. reflexivity.
Qed.

(* Creation is refused exactly if some audio element has two demixing or two recon gain definitions. *)
Definition count {A} (f : A -> bool) (l : list A) : Z := zlen (filter f l).
Definition at_most_one (defs : list pdef) : Prop :=
  count (fun d => pd_type (pd_kind d) =? 1) defs <= 1 /\ count (fun d => pd_type (pd_kind d) =? 2) defs <= 1.
(* an ExtendedParamDefinition is never used for the demixing and recon gain types *)
Definition typed (d : pdef) : Prop := forall t x, pd_kind d = KExtended t x -> t <> 1 /\ t <> 2.
Lemma count_cons {A} (f : A -> bool) x l : count f (x :: l) = (if f x then 1 else 0) + count f l.
Proof. unfold count. cbn [filter]. destruct (f x); unfold zlen; cbn [length]; lia. Qed.
Lemma count_nonneg {A} (f : A -> bool) l : 0 <= count f l. Proof. unfold count, zlen. lia. Qed.
Definition used {A} (o : option A) : Z := match o with Some _ => 1 | None => 0 end.
Lemma pick_defs_iff l : Forall typed l -> forall d r,
  let c := used d + count (fun d => pd_type (pd_kind d) =? 1) l <= 1 /\ used r + count (fun d => pd_type (pd_kind d) =? 2) l <= 1 in
  (c -> exists x, pick_defs l d r = Ok x) /\ (~ c -> pick_defs l d r = Err InvalidArgument).
Proof.
  induction 1 as [|y l Ty _ IH]; intros d r c; subst c.
  - cbn [pick_defs]. split; [eexists; reflexivity|]. intro H. exfalso. apply H. unfold count, zlen. cbn [filter length]. destruct d, r; cbn [used]; lia.
  - cbn [pick_defs]. rewrite !count_cons. pose proof (count_nonneg (fun d => pd_type (pd_kind d) =? 1) l) as P1. pose proof (count_nonneg (fun d => pd_type (pd_kind d) =? 2) l) as P2. cbv zeta in IH.
    destruct (pd_type (pd_kind y) =? 1) eqn:T1; [|destruct (pd_type (pd_kind y) =? 2) eqn:T2].
    + destruct d as [d|]; cbn [used]; [split; [lia|reflexivity]|]. replace (pd_type (pd_kind y) =? 2) with false by lia.
      destruct (pd_kind y) as [|m r1 w r2| | | | | | | |t x] eqn:K; cbn [pd_type] in T1; try discriminate; [|exfalso; apply (Ty t x) in K; lia].
      destruct (IH (Some (pb_id (pd_base y), m, w)) r) as [I1 I2]. cbn [used] in *. split; intro H; [apply I1|apply I2]; lia.
    + destruct r as [r|]; cbn [used]; [split; [lia|reflexivity]|].
      destruct (pd_kind y) as [| |fl| | | | | | |t x] eqn:K; cbn [pd_type] in T2; try discriminate; [|exfalso; apply (Ty t x) in K; lia].
      destruct (IH d (Some (pb_id (pd_base y)))) as [I1 I2]. cbn [used] in *. split; intro H; [apply I1|apply I2]; lia.
    + destruct (IH d r) as [I1 I2]. split; intro H; [apply I1|apply I2]; lia.
Qed.
Theorem C27_creation : forall aes, Forall (fun p => Forall typed (snd p)) aes ->
  ((exists m, pm_new aes = Ok m) <-> forall a defs, In (a, defs) aes -> at_most_one defs) /\
  ((exists a defs, In (a, defs) aes /\ ~ at_most_one defs) -> pm_new aes = Err InvalidArgument).
Proof.
  intros aes T. unfold pm_new. generalize (mkPm [] [] [] []). induction T as [|[a defs] aes Ta T IH]; intro m0; cbn [pm_create].
  - split; [split; [intros _ a defs []|eexists; reflexivity]|]. intros (a & defs & [] & _).
  - cbn [snd] in Ta. destruct (pick_defs_iff defs Ta None None) as [I1 I2]. cbn [used] in *. change (0 + ?z) with z in *.
    assert (at_most_one defs \/ ~ at_most_one defs) as [A|A] by (unfold at_most_one; lia).
    + destruct (I1 A) as (x & X). rewrite X. cbn [rbind]. set (m1 := match snd x with Some pid => _ | None => _ end). destruct (IH m1) as [J1 J2]. split.
      * rewrite J1. split; [intros H b ds [E|E]; [injection E as <- <-; exact A|eapply H; exact E]|intros H b ds E; eapply H; right; exact E].
      * intros (b & ds & [E|E] & N); [injection E as <- <-; contradiction|]. apply J2. eauto.
    + assert (pick_defs defs None None = Err InvalidArgument) as X by (apply I2; exact A). rewrite X. cbn [rbind]. split; [|reflexivity]. split; [intros (? & ?); discriminate|]. intro H. exfalso. apply A. eapply H. left. reflexivity.
Qed.

(* Finding: two audio elements that refer to the same demixing parameter ID.  Processing order of obu_processor.cc:67-90,
   262-320: per frame one parameter block, then both elements' queries, then both updates.  In the second frame the first
   element is served, the second one is refused although the block continues its timeline. *)
Definition shared_def : pdef := mkPD (mkPB 998 48000 0 None) (KDemixing 1 0 5 0).
Definition frame_block (t : Z) : pbd := mkPbd 998 t (t + 8) [Some (DDemix 1 0)].
Definition frame_ops (t : Z) : list op := [AddD (frame_block t); GetD 300; GetD 301; UpdD 300 (t + 8); UpdD 301 (t + 8)].
Theorem C27_shared_parameter_id_refuted : exists m, pm_new [(300, [shared_def]); (301, [shared_def])] = Ok m /\
  (let m' := after_pm m (frame_ops 0 ++ [AddD (frame_block 8)]) in
   (exists x, fst (get_down_mixing m' 300) = Ok x) /\ fst (get_down_mixing m' 301) = Err InvalidArgument) /\
  (* the same history restricted to element 301 alone is served *)
  exists m1, pm_new [(301, [shared_def])] = Ok m1 /\ exists x, fst (get_down_mixing (after_pm m1 (frame_ops 0 ++ [AddD (frame_block 8)])) 301) = Ok x.
Proof.
  eexists. split; [vm_compute; reflexivity|]. split; [split; [eexists|]; vm_compute; reflexivity|]. eexists. split; [vm_compute; reflexivity|]. eexists. vm_compute. reflexivity.
Qed.
(* the hypotheses of the C27 theorems are met by two interleaved elements with parameter IDs of their own *)
Definition own_def (pid : Z) : pdef := mkPD (mkPB pid 48000 0 None) (KDemixing 1 0 5 0).
Definition blk (pid t m : Z) : pbd := mkPbd pid t (t + 8) [Some (DDemix m 0)].
Definition ex_hist : list op :=
  [AddD (blk 998 0 4); AddD (blk 999 0 5); GetD 300; GetD 301; UpdD 300 8; GetD 301; UpdD 301 8; GetD 300; UpdD 300 16;
   AddD (blk 998 8 6); GetD 300; UpdR 7 3; UpdD 300 16; AddD (blk 998 16 5)].
Example C27_ex : exists m, own_demixing [(300, [own_def 998]); (301, [own_def 999])] m 300 998 1 5 /\
  frames (flat_map (demixing_part 300 998) (removelast ex_hist)) [4; 6] 16 /\
  widx [4; 6; 5] = 2 /\ fst (get_down_mixing (after_pm m ex_hist) 300) = spec_params 5 2 /\ spec_params 5 2 = Ok (mkDmix 707 707 707 707 1 2 391 true).
Proof.
  assert (exists m, pm_new [(300, [own_def 998]); (301, [own_def 999])] = Ok m /\ fst (get_down_mixing (after_pm m ex_hist) 300) = spec_params 5 2) as (m & Em & Eg) by (eexists; split; [vm_compute; reflexivity|vm_compute; reflexivity]).
  exists m. split; [|split; [|split; [reflexivity|split; [exact Eg|reflexivity]]]].
  - split; [repeat constructor; cbn; lia|]. split; [exact Em|]. split.
    + exists [own_def 998], (own_def 998). split; [left; reflexivity|]. split; [left; reflexivity|]. exists 0, 0. split; reflexivity.
    + intros a defs d md w I J (r & r2 & _ & K). destruct I as [I|[I|[]]]; injection I as <- <-; [reflexivity|]. destruct J as [<-|[]]. discriminate.
  - change (flat_map _ _) with ((([] ++ map LAdd [] ++ [LAdd (blk 998 0 4)] ++ repeat LGet 1 ++ [LUpd (p_stop (blk 998 0 4))]) ++ repeat LGet 1 ++ [LUpd 16])
       ++ map LAdd [] ++ [LAdd (blk 998 8 6)] ++ repeat LGet 1 ++ [LUpd (p_stop (blk 998 8 6))]).
    change [4; 6] with (([] ++ [4]) ++ [6]). apply (frames_block _ _ 8); [apply frames_none; apply (frames_block _ _ 0); [constructor|reflexivity|exists 0, []; reflexivity|discriminate]|reflexivity|exists 0, []; reflexivity|discriminate].
Qed.

(* ================= C39: recon gains ================= *)
Record rview := mkRv { rv_next : Z; rv_blk : option pbd }.
Definition rstep (v : rview) (o : lop) : rview :=
  match o with
  | LAdd b => mkRv (rv_next v) (Some b)
  | LGet => v
  | LUpd t => match rv_blk v with None => v | Some b => mkRv (p_stop b) (if t =? p_stop b then None else Some b) end
  end.
Definition rviews (m : pm) (ae pid : Z) (v : rview) : Prop :=
  m_find ae (pm_rs m) = Some (mkRs pid (rv_next v)) /\ m_find pid (pm_rb m) = Some (rv_blk v) /\
  forall a s, m_find a (pm_rs m) = Some s -> a <> ae -> rs_pid s <> pid.
Lemma rstep_view m ae pid v o : rviews m ae pid v -> rviews (step_pm m o) ae pid (fold_left rstep (recon_part ae pid o) v).
Proof.
  intro V. pose proof V as (V1 & V2 & V3). destruct o as [b|b|a|a n|a t|a t]; cbn [step_pm recon_part fold_left].
  - exact V.
  - unfold add_recon. destruct (p_id b =? pid) eqn:E; cbn [fold_left rstep]; (split; [exact V1|]); cbn [pm_rb pm_rs rv_blk rv_next]; rewrite find_put, E; [split; [reflexivity|exact V3]|split; [exact V2|exact V3]].
  - destruct (get_snd m a) as (s2 & [R|(R & _)]); rewrite R; exact V.
  - exact V.
  - destruct (upd_snd m a t) as (s2 & bl & [R|(R & _)]); rewrite R; exact V.
  - unfold update_recon. destruct (a =? ae) eqn:E.
    + assert (a = ae) as -> by lia. rewrite V1. unfold update_parameter. cbn [rs_pid rs_next]. rewrite V2. cbn [fold_left rstep]. destruct (rv_blk v) as [b|] eqn:Bv.
      * unfold compare_timestamps, veq, vcond. destruct (t =? p_stop b) eqn:S; cbn [snd]; (split; [cbn [pm_rs]; rewrite find_set, Z.eqb_refl, V1; reflexivity|]); cbn [pm_rb rv_blk];
          [rewrite find_set, Z.eqb_refl, V2|rewrite V2]; (split; [reflexivity|]); cbn [pm_rs]; intros a' s' F N; rewrite find_set in F; replace (ae =? a') with false in F by lia; eapply V3; eassumption.
      * cbn [snd]. split; [cbn [pm_rs]; rewrite find_set, Z.eqb_refl, V1; reflexivity|]. cbn [pm_rb]. rewrite V2, Bv. split; [reflexivity|].
        cbn [pm_rs]. intros a' s' F N. rewrite find_set in F. replace (ae =? a') with false in F by lia. eapply V3; eassumption.
    + cbn [fold_left]. destruct (m_find a (pm_rs m)) as [s|] eqn:Fa; [|exact V]. assert (rs_pid s <> pid) as Np by (eapply V3; [exact Fa|lia]).
      assert (exists r nx bl, update_parameter (rs_pid s) t (pm_rb m) = (r, nx, bl) /\ m_find pid bl = m_find pid (pm_rb m)) as (r & nx & bl & Eu & Eb).
      { unfold update_parameter. destruct (m_find (rs_pid s) (pm_rb m)) as [[b|]|]; [|eexists _, _, _; split; reflexivity..]. destruct (compare_timestamps t (p_stop b)); eexists _, _, _; (split; [reflexivity|]); try reflexivity.
        rewrite find_set. replace (rs_pid s =? pid) with false by lia. reflexivity. }
      rewrite Eu. cbn [snd]. split; [cbn [pm_rs]; rewrite find_set, E; exact V1|]. cbn [pm_rb]. rewrite Eb. split; [exact V2|].
      cbn [pm_rs]. intros a' s' F N. rewrite find_set in F. destruct (a =? a') eqn:Q; [rewrite Fa in F; injection F as <-; exact Np|eapply V3; eassumption].
Qed.
Lemma rafter_view ae pid h : forall m v, rviews m ae pid v -> rviews (after_pm m h) ae pid (fold_left rstep (flat_map (recon_part ae pid) h) v).
Proof.
  induction h as [|o h IH]; intros m v V; [exact V|]. cbn [after_pm fold_left flat_map]. rewrite fold_left_app. apply IH. apply rstep_view. exact V.
Qed.
Definition own_recon aes m ae pid : Prop :=
  NoDup (map fst aes) /\ pm_new aes = Ok m /\ (exists defs d, In (ae, defs) aes /\ In d defs /\ is_recon pid d) /\ unshared_recon aes ae pid.
Lemma recon_history aes m ae pid h : own_recon aes m ae pid -> rviews (after_pm m h) ae pid (fold_left rstep (flat_map (recon_part ae pid) h) (mkRv 0 None)).
Proof.
  intros (N & E & (defs & d & I1 & I2 & I3) & U). destruct (new_fresh _ _ N E) as (_ & _ & _ & _ & F5 & F6 & _ & F8). pose proof (F8 _ _ _ _ I1 I2 I3) as S.
  apply rafter_view. split; [exact S|]. split; [exact (F6 _ _ S)|]. intros a s Fa Na Q. destruct (F5 _ _ Fa) as (ds & d0 & p & J1 & J2 & J3 & ->). cbn [rs_pid] in Q. subst p. apply Na. eapply U; eassumption.
Qed.
(* SPEC: completed frames of one element: with a block (the last one added counts), completed at the block's end; or without *)
Inductive rframes : list lop -> Z -> Prop :=
| rframes_nil : rframes [] 0
| rframes_block h t adds b : rframes h t -> rframes (h ++ map LAdd adds ++ [LAdd b] ++ [LUpd (p_stop b)]) (p_stop b)
| rframes_none h t e : rframes h t -> rframes (h ++ [LUpd e]) t.
Definition default_layers (n : Z) (l : list (option (Z * list Z))) : Prop := zlen l = n /\ Forall (fun x => exists g, x = Some (0, g) /\ length g = 12%nat /\ Forall (eq 255) g) l.
Lemma default_gains_ok n : 0 <= n -> default_layers n (default_gains n).
Proof.
  intro H. unfold default_gains. split; [unfold zlen; rewrite repeat_length; lia|]. apply Forall_forall. intros x I. apply repeat_spec in I. subst x.
  exists (repeat 255 12). split; [reflexivity|]. split; [reflexivity|]. repeat constructor.
Qed.
Lemma radds l v : fold_left rstep (map LAdd l) v = mkRv (rv_next v) (match rev l with [] => rv_blk v | b :: _ => Some b end).
Proof.
  revert v. induction l as [|b l IH]; intro v; cbn [map fold_left rev]; [destruct v; reflexivity|]. rewrite IH. cbn [rstep rv_next rv_blk]. destruct (rev l); reflexivity.
Qed.
Lemma rframes_state hs t : rframes hs t -> fold_left rstep hs (mkRv 0 None) = mkRv t None.
Proof.
  induction 1 as [|h t adds b F IH|h t e F IH]; [reflexivity| |]; rewrite !fold_left_app, IH; [|reflexivity]. rewrite radds. cbn [fold_left rstep rv_next rv_blk]. rewrite Z.eqb_refl. reflexivity.
Qed.
Theorem C39_recon_gains_partial aes m ae pid h hs t adds b nl :
  own_recon aes m ae pid -> rframes hs t -> flat_map (recon_part ae pid) h = hs ++ map LAdd adds ++ [LAdd b] ->
  (p_start b <> t -> get_recon_gains (after_pm m h) ae nl = Err InvalidArgument) /\
  (p_start b = t -> forall k l rest, p_subs b = Some (DRecon k l) :: rest -> 0 < nl ->
     get_recon_gains (after_pm m h) ae nl = if zlen l =? nl then Ok l else Err InvalidArgument).
Proof.
  intros O F Hp. pose proof (recon_history _ _ _ _ h O) as V. rewrite Hp, !fold_left_app, (rframes_state _ _ F), radds in V. cbn [fold_left rstep rv_next rv_blk] in V.
  destruct V as (V1 & V2 & _). cbn [rv_next rv_blk] in *. unfold get_recon_gains. rewrite V1. cbn [rs_pid rs_next]. rewrite V2. unfold compare_timestamps, veq, vcond. split.
  - intro N. replace (t =? p_start b) with false by lia. reflexivity.
  - intros -> k l rest S P. rewrite Z.eqb_refl, S. cbn [rthen rbind]. replace (nl >? 0) with true by lia. cbn [andb]. destruct (zlen l =? nl); reflexivity.
Qed.
Theorem C39_recon_defaults_partial aes m ae pid h hs t nl :
  own_recon aes m ae pid -> rframes hs t -> flat_map (recon_part ae pid) h = hs -> 0 <= nl ->
  exists l, get_recon_gains (after_pm m h) ae nl = Ok l /\ default_layers nl l.
Proof.
  intros O F Hp Hn. pose proof (recon_history _ _ _ _ h O) as V. rewrite Hp, (rframes_state _ _ F) in V. destruct V as (V1 & V2 & _). cbn [rv_next rv_blk] in *.
  unfold get_recon_gains. rewrite V1. cbn [rs_pid]. rewrite V2. eexists. split; [reflexivity|apply default_gains_ok; exact Hn].
Qed.
Theorem C39_recon_no_definition aes m ae h nl : NoDup (map fst aes) -> pm_new aes = Ok m ->
  (forall defs d pid, In (ae, defs) aes -> In d defs -> ~ is_recon pid d) -> 0 <= nl ->
  exists l, get_recon_gains (after_pm m h) ae nl = Ok l /\ default_layers nl l.
Proof.
  intros N E Hno Hn. destruct (new_fresh _ _ N E) as (_ & _ & _ & _ & F5 & _).
  assert (m_find ae (pm_rs m) = None) as A.
  { destruct (m_find ae (pm_rs m)) as [s|] eqn:Q; [|reflexivity]. destruct (F5 _ _ Q) as (ds & d0 & p & J1 & J2 & J3 & _). exfalso. eapply Hno; eassumption. }
  assert (forall m', m_find ae (pm_rs m') = None -> m_find ae (pm_rs (after_pm m' h)) = None) as B.
  { induction h as [|o h IH]; intros m' Q; [exact Q|]. cbn [after_pm fold_left]. apply IH. destruct o as [b|b|a|a n|a t|a t]; cbn [step_pm]; try exact Q.
    - destruct (get_snd m' a) as (s2 & [R|(R & _)]); rewrite R; exact Q.
    - destruct (upd_snd m' a t) as (s2 & bl & [R|(R & _)]); rewrite R; exact Q.
    - unfold update_recon. destruct (m_find a (pm_rs m')) as [s|] eqn:Fa; [|exact Q]. destruct (update_parameter _ _ _) as [[x y] z]. cbn [snd pm_rs]. rewrite find_set. destruct (a =? ae) eqn:X; [replace a with ae in Fa by lia; congruence|exact Q]. }
  unfold get_recon_gains. rewrite (B _ A). eexists. split; [reflexivity|apply default_gains_ok; exact Hn].
Qed.
Theorem C39_update_partial aes m ae pid h hs t tail e :
  own_recon aes m ae pid -> rframes hs t -> flat_map (recon_part ae pid) h = hs ++ tail ->
  (forall adds b, tail = map LAdd adds ++ [LAdd b] -> fst (update_recon (after_pm m h) ae e) = (if e =? p_stop b then Ok tt else Err InvalidArgument)) /\
  (tail = [] -> fst (update_recon (after_pm m h) ae e) = Ok tt).
Proof.
  intros O F Hp. pose proof (recon_history _ _ _ _ h O) as V. rewrite Hp, fold_left_app, (rframes_state _ _ F) in V. split.
  - intros adds b ->. rewrite fold_left_app, radds in V. cbn [fold_left rstep rv_next rv_blk] in V. destruct V as (V1 & V2 & _). cbn [rv_next rv_blk] in *.
    unfold update_recon, update_parameter, compare_timestamps, veq, vcond. rewrite V1. cbn [rs_pid]. rewrite V2. destruct (e =? p_stop b); reflexivity.
  - intros ->. cbn [fold_left] in V. destruct V as (V1 & V2 & _). cbn [rv_next rv_blk] in *. unfold update_recon, update_parameter. rewrite V1. cbn [rs_pid]. rewrite V2. reflexivity.
Qed.
Definition shared_recon : pdef := mkPD (mkPB 998 48000 0 None) (KRecon []).
Definition rblock (pid t : Z) : pbd := mkPbd pid t (t + 8) [Some (DRecon [true] [Some (1, repeat 9 12)])].
Theorem C39_shared_parameter_id_refuted : exists m, pm_new [(300, [shared_recon]); (301, [shared_recon])] = Ok m /\
  (let m' := after_pm m [AddR (rblock 998 0); GetR 300 1; GetR 301 1; UpdR 300 8; UpdR 301 8; AddR (rblock 998 8)] in
   get_recon_gains m' 300 1 = Ok [Some (1, repeat 9 12)] /\ get_recon_gains m' 301 1 = Err InvalidArgument).
Proof. eexists. split; [vm_compute; reflexivity|]. split; vm_compute; reflexivity. Qed.
Example C39_ex : exists m, own_recon [(300, [mkPD (mkPB 998 1 0 None) (KRecon [])])] m 300 998 /\
  rframes (flat_map (recon_part 300 998) [AddR (rblock 998 0); GetR 300 1; UpdR 300 8; UpdR 300 16]) 8 /\
  get_recon_gains (after_pm m [AddR (rblock 998 0); GetR 300 1; UpdR 300 8; UpdR 300 16; AddR (rblock 998 8)]) 300 1 = Ok [Some (1, repeat 9 12)].
Proof.
  assert (exists m, pm_new [(300, [mkPD (mkPB 998 1 0 None) (KRecon [])])] = Ok m /\
    get_recon_gains (after_pm m [AddR (rblock 998 0); GetR 300 1; UpdR 300 8; UpdR 300 16; AddR (rblock 998 8)]) 300 1 = Ok [Some (1, repeat 9 12)]) as (m & Em & Eg) by (eexists; split; [vm_compute; reflexivity|vm_compute; reflexivity]).
  exists m. split; [|split; [|exact Eg]].
  - split; [repeat constructor; cbn; lia|]. split; [exact Em|]. split.
    + eexists _, _. split; [left; reflexivity|]. split; [left; reflexivity|]. exists []. split; reflexivity.
    + intros a defs d I J _. destruct I as [I|[]]; injection I as <- <-; reflexivity.
  - change (flat_map _ _) with (([] ++ map LAdd [] ++ [LAdd (rblock 998 0)] ++ [LUpd (p_stop (rblock 998 0))]) ++ [LUpd 16]). apply rframes_none. apply (rframes_block [] 0). constructor.
Qed.
