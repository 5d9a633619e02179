(* C66: cases that meet the hypotheses of the theorems about the probe, and what the probe does not do. *)
From Coq Require Import Permutation Sorted.
From Verif Require Import TempUnit Base WriteBuf ReadBuf Leb BufSpec LebSpec BitFacts WriteBufFacts ReadBufFacts LebFacts
  ParseFacts EndToEnd ObuHeader ObuHeaderFacts FrameFacts SeqFacts BndFacts PureFacts SimpleObus CodecConfig Params
  Timing PropsTiming ParamManager Processor PropsObu PropsParams ProcFacts PropsProc DescFacts Descriptors PropsDesc Sequencer PropsSeq SeqRound PropsSeqDesc UnitRound PropsSeqUnits
  Probe ProbeFacts PropsProbe ProbeUnits PropsProbeUnits PropsProbeObus.
Local Open Scope Z_scope.

Definition px_tables : ptables := mkPt [(1, (8, 77)); (0, (8, 77))] (d_defs (fst ux_start)).
Definition px_go (i o d : Z) : bool := true.
Definition px (full : bool) (l : list Z) : option report := match probe_scan 8 3 full 100 px_tables px_go [248; 6] l with Ok (rep, _) => Some rep | _ => None end.

(* The units of C57_ex, without the temporal delimiter that was added to one by hand. *)
Definition strip (u : tunit) : tunit := mkTU (tu_blocks u) (tu_frames u) (filter (fun a => negb (ar_type a =? kTemporalDelimiter)) (tu_arb u)) (tu_start u) (tu_trim u) (tu_un u).
Definition pxu : list tunit := map strip ux.
Definition pxu_bytes (delims : bool) : list (list Z) := map (fun u => match serialize (write_unit LebMin delims u) true with Ok b => b | _ => [] end) pxu.
Lemma strip_playable D n us : playable D n us -> playable D n (map strip us).
Proof.
  intros P earlier u later E. apply map_eq_app in E as (e1 & r & -> & <- & E). apply map_eq_cons in E as (v & l1 & -> & <- & <-).
  destruct (P e1 v l1 eq_refl) as (A1 & A2 & A3 & A4 & A5 & A6). unfold unit_ok, strip. cbn [tu_start Sequencer.tu_frames Sequencer.tu_blocks tu_arb]. fold strip.
  split; [rewrite A1; unfold zlen; rewrite map_length; reflexivity|]. split; [exact A2|]. split; [exact A3|]. split; [exact A4|]. split.
  - eapply Forall_impl; [|exact A5]. intros b (B1 & (C1 & C2 & C3 & C4 & C5) & B3). split; [exact B1|]. split; [|exact B3]. split; [exact C1|]. split; [exact C2|]. split; [exact C3|]. split; [exact C4|]. rewrite <- C5. unfold lasting. do 2 f_equal.
    clear. induction e1 as [|x e1 IH]; [reflexivity|]. cbn [map flat_map]. rewrite IH. reflexivity.
  - apply Forall_forall. intros a Ha. apply filter_In in Ha as [Ha _]. rewrite Forall_forall in A6. auto.
Qed.
Lemma pxu_written delims : written_units LebMin delims pxu (pxu_bytes delims).
Proof. destruct delims; unfold written_units, pxu_bytes, pxu, ux; cbn [map]; repeat (apply Forall2_cons; [vm_compute; reflexivity|]); constructor. Qed.

(* The units of C57_ex, followed by nothing: all hypotheses of C66_units hold, and the report is not trivial. *)
Example C66_ex : let D := fst ux_start in let subs := flat_map ai_subs (d_aes D) in
  NoDup subs /\ subs = [0; 1] /\ (forall id, In id subs -> size_of px_tables id = 8) /\ pt_defs px_tables = d_defs D /\ playable D 8 pxu /\ Forall undelimited pxu /\
  written_units LebMin true pxu (pxu_bytes true) /\ zlen (concat (pxu_bytes true)) = 65 /\ follows [] Eof /\
  px true (concat (pxu_bytes true)) =
    Some (mkRp 3 6 2 3 0 0 [(0, mkSu 77 3 24); (1, mkSu 77 3 24)]
            [mkBr (pd_type (pd_kind (sx_gain 64))) 0 16 (sx_gain 64) (mkBlk 64 (Some (Params.mkS 16 16 1 [])) [Some (DStep 1000)]);
             mkBr (pd_type (pd_kind (sx_gain 64))) 16 24 (sx_gain 64) (mkBlk 64 (Some (Params.mkS 8 8 1 [])) [Some (DStep (-1000))])]
            [mkEn 0 8 0 0 0; mkEn 8 8 25 0 0; mkEn 16 8 39 0 0] (Some 24) 65 Eof) /\
  px false (concat (pxu_bytes true)) = Some (mkRp 3 6 2 3 0 0 [(0, mkSu 77 3 24); (1, mkSu 77 3 24)] [] [] (Some 24) 65 Eof).
Proof.
  assert (flat_map ai_subs (d_aes (fst ux_start)) = [0; 1]) as Es by (vm_compute; reflexivity).
  cbv zeta. rewrite Es. split; [repeat constructor; cbn [In]; intuition congruence|]. split; [reflexivity|]. split; [intros id [<-|[<-|[]]]; reflexivity|]. split; [reflexivity|]. split; [apply strip_playable, ux_playable|].
  split; [vm_compute; repeat constructor; discriminate|]. split; [apply pxu_written|]. split; [vm_compute; reflexivity|]. split; [left; auto|]. split; vm_compute; reflexivity.
Qed.
(* Without delimiters: the unit of the third entry begins at byte 35 with its parameter block, but the entry points at its first audio frame. *)
Example C66_offset_ex : map (@length Z) (pxu_bytes false) = [23; 12; 24]%nat /\
  option_map (fun rep => map en_offset (rp_entries rep)) (px true (concat (pxu_bytes false))) = Some [0; 23; 35 + 8].
Proof. split; vm_compute; reflexivity. Qed.

(* What C66 does not say, because it is false.
   1. Every iteration consumes bytes (probe.cc:1012-1014 "Each iteration must consume bytes", 1258-1263, probe.h:569).  Six bytes -- any byte that does not matter, and the
   size 2^32 - 6 -- use up every budget: the sum of the sizes wraps around to 0, and the code goes on to the next OBU 0 bytes further. *)
Definition spin : list Z := [8; 250; 255; 255; 255; 15].
Lemma look_spin full T rest : look full T (spin ++ rest) = VNext 0 EOther.
Proof.
  unfold look, spin. cbn [app]. destruct (fill_cons 8 (250 :: 255 :: 255 :: 255 :: 15 :: rest)) as [t ->]. change (250 :: 255 :: 255 :: 255 :: 15 :: rest) with ([250; 255; 255; 255; 15] ++ rest).
  rewrite leb_begins; [|cbn [is_leb]; lia|cbn [length]; lia|reflexivity]. cbn [fst snd]. change (u32 (uleb_value [250; 255; 255; 255; 15] + zlen [250; 255; 255; 255; 15] + 1)) with 0.
  pose proof (zlen_nonneg (8 :: [250; 255; 255; 255; 15] ++ rest)). replace (zlen _ <? 0) with false by lia. cbn [Z.to_nat firstn]. reflexivity.
Qed.
Theorem C66_spins : forall fuel cap full budget T go before rest,
  (8 <= fuel)%nat -> (1 <= cap)%nat -> Forall byteP (before ++ spin ++ rest) -> zlen (spin ++ rest) < 2^32 - 64 -> (forall i o d, go i o d = true) ->
  exists rep, probe_scan fuel cap full budget T go before (spin ++ rest) = Ok (rep, 8 * zlen before) /\ rp_stop rep = BudgetExceeded /\ rp_bytes rep = 0 /\
    rp_frames rep = 0 /\ rp_blocks rep = 0 /\ rp_delims rep = 0 /\ rp_frame_errors rep = 0 /\ rp_block_errors rep = 0.
Proof.
  intros fuel cap full budget T go before rest Hf Hc Hb Hl Hgo. destruct (scan_walked fuel cap full budget T go before (spin ++ rest) Hf Hc Hb Hl) as (q & E & Eq). unfold probe_scan. rewrite E. clear E. unfold walked in *.
  assert (forall k i s, walk full T go k i 0 s (spin ++ rest) = (BudgetExceeded, 0, s)) as W.
  { induction k as [|k IH]; intros i s; cbn [walk]; [reflexivity|]. rewrite Hgo, look_spin. cbn [negb Z.to_nat skipn tally Z.add]. apply IH. }
  rewrite W in *. cbn [conclude rp_bytes] in Eq. subst q. eexists. split; [do 2 f_equal; lia|]. repeat split.
Qed.
Example C66_spins_ex : Forall byteP ([248; 6] ++ spin ++ []) /\ option_map rp_stop (px true spin) = Some BudgetExceeded.
Proof. split; [repeat constructor; unfold byteP; lia|vm_compute; reflexivity]. Qed.
(* 2. The index has temporal_unit_count entries (probe.cc:990-993 "consistent with temporal_unit_count").  Two frames of substream 0, then two of 1: 3 entries,
   2 units.  A delimiter without frames: 1 entry, 2 units. *)
Theorem C66_index_size_differs :
  ~ (forall l rep, Forall byteP l -> px true l = Some rep -> zlen (rp_entries rep) <= rp_units rep) /\
  ~ (forall l rep, Forall byteP l -> px true l = Some rep -> rp_units rep <= zlen (rp_entries rep)).
Proof.
  split; intro H.
  - specialize (H [48; 1; 9; 48; 1; 9; 56; 1; 9; 56; 1; 9]). assert (exists rep, px true [48; 1; 9; 48; 1; 9; 56; 1; 9; 56; 1; 9] = Some rep /\ zlen (rp_entries rep) = 3 /\ rp_units rep = 2) as (rep & E1 & E2 & E3) by (eexists; vm_compute; split; [reflexivity|split; reflexivity]).
    specialize (H rep ltac:(repeat constructor; unfold byteP; lia) E1). lia.
  - specialize (H [32; 0; 32; 0; 48; 1; 9]). assert (exists rep, px true [32; 0; 32; 0; 48; 1; 9] = Some rep /\ zlen (rp_entries rep) = 1 /\ rp_units rep = 2) as (rep & E1 & E2 & E3) by (eexists; vm_compute; split; [reflexivity|split; reflexivity]).
    specialize (H rep ltac:(repeat constructor; unfold byteP; lia) E1). lia.
Qed.
(* 3. A quick scan takes the ID of an empty parameter block from the OBU after it (here an audio frame of substream 2, whose first byte is 64) and counts it. *)
Example C66_quick_ex : option_map (fun r => (rp_blocks r, rp_block_errors r, rp_frames r)) (px false [24; 0; 64; 1; 9]) = Some (1, 0, 1) /\
  option_map (fun r => (rp_blocks r, rp_block_errors r, rp_frames r)) (px true [24; 0; 64; 1; 9]) = Some (0, 1, 1).
Proof. split; vm_compute; reflexivity. Qed.
(* Broken bytes: an unreadable header is skipped, a frame without an ID is an error, then a sequence header. *)
Example C66_obus_ex : Forall byteP [59; 1; 128; 40; 0; 48; 1; 9; 248; 0] /\
  cut [59; 1; 128; 40; 0; 48; 1; 9; 248; 0] [[59; 1; 128]; [40; 0]; [48; 1; 9]] [248; 0] /\ Forall2 says [[59; 1; 128]; [40; 0]; [48; 1; 9]] [TOther; TBadFrame; TFrame 0 0 0] /\ stops [248; 0] NextSequence /\
  option_map (fun r => (rp_frames r, rp_frame_errors r, rp_bytes r, rp_stop r)) (px true [59; 1; 128; 40; 0; 48; 1; 9; 248; 0]) = Some (1, 1, 8, NextSequence).
Proof.
  split; [repeat constructor; unfold byteP; lia|].
  assert (forall b n body, 0 <= n < 128 -> begins (b :: n :: body) (2 + n)) as Bg.
  { intros b n body Hn. exists b, [n], body. cbn [app is_leb length uleb_value]. change (zlen [n]) with 1. rewrite (Z.mod_small n) by lia. split; [reflexivity|]. change (2^32) with 4294967296. split; [lia|]. split; [lia|]. split; [lia|]. rewrite Z.mod_small; lia. }
  split.
  { apply (cut_more [59; 1; 128; 40; 0; 48; 1; 9; 248; 0] 3); [apply Bg; lia|unfold zlen; cbn [length]; lia|]. apply (cut_more [40; 0; 48; 1; 9; 248; 0] 2); [apply Bg; lia|unfold zlen; cbn [length]; lia|].
    apply (cut_more [48; 1; 9; 248; 0] 3); [apply Bg; lia|unfold zlen; cbn [length]; lia|]. apply cut_end. }
  split.
  { apply Forall2_cons; [left; intros h p Q; vm_compute in Q; discriminate Q|]. apply Forall2_cons.
    - eexists _, []. split; [vm_compute; reflexivity|]. split; [reflexivity|]. intros v (s & body & E & L & _). destruct s; [destruct L|discriminate E].
    - apply Forall2_cons; [|constructor]. eexists _, [9]. split; [vm_compute; reflexivity|]. split; [reflexivity|]. split; [reflexivity|]. left. vm_compute. repeat split; discriminate. }
  split; [|vm_compute; reflexivity]. eexists _, 2. split; [apply (Bg 248 0 []); lia|]. split; [unfold zlen; cbn [length]; lia|]. split; [exists []; vm_compute; reflexivity|]. split; reflexivity.
Qed.
