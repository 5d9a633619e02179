(* C51: how a stream is cut into Decode calls does not matter, from the first byte of the descriptors on. *)
From Coq Require Import Reals.
From Flocq Require Import Core BinarySingleNaN.
From Verif Require Import Base WriteBuf ReadBuf Leb BufSpec LebSpec BitFacts WriteBufFacts ReadBufFacts LebFacts
  ParseFacts EndToEnd ObuHeader ObuHeaderFacts FrameFacts SeqFacts PureFacts SimpleObus CodecConfig Params AudioElement MixPresentation
  Timing ParamManager AeData Profile MixSelect Processor PropsObu ProcFacts StreamSpec StreamFacts Session SessionFacts PropsProc PropsSession
  DecoderFacts Reorder Pcm PropsPcm PropsLoss DecoderApi PropsDecoder PropsDecoderStream Descriptors DescFacts MixStable PropsCreate.
Local Open Scope Z_scope.

(* ---- more data ---- *)
Lemma skipn_app_le {A} n (l e : list A) : (n <= length l)%nat -> skipn n (l ++ e) = skipn n l ++ e.
Proof. intro H. rewrite skipn_app. replace (n - length l)%nat with O by lia. reflexivity. Qed.
Lemma firstn_app_le {A} n (l e : list A) : (n <= length l)%nat -> firstn n (l ++ e) = firstn n l.
Proof. intro H. rewrite firstn_app. replace (n - length l)%nat with O by lia. cbn [firstn]. apply app_nil_r. Qed.
Lemma dscan_ext : forall k bits s e p o, (p <= length s)%nat ->
  dscan k bits false s p o = DWait \/ dscan k bits false (s ++ e) p o = dscan k bits false s p o.
Proof.
  induction k as [|k IH]; intros bits s e p o Hp; cbn [dscan]; [right; reflexivity|].
  rewrite skipn_app_le, bytes_bits_app by exact Hp.
  pose proof (prun_ext fill_header_metadata (bytes_bits (skipn p s)) (bytes_bits e)) as X.
  destruct (prun fill_header_metadata (bytes_bits (skipn p s))) as [|er|[t total] r]; [left; reflexivity|right; rewrite X; reflexivity|].
  rewrite X. destruct (temporal_unit_type t); [right; reflexivity|]. destruct (zlen (skipn p s) <? total) eqn:Et; [left; reflexivity|].
  replace (zlen (skipn p s ++ e) <? total) with false by (unfold zlen in *; rewrite app_length; lia).
  unfold zlen in Et. rewrite skipn_length in Et. cbv zeta. rewrite firstn_app_le by lia.
  destruct (arun read_header _) as [[[h n]| | | |] c]; try (right; reflexivity). destruct (fst (arun _ c)) as [[|[o1| | | |]]| | | |]; cbn [andb]; try (right; reflexivity).
  - cbn [andb]. destruct (do_seq o1); [|right; reflexivity]. apply IH. lia.
  - cbn [andb]. destruct (do_seq o); [|right; reflexivity]. apply IH. lia.
Qed.
Lemma obu_at_ext s e p h n q : (p <= length s)%nat -> obu_at s p h n q -> obu_at (s ++ e) p h n q.
Proof.
  intros Hp (E & Hn & Hq). split; [|split; [exact Hn|unfold zlen in *; rewrite app_length; lia]].
  pose proof (fw_ext read_header (fw_pure _ pure_header) (at_byte s p) (bytes_bits e) (at_byte_cok s p Hp)) as X. rewrite E, <- !at_byte_ext in X. exact X.
Qed.
Lemma obu_at_le s p h n q : obu_at s p h n q -> (q + Z.to_nat n <= length s)%nat.
Proof. intros (_ & Hn & Hq). unfold zlen in Hq. lia. Qed.
Lemma desc_start_le s p : desc_start s p -> (p <= length s)%nat.
Proof. intro H. destruct H as [|p h n q _ Ho _]; [lia|]. exact (obu_at_le _ _ _ _ _ Ho). Qed.
Lemma desc_start_ext s e p : desc_start s p -> desc_start (s ++ e) p.
Proof. intro H. induction H as [|p h n q Hd IH Ho Ht]; [constructor|]. eapply DS_next; [exact IH|apply obu_at_ext; [apply desc_start_le, Hd|exact Ho]|exact Ht]. Qed.
Lemma known_prefix s e : mixes_known (s ++ e) -> mixes_known s.
Proof.
  intros H p h n q m f c1 Hd Ho Ht E. apply (H p h n q m f c1); [apply desc_start_ext, Hd|apply obu_at_ext; [apply desc_start_le, Hd|exact Ho]|exact Ht|].
  rewrite firstn_app_le by exact (obu_at_le _ _ _ _ _ Ho). exact E.
Qed.

(* ---- creating the processor from a byte string ---- *)
Section Create.
Context {R : Type} (configure : aemap -> mixp -> res R) (ps : profiles) (bits : Z) (fuel k : nat)
        (render : R -> outunit -> frame -> res frame * frame * R).
Notation e := (real_env configure ps bits k render).
Hypothesis Hf : (8 <= fuel)%nat.
Definition creation (q : request) (o : dobus) : res (option (newproc R) * bool) :=
  match rbind (initialize o) (fun y => rbind (prepare_rendering configure ps q o) (fun z => Ok (y, z))) with
  | Ok ((D, s), (mix, l, r)) =>
      Ok (Some (mkNP D s r (Ok mix) (Ok l) (answer (option_map fst (rate_and_size (do_codecs o))))
                      (answer (option_map snd (rate_and_size (do_codecs o))))), false)
  | Err _ => Ok (None, false)
  | Abort => Abort | UB => UB | Diverge => Diverge
  end.
Definition small (l : list Z) : Prop := (length l <= Z.to_nat (2^22))%nat.
Lemma small_z l : small l -> zlen l < 2^32 - 64.
Proof. unfold small, zlen. change (Z.to_nat (2^22)) with (Z.to_nat 4194304). change (2^32) with 4294967296. lia. Qed.
Lemma create_on ex q l : mixes_known l -> small l ->
  match dscan k bits ex l 0 do_empty with
  | DWait => arun (e_create e ex q) (at_byte l 0) = (Ok (Ok (None, true)), at_byte l 0)
  | DFail => exists c', arun (e_create e ex q) (at_byte l 0) = (Ok (Ok (None, false)), c')
  | DDone o p => (p <= length l)%nat /\ arun (e_create e ex q) (at_byte l 0) = (Ok (creation q o), at_byte l p)
  | DCrash => exists r c', arun (e_create e ex q) (at_byte l 0) = (Ok r, c') /\ crashed r = true
  end.
Proof.
  intros Hm Hs. cbn [real_env e_create]. unfold create_for_rendering, process_descriptors. rewrite arun_bind, arun_rcatch, arun_bind, arun_rtell.
  change (mkC (c_bits (at_byte l 0)) (c_pos (at_byte l 0)) (Some true)) with (at_byte l 0). change (Z.of_nat (c_pos (at_byte l 0))) with 0.
  pose proof (loop_refines k bits ex 0 l 0 do_empty (known_stable _ Hm) (small_z _ Hs) ltac:(unfold zlen; lia) (DS_first l) ltac:(lia)) as X.
  destruct (dscan k bits ex l 0 do_empty) as [| |o p|]; cbn [refines] in X.
  - rewrite X. reflexivity.
  - destruct X as (er & c' & ->). cbn [arun]. eauto.
  - destruct X as [-> Hp]. split; [lia|]. cbn [arun]. unfold creation. destruct (rbind _ _) as [[[D s] [[mix lay] r]]| | | |]; reflexivity.
  - destruct X as (x & c' & -> & Hx). cbn [arun]. destruct x; try discriminate Hx; eexists _, _; (split; [reflexivity|reflexivity]).
Qed.
Lemma create_prog_on ex q l v : Forall byteP l -> mixes_known l -> small l ->
  let r := arun (create_prog e ex q) (mkC (bytes_bits l) 0 v) in
  match dscan k bits ex l 0 do_empty with
  | DWait => r = (Ok (Err (if ex then InvalidArgument else ResourceExhausted)), at_byte l 0)
  | DFail => exists c', r = (Ok (Err InvalidArgument), c')
  | DDone o p => (p <= length l)%nat /\
      match creation q o with
      | Ok (Some np, _) => r = (Ok (Ok (np, firstn p l)), at_byte l p)
      | Ok (None, _) => exists c', r = (Ok (Err InvalidArgument), c')
      | _ => exists y c', r = (Ok y, c') /\ crashed y = true
      end
  | DCrash => exists y c', r = (Ok y, c') /\ crashed y = true
  end.
Proof.
  intros Hb Hm Hs r. pose proof (create_on ex q l Hm Hs) as X. unfold r, create_prog. rewrite arun_bind, arun_rtell. cbn [c_bits c_pos].
  change (mkC (bytes_bits l) 0 (Some true)) with (at_byte l 0). rewrite arun_bind, arun_rcatch. change (Z.of_nat 0) with 0.
  destruct (dscan k bits ex l 0 do_empty) as [| |o p|].
  - rewrite X. destruct ex; reflexivity.
  - destruct X as (c' & ->). cbn [arun]. eauto.
  - destruct X as [Hp X]. split; [exact Hp|]. rewrite X. destruct (creation q o) as [[[np|] ins]|er| | |] eqn:Ecr; cbn [arun crash]; eauto.
    + rewrite arun_bind, arun_rtell. change (mkC (c_bits (at_byte l p)) (c_pos (at_byte l p)) (Some true)) with (at_byte l p). cbn [c_pos at_byte].
      cbv zeta. rewrite Z.sub_0_r. replace (Z.of_nat (8 * p)) with (Z.of_nat p * 8) by lia. rewrite Z.quot_mul by discriminate.
      replace (Z.of_nat p <? 0) with false by lia. rewrite arun_bind. unfold at_byte at 1. rewrite arun_rseek_ok by (unfold zlen; lia). change (Z.to_nat 0) with (8 * 0)%nat.
      fold (at_byte l 0). rewrite Nat2Z.id, arun_bind. pose proof (arun_span p (at_byte l 0) (at_byte_cok l 0 ltac:(lia))) as Sp. cbn [c_bits c_pos at_byte] in Sp.
      rewrite bytes_bits_length in Sp. replace (8 * p <=? 8 * length l - 8 * 0)%nat with true in Sp by lia. destruct Sp as (l' & v' & Sp & L' & B' & Bb).
      fold (at_byte l 0) in Sp. rewrite Sp. cbn [arun]. assert (l' = firstn p l) as ->.
      { apply bytes_bits_inj; [exact B'| |].
        - rewrite <- (firstn_skipn p l) in Hb. apply Forall_app in Hb. apply Hb.
        - rewrite Bb, bytes_bits_firstn. reflexivity. }
      destruct (arun_valid (rspan p) (at_byte l 0) eq_refl) as [V _]. rewrite Sp in V. cbn [snd c_valid] in V. rewrite V. reflexivity.
    + unfold creation in Ecr. destruct (rbind _ _) as [[[? ?] [[? ?] ?]]| | | |]; try discriminate; injection Ecr as <-; cbn [andb arun]; eauto.
    + unfold creation in Ecr. destruct (rbind _ _) as [[[? ?] [[? ?] ?]]| | | |]; discriminate.
  - destruct X as (x & c' & X & Hx). rewrite X. destruct x; try discriminate Hx; cbn [arun crash]; eexists _, _; (split; [reflexivity|reflexivity]).
Qed.

(* ---- a decoder which has not got all descriptors ---- *)
Definition fixed (q : request) (sch : scheme) (ty : sample_type) (d : dstate request R) : Prop :=
  ds_req d = q /\ ds_scheme d = sch /\ ds_type d = ty /\ ds_reord d = None.
Definition waiting (d : dstate request R) (l : list Z) : Prop :=
  ds_proc d = None /\ ds_ended d = false /\ ds_fromd d = false /\ ds_frame d = [] /\ small l /\ exists v, rrel (ds_buf d) (mkC (bytes_bits l) 0 v).
Definition made (d : dstate request R) (np : newproc R) (desc rest : list Z) : Prop :=
  ds_desc d = desc /\ ds_ended d = false /\ ds_fromd d = false /\ ds_frame d = [] /\ unread (ds_buf d) rest /\
  ds_proc d = Some (mkP (np_D np) (np_s np) (mkU tud_empty tud_empty) (np_R np) (np_rate np) (np_size np) (ds_gen d)) /\
  exists mix lay, np_mix np = Ok mix /\ np_layout np = Ok lay /\ ds_mix d = Some (mix, lay).
Lemma made_fresh d np desc rest : made d np desc rest -> fresh d (np_D np) (np_s np) (np_R np) rest.
Proof. intros (_ & M1 & M2 & M3 & M4 & M5 & _). unfold fresh. eauto 10. Qed.

Lemma creation_cases q o : (exists np mix lay, creation q o = Ok (Some np, false) /\ np_mix np = Ok mix /\ np_layout np = Ok lay) \/
  creation q o = Ok (None, false) \/ crashed (creation q o) = true.
Proof.
  unfold creation. destruct (rbind _ _) as [[[D s] [[mix lay] r]]| | | |]; [left|right; left|right; right..]; try reflexivity.
  eexists _, _, _. split; [reflexivity|]. cbn [np_mix np_layout]. auto.
Qed.

Lemma decode_waiting q sch ty d l x r d1 : waiting d l -> fixed q sch ty d -> Forall byteP l -> Forall byteP x -> mixes_known (l ++ x) ->
  small (l ++ x) -> step fuel k e (CDecode x) d = (r, d1) ->
  fixed q sch ty d1 /\ r_rendered r = [] /\ r_bytes r = [] /\
  match dscan k bits false (l ++ x) 0 do_empty with
  | DWait => r_status r = Ok tt /\ waiting d1 (l ++ x)
  | DFail => r_status r = Err Unknown /\ complete d1 = false
  | DDone o p => (p <= length (l ++ x))%nat /\
      match creation q o with
      | Ok (Some np, _) => r_status r = Ok tt /\ made d1 np (firstn p (l ++ x)) (skipn p (l ++ x))
      | Ok (None, _) => r_status r = Err Unknown /\ complete d1 = false
      | _ => crashed (r_status r) = true
      end
  | DCrash => crashed (r_status r) = true
  end.
Proof.
  intros (W1 & W2 & W3 & W4 & W5 & v & W6) (F1 & F2 & F3 & F4) Bl Bx Hm Hs E. cbn [step] in E. unfold decode in E. rewrite W2 in E.
  assert (exists b1, r_push x (ds_buf d) = (Ok tt, b1) /\ rrel b1 (mkC (bytes_bits (l ++ x)) 0 v)) as (b1 & Ep & Rb).
  { unfold small in *. pose proof (rrel_len _ _ W6) as Lr. cbn [c_bits] in Lr. rewrite bytes_bits_length in Lr. rewrite app_length in Hs.
    assert (exists b1, r_push x (ds_buf d) = (Ok tt, b1)) as [b1 Eb].
    { unfold r_push. change (Z.to_nat (2^22)) with (Z.to_nat 4194304) in *. change (2^22) with 4194304. unfold u64, zlen.
      rewrite Z.mod_small by (change (2^64) with 18446744073709551616; lia). replace (_ >? _) with false by lia. eauto. }
    exists b1. split; [exact Eb|]. destruct (push_ok _ _ _ _ W6 ltac:(cbn [c_bits]; rewrite bytes_bits_length; lia) Bx Eb) as [R1 _].
    cbn [c_bits c_pos c_valid] in R1. rewrite <- bytes_bits_app in R1. exact R1. }
  rewrite Ep in E. cbn [ds_proc set_buf] in E. rewrite W1 in E.
  destruct (create_processor fuel e (set_buf d b1)) as [y d2] eqn:Ec. injection E as <- <-. cbn [r_status r_rendered r_bytes].
  pose proof (create_processor_kept _ _ _ _ _ Ec) as (Kty & Kfd & Ksc & Krq & Kgen & Ken & Kro & Kfr & _ & Kbad). cbn [ds_type ds_fromd ds_scheme ds_req ds_gen ds_ended ds_reord ds_frame ds_proc set_buf] in *.
  split; [unfold fixed; rewrite Krq, Ksc, Kty, Kro; auto|]. split; [reflexivity|]. split; [reflexivity|].
  unfold create_processor in Ec. cbn [ds_fromd ds_req ds_buf set_buf] in Ec. rewrite W3, F1 in Ec.
  destruct (crun_refines fuel (create_prog e false q) Hf b1 _ Rb) as [Er R1].
  pose proof (create_prog_on false q (l ++ x) v ltac:(apply Forall_app; auto) Hm Hs) as X. cbv zeta in X.
  destruct (crun fuel (create_prog e false q) b1) as [z b2], (arun (create_prog e false q) (mkC (bytes_bits (l ++ x)) 0 v)) as [z' c2] eqn:Ea. cbn [fst snd] in Er, R1. subst z'.
  destruct (dscan k bits false (l ++ x) 0 do_empty) as [| |o p|].
  - injection X as -> ->. injection Ec as <- <-. split; [reflexivity|]. unfold waiting. cbn [ds_proc ds_ended ds_fromd ds_frame ds_buf set_buf].
    split; [exact W1|]. split; [exact W2|]. split; [exact W3|]. split; [exact W4|]. split; [exact Hs|]. exists (Some true). exact R1.
  - destruct X as (c' & X). injection X as -> ->. injection Ec as <- <-. split; [reflexivity|]. unfold complete. cbn [ds_proc set_buf]. rewrite W1. reflexivity.
  - destruct X as [Hp X]. split; [exact Hp|]. destruct (creation_cases q o) as [(np & mix & lay & Ecr & Em & El)|[Ecr|Ecr]].
    + rewrite Ecr in X |- *. injection X as -> ->. destruct (rrel_flush _ _ R1) as (b3 & Ef & R3). rewrite Ef, Em, El in Ec. injection Ec as <- <-.
      split; [reflexivity|]. unfold made. cbn [ds_desc ds_ended ds_fromd ds_frame ds_buf ds_proc ds_mix ds_gen set_proc set_mix set_buf set_desc].
      split; [reflexivity|]. split; [exact W2|]. split; [exact W3|]. split; [exact W4|]. split; [|split; [reflexivity|eauto]].
      eexists. split; [exact R3|]. assert (on (at_byte (l ++ x) p) (skipn p (l ++ x))) as On2 by (split; [apply at_byte_cok; exact Hp|apply at_byte_skip]).
      split; [exact (on_flush _ _ On2)|]. unfold small in Hs. cbn [c_bits]. rewrite skipn_length. cbn [at_byte c_bits]. rewrite bytes_bits_length. lia.
    + rewrite Ecr in X |- *. destruct X as (c' & X). injection X as -> ->. injection Ec as <- <-. split; [reflexivity|]. unfold complete. cbn [ds_proc set_buf]. rewrite W1. reflexivity.
    + assert (exists y2 c', (z, c2) = (Ok y2, c') /\ crashed y2 = true) as (y2 & c' & X2 & Y) by (destruct (creation q o) as [[[?|] ?]| | | |]; try discriminate Ecr; exact X).
      destruct (creation q o) as [[[?|] ?]| | | |]; try discriminate Ecr; injection X2 as -> ->; destruct y2 as [?| | | |]; try discriminate Y; injection Ec as <- <-; reflexivity.
  - destruct X as (y2 & c' & X2 & Y). injection X2 as -> ->. destruct y2 as [?| | | |]; try discriminate Y; injection Ec as <- <-; reflexivity.
Qed.

Lemma waiting_create q sch ty : waiting (create q sch ty) [] /\ fixed q sch ty (create q sch ty).
Proof.
  split; [|unfold fixed; cbn; auto]. unfold waiting. cbn [create ds_proc ds_ended ds_fromd ds_frame ds_buf]. repeat (split; [reflexivity|]).
  split; [unfold small; cbn [length]; lia|]. pose proof (srel_init 1024 ltac:(lia)) as [R0 _]. change (view s_empty) with (mkC [] 0 None) in R0. exists None. exact R0.
Qed.
Lemma decode_small d l x r d1 : waiting d l -> Forall byteP x -> step fuel k e (CDecode x) d = (r, d1) -> r_status r = Ok tt -> small (l ++ x).
Proof.
  intros (W1 & W2 & W3 & W4 & W5 & v & W6) Bx E S0. cbn [step] in E. unfold decode in E. rewrite W2 in E. unfold small in *.
  destruct (r_push x (ds_buf d)) as [z b1] eqn:Ep. destruct z as [[]| | | |]; try (injection E as <- <-; discriminate S0).
  destruct (push_ok _ _ _ _ W6 ltac:(cbn [c_bits]; rewrite bytes_bits_length; lia) Bx Ep) as [_ L]. cbn [c_bits] in L. rewrite <- bytes_bits_app, bytes_bits_length in L. lia.
Qed.

(* After the end has been signalled, Decode fails. *)
Lemma step_ended c (d : dstate request R) r d1 : is_reset c = false -> ds_ended d = true -> step fuel k e c d = (r, d1) ->
  ds_ended d1 = true /\ (complete d = false -> complete d1 = false) /\ match c with CDecode _ => r_status r <> Ok tt | _ => True end.
Proof.
  intros Nr En E. destruct c as [x|sp| | |m]; try discriminate Nr; cbn [step] in E.
  - unfold decode in E. rewrite En in E. injection E as <- <-. split; [exact En|]. split; [auto|]. cbn. discriminate.
  - unfold get_unit in E. destruct (ds_frame d); [injection E as <- <-; auto|].
    assert (forall ev (d0 : dstate request R) z d2 fs, ds_ended d0 = true -> (complete d = false -> complete d0 = false) -> decode_one fuel k e ev d0 = (z, d2, fs) ->
      ds_ended d2 = true /\ (complete d = false -> complete d2 = false)) as X.
    { intros ev d0 z d2 fs H0 Hc H. destruct (decode_one_kept _ _ _ _ _ _ _ _ H) as ((_ & _ & _ & _ & _ & _ & _ & Hr & _) & H2 & _). split; [congruence|].
      intro Hd. specialize (Hc Hd). unfold complete in *. destruct (ds_proc d0); [discriminate|]. destruct (ds_proc d2); [discriminate Hr|reflexivity]. }
    destruct (write_frame_to_span _ _ _ _) as [[z sp1] w]. destruct z as [?|?| | |]; try (injection E as <- <-; auto);
      destruct (decode_one fuel k e _ _) as [[z2 d2] fs] eqn:E1; injection E as <- <-; (apply X in E1; [tauto|exact En|auto]).
  - unfold signal_end in E. cbn [ds_fromd ds_frame ds_proc set_ended] in E.
    assert (ds_ended (set_ended d true) = true) as E0 by reflexivity. assert (complete (set_ended d true) = complete d) as C0 by reflexivity.
    destruct (ds_fromd d); [injection E as <- <-; rewrite C0; auto|]. destruct (ds_frame d); [|injection E as <- <-; rewrite C0; auto].
    destruct (ds_proc d) eqn:Ep; [|injection E as <- <-; rewrite C0; auto].
    destruct (decode_one fuel k e true (set_ended d true)) as [[z2 d2] fs] eqn:E1. injection E as <- <-.
    destruct (decode_one_kept _ _ _ _ _ _ _ _ E1) as (_ & H2 & _). split; [rewrite H2; reflexivity|]. split; [|exact I]. unfold complete. rewrite Ep. discriminate.
Qed.
Lemma calls_ok_cons c cs (d : dstate request R) rs d1 : calls fuel k e (c :: cs) d = (rs, d1) -> all_ok rs ->
  exists r d2 rs', rs = r :: rs' /\ step fuel k e c d = (r, d2) /\ r_status r = Ok tt /\ calls fuel k e cs d2 = (rs', d1) /\ all_ok rs' /\
    deliveries fuel k e (c :: cs) d = (match c with CGet _ => if available d then [r_bytes r] else [] | _ => [] end) ++ deliveries fuel k e cs d2.
Proof.
  intros E Oks. cbn [calls deliveries] in *. destruct (step fuel k e c d) as [r d2]. destruct (crashed (r_status r)) eqn:C.
  - injection E as <- <-. apply Forall_cons_iff in Oks as [O _]. rewrite O in C. discriminate.
  - destruct (calls fuel k e cs d2) as [rs' d3] eqn:E2. injection E as <- <-. apply Forall_cons_iff in Oks as [O Oks]. eexists r, d2, rs'. auto 10.
Qed.
Lemma ended_calls cs : forall (d : dstate request R) rs d1, existsb is_reset cs = false -> ds_ended d = true -> complete d = false ->
  calls fuel k e cs d = (rs, d1) -> all_ok rs -> complete d1 = false.
Proof.
  induction cs as [|c cs IH]; intros d rs d1 Nr En Cd E Oks.
  - cbn [calls] in E. injection E as <- <-. exact Cd.
  - cbn [existsb] in Nr. apply orb_false_iff in Nr as [N1 N2]. destruct (calls_ok_cons _ _ _ _ _ E Oks) as (r & d2 & rs' & -> & Es & _ & E2 & Ok2 & _).
    destruct (step_ended _ _ _ _ N1 En Es) as (En2 & C2 & _). eapply IH; eauto.
Qed.
Lemma ended_no_decode cs x cb : forall (d : dstate request R) rs d1, existsb is_reset cs = false -> ds_ended d = true ->
  calls fuel k e (cs ++ CDecode x :: cb) d = (rs, d1) -> all_ok rs -> False.
Proof.
  induction cs as [|c cs IH]; intros d rs d1 Nr En E Oks; cbn [app] in E; destruct (calls_ok_cons _ _ _ _ _ E Oks) as (r & d2 & rs' & -> & Es & Or & E2 & Ok2 & _).
  - destruct (step_ended (CDecode x) _ _ _ eq_refl En Es) as (_ & _ & F). exact (F Or).
  - cbn [existsb] in Nr. apply orb_false_iff in Nr as [N1 N2]. destruct (step_ended _ _ _ _ N1 En Es) as (En2 & _ & _). eapply IH; eauto.
Qed.

(* The call which completes the descriptors. *)
Lemma first_complete q sch ty cs : forall d l rs d1, waiting d l -> fixed q sch ty d -> existsb is_reset cs = false -> Forall byteP l -> Forall byteP (pushed cs) ->
  mixes_known (l ++ pushed cs) -> calls fuel k e cs d = (rs, d1) -> all_ok rs ->
  (complete d1 = false) \/
  exists cs0 x cs1 o p np dm rs1, cs = cs0 ++ CDecode x :: cs1 /\ dscan k bits false (l ++ pushed cs0 ++ x) 0 do_empty = DDone o p /\
    creation q o = Ok (Some np, false) /\ (p <= length (l ++ pushed cs0 ++ x))%nat /\
    made dm np (firstn p (l ++ pushed cs0 ++ x)) (skipn p (l ++ pushed cs0 ++ x)) /\ fixed q sch ty dm /\
    calls fuel k e cs1 dm = (rs1, d1) /\ all_ok rs1 /\ flat_map r_rendered rs = flat_map r_rendered rs1 /\
    deliveries fuel k e cs d = deliveries fuel k e cs1 dm.
Proof.
  induction cs as [|c cs IH]; intros d l rs d1 W F Nr Bl Bp Hm E Oks.
  - left. cbn [calls] in E. injection E as <- <-. unfold complete. destruct W as (-> & _). reflexivity.
  - cbn [existsb] in Nr. apply orb_false_iff in Nr as [N1 N2]. destruct (calls_ok_cons _ _ _ _ _ E Oks) as (r & d2 & rs' & -> & Es & Or & E2 & Ok2 & Ed).
    cbn [pushed flat_map] in Bp, Hm. fold (@pushed request) in Bp, Hm. apply Forall_app in Bp as [Bx Bp]. destruct c as [x|sp| | |m]; try discriminate N1.
    + rewrite app_assoc in Hm. pose proof (known_prefix _ _ Hm) as Hm1. pose proof (decode_small _ _ _ _ _ W Bx Es Or) as Hs.
      destruct (decode_waiting q sch ty d l x r d2 W F Bl Bx Hm1 Hs Es) as (F2 & R2 & _ & X). rewrite Or in X.
      destruct (dscan k bits false (l ++ x) 0 do_empty) as [| |o p|] eqn:Eds.
      * destruct X as [_ W2]. destruct (IH _ _ _ _ W2 F2 N2 ltac:(apply Forall_app; auto) Bp Hm E2 Ok2) as [Y|(cs0 & x0 & cs1 & o & p & np & dm & rs1 & -> & Y1 & Y2 & Y3 & Y4 & Y5 & Y6 & Y7 & Y8 & Y9)]; [left; exact Y|right].
        exists (CDecode x :: cs0), x0, cs1, o, p, np, dm, rs1. cbn [pushed flat_map]. fold (@pushed request). rewrite <- !app_assoc in *. 
        split; [reflexivity|]. split; [exact Y1|]. split; [exact Y2|]. split; [exact Y3|]. split; [exact Y4|]. split; [exact Y5|]. split; [exact Y6|]. split; [exact Y7|].
        split; [cbn [flat_map]; rewrite R2; exact Y8|]. rewrite Ed. exact Y9.
      * destruct X as [X _]. discriminate X.
      * destruct X as [Hp X]. destruct (creation_cases q o) as [(np & mix & lay & Ecr & _ & _)|[Ecr|Ecr]].
        -- rewrite Ecr in X. destruct X as [_ Md]. right. exists [], x, cs, o, p, np, d2, rs'. cbn [pushed flat_map app].
           split; [reflexivity|]. split; [exact Eds|]. split; [exact Ecr|]. split; [exact Hp|]. split; [exact Md|]. split; [exact F2|]. split; [exact E2|]. split; [exact Ok2|].
           split; [rewrite R2; reflexivity|]. exact Ed.
        -- rewrite Ecr in X. destruct X as [X _]. discriminate X.
        -- destruct (creation q o) as [[[?|] ?]| | | |]; try discriminate Ecr; discriminate X.
      * discriminate X.
    + assert (r = mkReply (Ok tt) [] [] /\ d2 = d) as [-> ->].
      { cbn [step] in Es. unfold get_unit in Es. destruct W as (_ & _ & _ & W4 & _). rewrite W4 in Es. injection Es as <- <-. auto. }
      assert (available d = false) as Av by (unfold available; destruct W as (_ & _ & _ & -> & _); reflexivity).
      rewrite app_nil_l in Hm. destruct (IH _ _ _ _ W F N2 Bl Bp Hm E2 Ok2) as [Y|(cs0 & x0 & cs1 & o & p & np & dm & rs1 & -> & Y1 & Y2 & Y3 & Y4 & Y5 & Y6 & Y7 & Y8 & Y9)]; [left; exact Y|right].
      exists (CGet sp :: cs0), x0, cs1, o, p, np, dm, rs1. cbn [pushed flat_map]. fold (@pushed request).
      rewrite app_nil_l. split; [reflexivity|]. split; [exact Y1|]. split; [exact Y2|]. split; [exact Y3|]. split; [exact Y4|]. split; [exact Y5|]. split; [exact Y6|]. split; [exact Y7|].
      split; [exact Y8|]. rewrite Ed, Av. exact Y9.
    + left. assert (ds_ended d2 = true /\ complete d2 = false) as [A B].
      { cbn [step] in Es. unfold signal_end in Es. cbn [ds_fromd ds_frame ds_proc set_ended] in Es. destruct W as (W1 & W2 & W3 & W4 & _). rewrite W1, W3, W4 in Es. injection Es as <- <-.
        split; [reflexivity|]. unfold complete. cbn [ds_proc set_ended]. rewrite W1. reflexivity. }
      eapply ended_calls; eauto.
Qed.
(* GetOutputTemporalUnit calls before the first Decode call do nothing. *)
Lemma strip_gets n cs x cb : forall (d : dstate request R) D s r0 l rs d1, fresh d D s r0 l -> existsb is_reset (cs ++ CDecode x :: cb) = false ->
  large_buffers n (cs ++ CDecode x :: cb) ->
  calls fuel k e (cs ++ CDecode x :: cb) d = (rs, d1) -> all_ok rs ->
  exists x' cs' rs', calls fuel k e (CDecode x' :: cs') d = (rs', d1) /\ all_ok rs' /\ existsb is_reset cs' = false /\ large_buffers n cs' /\
    pushed (CDecode x' :: cs') = pushed (cs ++ CDecode x :: cb) /\ flat_map r_rendered rs' = flat_map r_rendered rs /\
    existsb is_end cs' = existsb is_end (cs ++ CDecode x :: cb) /\
    deliveries fuel k e (CDecode x' :: cs') d = deliveries fuel k e (cs ++ CDecode x :: cb) d.
Proof.
  induction cs as [|c cs IH]; intros d D s r0 l rs d1 Fr Nr Lb E Oks; cbn [app] in *.
  - exists x, cb, rs. cbn [existsb is_reset is_end orb] in *. apply Forall_cons_iff in Lb as [_ Lb]. auto 10.
  - cbn [existsb] in Nr. apply orb_false_iff in Nr as [N1 N2]. pose proof Lb as Lb0. apply Forall_cons_iff in Lb as [_ Lb].
    destruct c as [x0|sp| | |m]; try discriminate N1.
    + exists x0, (cs ++ CDecode x :: cb), rs. cbn [existsb is_reset is_end orb]. auto 10.
    + destruct (calls_ok_cons _ _ _ _ _ E Oks) as (r & d2 & rs' & -> & Es & Or & E2 & Ok2 & Ed).
      assert (r = mkReply (Ok tt) [] [] /\ d2 = d) as [-> ->].
      { cbn [step] in Es. unfold get_unit in Es. destruct Fr as (_ & _ & W4 & _). rewrite W4 in Es. injection Es as <- <-. auto. }
      assert (available d = false) as Av by (unfold available; destruct Fr as (_ & _ & -> & _); reflexivity).
      destruct (IH _ _ _ _ _ _ _ Fr N2 Lb E2 Ok2) as (x' & cs' & rs2 & Y1 & Y2 & Y3 & Y4 & Y5 & Y6 & Y7 & Y8).
      exists x', cs', rs2. cbn [flat_map r_rendered pushed existsb is_end orb]. rewrite !app_nil_l. split; [exact Y1|]. split; [exact Y2|]. split; [exact Y3|]. split; [exact Y4|].
      split; [exact Y5|]. split; [exact Y6|]. split; [exact Y7|]. rewrite Ed, Av. exact Y8.
    + exfalso. destruct (calls_ok_cons _ _ _ _ _ E Oks) as (r & d2 & rs' & -> & Es & Or & E2 & Ok2 & Ed).
      assert (ds_ended d2 = true) as En2.
      { cbn [step] in Es. unfold signal_end in Es. cbn [ds_fromd ds_frame ds_proc set_ended] in Es. destruct Fr as (_ & W3 & W4 & _ & rate & size & W5). rewrite W3, W4, W5 in Es.
        destruct (decode_one fuel k e true (set_ended d true)) as [[z2 d3] fs] eqn:E1. injection Es as <- <-.
        destruct (decode_one_kept _ _ _ _ _ _ _ _ E1) as (_ & H2 & _). rewrite H2. reflexivity. }
      rewrite existsb_app in N2. apply orb_false_iff in N2 as [N2 _]. exact (ended_no_decode _ _ _ _ _ _ N2 En2 E2 Ok2).
Qed.

Lemma step_complete c (d : dstate request R) r d1 : is_reset c = false -> complete d = true -> step fuel k e c d = (r, d1) -> complete d1 = true.
Proof.
  intros Nr Cd E.
  assert (forall ev (d0 : dstate request R) z d2 fs, complete d0 = true -> decode_one fuel k e ev d0 = (z, d2, fs) -> complete d2 = true) as X.
  { intros ev d0 z d2 fs H0 H. destruct (decode_one_kept _ _ _ _ _ _ _ _ H) as ((_ & _ & _ & _ & _ & _ & _ & Hr & _) & _ & _).
    unfold complete in *. destruct (ds_proc d0); [|discriminate]. destruct (ds_proc d2); [reflexivity|discriminate Hr]. }
  destruct c as [x|sp| | |m]; try discriminate Nr; cbn [step] in E.
  - unfold decode in E. destruct (ds_ended d); [injection E as <- <-; exact Cd|]. destruct (r_push x (ds_buf d)) as [z b1]. destruct z as [?| | | |]; try (injection E as <- <-; exact Cd).
    cbn [ds_proc set_buf] in E. destruct (ds_proc d) eqn:Ep; [|unfold complete in Cd; rewrite Ep in Cd; discriminate].
    cbn [ds_frame set_reord set_buf] in E. destruct (ds_frame d); [|injection E as <- <-; exact Cd].
    destruct (decode_one fuel k e _ _) as [[z2 d2] fs] eqn:E1. injection E as <- <-. apply X in E1; [exact E1|exact Cd].
  - unfold get_unit in E. destruct (ds_frame d); [injection E as <- <-; exact Cd|].
    destruct (write_frame_to_span _ _ _ _) as [[z sp1] w]. destruct z as [?|?| | |]; try (injection E as <- <-; exact Cd);
      destruct (decode_one fuel k e _ _) as [[z2 d2] fs] eqn:E1; injection E as <- <-; (apply X in E1; [exact E1|exact Cd]).
  - unfold signal_end in E. cbn [ds_fromd ds_frame ds_proc set_ended] in E.
    destruct (ds_fromd d); [injection E as <- <-; exact Cd|]. destruct (ds_frame d); [|injection E as <- <-; exact Cd].
    destruct (ds_proc d) eqn:Ep; [|injection E as <- <-; exact Cd].
    destruct (decode_one fuel k e true (set_ended d true)) as [[z2 d2] fs] eqn:E1. injection E as <- <-. apply X in E1; [exact E1|exact Cd].
Qed.
Lemma calls_complete cs : forall (d : dstate request R) rs d1, existsb is_reset cs = false -> complete d = true ->
  calls fuel k e cs d = (rs, d1) -> all_ok rs -> complete d1 = true.
Proof.
  induction cs as [|c cs IH]; intros d rs d1 Nr Cd E Oks.
  - cbn [calls] in E. injection E as <- <-. exact Cd.
  - cbn [existsb] in Nr. apply orb_false_iff in Nr as [N1 N2]. destruct (calls_ok_cons _ _ _ _ _ E Oks) as (r & d2 & rs' & -> & Es & _ & E2 & Ok2 & _).
    eapply IH; [exact N2| |exact E2|exact Ok2]. eapply step_complete; eassumption.
Qed.
Lemma history_waits q sch ty cs : forall d l rs d1, waiting d l -> fixed q sch ty d -> existsb is_reset cs = false -> existsb is_end cs = false ->
  Forall byteP l -> Forall byteP (pushed cs) -> mixes_known (l ++ pushed cs) -> calls fuel k e cs d = (rs, d1) -> all_ok rs -> complete d1 = false ->
  waiting d1 (l ++ pushed cs) /\ fixed q sch ty d1.
Proof.
  induction cs as [|c cs IH]; intros d l rs d1 W F Nr Ne Bl Bp Hm E Oks Hc.
  - cbn [calls pushed flat_map] in *. injection E as <- <-. rewrite app_nil_r. auto.
  - cbn [existsb] in Nr, Ne. apply orb_false_iff in Nr as [N1 N2]. apply orb_false_iff in Ne as [M1 M2].
    destruct (calls_ok_cons _ _ _ _ _ E Oks) as (r & d2 & rs' & -> & Es & Or & E2 & Ok2 & _).
    cbn [pushed flat_map] in Bp, Hm |- *. fold (@pushed request) in Bp, Hm |- *. apply Forall_app in Bp as [Bx Bp]. destruct c as [x|sp| | |m]; try discriminate N1; try discriminate M1.
    + rewrite app_assoc in Hm |- *. pose proof (known_prefix _ _ Hm) as Hm1. pose proof (decode_small _ _ _ _ _ W Bx Es Or) as Hs.
      destruct (decode_waiting q sch ty d l x r d2 W F Bl Bx Hm1 Hs Es) as (F2 & R2 & _ & X). rewrite Or in X.
      destruct (dscan k bits false (l ++ x) 0 do_empty) as [| |o p|] eqn:Eds.
      * destruct X as [_ W2]. eapply IH; try eassumption. apply Forall_app; auto.
      * destruct X as [X _]. discriminate X.
      * exfalso. destruct X as [Hp X]. destruct (creation_cases q o) as [(np & mix & lay & Ecr & _ & _)|[Ecr|Ecr]].
        -- rewrite Ecr in X. destruct X as [_ (_ & _ & _ & _ & _ & Md & _)]. assert (complete d2 = true) as C2 by (unfold complete; rewrite Md; reflexivity).
           pose proof (calls_complete _ _ _ _ N2 C2 E2 Ok2). congruence.
        -- rewrite Ecr in X. destruct X as [X _]. discriminate X.
        -- destruct (creation q o) as [[[?|] ?]| | | |]; try discriminate Ecr; discriminate X.
      * discriminate X.
    + assert (d2 = d) as ->.
      { cbn [step] in Es. unfold get_unit in Es. destruct W as (_ & _ & _ & W4 & _). rewrite W4 in Es. injection Es as <- <-. auto. }
      rewrite app_nil_l in *. eapply IH; eassumption.
Qed.
End Create.

(* ================= SPEC ================= *)
(* What a client can see of a decoder that has just completed its descriptors, and what comes next: the same descriptors, the same
   answers, and the same processor about to read [l], respectively [l'], next. *)
Definition same_decoder {M R} (d d' : dstate M R) (more : list Z) : Prop :=
  complete d = true /\ complete d' = true /\ ds_desc d = ds_desc d' /\
  get_mix d = get_mix d' /\ get_channels d = get_channels d' /\ get_rate d = get_rate d' /\ get_size d = get_size d' /\
  reorderer_for d = reorderer_for d' /\ exists D s r0 l, fresh d D s r0 l /\ fresh d' D s r0 (l ++ more).

(* C51: two decoders are given descriptors, cut into Decode calls in two ways; the second gets [more] after what the first gets.  Once
   the first has refused or completed its descriptors, so has the second, with the same result. *)
Theorem C51_any_chunks : forall R (configure : aemap -> mixp -> res R) ps bits render fuel k q sch ty ca xa rsa da ra da1 cb xb rsb db rb db1 more,
  let e := real_env configure ps bits k render in
  (8 <= fuel)%nat ->
  calls fuel k e ca (create q sch ty) = (rsa, da) -> all_ok rsa -> complete da = false -> step fuel k e (CDecode xa) da = (ra, da1) ->
  calls fuel k e cb (create q sch ty) = (rsb, db) -> all_ok rsb -> complete db = false -> step fuel k e (CDecode xb) db = (rb, db1) ->
  existsb is_reset (ca ++ cb) = false -> existsb is_end (ca ++ cb) = false ->
  pushed cb ++ xb = (pushed ca ++ xa) ++ more -> Forall byteP (pushed cb ++ xb) -> mixes_known (pushed cb ++ xb) ->
  zlen (pushed cb ++ xb) <= 2^22 -> crashed (r_status ra) = false ->
  (r_status ra = Ok tt /\ complete da1 = false) \/
  (r_status ra = Err Unknown /\ complete da1 = false /\ r_status rb = Err Unknown /\ complete db1 = false) \/
  (r_status ra = Ok tt /\ r_status rb = Ok tt /\ same_decoder da1 db1 more).
Proof.
  intros R configure ps bits render fuel k q sch ty ca xa rsa da ra da1 cb xb rsb db rb db1 more e Hf Ea Oa Ca Sa Eb Ob Cb Sb Nr Ne Ep Bb Hm Hz Hcr. subst e.
  rewrite existsb_app in Nr, Ne. apply orb_false_iff in Nr as [Na Nb]. apply orb_false_iff in Ne as [Ma Mb].
  destruct (@waiting_create R fuel Hf q sch ty) as [W0 F0]. pose proof Bb as Bb0. rewrite Ep in Bb0. apply Forall_app in Bb0 as [Ba _].
  pose proof Hm as Hm0. rewrite Ep in Hm0. pose proof (known_prefix _ _ Hm0) as Hma.
  apply Forall_app in Ba as [Ba1 Ba2]. apply Forall_app in Bb as [Bb1 Bb2].
  destruct (history_waits configure ps bits fuel k render Hf q sch ty ca _ _ _ _ W0 F0 Na Ma (Forall_nil _) Ba1 (known_prefix _ _ Hma) Ea Oa Ca) as [Wa Fa].
  destruct (history_waits configure ps bits fuel k render Hf q sch ty cb _ _ _ _ W0 F0 Nb Mb (Forall_nil _) Bb1 (known_prefix _ _ Hm) Eb Ob Cb) as [Wb Fb].
  rewrite app_nil_l in Wa, Wb. assert (small (pushed cb ++ xb)) as Hsb by (unfold small, zlen in *; change (2^22) with 4194304 in *; lia).
  assert (small (pushed ca ++ xa)) as Hsa by (unfold small in *; rewrite Ep, app_length in Hsb; lia).
  destruct (decode_waiting configure ps bits fuel k render Hf q sch ty da _ xa ra da1 Wa Fa Ba1 Ba2 Hma Hsa Sa) as (FA & _ & _ & XA).
  destruct (decode_waiting configure ps bits fuel k render Hf q sch ty db _ xb rb db1 Wb Fb Bb1 Bb2 Hm Hsb Sb) as (FB & _ & _ & XB).
  destruct (dscan_ext k bits (pushed ca ++ xa) more 0 do_empty ltac:(lia)) as [Dw|De].
  { rewrite Dw in XA. left. destruct XA as [-> (W1 & _)]. split; [reflexivity|]. unfold complete. rewrite W1. reflexivity. }
  rewrite <- Ep in De. rewrite De in XB. destruct (dscan k bits false (pushed ca ++ xa) 0 do_empty) as [| |o p|].
  - left. destruct XA as [-> (W1 & _)]. split; [reflexivity|]. unfold complete. rewrite W1. reflexivity.
  - right. left. destruct XA, XB. auto.
  - destruct XA as [Hp XA]. destruct XB as [_ XB].
    destruct (creation_cases configure ps q o) as [(np & mix & lay & Ecr & _ & _)|[Ecr|Ecr]].
    + rewrite Ecr in XA, XB. destruct XA as [-> MA], XB as [-> MB]. right. right. split; [reflexivity|]. split; [reflexivity|].
      pose proof (made_fresh _ _ _ _ MA) as fa. pose proof (made_fresh _ _ _ _ MB) as fb.
      destruct MA as (A1 & A2 & A3 & A4 & A5 & A6 & mixa & laya & A7 & A8 & A9), MB as (B1 & B2 & B3 & B4 & B5 & B6 & mixb & layb & B7 & B8 & B9).
      rewrite A7 in B7. injection B7 as <-. rewrite A8 in B8. injection B8 as <-.
      destruct FA as (G1 & G2 & G3 & G4), FB as (H1 & H2 & H3 & H4).
      assert (complete da1 = true) as K1 by (unfold complete; rewrite A6; reflexivity). assert (complete db1 = true) as K2 by (unfold complete; rewrite B6; reflexivity).
      unfold same_decoder. split; [exact K1|]. split; [exact K2|]. split; [rewrite A1, B1, Ep; symmetry; apply firstn_app_le; exact Hp|].
      split; [unfold get_mix; rewrite K1, K2, A9, B9; reflexivity|]. split; [unfold get_channels; rewrite K1, K2, A9, B9; reflexivity|].
      split; [unfold get_rate; rewrite A6, B6; reflexivity|]. split; [unfold get_size; rewrite A6, B6; reflexivity|].
      split; [unfold reorderer_for; rewrite A9, B9, G2, H2, G4, H4; reflexivity|].
      exists (np_D np), (np_s np), (np_R np), (skipn p (pushed ca ++ xa)). split; [exact fa|]. rewrite Ep in fb. rewrite skipn_app_le in fb by exact Hp. exact fb.
    + rewrite Ecr in XA, XB. right. left. destruct XA, XB. auto.
    + exfalso. destruct (creation configure ps q o) as [[[?|] ?]| | | |]; try discriminate Ecr; congruence.
  - congruence.
Qed.

Lemma pushed_app {M} (a b : list (call M)) : pushed (a ++ b) = pushed a ++ pushed b.
Proof. apply flat_map_app. Qed.
Lemma calls_split {M R} fuel k (e : env M R) ca cc : forall d rs d2, calls fuel k e (ca ++ cc) d = (rs, d2) -> all_ok rs ->
  exists ra dm rb, calls fuel k e ca d = (ra, dm) /\ calls fuel k e cc dm = (rb, d2) /\ rs = ra ++ rb /\
    deliveries fuel k e (ca ++ cc) d = deliveries fuel k e ca d ++ deliveries fuel k e cc dm.
Proof.
  induction ca as [|c ca IH]; intros d rs d2 E Oks; cbn [app calls deliveries] in *.
  - exists [], d, rs. auto.
  - destruct (step fuel k e c d) as [r d1]. destruct (crashed (r_status r)) eqn:C.
    + injection E as <- <-. apply Forall_cons_iff in Oks as [O _]. rewrite O in C. discriminate.
    + destruct (calls fuel k e (ca ++ cc) d1) as [rs1 d3] eqn:E1. injection E as <- <-. apply Forall_cons_iff in Oks as [O Oks].
      destruct (IH _ _ _ E1 Oks) as (ra & dm & rb & Ea & Eb & -> & Ed). exists (r :: ra), dm, rb. rewrite Ea, Ed, app_assoc. auto.
Qed.
Lemma calls_join {M R} fuel k (e : env M R) ca cc : forall d ra dm rb d2, calls fuel k e ca d = (ra, dm) -> all_ok ra -> calls fuel k e cc dm = (rb, d2) ->
  calls fuel k e (ca ++ cc) d = (ra ++ rb, d2) /\ deliveries fuel k e (ca ++ cc) d = deliveries fuel k e ca d ++ deliveries fuel k e cc dm.
Proof.
  induction ca as [|c ca IH]; intros d ra dm rb d2 E Oks E2; cbn [app calls deliveries] in *.
  - injection E as <- <-. auto.
  - destruct (step fuel k e c d) as [r d1]. destruct (crashed (r_status r)) eqn:C.
    + injection E as <- <-. apply Forall_cons_iff in Oks as [O _]. rewrite O in C. discriminate.
    + destruct (calls fuel k e ca d1) as [rs1 d3] eqn:E1. injection E as <- <-. apply Forall_cons_iff in Oks as [O Oks].
      destruct (IH _ _ _ _ _ E1 Oks E2) as [-> ->]. rewrite app_assoc. auto.
Qed.

(* C51, from the first byte to the last.  [L0], given in one Decode call, completes the descriptors [ds_desc d]; after these the stream
   consists of the OBUs [os], which decode to the items [its].  Then every history of calls which pushes the same bytes, cut in any
   way, all of them successful and with at least one Decode call after the descriptors are complete, delivers the PCM of the units of
   the stream. *)
Theorem C51_stream_from_the_start_partial : forall R (configure : aemap -> mixp -> res R) ps bits render fuel cap k q sch ty L0 r d D s0 r0 l0 more os its s1
    ca x cb rs d2 n,
  let e := real_env configure ps bits k render in
  (8 <= fuel)%nat -> (1 <= cap)%nat -> 2^22 < Z.of_nat k ->
  step fuel k e (CDecode L0) (create q sch ty) = (r, d) -> fresh d D s0 r0 l0 ->
  decoded fuel cap D s0 os its s1 -> L0 ++ more = ds_desc d ++ concat os -> dense false its -> Forall byteP (L0 ++ more) -> mixes_known (L0 ++ more) ->
  calls fuel k e (ca ++ CDecode x :: cb) (create q sch ty) = (rs, d2) -> all_ok rs -> complete (snd (calls fuel k e ca (create q sch ty))) = true ->
  pushed (ca ++ CDecode x :: cb) = L0 ++ more -> existsb is_reset (ca ++ CDecode x :: cb) = false -> existsb is_end cb = true ->
  available d2 = false -> ty <> OtherType -> large_buffers n (ca ++ CDecode x :: cb) ->
  Forall (fun f => some_channels f = true /\ good_frame f /\ byte_size ty f <= n) (flat_map r_rendered rs) ->
  exists frames r1, renders e (reorderer_for d) r0 (group false None its) frames r1 /\
    deliveries fuel k e (ca ++ CDecode x :: cb) (create q sch ty) = map (out_bytes ty) frames.
Proof.
  intros R configure ps bits render fuel cap k q sch ty L0 r d D s0 r0 l0 more os its s1 ca x cb rs d2 n e Hf Hc Hk E0 Fr Hd El Hdn Bl Hm E Oks Cc Ep Nr He Hav Hty Lb HF. subst e.
  destruct (@waiting_create R fuel Hf q sch ty) as [W0 F0].
  (* the decoder which is given everything at once *)
  apply Forall_app in Bl as Bl'. destruct Bl' as [BL0 _].
  assert (r_status r = Ok tt /\ small L0 /\ exists o p np, dscan k bits false L0 0 do_empty = DDone o p /\ creation configure ps q o = Ok (Some np, false) /\ (p <= length L0)%nat /\
    made d np (firstn p L0) (skipn p L0) /\ fixed q sch ty d) as (_ & Hs0 & o & p & np & Eds & Ecr & Hp & Md & Fd).
  { assert (complete d = true) as Cd by (destruct Fr as (_ & _ & _ & _ & rate & size & Fp); unfold complete; rewrite Fp; reflexivity).
    assert (small L0) as Hs0.
    { pose proof E0 as E0'. cbn [step] in E0'. unfold decode in E0'. cbn [create ds_ended ds_buf] in E0'.
      destruct (r_push L0 (r_stream 1024)) as [z b1] eqn:Ep0. destruct z as [[]| | | |]; try (injection E0' as _ <-; discriminate Cd).
      pose proof W0 as (_ & _ & _ & _ & _ & v & W6). destruct (push_ok _ _ _ _ W6 ltac:(cbn; lia) BL0 Ep0) as [_ L]. cbn [c_bits] in L.
      unfold small. rewrite app_nil_l, bytes_bits_length in L. lia. }
    destruct (decode_waiting configure ps bits fuel k render Hf q sch ty _ [] L0 r d W0 F0 (Forall_nil _) BL0 (known_prefix _ _ Hm) Hs0 E0) as (FA & _ & _ & X). rewrite app_nil_l in X.
    destruct (dscan k bits false L0 0 do_empty) as [| |o p|].
    - destruct X as [_ (W1 & _)]. unfold complete in Cd. rewrite W1 in Cd. discriminate.
    - destruct X as [_ X]. congruence.
    - destruct X as [Hp X]. destruct (creation_cases configure ps q o) as [(np & mix & lay & Ecr & _ & _)|[Ecr|Ecr]]; rewrite ?Ecr in X.
      + destruct X as [X Md]. split; [exact X|]. split; [exact Hs0|]. exists o, p, np. auto 10.
      + destruct X as [_ X]. congruence.
      + exfalso. destruct (C31_fresh_after_descriptors _ _ fuel k _ _ [] L0 r d Hf (proj1 W0) eq_refl eq_refl eq_refl (unread_create q sch ty) (Forall_nil _) BL0 E0 Cd) as (? & ? & ? & ? & _ & _ & S1).
        rewrite S1 in X. destruct (creation configure ps q o) as [[[?|] ?]| | | |]; try discriminate Ecr; discriminate X.
    - exfalso. destruct (C31_fresh_after_descriptors _ _ fuel k _ _ [] L0 r d Hf (proj1 W0) eq_refl eq_refl eq_refl (unread_create q sch ty) (Forall_nil _) BL0 E0 Cd) as (? & ? & ? & ? & _ & _ & S1).
      rewrite S1 in X. discriminate X. }
  assert (D = np_D np /\ s0 = np_s np /\ r0 = np_R np) as (-> & -> & ->).
  { destruct Fr as (_ & _ & _ & _ & rate & size & Fp). destruct Md as (_ & _ & _ & _ & _ & Mp & _). rewrite Mp in Fp. injection Fp as -> -> -> _ _. auto. }
  assert (concat os = skipn p (L0 ++ more)) as Eos.
  { destruct Md as (Mdesc & _). rewrite Mdesc in El. rewrite skipn_app_le by exact Hp. apply (app_inv_head (firstn p L0)). rewrite <- El, app_assoc, firstn_skipn. reflexivity. }
  (* the history *)
  destruct (calls_split _ _ _ _ _ _ _ _ E Oks) as (ra & dm & rb & Ea & Eb & -> & Ed). rewrite Ea in Cc. cbn [snd] in Cc.
  apply Forall_app in Oks as Oks'. destruct Oks' as [Oa Ob]. rewrite pushed_app in Ep.
  rewrite existsb_app in Nr. apply orb_false_iff in Nr as [Na Nb].
  pose proof Hm as Hm'. rewrite <- Ep in Hm'. pose proof Bl as Bl'. rewrite <- Ep in Bl'. apply Forall_app in Bl' as [Ba Bb].
  destruct (first_complete configure ps bits fuel k render Hf q sch ty ca _ [] ra dm W0 F0 Na (Forall_nil _) Ba (known_prefix _ _ Hm') Ea Oa) as [Y|(cs0 & x0 & cs1 & o1 & p1 & np1 & dm0 & rs1 & Eca & Y1 & Y2 & Y3 & Y4 & Y5 & Y6 & Y7 & Y8 & Y9)]; [congruence|].
  rewrite app_nil_l in Y1, Y3, Y4. set (l1 := pushed cs0 ++ x0) in *.
  assert (pushed ca = l1 ++ pushed cs1) as Epa.
  { rewrite Eca, pushed_app. unfold l1. rewrite <- app_assoc. reflexivity. }
  assert (o1 = o /\ p1 = p) as [-> ->].
  { assert (dscan k bits false (L0 ++ more) 0 do_empty = DDone o p) as A.
    { destruct (dscan_ext k bits L0 more 0 do_empty ltac:(lia)) as [Z|Z]; congruence. }
    rewrite <- Ep, Epa, <- app_assoc in A. destruct (dscan_ext k bits l1 (pushed cs1 ++ pushed (CDecode x :: cb)) 0 do_empty ltac:(lia)) as [Z|Z]; [congruence|].
    rewrite A, Y1 in Z. injection Z as <- <-. auto. }
  rewrite Ecr in Y2. injection Y2 as <-. destruct (calls_join _ _ _ _ _ _ _ _ _ _ Y6 Y7 Eb) as [Ej Dj].
  assert (existsb is_reset (cs1 ++ CDecode x :: cb) = false) as Nj.
  { rewrite Eca, existsb_app in Na. apply orb_false_iff in Na as [_ Na]. cbn [existsb is_reset orb] in Na. rewrite existsb_app, Na, Nb. reflexivity. }
  assert (large_buffers n (cs1 ++ CDecode x :: cb)) as Lj.
  { apply Forall_app in Lb as [La Lb]. rewrite Eca in La. apply Forall_app in La as [_ La]. apply Forall_cons_iff in La as [_ La]. apply Forall_app. auto. }
  destruct (strip_gets configure ps bits fuel k render n cs1 x cb dm0 _ _ _ _ _ _ (made_fresh _ _ _ _ Y4) Nj Lj Ej ltac:(apply Forall_app; auto)) as (x' & cs' & rs' & Z1 & Z2 & Z3 & Z4 & Z5 & Z6 & Z7 & Z8).
  assert (pushed (cs1 ++ CDecode x :: cb) = pushed cs1 ++ pushed (CDecode x :: cb)) as Epj by apply pushed_app.
  assert (skipn p l1 ++ pushed (CDecode x' :: cs') = concat os) as Ez.
  { rewrite Z5, Epj, <- skipn_app_le by exact Y3. rewrite Eos, <- Ep, Epa, app_assoc. reflexivity. }
  destruct Y5 as (G1 & G2 & G3 & G4).
  destruct (C31_bytes_of_the_stream_partial _ _ fuel cap k _ _ _ _ _ dm0 x' cs' rs' d2 os its s1 n Hf Hc Hk (made_fresh _ _ _ _ Y4) Z1 Z3 Z2) as (frames & r1 & Rn & De); try assumption.
  - rewrite Z5, Epj. apply Forall_app. split; [|exact Bb]. rewrite Epa in Ba. apply Forall_app in Ba. apply Ba.
  - rewrite Z7, existsb_app. cbn [existsb is_end orb]. rewrite He. apply orb_true_r.
  - rewrite G3. exact Hty.
  - rewrite G3, Z6. rewrite flat_map_app in HF |- *. rewrite <- Y8. exact HF.
  - exists frames, r1. split.
    + replace (reorderer_for d) with (reorderer_for dm0); [exact Rn|]. unfold reorderer_for. destruct Fd as (H1 & H2 & H3 & H4). rewrite G2, G4, H2, H4.
      destruct Md as (_ & _ & _ & _ & _ & _ & mixa & laya & A7 & A8 & A9), Y4 as (_ & _ & _ & _ & _ & _ & mixb & layb & B7 & B8 & B9).
      rewrite A7 in B7. injection B7 as <-. rewrite A8 in B8. injection B8 as <-. rewrite A9, B9. reflexivity.
    + rewrite Ed, Y9, <- Dj, <- Z8, De, G3. reflexivity.
Qed.

(* Two clients who push the same bytes get the same PCM. *)
Theorem C51_histories_agree_partial : forall R (configure : aemap -> mixp -> res R) ps bits render fuel cap k q sch ty L0 r d D s0 r0 l0 more os its s1
    ca x cb rs d2 ca' x' cb' rs' d2' n,
  let e := real_env configure ps bits k render in
  (8 <= fuel)%nat -> (1 <= cap)%nat -> 2^22 < Z.of_nat k ->
  step fuel k e (CDecode L0) (create q sch ty) = (r, d) -> fresh d D s0 r0 l0 ->
  decoded fuel cap D s0 os its s1 -> L0 ++ more = ds_desc d ++ concat os -> dense false its -> Forall byteP (L0 ++ more) -> mixes_known (L0 ++ more) ->
  ty <> OtherType ->
  calls fuel k e (ca ++ CDecode x :: cb) (create q sch ty) = (rs, d2) -> all_ok rs -> complete (snd (calls fuel k e ca (create q sch ty))) = true ->
  pushed (ca ++ CDecode x :: cb) = L0 ++ more -> existsb is_reset (ca ++ CDecode x :: cb) = false -> existsb is_end cb = true ->
  available d2 = false -> large_buffers n (ca ++ CDecode x :: cb) ->
  calls fuel k e (ca' ++ CDecode x' :: cb') (create q sch ty) = (rs', d2') -> all_ok rs' -> complete (snd (calls fuel k e ca' (create q sch ty))) = true ->
  pushed (ca' ++ CDecode x' :: cb') = L0 ++ more -> existsb is_reset (ca' ++ CDecode x' :: cb') = false -> existsb is_end cb' = true ->
  available d2' = false -> large_buffers n (ca' ++ CDecode x' :: cb') ->
  Forall (fun f => some_channels f = true /\ good_frame f /\ byte_size ty f <= n) (flat_map r_rendered rs ++ flat_map r_rendered rs') ->
  deliveries fuel k e (ca ++ CDecode x :: cb) (create q sch ty) = deliveries fuel k e (ca' ++ CDecode x' :: cb') (create q sch ty).
Proof.
  intros R configure ps bits render fuel cap k q sch ty L0 r d D s0 r0 l0 more os its s1 ca x cb rs d2 ca' x' cb' rs' d2' n e Hf Hc Hk E0 Fr Hd El Hdn Bl Hm Hty
    E Oks Cc Ep Nr He Hav Lb E' Oks' Cc' Ep' Nr' He' Hav' Lb' HF. apply Forall_app in HF as [HF HF'].
  destruct (C51_stream_from_the_start_partial R configure ps bits render fuel cap k q sch ty L0 r d D s0 r0 l0 more os its s1 ca x cb rs d2 n
    Hf Hc Hk E0 Fr Hd El Hdn Bl Hm E Oks Cc Ep Nr He Hav Hty Lb HF) as (fa & ra & Ra & Da).
  destruct (C51_stream_from_the_start_partial R configure ps bits render fuel cap k q sch ty L0 r d D s0 r0 l0 more os its s1 ca' x' cb' rs' d2' n
    Hf Hc Hk E0 Fr Hd El Hdn Bl Hm E' Oks' Cc' Ep' Nr' He' Hav' Hty Lb' HF') as (fb & rb & Rb & Db).
  fold e in Da, Db. rewrite Da, Db. destruct (renders_det _ _ _ _ _ _ Ra _ _ Rb) as [-> _]. reflexivity.
Qed.

(* ================= example ================= *)
(* A small IAMF stream: sequence header, LPCM codec config 1, mono audio element 3, mix presentation 7; then two temporal units. *)
Definition it_desc : list Z :=
  [248;6;105;97;109;102;0;0; 0;14;1;105;112;99;109;8;0;0;1;16;0;0;187;128; 8;10;3;0;1;1;0;0;32;16;1;1;
   16;28;7;0;1;1;3;0;0;64;128;247;2;128;0;0;65;128;247;2;128;0;0;1;128;0;0;0;0;0].
Definition it_units : list (list Z) := [[32;0];[48;4;1;2;3;4];[32;0];[48;4;5;6;7;8]].
Definition it_k : nat := S (Z.to_nat (2^22)).
Definition it_env : env request unit := real_env (R := unit) (fun _ _ => Ok tt) [0;1;2] 64 it_k (fun r u _ => (Ok (ex_frame_at (un_time u)), [], r)).
Definition it_new : dstate request unit := create (mkReq None None) DefaultNoOp Int16LE.
Definition it_all : list Z := it_desc ++ concat it_units.
(* Everything in one call, and one byte at a time until the first temporal delimiter has arrived. *)
Definition it_ca : list (call request) := [CDecode it_all].
Definition it_cb : list (call request) := [CGet (repeat 0 4); CGet (repeat 0 4); CEnd; CGet (repeat 0 4)].
Definition it_ca' : list (call request) := map (fun b => CDecode [b]) (it_desc ++ [32; 0]).
Definition it_cb' : list (call request) := [CGet (repeat 0 4); CDecode (skipn 10 (concat it_units)); CGet (repeat 0 4); CEnd; CGet (repeat 0 4)].
Definition it_x' : list Z := skipn 2 (firstn 10 (concat it_units)).
Definition it_full : dstate request unit := snd (step 8 it_k it_env (CDecode it_all) it_new).

Definition it_gain (i : Z) : pdef := mkPD (mkPB i 48000 0 None) (KMixGain 0).
Definition it_D : descs := mkD [mkAI 3 [0] 8 1] [(64, it_gain 64); (65, it_gain 65)].
Definition it_s : pst := mkPst (mkG [(0, mkTd 48000 0)] [(64, mkTd 48000 0); (65, mkTd 48000 0)]) (mkPm [] [] [] []).
Example C51_stream_ex : exists its s1,
  let e := it_env in let ty := Int16LE in let L := it_all in
  step 8 it_k e (CDecode L) it_new = (mkReply (Ok tt) [] [], it_full) /\ fresh it_full it_D it_s tt (concat it_units) /\ decoded 8 1 it_D it_s it_units its s1 /\
  ds_desc it_full = it_desc /\ dense false its /\ length (group false None its) = 2%nat /\ Forall byteP L /\ mixes_known L /\
  (exists rs d, calls 8 it_k e (it_ca ++ CDecode [] :: it_cb) it_new = (rs, d) /\ all_ok rs /\ complete (snd (calls 8 it_k e it_ca it_new)) = true /\
    pushed (it_ca ++ CDecode [] :: it_cb) = L /\ existsb is_reset (it_ca ++ CDecode [] :: it_cb) = false /\ existsb is_end it_cb = true /\ available d = false /\
    large_buffers 4 (it_ca ++ CDecode [] :: it_cb) /\ flat_map r_rendered rs = map ex_frame_at [0; 8]) /\
  (exists rs d, calls 8 it_k e (it_ca' ++ CDecode it_x' :: it_cb') it_new = (rs, d) /\ all_ok rs /\ complete (snd (calls 8 it_k e it_ca' it_new)) = true /\
    pushed (it_ca' ++ CDecode it_x' :: it_cb') = L /\ existsb is_reset (it_ca' ++ CDecode it_x' :: it_cb') = false /\ existsb is_end it_cb' = true /\ available d = false /\
    large_buffers 4 (it_ca' ++ CDecode it_x' :: it_cb') /\ flat_map r_rendered rs = map ex_frame_at [0; 8]) /\
  Forall (fun f => some_channels f = true /\ good_frame f /\ byte_size Int16LE f <= 4) (map ex_frame_at [0; 8]) /\
  deliveries 8 it_k e (it_ca ++ CDecode [] :: it_cb) it_new = [[0; 64; 0; 32]; [0; 32; 0; 64]] /\
  deliveries 8 it_k e (it_ca' ++ CDecode it_x' :: it_cb') it_new = [[0; 64; 0; 32]; [0; 32; 0; 64]].
Proof.
  assert (forall l, forallb (fun b => (0 <=? b) && (b <? 256)) l = true -> Forall byteP l) as B.
  { intros l H. rewrite forallb_forall in H. apply Forall_forall. intros b Hb. specialize (H _ Hb). unfold byteP. lia. }
  assert (forall cs : list (call request), forallb (fun c => match c with CGet sp => zlen sp =? 4 | _ => true end) cs = true -> large_buffers 4 cs) as LB.
  { intros cs H. rewrite forallb_forall in H. apply Forall_forall. intros c Hc. specialize (H _ Hc). destruct c; try exact I. change (2^64) with 18446744073709551616. lia. }
  eexists _, _. split; [reflexivity|]. split.
  { destruct (step 8 it_k it_env (CDecode it_all) it_new) as [r d1] eqn:E. assert (d1 = it_full) as -> by (unfold it_full; rewrite E; reflexivity).
    destruct (C31_fresh_after_descriptors _ _ 8 it_k it_env it_new [] it_all r it_full) as (D & s & r0 & rest & E1 & E2 & _); try reflexivity; try lia; try assumption; try apply Forall_nil.
    - apply unread_create.
    - apply B. run.
    - assert (ds_desc it_full = it_desc) as Ed by run. rewrite Ed, app_nil_l in E1. unfold it_all in E1. apply app_inv_head in E1. subst rest.
      destruct E2 as (F1 & F2 & F3 & F4 & rate & size & E2). assert (option_map (fun p => (p_D p, p_s p, p_R p)) (ds_proc it_full) = Some (it_D, it_s, tt)) as X by run.
      rewrite E2 in X. injection X as -> -> ->. unfold fresh. eauto 10. }
  split; [walk|]. split; [run|]. split; [repeat split|]. split; [run|]. split; [apply B; run|]. split; [apply (known_scan_ok _ 10); run|].
  split; [|split; [|split; [|split; [run|run]]]].
  - eexists _, _. split; [run|]. split; [repeat constructor|]. split; [run|]. split; [run|]. split; [reflexivity|]. split; [reflexivity|]. split; [run|]. split; [apply LB; run|]. run.
  - eexists _, _. split; [run|]. split; [repeat constructor|]. split; [run|]. split; [run|]. split; [reflexivity|]. split; [reflexivity|]. split; [run|]. split; [apply LB; run|]. run.
  - repeat constructor; try (unfold byte_size, zlen; vm_compute; discriminate).
Qed.

(* C51 without [mixes_known] is false (F36).  The mix presentation announces a rendering configuration extension of one byte, [1]; the
   reader takes this byte for a number of parameter definitions and reads one of them from what follows, beyond the extension and
   beyond the OBU.  While the data end there it falls back to opaque extension bytes and accepts the mix presentation; once there are
   more data it refuses the mix presentation. *)
Definition it_wide : list Z := firstn 36 it_desc ++ [16;19; 7;0;1;1;3;0;1;1;8;100;128;1;128;66;100;128;0;0;0].
Theorem C51_extension_refuted : exists ra da rb db,
  Forall byteP (it_wide ++ concat it_units) /\
  calls 8 it_k it_env [CDecode (it_wide ++ [32; 0]); CDecode (skipn 2 (concat it_units))] it_new = (ra, da) /\ all_ok ra /\ get_mix da = Ok (7, Some 0) /\
  @pushed request [CDecode (it_wide ++ [32; 0]); CDecode (skipn 2 (concat it_units))] = it_wide ++ concat it_units /\
  calls 8 it_k it_env [CDecode (it_wide ++ concat it_units)] it_new = ([rb], db) /\ r_status rb = Err Unknown /\ complete db = false.
Proof.
  eexists _, _, _, _. split; [|split; [run|]].
  - assert (forall l, forallb (fun b => (0 <=? b) && (b <? 256)) l = true -> Forall byteP l) as B.
    { intros l H. rewrite forallb_forall in H. apply Forall_forall. intros b Hb. specialize (H _ Hb). unfold byteP. lia. }
    apply B. run.
  - split; [repeat constructor|]. split; [run|]. split; [run|]. split; [run|]. split; run.
Qed.
(* Both outcomes of C51_any_chunks happen: descriptors refused (no sequence header), and completed. *)
Example C51_any_chunks_ex :
  let bad := skipn 8 it_desc in
  mixes_known it_all /\ mixes_known bad /\
  (let ra := step 8 it_k it_env (CDecode (it_desc ++ [32; 0])) it_new in let rb := step 8 it_k it_env (CDecode it_all) it_new in
   r_status (fst ra) = Ok tt /\ r_status (fst rb) = Ok tt /\ complete (snd ra) = true /\ complete (snd rb) = true) /\
  r_status (fst (step 8 it_k it_env (CDecode bad) it_new)) = Err Unknown /\
  r_status (fst (step 8 it_k it_env (CDecode (skipn 7 bad)) (snd (calls 8 it_k it_env [CDecode (firstn 7 bad)] it_new)))) = Err Unknown.
Proof.
  cbv zeta. split; [apply (known_scan_ok _ 10); run|]. split; [apply (known_scan_ok _ 10); run|]. split; [repeat split; run|]. split; run.
Qed.
