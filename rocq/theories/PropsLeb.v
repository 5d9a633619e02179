(* C07-C12: LEB128, ISO 14496-1 sizes, strings, signed literals.  Specifications: LebSpec.v, EndToEnd.v (reads_back). *)
From Verif Require Import Base WriteBuf ReadBuf Leb BufSpec LebSpec BitFacts WriteBufFacts ReadBufFacts LebFacts
  ParseFacts EndToEnd.

(* The bytes at bit [p] of [src] onwards. *)
Definition starts_with_at (src : list Z) (p : Z) (l : list Z) (rest : list bool) : Prop :=
  skipn (Z.to_nat p) (bytes_bits src) = bytes_bits l ++ rest.

Lemma bits_at src p : 0 <= p <= 8 * zlen src ->
  exists pre, bytes_bits src = pre ++ skipn (Z.to_nat p) (bytes_bits src) /\ length pre = Z.to_nat p.
Proof.
  intro H. exists (firstn (Z.to_nat p) (bytes_bits src)). rewrite firstn_skipn. split; [reflexivity|].
  rewrite firstn_length, bytes_bits_length. unfold zlen in H. lia.
Qed.

Lemma wuleb_wf g v : lebgen_wf g -> 0 <= v < 2^32 -> Forall winstr_wf (wuleb g v).
Proof.
  intros Hg Hv. unfold wuleb. destruct (uleb_bytes g v) as [l| | | |] eqn:E; repeat constructor. cbn [winstr_wf].
  destruct (uleb_ok g v l Hg Hv E) as (L & _). apply is_leb_bytes. exact L.
Qed.

(* ------------------------------------------------------------------ C07 *)
Theorem C07_minimum_mode_is_shortest : forall v, 0 <= v < 2^32 ->
  exists l, uleb_bytes LebMin v = Ok l /\ is_leb l /\ uleb_value l = v /\ (1 <= length l <= 5)%nat /\
    forall l', is_leb l' -> uleb_value l' = v -> (length l <= length l')%nat.
Proof.
  intros v Hv. destruct (uleb_min_spec v Hv) as (l & H1 & H2 & H3 & H4 & H5). exists l. repeat split; try assumption; try lia.
  intros l' Hl' E. apply H5; [exact E|]. destruct l'; [destruct Hl'|discriminate].
Qed.

Theorem C07_fixed_mode : forall v k, 0 <= v < 2^32 -> 1 <= k <= 8 ->
  (v < 128 ^ k -> exists l, uleb_bytes (LebFixed k) v = Ok l /\ is_leb l /\ uleb_value l = v /\ zlen l = k) /\
  (128 ^ k <= v -> uleb_bytes (LebFixed k) v = Err InvalidArgument).
Proof. exact uleb_fixed_spec. Qed.

Theorem C07_factory_accepts_exactly_1_to_8 : forall k,
  lebgen_fixed k = (if (1 <=? k) && (k <=? 8) then Some (LebFixed k) else None).
Proof. reflexivity. Qed.

(* Written at any alignment, read back: the value and the number of bytes used, ending where the writer ended. *)
Theorem C07_round_trip : forall g v l, lebgen_wf g -> 0 <= v < 2^32 -> uleb_bytes g v = Ok l ->
  wbits (wuleb g v) = Ok (bytes_bits l) /\
  reads_back (wuleb g v) ruleb_sz (v, zlen l) /\ reads_back (wuleb g v) ruleb v.
Proof.
  intros g v l Hg Hv E. split; [|split].
  - unfold wuleb. rewrite E. cbn [wbits wspec rbind]. rewrite app_nil_r. reflexivity.
  - apply reads_back_intro; [apply wuleb_wf; assumption|]. intros bs Hb.
    destruct (parses_wuleb_sz g v bs Hg Hv Hb) as (l' & _ & E' & P). rewrite E in E'. injection E' as ->. exact P.
  - apply reads_back_intro; [apply wuleb_wf; assumption|]. intros bs Hb. apply (parses_wuleb g); assumption.
Qed.

Example C07_ex :
  uleb_bytes LebMin 300 = Ok [172; 2] /\ uleb_bytes (LebFixed 4) 300 = Ok [172; 130; 128; 0] /\
  uleb_bytes (LebFixed 1) 128 = Err InvalidArgument /\
  let w1 := snd (wrun (wlit 5 3) w_empty) in
  let w2 := snd (wrun (wuleb (LebFixed 4) 300) w1) in
  fst (crun 8 (read_at 3 ruleb_sz) (r_create 2 (w_bytes w2 ++ [9]))) = Ok ((300, 4), 35).
Proof. vm_compute. repeat split. Qed.

(* ------------------------------------------------------------------ C08 *)
(* Started at any bit position [p] of any source, through a reader of any capacity. *)
Theorem C08_accepts_exactly_legal_encodings : forall src cap fuel p x n t,
  Forall byteP src -> (1 <= cap)%nat -> (8 <= fuel)%nat -> 0 <= p <= 8 * zlen src ->
  (fst (crun fuel (read_at p ruleb_sz) (r_create cap src)) = Ok ((x, n), t) <->
   exists l rest, starts_with_at src p l rest /\ is_leb l /\ (length l <= 8)%nat /\ uleb_value l < 2^32 /\
                  x = uleb_value l /\ n = zlen l /\ t = p + 8 * zlen l).
Proof.
  intros src cap fuel p x n t Hs Hc Hf Hp. rewrite crun_read_at by assumption.
  destruct (bits_at src p Hp) as (pre & Eb & Lp). unfold starts_with_at. rewrite Eb at 1. rewrite <- Lp.
  set (rem := skipn (length pre) (bytes_bits src)). split.
  - intro H. destruct (arun ruleb_sz (mkC (pre ++ rem) (length pre) (Some true))) as [[[x' n']| | | |] c'] eqn:E;
      try discriminate. cbn [at_result] in H. injection H as -> -> <-.
    pose proof (leb_loop_classify true 8 0 0 (2^32-1) pre rem (Some true) ltac:(lia) ltac:(lia) ltac:(lia)) as C.
    fold ruleb_sz in C. rewrite E in C.
    destruct C as [(l & rest & y & v' & Er & Hl & L8 & Ey)|[(l & rest & c'' & _ & _ & _ & _ & Ey)|(c'' & Ey)]]; try discriminate.
    injection Ey as <- ->. exists l, rest.
    assert (n = zlen l) as En.
    { destruct (Z_lt_dec (uleb_value l) (2^32)) as [Hv|Hv].
      - destruct (parses_uleb_sz l Hl L8 Hv pre rest (Some true)) as [v2 P]. rewrite <- Er, E in P. congruence.
      - destruct (leb_too_big 8 0 0 l (2^32-1) pre rest (Some true) Hl L8) as [c2 P]; try lia.
        rewrite <- Er in P. fold ruleb_sz in P. rewrite E in P. discriminate. }
    assert (uleb_value l < 2^32 /\ x = uleb_value l) as [Hv Ex].
    { destruct (Z_lt_dec (uleb_value l) (2^32)) as [Hv|Hv].
      - destruct (parses_uleb_sz l Hl L8 Hv pre rest (Some true)) as [v2 P]. rewrite <- Er, E in P. split; congruence.
      - destruct (leb_too_big 8 0 0 l (2^32-1) pre rest (Some true) Hl L8) as [c2 P]; try lia.
        rewrite <- Er in P. fold ruleb_sz in P. rewrite E in P. discriminate. }
    repeat split; try assumption. cbn [c_pos]. unfold zlen. lia.
  - intros (l & rest & Er & Hl & L8 & Hv & -> & -> & ->).
    destruct (parses_uleb_sz l Hl L8 Hv pre rest (Some true)) as [v2 P]. fold rem in Er. rewrite <- Er in P. rewrite P.
    cbn [at_result c_pos]. rewrite bytes_bits_length. f_equal. f_equal. unfold zlen. lia.
Qed.

(* Otherwise: ResourceExhausted exactly when the data ended inside the encoding, InvalidArgument otherwise. *)
Theorem C08_error_kinds : forall src cap fuel p,
  Forall byteP src -> (1 <= cap)%nat -> (8 <= fuel)%nat -> 0 <= p <= 8 * zlen src ->
  let outcome := fst (crun fuel (read_at p ruleb_sz) (r_create cap src)) in
  is_ok outcome = false ->
  outcome = Err InvalidArgument \/
  (outcome = Err ResourceExhausted /\
   exists l rest, starts_with_at src p l rest /\ (length rest < 8)%nat /\ (length l < 8)%nat /\
                  Forall (fun b => 128 <= b < 256) l).
Proof.
  intros src cap fuel p Hs Hc Hf Hp outcome. unfold outcome. rewrite crun_read_at by assumption.
  destruct (bits_at src p Hp) as (pre & Eb & Lp). unfold starts_with_at. rewrite Eb at 1 2 3. rewrite <- Lp.
  set (rem := skipn (length pre) (bytes_bits src)). intro F.
  destruct (arun ruleb_sz (mkC (pre ++ rem) (length pre) (Some true))) as [e c'] eqn:E.
  assert (is_ok e = false) as Fe. { destruct e as [[? ?]| | | |]; [discriminate F|reflexivity..]. }
  destruct (uleb_error_kind pre rem (Some true) e c' E Fe) as [->|[-> (l & rest & H)]]; [left; reflexivity|right].
  split; [reflexivity|]. exists l, rest. tauto.
Qed.

Example C08_ex :
  fst (crun 8 (read_at 0 ruleb_sz) (r_create 1 [255; 255; 255; 255; 15])) = Ok ((4294967295, 5), 40) /\
  fst (crun 8 (read_at 0 ruleb_sz) (r_create 1 [255; 255; 255; 255; 16])) = Err InvalidArgument /\
  fst (crun 8 (read_at 0 ruleb_sz) (r_create 1 [255; 255])) = Err ResourceExhausted /\
  fst (crun 8 (read_at 0 ruleb_sz) (r_create 1 [128;128;128;128;128;128;128;128;0])) = Err InvalidArgument.
Proof. vm_compute. repeat split. Qed.

(* ------------------------------------------------------------------ C09 *)
Theorem C09_sleb_value : forall g v l, lebgen_wf g -> -2^31 <= v < 2^31 -> sleb_bytes g v = Ok l ->
  is_leb l /\ sleb_value l = v.
Proof. exact sleb_spec. Qed.

Theorem C09_fixed_mode : forall v k, -2^31 <= v < 2^31 -> 1 <= k <= 8 ->
  (-64 * 128 ^ (k-1) <= v < 64 * 128 ^ (k-1) -> exists l, sleb_bytes (LebFixed k) v = Ok l /\ zlen l = k) /\
  (~ (-64 * 128 ^ (k-1) <= v < 64 * 128 ^ (k-1)) -> sleb_bytes (LebFixed k) v = Err InvalidArgument).
Proof. exact sleb_fixed_spec. Qed.

Theorem C09_minimum_mode : forall v, -2^31 <= v < 2^31 ->
  exists l, sleb_bytes LebMin v = Ok l /\ (1 <= length l <= 5)%nat /\
    (forall k, 1 <= k < zlen l -> ~ (-64 * 128 ^ (k-1) <= v < 64 * 128 ^ (k-1))).
Proof. exact sleb_min_spec. Qed.

Example C09_ex : sleb_bytes LebMin (-129) = Ok [255; 126] /\ sleb_value [255; 126] = -129 /\
  sleb_bytes (LebFixed 4) (-2) = Ok [254; 255; 255; 127].
Proof. vm_compute. repeat split. Qed.

(* ------------------------------------------------------------------ C10 *)
Lemma wiso_wf v : 0 <= v < 2^32 -> Forall winstr_wf (wiso v).
Proof.
  intro Hv. unfold wiso. destruct (iso_bytes_spec v Hv) as (l & -> & L & _). repeat constructor. cbn [winstr_wf].
  apply is_leb_bytes. exact L.
Qed.

Theorem C10_iso_round_trip : forall v max, 0 <= v < 2^32 -> 0 <= max < 2^32 ->
  exists l, wbits (wiso v) = Ok (bytes_bits l) /\ is_leb l /\ iso_value l = v /\ (1 <= length l <= 5)%nat /\
  (v <= max -> reads_back (wiso v) (riso max) v) /\
  (max < v -> forall src cap fuel p rest, Forall byteP src -> (1 <= cap)%nat -> (8 <= fuel)%nat -> 0 <= p <= 8 * zlen src ->
     starts_with_at src p l rest ->
     fst (crun fuel (read_at p (riso max)) (r_create cap src)) = Err InvalidArgument).
Proof.
  intros v max Hv Hm. destruct (iso_bytes_spec v Hv) as (l & E & L & V & N). exists l.
  assert (wbits (wiso v) = Ok (bytes_bits l)) as Ew.
  { unfold wiso. rewrite E. cbn [wbits wspec rbind]. rewrite app_nil_r. reflexivity. }
  split; [exact Ew|]. split; [exact L|]. split; [exact V|]. split; [exact N|]. split.
  - intro H. apply reads_back_intro; [apply wiso_wf; exact Hv|]. intros bs Hb. rewrite Ew in Hb. injection Hb as <-.
    rewrite <- V. apply parses_riso; try assumption; lia.
  - intros H src cap fuel p rest Hs Hc Hf Hp S. rewrite crun_read_at by assumption.
    destruct (bits_at src p Hp) as (pre & Eb & Lp). unfold starts_with_at in S. rewrite S in Eb. rewrite Eb, <- Lp.
    destruct (riso_too_big l max pre rest (Some true)) as [c' ->]; try assumption; try lia. reflexivity.
Qed.

Example C10_ex : wbits (wiso 300) = Ok (bytes_bits [130; 44]) /\ iso_value [130; 44] = 300.
Proof. vm_compute. split; reflexivity. Qed.

(* ------------------------------------------------------------------ C11 *)
Lemma wstring_wf s : Forall byteP s -> Forall winstr_wf (wstring s).
Proof.
  intro Hs. assert (Forall winstr_wf [WLit 32 0 8]) as Z0.
  { repeat constructor; cbn [winstr_wf]; lia. }
  unfold wstring. destruct (zlen s >? 127); [repeat constructor|]. destruct s as [|a s]; [exact Z0|].
  destruct (existsb (Z.eqb 0) (a :: s)); [repeat constructor|]. apply Forall_app. split; [|exact Z0].
  apply Forall_map. eapply Forall_impl; [|exact Hs]. intros b [H1 H2]. cbn [winstr_wf].
  change (2^64) with 18446744073709551616. lia.
Qed.

Theorem C11_accepts_exactly : forall s, Forall byteP s ->
  wbits (wstring s) =
  if (zlen s <=? 127) && negb (existsb (Z.eqb 0) s) then Ok (bytes_bits (s ++ [0])) else Err InvalidArgument.
Proof. exact wstring_ok. Qed.

Theorem C11_round_trip : forall s, Forall byteP s -> reads_back (wstring s) rstring s.
Proof. intros s Hs. apply reads_back_intro; [apply wstring_wf; exact Hs|]. intros bs Hb. apply parses_wstring; assumption. Qed.

Theorem C11_no_terminator_is_rejected : forall src cap fuel p s rest,
  Forall byteP src -> (1 <= cap)%nat -> (8 <= fuel)%nat -> 0 <= p <= 8 * zlen src ->
  starts_with_at src p s rest -> Forall byteP s -> length s = 128%nat -> ~ In 0 s ->
  fst (crun fuel (read_at p rstring) (r_create cap src)) = Err InvalidArgument.
Proof.
  intros src cap fuel p s rest Hs Hc Hf Hp S Hb L N. rewrite crun_read_at by assumption.
  destruct (bits_at src p Hp) as (pre & Eb & Lp). unfold starts_with_at in S. rewrite S in Eb. rewrite Eb, <- Lp.
  assert (existsb (Z.eqb 0) s = false) as X.
  { apply not_true_is_false. intro T. apply existsb_exists in T as (x & Hx & E). apply N. replace 0 with x by lia. exact Hx. }
  destruct (rstring_loop_reject s [] 128 pre rest (Some true) Hb X L) as [c' E].
  unfold rstring. rewrite E. reflexivity.
Qed.

Example C11_ex :
  let w2 := snd (wrun (wstring [104; 105]) (snd (wrun (wlit 1 1) w_empty))) in
  w_off w2 = 25 /\ fst (crun 8 (read_at 1 rstring) (r_create 1 (w_bytes w2))) = Ok ([104; 105], 25).
Proof. vm_compute. split; reflexivity. Qed.

(* ------------------------------------------------------------------ C12 *)
Lemma land_lt_64 v m : 0 <= m < 2^63 -> 0 <= Z.land (u32 v) m < 2^64.
Proof.
  intro H. unfold u32. change (2^32) with 4294967296. change (2^64) with 18446744073709551616 in *.
  change (2^63) with 9223372036854775808 in *. assert (0 <= v mod 4294967296) by lia.
  pose proof (Z.land_nonneg (v mod 4294967296) m). split; [tauto|].
  assert (Z.land (v mod 4294967296) m <= v mod 4294967296); [|lia]. 
  apply Z.ldiff_le; [lia|]. apply Z.bits_inj'. intros n Hn. rewrite Z.ldiff_spec, Z.land_spec, Z.bits_0.
  destruct (Z.testbit (v mod 4294967296) n), (Z.testbit m n); reflexivity.
Qed.

Theorem C12_signed16 : forall v, -2^15 <= v < 2^15 ->
  is_ok (wbits (wsigned16 v)) = true /\ reads_back (wsigned16 v) rsigned16 v.
Proof.
  intros v Hv. split; [destruct (wsigned16_total v) as (b & -> & _); reflexivity|].
  apply reads_back_intro; [repeat constructor; apply land_lt_64; vm_compute; split; congruence|].
  intros bs Hb. apply parses_wsigned16; assumption.
Qed.
Theorem C12_signed8 : forall v, -2^7 <= v < 2^7 ->
  is_ok (wbits (wsigned8 v)) = true /\ reads_back (wsigned8 v) rsigned8 v.
Proof.
  intros v Hv. split; [destruct (wsigned8_total v) as (b & -> & _); reflexivity|].
  apply reads_back_intro; [repeat constructor; apply land_lt_64; vm_compute; split; congruence|].
  intros bs Hb. apply parses_wsigned8; assumption.
Qed.
Theorem C12_signed9 : forall v,
  (-256 <= v <= 255 -> is_ok (wbits (wsigned9 v)) = true /\ reads_back (wsigned9 v) rsigned9 v) /\
  (~ (-256 <= v <= 255) -> wbits (wsigned9 v) = Err InvalidArgument).
Proof.
  intro v. destruct (wsigned9_total v) as [T1 T2]. split; [|exact T2]. intro Hv.
  split; [destruct (T1 Hv) as (b & -> & _); reflexivity|].
  apply reads_back_intro.
  - unfold wsigned9. destruct ((v <? -256) || (v >? 255)); repeat constructor; apply land_lt_64; vm_compute; split; congruence.
  - intros bs Hb. apply parses_wsigned9; assumption.
Qed.
Example C12_ex :
  let w2 := snd (wrun (wsigned9 (-200)) (snd (wrun (wlit 3 2) w_empty))) in
  fst (crun 8 (read_at 2 rsigned9) (r_create 1 (w_bytes w2))) = Ok (-200, 11).
Proof. vm_compute. reflexivity. Qed.

Print Assumptions C07_round_trip.
Print Assumptions C08_accepts_exactly_legal_encodings.
Print Assumptions C09_sleb_value.
Print Assumptions C10_iso_round_trip.
Print Assumptions C11_round_trip.
Print Assumptions C12_signed9.
