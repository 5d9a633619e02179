(* Parsing on the abstract cursor: algebra of [parses] and the primitive readers. *)
From Verif Require Import Base BitFacts WriteBuf Leb ReadBuf BufSpec ReadBufFacts WriteBufFacts LebSpec LebFacts.

Lemma arun_bind {A B} (p : rprog A) (f : A -> rprog B) c :
  arun (rb p f) c =
  match arun p c with
  | (Ok a, c') => arun (f a) c'
  | (Err e, c') => (Err e, c') | (Abort, c') => (Abort, c') | (UB, c') => (UB, c') | (Diverge, c') => (Diverge, c')
  end.
Proof.
  revert c. induction p as [a|e|o k IH]; intro c; cbn [rb arun]; [reflexivity|reflexivity|].
  destruct (aop o c) as [[v|e| | |] c']; auto.
Qed.

Lemma arun_catch {A} (p : rprog A) c :
  arun (rcatch p) c =
  match arun p c with
  | (Ok a, c') => (Ok (inr a), c')
  | (Err e, c') => (Ok (inl e), c') | (Abort, c') => (Abort, c') | (UB, c') => (UB, c') | (Diverge, c') => (Diverge, c')
  end.
Proof.
  revert c. induction p as [a|e|o k IH]; intro c; cbn [rcatch arun]; [reflexivity|reflexivity|].
  destruct (aop o c) as [[v|e| | |] c']; auto.
Qed.

Lemma crun_bind {A B} fuel (p : rprog A) (f : A -> rprog B) r :
  crun fuel (rb p f) r =
  match crun fuel p r with
  | (Ok a, c') => crun fuel (f a) c'
  | (Err e, c') => (Err e, c') | (Abort, c') => (Abort, c') | (UB, c') => (UB, c') | (Diverge, c') => (Diverge, c')
  end.
Proof.
  revert r. induction p as [a|e|o k IH]; intro r; cbn [rb crun]; [reflexivity|reflexivity|].
  destruct (cop fuel o r) as [[v|e| | |] c']; auto.
Qed.

Lemma parses_ret {A} (a : A) : parses (RRet a) [] a.
Proof. intros pre rest v. exists v. cbn. rewrite Nat.add_0_r. reflexivity. Qed.

Lemma parses_bind {A B} (p : rprog A) (f : A -> rprog B) b1 b2 bs a b :
  parses p b1 a -> parses (f a) b2 b -> bs = b1 ++ b2 -> parses (rb p f) bs b.
Proof.
  intros H1 H2 -> pre rest v. rewrite arun_bind.
  destruct (H1 pre (b2 ++ rest) v) as [v1 E1]. rewrite <- app_assoc, E1.
  destruct (H2 (pre ++ b1) rest v1) as [v2 E2]. exists v2.
  rewrite <- app_assoc, app_length in E2. rewrite E2, app_length. rewrite Nat.add_assoc. reflexivity.
Qed.

Lemma parses_check b c {A} (k : rprog A) bs a : b = true -> parses k bs a -> parses (rb (rcheck b c) (fun _ => k)) bs a.
Proof. intros -> H. exact H. Qed.

Lemma firstn_app_exact {A} (a b : list A) : firstn (length a) (a ++ b) = a.
Proof. rewrite firstn_app, Nat.sub_diag, firstn_O, app_nil_r. apply firstn_all. Qed.
Lemma skipn_app_exact {A} (a b : list A) : skipn (length a) (a ++ b) = b.
Proof. rewrite skipn_app, Nat.sub_diag, skipn_all. reflexivity. Qed.

Lemma aop_lit_bits pre bs rest v n max :
  length bs = Z.to_nat n -> legal_width n max = true ->
  aop (OLit n max) (mkC (pre ++ bs ++ rest) (length pre) v) =
  (Ok (ofbits bs), mkC (pre ++ bs ++ rest) (length pre + length bs) (Some true)).
Proof.
  intros L W. cbn [aop]. rewrite W. unfold c_left. cbn [c_bits c_pos]. rewrite !app_length.
  replace (Z.to_nat n <=? length pre + (length bs + length rest) - length pre)%nat with true by lia.
  rewrite skipn_app_exact, <- L, firstn_app_exact. reflexivity.
Qed.

Lemma parses_lit_bits n max bs : length bs = Z.to_nat n -> legal_width n max = true -> parses (rlit n max) bs (ofbits bs).
Proof.
  intros L W pre rest v. exists (Some true). cbn [rlit rop1 arun]. rewrite aop_lit_bits by assumption. reflexivity.
Qed.

Lemma parses_lit n max data :
  legal_width n max = true -> 0 <= data < 2 ^ n -> parses (rlit n max) (bits (Z.to_nat n) data) data.
Proof.
  intros W D. replace data with (ofbits (bits (Z.to_nat n) data)) at 2.
  - apply parses_lit_bits; [apply bits_length|exact W].
  - apply ofbits_bits_small. unfold legal_width in W. rewrite Z2Nat.id by lia. exact D.
Qed.

(* the literal a writer produced is read back *)
Lemma parses_wlit n max data bs :
  wbits (wlit data n) = Ok bs -> 0 <= data -> 0 < n -> n <= max -> n <= 64 -> parses (rlit n max) bs data.
Proof.
  intros H D N M M2. apply wlit_ok in H as (H1 & H2 & ->). apply parses_lit; [unfold legal_width; lia|lia].
Qed.

Lemma parses_bool b : parses rbool [b] b.
Proof.
  unfold rbool. eapply parses_bind with (b1 := [b]) (b2 := []) (a := Z.b2z b).
  - replace (Z.b2z b) with (ofbits [b]) by (destruct b; reflexivity). apply parses_lit_bits; reflexivity.
  - destruct b; apply parses_ret.
  - reflexivity.
Qed.

Lemma parses_wbool b bs : wbits (wbool b) = Ok bs -> parses rbool bs b.
Proof. intro H. apply wbool_ok in H as ->. apply parses_bool. Qed.

Lemma parses_u8 b : byteP b -> parses (rlit 8 8) (bits 8 b) b.
Proof. intro H. apply (parses_lit 8 8 b); [reflexivity|exact H]. Qed.
Lemma parses_u8_64 b : byteP b -> parses (rlit 8 64) (bits 8 b) b.
Proof. intro H. apply (parses_lit 8 64 b); [reflexivity|exact H]. Qed.

Lemma parses_span l : Forall byteP l -> parses (rspan (length l)) (bytes_bits l) l.
Proof.
  induction 1 as [|b l Hb Hl IH]; [apply parses_ret|]. cbn [length rspan].
  eapply parses_bind; [apply parses_u8, Hb| |apply bytes_bits_cons].
  eapply parses_bind; [exact IH|apply parses_ret|rewrite app_nil_r; reflexivity].
Qed.

(* ---- signed ---- *)
Lemma s16_land v : -2^15 <= v < 2^15 -> s16 (Z.land (s16 (Z.land (u32 v) 65535)) 65535) = v.
Proof.
  intro H. change 65535 with (Z.ones 16). rewrite !Z.land_ones by lia. unfold s16, sN, u32.
  change (2^32) with 4294967296. change (2^(16-1)) with 32768. change (2^16) with 65536. change (2^15) with 32768 in H.
  repeat match goal with |- context [if ?b then _ else _] => destruct b eqn:? end; lia.
Qed.

Lemma parses_eq {A} (p : rprog A) bs a a' : parses p bs a -> a = a' -> parses p bs a'.
Proof. intros H <-; exact H. Qed.

Lemma parses_ret_eq {A} (a a' : A) : a = a' -> parses (RRet a) [] a'.
Proof. intros <-. apply parses_ret. Qed.

Lemma parses_map {A B} (p : rprog A) (f : A -> B) bs a b :
  parses p bs a -> f a = b -> parses (rb p (fun x => RRet (f x))) bs b.
Proof. intros H <-. eapply parses_bind; [exact H|apply parses_ret|symmetry; apply app_nil_r]. Qed.

Lemma parses_wsigned16 v bs : -2^15 <= v < 2^15 -> wbits (wsigned16 v) = Ok bs -> parses rsigned16 bs v.
Proof.
  intros Hv H. unfold wsigned16 in H. fold (wlit (Z.land (u32 v) 65535) 16) in H.
  assert (0 <= Z.land (u32 v) 65535 < 2^16) as R.
  { change 65535 with (Z.ones 16). rewrite Z.land_ones by lia. apply Z.mod_pos_bound. reflexivity. }
  eapply parses_map; [eapply parses_wlit with (max := 64); [exact H|lia|lia|lia|lia]|].
  apply s16_land, Hv.
Qed.

Lemma parses_wsigned8 v bs : -2^7 <= v < 2^7 -> wbits (wsigned8 v) = Ok bs -> parses rsigned8 bs v.
Proof.
  intros Hv H. unfold wsigned8 in H. fold (wlit (Z.land (u32 v) 255) 8) in H.
  assert (Z.land (u32 v) 255 = v mod 256) as R.
  { change 255 with (Z.ones 8). rewrite Z.land_ones by lia. unfold u32. change (2^32) with 4294967296.
    change (2^8) with 256. lia. }
  rewrite R in H.
  eapply parses_map; [eapply parses_wlit with (max := 64); [exact H|lia|lia|lia|lia]|].
  unfold s8, sN. change (2^8) with 256. change (2^(8-1)) with 128. change (2^7) with 128 in Hv.
  destruct ((v mod 256) mod 256 <? 128) eqn:E; lia.
Qed.

Lemma read9_sweep : forallb (fun v => (if negb (Z.land (v mod 512) 256 =? 0) then s16 (Z.lor (v mod 512) 65024) else s16 (v mod 512)) =? v)
                            (map (fun i => Z.of_nat i - 256) (seq 0 512)) = true.
Proof. vm_compute. reflexivity. Qed.

Lemma parses_wsigned9 v bs : wbits (wsigned9 v) = Ok bs -> -256 <= v <= 255 /\ parses rsigned9 bs v.
Proof.
  intros H. unfold wsigned9 in H. destruct ((v <? -256) || (v >? 255)) eqn:E; [discriminate|].
  split; [lia|]. fold (wlit (Z.land (u32 v) 511) 9) in H.
  assert (Z.land (u32 v) 511 = v mod 512) as R.
  { change 511 with (Z.ones 9). rewrite Z.land_ones by lia. unfold u32. change (2^32) with 4294967296.
    change (2^9) with 512. lia. }
  rewrite R in H.
  eapply parses_map; [eapply parses_wlit with (max := 64); [exact H|lia|lia|lia|lia]|].
  pose proof read9_sweep as S. rewrite forallb_forall in S.
  apply Z.eqb_eq. apply (S v). apply in_map_iff. exists (Z.to_nat (v + 256)). split; [lia|]. apply in_seq. lia.
Qed.

(* the signed writers fail only on the documented ranges *)
Lemma wsigned16_total v : exists bs, wbits (wsigned16 v) = Ok bs /\ length bs = 16%nat.
Proof.
  unfold wsigned16. cbn [wbits wspec]. change 65535 with (Z.ones 16). rewrite Z.land_ones by lia.
  pose proof (Z.mod_pos_bound (u32 v) (2^16) ltac:(reflexivity)).
  replace ((0 <=? 16) && ((16 =? 0) || ((16 <=? 32) && (32 <=? 64) && (u32 v mod 2 ^ 16 <? 2 ^ 16)))) with true by lia.
  cbn [rbind]. eexists. split; [reflexivity|]. rewrite app_nil_r. apply bits_length.
Qed.
Lemma wsigned8_total v : exists bs, wbits (wsigned8 v) = Ok bs /\ length bs = 8%nat.
Proof.
  unfold wsigned8. cbn [wbits wspec]. change 255 with (Z.ones 8). rewrite Z.land_ones by lia.
  pose proof (Z.mod_pos_bound (u32 v) (2^8) ltac:(reflexivity)).
  replace ((0 <=? 8) && ((8 =? 0) || ((8 <=? 32) && (32 <=? 64) && (u32 v mod 2 ^ 8 <? 2 ^ 8)))) with true by lia.
  cbn [rbind]. eexists. split; [reflexivity|]. rewrite app_nil_r. apply bits_length.
Qed.
Lemma wsigned9_total v : (-256 <= v <= 255 -> exists bs, wbits (wsigned9 v) = Ok bs /\ length bs = 9%nat) /\
  (~ (-256 <= v <= 255) -> wbits (wsigned9 v) = Err InvalidArgument).
Proof.
  unfold wsigned9. split; intro H.
  - replace ((v <? -256) || (v >? 255)) with false by lia.
    cbn [wbits wspec]. change 511 with (Z.ones 9). rewrite Z.land_ones by lia.
    pose proof (Z.mod_pos_bound (u32 v) (2^9) ltac:(reflexivity)).
    replace ((0 <=? 9) && ((9 =? 0) || ((9 <=? 32) && (32 <=? 64) && (u32 v mod 2 ^ 9 <? 2 ^ 9)))) with true by lia.
    cbn [rbind]. eexists. split; [reflexivity|]. rewrite app_nil_r. apply bits_length.
  - replace ((v <? -256) || (v >? 255)) with true by lia. reflexivity.
Qed.

(* ---- strings ---- *)
Lemma parses_string_loop s acc k :
  Forall byteP s -> existsb (Z.eqb 0) s = false -> (length s < k)%nat ->
  parses (rstring_loop k acc) (bytes_bits (s ++ [0])) (rev acc ++ s).
Proof.
  revert acc k. induction s as [|b s IH]; intros acc k Hs Hz Hk; (destruct k as [|k]; [lia|]); cbn [rstring_loop].
  - eapply parses_bind with (b1 := bits 8 0); [apply parses_u8; unfold byteP; lia| |reflexivity].
    rewrite Z.eqb_refl, app_nil_r. apply parses_ret.
  - inversion Hs as [|x y Hb Hs']; subst x y. cbn [existsb] in Hz. apply orb_false_elim in Hz as [Hb0 Hz].
    eapply parses_bind; [apply parses_u8, Hb| |apply bytes_bits_cons].
    replace (b =? 0) with false by lia. cbn [length] in Hk.
    eapply parses_eq; [apply IH; [assumption|assumption|lia]|].
    cbn [rev]. rewrite <- app_assoc. reflexivity.
Qed.

Lemma wbits_bytes_lits s : Forall byteP s -> wbits (map (fun b => WLit 32 b 8) s) = Ok (bytes_bits s).
Proof.
  induction 1 as [|b s Hb Hs IH]; [reflexivity|]. cbn [map wbits]. rewrite IH. cbn [wspec].
  unfold byteP in Hb.
  replace ((0 <=? 8) && ((8 =? 0) || ((8 <=? 32) && (32 <=? 64) && (b <? 2 ^ 8)))) with true
    by (change (2^8) with 256; lia).
  reflexivity.
Qed.

Lemma wstring_ok s : Forall byteP s ->
  wbits (wstring s) =
  if (zlen s <=? 127) && negb (existsb (Z.eqb 0) s) then Ok (bytes_bits (s ++ [0])) else Err InvalidArgument.
Proof.
  intro Hs. unfold wstring. destruct (zlen s >? 127) eqn:L.
  - replace (zlen s <=? 127) with false by lia. reflexivity.
  - replace (zlen s <=? 127) with true by lia. cbn [andb]. destruct s as [|b s]; [reflexivity|].
    destruct (existsb (Z.eqb 0) (b :: s)) eqn:E; [reflexivity|]. cbn [negb].
    rewrite wbits_app, wbits_bytes_lits by exact Hs. cbn [rbind].
    rewrite bytes_bits_app. reflexivity.
Qed.

Lemma parses_wstring s bs : Forall byteP s -> wbits (wstring s) = Ok bs -> parses rstring bs s.
Proof.
  intros Hs H. rewrite wstring_ok in H by exact Hs.
  destruct ((zlen s <=? 127) && negb (existsb (Z.eqb 0) s)) eqn:E; [|discriminate]. injection H as <-.
  apply andb_prop in E as [E1 E2]. apply negb_true_iff in E2. unfold zlen in E1.
  apply (parses_string_loop s [] 128); [exact Hs|exact E2|lia].
Qed.

(* a string without terminator in the first 128 bytes is refused *)
Lemma rstring_loop_reject s acc k pre rest v :
  Forall byteP s -> existsb (Z.eqb 0) s = false -> (length s = k)%nat ->
  exists c', arun (rstring_loop k acc) (mkC (pre ++ bytes_bits s ++ rest) (length pre) v) = (Err InvalidArgument, c').
Proof.
  revert acc k pre v. induction s as [|b s IH]; intros acc k pre v Hs Hz Hk; (destruct k as [|k]; [try discriminate Hk|try discriminate Hk]).
  - cbn. eauto.
  - inversion Hs as [|x y Hb Hs']; subst x y. cbn [existsb] in Hz. apply orb_false_elim in Hz as [Hb0 Hz].
    cbn [rstring_loop]. rewrite arun_bind.
    rewrite bytes_bits_cons, <- app_assoc.
    destruct (parses_u8 b Hb pre (bytes_bits s ++ rest) v) as [v' E]. rewrite E.
    replace (b =? 0) with false by lia. cbn [length] in Hk.
    destruct (IH (b :: acc) k (pre ++ bits 8 b) v' Hs' Hz) as [c' E']; [lia|].
    exists c'. rewrite <- app_assoc, app_length in E'. exact E'.
Qed.

(* ---- LEB128 ---- *)
Lemma acc_le b i acc : 0 <= i <= 7 -> 0 <= acc < 128 ^ i -> acc_byte true b i acc = acc + b mod 128 * 128 ^ i.
Proof.
  intros Hi Ha. unfold acc_byte. rewrite land_127.
  rewrite Z.shiftl_mul_pow2 by lia.
  assert (2 ^ (7 * i) = 128 ^ i) as E by (rewrite Z.pow_mul_r by lia; reflexivity).
  rewrite E.
  assert (128 ^ i <= 128 ^ 7) by (apply Z.pow_le_mono_r; lia).
  assert (0 < 128 ^ i) by (apply Z.pow_pos_nonneg; lia).
  rewrite u64_small.
  - rewrite <- E. apply lor_disjoint; [lia|]. rewrite E. exact Ha.
  - change (128^7) with 562949953421312 in *. change (2^64) with 18446744073709551616.
    pose proof (Z.mod_pos_bound b 128 ltac:(reflexivity)). nia.
Qed.

Lemma acc_be b i acc : 0 <= acc < 2^32 -> acc_byte false b i acc = acc * 128 + b mod 128.
Proof.
  intros Ha. unfold acc_byte. rewrite land_127, Z.shiftl_mul_pow2 by lia. change (2^7) with 128.
  rewrite u64_small by (change (2^64) with 18446744073709551616; change (2^32) with 4294967296 in Ha; lia).
  change 128 with (2^7) at 1. rewrite Z.lor_comm, lor_disjoint by (try lia; change (2^7) with 128; lia). change (2^7) with 128. lia.
Qed.

Lemma parses_leb_loop k i acc l maxo :
  is_leb l -> (length l <= k)%nat -> Z.of_nat k + i = 8 -> 0 <= i ->
  0 <= acc < 128 ^ i -> acc + uleb_value l * 128 ^ i <= maxo -> maxo < 2^32 ->
  parses (rleb_loop k true maxo i acc) (bytes_bits l) (acc + uleb_value l * 128 ^ i, i + zlen l).
Proof.
  revert i acc l. induction k as [|k IH]; intros i acc l Hl Hk Hi Hi0 Ha Hm Hmm.
  { destruct l; cbn in *; [contradiction|lia]. }
  destruct l as [|b l]; [contradiction|]. cbn [rleb_loop].
  assert (byteP b) as Hb. { apply is_leb_bytes in Hl. inversion Hl; assumption. }
  eapply parses_bind; [apply parses_u8_64, Hb| |apply bytes_bits_cons]. cbv zeta.
  rewrite land_128 by exact Hb. rewrite acc_le by lia.
  cbn [uleb_value] in *. pose proof (uleb_value_nonneg l) as Nn.
  assert (0 < 128 ^ i) as Pp by (apply Z.pow_pos_nonneg; lia).
  destruct l as [|b' l'].
  - cbn [is_leb] in Hl. replace (b <? 128) with true by lia. cbn [negb]. rewrite andb_false_r.
    cbn [uleb_value] in *. rewrite Z.mul_0_r, Z.add_0_r in *.
    replace (acc + b mod 128 * 128 ^ i >? maxo) with false by lia.
    unfold u32. apply parses_ret_eq. f_equal. apply Z.mod_small. nia.
  - cbn [is_leb] in Hl. destruct Hl as [Hb2 Hl]. set (t := b' :: l') in *.
    replace (b <? 128) with false by lia. cbn [negb]. cbn [length] in Hk.
    assert (length t <> O) by (unfold t; discriminate).
    replace ((i =? 7) && true) with false by lia.
    assert (128 ^ (i + 1) = 128 * 128 ^ i) as E1 by (rewrite Z.pow_add_r by lia; change (128^1) with 128; lia).
    replace (acc + b mod 128 * 128 ^ i >? maxo) with false by nia.
    eapply parses_eq.
    + apply IH; try assumption; try lia; rewrite ?E1; nia.
    + rewrite E1, zlen_cons. f_equal; [nia|lia].
Qed.

Lemma parses_uleb_sz l : is_leb l -> (length l <= 8)%nat -> uleb_value l < 2^32 ->
  parses ruleb_sz (bytes_bits l) (uleb_value l, zlen l).
Proof.
  intros Hl Hk Hv. unfold ruleb_sz. eapply parses_eq.
  - apply (parses_leb_loop 8 0 0 l (2^32-1)); try assumption; try lia.
  - f_equal. rewrite Z.pow_0_r. lia.
Qed.
Lemma parses_uleb l : is_leb l -> (length l <= 8)%nat -> uleb_value l < 2^32 ->
  parses ruleb (bytes_bits l) (uleb_value l).
Proof. intros. unfold ruleb. eapply parses_map; [apply parses_uleb_sz; assumption|reflexivity]. Qed.

Lemma wuleb_ok g v bs : lebgen_wf g -> 0 <= v < 2^32 -> wbits (wuleb g v) = Ok bs ->
  exists l, uleb_bytes g v = Ok l /\ bs = bytes_bits l /\ is_leb l /\ uleb_value l = v /\ (1 <= length l <= 8)%nat.
Proof.
  intros Hg Hv H. unfold wuleb in H. destruct (uleb_bytes g v) as [l|c| | |] eqn:E; try discriminate.
  exists l. split; [reflexivity|]. apply wspan_ok in H. split; [exact H|]. eapply uleb_ok; eassumption.
Qed.

Lemma parses_wuleb_sz g v bs : lebgen_wf g -> 0 <= v < 2^32 -> wbits (wuleb g v) = Ok bs ->
  exists l, bs = bytes_bits l /\ uleb_bytes g v = Ok l /\ parses ruleb_sz bs (v, zlen l).
Proof.
  intros Hg Hv H. destruct (wuleb_ok g v bs Hg Hv H) as (l & E & -> & L1 & L2 & L3).
  exists l. split; [reflexivity|]. split; [exact E|]. rewrite <- L2. apply parses_uleb_sz; [exact L1|lia|lia].
Qed.
Lemma parses_wuleb g v bs : lebgen_wf g -> 0 <= v < 2^32 -> wbits (wuleb g v) = Ok bs -> parses ruleb bs v.
Proof.
  intros Hg Hv H. destruct (wuleb_ok g v bs Hg Hv H) as (l & E & -> & L1 & L2 & L3).
  rewrite <- L2. apply parses_uleb; [exact L1|lia|lia].
Qed.

(* ISO 14496-1 *)
Lemma iso_fold l acc : fold_left (fun a b => a * 128 + b mod 128) l acc = acc * 128 ^ zlen l + iso_value l.
Proof.
  revert acc. induction l as [|b l IH]; intro acc.
  - unfold iso_value, zlen. cbn. rewrite Z.pow_0_r. lia.
  - unfold iso_value. cbn [fold_left]. rewrite IH, (IH (0 * 128 + b mod 128)), zlen_cons.
    rewrite Z.pow_add_r by (pose proof (zlen_nonneg l); lia). change (128^1) with 128. lia.
Qed.
Lemma iso_value_cons b l : iso_value (b :: l) = b mod 128 * 128 ^ zlen l + iso_value l.
Proof. unfold iso_value at 1. cbn [fold_left]. rewrite iso_fold. lia. Qed.
Lemma iso_value_nonneg l : 0 <= iso_value l.
Proof.
  induction l as [|b l IH]; [cbv; congruence|]. rewrite iso_value_cons.
  assert (0 <= 128 ^ zlen l) by (apply Z.pow_nonneg; lia). pose proof (Z.mod_pos_bound b 128 ltac:(reflexivity)). nia.
Qed.

Lemma parses_iso_loop k i acc l maxo :
  is_leb l -> (length l <= k)%nat -> Z.of_nat k + i = 8 -> 0 <= i -> 0 <= acc ->
  acc * 128 ^ zlen l + iso_value l <= maxo -> maxo < 2^32 ->
  parses (rleb_loop k false maxo i acc) (bytes_bits l) (acc * 128 ^ zlen l + iso_value l, i + zlen l).
Proof.
  revert i acc l. induction k as [|k IH]; intros i acc l Hl Hk Hi Hi0 Ha Hm Hmm.
  { destruct l; cbn in *; [contradiction|lia]. }
  destruct l as [|b l]; [contradiction|]. cbn [rleb_loop].
  assert (byteP b) as Hb. { apply is_leb_bytes in Hl. inversion Hl; assumption. }
  eapply parses_bind; [apply parses_u8_64, Hb| |apply bytes_bits_cons]. cbv zeta.
  rewrite land_128 by exact Hb.
  rewrite iso_value_cons in *. pose proof (iso_value_nonneg l) as Nn.
  rewrite zlen_cons in *. rewrite Z.pow_add_r in * by (pose proof (zlen_nonneg l); lia). change (128 ^ 1) with 128 in *.
  assert (0 < 128 ^ zlen l) as Pp by (apply Z.pow_pos_nonneg; pose proof (zlen_nonneg l); lia).
  pose proof (Z.mod_pos_bound b 128 ltac:(reflexivity)) as Mb.
  rewrite acc_be by nia.
  destruct l as [|b' l'].
  - cbn [is_leb] in Hl. replace (b <? 128) with true by lia. cbn [negb]. rewrite andb_false_r.
    change (zlen (@nil Z)) with 0 in *. change (iso_value []) with 0 in *. rewrite Z.pow_0_r in *.
    replace (acc * 128 + b mod 128 >? maxo) with false by lia.
    unfold u32. apply parses_ret_eq. rewrite Z.mod_small by lia. f_equal; lia.
  - cbn [is_leb] in Hl. destruct Hl as [Hb2 Hl]. set (t := b' :: l') in *.
    replace (b <? 128) with false by lia. cbn [negb]. cbn [length] in Hk.
    assert (length t <> O) by (unfold t; discriminate).
    replace ((i =? 7) && true) with false by lia.
    replace (acc * 128 + b mod 128 >? maxo) with false by nia.
    eapply parses_eq.
    + apply IH; try assumption; try lia; nia.
    + f_equal; [nia|lia].
Qed.

Lemma parses_riso l maxo : is_leb l -> (length l <= 8)%nat -> iso_value l <= maxo -> maxo < 2^32 ->
  parses (riso maxo) (bytes_bits l) (iso_value l).
Proof.
  intros. unfold riso. eapply parses_map; [apply parses_iso_loop; try eassumption; try lia|].
  - cbn [fst]. lia.
Qed.

(* ---- exact behaviour on arbitrary data ---- *)
Lemma aop_lit_short pre rem v n max :
  legal_width n max = true -> (length rem < Z.to_nat n)%nat ->
  aop (OLit n max) (mkC (pre ++ rem) (length pre) v) =
  (Err ResourceExhausted, mkC (pre ++ rem) (length pre) (Some true)).
Proof.
  intros W L. cbn [aop]. rewrite W. unfold c_left. cbn [c_bits c_pos]. rewrite app_length.
  replace (Z.to_nat n <=? length pre + length rem - length pre)%nat with false by lia. reflexivity.
Qed.

Lemma arun_lit_short pre rem v n max :
  legal_width n max = true -> (length rem < Z.to_nat n)%nat ->
  arun (rlit n max) (mkC (pre ++ rem) (length pre) v) = (Err ResourceExhausted, mkC (pre ++ rem) (length pre) (Some true)).
Proof. intros W L. cbn [rlit rop1 arun]. rewrite aop_lit_short by assumption. reflexivity. Qed.

Lemma split_byte (rem : list bool) : (8 <= length rem)%nat ->
  exists b rem', byteP b /\ rem = bits 8 b ++ rem'.
Proof.
  intro H. exists (ofbits (firstn 8 rem)), (skipn 8 rem).
  assert (length (firstn 8 rem) = 8%nat) as L by (rewrite firstn_length; lia).
  split.
  - pose proof (ofbits_range (firstn 8 rem)) as R. unfold zlen in R. rewrite L in R. exact R.
  - rewrite bits_ofbits' by exact L. symmetry. apply firstn_skipn.
Qed.

(* One of three things happens; [le] selects ULEB128 / ISO accumulation, only the shape matters here. *)
Lemma leb_loop_classify le k i acc maxo pre rem v :
  (0 < k)%nat -> Z.of_nat k + i = 8 -> 0 <= i ->
  (exists l rest x v', rem = bytes_bits l ++ rest /\ is_leb l /\ (length l <= k)%nat /\
     arun (rleb_loop k le maxo i acc) (mkC (pre ++ rem) (length pre) v) =
     (Ok x, mkC (pre ++ rem) (length pre + 8 * length l) v')) \/
  (exists l rest c', rem = bytes_bits l ++ rest /\ Forall (fun b => 128 <= b < 256) l /\ (length l < k)%nat /\
     (length rest < 8)%nat /\
     arun (rleb_loop k le maxo i acc) (mkC (pre ++ rem) (length pre) v) = (Err ResourceExhausted, c')) \/
  (exists c', arun (rleb_loop k le maxo i acc) (mkC (pre ++ rem) (length pre) v) = (Err InvalidArgument, c')).
Proof.
  revert i acc pre rem v. induction k as [|k IH]; intros i acc pre rem v Hk Hi Hi0; [lia|].
  cbn [rleb_loop]. rewrite arun_bind.
  destruct (le_lt_dec 8 (length rem)) as [L|L].
  2: { right. left. exists [], rem. rewrite arun_lit_short by (reflexivity || (change (Z.to_nat 8) with 8%nat; lia)).
       eexists. split; [reflexivity|]. split; [constructor|]. split; [cbn; lia|]. split; [exact L|reflexivity]. }
  destruct (split_byte rem L) as (b & rem' & Hb & ->).
  destruct (parses_u8_64 b Hb pre rem' v) as [v1 E]. rewrite E. cbv zeta.
  rewrite land_128 by exact Hb.
  destruct ((i =? 7) && negb (b <? 128)) eqn:C7; [right; right; cbn; eauto|].
  destruct (acc_byte le b i acc >? maxo) eqn:Cm; [right; right; cbn; eauto|].
  destruct (b <? 128) eqn:Ct.
  - left. exists [b], rem'. unfold byteP in Hb.
    eexists. eexists. split; [unfold bytes_bits; cbn [flat_map]; rewrite app_nil_r; reflexivity|]. split; [cbn; lia|]. split; [cbn; lia|].
    cbn [arun]. rewrite bits_length. reflexivity.
  - assert (0 < k)%nat as Hk' by (cbn [negb] in C7; lia).
    specialize (IH (i + 1) (acc_byte le b i acc) (pre ++ bits 8 b) rem' v1 Hk' ltac:(lia) ltac:(lia)).
    rewrite <- app_assoc, app_length in IH.
    unfold byteP in Hb.
    destruct IH as [(l & rest & x & v' & -> & Hl & Hlen & E')|[(l & rest & c' & -> & Hl & Hlen & Hr & E')|(c' & E')]].
    + left. exists (b :: l), rest, x, v'. split; [rewrite bytes_bits_cons, app_assoc; reflexivity|].
      split; [cbn [is_leb]; destruct l; [contradiction|]; split; [lia|exact Hl]|]. split; [cbn; lia|].
      rewrite E'. rewrite bits_length. cbn [length]. f_equal. f_equal. lia.
    + right. left. exists (b :: l), rest, c'. split; [rewrite bytes_bits_cons, app_assoc; reflexivity|].
      split; [constructor; [lia|exact Hl]|]. split; [cbn; lia|]. split; [exact Hr|exact E'].
    + right. right. exists c'. exact E'.
Qed.

(* value too large: always InvalidArgument *)
Lemma leb_too_big k i acc l maxo pre rest v :
  is_leb l -> (length l <= k)%nat -> Z.of_nat k + i = 8 -> 0 <= i -> 0 <= acc < 128 ^ i ->
  0 <= maxo -> maxo < acc + uleb_value l * 128 ^ i ->
  exists c', arun (rleb_loop k true maxo i acc) (mkC (pre ++ bytes_bits l ++ rest) (length pre) v) = (Err InvalidArgument, c').
Proof.
  revert i acc l pre v. induction k as [|k IH]; intros i acc l pre v Hl Hk Hi Hi0 Ha Hm Hmm.
  { destruct l; cbn in *; [contradiction|lia]. }
  destruct l as [|b l]; [contradiction|]. cbn [rleb_loop]. rewrite arun_bind.
  assert (byteP b) as Hb. { apply is_leb_bytes in Hl. inversion Hl; assumption. }
  rewrite bytes_bits_cons, <- app_assoc.
  destruct (parses_u8_64 b Hb pre (bytes_bits l ++ rest) v) as [v1 E]. rewrite E. cbv zeta.
  rewrite land_128 by exact Hb. rewrite acc_le by lia.
  destruct ((i =? 7) && negb (b <? 128)) eqn:C7; [cbn; eauto|].
  destruct (acc + b mod 128 * 128 ^ i >? maxo) eqn:Cm; [cbn; eauto|].
  cbn [uleb_value] in *. pose proof (uleb_value_nonneg l) as Nn.
  assert (0 < 128 ^ i) as Pp by (apply Z.pow_pos_nonneg; lia).
  destruct l as [|b' l'].
  - exfalso. cbn [uleb_value] in *. lia.
  - cbn [is_leb] in Hl. destruct Hl as [Hb2 Hl]. set (t := b' :: l') in *.
    replace (b <? 128) with false by lia.
    assert (128 ^ (i + 1) = 128 * 128 ^ i) as E1 by (rewrite Z.pow_add_r by lia; change (128^1) with 128; lia).
    pose proof (Z.mod_pos_bound b 128 ltac:(reflexivity)) as Mb. cbn [length] in Hk.
    destruct (IH (i+1) (acc + b mod 128 * 128 ^ i) t (pre ++ bits 8 b) v1 Hl) as [c' E'];
      [lia|lia|lia|rewrite E1; nia|lia|rewrite E1; nia|].
    exists c'. rewrite <- app_assoc, app_length in E'. exact E'.
Qed.

Lemma iso_too_big k i acc l maxo pre rest v :
  is_leb l -> (length l <= k)%nat -> Z.of_nat k + i = 8 -> 0 <= i -> 0 <= acc < 2^32 ->
  0 <= maxo < 2^32 -> maxo < acc * 128 ^ zlen l + iso_value l ->
  exists c', arun (rleb_loop k false maxo i acc) (mkC (pre ++ bytes_bits l ++ rest) (length pre) v) = (Err InvalidArgument, c').
Proof.
  revert i acc l pre v. induction k as [|k IH]; intros i acc l pre v Hl Hk Hi Hi0 Ha Hm Hmm.
  { destruct l; cbn in *; [contradiction|lia]. }
  destruct l as [|b l]; [contradiction|]. cbn [rleb_loop]. rewrite arun_bind.
  assert (byteP b) as Hb. { apply is_leb_bytes in Hl. inversion Hl; assumption. }
  rewrite bytes_bits_cons, <- app_assoc.
  destruct (parses_u8_64 b Hb pre (bytes_bits l ++ rest) v) as [v1 E]. rewrite E. cbv zeta.
  rewrite land_128 by exact Hb. rewrite acc_be by lia.
  destruct ((i =? 7) && negb (b <? 128)) eqn:C7; [cbn; eauto|].
  destruct (acc * 128 + b mod 128 >? maxo) eqn:Cm; [cbn; eauto|].
  rewrite iso_value_cons in *. rewrite zlen_cons in *. rewrite Z.pow_add_r in * by (pose proof (zlen_nonneg l); lia).
  change (128 ^ 1) with 128 in *.
  destruct l as [|b' l'].
  - exfalso. change (zlen (@nil Z)) with 0 in *. change (iso_value []) with 0 in *. rewrite Z.pow_0_r in *. lia.
  - cbn [is_leb] in Hl. destruct Hl as [Hb2 Hl]. set (t := b' :: l') in *.
    replace (b <? 128) with false by lia.
    pose proof (Z.mod_pos_bound b 128 ltac:(reflexivity)) as Mb. cbn [length] in Hk.
    destruct (IH (i+1) (acc * 128 + b mod 128) t (pre ++ bits 8 b) v1 Hl) as [c' E'];
      [lia|lia|lia|lia|lia|nia|].
    exists c'. rewrite <- app_assoc, app_length in E'. exact E'.
Qed.

Lemma uleb_accepts_exactly pre rem v x n :
  (exists v', arun ruleb_sz (mkC (pre ++ rem) (length pre) v) = (Ok (x, n), mkC (pre ++ rem) (length pre + 8 * Z.to_nat n) v')) <->
  (exists l rest, rem = bytes_bits l ++ rest /\ is_leb l /\ (length l <= 8)%nat /\ uleb_value l < 2^32 /\
     x = uleb_value l /\ n = zlen l).
Proof.
  split.
  - intros [v' E].
    destruct (leb_loop_classify true 8 0 0 (2^32-1) pre rem v) as
      [(l & rest & y & v2 & -> & Hl & Hn & E2)|[(l & rest & c & _ & _ & _ & _ & E2)|(c & E2)]]; try lia;
      fold ruleb_sz in E2; rewrite E2 in E; try discriminate.
    exists l, rest. split; [reflexivity|]. split; [exact Hl|]. split; [exact Hn|].
    destruct (Z.lt_ge_cases (uleb_value l) (2^32)) as [L|L].
    + destruct (parses_uleb_sz l Hl Hn L pre rest v) as [v3 E3]. rewrite E2 in E3.
      injection E as -> _ _. injection E3 as -> -> _ _. auto.
    + destruct (leb_too_big 8 0 0 l (2^32-1) pre rest v) as [c E3]; try assumption; try lia.
      fold ruleb_sz in E3. rewrite E2 in E3. discriminate.
  - intros (l & rest & -> & Hl & Hn & Hu & -> & ->).
    destruct (parses_uleb_sz l Hl Hn Hu pre rest v) as [v' E]. rewrite bytes_bits_length in E.
    exists v'. unfold zlen at 2. rewrite Nat2Z.id. exact E.
Qed.

Lemma uleb_error_kind pre rem v e c' :
  arun ruleb_sz (mkC (pre ++ rem) (length pre) v) = (e, c') -> is_ok e = false ->
  e = Err InvalidArgument \/
  (e = Err ResourceExhausted /\
   exists l rest, rem = bytes_bits l ++ rest /\ (length rest < 8)%nat /\ Forall (fun b => 128 <= b < 256) l /\ (length l < 8)%nat).
Proof.
  intros E He.
  destruct (leb_loop_classify true 8 0 0 (2^32-1) pre rem v) as
      [(l & rest & y & v2 & -> & Hl & Hn & E2)|[(l & rest & c & -> & H1 & H2 & H3 & E2)|(c & E2)]]; try lia;
      fold ruleb_sz in E2; rewrite E2 in E; injection E as <- <-.
  - discriminate.
  - right. split; [reflexivity|]. exists l, rest. auto.
  - left. reflexivity.
Qed.

Lemma riso_too_big l maxo pre rest v : is_leb l -> (length l <= 8)%nat -> 0 <= maxo < iso_value l -> maxo < 2^32 ->
  exists c', arun (riso maxo) (mkC (pre ++ bytes_bits l ++ rest) (length pre) v) = (Err InvalidArgument, c').
Proof.
  intros Hl Hn Hm Hm2. unfold riso.
  destruct (iso_too_big 8 0 0 l maxo pre rest v) as [c' E]; try assumption; try lia.
  exists c'. rewrite arun_bind, E. reflexivity.
Qed.
