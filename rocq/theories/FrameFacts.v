(* Inversion lemmas for cursor runs, and facts about OBU framing and peeking. *)
From Verif Require Import Base WriteBuf ReadBuf Leb BufSpec LebSpec BitFacts WriteBufFacts ReadBufFacts LebFacts
  ParseFacts EndToEnd ObuHeader ObuHeaderFacts.

Lemma arun_bind_ok {A B} (p : rprog A) (f : A -> rprog B) c b c' :
  arun (rb p f) c = (Ok b, c') -> exists a c1, arun p c = (Ok a, c1) /\ arun (f a) c1 = (Ok b, c').
Proof. rewrite arun_bind. destruct (arun p c) as [[a|e| | |] c1]; try discriminate. eauto. Qed.

Definition cok (c : cur) : Prop := (c_pos c <= length (c_bits c))%nat.

Lemma aop_cok o c : cok c -> cok (snd (aop o c)).
Proof.
  unfold cok. intro H. destruct o as [n max| |p|]; cbn [aop].
  - destruct (legal_width n max); [|exact H]. destruct (Z.to_nat n <=? c_left c)%nat eqn:E; cbn [snd c_pos c_bits]; [|exact H].
    unfold c_left in E. lia.
  - exact H.
  - destruct (c_valid c) as [[|]|]; try exact H. destruct (p <? 0) eqn:E1; [exact H|].
    destruct (p >? zlen (c_bits c)) eqn:E2; [exact H|]. cbn [snd c_pos c_bits]. unfold zlen in E2. lia.
  - exact H.
Qed.

Lemma arun_cok {A} (p : rprog A) c : cok c -> cok (snd (arun p c)).
Proof.
  revert c. induction p as [a|e|o k IH]; intros c H; cbn [arun]; try exact H.
  pose proof (aop_cok o c H) as H1. destruct (aop o c) as [[v|e| | |] c']; cbn [snd] in *; try exact H1; apply IH; exact H1.
Qed.

Lemma aop_valid o c : c_valid c = Some true ->
  c_valid (snd (aop o c)) = Some true /\ ((exists v, fst (aop o c) = Ok v) \/ exists e, fst (aop o c) = Err e).
Proof.
  intro H. destruct o as [n max| |p|]; cbn [aop].
  - destruct (legal_width n max); [destruct (_ <=? _)%nat|]; cbn [fst snd c_valid]; eauto.
  - cbn [fst snd c_valid]. eauto.
  - rewrite H. destruct (p <? 0); [cbn [fst snd]; eauto|].
    destruct (p >? zlen (c_bits c)); cbn [fst snd c_valid]; eauto.
  - cbn [fst snd]. eauto.
Qed.

(* From a valid cursor every program ends with a value or an error status. *)
Lemma arun_valid {A} (p : rprog A) c : c_valid c = Some true ->
  c_valid (snd (arun p c)) = Some true /\ ((exists a, fst (arun p c) = Ok a) \/ exists e, fst (arun p c) = Err e).
Proof.
  revert c. induction p as [a|e|o k IH]; intros c H; cbn [arun fst snd]; [eauto|eauto|].
  destruct (aop_valid o c H) as [H1 Hr]. destruct (aop o c) as [[v|e| | |] c']; cbn [fst snd] in *;
    try (apply IH; exact H1); destruct Hr as [[v Hr]|[e Hr]]; discriminate.
Qed.

Lemma arun_lit n max c : cok c -> legal_width n max = true ->
  arun (rlit n max) c =
  if (Z.to_nat n <=? length (c_bits c) - c_pos c)%nat
  then (Ok (ofbits (firstn (Z.to_nat n) (skipn (c_pos c) (c_bits c)))), mkC (c_bits c) (c_pos c + Z.to_nat n) (Some true))
  else (Err ResourceExhausted, mkC (c_bits c) (c_pos c) (Some true)).
Proof.
  intros Hc Hw. unfold rlit, rop1. cbn [arun aop]. rewrite Hw. unfold c_left.
  destruct (_ <=? _)%nat; reflexivity.
Qed.

Lemma firstn_skipn_bits c k : (c_pos c + k <= length (c_bits c))%nat ->
  c_bits c = firstn (c_pos c) (c_bits c) ++ firstn k (skipn (c_pos c) (c_bits c)) ++ skipn (c_pos c + k) (c_bits c).
Proof.
  intro H. rewrite <- skipn_skipn'. rewrite firstn_skipn, firstn_skipn. reflexivity.
Qed.

Lemma arun_span k c : cok c ->
  if (8 * k <=? length (c_bits c) - c_pos c)%nat
  then exists l v, arun (rspan k) c = (Ok l, mkC (c_bits c) (c_pos c + 8 * k) v) /\ length l = k /\ Forall byteP l /\
                 bytes_bits l = firstn (8 * k) (skipn (c_pos c) (c_bits c))
  else exists c', arun (rspan k) c = (Err ResourceExhausted, c').
Proof.
  revert c. induction k as [|k IH]; intros c Hc.
  - cbn [rspan arun]. replace (8 * 0 <=? _)%nat with true by lia. exists [], (c_valid c). destruct c as [b p v]. cbn [c_bits c_pos c_valid].
    replace (p + 8 * 0)%nat with p by lia. repeat split. constructor.
  - cbn [rspan]. destruct (8 * S k <=? length (c_bits c) - c_pos c)%nat eqn:E.
    + rewrite arun_bind, arun_lit by (try exact Hc; reflexivity). change (Z.to_nat 8) with 8%nat.
      replace (8 <=? length (c_bits c) - c_pos c)%nat with true by lia.
      set (c1 := mkC (c_bits c) (c_pos c + 8) (Some true)).
      assert (cok c1) as H1 by (unfold cok, c1; cbn [c_pos c_bits]; lia).
      specialize (IH c1 H1). replace (8 * k <=? length (c_bits c1) - c_pos c1)%nat with true in IH
        by (unfold c1; cbn [c_pos c_bits]; lia).
      destruct IH as (l & v & R & L & F & B). rewrite arun_bind, R. cbn [arun].
      set (b8 := firstn 8 (skipn (c_pos c) (c_bits c))).
      assert (length b8 = 8%nat) as L8 by (unfold b8; rewrite firstn_length, skipn_length; lia).
      eexists (ofbits b8 :: l), v. split; [unfold c1; cbn [c_pos c_bits]; do 2 f_equal; lia|]. split; [cbn [length]; lia|].
      split.
      * constructor; [|exact F]. pose proof (ofbits_range b8) as R8. unfold zlen in R8. rewrite L8 in R8. exact R8.
      * rewrite bytes_bits_cons, B. rewrite (bits_ofbits' 8 b8 L8). unfold c1. cbn [c_pos c_bits]. unfold b8.
        replace (8 * S k)%nat with (8 + 8 * k)%nat by lia. rewrite firstn_skipn_split. reflexivity.
    + rewrite arun_bind, arun_lit by (try exact Hc; reflexivity). change (Z.to_nat 8) with 8%nat.
      destruct (8 <=? length (c_bits c) - c_pos c)%nat eqn:E8; [|eexists; reflexivity].
      set (c1 := mkC (c_bits c) (c_pos c + 8) (Some true)).
      assert (cok c1) as H1 by (unfold cok, c1; cbn [c_pos c_bits]; lia).
      specialize (IH c1 H1). replace (8 * k <=? length (c_bits c1) - c_pos c1)%nat with false in IH
        by (unfold c1; cbn [c_pos c_bits]; lia).
      destruct IH as [c' R]. rewrite arun_bind, R. eexists; reflexivity.
Qed.

Lemma cur_split c : cok c ->
  exists pre, c = mkC (pre ++ skipn (c_pos c) (c_bits c)) (length pre) (c_valid c) /\ length pre = c_pos c.
Proof.
  intro H. exists (firstn (c_pos c) (c_bits c)). unfold cok in H.
  assert (length (firstn (c_pos c) (c_bits c)) = c_pos c) as L by (rewrite firstn_length; lia).
  split; [|exact L]. rewrite L, firstn_skipn. destruct c; reflexivity.
Qed.

(* ULEB128 at the cursor: all outcomes. *)
Lemma arun_uleb c : cok c ->
  (exists l rest v, skipn (c_pos c) (c_bits c) = bytes_bits l ++ rest /\ is_leb l /\ (1 <= length l <= 8)%nat /\
     0 <= uleb_value l < 2^32 /\
     arun ruleb_sz c = (Ok (uleb_value l, zlen l), mkC (c_bits c) (c_pos c + 8 * length l) v)) \/
  (exists l rest c', skipn (c_pos c) (c_bits c) = bytes_bits l ++ rest /\ (length rest < 8)%nat /\ (length l < 8)%nat /\
     Forall (fun b => 128 <= b < 256) l /\ arun ruleb_sz c = (Err ResourceExhausted, c')) \/
  (exists c', arun ruleb_sz c = (Err InvalidArgument, c')).
Proof.
  intro Hc. destruct (cur_split c Hc) as (pre & Ec & Lp). set (rem := skipn (c_pos c) (c_bits c)) in *.
  assert (c_bits c = pre ++ rem) as Eb by (rewrite Ec; reflexivity).
  destruct (leb_loop_classify true 8 0 0 (2^32-1) pre rem (c_valid c) ltac:(lia) ltac:(lia) ltac:(lia))
    as [(l & rest & x & v' & Er & Hl & L8 & Ey)|[(l & rest & c'' & Er & F & L & R & Ey)|(c'' & Ey)]].
  - fold ruleb_sz in Ey. rewrite <- Ec in Ey. destruct x as [x n].
    destruct (Z_lt_dec (uleb_value l) (2^32)) as [Hv|Hv].
    + left. exists l, rest. destruct (parses_uleb_sz l Hl L8 Hv pre rest (c_valid c)) as [v2 P]. rewrite <- Er, <- Ec in P.
      exists v2. split; [exact Er|]. split; [exact Hl|]. split; [destruct l; [destruct Hl|cbn [length] in *; lia]|].
      split; [pose proof (uleb_value_nonneg l); lia|]. rewrite P, Eb, Lp, bytes_bits_length. reflexivity.
    + exfalso. destruct (leb_too_big 8 0 0 l (2^32-1) pre rest (c_valid c) Hl L8) as [c2 P]; try lia.
      rewrite <- Er, <- Ec in P. fold ruleb_sz in P. congruence.
  - fold ruleb_sz in Ey. rewrite <- Ec in Ey. right. left. exists l, rest, c''. auto.
  - fold ruleb_sz in Ey. rewrite <- Ec in Ey. right. right. eauto.
Qed.

Lemma arun_uleb_ok c x n c' : cok c -> arun ruleb_sz c = (Ok (x, n), c') ->
  exists l rest, skipn (c_pos c) (c_bits c) = bytes_bits l ++ rest /\ is_leb l /\ x = uleb_value l /\ n = zlen l /\
    1 <= n <= 8 /\ 0 <= x < 2^32 /\ c_pos c' = (c_pos c + 8 * length l)%nat /\ c_bits c' = c_bits c /\ cok c'.
Proof.
  intros Hc E. pose proof (arun_cok ruleb_sz c Hc) as Hc'. rewrite E in Hc'. cbn [snd] in Hc'.
  destruct (arun_uleb c Hc) as [(l & rest & v & Er & Hl & L & V & R)|[(l & rest & c2 & _ & _ & _ & _ & R)|(c2 & R)]];
    rewrite R in E; try discriminate. injection E as <- <- <-. exists l, rest. cbn [c_pos c_bits] in *. unfold zlen.
  repeat split; try assumption; try lia.
Qed.

(* ---- reading a payload consumes exactly its declared size ---- *)
Lemma read_payload_ok {A} n (derived : rprog A) c a f c' :
  cok c -> arun (read_payload n derived) c = (Ok (a, f), c') ->
  exists c1, arun derived (mkC (c_bits c) (c_pos c) (Some true)) = (Ok a, c1) /\ c_bits c' = c_bits c /\
    Z.of_nat (c_pos c') = Z.of_nat (c_pos c) + 8 * n /\ (c_pos c1 <= c_pos c')%nat /\ Forall byteP f /\
    bytes_bits f = firstn (c_pos c' - c_pos c1) (skipn (c_pos c1) (c_bits c)).
Proof.
  intros Hc E. unfold read_payload in E. rewrite arun_bind, arun_rtell in E. rewrite arun_bind in E.
  set (c0 := mkC (c_bits c) (c_pos c) (Some true)) in *.
  pose proof (arun_cok derived c0 Hc) as Hc1. pose proof (arun_bits derived c0) as Hb1.
  destruct (arun derived c0) as [[a'|e| | |] c1] eqn:Ed; try discriminate. cbn [snd] in *.
  rewrite arun_bind, arun_rtell in E. cbn [c_bits] in Hb1.
  destruct (Z.of_nat (c_pos c) + n * 8 =? Z.of_nat (c_pos c1)) eqn:E1.
  - cbn [arun] in E. injection E as <- <- <-. exists c1. cbn [c_pos c_bits]. split; [reflexivity|]. split; [exact Hb1|].
    split; [lia|]. split; [lia|]. split; [constructor|]. rewrite Nat.sub_diag. reflexivity.
  - destruct (Z.of_nat (c_pos c) + n * 8 >? Z.of_nat (c_pos c1)) eqn:E2; [|discriminate].
    destruct (negb (_ =? 0)) eqn:E3 in E; [discriminate|].
    set (k := Z.to_nat ((Z.of_nat (c_pos c) + n * 8 - Z.of_nat (c_pos c1)) / 8)) in *.
    set (c2 := mkC (c_bits c1) (c_pos c1) (Some true)) in *.
    rewrite arun_bind in E. pose proof (arun_span k c2 Hc1) as S.
    destruct (8 * k <=? length (c_bits c2) - c_pos c2)%nat.
    + destruct S as (l & v & R & L & F & B). rewrite R in E. cbn [arun] in E. injection E as <- <- <-.
      exists c1. unfold c2 in *. cbn [c_pos c_bits] in *. split; [reflexivity|]. split; [exact Hb1|].
      split; [unfold k; lia|]. split; [lia|]. split; [exact F|].
      replace (c_pos c1 + 8 * k - c_pos c1)%nat with (8 * k)%nat by lia. rewrite B, Hb1. reflexivity.
    + destruct S as [c3 R]. rewrite R in E. discriminate.
Qed.

(* ---- writing an OBU ---- *)
Lemma write_header_wf g h n : lebgen_wf g -> header_wf h -> Forall winstr_wf (write_header g h n).
Proof.
  intros Hg Hh. unfold write_header. destruct (obu_size_and_validate g h n) as [os| | | |] eqn:E; [|repeat constructor..].
  pose proof Hh as (Ht & _). destruct (obu_size_ok g h n os Hg Hh E) as (te & ts & ls & lb & lo & _ & _ & Elo & Hn & _ & _ & Eos & Hle & _).
  pose proof (zlen_nonneg (te ++ ts ++ ls ++ lb)). pose proof (zlen_nonneg lo). change (2^21) with 2097152 in *.
  wf_split.
  - apply wlit_wf. lia.
  - apply wbool_wf. - apply wbool_wf. - apply wbool_wf.
  - apply wuleb_wf; [exact Hg|]. change (2^32) with 4294967296. lia.
  - apply fields_wf; assumption.
Qed.

Lemma write_obu_wf g h payload footer : lebgen_wf g -> header_wf h -> Forall winstr_wf payload -> Forall byteP footer ->
  Forall winstr_wf (write_obu g h payload footer).
Proof.
  intros Hg Hh Hp Hf. unfold write_obu.
  assert (Forall winstr_wf (payload ++ wspan footer)) as Hw by (apply Forall_app; split; [exact Hp|apply wspan_wf; exact Hf]).
  destruct (temp_write (payload ++ wspan footer)) as [t| | | |] eqn:E; [|repeat constructor..].
  destruct (negb _); [repeat constructor|]. apply Forall_app. split; [apply write_header_wf; assumption|].
  destruct (temp_write_ok _ _ Hw E) as (bs & _ & -> & _). apply wspan_wf. apply pack_spec.
Qed.

Lemma write_obu_ok g h payload footer bs :
  Forall winstr_wf payload -> Forall byteP footer -> wbits (write_obu g h payload footer) = Ok bs ->
  exists pb hb, wbits payload = Ok pb /\ (length pb mod 8 = 0)%nat /\
    wbits (write_header g h (zlen pb / 8 + zlen footer)) = Ok hb /\ bs = hb ++ pb ++ bytes_bits footer.
Proof.
  intros Hp Hf H. unfold write_obu in H.
  assert (Forall winstr_wf (payload ++ wspan footer)) as Hw by (apply Forall_app; split; [exact Hp|apply wspan_wf; exact Hf]).
  destruct (temp_write (payload ++ wspan footer)) as [t|c| | |] eqn:E; try discriminate.
  destruct (temp_write_ok _ _ Hw E) as (pf & E1 & E2 & E3). apply wbits_app_ok in E1 as (pb & fb & E1 & Ef & ->).
  apply wspan_ok in Ef as ->.
  destruct (negb (w_off t mod 8 =? 0)) eqn:Ea; [discriminate|].
  assert ((length pb mod 8 = 0)%nat) as Hm.
  { rewrite E3 in Ea. unfold zlen in Ea. rewrite app_length, bytes_bits_length in Ea. lia. }
  apply wbits_app_ok in H as (hb & rb & H1 & H2 & ->). apply wspan_ok in H2 as ->.
  exists pb, hb. split; [exact E1|]. split; [exact Hm|]. split.
  - rewrite <- H1. f_equal. f_equal. rewrite E2. unfold zlen. rewrite pack_length, app_length, bytes_bits_length. lia.
  - f_equal. rewrite E2. apply pack_aligned. rewrite app_length, bytes_bits_length. lia.
Qed.

Lemma parses_payload {A} n (derived : rprog A) db a footer bs :
  parses derived db a -> bs = db ++ bytes_bits footer -> Forall byteP footer -> zlen bs = 8 * n ->
  parses (read_payload n derived) bs (a, footer).
Proof.
  intros Hd -> Hf Hn pre rest v. unfold read_payload. rewrite arun_bind, arun_rtell. cbn [c_bits c_pos].
  rewrite arun_bind. destruct (Hd pre (bytes_bits footer ++ rest) (Some true)) as [v1 E1].
  replace (pre ++ (db ++ bytes_bits footer) ++ rest) with (pre ++ db ++ bytes_bits footer ++ rest) by (rewrite <- !app_assoc; reflexivity).
  rewrite E1. rewrite arun_bind, arun_rtell. cbn [c_bits c_pos].
  unfold zlen in Hn. rewrite app_length, bytes_bits_length in Hn.
  destruct (Z.of_nat (length pre) + n * 8 =? Z.of_nat (length pre + length db)) eqn:E.
  - assert (footer = []) as -> by (destruct footer; [reflexivity|cbn [length] in Hn; lia]).
    cbn [arun]. eexists. do 2 f_equal. cbn [bytes_bits flat_map]. rewrite app_nil_r. reflexivity.
  - replace (Z.of_nat (length pre) + n * 8 >? Z.of_nat (length pre + length db)) with true by lia.
    replace (negb ((Z.of_nat (length pre) + n * 8 - Z.of_nat (length pre + length db)) mod 8 =? 0)) with false by lia.
    replace (Z.to_nat ((Z.of_nat (length pre) + n * 8 - Z.of_nat (length pre + length db)) / 8)) with (length footer) by lia.
    rewrite arun_bind. destruct (parses_span footer Hf (pre ++ db) rest (Some true)) as [v2 E2].
    rewrite app_length in E2. rewrite <- !app_assoc in E2. rewrite E2. cbn [arun]. eexists. do 2 f_equal.
    rewrite app_length. lia.
Qed.

(* Whole OBU: [db] is what the payload parser consumes of payload ++ footer, [footer'] what it leaves. *)
Lemma parses_obu {A} g h payload footer bs (derived : header -> Z -> rprog A) (a : A) footer' :
  lebgen_wf g -> header_wf h -> Forall winstr_wf payload -> Forall byteP footer ->
  wbits (write_obu g h payload footer) = Ok bs ->
  (forall pb, wbits payload = Ok pb -> (length pb mod 8 = 0)%nat ->
     exists db, pb ++ bytes_bits footer = db ++ bytes_bits footer' /\ Forall byteP footer' /\
     parses (derived (norm_header h) (zlen pb / 8 + zlen footer)) db a) ->
  parses (read_obu derived) bs (norm_header h, a, footer').
Proof.
  intros Hg Hh Hp Hf H Hd. destruct (write_obu_ok g h payload footer bs Hp Hf H) as (pb & hb & E1 & Hm & E2 & ->).
  destruct (Hd pb E1 Hm) as (db & Edb & Hf' & P). unfold read_obu.
  eapply parses_bind; [eapply parses_header; eassumption| |reflexivity]. cbn [fst snd].
  eapply parses_bind; [eapply parses_payload; [exact P|exact Edb|exact Hf'|]|apply parses_ret|rewrite app_nil_r; reflexivity].
  unfold zlen. rewrite app_length, bytes_bits_length. lia.
Qed.

(* The usual case: the payload parser consumes exactly the payload. *)
Lemma parses_obu_simple {A} g h payload footer bs (derived : header -> Z -> rprog A) (a : A) :
  lebgen_wf g -> header_wf h -> Forall winstr_wf payload -> Forall byteP footer ->
  wbits (write_obu g h payload footer) = Ok bs ->
  (forall pb, wbits payload = Ok pb -> (length pb mod 8 = 0)%nat ->
     parses (derived (norm_header h) (zlen pb / 8 + zlen footer)) pb a) ->
  parses (read_obu derived) bs (norm_header h, a, footer).
Proof.
  intros Hg Hh Hp Hf H Hd. eapply parses_obu; try eassumption. intros pb E Hm. exists pb. auto.
Qed.
