(* Round-trip rules for payloads of at most 2 MiB (some readers refuse longer extensions), and sized sub-structures. *)
From Verif Require Import Base WriteBuf ReadBuf Leb BufSpec LebSpec BitFacts WriteBufFacts ReadBufFacts LebFacts
  ParseFacts EndToEnd ObuHeader ObuHeaderFacts FrameFacts SeqFacts SimpleObus.

(* Whenever writing [w] succeeds with at most B bits, [p] parses the result as [a]. *)
Definition rtn (B : Z) {A} (w : wprog) (p : rprog A) (a : A) : Prop :=
  forall bs, wbits w = Ok bs -> zlen bs <= B -> parses p bs a.
Notation rtb := (rtn (2^24)).
Lemma rt_of_rtn {A} w (p : rprog A) a : (forall B, rtn B w p a) -> rt w p a.
Proof. intros H bs E. apply (H (zlen bs) bs E). lia. Qed.

Lemma rtb_rt {N A} w (p : rprog A) a : rt w p a -> rtn N w p a.
Proof. intros H bs E _. apply H. exact E. Qed.
Lemma zlen_app {A} (x y : list A) : zlen (x ++ y) = zlen x + zlen y.
Proof. unfold zlen. rewrite app_length. lia. Qed.
Lemma rtb_seq {N A B} w1 w2 (p : rprog A) (f : A -> rprog B) a b :
  rtn N w1 p a -> rtn N w2 (f a) b -> rtn N (w1 ++ w2) (rb p f) b.
Proof.
  intros H1 H2 bs H L. apply wbits_app_ok in H as (x & y & E1 & E2 & ->). rewrite zlen_app in L.
  pose proof (zlen_nonneg x). pose proof (zlen_nonneg y).
  eapply parses_bind; [apply H1; [exact E1|lia]|apply H2; [exact E2|lia]|reflexivity].
Qed.
Lemma rtb_last {N A B} w (p : rprog A) (f : A -> rprog B) a b : rtn N w p a -> rtn N [] (f a) b -> rtn N w (rb p f) b.
Proof. intros H1 H2. rewrite <- (app_nil_r w). eapply rtb_seq; eassumption. Qed.
Lemma rtb_assoc {N A} w1 w2 w3 (p : rprog A) a : rtn N (w1 ++ w2 ++ w3) p a -> rtn N ((w1 ++ w2) ++ w3) p a.
Proof. rewrite <- app_assoc. auto. Qed.
Lemma rtb_wcheck {N A} b c w (p : rprog A) a : (b = true -> rtn N w p a) -> rtn N (wcheck b c ++ w) p a.
Proof. intros H. destruct b; [apply H; reflexivity|intros bs E; discriminate]. Qed.
Lemma rtb_wres {N A} r w (p : rprog A) a : (r = Ok tt -> rtn N w p a) -> rtn N (wres r ++ w) p a.
Proof. intros H. destruct r as [[]|c| | |]; cbn [wres app]; try (intros bs E; discriminate). apply H. reflexivity. Qed.
Lemma rtb_wfail {N A} c w (p : rprog A) a : rtn N (WFail c :: w) p a.
Proof. intros bs E. discriminate. Qed.
Lemma rtb_rcheck {N A} b c w (k : rprog A) a : b = true -> rtn N w k a -> rtn N w (rb (rcheck b c) (fun _ => k)) a.
Proof. intros -> H bs E L. apply parses_check; [reflexivity|apply H; assumption]. Qed.
Lemma rtb_rres {N A B} (r : res A) x (k : A -> rprog B) w b : r = Ok x -> rtn N w (k x) b -> rtn N w (rb (rres r) k) b.
Proof. intros E H bs Eb L. eapply parses_rres_ok; [exact E|apply H; assumption]. Qed.
Lemma rtb_ret_eq {N A} (a b : A) : a = b -> rtn N [] (RRet a) b.
Proof. intros ->. apply rtb_rt, rt_ret. Qed.
Lemma rtb_list {N A} (w : A -> wprog) (p : rprog A) l n :
  n = length l -> (forall x, In x l -> rtn N (w x) p x) -> rtn N (flat_map w l) (rlist n p) l.
Proof.
  intros -> H. induction l as [|x l IH]; [apply rtb_rt, rt_ret|]. cbn [flat_map rlist length].
  eapply rtb_seq; [apply H; left; reflexivity|]. eapply rtb_last; [apply IH; intros y Hy; apply H; right; exact Hy|].
  apply rtb_rt, rt_ret.
Qed.

Lemma parses_obu_bounded {A} g h payload footer bs (derived : header -> Z -> rprog A) (a : A) :
  lebgen_wf g -> header_wf h -> Forall winstr_wf payload -> Forall byteP footer ->
  wbits (write_obu g h payload footer) = Ok bs ->
  (forall n, rtb payload (derived (norm_header h) n) a) ->
  parses (read_obu derived) bs (norm_header h, a, footer).
Proof.
  intros Hg Hh Hp Hf H Hd. eapply parses_obu_simple; try eassumption. intros pb Epb Hm. apply Hd; [exact Epb|].
  destruct (write_obu_ok g h payload footer bs Hp Hf H) as (pb' & hb & E1 & _ & E2 & _).
  rewrite Epb in E1. injection E1 as <-.
  destruct (write_header_ok _ _ _ _ Hg Hh E2) as (te & ts & ls & lb & lo & _ & _ & _ & _ & _ & _ & Hle & _).
  pose proof (zlen_nonneg (te ++ ts ++ ls ++ lb)). pose proof (zlen_nonneg lo). pose proof (zlen_nonneg footer).
  change (2^21) with 2097152 in Hle. change (2^24) with 16777216. unfold zlen in *. lia.
Qed.

Theorem obu_round_trip_bounded {A} g h payload footer (derived : header -> Z -> rprog A) (a : A) :
  lebgen_wf g -> header_wf h -> Forall winstr_wf payload -> Forall byteP footer ->
  (forall n, rtb payload (derived (norm_header h) n) a) ->
  reads_back (write_obu g h payload footer) (read_obu derived) (norm_header h, a, footer).
Proof.
  intros Hg Hh Hp Hf H. apply reads_back_intro; [apply write_obu_wf; assumption|].
  intros bs E. eapply parses_obu_bounded; eassumption.
Qed.

Lemma wiso_wf v : 0 <= v < 2^32 -> Forall winstr_wf (wiso v).
Proof.
  intro Hv. unfold wiso. destruct (iso_bytes_spec v Hv) as (l & -> & L & _). repeat constructor. cbn [winstr_wf].
  apply is_leb_bytes. exact L.
Qed.
Lemma rt_iso v max : 0 <= v < 2^32 -> v <= max < 2^32 -> rt (wiso v) (riso max) v.
Proof.
  intros Hv Hm bs E. unfold wiso in E. destruct (iso_bytes_spec v Hv) as (l & El & L & V & N). rewrite El in E.
  apply wspan_ok in E as ->. rewrite <- V. apply parses_riso; try assumption; lia.
Qed.
Lemma wlit64_wf d n : 0 <= d < 2^64 -> Forall winstr_wf (wlit64 d n).
Proof. intros. repeat constructor; cbn [winstr_wf]; lia. Qed.
Lemma set_type_wf' h t : header_wf h -> 0 <= t < 32 -> header_wf (set_type h t).
Proof. intros (Ht & He & Hs & Hx) H. split; [exact H|]. split; [exact He|]. split; [exact Hs|exact Hx]. Qed.
