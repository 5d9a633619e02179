(* Compositional rules for "writer w is read back by reader p as a". *)
From Verif Require Import Base WriteBuf ReadBuf Leb BufSpec LebSpec BitFacts WriteBufFacts ReadBufFacts LebFacts
  ParseFacts EndToEnd ObuHeader ObuHeaderFacts.

(* Whenever writing [w] succeeds, [p] parses the result as [a]. *)
Definition rt {A} (w : wprog) (p : rprog A) (a : A) : Prop := forall bs, wbits w = Ok bs -> parses p bs a.

Lemma rt_reads_back {A} w (p : rprog A) a : Forall winstr_wf w -> rt w p a -> reads_back w p a.
Proof. intros Hw H. apply reads_back_intro; assumption. Qed.

Lemma rt_ret {A} (a : A) : rt [] (RRet a) a.
Proof. intros bs H. apply wbits_nil_ok in H as ->. apply parses_ret. Qed.

Lemma rt_ret_eq {A} (a b : A) : a = b -> rt [] (RRet a) b.
Proof. intros ->. apply rt_ret. Qed.

Lemma rt_seq {A B} w1 w2 (p : rprog A) (f : A -> rprog B) a b :
  rt w1 p a -> rt w2 (f a) b -> rt (w1 ++ w2) (rb p f) b.
Proof.
  intros H1 H2 bs H. apply wbits_app_ok in H as (x & y & E1 & E2 & ->).
  eapply parses_bind; [apply H1; exact E1|apply H2; exact E2|reflexivity].
Qed.

(* the last element of a sequence *)
Lemma rt_last {A B} w (p : rprog A) (f : A -> rprog B) a b : rt w p a -> rt [] (f a) b -> rt w (rb p f) b.
Proof. intros H1 H2. rewrite <- (app_nil_r w). eapply rt_seq; eassumption. Qed.

Lemma rt_assoc {A} w1 w2 w3 (p : rprog A) a : rt (w1 ++ w2 ++ w3) p a -> rt ((w1 ++ w2) ++ w3) p a.
Proof. rewrite <- app_assoc. auto. Qed.

Lemma rb_assoc {A B C} (p : rprog A) (f : A -> rprog B) (g : B -> rprog C) c :
  arun (rb (rb p f) g) c = arun (rb p (fun x => rb (f x) g)) c.
Proof.
  rewrite !arun_bind. destruct (arun p c) as [[a|e| | |] c1]; try reflexivity. rewrite arun_bind. reflexivity.
Qed.

Lemma parses_ext {A} (p q : rprog A) bs a : (forall c, arun p c = arun q c) -> parses q bs a -> parses p bs a.
Proof. intros H P pre rest v. rewrite H. apply P. Qed.

Lemma rt_ext {A} w (p q : rprog A) a : (forall c, arun p c = arun q c) -> rt w q a -> rt w p a.
Proof. intros H P bs E. eapply parses_ext; [exact H|apply P; exact E]. Qed.

(* writer-side validation *)
Lemma rt_wcheck {A} b c w (p : rprog A) a : (b = true -> rt w p a) -> rt (wcheck b c ++ w) p a.
Proof.
  intros H bs E. apply wbits_app_ok in E as (x & y & E1 & E2 & ->). apply wcheck_ok in E1 as [Hb ->].
  apply H; assumption.
Qed.
Lemma rt_wcheck_last {A} b c (p : rprog A) a : (b = true -> rt [] p a) -> rt (wcheck b c) p a.
Proof. intros H. rewrite <- (app_nil_r (wcheck b c)). apply rt_wcheck. exact H. Qed.
Lemma rt_wres {A} r w (p : rprog A) a : (r = Ok tt -> rt w p a) -> rt (wres r ++ w) p a.
Proof.
  intros H. destruct r as [[]|c| | |]; cbn [wres app]; try (intros bs E; discriminate). apply H. reflexivity.
Qed.
Lemma rt_wfail {A} c w (p : rprog A) a : rt (WFail c :: w) p a.
Proof. intros bs E. discriminate. Qed.
Lemma rt_wfail' {A} c w (p : rprog A) a : rt ([WFail c] ++ w) p a.
Proof. intros bs E. discriminate. Qed.

(* reader-side validation *)
Lemma rt_rcheck {A} b c w (k : rprog A) a : b = true -> rt w k a -> rt w (rb (rcheck b c) (fun _ => k)) a.
Proof. intros -> H bs E. apply parses_check; [reflexivity|apply H; exact E]. Qed.
Lemma rt_rres {A B} (r : res A) x (k : A -> rprog B) w b : r = Ok x -> rt w (k x) b -> rt w (rb (rres r) k) b.
Proof. intros E H bs Eb. eapply parses_rres_ok; [exact E|apply H; exact Eb]. Qed.

(* a sub-reader that reads nothing *)
Lemma rt_skip {A B} (p : rprog A) (f : A -> rprog B) w a b : parses p [] a -> rt w (f a) b -> rt w (rb p f) b.
Proof. intros P H bs E. eapply parses_bind; [exact P|apply H; exact E|reflexivity]. Qed.

(* primitives *)
Lemma rt_lit n max data : 0 <= data -> 0 < n -> n <= max -> n <= 64 -> rt (wlit data n) (rlit n max) data.
Proof. intros. intros bs E. eapply parses_wlit; eassumption. Qed.
Lemma rt_bool b : rt (wbool b) rbool b.
Proof. intros bs E. apply parses_wbool. exact E. Qed.
Lemma rt_uleb g v : lebgen_wf g -> 0 <= v < 2^32 -> rt (wuleb g v) ruleb v.
Proof. intros Hg Hv bs E. eapply parses_wuleb; eassumption. Qed.
Lemma rt_span l n : Forall byteP l -> n = length l -> rt (wspan l) (rspan n) l.
Proof. intros H -> bs E. apply wspan_ok in E as ->. apply parses_span. exact H. Qed.
Lemma rt_string s : Forall byteP s -> rt (wstring s) rstring s.
Proof. intros H bs E. apply parses_wstring; assumption. Qed.
Lemma rt_signed16 v : -2^15 <= v < 2^15 -> rt (wsigned16 v) rsigned16 v.
Proof. intros H bs E. apply parses_wsigned16; assumption. Qed.
Lemma rt_signed8 v : -2^7 <= v < 2^7 -> rt (wsigned8 v) rsigned8 v.
Proof. intros H bs E. apply parses_wsigned8; assumption. Qed.
Lemma rt_signed9 v : rt (wsigned9 v) rsigned9 v.
Proof. intros bs E. apply (parses_wsigned9 v bs E). Qed.

(* loops: a list written element by element is read back by a counted loop *)
Fixpoint rlist {A} (n : nat) (p : rprog A) : rprog (list A) :=
  match n with O => RRet [] | S k => x <- p ;; l <- rlist k p ;; RRet (x :: l) end.

Lemma rt_list {A} (w : A -> wprog) (p : rprog A) l n :
  n = length l -> (forall x, In x l -> rt (w x) p x) -> rt (flat_map w l) (rlist n p) l.
Proof.
  intros -> H. induction l as [|x l IH]; [apply rt_ret|]. cbn [flat_map rlist length].
  eapply rt_seq; [apply H; left; reflexivity|]. eapply rt_last; [apply IH; intros y Hy; apply H; right; exact Hy|].
  apply rt_ret.
Qed.

Lemma wsigned16_wf v : Forall winstr_wf (wsigned16 v).
Proof.
  repeat constructor; cbn [winstr_wf]; change 65535 with (Z.ones 16); rewrite Z.land_ones by lia; change (2^16) with 65536;
    change (2^64) with 18446744073709551616; lia.
Qed.
Lemma wsigned8_wf v : Forall winstr_wf (wsigned8 v).
Proof.
  repeat constructor; cbn [winstr_wf]; change 255 with (Z.ones 8); rewrite Z.land_ones by lia; change (2^8) with 256;
    change (2^64) with 18446744073709551616; lia.
Qed.
Lemma wsigned9_wf v : Forall winstr_wf (wsigned9 v).
Proof.
  unfold wsigned9. destruct (_ || _); repeat constructor; cbn [winstr_wf]; change 511 with (Z.ones 9); rewrite Z.land_ones by lia;
    change (2^9) with 512; change (2^64) with 18446744073709551616; lia.
Qed.
Lemma Forall_flat_map_wf {A} (w : A -> wprog) l : (forall x, In x l -> Forall winstr_wf (w x)) -> Forall winstr_wf (flat_map w l).
Proof.
  intro H. induction l as [|x l IH]; [constructor|]. cbn [flat_map]. apply Forall_app. split.
  - apply H. left. reflexivity. - apply IH. intros y Hy. apply H. right. exact Hy.
Qed.
