(* Reader programs that only read forward: their meaning as functions of the bits that follow, and what they do when more
   data arrives. *)
From Verif Require Import Base WriteBuf ReadBuf Leb BufSpec LebSpec BitFacts WriteBufFacts ReadBufFacts LebFacts
  ParseFacts EndToEnd ObuHeader ObuHeaderFacts FrameFacts SeqFacts.

Inductive pure {A} : rprog A -> Prop :=
| P_ret a : pure (RRet a)
| P_fail c : pure (RFail c)
| P_lit n m k : k (inl ResourceExhausted) = RFail ResourceExhausted -> (forall x, pure (k x)) -> pure (ROp (OLit n m) k).

Inductive pr (A : Type) := PNeed | PErr (c : code) | POk (a : A) (rest : list bool).
Arguments PNeed {A}. Arguments PErr {A}. Arguments POk {A}.
Fixpoint prun {A} (p : rprog A) (l : list bool) : pr A :=
  match p with
  | RRet a => POk a l
  | RFail c => PErr c
  | ROp (OLit n m) k =>
      if legal_width n m then
        if (Z.to_nat n <=? length l)%nat then prun (k (inr (ofbits (firstn (Z.to_nat n) l)))) (skipn (Z.to_nat n) l) else PNeed
      else prun (k (inl InvalidArgument)) l
  | ROp _ _ => PErr Internal
  end.

Lemma pure_bind {A B} (p : rprog A) (f : A -> rprog B) : pure p -> (forall a, pure (f a)) -> pure (rb p f).
Proof.
  intros Hp Hf. induction Hp as [a|c|n m k E _ IH]; cbn [rb]; [apply Hf|constructor|].
  constructor; [rewrite E; reflexivity|exact IH].
Qed.
Lemma pure_rlit n m : pure (rlit n m).
Proof. unfold rlit, rop1. constructor; [reflexivity|]. intros [c|v]; constructor. Qed.
Lemma pure_rcheck b c : pure (rcheck b c). Proof. destruct b; constructor. Qed.
Lemma pure_rres {A} (r : res A) : pure (rres r). Proof. destruct r; constructor. Qed.
Lemma pure_if {A} (b : bool) (p q : rprog A) : pure p -> pure q -> pure (if b then p else q).
Proof. destruct b; auto. Qed.
Lemma pure_rbool : pure rbool. Proof. apply pure_bind; [apply pure_rlit|intro; constructor]. Qed.
Lemma pure_rsigned16 : pure rsigned16. Proof. apply pure_bind; [apply pure_rlit|intro; constructor]. Qed.
Lemma pure_rsigned8 : pure rsigned8. Proof. apply pure_bind; [apply pure_rlit|intro; constructor]. Qed.
Lemma pure_rspan n : pure (rspan n).
Proof.
  induction n as [|n IH]; cbn [rspan]; [constructor|]. apply pure_bind; [apply pure_rlit|]. intro b.
  apply pure_bind; [exact IH|]. intro; constructor.
Qed.
Lemma pure_rleb k le mx i acc : pure (rleb_loop k le mx i acc).
Proof.
  revert i acc. induction k as [|k IH]; intros i acc; cbn [rleb_loop]; [constructor|].
  apply pure_bind; [apply pure_rlit|]. intro b. cbv zeta. repeat apply pure_if; try constructor. apply IH.
Qed.
Lemma pure_ruleb_sz : pure ruleb_sz. Proof. apply pure_rleb. Qed.
Lemma pure_ruleb : pure ruleb. Proof. apply pure_bind; [apply pure_rleb|intro; constructor]. Qed.
Lemma pure_rlist {A} n (p : rprog A) : pure p -> pure (rlist n p).
Proof.
  intro Hp. induction n as [|n IH]; cbn [rlist]; [constructor|]. apply pure_bind; [exact Hp|]. intro a.
  apply pure_bind; [exact IH|]. intro; constructor.
Qed.

Lemma prun_bind {A B} (p : rprog A) (f : A -> rprog B) l :
  prun (rb p f) l = match prun p l with POk a r => prun (f a) r | PErr c => PErr c | PNeed => PNeed end.
Proof.
  revert l. induction p as [a|c|o k IH]; intro l; cbn [rb prun]; try reflexivity.
  destruct o as [n m| |q|]; try reflexivity. destruct (legal_width n m); [|apply IH].
  destruct (_ <=? _)%nat; [apply IH|reflexivity].
Qed.

(* what is left is the end of what was there *)
Lemma prun_rest {A} (p : rprog A) l a r : prun p l = POk a r -> exists used, l = used ++ r.
Proof.
  revert l. induction p as [x|c|o k IH]; intros l E; cbn [prun] in E; try discriminate.
  - injection E as -> ->. exists []. reflexivity.
  - destruct o as [n m| |q|]; try discriminate. destruct (legal_width n m); [|eapply IH; exact E].
    destruct (_ <=? _)%nat; [|discriminate]. apply IH in E as (u & E).
    exists (firstn (Z.to_nat n) l ++ u). rewrite <- app_assoc, <- E, firstn_skipn. reflexivity.
Qed.
Lemma prun_rest_len {A} (p : rprog A) l a r : prun p l = POk a r -> (length r <= length l)%nat.
Proof. intro E. apply prun_rest in E as (u & ->). rewrite app_length. lia. Qed.

(* more data changes nothing that has been decided *)
Lemma prun_ext {A} (p : rprog A) l e :
  match prun p l with
  | POk a r => prun p (l ++ e) = POk a (r ++ e)
  | PErr c => prun p (l ++ e) = PErr c
  | PNeed => match prun p (l ++ e) with POk a r => (length r < length e)%nat | _ => True end
  end.
Proof.
  revert l. induction p as [x|c|o k IH]; intro l; cbn [prun]; try reflexivity.
  destruct o as [n m| |q|]; try reflexivity. destruct (legal_width n m); [|apply IH].
  destruct (Z.to_nat n <=? length l)%nat eqn:E1.
  - rewrite app_length. replace (Z.to_nat n <=? length l + length e)%nat with true by lia.
    rewrite firstn_app, skipn_app. replace (Z.to_nat n - length l)%nat with O by lia. cbn [firstn skipn]. rewrite app_nil_r. apply IH.
  - destruct (Z.to_nat n <=? length (l ++ e))%nat eqn:E2; [|exact I].
    destruct (prun _ (skipn _ _)) as [|c|a r] eqn:E; [exact I|exact I|]. apply prun_rest_len in E.
    rewrite skipn_length, app_length in E. rewrite app_length in E2. lia.
Qed.
Lemma prun_ext_ok {A} (p : rprog A) l e a r : prun p l = POk a r -> prun p (l ++ e) = POk a (r ++ e).
Proof. intro E. pose proof (prun_ext p l e) as H. rewrite E in H. exact H. Qed.
Lemma prun_ext_err {A} (p : rprog A) l e c : prun p l = PErr c -> prun p (l ++ e) = PErr c.
Proof. intro E. pose proof (prun_ext p l e) as H. rewrite E in H. exact H. Qed.

(* on a cursor *)
Lemma arun_prun {A} (p : rprog A) : pure p -> forall c, cok c ->
  match prun p (skipn (c_pos c) (c_bits c)) with
  | POk a r => exists v, arun p c = (Ok a, mkC (c_bits c) (length (c_bits c) - length r) v)
  | PErr e => exists c', arun p c = (Err e, c')
  | PNeed => exists c', arun p c = (Err ResourceExhausted, c')
  end.
Proof.
  intro Hp. induction Hp as [a|e|n m k E _ IH]; intros c Hc; cbn [prun arun].
  - exists (c_valid c). unfold cok in Hc. rewrite skipn_length.
    replace (length (c_bits c) - (length (c_bits c) - c_pos c))%nat with (c_pos c) by lia. destruct c; reflexivity.
  - eauto.
  - cbn [aop]. destruct (legal_width n m) eqn:W; [|apply (IH (inl InvalidArgument) c Hc)].
    unfold c_left. rewrite skipn_length. destruct (Z.to_nat n <=? length (c_bits c) - c_pos c)%nat eqn:L.
    + set (c1 := mkC (c_bits c) (c_pos c + Z.to_nat n) (Some true)).
      assert (cok c1) as K by (unfold cok in *; cbn [c_pos c_bits c1]; lia).
      specialize (IH (inr (ofbits (firstn (Z.to_nat n) (skipn (c_pos c) (c_bits c))))) c1 K). cbn [c_bits c_pos c1] in IH.
      rewrite <- skipn_skipn' in IH. exact IH.
    + rewrite E. cbn [arun]. eauto.
Qed.
