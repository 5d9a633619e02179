(* C73: the JSON of the probe tool reads back as the report.

   The specification is a reader of JSON written from RFC 8259 (section numbers
   below), on bytes, and for every report the tree of names and values which
   the reader must find. *)
From Coq Require Import ZArith List String Bool Lia.
From Verif Require Import Json.
Import ListNotations.
Open Scope Z_scope.

(* ------------------------------------------------------------------ *)
(* The specification: a reader.                                         *)

(* A JSON value.  A number is kept as its text. *)
Inductive json :=
| JNull
| JBool (b : bool)
| JNum (text : list Z)
| JStr (s : list Z)
| JArr (xs : list json)
| JObj (ms : list (list Z * json)).

(* RFC 8259, 7: strings.  A code point given as \uXXXX stands for its UTF-8
   bytes; surrogates are refused here (the tool writes none). *)
Definition hex_value (c : Z) : option Z :=
  if (48 <=? c) && (c <=? 57) then Some (c - 48)
  else if (65 <=? c) && (c <=? 70) then Some (c - 55)
  else if (97 <=? c) && (c <=? 102) then Some (c - 87)
  else None.

Definition utf8 (v : Z) : option (list Z) :=
  if v <? 128 then Some [v]
  else if v <? 2048 then Some [192 + v / 64; 128 + v mod 64]
  else if (55296 <=? v) && (v <? 57344) then None
  else Some [224 + v / 4096; 128 + v / 64 mod 64; 128 + v mod 64].

Definition code_unit (a b c d : Z) : option (list Z) :=
  match hex_value a, hex_value b, hex_value c, hex_value d with
  | Some a, Some b, Some c, Some d => utf8 (4096 * a + 256 * b + 16 * c + d)
  | _, _, _, _ => None
  end.

Definition simple_escape (c : Z) : option Z :=
  if c =? 34 then Some 34
  else if c =? 92 then Some 92
  else if c =? 47 then Some 47
  else if c =? 98 then Some 8
  else if c =? 102 then Some 12
  else if c =? 110 then Some 10
  else if c =? 114 then Some 13
  else if c =? 116 then Some 9
  else None.

Definition prepend (s : list Z) (r : option (list Z * list Z)) : option (list Z * list Z) :=
  match r with Some (x, t) => Some (s ++ x, t) | None => None end.

(* The characters of a string up to its closing quote. *)
Fixpoint read_chars (t : list Z) : option (list Z * list Z) :=
  match t with
  | [] => None
  | c :: t =>
      if c =? 34 then Some ([], t)
      else if c <? 32 then None
      else if c =? 92 then
        match t with
        | [] => None
        | e :: t =>
            if e =? 117 then
              match t with
              | a :: b :: c :: d :: t =>
                  match code_unit a b c d with
                  | Some s => prepend s (read_chars t)
                  | None => None
                  end
              | _ => None
              end
            else match simple_escape e with
                 | Some x => prepend [x] (read_chars t)
                 | None => None
                 end
        end
      else prepend [c] (read_chars t)
  end.

(* RFC 8259, 6: number = [ minus ] int [ frac ] [ exp ]. *)
Definition digitb (c : Z) : bool := (48 <=? c) && (c <=? 57).

Fixpoint drop_digits (t : list Z) : list Z :=
  match t with c :: t' => if digitb c then drop_digits t' else t | [] => [] end.

Definition digits1 (t : list Z) : option (list Z) :=
  match t with c :: t' => if digitb c then Some (drop_digits t') else None | [] => None end.

Definition num_int (t : list Z) : option (list Z) :=
  match t with
  | c :: t' => if c =? 48 then Some t' else digits1 t
  | [] => None
  end.

Definition num_frac (t : list Z) : option (list Z) :=
  match t with
  | c :: t' => if c =? 46 then digits1 t' else Some t
  | [] => Some []
  end.

Definition num_exp (t : list Z) : option (list Z) :=
  match t with
  | c :: t' =>
      if (c =? 101) || (c =? 69) then
        match t' with
        | s :: t'' => if (s =? 43) || (s =? 45) then digits1 t'' else digits1 t'
        | [] => None
        end
      else Some t
  | [] => Some []
  end.

Definition is_number (t : list Z) : bool :=
  let t := match t with c :: t' => if c =? 45 then t' else t | [] => [] end in
  match num_int t with
  | Some t => match num_frac t with
              | Some t => match num_exp t with Some [] => true | _ => false end
              | None => false
              end
  | None => false
  end.

(* The bytes a number may consist of; the text of a number ends at any other. *)
Definition number_byte (c : Z) : bool :=
  digitb c || (c =? 45) || (c =? 43) || (c =? 46) || (c =? 101) || (c =? 69).

Fixpoint span_number (t : list Z) : list Z * list Z :=
  match t with
  | c :: t' => if number_byte c then let '(a, r) := span_number t' in (c :: a, r) else ([], t)
  | [] => ([], [])
  end.

(* RFC 8259, 2: ws. *)
Fixpoint skip (t : list Z) : list Z :=
  match t with
  | c :: t' => if (c =? 32) || (c =? 9) || (c =? 10) || (c =? 13) then skip t' else t
  | [] => []
  end.

(* The rest of [t] after the byte c. *)
Definition take (c : Z) (t : list Z) : option (list Z) :=
  match t with x :: t' => if x =? c then Some t' else None | [] => None end.

Fixpoint word (w t : list Z) : option (list Z) :=
  match w with
  | [] => Some t
  | c :: w => match take c t with Some t => word w t | None => None end
  end.

(* RFC 8259, 3-5: values, objects and arrays.  n bounds the depth of the
   recursion; [parse] below gives the length of the text, which suffices. *)
Fixpoint read_value (n : nat) (t : list Z) {struct n} : option (json * list Z) :=
  match n with
  | O => None
  | S n =>
      match take 34 t with
      | Some t => match read_chars t with Some (s, t) => Some (JStr s, t) | None => None end
      | None =>
      match take 91 t with
      | Some t =>
          match take 93 (skip t) with
          | Some t => Some (JArr [], t)
          | None => match read_items n (skip t) with
                    | Some (xs, t) => Some (JArr xs, t) | None => None end
          end
      | None =>
      match take 123 t with
      | Some t =>
          match take 125 (skip t) with
          | Some t => Some (JObj [], t)
          | None => match read_members n (skip t) with
                    | Some (ms, t) => Some (JObj ms, t) | None => None end
          end
      | None =>
      match word (lit "true") t with
      | Some t => Some (JBool true, t)
      | None =>
      match word (lit "false") t with
      | Some t => Some (JBool false, t)
      | None =>
      match word (lit "null") t with
      | Some t => Some (JNull, t)
      | None => let '(x, t) := span_number t in
                if is_number x then Some (JNum x, t) else None
      end end end end end end
  end
with read_items (n : nat) (t : list Z) {struct n} : option (list json * list Z) :=
  match n with
  | O => None
  | S n =>
      match read_value n t with
      | None => None
      | Some (x, t) =>
          match take 93 (skip t) with
          | Some t => Some ([x], t)
          | None =>
          match take 44 (skip t) with
          | Some t => match read_items n (skip t) with
                      | Some (xs, t) => Some (x :: xs, t) | None => None end
          | None => None
          end end
      end
  end
with read_members (n : nat) (t : list Z) {struct n} : option (list (list Z * json) * list Z) :=
  match n with
  | O => None
  | S n =>
      match take 34 t with
      | None => None
      | Some t =>
      match read_chars t with
      | None => None
      | Some (k, t) =>
      match take 58 (skip t) with
      | None => None
      | Some t =>
      match read_value n (skip t) with
      | None => None
      | Some (x, t) =>
          match take 125 (skip t) with
          | Some t => Some ([(k, x)], t)
          | None =>
          match take 44 (skip t) with
          | Some t => match read_members n (skip t) with
                      | Some (ms, t) => Some ((k, x) :: ms, t) | None => None end
          | None => None
          end end
      end end end end
  end.

(* A whole text. *)
Definition parse (t : list Z) : option json :=
  match read_value (S (List.length t)) (skip t) with
  | Some (x, t) => match skip t with [] => Some x | _ => None end
  | None => None
  end.

(* The integer a number denotes, if it is written without fraction and
   exponent. *)
Fixpoint horner (a : Z) (t : list Z) : option Z :=
  match t with
  | [] => Some a
  | c :: t => if digitb c then horner (10 * a + (c - 48)) t else None
  end.

Definition int_value (t : list Z) : option Z :=
  if is_number t then
    match t with
    | c :: t' => if c =? 45 then option_map Z.opp (horner 0 t') else horner 0 t
    | [] => None
    end
  else None.

(* ------------------------------------------------------------------ *)
(* Strings.                                                             *)

Lemma escape_control : forall c, 0 <= c < 32 ->
  In c [0;1;2;3;4;5;6;7;8;9;10;11;12;13;14;15;16;17;18;19;20;21;22;23;24;25;26;27;28;29;30;31].
Proof.
  intros c H.
  assert (E : exists n, (n < 32)%nat /\ c = Z.of_nat n) by (exists (Z.to_nat c); lia).
  destruct E as [n [Hn ->]].
  do 32 (destruct n as [|n]; [cbn; tauto|]). lia.
Qed.

Lemma read_escape_byte c t : 0 <= c < 256 ->
  read_chars (escape_byte c ++ t) = prepend [c] (read_chars t).
Proof.
  intros H. destruct (Z.ltb_spec c 32) as [L|L].
  - pose proof (escape_control c (conj (proj1 H) L)) as I.
    cbn [In] in I.
    repeat (destruct I as [<-|I]; [reflexivity|]). destruct I.
  - unfold escape_byte.
    destruct (Z.eqb_spec c 92) as [->|N1]; [reflexivity|].
    destruct (Z.eqb_spec c 34) as [->|N2]; [reflexivity|].
    rewrite (proj2 (Z.eqb_neq c 8)) by lia.
    rewrite (proj2 (Z.eqb_neq c 12)) by lia.
    rewrite (proj2 (Z.eqb_neq c 10)) by lia.
    rewrite (proj2 (Z.eqb_neq c 13)) by lia.
    rewrite (proj2 (Z.eqb_neq c 9)) by lia.
    rewrite (proj2 (Z.ltb_ge c 32)) by lia.
    cbn [app read_chars].
    rewrite (proj2 (Z.eqb_neq c 34)) by lia.
    rewrite (proj2 (Z.ltb_ge c 32)) by lia.
    rewrite (proj2 (Z.eqb_neq c 92)) by lia.
    reflexivity.
Qed.

Definition bytes (s : list Z) : Prop := Forall (fun c => 0 <= c < 256) s.

Lemma read_escape s t : bytes s ->
  read_chars (escape s ++ 34 :: t) = Some (s, t).
Proof.
  induction 1 as [|c s H _ IH]; [reflexivity|].
  unfold escape. cbn [flat_map]. rewrite <- app_assoc.
  rewrite read_escape_byte by exact H.
  fold (escape s). rewrite IH. reflexivity.
Qed.

Lemma hex_digit_ge z : 0 <= z < 16 -> 32 <= hex_digit z < 127.
Proof. intros. unfold hex_digit. destruct (Z.ltb_spec z 10); lia. Qed.

Lemma escape_printable s : bytes s -> Forall (fun c => 32 <= c < 256) (escape s).
Proof.
  induction 1 as [|c s H _ IH]; [constructor|].
  unfold escape. cbn [flat_map]. apply Forall_app. split; [|exact IH].
  unfold escape_byte.
  repeat match goal with
  | |- context [if ?b then _ else _] => destruct b eqn:?
  end; repeat constructor; try lia; try (apply Z.ltb_ge in Heqb6; lia);
  match goal with |- context [hex_digit ?z] =>
    assert (0 <= z < 16) by (apply Z.mod_pos_bound; lia);
    pose proof (hex_digit_ge z ltac:(assumption)); lia end.
Qed.

(* ------------------------------------------------------------------ *)
(* Numbers.                                                             *)

Lemma horner_app a d : forall x, horner x (a ++ d) =
  match horner x a with Some y => horner y d | None => None end.
Proof.
  induction a as [|c a IH]; intros x; [reflexivity|].
  cbn [app horner]. destruct (digitb c); [apply IH|reflexivity].
Qed.

Lemma digitb_ok d : 0 <= d < 10 -> digitb (48 + d) = true.
Proof. intros. unfold digitb. apply andb_true_intro. split; apply Z.leb_le; lia. Qed.

Lemma udec_value n : forall z, 0 <= z < 2 ^ Z.of_nat n -> horner 0 (udec n z) = Some z.
Proof.
  induction n as [|n IH]; intros z H.
  - change (2 ^ Z.of_nat 0) with 1 in H. replace z with 0 by lia. reflexivity.
  - cbn [udec]. destruct (Z.ltb_spec z 10) as [L|L].
    + cbn [horner]. rewrite digitb_ok by lia. f_equal. lia.
    + rewrite horner_app. rewrite IH.
      * cbn [horner]. rewrite digitb_ok by (apply Z.mod_pos_bound; lia).
        f_equal. pose proof (Z.div_mod z 10). lia.
      * rewrite Nat2Z.inj_succ, Z.pow_succ_r in H by lia.
        split; [apply Z.div_pos; lia|]. apply Z.div_lt_upper_bound; lia.
Qed.

Lemma udec_digits n : forall z, 0 <= z -> Forall (fun c => digitb c = true) (udec n z).
Proof.
  induction n as [|n IH]; intros z H; cbn [udec]; [constructor|].
  destruct (Z.ltb_spec z 10).
  - constructor; [apply digitb_ok; lia|constructor].
  - apply Forall_app. split; [apply IH, Z.div_pos; lia|].
    constructor; [apply digitb_ok, Z.mod_pos_bound; lia|constructor].
Qed.

(* No leading zero. *)
Lemma udec_head n : forall z, 0 < z < 2 ^ Z.of_nat n ->
  exists c t, udec n z = c :: t /\ c <> 48.
Proof.
  induction n as [|n IH]; intros z H.
  - change (2 ^ Z.of_nat 0) with 1 in H. lia.
  - cbn [udec]. destruct (Z.ltb_spec z 10) as [L|L].
    + exists (48 + z), []. split; [reflexivity|lia].
    + destruct (IH (z / 10)) as (c & t & E & N).
      * rewrite Nat2Z.inj_succ, Z.pow_succ_r in H by lia.
        split; [apply Z.div_str_pos; lia|]. apply Z.div_lt_upper_bound; lia.
      * rewrite E. exists c, (t ++ [48 + z mod 10]). split; [reflexivity|exact N].
Qed.

Lemma drop_digits_all t : Forall (fun c => digitb c = true) t -> drop_digits t = [].
Proof. induction 1 as [|c t H _ IH]; [reflexivity|]. cbn [drop_digits]. rewrite H. exact IH. Qed.

Lemma fuel_ok z : 0 < z -> z < 2 ^ Z.of_nat (Z.to_nat (Z.log2 z) + 1).
Proof.
  intros H. pose proof (Z.log2_spec z H). pose proof (Z.log2_nonneg z).
  rewrite Nat2Z.inj_add, Z2Nat.id by lia. exact (proj2 H0).
Qed.

Lemma dec_pos z : 0 < z -> exists c t,
  udec (Z.to_nat (Z.log2 z) + 1) z = c :: t /\ c <> 48 /\
  digitb c = true /\ Forall (fun c => digitb c = true) t.
Proof.
  intros H. destruct (udec_head _ z (conj H (fuel_ok z H))) as (c & t & E & N).
  pose proof (udec_digits (Z.to_nat (Z.log2 z) + 1) z ltac:(lia)) as D.
  rewrite E in D. inversion D; subst. exists c, t. auto.
Qed.

Lemma digit_not c x : digitb c = true -> x < 48 \/ 57 < x -> (c =? x) = false.
Proof.
  unfold digitb. intros H Hx. apply andb_prop in H as [A B].
  apply Z.leb_le in A, B. apply Z.eqb_neq. lia.
Qed.

Lemma int_digits c t : c <> 48 -> digitb c = true -> Forall (fun c => digitb c = true) t ->
  num_int (c :: t) = Some [].
Proof.
  intros N D H. unfold num_int. rewrite (proj2 (Z.eqb_neq c 48) N).
  unfold digits1. rewrite D, drop_digits_all by exact H. reflexivity.
Qed.

Lemma dec_number z : is_number (dec z) = true.
Proof.
  unfold dec. destruct (Z.ltb_spec z 0) as [L|L].
  - destruct (dec_pos (- z) ltac:(lia)) as (c & t & E & N & D & H).
    rewrite E. unfold is_number. rewrite (Z.eqb_refl 45).
    rewrite int_digits by assumption. reflexivity.
  - destruct (Z.eq_dec z 0) as [->|NZ]; [reflexivity|].
    destruct (dec_pos z ltac:(lia)) as (c & t & E & N & D & H).
    rewrite E. unfold is_number. rewrite (digit_not c 45 D) by lia.
    rewrite int_digits by assumption. reflexivity.
Qed.

Theorem C73_number z : int_value (dec z) = Some z.
Proof.
  unfold int_value. rewrite dec_number. unfold dec. destruct (Z.ltb_spec z 0) as [L|L].
  - rewrite Z.eqb_refl, udec_value by (split; [lia|apply fuel_ok; lia]).
    cbn [option_map]. f_equal. lia.
  - destruct (Z.eq_dec z 0) as [->|NZ]; [reflexivity|].
    destruct (dec_pos z ltac:(lia)) as (c & t & E & N & D & H).
    rewrite E, (digit_not c 45 D) by lia. rewrite <- E.
    apply udec_value. split; [lia|apply fuel_ok; lia].
Qed.

(* The bytes of a number. *)
Lemma digits_bytes t : exists a, t = a ++ drop_digits t /\ Forall (fun c => number_byte c = true) a.
Proof.
  induction t as [|c t IH]; [exists []; split; [reflexivity|constructor]|].
  cbn [drop_digits]. destruct (digitb c) eqn:D.
  - destruct IH as (a & E & H). exists (c :: a). split; [cbn [app]; congruence|].
    constructor; [unfold number_byte; rewrite D; reflexivity|exact H].
  - exists []. split; [reflexivity|constructor].
Qed.

Lemma digits1_bytes t r : digits1 t = Some r ->
  exists a, t = a ++ r /\ Forall (fun c => number_byte c = true) a.
Proof.
  destruct t as [|c t]; [discriminate|]. cbn [digits1]. destruct (digitb c) eqn:D; [|discriminate].
  intros [= <-]. destruct (digits_bytes t) as (a & E & H).
  exists (c :: a). split; [cbn [app]; congruence|].
  constructor; [unfold number_byte; rewrite D; reflexivity|exact H].
Qed.

Lemma number_bytes t : is_number t = true -> Forall (fun c => number_byte c = true) t.
Proof.
  unfold is_number. intros H.
  set (u := match t with c :: t' => if c =? 45 then t' else t | [] => [] end) in *.
  assert (U : exists a, t = a ++ u /\ Forall (fun c => number_byte c = true) a).
  { subst u. destruct t as [|c t]; [exists []; split; [reflexivity|constructor]|].
    destruct (Z.eqb_spec c 45) as [->|]; [|exists []; split; [reflexivity|constructor]].
    exists [45]. split; [reflexivity|constructor; [reflexivity|constructor]]. }
  clearbody u. destruct U as (a0 & -> & H0). apply Forall_app. split; [exact H0|]. clear H0 a0.
  destruct (num_int u) as [v|] eqn:I; [|discriminate].
  assert (V : exists a, u = a ++ v /\ Forall (fun c => number_byte c = true) a).
  { destruct u as [|c u]; [discriminate|]. cbn [num_int] in I.
    destruct (Z.eqb_spec c 48) as [->|]; [|exact (digits1_bytes _ _ I)].
    injection I as <-. exists [48]. split; [reflexivity|constructor; [reflexivity|constructor]]. }
  destruct V as (a1 & -> & H1). apply Forall_app. split; [exact H1|]. clear H1 a1 I.
  destruct (num_frac v) as [w|] eqn:Fr; [|discriminate].
  assert (W : exists a, v = a ++ w /\ Forall (fun c => number_byte c = true) a).
  { destruct v as [|c v]; cbn [num_frac] in Fr;
      [injection Fr as <-; exists []; split; [reflexivity|constructor]|].
    destruct (Z.eqb_spec c 46) as [->|].
    - destruct (digits1_bytes _ _ Fr) as (a & -> & Ha). exists (46 :: a).
      split; [reflexivity|constructor; [reflexivity|exact Ha]].
    - injection Fr as <-. exists []. split; [reflexivity|constructor]. }
  destruct W as (a2 & -> & H2). apply Forall_app. split; [exact H2|]. clear H2 a2 Fr.
  destruct (num_exp w) as [x|] eqn:Ex; [|discriminate].
  destruct x as [|]; [|discriminate].
  destruct w as [|c w]; [constructor|]. cbn [num_exp] in Ex.
  destruct ((c =? 101) || (c =? 69)) eqn:Ec; [|discriminate].
  constructor.
  { unfold number_byte. apply orb_prop in Ec as [Ec|Ec]; rewrite Ec, ?orb_true_r; reflexivity. }
  destruct w as [|s w]; [discriminate|].
  destruct ((s =? 43) || (s =? 45)) eqn:Es.
  - constructor.
    { unfold number_byte. apply orb_prop in Es as [Es|Es]; rewrite Es, ?orb_true_r; reflexivity. }
    destruct (digits1_bytes _ _ Ex) as (a & -> & Ha). rewrite app_nil_r. exact Ha.
  - destruct (digits1_bytes _ _ Ex) as (a & -> & Ha). rewrite app_nil_r. exact Ha.
Qed.

(* What may follow a value in a text. *)
Definition ends (t : list Z) : Prop :=
  match t with c :: _ => number_byte c = false | [] => True end.

Lemma span_number_ok a t : Forall (fun c => number_byte c = true) a -> ends t ->
  span_number (a ++ t) = (a, t).
Proof.
  intros H E. induction H as [|c a Hc _ IH]; cbn [app span_number].
  - destruct t as [|c t]; [reflexivity|]. cbn [span_number]. cbn in E. rewrite E. reflexivity.
  - rewrite Hc, IH. reflexivity.
Qed.

(* ------------------------------------------------------------------ *)
(* Values.                                                              *)

Definition colon : list Z := lit ": ".

(* The text of a value, in the style of the tool. *)
Fixpoint show (x : json) : list Z :=
  match x with
  | JNull => lit "null"
  | JBool b => jbool b
  | JNum t => t
  | JStr s => jstr s
  | JArr xs => lit "[" ++ join comma (map show xs) ++ lit "]"
  | JObj ms => lit "{" ++ join comma (map (fun m => jstr (fst m) ++ colon ++ show (snd m)) ms)
               ++ lit "}"
  end.

Fixpoint good (x : json) : Prop :=
  match x with
  | JNull | JBool _ => True
  | JNum t => is_number t = true
  | JStr s => bytes s
  | JArr xs => (fix all l := match l with [] => True | x :: l => good x /\ all l end) xs
  | JObj ms => (fix all l := match l with [] => True
                | m :: l => bytes (fst m) /\ good (snd m) /\ all l end) ms
  end.

Section Induction.
Variable P : json -> Prop.
Hypothesis Hnull : P JNull.
Hypothesis Hbool : forall b, P (JBool b).
Hypothesis Hnum : forall t, P (JNum t).
Hypothesis Hstr : forall s, P (JStr s).
Hypothesis Harr : forall xs, Forall P xs -> P (JArr xs).
Hypothesis Hobj : forall ms, Forall (fun m => P (snd m)) ms -> P (JObj ms).

Fixpoint json_rect' (x : json) : P x :=
  match x with
  | JNull => Hnull
  | JBool b => Hbool b
  | JNum t => Hnum t
  | JStr s => Hstr s
  | JArr xs => Harr xs ((fix all l : Forall P l := match l with
      | [] => Forall_nil _ | x :: l => Forall_cons _ (json_rect' x) (all l) end) xs)
  | JObj ms => Hobj ms ((fix all l : Forall (fun m => P (snd m)) l := match l with
      | [] => Forall_nil _
      | m :: l => Forall_cons _ (json_rect' (snd m)) (all l) end) ms)
  end.
End Induction.

(* The first byte of a value. *)
Definition starts (t : list Z) : Prop :=
  exists c t', t = c :: t' /\ skip t = t /\ c <> 93 /\ c <> 125 /\ c <> 44 /\ c <> 58.

Lemma number_head t : is_number t = true -> exists c t', t = c :: t' /\
  number_byte c = true /\ (c = 45 \/ digitb c = true).
Proof.
  intros H. pose proof (number_bytes t H) as B.
  destruct t as [|c t]; [discriminate|]. exists c, t.
  inversion B; subst. split; [reflexivity|]. split; [assumption|].
  unfold is_number in H. destruct (Z.eqb_spec c 45); [left; assumption|].
  right. cbn [num_int] in H. destruct (Z.eqb_spec c 48) as [->|]; [reflexivity|].
  cbn [digits1] in H. destruct (digitb c); [reflexivity|discriminate].
Qed.

Lemma head_range c : c = 45 \/ digitb c = true -> c = 45 \/ 48 <= c <= 57.
Proof.
  intros [H|H]; [left; exact H|right]. unfold digitb in H.
  apply andb_prop in H as [A B]. apply Z.leb_le in A, B. lia.
Qed.

Lemma skip_id c t : c <> 32 -> c <> 9 -> c <> 10 -> c <> 13 -> skip (c :: t) = c :: t.
Proof.
  intros A B C D. cbn [skip].
  rewrite (proj2 (Z.eqb_neq c 32) A), (proj2 (Z.eqb_neq c 9) B),
    (proj2 (Z.eqb_neq c 10) C), (proj2 (Z.eqb_neq c 13) D). reflexivity.
Qed.

Lemma show_starts x t : good x -> starts (show x ++ t).
Proof.
  intros G. unfold starts. destruct x as [|b|s|s|xs|ms].
  - eexists _, _. split; [reflexivity|]. repeat split; discriminate.
  - destruct b; eexists _, _; (split; [reflexivity|]); repeat split; discriminate.
  - cbn [good] in G. destruct (number_head s G) as (c & u & -> & B & R).
    apply head_range in R. cbn [show app]. exists c, (u ++ t).
    split; [reflexivity|]. split; [apply skip_id; lia|]. lia.
  - eexists _, _. split; [reflexivity|]. repeat split; discriminate.
  - eexists _, _. split; [reflexivity|]. repeat split; discriminate.
  - eexists _, _. split; [reflexivity|]. repeat split; discriminate.
Qed.

Lemma take_not c t : (exists x t', t = x :: t' /\ x <> c) -> take c t = None.
Proof. intros (x & u & -> & N). cbn [take]. rewrite (proj2 (Z.eqb_neq x c) N). reflexivity. Qed.

Lemma take_same c t : take c (c :: t) = Some t.
Proof. cbn [take]. rewrite Z.eqb_refl. reflexivity. Qed.

Lemma word_app w t : word w (w ++ t) = Some t.
Proof. induction w as [|c w IH]; [reflexivity|]. cbn [app word]. rewrite take_same. exact IH. Qed.

Lemma jstr_read s t : bytes s -> exists u, jstr s ++ t = 34 :: u /\ read_chars u = Some (s, t).
Proof.
  intros H. exists (escape s ++ 34 :: t). split.
  - unfold jstr. cbn [app]. rewrite <- app_assoc. reflexivity.
  - apply read_escape. exact H.
Qed.

Definition reads (x : json) : Prop := good x -> forall n t, ends t ->
  (List.length (show x) <= n)%nat -> read_value n (show x ++ t) = Some (x, t).

Lemma show_length x : good x -> (1 <= List.length (show x))%nat.
Proof.
  intros G. destruct (show_starts x [] G) as (c & u & E & _).
  rewrite app_nil_r in E. rewrite E. cbn [List.length]. lia.
Qed.

Lemma items_read xs : Forall reads xs -> Forall good xs -> xs <> [] -> forall n t,
  (List.length (join comma (map show xs)) < n)%nat ->
  read_items n (join comma (map show xs) ++ 93 :: t) = Some (xs, t).
Proof.
  intros R G NE. induction xs as [|x xs IH]; [congruence|]. clear NE.
  inversion R as [|? ? Rx Rxs]; subst. inversion G as [|? ? Gx Gxs]; subst.
  intros n t L. destruct n as [|n]; [lia|].
  cbn [map join] in L |- *. rewrite app_length in L.
  rewrite <- app_assoc. cbn [read_items].
  destruct xs as [|y ys].
  - cbn [map flat_map app]. rewrite Rx; [|exact Gx|reflexivity|lia].
    reflexivity.
  - set (rest := join comma (map show (y :: ys)) ++ 93 :: t).
    assert (E : flat_map (fun z => comma ++ z) (map show (y :: ys)) ++ 93 :: t
                = 44 :: 32 :: rest).
    { subst rest. cbn [map flat_map join]. rewrite <- !app_assoc. reflexivity. }
    rewrite E, Rx; [|exact Gx|reflexivity|lia].
    change (skip (44 :: 32 :: rest)) with (44 :: 32 :: rest).
    rewrite (take_not 93) by (eexists _, _; split; [reflexivity|discriminate]).
    rewrite take_same. change (skip (32 :: rest)) with (skip rest).
    assert (St : starts rest).
    { subst rest. cbn [map join]. rewrite <- app_assoc.
      apply show_starts. inversion Gxs; assumption. }
    destruct St as (c & u & Eq1 & Sk & _). rewrite Sk. subst rest.
    rewrite IH; [reflexivity|exact Rxs|exact Gxs|discriminate|].
    cbn [map flat_map join] in L |- *.
    rewrite !app_length in L. rewrite !app_length.
    change (List.length comma) with 2%nat in L. lia.
Qed.

Definition show_member (m : list Z * json) : list Z := jstr (fst m) ++ colon ++ show (snd m).

Lemma members_read ms : Forall (fun m => reads (snd m)) ms ->
  Forall (fun m => bytes (fst m) /\ good (snd m)) ms -> ms <> [] -> forall n t,
  (List.length (join comma (map show_member ms)) < n)%nat ->
  read_members n (join comma (map show_member ms) ++ 125 :: t) = Some (ms, t).
Proof.
  intros R G NE. induction ms as [|[k x] ms IH]; [congruence|]. clear NE.
  inversion R as [|? ? Rx Rxs]; subst. inversion G as [|? ? [Gk Gx] Gxs]; subst.
  cbn [fst snd] in *.
  intros n t L. destruct n as [|n]; [lia|].
  cbn [map join] in L |- *. unfold show_member at 1 in L. unfold show_member at 1.
  cbn [fst snd] in L |- *.
  rewrite !app_length in L. rewrite <- !app_assoc. cbn [read_members].
  destruct (jstr_read k (colon ++ show x ++
     flat_map (fun y => comma ++ y) (map show_member ms) ++ 125 :: t) Gk) as (u & E & Ru).
  rewrite E, take_same, Ru. clear E Ru u.
  change (colon ++ show x ++ flat_map (fun y => comma ++ y) (map show_member ms) ++ 125 :: t)
    with (58 :: 32 :: show x ++ flat_map (fun y => comma ++ y) (map show_member ms) ++ 125 :: t).
  set (body := show x ++ flat_map (fun y => comma ++ y) (map show_member ms) ++ 125 :: t).
  change (skip (58 :: 32 :: body)) with (58 :: 32 :: body).
  rewrite take_same. change (skip (32 :: body)) with (skip body).
  assert (St : starts body) by (subst body; apply show_starts; exact Gx).
  destruct St as (c & u & _ & Sk & _). rewrite Sk. subst body. clear Sk u c.
  destruct ms as [|y ys].
  - cbn [map flat_map app]. rewrite Rx; [|exact Gx|reflexivity|lia].
    reflexivity.
  - set (rest := join comma (map show_member (y :: ys)) ++ 125 :: t).
    assert (E : flat_map (fun z => comma ++ z) (map show_member (y :: ys)) ++ 125 :: t
                = 44 :: 32 :: rest).
    { subst rest. cbn [map flat_map join]. rewrite <- !app_assoc. reflexivity. }
    rewrite E, Rx; [|exact Gx|reflexivity|lia].
    change (skip (44 :: 32 :: rest)) with (44 :: 32 :: rest).
    rewrite (take_not 125) by (eexists _, _; split; [reflexivity|discriminate]).
    rewrite take_same. change (skip (32 :: rest)) with (skip rest).
    assert (Sk : skip rest = rest) by (subst rest; reflexivity).
    rewrite Sk. subst rest.
    rewrite IH; [reflexivity|exact Rxs|exact Gxs|discriminate|].
    cbn [map flat_map join] in L |- *.
    rewrite !app_length in L. rewrite !app_length.
    change (List.length comma) with 2%nat in L. lia.
Qed.

Lemma good_arr xs : good (JArr xs) -> Forall good xs.
Proof. cbn [good]. induction xs; [constructor|]. intros [A B]. constructor; auto. Qed.

Lemma good_obj ms : good (JObj ms) -> Forall (fun m => bytes (fst m) /\ good (snd m)) ms.
Proof. cbn [good]. induction ms; [constructor|]. intros (A & B & C). constructor; auto. Qed.

Lemma read_show : forall x, reads x.
Proof.
  apply json_rect'; unfold reads.
  - intros _ n t _ L. destruct n as [|n]; [cbn in L; lia|]. reflexivity.
  - intros b _ n t _ L. destruct b; (destruct n as [|n]; [cbn in L; lia|]; reflexivity).
  - intros s G n t E L. cbn [good] in G. cbn [show] in *.
    destruct (number_head s G) as (c & u & Es & B & R). apply head_range in R.
    destruct n as [|n]; [rewrite Es in L; cbn in L; lia|]. cbn [read_value].
    rewrite Es. cbn [app].
    assert (T : forall x, c <> x -> take x (c :: u ++ t) = None)
      by (intros x N; apply take_not; eexists _, _; split; [reflexivity|exact N]).
    rewrite !T by lia.
    assert (W : forall x w, c <> x -> word (x :: w) (c :: u ++ t) = None)
      by (intros x w N; cbn [word]; rewrite T by exact N; reflexivity).
    change (lit "true") with (116 :: lit "rue"). change (lit "false") with (102 :: lit "alse").
    change (lit "null") with (110 :: lit "ull").
    rewrite !W by lia.
    change (c :: u ++ t) with ((c :: u) ++ t). rewrite <- Es.
    rewrite span_number_ok by (try apply number_bytes; assumption).
    rewrite G. reflexivity.
  - intros s G n t E L. destruct n as [|n]; [cbn in L; lia|].
    destruct (jstr_read s t G) as (u & Eu & R). cbn [show]. rewrite Eu.
    cbn [read_value]. rewrite take_same, R. reflexivity.
  - intros xs IH G n t E L. cbn [show] in *. rewrite !app_length in L.
    destruct n as [|n]; [cbn in L; lia|]. rewrite <- !app_assoc.
    change (lit "[") with [91] in *. change (lit "]") with [93] in *. cbn [List.length] in L.
    cbn [app]. cbn [read_value].
    rewrite (take_not 34) by (eexists _, _; split; [reflexivity|discriminate]).
    rewrite take_same.
    destruct xs as [|y ys]; [reflexivity|].
    apply good_arr in G.
    assert (St : starts (join comma (map show (y :: ys)) ++ 93 :: t)).
    { cbn [map join]. rewrite <- app_assoc. apply show_starts. inversion G; assumption. }
    destruct St as (c & u & Ec & Sk & N & _). rewrite Sk.
    rewrite (take_not 93) by (rewrite Ec; eexists _, _; split; [reflexivity|exact N]).
    rewrite items_read; [reflexivity|exact IH|exact G|discriminate|lia].
  - intros ms IH G n t E L. cbn [show] in *. rewrite !app_length in L.
    destruct n as [|n]; [cbn in L; lia|]. rewrite <- !app_assoc.
    change (lit "{") with [123] in *. change (lit "}") with [125] in *. cbn [List.length] in L.
    cbn [app]. cbn [read_value].
    rewrite (take_not 34) by (eexists _, _; split; [reflexivity|discriminate]).
    rewrite (take_not 91) by (eexists _, _; split; [reflexivity|discriminate]).
    rewrite take_same.
    destruct ms as [|y ys]; [reflexivity|].
    apply good_obj in G.
    change (fun m : list Z * json => jstr (fst m) ++ colon ++ show (snd m)) with show_member in *.
    assert (Sk : skip (join comma (map show_member (y :: ys)) ++ 125 :: t)
                 = join comma (map show_member (y :: ys)) ++ 125 :: t) by reflexivity.
    rewrite Sk.
    rewrite (take_not 125) by (eexists _, _; split; [reflexivity|discriminate]).
    rewrite members_read; [reflexivity|exact IH|exact G|discriminate|lia].
Qed.

Lemma parse_show x : good x -> parse (show x) = Some x.
Proof.
  intros G. unfold parse.
  destruct (show_starts x [] G) as (c & u & _ & Sk & _). rewrite app_nil_r in Sk. rewrite Sk.
  pose proof (read_show x G (S (List.length (show x))) [] I ltac:(lia)) as R.
  rewrite app_nil_r in R. rewrite R. reflexivity.
Qed.

(* ------------------------------------------------------------------ *)
(* The specification: the names and values of a report.                 *)

Section Report.
Variable F : Type.
Variable ftext : F -> list Z.

(* An integer: C73_number gives what its text denotes. *)
Definition int (z : Z) : json := JNum (dec z).
Definition float (f : F) : json := JNum (ftext f).
Definition strings (v : list (list Z)) : json := JArr (map JStr v).

Definition name (s : string) (x : json) : list Z * json := (lit s, x).

(* A member which is there only if the report has the value. *)
Definition if_any {A} (s : string) (f : A -> json) (o : option A) : list (list Z * json) :=
  match o with Some a => [name s (f a)] | None => [] end.

Definition param_def_tree (d : param_def) : json := JObj [
  name "parameter_id" (int (pd_id d));
  name "parameter_rate" (int (pd_rate d));
  name "param_definition_mode" (int (pd_mode d));
  name "duration" (int (pd_duration d));
  name "constant_subblock_duration" (int (pd_csd d))].

Definition mix_gain_tree (g : mix_gain F) : json := JObj [
  name "param_definition" (param_def_tree (mg_def _ g));
  name "default_mix_gain" (float (mg_gain _ g));
  name "default_mix_gain_q7_8" (int (mg_q _ g))].

Definition anchored_tree (e : anchored F) : json := JObj [
  name "anchor_element" (JStr (an_element _ e));
  name "anchor_element_raw" (int (an_raw _ e));
  name "anchored_loudness" (float (an_loudness _ e));
  name "anchored_loudness_q7_8" (int (an_q _ e))].

Definition loudness_tree (l : loudness F) : json := JObj ([
  name "info_type" (int (lo_type _ l));
  name "true_peak_present" (JBool (lo_true_peak_present _ l));
  name "anchored_loudness_present" (JBool (lo_anchored_present _ l));
  name "has_layout_extension" (JBool (lo_extension _ l));
  name "integrated_loudness" (float (lo_integrated _ l));
  name "digital_peak" (float (lo_digital _ l))]
  ++ if_any "true_peak" float (lo_true_peak _ l)
  ++ (if Nat.eqb (List.length (lo_anchored _ l)) 0 then []
      else [name "anchored_loudness_elements" (JArr (map anchored_tree (lo_anchored _ l)))])).

Definition layout_tree (l : layout F) : json := JObj [
  name "loudness_layout" (JObj ([
    name "layout_type" (JStr (la_type _ l));
    name "layout_type_raw" (int (la_type_raw _ l))]
    ++ if_any "sound_system" JStr (la_system _ l)
    ++ if_any "sound_system_raw" int (la_system_raw _ l)));
  name "loudness" (loudness_tree (la_loudness _ l))].

Definition sub_element_tree (a : sub_element F) : json := JObj [
  name "audio_element_id" (int (se_id _ a));
  name "localized_element_annotations" (strings (se_annotations _ a));
  name "rendering_config" (JObj [
    name "headphones_rendering_mode" (JStr (se_mode _ a));
    name "headphones_rendering_mode_raw" (int (se_mode_raw _ a));
    name "binaural_filter_profile" (JStr (se_filter _ a));
    name "binaural_filter_profile_raw" (int (se_filter_raw _ a))]);
  name "element_mix_gain" (mix_gain_tree (se_gain _ a))].

Definition sub_mix_tree (s : sub_mix F) : json := JObj [
  name "audio_elements" (JArr (map sub_element_tree (sm_elements _ s)));
  name "output_mix_gain" (mix_gain_tree (sm_gain _ s));
  name "layouts" (JArr (map layout_tree (sm_layouts _ s)))].

Definition annotation_tree (a : list Z * list Z) : json := JObj [
  name "language" (JStr (fst a)); name "label" (JStr (snd a))].

Definition tag_tree (t : list Z * list Z) : json := JObj [
  name "tag_name" (JStr (fst t)); name "tag_value" (JStr (snd t))].

Definition mix_tree (m : mix_report F) : json := JObj ([
  name "id" (int (mp_id _ m));
  name "count_label" (int (mp_count_label _ m));
  name "num_sub_mixes" (int (mp_num_sub_mixes _ m));
  name "annotations" (JArr (map annotation_tree (mp_annotations _ m)));
  name "sub_mixes" (JArr (map sub_mix_tree (mp_sub_mixes _ m)));
  name "tags" (JArr (map tag_tree (mp_tags _ m)));
  name "layouts" (strings (mp_layouts _ m))]
  ++ if_any "integrated_loudness_lkfs" float (mp_integrated _ m)
  ++ if_any "digital_peak_dbfs" float (mp_digital _ m)
  ++ if_any "true_peak_dbfs" float (mp_true_peak _ m)).

(* The strings of a report consist of bytes. *)
Definition bytes2 (p : list Z * list Z) : Prop := bytes (fst p) /\ bytes (snd p).

Definition layout_bytes (l : layout F) : Prop :=
  bytes (la_type _ l) /\
  match la_system _ l with Some s => bytes s | None => True end /\
  Forall (fun e => bytes (an_element _ e)) (lo_anchored _ (la_loudness _ l)).

Definition element_bytes (a : sub_element F) : Prop :=
  Forall bytes (se_annotations _ a) /\ bytes (se_mode _ a) /\ bytes (se_filter _ a).

Definition sub_mix_bytes (s : sub_mix F) : Prop :=
  Forall element_bytes (sm_elements _ s) /\ Forall layout_bytes (sm_layouts _ s).

Definition report_bytes (m : mix_report F) : Prop :=
  Forall bytes2 (mp_annotations _ m) /\ Forall bytes2 (mp_tags _ m) /\
  Forall bytes (mp_layouts _ m) /\ Forall sub_mix_bytes (mp_sub_mixes _ m).

(* ------------------------------------------------------------------ *)
(* The text of a report is the text of its tree.                        *)

Lemma arr_eq {A} (T : A -> json) (j : A -> list Z) xs :
  (forall x, j x = show (T x)) -> map show (map T xs) = map j xs.
Proof. intros H. rewrite map_map. apply map_ext. intros a. symmetry. apply H. Qed.

Lemma join_cons sep x xs : join sep (x :: xs) = x ++ flat_map (fun y => sep ++ y) xs.
Proof. reflexivity. Qed.

(* The texts of the names. *)
Ltac keys := repeat match goal with
  | |- context [jstr (lit ?s)] =>
      let v := eval vm_compute in (jstr (lit s)) in change (jstr (lit s)) with v
  end.
Ltac expose := unfold name, int, float, strings, if_any, append_if;
  cbn [show map fst snd app]; rewrite ?join_cons; cbn [flat_map]; keys;
  with_strategy opaque [dec join jstr lit show strvec comma colon jbool json_param_def
    json_mix_gain json_anchored json_loudness json_layout json_sub_element json_sub_mix
    json_annotation json_tag] (rewrite ?app_nil_r; repeat rewrite <- app_assoc).
Ltac texts := cbv -[dec join jstr show json_param_def json_mix_gain json_anchored json_loudness
  json_layout json_sub_element json_sub_mix json_annotation json_tag json_mix]; reflexivity.

Lemma param_def_text d : json_param_def d = show (param_def_tree d).
Proof. unfold json_param_def, param_def_tree. expose. texts. Qed.

Lemma mix_gain_text g : json_mix_gain F ftext g = show (mix_gain_tree g).
Proof.
  unfold json_mix_gain, mix_gain_tree. expose. rewrite <- param_def_text. texts.
Qed.

Lemma anchored_text e : json_anchored F ftext e = show (anchored_tree e).
Proof. unfold json_anchored, anchored_tree. expose. texts. Qed.

Lemma loudness_text l : json_loudness F ftext l = show (loudness_tree l).
Proof.
  unfold json_loudness, loudness_tree. destruct l as [a b c d e f g h]. cbn [lo_type
    lo_true_peak_present lo_anchored_present lo_extension lo_integrated lo_digital
    lo_true_peak lo_anchored].
  destruct g as [g|]; destruct h as [|h hs]; cbn [List.length Nat.eqb];
    try (set (es := h :: hs); clearbody es); expose;
    rewrite ?(arr_eq _ _ _ anchored_text); texts.
Qed.

Lemma layout_text l : json_layout F ftext l = show (layout_tree l).
Proof.
  unfold json_layout, layout_tree. destruct l as [a b c d e]. cbn [la_type la_type_raw
    la_system la_system_raw la_loudness].
  destruct c as [c|]; destruct d as [d|]; expose; rewrite <- loudness_text; texts.
Qed.

Lemma show_strings v : show (strings v) = strvec v.
Proof.
  unfold strings, strvec. cbn [show]. rewrite map_map. reflexivity.
Qed.

Lemma sub_element_text a : json_sub_element F ftext a = show (sub_element_tree a).
Proof.
  unfold json_sub_element, sub_element_tree.
  rewrite <- show_strings. set (sv := strings (se_annotations F a)).
  expose. rewrite <- mix_gain_text. texts.
Qed.

Lemma sub_mix_text s : json_sub_mix F ftext s = show (sub_mix_tree s).
Proof.
  unfold json_sub_mix, sub_mix_tree. expose.
  rewrite <- mix_gain_text, (arr_eq _ _ _ sub_element_text), (arr_eq _ _ _ layout_text). texts.
Qed.

Lemma annotation_text a : json_annotation a = show (annotation_tree a).
Proof. unfold json_annotation, annotation_tree. expose. texts. Qed.

Lemma tag_text a : json_tag a = show (tag_tree a).
Proof. unfold json_tag, tag_tree. expose. texts. Qed.

Lemma mix_text m : json_mix F ftext m = show (mix_tree m).
Proof.
  unfold json_mix, mix_tree. destruct m as [a b c d e f g h i j]. cbn [mp_id mp_count_label
    mp_annotations mp_num_sub_mixes mp_sub_mixes mp_tags mp_layouts mp_integrated mp_digital
    mp_true_peak].
  rewrite <- show_strings. set (sv := strings g). clearbody sv.
  destruct h as [h|]; destruct i as [i|]; destruct j as [j|]; expose;
    rewrite (arr_eq _ _ _ annotation_text), (arr_eq _ _ _ sub_mix_text),
      (arr_eq _ _ _ tag_text); texts.
Qed.

(* ------------------------------------------------------------------ *)
(* The trees can be read.                                               *)

Definition good_member (m : list Z * json) : Prop := bytes (fst m) /\ good (snd m).

Lemma good_obj_intro ms : Forall good_member ms -> good (JObj ms).
Proof. cbn [good]. induction 1 as [|m ms [A B] _ IH]; [exact I|]. auto. Qed.

Lemma good_arr_intro xs : Forall good xs -> good (JArr xs).
Proof. cbn [good]. induction 1 as [|x xs A _ IH]; [exact I|]. auto. Qed.

Lemma good_map {A} (T : A -> json) (P : A -> Prop) xs :
  (forall x, P x -> good (T x)) -> Forall P xs -> good (JArr (map T xs)).
Proof.
  intros H G. apply good_arr_intro, Forall_map.
  induction G; constructor; auto.
Qed.

Lemma good_int z : good (int z).
Proof. cbn [good int]. apply dec_number. Qed.

Lemma good_strings v : Forall bytes v -> good (strings v).
Proof. apply good_map. intros x H. exact H. Qed.

Lemma lit_bytes s : bytes (lit s).
Proof.
  unfold bytes, lit. apply Forall_map. induction (list_ascii_of_string s) as [|c l IH];
    constructor; [|exact IH].
  pose proof (Ascii.N_ascii_bounded c). lia.
Qed.

Lemma good_name s x : good x -> good_member (name s x).
Proof. intros H. split; [apply lit_bytes|exact H]. Qed.

Lemma good_if_any {A} s (f : A -> json) o :
  (forall a, o = Some a -> good (f a)) -> Forall good_member (if_any s f o).
Proof.
  intros H. destruct o as [a|]; cbn [if_any]; constructor; [|constructor].
  apply good_name, H. reflexivity.
Qed.

Hypothesis Hfloat : forall f, is_number (ftext f) = true.

Lemma good_float f : good (float f).
Proof. exact (Hfloat f). Qed.

Ltac members := repeat lazymatch goal with
  | |- Forall _ [] => constructor
  | |- Forall _ (_ :: _) => apply Forall_cons
  | |- Forall _ (_ ++ _) => apply Forall_app; split
  | |- Forall _ (if_any _ _ _) => apply good_if_any; intros
  | |- good_member (name _ _) => apply good_name
  | |- good (int _) => apply good_int
  | |- good (float _) => apply good_float
  | |- good (JObj _) => apply good_obj_intro
  end.

Lemma good_param_def d : good (param_def_tree d).
Proof. apply good_obj_intro. members. Qed.

Lemma good_mix_gain g : good (mix_gain_tree g).
Proof. apply good_obj_intro. members. apply good_param_def. Qed.

Lemma good_loudness l : Forall (fun e => bytes (an_element _ e)) (lo_anchored _ l) ->
  good (loudness_tree l).
Proof.
  intros H. apply good_obj_intro. members; try exact I.
  destruct (Nat.eqb _ _); members.
  refine (good_map _ _ _ _ H). intros e He. apply good_obj_intro. members. exact He.
Qed.

Lemma good_layout l : layout_bytes l -> good (layout_tree l).
Proof.
  intros (A & B & C). apply good_obj_intro. members; [exact A| |apply good_loudness; exact C].
  rewrite H in B. exact B.
Qed.

Lemma good_sub_element a : element_bytes a -> good (sub_element_tree a).
Proof.
  intros (A & B & C). apply good_obj_intro. members;
    [apply good_strings; exact A|exact B|exact C|apply good_mix_gain].
Qed.

Lemma good_sub_mix s : sub_mix_bytes s -> good (sub_mix_tree s).
Proof.
  intros (A & B). apply good_obj_intro. members;
    [exact (good_map _ _ _ good_sub_element A)|apply good_mix_gain
    |exact (good_map _ _ _ good_layout B)].
Qed.

Lemma good_mix m : report_bytes m -> good (mix_tree m).
Proof.
  intros (A & B & C & D). apply good_obj_intro. members.
  - refine (good_map _ _ _ _ A). intros p [P Q]. apply good_obj_intro. members; assumption.
  - exact (good_map _ _ _ good_sub_mix D).
  - refine (good_map _ _ _ _ B). intros p [P Q]. apply good_obj_intro. members; assumption.
  - apply good_strings, C.
Qed.

(* The report of a Mix Presentation reads back: a reader of JSON finds each of
   its values under its name, whatever bytes its strings contain. *)
Theorem C73_report m : report_bytes m -> parse (json_mix F ftext m) = Some (mix_tree m).
Proof. intros H. rewrite mix_text. apply parse_show, good_mix, H. Qed.

End Report.

(* A string reads back as its bytes wherever it stands, and its text has no
   control byte. *)
Theorem C73_string s t : bytes s ->
  read_value (S (List.length s)) (jstr s ++ t) = Some (JStr s, t)
  /\ Forall (fun c => 32 <= c < 256) (jstr s).
Proof.
  intros H. split.
  - destruct (jstr_read s t H) as (u & -> & R). cbn [read_value]. rewrite take_same, R. reflexivity.
  - unfold jstr. apply Forall_app. split; [repeat constructor; lia|].
    apply Forall_app. split; [apply escape_printable, H|repeat constructor; lia].
Qed.

(* Two lists of strings with the same text are the same. *)
Theorem C73_strings u v : Forall bytes u -> Forall bytes v -> strvec u = strvec v -> u = v.
Proof.
  intros Hu Hv E. rewrite <- !show_strings in E.
  pose proof (parse_show _ (good_strings _ Hu)) as A.
  rewrite E, (parse_show _ (good_strings _ Hv)) in A. injection A as A.
  clear - A. revert v A. induction u as [|x u IH]; intros [|y v] A; try discriminate; [reflexivity|].
  cbn [map] in A. injection A as -> A. f_equal. apply IH, A.
Qed.

(* Two integers with the same text are the same. *)
Theorem C73_integers x y : dec x = dec y -> x = y.
Proof. intros E. pose proof (C73_number x) as A. rewrite E, C73_number in A. congruence. Qed.

(* ------------------------------------------------------------------ *)
(* Examples.                                                            *)

(* Floats as integers of 1/2: -24.5 is written "-24.5". *)
Definition half (z : Z) : list Z :=
  dec (z / 2) ++ (if z mod 2 =? 0 then [] else lit ".5").

Definition ex_gain : mix_gain Z :=
  {| mg_def := {| pd_id := 7; pd_rate := 48000; pd_mode := 1; pd_duration := 0; pd_csd := 0 |};
     mg_q := -256; mg_gain := -2 |}.

Definition ex_report : mix_report Z := {|
  mp_id := 42; mp_count_label := 1;
  mp_annotations := [(lit "en-us", lit "a ""quoted"" \ label" ++ [0; 10; 255])];
  mp_num_sub_mixes := 1;
  mp_sub_mixes := [{|
    sm_elements := [{| se_id := 300; se_annotations := [[9; 34]]; se_mode := lit "stereo";
                       se_mode_raw := 0; se_filter := lit "ambient"; se_filter_raw := 0;
                       se_gain := ex_gain |}];
    sm_gain := ex_gain;
    sm_layouts := [{| la_type := lit "binaural"; la_type_raw := 3; la_system := None;
      la_system_raw := None;
      la_loudness := {| lo_type := 3; lo_true_peak_present := true; lo_anchored_present := true;
        lo_extension := false; lo_integrated := -49; lo_digital := -2; lo_true_peak := Some 0;
        lo_anchored := [{| an_element := lit "dialogue"; an_raw := 1; an_q := -512;
                           an_loudness := -4 |}] |} |}] |}];
  mp_tags := [([], lit "x")]; mp_layouts := [lit "binaural"];
  mp_integrated := Some (-49); mp_digital := None; mp_true_peak := Some 3 |}.

Example ex_json :
  report_bytes Z ex_report /\ parse (json_mix Z half ex_report) = Some (mix_tree Z half ex_report)
  /\ is_number (half (-4)) = true /\ is_number (half 3) = true.
Proof.
  split.
  - repeat (constructor || apply lit_bytes || lia); cbn; try (apply Forall_app; split);
      repeat (constructor || apply lit_bytes || lia).
  - vm_compute. repeat split.
Qed.

(* A float which is not finite would give a text which is not JSON. *)
Example ex_inf : is_number (lit "inf") = false /\ parse (lit "{""id"": inf}") = None.
Proof. split; reflexivity. Qed.

(* The bytes of a string are not checked: one which is not UTF-8 is passed on,
   and RFC 8259 (8.1) wants UTF-8. *)
Lemma C73_utf8_refuted : jstr [255] = [34; 255; 34] /\ bytes [255].
Proof. split; [reflexivity|repeat constructor; lia]. Qed.
