(* Base vocabulary: status codes, outcomes, bits.  No code of /repo is modelled here except the
   error vocabulary (absl::StatusCode) and the meaning of "big-endian bits". *)
From Coq Require Export List ZArith Lia Bool ZifyBool ZifyNat ZifyN.
Export ListNotations.
Open Scope Z_scope.
Ltac Zify.zify_post_hook ::= Z.div_mod_to_equations.

(* absl::StatusCode values used by the modelled code. *)
Inductive code :=
| InvalidArgument | ResourceExhausted | FailedPrecondition | Unknown
| Unimplemented | OutOfRange | NotFound | Internal.

(* Outcome of a modelled call.  [Abort] = ABSL_CHECK failure or uncaught exception, [UB] = undefined
   behaviour in C++ (e.g. out of bounds vector write, indeterminate bool), [Diverge] = the loop fuel ran out. *)
Inductive res (A : Type) :=
| Ok (a : A) | Err (c : code) | Abort | UB | Diverge.
Arguments Ok {A}. Arguments Err {A}. Arguments Abort {A}. Arguments UB {A}. Arguments Diverge {A}.

Definition rbind {A B} (r : res A) (k : A -> res B) : res B :=
  match r with Ok a => k a | Err c => Err c | Abort => Abort | UB => UB | Diverge => Diverge end.

Definition is_ok {A} (r : res A) : bool := match r with Ok _ => true | _ => false end.
Definition map_res {A B} (f : A -> B) (r : res A) : res B := rbind r (fun a => Ok (f a)).

(* The [n] low bits of [v], most significant first (two's complement for negative [v]). *)
Fixpoint bits (n : nat) (v : Z) : list bool :=
  match n with O => [] | S k => Z.testbit v (Z.of_nat k) :: bits k v end.

(* The number whose big-endian binary digits are [l]. *)
Definition ofbits (l : list bool) : Z := fold_left (fun a (b : bool) => 2 * a + Z.b2z b) l 0.

(* Big-endian bits of a byte string. *)
Definition bytes_bits (l : list Z) : list bool := flat_map (bits 8) l.

Definition byteP (b : Z) : Prop := 0 <= b < 256.
Definition byte_ok (b : Z) : bool := (0 <=? b) && (b <? 256).
Definition bytes_ok (l : list Z) : bool := forallb byte_ok l.

(* Big-endian bytes of a bit string, the last byte padded with zero bits. *)
Fixpoint pack_fuel (fuel : nat) (l : list bool) : list Z :=
  match fuel with
  | O => []
  | S f => match l with
           | [] => []
           | _ => ofbits (firstn 8 (l ++ repeat false 8)) :: pack_fuel f (skipn 8 l)
           end
  end.
Definition pack (l : list bool) : list Z := pack_fuel (length l) l.

Definition u8 (v : Z) : Z := v mod 2^8.
Definition u16 (v : Z) : Z := v mod 2^16.
Definition u32 (v : Z) : Z := v mod 2^32.
Definition u64 (v : Z) : Z := v mod 2^64.
(* two's complement reinterpretation of an n-bit pattern *)
Definition sN (n : Z) (v : Z) : Z := let m := v mod 2^n in if m <? 2^(n-1) then m else m - 2^n.
Definition s8 := sN 8. Definition s16 := sN 16. Definition s32 := sN 32. Definition s64 := sN 64.

Definition zlen {A} (l : list A) : Z := Z.of_nat (length l).

(* Keep cbn/simpl from unfolding binary arithmetic. *)
Global Arguments Z.add : simpl never. Global Arguments Z.sub : simpl never. Global Arguments Z.mul : simpl never.
Global Arguments Z.div : simpl never. Global Arguments Z.modulo : simpl never. Global Arguments Z.pow : simpl never.
Global Arguments Z.land : simpl never. Global Arguments Z.lor : simpl never. Global Arguments Z.shiftl : simpl never.
Global Arguments Z.shiftr : simpl never. Global Arguments Z.eqb : simpl never. Global Arguments Z.leb : simpl never.
Global Arguments Z.ltb : simpl never. Global Arguments Z.gtb : simpl never. Global Arguments Z.geb : simpl never.
Global Arguments Z.of_nat : simpl never. Global Arguments Z.to_nat : simpl never. Global Arguments Z.testbit : simpl never.
Global Arguments Z.min : simpl never. Global Arguments Z.max : simpl never. Global Arguments Z.opp : simpl never.
Global Arguments Nat.mul : simpl never. Global Arguments Nat.div : simpl never. Global Arguments Nat.modulo : simpl never.
