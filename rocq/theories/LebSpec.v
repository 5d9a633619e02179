(* What (U/S)LEB128 encodings and ISO 14496-1 expandable sizes are; independent of the implementation. *)
From Verif Require Import Base.

(* All bytes except the last have the continuation bit (0x80), the last has not. *)
Fixpoint is_leb (l : list Z) : Prop :=
  match l with
  | [] => False
  | [b] => 0 <= b < 128
  | b :: t => 128 <= b < 256 /\ is_leb t
  end.

(* little endian groups of 7 bits *)
Fixpoint uleb_value (l : list Z) : Z :=
  match l with [] => 0 | b :: t => b mod 128 + 128 * uleb_value t end.

(* sign extended from bit 6 of the last byte *)
Definition sleb_value (l : list Z) : Z :=
  if 64 <=? last l 0 mod 128 then uleb_value l - 128 ^ zlen l else uleb_value l.

(* big endian groups of 7 bits *)
Definition iso_value (l : list Z) : Z := fold_left (fun a b => a * 128 + b mod 128) l 0.
