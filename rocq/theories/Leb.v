(* Model of common/leb_generator.{h,cc}. *)
From Verif Require Import Base WriteBuf.

(* MODELS iamf/common/leb_generator.h GenerationMode and the invariants of LebGenerator::Create. *)
Inductive lebgen := LebMin | LebFixed (k : Z).

(* MODELS leb_generator.cc:128-145 LebGenerator::Create for kFixedSize (kMinimum always succeeds). *)
Definition lebgen_fixed (k : Z) : option lebgen :=
  if (1 <=? k) && (k <=? 8) then Some (LebFixed k) else None.

Record lebst := mkLeb { l_buf : list Z (* reversed *); l_ok : bool }.

(* MODELS leb_generator.cc:79-104: the loop over coded_size; [st] true once temp_val reached end_value. *)
Fixpoint leb_loop (n : nat) (neg signed minenc : bool) (t : Z) (rbuf : list Z) (st : bool) : lebst :=
  match n with
  | O => mkLeb rbuf st
  | S n' =>
      let byte := Z.lor 128 (Z.land t 127) in
      let rbuf' := byte :: rbuf in
      let t1 := Z.shiftr t 7 in
      let t2 := if neg then Z.lor t1 4261412864 (* 0xfe000000 *) else t1 in
      let endv := if signed && negb (Z.land byte 64 =? 0) then 2^32 - 1 else 0 in
      if t2 =? endv then
        if minenc then mkLeb rbuf' true else leb_loop n' neg signed minenc t2 rbuf' true
      else leb_loop n' neg signed minenc t2 rbuf' st
  end.

(* MODELS leb_generator.cc:60-119 Leb128ToUint8Vector.  [v] is the decoded value (uint32_t or int32_t). *)
Definition leb128_to_bytes (signed : bool) (v coded_size : Z) (minenc : bool) : res (list Z) :=
  if (coded_size <? 1) || (8 <? coded_size) then Err InvalidArgument
  else
    let neg := signed && (v <? 0) in
    let s := leb_loop (Z.to_nat coded_size) neg signed minenc (u32 v) [] false in
    match l_buf s with
    | [] => UB
    | b :: t =>
        if l_ok s then Ok (rev (Z.land b 127 :: t))
        else if minenc then Err Unknown else Err InvalidArgument
    end.

(* MODELS leb_generator.cc:147-159 *)
Definition uleb_bytes (g : lebgen) (v : Z) : res (list Z) :=
  match g with
  | LebMin => leb128_to_bytes false v 8 true
  | LebFixed k => leb128_to_bytes false v k false
  end.
(* MODELS leb_generator.cc:161-173 *)
Definition sleb_bytes (g : lebgen) (v : Z) : res (list Z) :=
  match g with
  | LebMin => leb128_to_bytes true v 8 true
  | LebFixed k => leb128_to_bytes true v k false
  end.

(* MODELS write_bit_buffer.cc:220-226 WriteUleb128 *)
Definition wuleb (g : lebgen) (v : Z) : wprog :=
  match uleb_bytes g v with Ok b => [WSpan b] | Err c => [WFail c] | _ => [WFail Internal] end.
