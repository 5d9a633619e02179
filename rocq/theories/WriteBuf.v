(* Model of common/write_bit_buffer.{h,cc}: the concrete buffer (byte vector and bit offset). *)
From Verif Require Import Base.

(* MODELS iamf/common/write_bit_buffer.h (members bit_buffer_, bit_offset_).  The reserve()d capacity is not
   observable and not modelled. *)
Record wbuf := mkW { w_bytes : list Z; w_off : Z }.
Definition w_empty : wbuf := mkW [] 0.

(* vector element assignment; None = index out of range (undefined behaviour for operator[]) *)
Fixpoint set_nth {A} (i : nat) (x : A) (l : list A) : option (list A) :=
  match l, i with
  | [], _ => None
  | _ :: t, O => Some (x :: t)
  | h :: t, S k => match set_nth k x t with Some t' => Some (h :: t') | None => None end
  end.

(* MODELS write_bit_buffer.cc:35-47 MaybeResizeBufferToFitNumBits.  resize(n,0) with n > size appends zeros. *)
Definition maybe_resize (num_bits off : Z) (buf : list Z) : list Z :=
  if off + num_bits <=? zlen buf * 8 then buf
  else
    let required := (off + num_bits) / 8 + (if (off + num_bits) mod 8 =? 0 then 0 else 1) in
    firstn (Z.to_nat required) buf ++ repeat 0 (Z.to_nat required - length buf).

(* MODELS write_bit_buffer.cc:52-71 WriteBit. *)
Definition write_bit (bit : bool) (w : wbuf) : res unit * wbuf :=
  if w_off w <? 0 then (Err InvalidArgument, w)
  else
    let p := Z.to_nat (Z.shiftr (w_off w) 3) in
    let q := 7 - Z.land (w_off w) 7 in
    match nth_error (w_bytes w) p with
    | None => (UB, w)
    | Some b =>
        let b' := if bit then u8 (Z.lor b (Z.shiftl 1 q)) else u8 (Z.land b (Z.lnot (Z.shiftl 1 q))) in
        match set_nth p b' (w_bytes w) with
        | None => (UB, w)
        | Some l => (Ok tt, mkW l (w_off w + 1))
        end
    end.

(* MODELS write_bit_buffer.cc:113-116 (byte loop, [k] = bytes left). *)
Fixpoint write_bytes_loop (k : nat) (data : Z) (w : wbuf) : res unit * wbuf :=
  match k with
  | O => (Ok tt, w)
  | S k' =>
      match set_nth (Z.to_nat (w_off w / 8)) (Z.land (Z.shiftr data (Z.of_nat k' * 8)) 255) (w_bytes w) with
      | None => (UB, w)
      | Some l => write_bytes_loop k' data (mkW l (w_off w + 8))
      end
  end.

(* MODELS write_bit_buffer.cc:120-122 (bit loop, [k] = bits left). *)
Fixpoint write_bits_loop (k : nat) (data : Z) (w : wbuf) : res unit * wbuf :=
  match k with
  | O => (Ok tt, w)
  | S k' =>
      match write_bit (Z.testbit data (Z.of_nat k')) w with
      | (Ok _, w') => write_bits_loop k' data w'
      | (r, w') => (r, w')
      end
  end.

(* MODELS write_bit_buffer.cc:75-126 InternalWriteUnsigned.  [data] is a uint64_t. *)
Definition internal_write_unsigned (max_bits data num_bits : Z) (w : wbuf) : res unit * wbuf :=
  if num_bits <? 0 then (Err InvalidArgument, w)
  else if num_bits =? 0 then (Ok tt, w)
  else if max_bits >? 64 then (Err InvalidArgument, w)
  else if num_bits >? max_bits then (Err InvalidArgument, w)
  else if negb (num_bits =? 64) && negb (Z.shiftr data num_bits =? 0) then (Err InvalidArgument, w)
  else
    let w1 := mkW (maybe_resize num_bits (w_off w) (w_bytes w)) (w_off w) in
    if (w_off w mod 8 =? 0) && (num_bits mod 8 =? 0)
    then write_bytes_loop (Z.to_nat (num_bits / 8)) data w1
    else write_bits_loop (Z.to_nat num_bits) data w1.

(* MODELS write_bit_buffer.cc:265-267 (unaligned copy, one WriteUnsignedLiteral(value, 8) per byte). *)
Fixpoint write_span_loop (data : list Z) (w : wbuf) : res unit * wbuf :=
  match data with
  | [] => (Ok tt, w)
  | b :: t => match internal_write_unsigned 32 b 8 w with
              | (Ok _, w') => write_span_loop t w'
              | (r, w') => (r, w')
              end
  end.

(* MODELS write_bit_buffer.cc:249-269 WriteUint8Span (IsByteAligned: write_bit_buffer.h, bit_offset_ % 8 == 0). *)
Definition write_uint8_span (data : list Z) (w : wbuf) : res unit * wbuf :=
  if w_off w mod 8 =? 0 then (Ok tt, mkW (w_bytes w ++ data) (w_off w + 8 * zlen data))
  else write_span_loop data (mkW (maybe_resize (zlen data * 8) (w_off w) (w_bytes w)) (w_off w)).

(* A writer is the list of buffer calls it performs; IFail is a RETURN_IF_NOT_OK on something else than the buffer. *)
Inductive winstr :=
| WLit (max data n : Z)       (* WriteUnsignedLiteral (max=32) / WriteUnsignedLiteral64 (max=64) *)
| WSpan (data : list Z)       (* WriteUint8Span *)
| WFail (c : code).           (* validation failed: return this status *)
Definition wprog := list winstr.

Definition winstr_run (i : winstr) (w : wbuf) : res unit * wbuf :=
  match i with
  | WLit max data n => internal_write_unsigned max data n w
  | WSpan d => write_uint8_span d w
  | WFail c => (Err c, w)
  end.

(* Run the calls in order, stopping at the first one that does not return OK (RETURN_IF_NOT_OK). *)
Fixpoint wrun (p : wprog) (w : wbuf) : res unit * wbuf :=
  match p with
  | [] => (Ok tt, w)
  | i :: t => match winstr_run i w with
              | (Ok _, w') => wrun t w'
              | (r, w') => (r, w')
              end
  end.

(* Calls that are all performed, errors ignored by the caller (for C01). *)
Fixpoint wrun_all (p : list winstr) (w : wbuf) : list (res unit) * wbuf :=
  match p with
  | [] => ([], w)
  | i :: t => let '(r, w1) := winstr_run i w in
              let '(rs, w2) := wrun_all t w1 in (r :: rs, w2)
  end.

(* ---- typed helpers, all in terms of the above ---- *)
Definition wok : wprog := [].
(* RETURN_IF_NOT_OK(validation) *)
Definition wcheck (b : bool) (c : code) : wprog := if b then [] else [WFail c].
Definition wres (r : res unit) : wprog := match r with Ok _ => [] | Err c => [WFail c] | _ => [WFail Internal] end.
(* MODELS write_bit_buffer.cc:153-156 WriteUnsignedLiteral *)
Definition wlit (data n : Z) : wprog := [WLit 32 data n].
(* MODELS write_bit_buffer.cc:160-163 WriteUnsignedLiteral64 *)
Definition wlit64 (data n : Z) : wprog := [WLit 64 data n].
(* MODELS write_bit_buffer.cc:167-169 WriteSigned16 (static_cast<uint32_t> then & 0xffff) *)
Definition wsigned16 (v : Z) : wprog := [WLit 32 (Z.land (u32 v) 65535) 16].
(* MODELS write_bit_buffer.cc:173-179 WriteSigned9 *)
Definition wsigned9 (v : Z) : wprog :=
  if (v <? -256) || (v >? 255) then [WFail InvalidArgument] else [WLit 32 (Z.land (u32 v) 511) 9].
(* MODELS write_bit_buffer.cc:183-185 WriteSigned8 *)
Definition wsigned8 (v : Z) : wprog := [WLit 32 (Z.land (u32 v) 255) 8].
(* MODELS write_bit_buffer.cc:187-189 WriteBoolean *)
Definition wbool (b : bool) : wprog := [WLit 32 (Z.b2z b) 1].
(* MODELS write_bit_buffer.cc:192-218 WriteString; a string is its list of bytes. *)
Definition wstring (s : list Z) : wprog :=
  if zlen s >? 127 then [WFail InvalidArgument]
  else match s with
       | [] => [WLit 32 0 8]
       | _ => if existsb (Z.eqb 0) s then [WFail InvalidArgument]
              else map (fun b => WLit 32 b 8) s ++ [WLit 32 0 8]
       end.
Definition wspan (d : list Z) : wprog := [WSpan d].

(* MODELS write_bit_buffer.cc:236-242: the do-while loop; returns the bytes most significant group first with all
   continuation bits set.  [fuel] 5 suffices for a uint32_t; out of fuel is a visible failure. *)
Fixpoint iso_loop (fuel : nat) (v : Z) (buf : list Z) : res (list Z) :=
  match fuel with
  | O => Diverge
  | S f =>
      let buf' := Z.lor (Z.land v 127) 128 :: buf in
      let v' := Z.shiftr v 7 in
      if v' >? 0 then iso_loop f v' buf' else Ok buf'
  end.
(* buffer.back() &= mask; UB on an empty vector *)
Definition mask_last (buf : list Z) : res (list Z) :=
  match rev buf with [] => UB | b :: t => Ok (rev (Z.land b 127 :: t)) end.
Definition iso_bytes (v : Z) : res (list Z) := rbind (iso_loop 5 v []) mask_last.
(* MODELS write_bit_buffer.cc:228-247 WriteIso14496_1Expanded *)
Definition wiso (v : Z) : wprog :=
  match iso_bytes v with Ok b => [WSpan b] | Err c => [WFail c] | _ => [WFail Internal] end.
