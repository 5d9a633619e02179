(* Model of common/read_bit_buffer.{h,cc}: the concrete buffer with its window into the source. *)
From Verif Require Import Base.

(* MODELS iamf/common/read_bit_buffer.h:270-310 (data members).  [r_win] is bit_buffer_ (its length is the capacity
   given at construction; vector::capacity() is taken to equal that size, as for a vector(n) in practice).
   [r_valid] is is_position_valid_: None = never initialised (it has no initialiser). *)
Record rbuf := mkR {
  r_win : list Z; r_boff : Z; r_bsize : Z;
  r_src : list Z; r_ssize : Z; r_soff : Z;
  r_valid : option bool }.

(* MODELS read_bit_buffer.cc:270-275, 439-442 constructor; 414-417 CreateFromSpan has capacity = source size. *)
Definition r_create (capacity : nat) (src : list Z) : rbuf :=
  mkR (repeat 0 capacity) 0 0 src (zlen src * 8) 0 None.
Definition r_from_span (src : list Z) : rbuf := r_create (length src) src.
(* MODELS read_bit_buffer.cc:494-502, 545-548 StreamBasedReadBitBuffer::Create *)
Definition r_stream (capacity : nat) : rbuf := r_create capacity [].

Definition set_boff (r : rbuf) (o : Z) : rbuf :=
  mkR (r_win r) o (r_bsize r) (r_src r) (r_ssize r) (r_soff r) (r_valid r).
Definition set_valid (r : rbuf) (v : option bool) : rbuf :=
  mkR (r_win r) (r_boff r) (r_bsize r) (r_src r) (r_ssize r) (r_soff r) v.

(* MODELS read_bit_buffer.cc:291-294 Tell *)
Definition r_tell_val (r : rbuf) : Z := r_soff r - r_bsize r + r_boff r.
Definition r_tell (r : rbuf) : Z * rbuf := (r_tell_val r, set_valid r (Some true)).

(* MODELS read_bit_buffer.cc:419-437 MemoryBasedReadBitBuffer::LoadBytesToBuffer.  The file based version
   (471-486) does the same when the file has not changed since it was opened. *)
Definition r_load (start num : Z) (r : rbuf) : res (list Z) :=
  if (start <? 0) || (num <? 0) || (num >? zlen (r_win r)) then Err InvalidArgument
  else if (start >? zlen (r_src r)) || (start + num >? zlen (r_src r)) then Err InvalidArgument
  else Ok (firstn (Z.to_nat num) (skipn (Z.to_nat start) (r_src r)) ++ skipn (Z.to_nat num) (r_win r)).

(* MODELS read_bit_buffer.cc:296-336 Seek *)
Definition r_seek (p : Z) (r : rbuf) : res unit * rbuf :=
  match r_valid r with
  | None => (UB, r)
  | Some false => (Err FailedPrecondition, r)
  | Some true =>
      if p <? 0 then (Err InvalidArgument, r)
      else if p >? r_ssize r then (Err ResourceExhausted, r)
      else if (r_soff r - r_bsize r <=? p) && (p <? r_soff r)
      then (Ok tt, set_boff r (p - (r_soff r - r_bsize r)))
      else
        let start := p / 8 in
        let num := Z.min (zlen (r_win r)) (r_ssize r / 8 - start) in
        match r_load start num r with
        | Ok w => (Ok tt, mkR w (p mod 8) (num * 8) (r_src r) (r_ssize r) ((start + num) * 8) (r_valid r))
        | Err c => (Err c, r) | Abort => (Abort, r) | UB => (UB, r) | Diverge => (Diverge, r)
        end
  end.

(* Seek(Tell()) *)
Definition r_seek_tell (r : rbuf) : res unit * rbuf := let '(p, r1) := r_tell r in r_seek p r1.

(* MODELS read_bit_buffer.cc:279-289 NumBytesAvailable *)
Definition r_avail (r : rbuf) : res Z :=
  if (r_soff r >=? 0) && (r_soff r <=? r_ssize r) then
    if (r_boff r >=? 0) && (r_boff r <=? r_bsize r) then
      Ok ((r_ssize r - r_soff r) / 8 + (r_bsize r - r_boff r) / 8)
    else Abort
  else Abort.

(* MODELS read_bit_buffer.cc:53-58 GetUpperBit (vector::at throws out of range) *)
Definition get_upper_bit (off : Z) (win : list Z) : option bool :=
  match nth_error win (Z.to_nat (off / 8)) with
  | None => None
  | Some b => Some (Z.testbit b (7 - off mod 8))
  end.

(* MODELS read_bit_buffer.cc:68-81 ReadUnsignedLiteralBits; [k] counts remaining_bits_to_read down.
   Result: (remaining, offset, output). *)
Fixpoint read_bits_loop (k : nat) (win : list Z) (bsize off out : Z) : res (Z * Z * Z) :=
  match k with
  | O => Ok (0, off, out)
  | S k' =>
      if (off / 8 <? zlen win) && (off <? bsize) then
        match get_upper_bit off win with
        | None => Abort
        | Some b => read_bits_loop k' win bsize (off + 1) (u64 (2 * out + Z.b2z b))
        end
      else Ok (Z.of_nat k, off, out)
  end.

(* MODELS read_bit_buffer.cc:84-95 ReadUnsignedLiteralBytes, [k] = bytes left (num_bits is a multiple of 8). *)
Fixpoint read_bytes_loop (k : nat) (win : list Z) (off out : Z) : res (Z * Z) :=
  match k with
  | O => Ok (off, out)
  | S k' =>
      if off / 8 <? zlen win then
        match nth_error win (Z.to_nat (off / 8)) with
        | None => Abort
        | Some b => read_bytes_loop k' win (off + 8) (Z.lor (u64 (Z.shiftl out 8)) b)
        end
      else Ok (off, out)
  end.

(* MODELS read_bit_buffer.cc:387-400: the loop over complete bytes; out of [fuel] = Diverge. *)
Fixpoint read_whole (fuel : nat) (remaining out : Z) (r : rbuf) : res (Z * Z) * rbuf :=
  if remaining >=? 8 then
    match fuel with
    | O => (Diverge, r)
    | S f =>
        match r_seek_tell r with
        | (Ok _, r1) =>
            let nb := Z.min (r_bsize r1 - r_boff r1) (remaining / 8 * 8) in
            if (r_boff r1 mod 8 =? 0) && (nb mod 8 =? 0) then
              match read_bytes_loop (Z.to_nat (nb / 8)) (r_win r1) (r_boff r1) out with
              | Ok (off', out') => read_whole f (remaining - nb) out' (set_boff r1 off')
              | Err c => (Err c, r1) | Abort => (Abort, r1) | UB => (UB, r1) | Diverge => (Diverge, r1)
              end
            else (Abort, r1)
        | (Err c, r1) => (Err c, r1) | (Abort, r1) => (Abort, r1) | (UB, r1) => (UB, r1)
        | (Diverge, r1) => (Diverge, r1)
        end
    end
  else (Ok (remaining, out), r).

(* MODELS read_bit_buffer.cc:402-409: the final bits. *)
Definition read_tail (expected remaining out : Z) (r : rbuf) : res Z * rbuf :=
  let nfin := expected mod 8 in
  let rem' := remaining - nfin in
  match r_seek_tell r with
  | (Ok _, r1) =>
      match read_bits_loop (Z.to_nat nfin) (r_win r1) (r_bsize r1) (r_boff r1) out with
      | Ok (_, off', out') => if rem' =? 0 then (Ok out', set_boff r1 off') else (Abort, r1)
      | Err c => (Err c, r1) | Abort => (Abort, r1) | UB => (UB, r1) | Diverge => (Diverge, r1)
      end
  | (Err c, r1) => (Err c, r1) | (Abort, r1) => (Abort, r1) | (UB, r1) => (UB, r1)
  | (Diverge, r1) => (Diverge, r1)
  end.

(* MODELS read_bit_buffer.cc:342-410 ReadUnsignedLiteralInternal *)
Definition r_lit_internal (fuel : nat) (n max : Z) (r : rbuf) : res Z * rbuf :=
  if n >? max then (Err InvalidArgument, r)
  else if n <? 0 then (Err InvalidArgument, r)
  else if r_boff r <? 0 then (Err InvalidArgument, r)
  else
    let '(t0, r0) := r_tell r in
    if t0 + n >? r_ssize r0 then (Err ResourceExhausted, r0)
    else if n =? 0 then (Ok 0, r0)
    else
      match r_seek_tell r0 with
      | (Ok _, r1) =>
          let '(t1, r1) := r_tell r1 in
          let expected := t1 + n in
          if expected / 8 =? t1 / 8 then
            match read_bits_loop (Z.to_nat n) (r_win r1) (r_bsize r1) (r_boff r1) 0 with
            | Ok (rem, off', out) => if rem =? 0 then (Ok out, set_boff r1 off') else (Abort, r1)
            | Err c => (Err c, r1) | Abort => (Abort, r1) | UB => (UB, r1) | Diverge => (Diverge, r1)
            end
          else
            let pre :=
              if r_boff r1 mod 8 =? 0 then Ok (n, 0, r1)
              else
                let na := 8 - r_boff r1 mod 8 in
                match read_bits_loop (Z.to_nat na) (r_win r1) (r_bsize r1) (r_boff r1) 0 with
                | Ok (_, off', out) => Ok (n - na, out, set_boff r1 off')
                | Err c => Err c | Abort => Abort | UB => UB | Diverge => Diverge
                end in
            match pre with
            | Ok (rem, out, r2) =>
                match read_whole fuel rem out r2 with
                | (Ok (rem', out'), r3) => read_tail expected rem' out' r3
                | (Err c, r3) => (Err c, r3) | (Abort, r3) => (Abort, r3) | (UB, r3) => (UB, r3)
                | (Diverge, r3) => (Diverge, r3)
                end
            | Err c => (Err c, r1) | Abort => (Abort, r1) | UB => (UB, r1) | Diverge => (Diverge, r1)
            end
      | (Err c, r1) => (Err c, r1) | (Abort, r1) => (Abort, r1) | (UB, r1) => (UB, r1)
      | (Diverge, r1) => (Diverge, r1)
      end.

(* MODELS read_bit_buffer.cc:149-176: the overloads; the result is cast to a [max]-bit unsigned. *)
Definition r_lit (fuel : nat) (n max : Z) (r : rbuf) : res Z * rbuf :=
  match r_lit_internal fuel n max r with
  | (Ok v, r') => (Ok (v mod 2^max), r')
  | x => x
  end.

(* MODELS read_bit_buffer.cc:504-516 PushBytes.  max_source_size_bits_/8 = 2 * kEntireObuSizeMaxTwoMegabytes = 2^22;
   the subtraction is in size_t (uint64_t). *)
Definition r_push (bytes : list Z) (r : rbuf) : res unit * rbuf :=
  if zlen bytes >? u64 (2^22 - zlen (r_src r)) then (Err InvalidArgument, r)
  else (Ok tt, mkR (r_win r) (r_boff r) (r_bsize r) (r_src r ++ bytes) (r_ssize r + zlen bytes * 8)
                   (r_soff r) (r_valid r)).

(* MODELS read_bit_buffer.cc:525-543 Flush *)
Definition r_flush (r : rbuf) : res unit * rbuf :=
  let '(t, r1) := r_tell r in
  let nb := t / 8 in
  if nb <=? zlen (r_src r1) then
    (Ok tt, mkR (r_win r1) (r_boff r1) (r_bsize r1) (skipn (Z.to_nat nb) (r_src r1))
                (r_ssize r1 - nb * 8) (r_soff r1 - nb * 8) (Some false))
  else (Abort, r1).

(* ---- programs over the reader ---- *)
Inductive rop := OLit (n max : Z) | OTell | OSeek (p : Z) | OAvail.

Inductive rprog (A : Type) :=
| RRet (a : A)
| RFail (c : code)
| ROp (o : rop) (k : code + Z -> rprog A).
Arguments RRet {A}. Arguments RFail {A}. Arguments ROp {A}.

(* One call on the concrete buffer; [fuel] bounds the loop at lines 387-400.  The overloads of ReadUnsignedLiteral
   have max = 8, 16, 32 or 64, so capping at 64 only makes the model total. *)
Definition cop (fuel : nat) (o : rop) (r : rbuf) : res Z * rbuf :=
  match o with
  | OLit n max => r_lit fuel n (Z.min max 64) r
  | OTell => let '(t, r') := r_tell r in (Ok t, r')
  | OSeek p => match r_seek p r with
               | (Ok _, r') => (Ok 0, r') | (Err c, r') => (Err c, r') | (Abort, r') => (Abort, r')
               | (UB, r') => (UB, r') | (Diverge, r') => (Diverge, r') end
  | OAvail => (r_avail r, r)
  end.

Fixpoint crun {A} (fuel : nat) (p : rprog A) (r : rbuf) : res A * rbuf :=
  match p with
  | RRet a => (Ok a, r)
  | RFail c => (Err c, r)
  | ROp o k => match cop fuel o r with
               | (Ok v, r') => crun fuel (k (inr v)) r'
               | (Err c, r') => crun fuel (k (inl c)) r'
               | (Abort, r') => (Abort, r') | (UB, r') => (UB, r') | (Diverge, r') => (Diverge, r')
               end
  end.

Fixpoint rb {A B} (p : rprog A) (f : A -> rprog B) : rprog B :=
  match p with
  | RRet a => f a
  | RFail c => RFail c
  | ROp o k => ROp o (fun x => rb (k x) f)
  end.
Notation "x <- p ;; q" := (rb p (fun x => q)) (at level 100, p at next level, right associativity).
Notation "p ;;; q" := (rb p (fun _ => q)) (at level 100, right associativity).

(* Turn a failure of [p] into a value (the C++ code looks at the status instead of propagating it). *)
Fixpoint rcatch {A} (p : rprog A) : rprog (code + A) :=
  match p with
  | RRet a => RRet (inr a)
  | RFail c => RRet (inl c)
  | ROp o k => ROp o (fun x => rcatch (k x))
  end.

Definition rop1 (o : rop) : rprog Z :=
  ROp o (fun r => match r with inl c => RFail c | inr v => RRet v end).
Definition rlit (n max : Z) : rprog Z := rop1 (OLit n max).
Definition rtell : rprog Z := rop1 OTell.
Definition rseek (p : Z) : rprog unit := rop1 (OSeek p) ;;; RRet tt.
Definition ravail : rprog Z := rop1 OAvail.
(* MODELS read_bit_buffer.cc:338-340 IgnoreBytes *)
Definition rignore (n : Z) : rprog unit := t <- rtell ;; rseek (t + n * 8).
Definition rcheck (b : bool) (c : code) : rprog unit := if b then RRet tt else RFail c.
Definition rres {A} (r : res A) : rprog A :=
  match r with Ok a => RRet a | Err c => RFail c | _ => RFail Internal end.

(* MODELS read_bit_buffer.cc:263-268 ReadBoolean *)
Definition rbool : rprog bool := b <- rlit 1 64 ;; RRet (negb (b =? 0)).
(* MODELS read_bit_buffer.cc:179-184 ReadSigned16 *)
Definition rsigned16 : rprog Z := v <- rlit 16 64 ;; RRet (s16 (Z.land (s16 v) 65535)).
(* MODELS read_bit_buffer.cc:187-192 ReadSigned8 *)
Definition rsigned8 : rprog Z := v <- rlit 8 64 ;; RRet (s8 v).
(* MODELS read_bit_buffer.cc:195-205 ReadSigned9 *)
Definition rsigned9 : rprog Z :=
  v <- rlit 9 64 ;;
  RRet (if negb (Z.land v 256 =? 0) then s16 (Z.lor v 65024) else s16 v).
(* MODELS read_bit_buffer.cc:208-224 ReadString, [k] iterations left; [acc] reversed. *)
Fixpoint rstring_loop (k : nat) (acc : list Z) : rprog (list Z) :=
  match k with
  | O => RFail InvalidArgument
  | S k' => b <- rlit 8 8 ;; if b =? 0 then RRet (rev acc) else rstring_loop k' (b :: acc)
  end.
Definition rstring : rprog (list Z) := rstring_loop 128 [].
(* MODELS read_bit_buffer.cc:256-261 ReadUint8Span for a span of [n] bytes *)
Fixpoint rspan (n : nat) : rprog (list Z) :=
  match n with
  | O => RRet []
  | S k => b <- rlit 8 8 ;; l <- rspan k ;; RRet (b :: l)
  end.

(* MODELS read_bit_buffer.cc:100-142 with the two accumulators (235, 248).  [le] = little endian (ULEB128).
   [i] = index of the byte, [k] = iterations left; returns (value, encoded size). *)
Definition acc_byte (le : bool) (byte i acc : Z) : Z :=
  if le then Z.lor acc (u64 (Z.shiftl (Z.land byte 127) (7 * i)))
  else Z.lor (u64 (Z.shiftl acc 7)) (Z.land byte 127).
Fixpoint rleb_loop (k : nat) (le : bool) (max_output i acc : Z) : rprog (Z * Z) :=
  match k with
  | O => RRet (u32 acc, i)
  | S k' =>
      byte <- rlit 8 64 ;;
      let acc' := acc_byte le byte i acc in
      let terminal := Z.land byte 128 =? 0 in
      if (i =? 7) && negb terminal then RFail InvalidArgument
      else if acc' >? max_output then RFail InvalidArgument
      else if terminal then RRet (u32 acc', i + 1)
      else rleb_loop k' le max_output (i + 1) acc'
  end.
(* MODELS read_bit_buffer.cc:231-242 ReadULeb128 with size; kMaxLeb128Size = 8 (obu/types.h) *)
Definition ruleb_sz : rprog (Z * Z) := rleb_loop 8 true (2^32 - 1) 0 0.
(* MODELS read_bit_buffer.cc:226-229 *)
Definition ruleb : rprog Z := x <- ruleb_sz ;; RRet (fst x).
(* MODELS read_bit_buffer.cc:244-254 *)
Definition riso (max_class_size : Z) : rprog Z := x <- rleb_loop 8 false max_class_size 0 0 ;; RRet (fst x).
