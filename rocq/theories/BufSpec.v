(* Specification vocabulary for the bit buffers: what a sequence of writes means (bits appended), what a
   sequence of reads means (a cursor over a bit string).  Independent of how the buffers are implemented. *)
From Verif Require Import Base WriteBuf ReadBuf.

(* ---- writing ---- *)
(* Bits one call appends, or its error.  [max] is 32 or 64: the width of the C++ argument. *)
Definition wspec (i : winstr) : res (list bool) :=
  match i with
  | WLit max data n =>
      if (0 <=? n) && ((n =? 0) || ((n <=? max) && (max <=? 64) && (data <? 2 ^ n)))
      then Ok (bits (Z.to_nat n) data) else Err InvalidArgument
  | WSpan d => Ok (bytes_bits d)
  | WFail c => Err c
  end.

(* Bits a writer appends when it succeeds, or the error it returns. *)
Fixpoint wbits (p : wprog) : res (list bool) :=
  match p with
  | [] => Ok []
  | i :: t => rbind (wspec i) (fun a => rbind (wbits t) (fun b => Ok (a ++ b)))
  end.

(* Arguments are of their C++ types: uint64_t data, uint8_t span elements. *)
Definition winstr_wf (i : winstr) : Prop :=
  match i with
  | WLit _ data _ => 0 <= data < 2 ^ 64
  | WSpan d => Forall byteP d
  | WFail _ => True
  end.

(* The buffer holds exactly the bits [bs], zero padded to a byte. *)
Definition holds (w : wbuf) (bs : list bool) : Prop := w_bytes w = pack bs /\ w_off w = zlen bs.

Definition ok_bits (r : res (list bool)) : list bool := match r with Ok b => b | _ => [] end.
Definition status_of {A} (r : res A) : res unit := rbind r (fun _ => Ok tt).

(* ---- reading ---- *)
(* A cursor over a bit string.  [c_valid]: whether positions may be sought to (None: not initialised). *)
Record cur := mkC { c_bits : list bool; c_pos : nat; c_valid : option bool }.

Definition c_left (c : cur) : nat := (length (c_bits c) - c_pos c)%nat.
Definition legal_width (n max : Z) : bool := (0 <=? n) && (n <=? Z.min max 64).

Definition aop (o : rop) (c : cur) : res Z * cur :=
  match o with
  | OLit n max =>
      if legal_width n max then
        if (Z.to_nat n <=? c_left c)%nat then
          (Ok (ofbits (firstn (Z.to_nat n) (skipn (c_pos c) (c_bits c)))),
           mkC (c_bits c) (c_pos c + Z.to_nat n)%nat (Some true))
        else (Err ResourceExhausted, mkC (c_bits c) (c_pos c) (Some true))
      else (Err InvalidArgument, c)
  | OTell => (Ok (Z.of_nat (c_pos c)), mkC (c_bits c) (c_pos c) (Some true))
  | OSeek p =>
      match c_valid c with
      | None => (UB, c)
      | Some false => (Err FailedPrecondition, c)
      | Some true =>
          if p <? 0 then (Err InvalidArgument, c)
          else if p >? zlen (c_bits c) then (Err ResourceExhausted, c)
          else (Ok 0, mkC (c_bits c) (Z.to_nat p) (c_valid c))
      end
  | OAvail => (Ok (Z.of_nat (c_left c) / 8), c)
  end.

Fixpoint arun {A} (p : rprog A) (c : cur) : res A * cur :=
  match p with
  | RRet a => (Ok a, c)
  | RFail e => (Err e, c)
  | ROp o k => match aop o c with
               | (Ok v, c') => arun (k (inr v)) c'
               | (Err e, c') => arun (k (inl e)) c'
               | (Abort, c') => (Abort, c') | (UB, c') => (UB, c') | (Diverge, c') => (Diverge, c')
               end
  end.

(* [p], started anywhere just before [bs], consumes exactly [bs] and returns [a]. *)
Definition parses {A} (p : rprog A) (bs : list bool) (a : A) : Prop :=
  forall pre rest v, exists v',
    arun p (mkC (pre ++ bs ++ rest) (length pre) v)
    = (Ok a, mkC (pre ++ bs ++ rest) (length pre + length bs) v').
