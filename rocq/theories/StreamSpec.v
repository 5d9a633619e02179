(* Specification of StreamBasedReadBitBuffer: one growing bit string, a position in it, and how many leading bytes
   have been discarded by Flush.  (The model of the calls is in ReadBuf.v.) *)
From Verif Require Import Base ReadBuf.

Inductive sop :=
| SPush (bytes : list Z)      (* PushBytes *)
| SFlush                      (* Flush *)
| SOp (o : rop).              (* ReadUnsignedLiteral / Tell / Seek / NumBytesAvailable *)

(* The calls performed on the concrete buffer. *)
Definition ures (r : res unit) : res Z := rbind r (fun _ => Ok 0).
Definition sstep (fuel : nat) (o : sop) (r : rbuf) : res Z * rbuf :=
  match o with
  | SPush b => let '(x, r') := r_push b r in (ures x, r')
  | SFlush => let '(x, r') := r_flush r in (ures x, r')
  | SOp o => cop fuel o r
  end.
Fixpoint srun (fuel : nat) (h : list sop) (r : rbuf) : list (res Z) * rbuf :=
  match h with
  | [] => ([], r)
  | o :: t => let '(x, r1) := sstep fuel o r in let '(xs, r2) := srun fuel t r1 in (x :: xs, r2)
  end.

(* The specification state. [st_all]: all bits ever accepted; [st_pos]: bits consumed; [st_base]: bytes discarded. *)
Record stream := mkS { st_all : list bool; st_pos : nat; st_base : nat; st_valid : option bool }.
Definition s_empty : stream := mkS [] 0 0 None.

Definition spec_step (o : sop) (s : stream) : res Z * stream :=
  match o with
  | SPush b =>
      (* refused exactly when the retained bytes would exceed 4 MiB *)
      if zlen (st_all s) / 8 - Z.of_nat (st_base s) + zlen b >? 2^22 then (Err InvalidArgument, s)
      else (Ok 0, mkS (st_all s ++ bytes_bits b) (st_pos s) (st_base s) (st_valid s))
  | SFlush => (Ok 0, mkS (st_all s) (st_pos s) (st_pos s / 8)%nat (Some false))
  | SOp (OLit n max) =>
      if (0 <=? n) && (n <=? Z.min max 64) then
        if (st_pos s + Z.to_nat n <=? length (st_all s))%nat then
          (Ok (ofbits (firstn (Z.to_nat n) (skipn (st_pos s) (st_all s)))),
           mkS (st_all s) (st_pos s + Z.to_nat n)%nat (st_base s) (Some true))
        else (Err ResourceExhausted, mkS (st_all s) (st_pos s) (st_base s) (Some true))
      else (Err InvalidArgument, s)
  | SOp OTell => (Ok (Z.of_nat (st_pos s) - 8 * Z.of_nat (st_base s)), mkS (st_all s) (st_pos s) (st_base s) (Some true))
  | SOp (OSeek p) =>
      match st_valid s with
      | None => (UB, s)
      | Some false => (Err FailedPrecondition, s)
      | Some true =>
          if p <? 0 then (Err InvalidArgument, s)
          else if p + 8 * Z.of_nat (st_base s) >? zlen (st_all s) then (Err ResourceExhausted, s)
          else (Ok 0, mkS (st_all s) (Z.to_nat (p + 8 * Z.of_nat (st_base s))) (st_base s) (Some true))
      end
  | SOp OAvail => (Ok (Z.of_nat (length (st_all s) - st_pos s) / 8), s)
  end.
Fixpoint spec_run (h : list sop) (s : stream) : list (res Z) * stream :=
  match h with
  | [] => ([], s)
  | o :: t => let '(x, s1) := spec_step o s in let '(xs, s2) := spec_run t s1 in (x :: xs, s2)
  end.

(* Seek-free histories: the bits obtained by the successful reads, and the bytes accepted by the successful pushes. *)
Fixpoint bits_read (h : list sop) (rs : list (res Z)) : list bool :=
  match h, rs with
  | SOp (OLit n _) :: h', Ok v :: rs' => bits (Z.to_nat n) v ++ bits_read h' rs'
  | _ :: h', _ :: rs' => bits_read h' rs'
  | _, _ => []
  end.
Fixpoint bytes_pushed (h : list sop) (rs : list (res Z)) : list Z :=
  match h, rs with
  | SPush b :: h', Ok _ :: rs' => b ++ bytes_pushed h' rs'
  | _ :: h', _ :: rs' => bytes_pushed h' rs'
  | _, _ => []
  end.
Definition no_seek (o : sop) : bool := match o with SOp (OSeek _) => false | _ => true end.
Definition sop_wf (o : sop) : Prop := match o with SPush b => Forall byteP b | _ => True end.
