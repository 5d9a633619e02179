(* Driving ObuProcessor::ProcessTemporalUnit over a StreamBasedReadBitBuffer: push a chunk, then process temporal units until
   continue_processing is false, flushing after each call. *)
From Verif Require Import Base ReadBuf Processor.

(* MODELS the loop over ObuProcessor::ProcessTemporalUnit as obu_processor.h:146-161 suggests ("continue_processing: Whether
   the processing should be continued"), with StreamBasedReadBitBuffer::Flush after each call as in
   iamf_decoder.cc:205-247 DecodeOneTemporalUnit.  [k] bounds the calls and the OBUs per call. *)
Section Drain.
Context {B : Type} (run : forall A, rprog A -> B -> res A * B) (flush : B -> res unit * B).
Definition opt_list {A} (o : option A) : list A := match o with Some a => [a] | None => [] end.
Fixpoint drain (n k : nat) (D : descs) (s : pst) (u : units) (b : B) : list outunit * res unit * pst * units * B :=
  match n with
  | O => ([], Diverge, s, u, b)
  | S n' =>
      match process_unit run k D false s u b with
      | (Ok (out, cont), s1, u1, b1) =>
          match flush b1 with
          | (Ok _, b2) =>
              if cont then let '(os, r, s2, u2, b3) := drain n' k D s1 u1 b2 in (opt_list out ++ os, r, s2, u2, b3)
              else (opt_list out, Ok tt, s1, u1, b2)
          | (r, b2) => (opt_list out, r, s1, u1, b2)
          end
      | (r, s1, u1, b1) => ([], rcast r (Err Internal), s1, u1, b1)
      end
  end.
End Drain.

(* How a session ends: all chunks processed; a chunk refused by PushBytes; an error while processing. *)
Inductive ending := Finished | Refused | Failed.
Definition crun_with (fuel : nat) : forall A, rprog A -> rbuf -> res A * rbuf := fun A => @crun A fuel.
(* MODELS a client which pushes each chunk (StreamBasedReadBitBuffer::PushBytes) and drains it *)
Fixpoint session (fuel k : nat) (D : descs) (chunks : list (list Z)) (s : pst) (u : units) (b : rbuf)
  : list outunit * ending * pst * units * rbuf :=
  match chunks with
  | [] => ([], Finished, s, u, b)
  | x :: xs =>
      match r_push x b with
      | (Ok _, b1) =>
          match drain (crun_with fuel) r_flush k k D s u b1 with
          | (os, Ok _, s1, u1, b2) => let '(os', e, s2, u2, b3) := session fuel k D xs s1 u1 b2 in (os ++ os', e, s2, u2, b3)
          | (os, _, s1, u1, b2) => (os, Failed, s1, u1, b2)
          end
      | (_, b1) => ([], Refused, s, u, b1)
      end
  end.
(* ... and the call with eos_is_end_of_sequence which closes the last temporal unit *)
Definition whole_session (fuel k : nat) (D : descs) (chunks : list (list Z)) (s : pst) : list outunit * ending * pst * units :=
  match session fuel k D chunks s (mkU tud_empty tud_empty) (r_stream 1024) with
  | (os, Finished, s1, u1, b1) =>
      match process_unit (crun_with fuel) k D true s1 u1 b1 with
      | (Ok (out, _), s2, u2, _) => (os ++ opt_list out, Finished, s2, u2)
      | (_, s2, u2, _) => (os, Failed, s2, u2)
      end
  | (os, e, s1, u1, _) => (os, e, s1, u1)
  end.
