(* Model of cli/substream_frames.h SubstreamFrames: the queue in which the encoder collects the samples of a substream and cuts
   them into frames.
   frames_ is a list of frames, each a list of channels; current_frame_iters_ holds, for each channel, the position of its frame
   in frames_ ([Some p]), or [None] if the iterator does not point into frames_ (never set, or the frame was popped).
   recycled_frames_ only saves allocations: a recycled frame is cleared before it is used. *)
From Verif Require Import Base.

Fixpoint upd_at {X} (i : nat) (f : X -> X) (l : list X) : list X :=
  match l, i with
  | [], _ => []
  | x :: t, O => f x :: t
  | x :: t, S j => x :: upd_at j f t
  end.

Section Frames.
Context {X : Type}.
Variable zero : X.
(* MODELS substream_frames.h:186-200: the members *)
Record sframes := mkSf { sf_nch : nat; sf_n : nat; sf_frames : list (list (list X)); sf_at : list (option nat) }.

(* MODELS substream_frames.h:172-184 AppendEmptyFrame *)
Definition append_empty (s : sframes) : sframes := mkSf (sf_nch s) (sf_n s) (sf_frames s ++ [repeat [] (sf_nch s)]) (sf_at s).
(* MODELS substream_frames.h:161-168 EnsureNonEmpty *)
Definition ensure (s : sframes) : sframes :=
  match sf_frames s with
  | [] => mkSf (sf_nch s) (sf_n s) (sf_frames (append_empty s)) (map (fun _ => Some O) (sf_at s))
  | _ => s
  end.
(* MODELS substream_frames.h:52-57: the constructor *)
Definition sf_new (nch n : nat) : sframes := ensure (mkSf nch n [] (repeat None nch)).
(* MODELS substream_frames.h:64-78 Empty *)
Definition sf_empty (s : sframes) : bool := forallb (forallb (fun c => match c with [] => true | _ => false end)) (sf_frames s).
(* MODELS substream_frames.h:84-87 Front, and the list after it *)
Definition sf_front (s : sframes) : list (list X) := hd [] (sf_frames (ensure s)).
(* MODELS substream_frames.h:147-158 GetChannelInNonFullFrame: the list after it; the channel is at the position of its
   iterator.  An iterator which is not in the list: UB *)
Definition sf_seek (c : nat) (s0 : sframes) : res sframes :=
  let s := ensure s0 in
  match nth_error (sf_at s) c with
  | Some (Some p) =>
      match nth_error (sf_frames s) p with
      | Some fr =>
          match nth_error fr c with
          | Some ch =>
              if Nat.eqb (length ch) (sf_n s) then
                let s' := if Nat.eqb p (length (sf_frames s) - 1) then append_empty s else s in
                Ok (mkSf (sf_nch s') (sf_n s') (sf_frames s') (upd_at c (fun _ => Some (S p)) (sf_at s')))
              else Ok s
          | None => UB
          end
      | None => UB
      end
  | _ => UB
  end.
(* the channel found, and its replacement *)
Definition sf_channel (c : nat) (s : sframes) : res (list X) :=
  match nth_error (sf_at s) c with
  | Some (Some p) =>
      match nth_error (sf_frames s) p with
      | Some fr => match nth_error fr c with Some ch => Ok ch | None => UB end
      | None => UB
      end
  | _ => UB
  end.
Definition sf_extend (c : nat) (y : list X) (s : sframes) : sframes :=
  match nth_error (sf_at s) c with
  | Some (Some p) => mkSf (sf_nch s) (sf_n s) (upd_at p (upd_at c (fun ch => ch ++ y)) (sf_frames s)) (sf_at s)
  | _ => s
  end.
(* MODELS substream_frames.h:94-98 PushSample *)
Definition sf_push (c : nat) (x : X) (s : sframes) : res sframes :=
  if Nat.ltb c (sf_nch s) then rbind (sf_seek c s) (fun s' => Ok (sf_extend c [x] s')) else Abort.
(* MODELS downmixer_manager.cc:109-118: the loop over the samples of a channel *)
Fixpoint push_all (c : nat) (xs : list X) (s : sframes) : res sframes :=
  match xs with [] => Ok s | x :: t => rbind (sf_push c x s) (push_all c t) end.
(* MODELS substream_frames.h:108-118: one round over the channels [c, c + k); [m]: num_samples_to_pad_in_frame *)
Fixpoint sf_pad_row (k c : nat) (want m : nat) (s : sframes) : res (nat * sframes) :=
  match k with
  | O => Ok (m, s)
  | S k' =>
      rbind (sf_seek c s) (fun s' =>
      rbind (sf_channel c s') (fun ch =>
      let m' := Nat.min (sf_n s' - length ch) want in
      if Nat.eqb m' 0 then Abort else sf_pad_row k' (S c) want m' (sf_extend c (repeat zero m') s')))
  end.
(* MODELS substream_frames.h:104-121 PadZeros; every round pads at least one sample (or there is no channel: it never ends) *)
Fixpoint sf_pad_loop (fuel want : nat) (s : sframes) : res sframes :=
  match want with
  | O => Ok s
  | _ =>
      match fuel with
      | O => Diverge
      | S f => rbind (sf_pad_row (sf_nch s) 0 want 0 s) (fun r => sf_pad_loop f (want - fst r) (snd r))
      end
  end.
Definition sf_pad (k : Z) (s : sframes) : res sframes := if k <? 0 then Abort else sf_pad_loop (Z.to_nat k) (Z.to_nat k) s.
(* MODELS substream_frames.h:127-133 PopFront *)
Definition sf_pop (s : sframes) : sframes :=
  match sf_frames s with
  | [] => s
  | _ :: t => mkSf (sf_nch s) (sf_n s) t (map (fun p => match p with Some (S q) => Some q | _ => None end) (sf_at s))
  end.
End Frames.
Arguments sframes : clear implicits.
