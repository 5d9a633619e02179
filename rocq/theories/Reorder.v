(* iamf/api/conversion/channel_reorderer.cc: the channel order of the rendered output. *)
From Verif Require Import Base MixPresentation.

(* samples[i] where samples is a std::vector: reading beyond the end is undefined. *)
Definition at_index {A} (l : list A) (i : nat) : res A :=
  match nth_error l i with Some x => Ok x | None => UB end.

(* samples[i] = v. *)
Fixpoint put_index {A} (l : list A) (i : nat) (v : A) : res (list A) :=
  match l, i with
  | [], _ => UB
  | _ :: t, O => Ok (v :: t)
  | h :: t, S k => rbind (put_index t k v) (fun t' => Ok (h :: t'))
  end.

(* A sequence of "samples[i] = originals[j];" *)
Fixpoint assign {A} (pairs : list (nat * nat)) (originals samples : list A) : res (list A) :=
  match pairs with
  | [] => Ok samples
  | (i, j) :: more =>
      rbind (at_index originals j) (fun v => rbind (put_index samples i v) (assign more originals))
  end.

(* std::swap(samples[i], samples[j]) *)
Definition swap_index {A} (l : list A) (i j : nat) : res (list A) :=
  rbind (at_index l i) (fun a => rbind (at_index l j) (fun b =>
  rbind (put_index l i b) (fun l' => put_index l' j a))).

(* channel_reorderer.cc:34-36 *)
Definition no_op {A} (l : list A) : res (list A) := Ok l.

(* channel_reorderer.cc:38-49 *)
Definition swap_back_and_sides {A} (l : list A) : res (list A) :=
  if zlen l <? 8 then Err InvalidArgument
  else rbind (swap_index l 4 6) (fun l' => swap_index l' 5 7).

(* channel_reorderer.cc:51-77 *)
Definition reorder_f {A} (l : list A) : res (list A) :=
  if zlen l <? 11 then Err InvalidArgument
  else assign [(0,1); (1,2); (2,0); (3,10); (4,7); (5,8); (6,5); (7,6); (8,9); (9,3); (10,4)]%nat l l.

(* channel_reorderer.cc:79-109 *)
Definition reorder_g {A} (l : list A) : res (list A) :=
  if zlen l <? 14 then Err InvalidArgument
  else assign [(4,6); (5,7); (6,12); (7,13); (8,4); (9,5); (10,8); (11,9); (12,10); (13,11)]%nat l l.

(* channel_reorderer.cc:111-151 *)
Definition reorder_h {A} (l : list A) : res (list A) :=
  if zlen l <? 24 then Err InvalidArgument
  else assign [(9,10); (10,11); (11,15); (13,14); (14,13); (15,16); (16,20); (20,22); (22,23); (23,9)]%nat l l.

(* ChannelReorderer::RearrangementScheme, channel_reorderer.h:29-32. *)
Inductive scheme := DefaultNoOp | ForAndroid.

(* channel_reorderer.cc:153-187 (MakeFunction) and 196-208 (Create, Reorder). [ss] is the value of the sound system
   enumeration (obu/mix_presentation.h): 0 = A ... 9 = J, 10, 11, 12, 13, 14.  On an error the vector is unchanged,
   because every function tests the size first. *)
Definition reorder {A} (sch : scheme) (ss : Z) (l : list A) : res (list A) :=
  match sch with
  | DefaultNoOp => no_op l
  | ForAndroid =>
      if (ss =? 8) || (ss =? 9) || (ss =? 10) then swap_back_and_sides l
      else if ss =? 5 then reorder_f l
      else if ss =? 6 then reorder_g l
      else if ss =? 7 then reorder_h l
      else no_op l
  end.
