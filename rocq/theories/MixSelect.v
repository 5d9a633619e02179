(* Model of cli/obu_processor_utils.cc: FindMixPresentationAndLayout and CreateSimplifiedMixPresentationForRendering.
   The list of mix presentations is owned by the caller; a pointer into it is an index. *)
From Verif Require Import Base WriteBuf CodecConfig Params AudioElement MixPresentation Timing ParamManager AeData Profile.

(* MODELS mix_presentation.h:228-256 Layout: layout_type and specific_layout, with operator== (all fields, also the reserved ones) *)
Definition lay := (Z * speclay)%type.
Definition spec_eqb (a b : speclay) : bool :=
  match a, b with
  | LSs s r, LSs s' r' => (s =? s') && (r =? r')
  | LRb r, LRb r' => r =? r'
  | _, _ => false
  end.
Definition lay_eqb (a b : lay) : bool := (fst a =? fst b) && spec_eqb (snd a) (snd b).
Definition loudness_layout (l : layout) : lay := (lo_type l, lo_spec l).
(* MODELS obu_processor_utils.cc:38-46 *)
Definition stereo_layout (l : lay) : bool := match snd l with LSs s _ => s =? 0 | LRb _ => false end.
Definition binaural_layout (l : lay) : bool := fst l =? 3.
(* MODELS obu_processor_utils.cc:26-36 FindMixPresentationWithCondition: the condition may crash *)
Fixpoint find_mix (ms : list mixp) (cond : mixp -> res bool) (l : list nat) : res (option nat) :=
  match l with
  | [] => Ok None
  | i :: t => match nth_error ms i with
              | None => UB
              | Some m => rbind (cond m) (fun b => if b then Ok (Some i) else find_mix ms cond t)
              end
  end.
(* MODELS obu_processor_utils.cc:50-75 HasOneAudioElementWithLayout; back() of an empty vector is undefined *)
Definition one_element_with_layout (aes : aemap) (l : list subelem) (loudspeaker : Z) : res bool :=
  match l with
  | [e] =>
      match m_find (sa_id e) aes with
      | None => Ok false
      | Some a => match ae_conf (ad_obu a) with
                  | ACScal _ ls => match rev ls with [] => UB | ly :: _ => Ok (ly_layout ly =? loudspeaker) end
                  | _ => Ok false
                  end
      end
  | _ => Ok false
  end.
(* MODELS obu_processor_utils.cc:77-87 *)
Definition contains_layout (d : lay) (m : mixp) : bool :=
  existsb (fun s => existsb (fun l => lay_eqb (loudness_layout l) d) (sm_layouts s)) (mp_subs m).
(* MODELS obu_processor_utils.cc:89-108 *)
Definition one_stereo (aes : aemap) (m : mixp) : res bool :=
  match mp_subs m with
  | [] => Ok false
  | s :: _ => match sm_layouts s with
              | [l] => if stereo_layout (loudness_layout l) then one_element_with_layout aes (sm_elems s) 1 else Ok false
              | _ => Ok false
              end
  end.
(* sub_mixes_.front().audio_elements.front().rendering_config.headphones_rendering_mode == stereo *)
Definition first_mode_stereo (m : mixp) : res bool :=
  match mp_subs m with
  | s :: _ => match sm_elems s with e :: _ => Ok (rc_mode (sa_conf e) =? 0) | [] => UB end
  | [] => UB
  end.
(* MODELS obu_processor_utils.cc:110-140 *)
Definition preferred_stereo (aes : aemap) (ms : list mixp) (l : list nat) : res (option nat) :=
  rbind (find_mix ms (fun m => rbind (one_stereo aes m) (fun b => if b then first_mode_stereo m else Ok false)) l) (fun o =>
  match o with Some i => Ok (Some i) | None => find_mix ms (one_stereo aes) l end).
(* MODELS obu_processor_utils.cc:142-176 *)
Definition preferred_binaural (aes : aemap) (ms : list mixp) (l : list nat) : res (option nat) :=
  rbind (find_mix ms (fun m => match mp_subs m with [] => Ok false | s :: _ => one_element_with_layout aes (sm_elems s) 9 end) l) (fun o =>
  match o with
  | Some i => Ok (Some i)
  | None => find_mix ms (fun m => Ok (existsb (fun s => existsb (fun l => binaural_layout (loudness_layout l)) (sm_layouts s)) (mp_subs m))) l
  end).
(* MODELS obu_processor_utils.cc:186-228: steps 1 to 3 *)
Definition choose_mix (aes : aemap) (ms : list mixp) (l : list nat) (layout : option lay) (id : option Z) : res nat :=
  rbind (match id with Some i => find_mix ms (fun m => Ok (mp_id m =? i)) l | None => Ok None end) (fun o =>
  rbind (match o, layout with
         | None, Some d =>
             if binaural_layout d then preferred_binaural aes ms l
             else if stereo_layout d then preferred_stereo aes ms l
             else find_mix ms (fun m => Ok (contains_layout d m)) l
         | _, _ => Ok o
         end) (fun o =>
  match o with Some i => Ok i | None => match l with i :: _ => Ok i | [] => Err InvalidArgument end end)).
(* MODELS obu_processor_utils.cc:252-268: position of the first layout which equals the desired one *)
Fixpoint find_layout (d : lay) (l : list layout) (j : nat) : option nat :=
  match l with [] => None | x :: t => if lay_eqb d (loudness_layout x) then Some j else find_layout d t (S j) end.
Fixpoint find_position (d : lay) (l : list submix) (i : nat) : option (nat * nat) :=
  match l with
  | [] => None
  | s :: t => match find_layout d (sm_layouts s) 0 with Some j => Some (i, j) | None => find_position d t (S i) end
  end.
(* MODELS obu_processor_utils.h SelectedMixPresentation *)
Record selected := mkSel { sel_mix : nat; sel_layout : lay; sel_sub : nat; sel_index : nat }.
(* MixPresentationLayout{.loudness_layout = d}: the loudness fields are 0 (info_type is not initialised in the struct, but value
   initialisation of the designated-initialiser aggregate zeroes it) *)
Definition new_layout (d : lay) : layout := mkLO (fst d) (snd d) 0 0 0 0 [] [].
Definition add_layout (d : lay) (m : mixp) : mixp :=
  match mp_subs m with
  | [] => m
  | s :: t => mkMP (mp_id m) (mp_count m) (mp_lang m) (mp_ann m)
                   (mkSM (sm_elems s) (sm_gain s) (sm_layouts s ++ [new_layout d]) :: t) (mp_tags m) (mp_opt m)
  end.
Fixpoint set_nth {A} (l : list A) (i : nat) (x : A) : list A :=
  match l, i with [], _ => [] | _ :: t, O => x :: t | y :: t, S j => y :: set_nth t j x end.
(* MODELS obu_processor_utils.cc:178-280 FindMixPresentationAndLayout: the selection and the mix presentations afterwards *)
Definition find_mix_and_layout (aes : aemap) (ms : list mixp) (l : list nat) (layout : option lay) (id : option Z)
  : res (selected * list mixp) :=
  match l with
  | [] => Err InvalidArgument
  | _ =>
      rbind (choose_mix aes ms l layout id) (fun i =>
      match nth_error ms i with
      | None => UB
      | Some m =>
          match mp_subs m with
          | [] => Err InvalidArgument
          | s :: _ =>
              match layout with
              | None => match sm_layouts s with
                        | [] => Err InvalidArgument
                        | x :: _ => Ok (mkSel i (loudness_layout x) 0 0, ms)
                        end
              | Some d =>
                  match find_position d (mp_subs m) 0 with
                  | Some (a, b) => Ok (mkSel i d a b, ms)
                  | None => Ok (mkSel i d 0 (length (sm_layouts s)), set_nth ms i (add_layout d m))
                  end
              end
          end
      end)
  end.
(* MODELS obu_processor_utils.cc:282-306 CreateSimplifiedMixPresentationForRendering *)
Definition simplify (m : mixp) (a b : Z) : res mixp :=
  if (a <? 0) || (a >=? zlen (mp_subs m)) then Err OutOfRange
  else match nth_error (mp_subs m) (Z.to_nat a) with
       | None => UB
       | Some s =>
           if (b <? 0) || (b >=? zlen (sm_layouts s)) then Err OutOfRange
           else match nth_error (sm_layouts s) (Z.to_nat b) with
                | None => UB
                | Some x => Ok (mkMP (mp_id m) (mp_count m) (mp_lang m) (mp_ann m) [mkSM (sm_elems s) (sm_gain s) [x]] (mp_tags m) (mp_opt m))
                end
       end.
