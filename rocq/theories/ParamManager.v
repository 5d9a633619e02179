(* Model of cli/parameters_manager.cc (ParametersManager) and DemixingInfoParameterData::DMixPModeToDownMixingParams
   (obu/demixing_info_parameter_data.cc:28-89).  Hash maps are association lists (see Timing.v).  A pointer to a parameter
   block is the block itself (the caller keeps it alive); nullptr is None. *)
From Verif Require Import Base WriteBuf CodecConfig Params Timing.

(* MODELS demixing_info_parameter_data.h:24-36: alpha, beta, gamma, delta in thousandths, w in ten-thousandths *)
Record dmix := mkDmix { dx_alpha : Z; dx_beta : Z; dx_gamma : Z; dx_delta : Z; dx_offset : Z; dx_widx : Z; dx_w : Z; dx_in : bool }.
Inductive rule := Normal | FirstFrame | Default.
(* MODELS demixing_info_parameter_data.cc:32-41 *)
Definition mode_table : list (Z * (Z * Z * Z * Z * Z)) :=
  [(0, (1000, 1000, 707, 707, -1)); (1, (707, 707, 707, 707, -1)); (2, (1000, 866, 866, 866, -1));
   (4, (1000, 1000, 707, 707, 1)); (5, (707, 707, 707, 707, 1)); (6, (1000, 866, 866, 866, 1))].
(* MODELS demixing_info_parameter_data.cc:43-55 *)
Definition w_table : list (Z * Z) :=
  [(0, 0); (1, 179); (2, 391); (3, 658); (4, 1038); (5, 2500); (6, 3962); (7, 4342); (8, 4609); (9, 4821); (10, 5000)].
(* MODELS demixing_info_parameter_data.cc:28-89 DMixPModeToDownMixingParams *)
Definition mode_to_params (mode prev : Z) (r : rule) : res dmix :=
  match m_find mode mode_table with
  | None => Err InvalidArgument
  | Some (a, b, c, d, off) =>
      let i := match r with Normal => Z.max 0 (Z.min 10 (prev + off)) | FirstFrame => 0 | Default => prev end in
      match m_find i w_table with
      | None => Err InvalidArgument
      | Some w => Ok (mkDmix a b c d off i w true)
      end
  end.

(* MODELS parameter_block_with_data.h: the block (its parameter_id_ and subblocks_) with its timestamps *)
Record pbd := mkPbd { p_id : Z; p_start : Z; p_stop : Z; p_subs : list (option pdata) }.
(* MODELS parameters_manager.h:131-153; the definition is represented by its parameter ID and defaults *)
Record dstate := mkDs { ds_pid : Z; ds_mode : Z; ds_w : Z; ds_prev : Z; ds_cur : Z; ds_next : Z; ds_rule : rule }.
Record rstate := mkRs { rs_pid : Z; rs_next : Z }.
Record pm := mkPm { pm_db : list (Z * option pbd); pm_rb : list (Z * option pbd); pm_ds : list (Z * dstate); pm_rs : list (Z * rstate) }.
(* operator[] = : overwrite or insert *)
Definition m_put {V} (k : Z) (v : V) (m : list (Z * V)) : list (Z * V) :=
  match m_find k m with Some _ => m_set k v m | None => m ++ [(k, v)] end.
(* insert: only if absent *)
Definition m_insert {V} (k : Z) (v : V) (m : list (Z * V)) : list (Z * V) :=
  match m_find k m with Some _ => m | None => m ++ [(k, v)] end.

(* MODELS parameters_manager.cc:111-140: the at most one demixing and recon gain definition of an audio element; an
   ExtendedParamDefinition with one of the two types fails the ABSL_CHECK *)
Fixpoint pick_defs (l : list pdef) (d : option (Z * Z * Z)) (r : option Z) : res (option (Z * Z * Z) * option Z) :=
  match l with
  | [] => Ok (d, r)
  | x :: t =>
      let ty := pd_type (pd_kind x) in
      if ty =? 1 then
        match d with
        | Some _ => Err InvalidArgument
        | None => match pd_kind x with KDemixing m _ w _ => pick_defs t (Some (pb_id (pd_base x), m, w)) r | _ => Abort end
        end
      else if ty =? 2 then
        match r with
        | Some _ => Err InvalidArgument
        | None => match pd_kind x with KRecon _ => pick_defs t d (Some (pb_id (pd_base x))) | _ => Abort end
        end
      else pick_defs t d r
  end.
(* MODELS parameters_manager.cc:95-172 Create; [aes]: audio element ID and its parameter definitions *)
Fixpoint pm_create (aes : list (Z * list pdef)) (m : pm) : res pm :=
  match aes with
  | [] => Ok m
  | (id, defs) :: t =>
      rbind (pick_defs defs None None) (fun x =>
      let m1 := match fst x with
                | Some (pid, mode, w) => mkPm (m_insert pid None (pm_db m)) (pm_rb m) (m_put id (mkDs pid mode w 0 0 0 FirstFrame) (pm_ds m)) (pm_rs m)
                | None => m end in
      let m2 := match snd x with
                | Some pid => mkPm (pm_db m1) (m_insert pid None (pm_rb m1)) (pm_ds m1) (m_put id (mkRs pid 0) (pm_rs m1))
                | None => m1 end in
      pm_create t m2)
  end.
Definition pm_new (aes : list (Z * list pdef)) : res pm := pm_create aes (mkPm [] [] [] []).
(* MODELS parameters_manager.cc:174-177 *)
Definition demixing_available (m : pm) (ae : Z) : bool := match m_find ae (pm_ds m) with Some _ => true | None => false end.
(* MODELS parameters_manager.cc:186-237 GetDownMixingParameters.  blocks.at() of an absent key throws: Abort.
   subblocks_[0] of an empty vector, a null or a differently typed subblock: UB *)
Definition get_down_mixing (m : pm) (ae : Z) : res dmix * pm :=
  match m_find ae (pm_ds m) with
  | None => (Ok (mkDmix 707 707 707 707 0 0 0 false), m)
  | Some s =>
      match m_find (ds_pid s) (pm_db m) with
      | None => (Abort, m)
      | Some None => (mode_to_params (ds_mode s) (ds_w s) Default, m)
      | Some (Some b) =>
          match compare_timestamps (ds_next s) (p_start b) with
          | Ok _ =>
              match p_subs b with
              | Some (DDemix mode _) :: _ =>
                  match mode_to_params mode (ds_prev s) (ds_rule s) with
                  | Ok x => (Ok x, mkPm (pm_db m) (pm_rb m)
                              (m_set ae (mkDs (ds_pid s) (ds_mode s) (ds_w s) (ds_prev s) (dx_widx x) (ds_next s) (ds_rule s)) (pm_ds m)) (pm_rs m))
                  | r => (r, m)
                  end
              | _ => (UB, m)
              end
          | Err c => (Err c, m) | Abort => (Abort, m) | UB => (UB, m) | Diverge => (Diverge, m)
          end
      end
  end.
(* MODELS parameters_manager.cc:239-308 GetReconGainInfoParameterData: the recon_gain_elements (appended to an empty vector).
   A null or differently typed subblock: UB *)
Definition default_gains (num_layers : Z) : list (option (Z * list Z)) := repeat (Some (0, repeat 255 12)) (Z.to_nat num_layers).
Definition get_recon_gains (m : pm) (ae num_layers : Z) : res (list (option (Z * list Z))) :=
  match m_find ae (pm_rs m) with
  | None => Ok (default_gains num_layers)
  | Some s =>
      match m_find (rs_pid s) (pm_rb m) with
      | None => Abort
      | Some None => Ok (default_gains num_layers)
      | Some (Some b) =>
          compare_timestamps (rs_next s) (p_start b) >>>
          match p_subs b with
          | [] => Err InvalidArgument
          | Some (DRecon _ l) :: _ =>
              if (num_layers >? 0) && negb (zlen l =? num_layers) then Err InvalidArgument else Ok l
          | _ => UB
          end
      end
  end.
(* MODELS parameters_manager.cc:310-320 *)
Definition add_demixing (m : pm) (b : pbd) : pm := mkPm (m_put (p_id b) (Some b) (pm_db m)) (pm_rb m) (pm_ds m) (pm_rs m).
Definition add_recon (m : pm) (b : pbd) : pm := mkPm (pm_db m) (m_put (p_id b) (Some b) (pm_rb m)) (pm_ds m) (pm_rs m).
(* MODELS parameters_manager.cc:48-91 UpdateParameterState, once the state is found: status, the new next_timestamp if the
   state is touched, and the blocks afterwards *)
Definition update_parameter (pid expected : Z) (blocks : list (Z * option pbd)) : res bool * option Z * list (Z * option pbd) :=
  match m_find pid blocks with
  | None => (Abort, None, blocks)
  | Some None => (Ok false, None, blocks)
  | Some (Some b) =>
      match compare_timestamps expected (p_stop b) with
      | Ok _ => (Ok true, Some (p_stop b), m_set pid None blocks)
      | _ => (Err InvalidArgument, Some (p_stop b), blocks)
      end
  end.
(* MODELS parameters_manager.cc:322-341 UpdateDemixingState *)
Definition update_demixing (m : pm) (ae expected : Z) : res unit * pm :=
  match m_find ae (pm_ds m) with
  | None => (Ok tt, m)
  | Some s =>
      let '(r, next, blocks) := update_parameter (ds_pid s) expected (pm_db m) in
      let n := match next with Some t => t | None => ds_next s end in
      match r with
      | Ok true => (Ok tt, mkPm blocks (pm_rb m)
                     (m_set ae (mkDs (ds_pid s) (ds_mode s) (ds_w s) (ds_cur s) (ds_cur s) n (match ds_rule s with FirstFrame => Normal | x => x end)) (pm_ds m)) (pm_rs m))
      | Ok false => (Ok tt, m)
      | Err c => (Err c, mkPm blocks (pm_rb m) (m_set ae (mkDs (ds_pid s) (ds_mode s) (ds_w s) (ds_prev s) (ds_cur s) n (ds_rule s)) (pm_ds m)) (pm_rs m))
      | Abort => (Abort, m) | UB => (UB, m) | Diverge => (Diverge, m)
      end
  end.
(* MODELS parameters_manager.cc:343-353 UpdateReconGainState *)
Definition update_recon (m : pm) (ae expected : Z) : res unit * pm :=
  match m_find ae (pm_rs m) with
  | None => (Ok tt, m)
  | Some s =>
      let '(r, next, blocks) := update_parameter (rs_pid s) expected (pm_rb m) in
      let n := match next with Some t => t | None => rs_next s end in
      (rbind r (fun _ => Ok tt), mkPm (pm_db m) blocks (pm_ds m) (m_set ae (mkRs (rs_pid s) n) (pm_rs m)))
  end.
