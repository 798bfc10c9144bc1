(** [src/lightcurvelynx/simulate.py] put together with the concrete flux pipeline, the sampled states and the survey
    tables: the arguments that [SimulateModel.simulate] leaves abstract are filled with the models of
    physical_model.py ([SedModel]), of the sampled GraphState and of the survey classes ([SurveyModel],
    [RomanModel], [FakeModel]). *)
From Coq Require Import Reals String List Bool Arith ZArith Lia Lra.
From Verif Require Import Base RealBase PassbandModel ObsTableModel SedModel SimulateModel NoiseModel FakeModel SurveyModel RomanModel.
Import ListNotations.
Open Scope R_scope.

(** ** The survey tables (obstable/opsim.py, ztf_obstable.py, roman_obstable.py, fake_obs_table.py) *)
Inductive survey := SvOpsim (o : obstable) | SvZtf (o : obstable) | SvRoman (o : obstable) | SvFake (k : fake).
Definition sv_table (s : survey) : obstable := match s with SvOpsim o | SvZtf o | SvRoman o => o | SvFake k => fk_obs k end.
(** [bandflux_error_point_source] of the class of the table. *)
Definition sv_errors (s : survey) (flux : list R) (index : list nat) : result (list (option R)) :=
  match s with
  | SvOpsim o => opsim_errors o flux index
  | SvZtf o => ztf_errors o flux index
  | SvRoman o => roman_errors o flux index
  | SvFake k => fake_error k flux index
  end.
(** Simplification: a run in which some error bar is not finite is left out (taken as an error); numpy would go on with NaN. *)
Fixpoint finite (l : list (option R)) : result (list R) :=
  match l with
  | [] => Ok []
  | None :: _ => Err ValueError
  | Some r :: l' => bind (finite l') (fun t => Ok (r :: t))
  end.

(** ** simulate.py lines 177-207: what the loop asks of the model and of survey [s].  Error bars for another number of
    fluxes than observations are refused by [apply_noise]. *)
Definition sim_model (m : phys) (groups : list pgroup) (tables : list survey) (mask : list R -> gst -> list bool) : @physical gst :=
  mkPhys (is_band m) mask
    (fun s ts fs st =>
       match nth_error groups s with
       | None => Err IndexError
       | Some g => bind (evaluate_bandfluxes m (PGroup g) ts (Some fs) [st])
                        (fun r => match r with BOne b => Ok b | BMany _ => Err ValueError end)
       end)
    (fun s flux index =>
       match nth_error tables s with
       | None => Err IndexError
       | Some t => if negb (length flux =? length index)%nat then Err ValueError else bind (sv_errors t flux index) finite
       end).
(** physical_model.py lines 145-162: the default [mask_by_time] keeps everything. *)
Definition keep_all (ts : list R) (st : gst) : list bool := repeat true (length ts).

(** ** simulate.py lines 108-149: the object-level values of the sampled states *)
(** [np.atleast_1d(model.get_param(sample_states, name))] as numbers; None and text are outside the model. *)
Fixpoint numbers (node name : string) (sts : list gst) : result (list R) :=
  match sts with
  | [] => Ok []
  | st :: sts' => match get_param node st name with
                  | PNum r => bind (numbers node name sts') (fun l => Ok (r :: l))
                  | _ => Err ValueError
                  end
  end.
(** [model.get_param(sample_states, "t0")]: one sample gives the value itself, several an array; text is outside the model
    (as None). *)
Definition t0_of (node : string) (sts : list gst) : t0arg :=
  match sts with
  | [st] => match get_param node st "t0" with PNum r => T0Scalar r | _ => T0None end
  | _ => if existsb (fun st => match dget node st with Some ps => dmem "t0" ps | None => false end) sts
         then T0Arr (map (fun st => match get_param node st "t0" with PNum r => Some r | _ => None end) sts)
         else T0None
  end.
(** A cell of an object column: a parameter value, or the dictionary of all parameters. *)
Inductive oval := VParam (v : pval) | VState (st : gst).
(** [sample_states["node.param"]] *)
Definition state_column (sts : list gst) (col : string) : option (list oval) :=
  match split_dot col with
  | [n; p] => if forallb (fun st => match dget n st with Some ps => dmem p ps | None => false end) sts
              then Some (map (fun st => VParam (get_param n st p)) sts) else None
  | _ => None
  end.
Definition sim_samples (node : string) (sts : list gst) : result (@samples gst oval) :=
  bind (numbers node "ra" sts) (fun ra => bind (numbers node "dec" sts) (fun dec =>
  Ok (mkSamples sts ra dec (t0_of node sts)
        (map (fun st => VParam (get_param node st "redshift")) sts) (map (fun st => VParam (get_param node st "t0")) sts)
        (map VState sts) (state_column sts)))).
(** [simulate_lightcurves] for sampled states [sts] of the model's node. *)
Definition sim_run (ball : list vec3 -> vec3 -> R -> list nat) (m : phys) (node : string) (mask : list R -> gst -> list bool) (draws : nat -> R)
    (num : Z) (sts : list gst) (tables : list survey) (groups : list pgroup) (save params : list string) (use_mask : bool)
    (off : option (list (option R))) : result (@simres oval) :=
  if (num <=? 0)%Z then Err ValueError
  else bind (sim_samples node sts) (fun sm =>
       simulate ball (sim_model m groups tables mask) draws num sm (map sv_table tables) (length groups) save params use_mask off).
