(** Model of src/lightcurvelynx/example_runs/simulate_snia.py: [draw_single_random_sn] (lines 133-211) and the sampling loop of
    [run_snia_end2end] (lines 214-325). *)
From Coq Require Import Reals String List Bool Arith ZArith Lia Lra.
From Verif Require Import Base RealBase PassbandModel ObsTableModel SedModel SimulateModel NoiseModel FakeModel SurveyModel Salt2Model EndToEndModel.
Import ListNotations.
Open Scope R_scope.

(** The dictionary returned by [draw_single_random_sn]. *)
Record sn_draw := mkDraw {
  dr_rest : list R;                  (* wavelengths_rest *)
  dr_times : list R;                 (* times *)
  dr_filters : list string;          (* filters *)
  dr_njy : list (list R);            (* flux_nJy and flux_fnu *)
  dr_flam : list (list R);           (* flux_flam *)
  dr_perfect : list R;               (* bandfluxes_perfect *)
  dr_error : list R;                 (* bandfluxes_error *)
  dr_flux : list R;                  (* bandfluxes *)
  dr_state : gst                     (* state *)
}.
(** Lines 170-173 [state["source"][name]] used as a number. *)
Definition source_number (st : gst) (name : string) : result R :=
  match dget "source"%string st with
  | None => Err KeyError
  | Some ps => match dget name ps with None => Err KeyError | Some (PNum r) => Ok r | Some _ => Err TypeError end
  end.
(** Lines 181-185: [opsim["time"][obs_index]] looks the positions up as row labels (pandas; labels are assumed distinct);
    a selection by a mask of another length is an IndexError. *)
Definition labelled (o : obstable) (key : string) (index : list nat) : result (list cell) :=
  bind (ob_getitem o key) (fun c => select_labels (f_labels (ob_frame o)) c index).
Definition alive (t0 z t : R) : bool := (Rltb (- (20) * (1 + z)) (t - t0) && Rltb (t - t0) (50 * (1 + z)))%bool.
(** Lines 133-211 with a state; [draws] are the deviates of the generator that [apply_noise] makes for itself (line 207 passes no
    generator).  A non-finite error bar is left out (EndToEndModel.finite); a filter that is not text is outside the model. *)
Definition draw_sn (ball : list vec3 -> vec3 -> R -> list nat) (m : phys) (o : obstable) (g : pgroup) (st : gst) (draws : nat -> R) : result sn_draw :=
  bind (source_number st "ra") (fun ra => bind (source_number st "dec") (fun dec =>
  bind (source_number st "t0") (fun t0 => bind (source_number st "redshift") (fun z =>
  let waves := pg_waves g in
  bind (range_search ball o (QScalar ra) (QScalar dec) (Some (175 / 100)) TNone TNone) (fun res =>
  match res with
  | Many _ => Err TypeError
  | One index =>
      bind (labelled o "time" index) (fun all_times =>
      let index := mask_list (map (fun c => alive t0 z (num_of c)) all_times) index in
      bind (labelled o "time" index) (fun tcells => let times := map num_of tcells in
      bind (labelled o "filter" index) (fun fcells => let filters := map (fun c => ("LSST_" ++ text_of c)%string) fcells in
      bind (evaluate_sed m times waves [st] []) (fun sed =>
      match sed with
      | SMany _ => Err ValueError
      | SOne njy =>
          bind (fnu_to_flam njy waves u_aa u_flam u_njy) (fun flam =>
          bind (evaluate_bandfluxes m (PGroup g) times (Some filters) [st]) (fun r =>
          match r with
          | BMany _ => Err ValueError
          | BOne perfect =>
              bind (bind (opsim_errors o perfect index) finite) (fun errors =>
              Ok (mkDraw (map (fun w => w / (1 + z)) waves) times filters njy flam perfect errors
                    (noisy draws 0 perfect errors) st))
          end))
      end))))
  end))))).
(** Lines 281-325, without the comparison with sncosmo: one draw for every sampled state.  The states were sampled
    without the given generator (line 279); run [i] makes a new generator for its noise. *)
Fixpoint draw_all (ball : list vec3 -> vec3 -> R -> list nat) (m : phys) (o : obstable) (g : pgroup) (sts : list gst) (draws : nat -> nat -> R) (i : nat) : result (list sn_draw) :=
  match sts with
  | [] => Ok []
  | st :: sts' => bind (draw_sn ball m o g st (draws i)) (fun r => bind (draw_all ball m o g sts' draws (S i)) (fun l => Ok (r :: l)))
  end.
