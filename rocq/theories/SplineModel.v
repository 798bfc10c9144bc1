(** Model of [src/lightcurvelynx/models/spline_model.py] (SplineModel, 12-191).  The spline itself is
    scipy.interpolate.RectBivariateSpline with smoothing 0: what scipy does with its arguments (checks, clamping) is modelled, the
    polynomial pieces are an argument [fit] (for degree 1 in both directions they are given: [bilinear]). *)
From Coq Require Import Reals String List Bool Arith ZArith Lia Lra.
From Verif Require Import Base BaseFacts RealBase SedModel TemplateModel GridModel.
Import ListNotations.
Open Scope R_scope.

(** [not np.all(np.diff(x) >= 0.0)] and [not np.all(np.diff(x) > 0.0)] negated. *)
Definition sorted_up (l : list R) : bool := forallb (fun d => Rleb 0 d) (diffs l).
Definition strictly_up (l : list R) : bool := forallb (fun d => Rltb 0 d) (diffs l).
(** FITPACK's bispev evaluates outside the box at the nearest point of the box. *)
Definition clamp (lo hi x : R) : R := Rmin (Rmax x lo) hi.
Definition fitter := list R -> list R -> matrix -> nat -> nat -> R -> R -> R.
Record spline := mkSpline { sp_times : list R; sp_waves : list R; sp_fn : R -> R -> R }.
(** Lines 60-81, with the checks of RectBivariateSpline: strictly increasing axes, a value for each pair, more points than the
    degree (FITPACK's own error is a ValueError here), degrees 1 to 5. *)
Definition spline_make (fit : fitter) (times waves : list R) (flux : matrix) (kt kw : nat) : result spline :=
  if negb (strictly_up times) then Err ValueError
  else if negb (strictly_up waves) then Err ValueError
  else if negb (length times =? length flux)%nat then Err ValueError
  else if negb (forallb (fun r => (length r =? length waves)%nat) flux) then Err ValueError
  else if negb ((1 <=? kt)%nat && (kt <=? 5)%nat && (1 <=? kw)%nat && (kw <=? 5)%nat)%bool then Err ValueError
  else if negb ((kt <? length times)%nat && (kw <? length waves)%nat)%bool then Err ValueError
  else Ok (mkSpline times waves (fit times waves flux kt kw)).
(** Lines 83-129 [from_file]: the columns of the file are read with [read_grid_data] (io_utils.py, see GridModel) and validation. *)
Definition spline_from_file (fit : fitter) (cols : list (list R)) (kt kw : nat) : result spline :=
  bind (read_grid true cols) (fun g => let '(times, waves, flux) := g in spline_make fit times waves flux kt kw).
(** [self._spline(x, y, grid=True)]: nothing for empty arguments, unsorted arguments are refused, coordinates outside are clamped. *)
Definition spline_call (s : spline) (x y : list R) : result matrix :=
  match x, y with
  | [], _ => Ok []
  | _, [] => Ok (map (fun _ => []) x)
  | _, _ =>
      if negb (sorted_up x) then Err ValueError
      else if negb (sorted_up y) then Err ValueError
      else Ok (map (fun t => map (fun w => sp_fn s (clamp (hd 0 (sp_times s)) (last (sp_times s) 0) t)
                                                   (clamp (hd 0 (sp_waves s)) (last (sp_waves s) 0) w)) y) x)
  end.
(** Lines 163-191 [compute_sed]: a t0 of None counts as 0. *)
Definition spline_sed (node : string) (s : spline) (ts ws : list R) (st : gst) (kw : params) : result matrix :=
  bind (local_params node st) (fun ps =>
  bind (match dget "t0" ps with
        | None => Err KeyError | Some PNone => Ok 0 | Some (PNum t0) => Ok t0 | Some (PStr _) => Err TypeError end) (fun t0 =>
  match dget "amplitude" ps with
  | None => Err KeyError
  | Some (PNum a) => bind (spline_call s (map (fun t => t - t0) ts) ws) (fun m => Ok (mscale a m))
  | Some _ => bind (spline_call s (map (fun t => t - t0) ts) ws) (fun _ => Err TypeError)
  end)).
(** The model: lines 131-161 give its wavelength bounds. *)
Definition spline_model (node : string) (setters : params) (redshift : bool) (x : option extrap) (s : spline) : sed :=
  mkSed node setters redshift (fun _ => Some (hd 0 (sp_waves s))) (fun _ => Some (last (sp_waves s) 0)) x (spline_sed node s) [] [].

(** Degree 1 in both directions: linear in the wavelength along each row, then linear in the time. *)
Definition line (x y : list R) (q : R) : R := interp (combine x y) (hd 0 y) (last y 0) q.
Definition bilinear : fitter := fun times waves flux _ _ t w => line times (map (fun r => line waves r w) flux) t.
