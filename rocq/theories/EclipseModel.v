(** Model of src/lightcurvelynx/models/periodic_variable_star.py (PeriodicVariableStar, EclipsingBinaryStar) and
    src/lightcurvelynx/astro_utils/black_body.py, in exact real numbers. *)
From Coq Require Import Reals String List Bool.
From Verif Require Import Base RealBase PassbandModel ObsTableModel SedModel TemplateModel.
Import ListNotations.
Open Scope R_scope.

(** ** Geometry *)
(** Lines 202-221 [_norm_star_center_distance]; [np.hypot(x, y)] is sqrt(x^2 + y^2). *)
Definition centre_distance (phase incl : R) : R :=
  let th := 2 * PI * phase in
  let i := incl * (PI / 180) in
  sqrt (cos i * cos th * (cos i * cos th) + sin th * sin th).
(** A numpy quotient; [None]: not a finite number. *)
Definition np_div (a b : R) : option R := if Reqb b 0 then None else Some (a / b).
(** [np.arccos]: NaN ([None]) outside [-1, 1]. *)
Definition arccos (x : option R) : option R :=
  match x with
  | None => None
  | Some v => if (Rleb (-1) v && Rleb v 1)%bool then Some (acos v) else None
  end.
(** Lines 223-278 [_circle_overlap_area]; a comparison with NaN is false. *)
Definition overlap_area (d r1 r2 : R) : R :=
  let alpha1 := arccos (np_div (d * d + r1 * r1 - r2 * r2) (2 * r1 * d)) in
  let alpha2 := arccos (np_div (d * d + r2 * r2 - r1 * r1) (2 * r2 * d)) in
  let area := match alpha1, alpha2 with
              | Some a1, Some a2 => Some (r1 * r1 * a1 + r2 * r2 * a2 - r1 * d * sin a1)
              | _, _ => None
              end in
  let area := match area with Some a => if Rleb 0 a then a else 0 | None => 0 end in
  let area := if Rleb d (Rabs (r1 - r2)) then PI * (Rmin r1 r2 * Rmin r1 r2) else area in
  if Rleb (r1 + r2) d then 0 else area.

(** ** Light *)
(** Planck's law as in astropy's [BlackBody], per frequency, cgs units, for a wavelength in cm
    (astropy constants: h, k_B, c). *)
Definition planck_h : R := 662607015 / 10 ^ 35.
Definition boltzmann : R := 1380649 / 10 ^ 22.
Definition c_cgs : R := 29979245800.
Definition black_body (temp wave : R) : R :=
  let nu := c_cgs / wave in
  2 * planck_h * nu ^ 3 / (c_cgs * c_cgs) / (exp (planck_h * nu / (boltzmann * temp)) - 1).
(** black_body.py 6-39. *)
Definition bb_luminosity (temp radius wave : R) : R := black_body temp wave * PI * (radius * radius).
(** Lines 160-200, one phase and one wavelength (in cm). *)
Definition binary_lum (t1 r1 t2 r2 axis incl : R) (phase wave : R) : R :=
  let l1 := bb_luminosity t1 r1 wave in
  let l2 := bb_luminosity t2 r2 wave in
  let area := overlap_area (axis * centre_distance phase incl) r1 r2 in
  let closer := (Rltb phase (25 / 100) || Rltb (75 / 100) phase)%bool in
  let ratio1 := if closer then area / (PI * (r1 * r1)) else 0 in
  let ratio2 := if negb closer then area / (PI * (r2 * r2)) else 0 in
  let e1 := l1 * (1 - ratio1) in
  let e2 := l2 * (1 - ratio2) in
  (if Rleb 0 e1 then e1 else 0) + (if Rleb 0 e2 then e2 else 0).
(** consts.py: one parsec in cm (648000/pi astronomical units of 14959787070000 cm), 1e-8, 1e32. *)
Definition parsec_cm : R := 648000 / PI * 14959787070000.
Definition angstrom_cm : R := / 10 ^ 8.
Definition cgs_njy : R := 10 ^ 32.
(** Lines 140-200 and 37-59 [_evaluate_phases]. *)
Definition binary_phases (node : string) (ph ws : list R) (st : gst) (_ : params) : result matrix :=
  match get_param node st "distance" with
  | PNum dist =>
      bind (local_params node st) (fun ps =>
      bind (need "primary_temperature" ps) (fun t1 =>
      bind (need "primary_radius" ps) (fun r1 =>
      bind (need "secondary_temperature" ps) (fun t2 =>
      bind (need "secondary_radius" ps) (fun r2 =>
      bind (need "major_semiaxis" ps) (fun axis =>
      bind (need "inclination" ps) (fun incl =>
      Ok (map (fun p => map (fun w => binary_lum t1 r1 t2 r2 axis incl p (w * angstrom_cm) /
                                      (dist * parsec_cm * (dist * parsec_cm)) * cgs_njy) ws) ph))))))))
  | _ => Err TypeError
  end.
(** Lines 32-35 and 131-138: the constructor ([has_valid_param]: not the constant None).  The other parameters may
    be None: evaluation then raises TypeError. *)
Definition binary_make (node : string) (setters : params) (redshift : bool) : result phys :=
  match dget "distance" setters with
  | None | Some PNone => Err ValueError
  | Some _ => Ok (PSed (plain_sed node setters redshift (periodic_sed node (binary_phases node)) [] []))
  end.
