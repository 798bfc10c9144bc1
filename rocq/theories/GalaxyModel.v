(** Model of [src/lightcurvelynx/models/galaxy_models.py]: GaussianGalaxy (8-73).  Floats are reals. *)
From Coq Require Import Reals String List Bool Arith ZArith Lia Lra.
From Verif Require Import Base BaseFacts RealBase SedModel TemplateModel.
Import ListNotations.
Open Scope R_scope.

(** [numpy.arctan2 y x] for [y >= 0] (a hypotenuse). *)
Definition atan2_up (y x : R) : R :=
  if Rltb 0 x then atan (y / x) else if Rltb x 0 then PI + atan (y / x) else if Rltb 0 y then PI / 2 else 0.
(** [astropy.coordinates.angular_separation] (Vincenty's formula), all angles in radians; [np.hypot] is the root of the sum of
    squares. *)
Definition angular_separation (lon1 lat1 lon2 lat2 : R) : R :=
  let sdlon := sin (lon2 - lon1) in
  let cdlon := cos (lon2 - lon1) in
  let num1 := cos lat2 * sdlon in
  let num2 := cos lat1 * sin lat2 - sin lat1 * cos lat2 * cdlon in
  let denominator := sin lat1 * sin lat2 + cos lat1 * cos lat2 * cdlon in
  atan2_up (sqrt (num1 * num1 + num2 * num2)) denominator.
(** A keyword argument: given and not None. *)
Definition given (name : string) (kw : params) : option pval :=
  match dget name kw with None => None | Some PNone => None | Some v => Some v end.
Definition as_num (v : pval) : result R := match v with PNum r => Ok r | _ => Err TypeError end.
(** Lines 36-73 [compute_sed].  A standard deviation of zero gives 0/0 or a division by zero: ZeroDivisionError here (nan or inf for
    numpy numbers). *)
Definition galaxy_distance (ps kw : params) : result R :=
  match given "ra" kw, given "dec" kw with
  | Some ra, Some dec =>
      bind (need "ra" ps) (fun ra0 => bind (need "dec" ps) (fun dec0 =>
      bind (as_num ra) (fun ra => bind (as_num dec) (fun dec =>
        Ok (angular_separation (ra0 * PI / 180) (dec0 * PI / 180) (ra * PI / 180) (dec * PI / 180))))))
  | _, _ => Ok 0
  end.
Definition galaxy_sed (node : string) (ts ws : list R) (st : gst) (kw : params) : result matrix :=
  bind (local_params node st) (fun ps =>
  bind (galaxy_distance ps kw) (fun dist =>
  bind (need "galaxy_radius_std" ps) (fun std =>
  if Reqb std 0 then Err ZeroDivisionError
  else
    let scale := exp (- (dist * dist) / (2 * std * std)) in
    bind (need "brightness" ps) (fun b => Ok (map (fun _ => map (fun _ => b * scale) ws) ts))))).
(** The model: an SED model without wavelength bounds (lines 31-34: [radius] and [brightness] become the parameters
    galaxy_radius_std and brightness). *)
Definition galaxy (node : string) (setters : params) (redshift : bool) (rest obs : list effect) : sed :=
  plain_sed node setters redshift (galaxy_sed node) rest obs.
