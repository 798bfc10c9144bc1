(** Magnitudes, flux units, zero points and the noise model (astro_utils/mag_flux.py, unit_utils.py, zeropoint.py,
    noise_model.py and the bandflux_error_point_source methods of the survey tables).  Everything is over exact reals;
    a non-finite numpy result (log of a non-positive number, square root of a negative number, division by zero) is [None]. *)
From Coq Require Import Reals String List Bool Arith ZArith Lia Lra.
From Verif Require Import Base RealBase.
Import ListNotations.
Open Scope R_scope.

(** mag_flux.py line 7 [MAG_AB_ZP_NJY = 8.9 + 2.5 * 9] *)
Definition mag_zp : R := 89 / 10 + 25 / 10 * 9.
(** mag_flux.py lines 10-23 [mag2flux]: [10 ** (-0.4 * (mag - zp))] *)
Definition mag2flux (mag : R) : R := Rpower 10 (- (4 / 10) * (mag - mag_zp)).
(** [np.log10] *)
Definition log10 (x : R) : R := ln x / ln 10.
(** mag_flux.py lines 26-39 [flux2mag]; [None] for a flux that is not positive (numpy: inf or nan). *)
Definition flux2mag (flux : R) : option R :=
  if Rleb flux 0 then None else Some (mag_zp - 25 / 10 * log10 flux).

(** unit_utils.py lines 5-23 [bulk_convert_matrix]; a unit is its size in a common base unit (astropy's
    [to_value] of compatible units is the ratio of the sizes). *)
Definition bulk_convert (m : list (list R)) (in_unit out_unit : R) : list (list R) :=
  map (map (fun x => in_unit / out_unit * x)) m.
(** numpy broadcasting of one row against the wavelength row. *)
Definition bc_row (f : R -> R -> R) (row ws : list R) : result (list R) :=
  if (length row =? length ws)%nat then Ok (map (fun p => f (fst p) (snd p)) (combine row ws))
  else match ws, row with
       | [w], _ => Ok (map (fun x => f x w) row)
       | _, [x] => Ok (map (fun w => f x w) ws)
       | _, _ => Err ValueError
       end.
Definition bc (f : R -> R -> R) (m : list (list R)) (ws : list R) : result (list (list R)) :=
  fold_right (fun row acc => bind (bc_row f row ws) (fun r => bind acc (fun rs => Ok (r :: rs)))) (Ok []) m.
(** [const.c.value], metres per second; [const.c.unit] has size 1. *)
Definition light_speed : R := 299792458.
(** unit_utils.py lines 26-70 [flam_to_fnu], for a matrix of fluxes and one list of wavelengths. *)
Definition flam_to_fnu (m : list (list R)) (ws : list R) (wave_unit flam_unit fnu_unit : R) : result (list (list R)) :=
  bind (bc (fun x w => x * (w * w) / light_speed) m ws) (fun fl =>
    Ok (bulk_convert fl (flam_unit * wave_unit * wave_unit / 1) fnu_unit)).
(** unit_utils.py lines 73-117 [fnu_to_flam] *)
Definition fnu_to_flam (m : list (list R)) (ws : list R) (wave_unit flam_unit fnu_unit : R) : result (list (list R)) :=
  bind (bc (fun x w => x * light_speed / (w * w)) m ws) (fun fl =>
    Ok (bulk_convert fl (fnu_unit * 1 / (wave_unit * wave_unit)) flam_unit)).

(** zeropoint.py lines 8-41: the built-in tables. *)
Definition lsst_ext : dict R :=
  [("u", -458 / 1000); ("g", -208 / 1000); ("r", -122 / 1000); ("i", -74 / 1000); ("z", -57 / 1000); ("y", -95 / 1000)]%string.
Definition lsst_zp : dict R :=
  [("u", 26524 / 1000); ("g", 28508 / 1000); ("r", 28361 / 1000); ("i", 28171 / 1000); ("z", 27782 / 1000); ("y", 26818 / 1000)]%string.
(** zeropoint.py lines 45-59 [magnitude_electron_zeropoint], one observation.  An unknown band gives Python's [None],
    whose addition raises TypeError; an exposure time that is not positive gives a non-finite value: [None]. *)
Definition magnitude_zeropoint (instr_zp ext_coeff : option (dict R)) (band : string) (airmass exptime : R) : result (option R) :=
  let zps := match instr_zp with None => lsst_zp | Some d => d end in
  let exs := match ext_coeff with None => lsst_ext | Some d => d end in
  match dget band zps, dget band exs with
  | Some z, Some k => Ok (if Rleb exptime 0 then None else Some (z + k * (airmass - 1) + 25 / 10 * log10 exptime))
  | _, _ => Err TypeError
  end.
(** zeropoint.py lines 101-112 [flux_electron_zeropoint] *)
Definition flux_zeropoint (instr_zp ext_coeff : option (dict R)) (band : string) (airmass exptime : R) : result (option R) :=
  bind (magnitude_zeropoint instr_zp ext_coeff band airmass exptime) (fun z => Ok (option_map mag2flux z)).

(** zeropoint.py line 201: [npix = 2.266 * fwhm**2] *)
Definition npix (fwhm : R) : R := 2266 / 1000 * (fwhm * fwhm).
(** zeropoint.py lines 147-211 [calculate_zp_from_maglim]; non-negative noise terms (else [None]). *)
Definition limit_noise (sky fwhm gain readnoise dark exptime nexp : R) : R :=
  sky * npix fwhm * gain + readnoise * readnoise * nexp * npix fwhm + dark * npix fwhm * exptime * nexp.
Definition zp_from_maglim (maglim sky fwhm gain readnoise dark exptime nexp : R) : option R :=
  let n := limit_noise sky fwhm gain readnoise dark exptime nexp in
  if Rltb (25 + 4 * n) 0 then None
  else let flux := 125 / 10 + 25 / 10 * sqrt (25 + 4 * n) in Some (25 / 10 * log10 flux + maglim).

(** noise_model.py: [readout_noise] is a number or a function of the exposure time. *)
Inductive readout := RNum (r : R) | RFun (f : R -> R).
(** noise_model.py lines 7-77 [poisson_bandflux_std], one observation. *)
Definition poisson_std (flux exptime count footprint sky zp : R) (ro : readout) (dark : R) : option R :=
  if Reqb zp 0 then None
  else
    let source := flux / zp in
    let skyv := sky * footprint in
    let rov := match ro with RFun f => f exptime * f exptime | RNum r => r * r * footprint * count end in
    let darkv := dark * exptime * footprint in
    let total := source + skyv + rov + darkv in
    if Rltb total 0 then None else Some (sqrt total * zp).

(** consts.py line 14 [GAUSS_EFF_AREA2FWHM_SQ] *)
Definition gauss_area : R := PI / (2 * ln 2).
(** opsim.py lines 148-186 [bandflux_error_point_source], one observation. *)
Definition opsim_error (flux exptime nexp seeing skybrightness zp pixel_scale read_noise dark : R) : option R :=
  if Reqb zp 0 then None
  else poisson_std flux exptime nexp (gauss_area * ((seeing / pixel_scale) * (seeing / pixel_scale)))
         (mag2flux skybrightness * (pixel_scale * pixel_scale) / zp) zp (RNum read_noise) dark.
(** ztf_obstable.py lines 15-28 and 86-109 [_assign_zero_points], one row: fixed camera constants. *)
Definition ztf_gain : R := 62 / 10.
Definition ztf_read : R := 8.
Definition ztf_dark : R := 0.
Definition ztf_zero_point (maglim sky fwhm exptime : R) : option R :=
  option_map mag2flux (zp_from_maglim maglim sky fwhm ztf_gain ztf_read ztf_dark exptime 1).
(** ztf_obstable.py lines 154-184 [bandflux_error_point_source], one row; gain, read noise and dark current are the
    survey values. *)
Definition ztf_error (flux exptime fwhm sky zp gain read_noise dark : R) : option R :=
  poisson_std flux exptime 1 (gauss_area * (fwhm * fwhm)) (sky * gain) zp (RNum read_noise) dark.
(** roman_obstable.py [readnoise_func] (Eq. 9) and [bandflux_error_point_source] *)
Definition roman_read (t : R) : R := let n := t / (304 / 100) in sqrt (25 + 3072 * ((n - 1) / n / (n + 1))).
Definition roman_error (flux exptime n_eff zodi_level zodi thermal zp dark : R) : option R :=
  poisson_std flux exptime 1 n_eff (exptime * (zodi_level * zodi + thermal)) (zp / exptime) (RFun roman_read) dark.

(** obs_utils.py [phot_eff_function], [spec_eff_function] *)
Definition phot_eff (snr : R) : R := if Rltb 5 snr then 1 else 0.
Definition spec_eff (imag : R) : R := 1 * / (1 + exp (236 / 100 * imag - 519 / 10)).
