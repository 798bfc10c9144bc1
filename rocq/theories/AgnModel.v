(** Model of src/lightcurvelynx/models/agn.py (sample_damped_random_walk and AGN), in exact real numbers.
    The random generator is the stream [u] of the numbers it will return (each in [0, 1)).  A number that numpy
    would not return as a finite float is [None].  [x ** y] with a non-integer y is [Rpower x y]: the positive bases
    the theorems assume.  scipy's [integrate.quad(f, a, inf)] for the fixed integrand of lines 290-291 is the function
    [quad] of its lower bound. *)
From Coq Require Import Reals String List Bool.
From Verif Require Import Base RealBase SedModel TemplateModel EclipseModel.
Import ListNotations.
Open Scope R_scope.

(** ** The damped random walk, lines 21-66 *)
(** Line 63, one wavelength. *)
Definition walk_step (sf tau dt draw : R) (d : option R) : option R :=
  match d with
  | None => None
  | Some d =>
      if Reqb tau 0 then None
      else let arg := 1 - exp (- 2 * dt / tau) in
           if Rltb arg 0 then None
           else Some (d * exp (- dt / tau) + sf * sqrt arg * draw)
  end.
(** The elementwise operation on the arrays [sf_inf], [tau_v] and [delta_m]. *)
Fixpoint walk_row (sf tau : list R) (dt draw : R) (d : list (option R)) : list (option R) :=
  match sf, tau, d with
  | s :: sf', t :: tau', x :: d' => walk_step s t dt draw x :: walk_row sf' tau' dt draw d'
  | _, _, _ => []
  end.
(** Lines 54-64: the loop; [curr_t] keeps its value [t0] throughout, as in the code. *)
Fixpoint walk_loop (u : nat -> R) (sf tau : list R) (curr_t : R) (idx : nat) (d : list (option R)) (times : list R)
  : result (list (list (option R))) :=
  match times with
  | [] => Ok []
  | t :: rest =>
      if (Rleb t curr_t && negb (Nat.eqb idx 0))%bool then Err ValueError
      else let d' := walk_row sf tau (t - curr_t) (u (S idx)) d in
           bind (walk_loop u sf tau curr_t (S idx) d' rest) (fun rows => Ok (d' :: rows))
  end.
(** Lines 21-66. *)
Definition drw (u : nat -> R) (times tau sf : list R) (t0 : R) : result (list (list (option R))) :=
  if Nat.eqb (length sf) (length tau)
  then walk_loop u sf tau t0 0 (map (fun s => Some (u 0%nat * s)) sf) times
  else Err ValueError.

(** ** The static methods *)
(** astropy's constants in cgs units: G, sigma_sb, M_sun (GM_sun / G). *)
Definition grav : R := 66743 / 10 ^ 12.
Definition sigma_sb : R := 56703744191844314 / 10 ^ 21.
Definition m_sun_g : R := 13271244 * 10 ^ 19 / grav.
Definition log10 (x : R) : R := ln x / ln 10.
(** Lines 188-202. *)
Definition critical_rate (mass : R) : R := 14 * 10 ^ 17 * mass / m_sun_g.
(** Lines 204-220. *)
Definition bh_rate (rate edd : R) : R := rate * edd.
(** Lines 222-238. *)
Definition bolometric (edd mass : R) : R := edd * (126 * 10 ^ 36) * mass / m_sun_g.
(** Lines 307-327. *)
Definition mag_i (lum : R) : R := 90 - 25 / 10 * log10 lum.
(** Lines 329-352. *)
Definition r_0 (r_in : R) : R := (7 / 6) ^ 2 * r_in.
(** Lines 354-375 and 432-448: wavelengths in cm. *)
Definition sf_at (sf4000 wave : R) : R := sf4000 * Rpower 10 (- (479 / 1000)) * wave / (4000 / 10 ^ 8).
Definition tau_at (tau4000 wave : R) : R := tau4000 * Rpower 10 (17 / 100) * wave / (4000 / 10 ^ 8).
(** Lines 377-403 and 405-430. *)
Definition sf_4000 (mag mass : R) : R :=
  Rpower 10 (- (476 / 1000) + 118 / 1000 * (mag + 23) + 118 / 1000 * log10 (mass / (10 ^ 9 * m_sun_g))).
Definition tau_4000 (mag mass : R) : R :=
  Rpower 10 (2597 / 1000 + 35 / 1000 * (mag + 23) + 141 / 1000 * log10 (mass / (10 ^ 9 * m_sun_g))).
(** Lines 450-479. *)
Definition temp_r_0 (m mdot r_in : R) : R :=
  Rpower 2 (3 / 4) * Rpower (3 / 7) (7 / 4) * Rpower (grav * m * mdot / (PI * sigma_sb * r_in ^ 3)) (1 / 4).
(** Lines 240-305, one frequency. *)
Definition standard_disk (quad : R -> R) (mdot nu rin_to_rg i d m : R) : R :=
  let rin := grav * m / (c_cgs * c_cgs) * rin_to_rg in
  let r0 := r_0 rin in
  let t0 := temp_r_0 m mdot rin in
  let x_in := Rmax (planck_h * nu / (boltzmann * t0) * Rpower (rin / r0) (3 / 4)) (1 / 10 ^ 6) in
  16 * PI / (3 * d ^ 2) * cos i * Rpower (boltzmann * t0 / planck_h) (8 / 3) * planck_h * Rpower nu (1 / 3)
  / (c_cgs * c_cgs) * r0 ^ 2 * quad x_in * cgs_njy.

(** ** The node *)
(** Lines 119-181: the values the derived parameters take for a mass (solar masses) and an Eddington ratio. *)
Record derived := mkDerived {
  de_mass_g : R; de_critical : R; de_rate : R; de_lum : R; de_mag : R; de_sf : R; de_tau : R }.
Definition agn_derived (mass edd : R) : derived :=
  let g := mass * m_sun_g in
  let crit := critical_rate g in
  let lum := bolometric edd g in
  let mag := mag_i lum in
  mkDerived g crit (bh_rate crit edd) lum mag (sf_4000 mag g) (tau_4000 mag g).
(** Lines 104-116: the checks on the names of the keyword arguments. *)
Definition agn_check (kwargs : list string) : result unit :=
  if negb (existsb (String.eqb "redshift") kwargs) then Err ValueError
  else if (negb (existsb (String.eqb "cosmology") kwargs) && negb (existsb (String.eqb "distance") kwargs))%bool
       then Err ValueError else Ok tt.
(** Line 529: [10 ** (-0.4 * delta_m) * fnu_average]. *)
Fixpoint dimmed (d : list (option R)) (f : list R) : list (option R) :=
  match d, f with
  | x :: d', y :: f' =>
      match x with None => None | Some m => Some (Rpower 10 (- (4 / 10) * m) * y) end :: dimmed d' f'
  | _, _ => []
  end.
(** Lines 481-530 [compute_sed] (wavelengths in angstroms). *)
Definition agn_sed (quad : R -> R) (u : nat -> R) (node : string) (times waves : list R) (st : gst)
  : result (list (list (option R))) :=
  bind (local_params node st) (fun ps =>
  bind (need "blackhole_mass_gram" ps) (fun m =>
  bind (need "tau_4000aa" ps) (fun tau =>
  bind (need "sf_inf_4000aa" ps) (fun sf =>
  bind (need "blackhole_accretion_rate" ps) (fun mdot =>
  bind (need "inclination_rad" ps) (fun i =>
  bind (need "distance" ps) (fun dist =>
  bind (need "t0" ps) (fun t0 =>
    let waves_cm := map (fun w => w * angstrom_cm) waves in
    let avg := map (fun w => standard_disk quad mdot (c_cgs / w) 6 i (dist * parsec_cm) m) waves_cm in
    bind (drw u times (map (tau_at tau) waves_cm) (map (sf_at sf) waves_cm) t0) (fun rows =>
    Ok (map (fun d => dimmed d avg) rows)))))))))).
