(** Model of src/lightcurvelynx/astro_utils/snia_utils.py, with the parts of astropy's FlatLambdaCDM (no radiation: Tcmb0 is 0) and
    coordinates it calls.  Floats are reals; distances in Mpc; a value that is not a finite number is [None]. *)
From Coq Require Import Reals String List Bool Arith ZArith.
From Coquelicot Require Import Coquelicot.
From Verif Require Import Base RealBase PassbandModel NoiseModel SurveyModel FootprintModel ScipyModel.
Import ListNotations.
Open Scope R_scope.

(** ** astropy.cosmology.FlatLambdaCDM *)
Definition light_km_s : R := 299792458 / 1000.
Definition hubble_distance (h0 : R) : R := light_km_s / h0.
(** [efunc]: E(z) = sqrt(Om0 (1 + z)^3 + 1 - Om0). *)
Definition efunc (om z : R) : R := sqrt (om * (1 + z) ^ 3 + (1 - om)).
(** [comoving_distance] (the transverse one in a flat universe): the integral of 1/E. *)
Definition comoving (h0 om z : R) : R := hubble_distance h0 * RInt (fun t => / efunc om t) 0 z.
Definition luminosity_distance (h0 om z : R) : R := (1 + z) * comoving h0 om z.
Definition angular_diameter_distance (h0 om z : R) : R := comoving h0 om z / (1 + z).
(** [distmod]: 5 log10 |D_L / Mpc| + 25. *)
Definition distmod (h0 om z : R) : option R :=
  let d := Rabs (luminosity_distance h0 om z) in if Reqb d 0 then None else Some (5 * log10 d + 25).
(** [differential_comoving_volume], per steradian. *)
Definition diff_volume (h0 om z : R) : R := hubble_distance h0 * (comoving h0 om z * comoving h0 om z) / efunc om z.
(** ** Lines 12-34 [snia_volumetric_rates] *)
Definition volumetric_rate (z : R) : R := 227 / 10000000 * Rpower (1 + z) (17 / 10).
(** ** Lines 37-90 [num_snia_per_redshift_bin] *)
Definition mean (l : list R) : R := Rsum l / INR (length l).
Fixpoint pairs {A} (l : list A) : list (A * A) :=
  match l with a :: ((b :: _) as l') => (a, b) :: pairs l' | _ => [] end.
Definition snia_numbers (zmin zmax : R) (bins : nat) (solid_angle : option R) (h0 om : R) : list R * list R :=
  let area := match solid_angle with None => 4 * PI | Some a => a end in
  let grids := map (fun p => linspace (fst p) (snd p) 50) (pairs (linspace zmin zmax (S bins))) in
  let dn z := volumetric_rate z * (area * diff_volume h0 om z * (h0 / 70) ^ 3) in
  (map (fun g => trapz (map (fun z => (z, dn z)) g)) grids, map mean grids).

(** ** Lines 93-146 [HostmassX1Distr] *)
Definition normal_pdf (x : R) : R := exp (- (x * x) / 2) / sqrt (2 * PI).
Definition x1_p (hostmass x1 : R) : R :=
  let p := exp (- (Rmin 0 x1 * Rmin 0 x1)) in
  let p := if (Rltb (-5) x1 && Rltb x1 5)%bool then p else 0 in
  if Rltb hostmass 10 then p else 1.
Definition x1_pdf (hostmass x1 : R) : R := x1_p hostmass x1 * normal_pdf x1.
(** ** Lines 149-176 [_x0_from_distmod] *)
Definition x0_from_distmod (mu x1 c alpha beta m_abs : R) : R :=
  Rpower 10 (- (4 / 10) * (mu - alpha * x1 + beta * c + m_abs - 10635 / 1000)).

(** ** Lines 179-241 [HostmassX1Func]: the two inverses and the own generator *)
Record x1_node := mkX1 { x1_ge : R -> R; x1_lt : R -> R; x1_rng : gen }.
(** Lines 190-207 [__init__]. *)
Definition x1_make (pinv : (R -> R) -> result (R -> R)) (stream : nat -> R) : result x1_node :=
  bind (pinv (x1_pdf 11)) (fun ge => bind (pinv (x1_pdf 9)) (fun lt => Ok (mkX1 ge lt (fresh stream)))).
(** [results[mask] = values] *)
Fixpoint put (mask : list bool) (vals old : list R) : list R :=
  match mask, old with
  | true :: mask', _ :: old' => match vals with v :: vals' => v :: put mask' vals' old' | [] => old end
  | false :: mask', o :: old' => o :: put mask' vals old'
  | _, _ => old
  end.
Definition count (mask : list bool) : nat := length (filter (fun b => b) mask).
(** Lines 209-241 [compute] on one generator; [mass]: the host mass of every sample. *)
Definition x1_run (nd : x1_node) (mass : list R) (g : gen) : outcome * gen :=
  match mass with
  | [m] => let (xs, g') := rvs (if Rleb 10 m then x1_ge nd else x1_lt nd) 1 g in (Num (hd 0 xs), g')
  | _ =>
      let ge := map (Rleb 10) mass in
      let lt := map (fun m => Rltb m 10) mass in
      let (a, g1) := rvs (x1_ge nd) (count ge) g in
      let r := put ge a (repeat 0 (length mass)) in
      let (b, g2) := rvs (x1_lt nd) (count lt) g1 in
      (Arr (put lt b r), g2)
  end.
Definition x1_compute (nd : x1_node) (mass : list R) (given : option gen) : outcome * x1_node * option gen :=
  match given with
  | Some g => let (r, g') := x1_run nd mass g in (r, nd, Some g')
  | None => let (r, g') := x1_run nd mass (x1_rng nd) in (r, mkX1 (x1_ge nd) (x1_lt nd) g', None)
  end.

(** ** Lines 283-322 [DistModFromRedshift] *)
Definition distmod_make (h0 om : pynum) : result (R -> option R) :=
  match h0, om with PFloat h, PFloat o => Ok (distmod h o) | _, _ => Err ValueError end.

(** ** Lines 325-420 [SNCoordGivenPhysicalSep] *)
(** Lines 361-381: the angle in radians of [sep] kpc ([None]: division by zero). *)
Definition angular_sep (h0 om sep z : R) : option R :=
  let d := angular_diameter_distance h0 om z in if Reqb d 0 then None else Some (sep / 1000 / d).
(** [astropy.coordinates.angles.formats/offset_by]: from longitude and latitude [lon], [lat] in direction [pa] by [dist], all in radians;
    the result in degrees. *)
Definition wrap360 (d : R) : R := d - 360 * IZR (Int_part (d / 360)).
Definition offset_by (lon lat pa dist : R) : R * R :=
  let cos_a := cos dist in
  let sin_a := sin dist in
  let cos_c := sin lat in
  let sin_c := cos lat in
  let cos_B := cos pa in
  let sin_B := sin pa in
  let cos_b := cos_c * cos_a + sin_c * sin_a * cos_B in
  let xsin_A := sin_a * sin_B * sin_c in
  let xcos_A := cos_a - cos_b * cos_c in
  let A := if Rltb sin_c (/ 10 ^ 12) then PI / 2 + cos_c * (PI / 2 - pa) else atan2 xsin_A xcos_A in
  (wrap360 (deg (lon + A)), deg (asin cos_b)).
(** Lines 383-420 [_sn_coord], one object; [u]: the number of the generator. *)
Definition sn_position (h0 om ra dec sep z u : R) : option (R * R) :=
  option_map (fun d => offset_by (rad ra) (rad dec) (2 * PI * u) d) (angular_sep h0 om sep z).
(** One object's arguments. *)
Record host := mkHost { ho_ra : R; ho_dec : R; ho_sep : R; ho_z : R }.
(** [compute] for a list of objects (one per sample): FunctionNode.compute (base_models.py 932-966) does not hand its generator to the
    function, which takes the numbers of numpy's global generator [glob].  The results are arrays, also for one sample
    ([center.size] numbers are drawn).  SkyCoord refuses declinations outside of -90..90.  The own and the given generator are left as they are. *)
Definition sn_compute (h0 om : R) (hosts : list host) (given : option gen) (glob : gen) : result (list (option (R * R))) * gen :=
  if existsb (fun h => (Rltb (ho_dec h) (-90) || Rltb 90 (ho_dec h))%bool) hosts then (Err ValueError, glob)
  else
    let (us, glob') := take glob (length hosts) in
    (Ok (map (fun hu => let h := fst hu in sn_position h0 om (ho_ra h) (ho_dec h) (ho_sep h) (ho_z h) (snd hu)) (combine hosts us)), glob').
Definition sn_make (h0 om : pynum) : result (list host -> option gen -> gen -> result (list (option (R * R))) * gen) :=
  match h0, om with PFloat h, PFloat o => Ok (sn_compute h o) | _, _ => Err ValueError end.
