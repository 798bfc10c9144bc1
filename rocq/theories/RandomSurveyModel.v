(** Random survey tables: [create_random_opsim] and [opsim_add_random_data] (src/lightcurvelynx/obstable/opsim.py 189-251),
    [create_random_ztf_obs_data] (src/lightcurvelynx/obstable/ztf_obstable.py 187-229).
    A numpy generator is an abstract state [G] with the two methods used here (as in RadecModel); numbers are exact reals. *)
From Coq Require Import Reals String List Bool Arith ZArith.
From Verif Require Import Base RealBase ObsTableModel NoiseModel FakeModel SurveyModel GraphStateModel NodeGraphModel SamplerModel RadecModel.
Import ListNotations.
Open Scope string_scope.
Open Scope list_scope.
Open Scope nat_scope.

Section RandomSurvey.
Context {G : Type}.
(** [default_rng(seed)] and [default_rng()] (the state it starts from is the system's). *)
Variable seeded : Z -> G.
Variable entropy : G.
Variable unit_draws : nat -> G -> list R * G.
Variable int_draws : nat -> nat -> G -> list nat * G.
Definition start_rng (seed : option Z) : G := match seed with Some z => seeded z | None => entropy end.
Definition nums (l : list R) : list cell := map CNum l.
(** [rng.choice(names, size=n)]: the names at random indices. *)
Definition rng_choice (names : list string) (n : nat) (g : G) : list cell * G :=
  let (ix, g') := int_draws (length names) n g in (map (fun i => CStr (nth i names "")) ix, g').
(** opsim.py 212-213, ztf_obstable.py 211-212: (RA, dec) on the sphere. *)
Definition sphere_draws (n : nat) (g : G) : list R * list R * G :=
  let (ra, g1) := rng_uniform unit_draws 0 (2 * PI) n g in
  let (us, g2) := rng_uniform unit_draws 0 1 n g1 in
  (map degrees ra, map (fun u => degrees (acos (2 * u - 1) - PI / 2)%R) us, g2).
(** opsim.py 205-231 *)
Definition create_random_opsim (num_obs : Z) (seed : option Z) : result obstable :=
  if (num_obs <=? 0)%Z then Err ValueError
  else
    let n := Z.to_nat num_obs in
    let '(ra, dec, g) := sphere_draws n (start_rng seed) in
    let (airmass, g) := rng_uniform unit_draws (13 / 10) (17 / 10) n g in
    let (filter, _) := rng_choice ["u"; "g"; "r"; "i"; "z"; "y"] n g in
    bind (frame_of_dict
      [("observationStartMJD", nums (map (fun k => (5 / 100 * INR k)%R) (seq 0 n)));
       ("fieldRA", nums ra); ("fieldDec", nums dec); ("airmass", nums airmass); ("filter", filter);
       ("visitExposureTime", nums (repeat 29%R n))]) (fun f =>
    opsim_make f None [] [] None).
(** opsim.py 249-251: numbers of the global generator; [add_column] refuses an existing name. *)
Definition opsim_add_random_data (o : obstable) (colname : string) (lo hi : R) (g : G) : result obstable * G :=
  let (vals, g') := rng_uniform unit_draws lo hi (nrows (ob_frame o)) g in
  (add_column o colname (ColList (nums vals)) false, g').
(** ztf_obstable.py 203-229 *)
Definition create_random_ztf_obs_data (num_obs : Z) (seed : option Z) : result frame :=
  if (num_obs <=? 0)%Z then Err ValueError
  else
    let n := Z.to_nat num_obs in
    let '(ra, dec, g) := sphere_draws n (start_rng seed) in
    let (maglim, g) := rng_uniform unit_draws 19 21 n g in
    let (sky, g) := rng_uniform unit_draws 100 200 n g in
    let (fwhm, g) := rng_uniform unit_draws 1 3 n g in
    let (filter, _) := rng_choice ["g"; "r"; "i"] n g in
    frame_of_dict
      [("obsdate", repeat (CStr "2018-03-25 06:04:40.000") n); ("ra", nums ra); ("dec", nums dec); ("maglim", nums maglim); ("scibckgnd", nums sky);
       ("fwhm", nums fwhm); ("filter", filter); ("exptime", nums (repeat 30%R n))].
End RandomSurvey.
