(** [eddington_ratio_dist_fun] (src/lightcurvelynx/astro_utils/agn_utils.py 11-63), in exact real numbers.
    A numpy generator is an abstract state [G]; [norm_draws n g] are [n] standard normal numbers and the next state, so that
    [rng.normal(loc, scale, n)] is [loc + scale * z].  Without a generator a fresh one (state [entropy]) is used. *)
From Coq Require Import Reals String List Bool Arith ZArith.
From Verif Require Import Base RealBase DownloadModel PassbandFileModel.
Import ListNotations.
Open Scope string_scope.
Open Scope list_scope.
Open Scope nat_scope.

(** numpy's [x ** y]; [None]: inf or nan (a negative base is nan but for integer exponents, which are not modelled). *)
Definition np_power (x y : R) : option R :=
  if Rltb 0 x then Some (Rpower x y)
  else if Rltb x 0 then None
  else if Rltb 0 y then Some 0%R else if Reqb y 0 then Some 1%R else None.
(** Lines 46-57: xi, the mean and spread of log10 of the break, of the first and of the second slope. *)
Record erdf := mkErdf { e_xi : R; e_br : R * R; e_d1 : R * R; e_d2 : R * R }.
Definition erdf_of (galaxy_type : string) : option erdf :=
  if String.eqb (lower galaxy_type) "red" then Some (mkErdf (Rpower 10 (- (213 / 100))) (- (281 / 100), 18 / 100) (41 / 100 - 7 / 10, 2 / 100) (122 / 100, 16 / 100))%R
  else if String.eqb (lower galaxy_type) "blue" then Some (mkErdf (Rpower 10 (- (165 / 100))) (- (184 / 100), 335 / 1000) (471 / 1000 - 7 / 10, 2 / 100) (253 / 100, 53 / 100))%R
  else None.
Inductive samples := One (x : option R) | Many (l : list (option R)).
(** Line 59, one sample. *)
Definition erdf_value (e : erdf) (edd z1 z2 z3 : R) : option R :=
  let lambda_br := Rpower 10 (fst (e_br e) + snd (e_br e) * z1) in
  let delta1 := (fst (e_d1 e) + snd (e_d1 e) * z2)%R in
  let delta2 := (fst (e_d2 e) + snd (e_d2 e) * z3)%R in
  match np_power (edd / lambda_br) delta1, np_power (edd / lambda_br) delta2 with
  | Some p, Some q => Some (e_xi e * (p + q))%R
  | _, _ => None
  end.
Section Eddington.
Context {G : Type}.
Variable norm_draws : nat -> G -> list R * G.
Variable entropy : G.
Fixpoint zip3 (e : erdf) (edd : R) (a b c : list R) : list (option R) :=
  match a, b, c with x :: a', y :: b', z :: c' => erdf_value e edd x y z :: zip3 e edd a' b' c' | _, _, _ => [] end.
(** Lines 43-63; the second component is the state of the generator afterwards. *)
Definition eddington (edd : R) (galaxy_type : string) (rng : option G) (num_samples : Z) : result samples * G :=
  let g := match rng with Some g => g | None => entropy end in
  match erdf_of galaxy_type with
  | None => (Err ValueError, g)
  | Some e =>
      if (num_samples <? 0)%Z then (Err ValueError, g)
      else
        let n := Z.to_nat num_samples in
        let (a, g1) := norm_draws n g in
        let (b, g2) := norm_draws n g1 in
        let (c, g3) := norm_draws n g2 in
        let result := zip3 e edd a b c in
        (if (num_samples =? 1)%Z then match result with x :: _ => Ok (One x) | [] => Err IndexError end else Ok (Many result), g3)
  end.
End Eddington.
