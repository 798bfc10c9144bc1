(** Model of src/lightcurvelynx/math_nodes/distribution_sampler.py (DistributionSampler, kind="linear"), in exact real numbers.
    The node's generator is the stream of the numbers it returns. *)
From Coq Require Import Reals List Bool.
From Verif Require Import Base RealBase.
Import ListNotations.
Open Scope R_scope.

(** np.cumsum. *)
Fixpoint cumsum_from (acc : R) (l : list R) : list R :=
  match l with [] => [] | y :: l' => (acc + y) :: cumsum_from (acc + y) l' end.
Definition cumsum : list R -> list R := cumsum_from 0.
(** What the argument [y] is: a float array, an integer array or a list (the comparison [y < 0] of line 51 fails for a list,
    the in-place division of line 57 for an integer array, both with TypeError). *)
Inductive y_kind := YFloat | YInt | YList.
(** The attributes: the curve (cdf, x) of the interpolation and the draws still to come. *)
Record dist := mkDist { di_curve : curve; di_rng : nat -> R; di_pos : nat }.
(** Lines 39-58 [__init__].  A distribution without mass (sum 0) makes NaN values: outside the model ([Err RuntimeError]). *)
Definition dist_make (k : y_kind) (xs ys : list R) (rng : nat -> R) : result dist :=
  if negb (Nat.eqb (length xs) (length ys)) then Err ValueError
  else match k with
       | YList => Err TypeError
       | _ =>
           if existsb (fun y => Rltb y 0) ys then Err ValueError
           else match ys with
                | [] => Err IndexError
                | _ =>
                    match k with
                    | YInt => Err TypeError
                    | _ =>
                        let total := last (cumsum ys) 0 in
                        if Reqb total 0 then Err RuntimeError
                        else Ok (mkDist (combine (map (fun c => c / total) (cumsum ys)) xs) rng 0)
                    end
                end
       end.
(** np.interp on nondecreasing abscissas: the last point at or before [q] and the next one. *)
Fixpoint np_seg (p : R * R) (t : curve) (q : R) : R :=
  match t with
  | [] => snd p
  | p2 :: t' => if Rltb q (fst p2) then lerp p p2 q else np_seg p2 t' q
  end.
(** scipy's interp1d with its default bounds check ([fill_value] is a number, so out of range values raise). *)
Definition inv_cdf (c : curve) (u : R) : result R :=
  match c with
  | [] => Err ValueError
  | p :: t => if (Rltb u (fst p) || Rltb (fst (last c (0, 0))) u)%bool then Err ValueError else Ok (np_seg p t u)
  end.
Fixpoint inv_cdfs (c : curve) (us : list R) : result (list R) :=
  match us with [] => Ok [] | u :: us' => bind (inv_cdf c u) (fun x => bind (inv_cdfs c us') (fun r => Ok (x :: r))) end.
(** Lines 60-68 [set_seed]: [rng] is the new generator's stream. *)
Definition dist_set_seed (d : dist) (rng : nat -> R) : dist := mkDist (di_curve d) rng 0.
(** Lines 70-100 [compute]: [given] is the generator passed by the caller. *)
Definition dist_compute (d : dist) (n : nat) (given : option (nat -> R)) : result (list R) * dist :=
  let us := map (fun i => di_rng d (di_pos d + i)%nat) (seq 0 n) in
  (inv_cdfs (di_curve d) us, mkDist (di_curve d) (di_rng d) (di_pos d + n)).
