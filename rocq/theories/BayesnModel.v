(** Model of src/lightcurvelynx/models/bayesn.py (BayesnModel): the two spline helpers, the mask and the flux density.
    Arrays that the code fills in loops are functions of the index (zero where the code leaves [np.zeros]); the contents of the data
    files are lists and rows.  [np.linalg.solve] of the tridiagonal system is elimination without pivoting; that its result
    is the only solution is a theorem (C91_only_solution), so the method does not matter over exact reals.  The knots are strictly
    increasing and the tables have the shapes the code documents (hypotheses of the theorems). *)
From Coq Require Import Reals String List Bool Arith.
From Verif Require Import Base RealBase SedModel NoiseModel TemplateModel Salt2Model.
Import ListNotations.
Open Scope R_scope.

Definition at_ (x : list R) (i : nat) : R := nth i x 0.
Definition step_of (x : list R) (i : nat) : R := at_ x (S i) - at_ x i.
Definition cell (z : list (list R)) (i j : nat) : R := nth j (nth i z []) 0.
Definition sum_to (n : nat) (f : nat -> R) : R := Rsum (map f (seq 0 n)).

(** ** Elimination in a tridiagonal system (the loops of lines 247-259).
    Row [i] (counted from 0) is [sub i * v i + diag i * v (i+1) + sup i * v (i+2) = rhs i]. *)
Section TRI.
Variables (sub diag sup rhs : nat -> R).
Fixpoint tri_mu (i : nat) : R :=
  match i with O => 0 | S k => sup k / (diag k - sub k * tri_mu k) end.
Fixpoint tri_z (i : nat) : R :=
  match i with O => 0 | S k => (rhs k - sub k * tri_z k) / (diag k - sub k * tri_mu k) end.
(** Back substitution: [tri_up k j] is the value at [j] when the value at [j + k] is 0. *)
Fixpoint tri_up (k j : nat) : R :=
  match k with O => 0 | S k' => tri_z j - tri_mu j * tri_up k' (S j) end.
End TRI.

(** ** Lines 128-170 [compute_invkd] *)
Definition Kmat (x : list R) (i j : nat) : R :=
  if (j =? i)%nat then (step_of x i + step_of x (S i)) / 3
  else if (j =? S i)%nat then step_of x (S i) / 6
  else if (S j =? i)%nat then step_of x i / 6
  else 0.
Definition Dmat (x : list R) (i j : nat) : R :=
  if (j =? i)%nat then 1 / step_of x i
  else if (j =? S i)%nat then - 1 / step_of x i - 1 / step_of x (S i)
  else if (j =? S (S i))%nat then 1 / step_of x (S i)
  else 0.
(** [np.linalg.solve(K, D)], column [j], row [i]; [K] has [n] rows. *)
Definition solve (n : nat) (K : nat -> nat -> R) (D : nat -> nat -> R) (i j : nat) : R :=
  tri_up (fun k => match k with O => 0 | S k' => K k k' end) (fun k => K k k) (fun k => K k (S k)) (fun k => D k j) (n - i) (S i).
Definition invkd (x : list R) (i j : nat) : R :=
  match i with
  | O => 0
  | S i' => if (S i =? length x)%nat then 0 else solve (length x - 2) (Kmat x) (Dmat x) i' j
  end.

(** [np.clip(np.searchsorted(x, q) - 1, 0, n - 2)] *)
Definition interval (x : list R) (q : R) : nat := Nat.min (ss_left x q - 1) (length x - 2).
(** ** Lines 172-221 [natural_cubic_spline_basis_matrix_from_invkd], the row of [q] *)
Definition basis_row (x : list R) (inv : nat -> nat -> R) (q : R) (j : nat) : R :=
  let i := interval x q in
  let h := at_ x (S i) - at_ x i in
  let a := (at_ x (S i) - q) / h in
  let b := 1 - a in
  let c := (a ^ 3 - a) * h ^ 2 / 6 in
  let d := (b ^ 3 - b) * h ^ 2 / 6 in
  (if (j =? S i)%nat then b else if (j =? i)%nat then a else 0) + (c * inv i j + d * inv (S i) j).

(** ** Lines 223-261 [compute_second_derivatives_1d], at index [j] *)
Definition alpha (x : list R) (y : nat -> R) (k : nat) : R :=
  3 / step_of x (S k) * (y (S (S k)) - y (S k)) - 3 / step_of x k * (y (S k) - y k).
Definition second_1d (x : list R) (y : nat -> R) (j : nat) : R :=
  match j with
  | O => 0
  | S _ => tri_up (step_of x) (fun k => 2 * (at_ x (S (S k)) - at_ x k)) (fun k => step_of x (S k)) (alpha x y) (length x - 1 - j) j
  end.
(** ** Lines 263-297 [compute_2d_second_derivatives] *)
Definition second_x (x : list R) (z : list (list R)) (i j : nat) : R := second_1d x (fun k => cell z k j) i.
Definition second_y (y : list R) (z : list (list R)) (i j : nat) : R := second_1d y (fun k => cell z i k) j.
(** ** Lines 299-394 [evaluate_natural_spline_2d_vectorized]; one query point *)
Definition blend (a h z0 z1 m0 m1 : R) : R :=
  let b := 1 - a in (a ^ 3 * m0 + b ^ 3 * m1) * h / 6 + (a * (z0 - m0 * h ^ 2 / 6) + b * (z1 - m1 * h ^ 2 / 6)).
Definition surface (x y : list R) (z : list (list R)) (xq yq : R) : R :=
  let i := interval x xq in
  let j := interval y yq in
  let hx := at_ x (S i) - at_ x i in
  let ax := (at_ x (S i) - xq) / hx in
  let hy := at_ y (S j) - at_ y j in
  let ay := (at_ y (S j) - yq) / hy in
  let along k := blend ax hx (cell z i k) (cell z (S i) k) (second_x x z i k) (second_x x z (S i) k) in
  blend ay hy (along j) (along (S j)) (second_y y z i j) (second_y y z i (S j)).
(** Lines 396-422 [evaluate_2d_cubic_spline] *)
Definition evaluate_2d (x y : list R) (z : list (list R)) (xqs yqs : list R) : list (list R) :=
  map (fun xq => map (surface x y z xq) yqs) xqs.

(** ** Lines 424-455 [mask_by_time] *)
Definition bay_mask (node : string) (ts : list R) (st : option gst) : result (list bool) :=
  match st with
  | None => Err ValueError
  | Some st =>
      bind (param_or_0 node st "redshift") (fun z =>
      bind (param_or_0 node st "t0") (fun t0 =>
      Ok (map (fun t => (Rltb (t0 + -20 * (1 + z)) t && Rltb t (t0 + 50 * (1 + z)))%bool) ts)))
  end.

(** ** Lines 458-515 [compute_sed] *)
Record bay_data := mkBay { b_w0 : list (list R); b_w1 : list (list R); b_l : list R; b_tau : list R;
                           b_phase : list R; b_wave : list R; b_flux : list (list R) }.
(** [J_l @ (W @ J_t.T)], the entry of wavelength [w] and phase [t]. *)
Definition w_entry (b : bay_data) (theta w t : R) : R :=
  sum_to (length (b_l b)) (fun k => basis_row (b_l b) (invkd (b_l b)) w k *
    sum_to (length (b_tau b)) (fun m => (cell (b_w0 b) k m + theta * cell (b_w1 b) k m) * basis_row (b_tau b) (invkd (b_tau b)) t m)).
(** extinction.py: [load_extinction_model("F99")] without further arguments has the library's default, Rv = 3.1; [f99 rv w ebv] is what the
    dust_extinction package multiplies the flux with ([None]: a wavelength outside the law's range, refused with a ValueError). *)
Definition f99_default : R := 31 / 10.
Definition f99_law := R -> R -> R -> option R.
Fixpoint f99_all (f99 : f99_law) (ebv : R) (ws : list R) : result (list R) :=
  match ws with
  | [] => Ok []
  | w :: ws => match f99 f99_default w ebv with None => Err ValueError | Some k => bind (f99_all f99 ebv ws) (fun ks => Ok (k :: ks)) end
  end.
Definition bay_sed (f99 : f99_law) (b : bay_data) (node : string) (ts ws : list R) (st : gst) (_ : params) : result matrix :=
  bind (local_params node st) (fun ps =>
  bind (need "t0" ps) (fun t0 =>
  let tau := map (fun t => t - t0) ts in
  bind (need "theta" ps) (fun theta =>
  let w_grid := map (fun t => map (fun w => w_entry b theta w t) ws) tau in
  let h_grid := evaluate_2d (b_phase b) (b_wave b) (b_flux b) tau ws in
  let flux := zip2 (fun h w => h * Rpower 10 (- (4 / 10) * w)) h_grid w_grid in
  bind (need "Av" ps) (fun av =>
  bind (need "Rv" ps) (fun rv =>
  if Reqb rv 0 then Err ZeroDivisionError else
  let ebv := av / rv in
  bind (f99_all f99 ebv ws) (fun ks =>
  let flux := map (fun row => map (fun p => fst p * snd p) (combine row ks)) flux in
  bind (need "Amplitude" ps) (fun amp =>
  let flux := map (map (fun v => v * amp)) flux in
  flam_to_fnu flux ws u_aa u_flam u_njy))))))).
