(** Model of src/lightcurvelynx/utils/bicubic_interp.py.

    Simplifications: numbers are exact reals (JAX computes in float32/float64); the jit/vmap wrappers
    are the functions they wrap; a ragged or non-2-d [z_vals] is rejected with ValueError. *)
From Coq Require Import List Bool Arith ZArith Reals Lra Lia.
From Verif Require Import Base RealBase SedModel.
Import ListNotations.
Open Scope R_scope.

(** bicubic_interp.py 13-34 [_kernel_value] on one value. *)
Definition kernel_value (v : R) : R :=
  let x := Rabs v in
  if Rltb 2 x then 0
  else if Rltb x 1 then x * x * (3 / 2 * x - 5 / 2) + 1
  else - (1 / 2) * (-4 + x * (8 + x * (-5 + x))).

(** [z_vals[i][j]].  [None] stands for an index outside the array, where JAX would silently
    clamp or wrap. *)
Definition zat (z : list (list R)) (i j : Z) : option R :=
  if (i <? 0)%Z || (j <? 0)%Z then None
  else match nth_error z (Z.to_nat i) with
       | Some row => nth_error row (Z.to_nat j)
       | None => None
       end.
(** A weighted sum of grid values; [None] if one of them is outside of the array. *)
Fixpoint wsum (l : list (R * option R)) : option R :=
  match l with
  | [] => Some 0
  | (w, Some v) :: l' => match wsum l' with Some s => Some (w * v + s) | None => None end
  | (_, None) :: _ => None
  end.

(** bicubic_interp.py 37-56 [_compute_linear]. *)
Definition compute_linear (ix iy : Z) (ax ay : R) (z : list (list R)) : option R :=
  wsum [(1 - ax, wsum [(1 - ay, zat z ix iy); (ay, zat z ix (iy + 1))]);
        (ax, wsum [(1 - ay, zat z (ix + 1) iy); (ay, zat z (ix + 1) (iy + 1))])].

(** bicubic_interp.py 59-109 [_compute_cubic]. *)
Definition compute_cubic (ix iy : Z) (dx dy : R) (z : list (list R)) : option R :=
  let row r := wsum [(kernel_value (dy - 1), zat z r (iy - 1)); (kernel_value dy, zat z r iy);
                     (kernel_value (dy + 1), zat z r (iy + 1)); (kernel_value (dy + 2), zat z r (iy + 2))] in
  wsum [(kernel_value (dx - 1), row (ix - 1)%Z); (kernel_value dx, row ix);
        (kernel_value (dx + 1), row (ix + 1)%Z); (kernel_value (dx + 2), row (ix + 2)%Z)].

(** bicubic_interp.py 254-282 [BicubicAxis]: the values and, for regular steps, the step size.
    [num_vals], [min_val] and [max_val] are the length, first and last of the values. *)
Record axis := mkAxis { ax_vals : list R; ax_step : option R }.
Definition ax_num (a : axis) : Z := Z.of_nat (length (ax_vals a)).
Definition ax_min (a : axis) : R := hd 0 (ax_vals a).
Definition ax_max (a : axis) : R := last (ax_vals a) 0.
Definition ax_at (a : axis) (i : Z) : R := nth (Z.to_nat i) (ax_vals a) 0.

(** bicubic_interp.py 284-311 [BicubicAxis.__init__]. *)
Definition ax_make (l : list R) : result axis :=
  if (length l <? 3)%nat then Err ValueError
  else if existsb (fun p => Rleb (snd p) (fst p)) (combine l (tl l)) then Err ValueError
  else
    bind (list_min (diffs l)) (fun min_step =>
    bind (list_max (diffs l)) (fun max_step =>
    Ok (mkAxis l (if Rltb (1 / 1000000) (max_step - min_step) then None
                  else Some (1 / 2 * min_step + 1 / 2 * max_step))))).

(** bicubic_interp.py 320-326 [_search_regular] and [_search_nonregular]. *)
Definition initial_search (a : axis) (q : R) : Z :=
  match ax_step a with
  | Some step => Int_part ((q - ax_min a) / step)
  | None => (Z.of_nat (ss_right (ax_vals a) q) - 1)%Z
  end.
(** bicubic_interp.py 328-351 [find_indices] on one query. *)
Definition find_index (a : axis) (q : R) : Z :=
  let idx := initial_search a q in
  let idx := (if idx <? 0 then 0 else idx)%Z in
  (if ax_num a - 1 <=? idx then ax_num a - 2 else idx)%Z.
(** bicubic_interp.py 353-367 [out_of_bounds]. *)
Definition out_of_bounds (a : axis) (q : R) : bool := Rltb q (ax_min a) || Rltb (ax_max a) q.

(** bicubic_interp.py 160-176 [BicubicInterpolator.__init__]. *)
Record bicubic := mkBic { bc_x : axis; bc_y : axis; bc_z : list (list R) }.
Definition bic_make (x y : list R) (z : list (list R)) : result bicubic :=
  bind (ax_make x) (fun ax =>
  bind (ax_make y) (fun ay =>
  if (length z =? length x)%nat && forallb (fun row => (length row =? length y)%nat) z
  then Ok (mkBic ax ay z) else Err ValueError)).

(** bicubic_interp.py 210-251: the value for one pair of queries, inside [__call__].  The branch
    that is not selected by [jnp.where] is not evaluated here. *)
Definition bic_point (b : bicubic) (xq yq : R) : option R :=
  let ix := find_index (bc_x b) xq in
  let iy := find_index (bc_y b) yq in
  let wx := (xq - ax_at (bc_x b) ix) / (ax_at (bc_x b) (ix + 1) - ax_at (bc_x b) ix) in
  let wy := (yq - ax_at (bc_y b) iy) / (ax_at (bc_y b) (iy + 1) - ax_at (bc_y b) iy) in
  let dx := (ax_at (bc_x b) ix - xq) / (ax_at (bc_x b) (ix + 1) - ax_at (bc_x b) ix) in
  let dy := (ax_at (bc_y b) iy - yq) / (ax_at (bc_y b) (iy + 1) - ax_at (bc_y b) iy) in
  let out := out_of_bounds (bc_x b) xq || out_of_bounds (bc_y b) yq in
  let edge := ((ix =? 0) || (ax_num (bc_x b) - 3 <? ix) || ((iy =? 0) || (ax_num (bc_y b) - 3 <? iy)))%Z in
  if out then Some 0
  else if edge then compute_linear ix iy wx wy (bc_z b)
  else compute_cubic ix iy dx dy (bc_z b).

(** bicubic_interp.py 112-133 [expand_to_cross_products] and 252 [reshape]. *)
Definition cross {A B} (xs : list A) (ys : list B) : list (A * B) :=
  flat_map (fun x => map (fun y => (x, y)) ys) xs.
Fixpoint reshape {A} (n m : nat) (l : list A) : list (list A) :=
  match n with
  | O => []
  | S n' => firstn m l :: reshape n' m (skipn m l)
  end.
(** bicubic_interp.py 194-252 [__call__]. *)
Definition bic_call (b : bicubic) (xq yq : list R) : list (list (option R)) :=
  reshape (length xq) (length yq) (map (fun p => bic_point b (fst p) (snd p)) (cross xq yq)).

(** bicubic_interp.py 178-192 [from_grid_file], after reading the file. *)
Definition bic_from_grid (x y : list R) (z : list (list R)) (scale : R) : result bicubic :=
  bic_make x y (map (map (fun v => v * scale)) z).
