(** Model of the SALT2 colour law, src/lightcurvelynx/astro_utils/salt2_color_law.py, and of the SALT2 model,
    src/lightcurvelynx/models/salt2_jax.py, in exact real numbers instead of JAX floats. *)
From Coq Require Import Reals String Ascii List Bool Arith ZArith.
From Verif Require Import Base RealBase PassbandModel ObsTableModel SedModel NoiseModel TemplateModel BicubicModel GridModel.
Import ListNotations.
Open Scope R_scope.

(** ** salt2_color_law.py *)
(** Lines 13-15. *)
Definition cl_b : R := 430257 / 100.
Definition cl_v : R := 542855 / 100.
Definition wavescale : R := 1 / (cl_v - cl_b).

(** [jnp.sum(coeffs * jnp.power(x, exponents))]. *)
Definition powers (cs : list R) (es : list nat) (x : R) : R :=
  Rsum (map (fun p => fst p * x ^ snd p) (combine cs es)).
(** Lines 53-59: the given coefficients (at most 6), padded with zeros; the first entry makes the sum 1. *)
Definition pad_coeffs (coeffs : list R) : list R :=
  let n := Nat.min (length coeffs) 6 in
  let p := firstn n coeffs ++ repeat 0 (6 - n) in
  (1 - Rsum (0 :: p)) :: p.
(** Lines 69-73: the derivative of the polynomial. *)
Definition cl_deriv (cs : list R) (x : R) : R :=
  powers (map (fun p => INR (fst p) * snd p) (combine (seq 2 6) (firstn 6 (skipn 1 cs)))) (seq 1 6) x + nth 0 cs 0.
Record colorlaw := mkCl { cl_coeffs : list R; cl_min : R; cl_max : R;
                          cl_vmin : R; cl_vmax : R; cl_dmin : R; cl_dmax : R }.
(** Lines 50-73 [__init__]. *)
Definition cl_make (wave_min wave_max : R) (coeffs : list R) : colorlaw :=
  let cs := pad_coeffs coeffs in
  let a := (wave_min - cl_b) * wavescale in
  let b := (wave_max - cl_b) * wavescale in
  mkCl cs a b (powers cs (seq 1 7) a) (powers cs (seq 1 7) b) (cl_deriv cs a) (cl_deriv cs b).
(** Lines 107-139 [apply], for one wavelength. *)
Definition cl_point (c : colorlaw) (w : R) : R :=
  let x := (w - cl_b) * wavescale in
  let below := cl_vmin c + cl_dmin c * (x - cl_min c) in
  let above := cl_vmax c + cl_dmax c * (x - cl_max c) in
  let middle := powers (cl_coeffs c) (seq 1 7) x in
  - (if Rltb x (cl_min c) then below else if Rltb (cl_max c) x then above else middle).
Definition cl_apply (c : colorlaw) (ws : list R) : list R := map (cl_point c) ws.

(** ["pat" in s] *)
Fixpoint contains (pat s : string) : bool :=
  String.prefix pat s || match s with EmptyString => false | String _ s' => contains pat s' end.
(** [data[i]] for a Python integer. *)
Definition pyget {A} (data : list A) (i : Z) : result A :=
  let n := Z.of_nat (length data) in
  let k := (if i <? 0 then n + i else i)%Z in
  if (k <? 0)%Z then Err IndexError
  else match nth_error data (Z.to_nat k) with None => Err IndexError | Some x => Ok x end.
(** [data[1:j]] *)
Definition pyslice1 {A} (data : list A) (j : Z) : list A :=
  let n := Z.of_nat (length data) in
  let k := (if j <? 0 then Z.max 0 (n + j) else j)%Z in
  skipn 1 (firstn (Z.to_nat k) data).
(** [range(i, n, 2)] *)
Fixpoint steps2 (fuel : nat) (i n : Z) : list Z :=
  match fuel with
  | O => []
  | S f => if (i <? n)%Z then i :: steps2 f (i + 2)%Z n else []
  end.
Definition range2 (i n : Z) : list Z := steps2 (Z.to_nat (n - i)) i n.
(** [np.array(texts, dtype=float)]; [pf] is [float(text)], any partial function ([None]: ValueError). *)
Fixpoint parse_all (pf : string -> option R) (l : list string) : result (list R) :=
  match l with
  | [] => Ok []
  | s :: l' => match pf s with None => Err ValueError | Some v => bind (parse_all pf l') (fun vs => Ok (v :: vs)) end
  end.
(** Lines 95-103, one round of the loop. *)
Definition cl_meta (pf : string -> option R) (pz : string -> option Z) (data : list string) (lohi : R * R) (i : Z) : result (R * R) :=
  bind (pyget data i) (fun label =>
  if contains "min_lambda" label
  then bind (pyget data (i + 1)%Z) (fun s => match pf s with None => Err ValueError | Some v => Ok (v, snd lohi) end)
  else if contains "max_lambda" label
  then bind (pyget data (i + 1)%Z) (fun s => match pf s with None => Err ValueError | Some v => Ok (fst lohi, v) end)
  else if contains "version" label
  then bind (pyget data (i + 1)%Z) (fun s => match pz s with None => Err ValueError
                                                        | Some v => if negb (v =? 1)%Z then Err RuntimeError else Ok lohi end)
  else Ok lohi).
(** Lines 75-105 [from_file]; [data] are the words of the file, [pz] is [int(text)]. *)
Definition cl_from_file (pf : string -> option R) (pz : string -> option Z) (data : list string) : result colorlaw :=
  bind (pyget data 0%Z) (fun first =>
  match pz first with
  | None => Err ValueError
  | Some n =>
      bind (parse_all pf (pyslice1 data (1 + n)%Z)) (fun coeffs =>
      bind (fold_res (cl_meta pf pz data) (3000, 7000) (range2 (1 + n) (Z.of_nat (length data)))) (fun lohi =>
      Ok (cl_make (fst lohi) (snd lohi) coeffs)))
  end).

(** ** salt2_jax.py *)
(** The sizes of the units in SI: Angstrom, erg/s/cm2/Angstrom, nJy. *)
Definition u_aa : R := / 10 ^ 10.
Definition u_flam : R := 10 ^ 7.
Definition u_njy : R := / 10 ^ 35.
(** A value of an interpolator; [bic_point] is never [None] for an interpolator that was built (C52_defined). *)
Definition bic_value (o : option R) : R := match o with Some v => v | None => 0 end.
Definition zip2 (f : R -> R -> R) (a b : matrix) : matrix :=
  map (fun p => map (fun q => f (fst q) (snd q)) (combine (fst p) (snd p))) (combine a b).
(** Lines 148-189 [compute_sed]. *)
Definition salt2_sed (node : string) (m0 m1 : bicubic) (cl : colorlaw) (ts ws : list R) (st : gst) (_ : params) : result matrix :=
  bind (local_params node st) (fun ps =>
  bind (need "t0" ps) (fun t0 =>
  let phase := map (fun t => t - t0) ts in
  let v0 := map (map bic_value) (bic_call m0 phase ws) in
  let v1 := map (map bic_value) (bic_call m1 phase ws) in
  bind (need "x0" ps) (fun x0 =>
  bind (need "x1" ps) (fun x1 =>
  bind (need "c" ps) (fun c =>
  let base := map (map (fun v => x0 * v)) (zip2 Rplus v0 (map (map (fun v => x1 * v)) v1)) in
  let colour := map (fun l => Rpower 10 (- (4 / 10) * l * c)) (cl_apply cl ws) in
  let flux := map (fun row => map (fun p => fst p * snd p) (combine row colour)) base in
  flam_to_fnu flux ws u_aa u_flam u_njy))))).
(** Lines 84-114 [__init__]: the tables of the two grid files (see [GridModel]) and the words of the colour law
    file.  The model has no wavelength bounds and no extrapolation. *)
Definition salt2_make (pf : string -> option R) (pz : string -> option Z) (node : string) (setters : params) (redshift : bool)
    (m0 m1 : list (list R)) (law : list string) : result phys :=
  bind (from_grid_file m0 (/ 10 ^ 12)) (fun g0 =>
  bind (from_grid_file m1 (/ 10 ^ 12)) (fun g1 =>
  bind (cl_from_file pf pz law) (fun cl =>
  Ok (PSed (plain_sed node setters redshift (salt2_sed node g0 g1 cl) [] []))))).
(** [get_param(graph_state, name, 0.0)] followed by [if v is None: v = 0.0] (lines 136-142). *)
Definition param_or_0 (node : string) (st : gst) (name : string) : result R :=
  match get_param node st name with PNone => Ok 0 | PNum r => Ok r | PStr _ => Err TypeError end.
(** Lines 116-146 [mask_by_time]; the graph state may be missing. *)
Definition salt2_mask (node : string) (ts : list R) (st : option gst) : result (list bool) :=
  match st with
  | None => Err ValueError
  | Some st =>
      bind (param_or_0 node st "redshift") (fun z =>
      bind (param_or_0 node st "t0") (fun t0 =>
      Ok (map (fun t => (Rltb (t0 + -20 * (1 + z)) t && Rltb t (t0 + 50 * (1 + z)))%bool) ts)))
  end.
