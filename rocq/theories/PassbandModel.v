(** Model of [src/lightcurvelynx/astro_utils/passbands.py]: class [Passband] (641-1215, without
    file access and plotting) and class [PassbandGroup] (25-620, without the preset loaders).
    Floats are reals; a transmission table is a list of rows (wavelength, transmission). *)
From Coq Require Import Reals String List Bool Arith ZArith Lia Lra.
From Verif Require Import Base RealBase.
Import ListNotations.
Open Scope R_scope.

Definition table := curve.

(** ** Passband *)
Inductive wunits := Nm | Angstrom | BadUnits.

(** Lines 700-722 of [__init__]: validation and unit conversion.  With duplicate wavelengths
    [np.where] returns a tuple and [dup_inds + 1] raises TypeError. *)
Definition validate (t : table) (u : wunits) : result table :=
  if existsb (fun d => Rltb d 0) (diffs (xs t)) then Err ValueError
  else if existsb (fun d => Reqb d 0) (diffs (xs t)) then Err TypeError
  else match u with
       | Nm => Ok (map (fun p => (fst p * 10, snd p)) t)
       | Angstrom => Ok t
       | BadUnits => Err ValueError
       end.

(** [np.allclose(a, b)] with the default tolerances. *)
Definition isclose (a b : R) : bool := Rleb (Rabs (a - b)) (1 / 10 ^ 8 + 1 / 10 ^ 5 * Rabs b).

(** [np.linspace(lo, hi, n)]; for n = 1 only [lo]. *)
Definition linspace (lo hi : R) (n : nat) : list R :=
  match n with
  | O => []
  | S O => [lo]
  | S k => map (fun i => lo + INR i * ((hi - lo) / INR k)) (seq 0 n)
  end.
(** [int(x)] for x >= 0. *)
Definition floor_nat (x : R) : nat := Z.to_nat (Int_part x).

(** Lines 1028-1059 [_interpolate_transmission_table].  The degree-1 interpolating spline is
    piecewise linear interpolation; it needs two rows (scipy raises otherwise).  A step of zero
    divides by zero, a negative step asks for a negative number of points: both raise. *)
Definition interpolate_table (t : table) (delta : option R) : result table :=
  match delta with
  | None => Ok t
  | Some d =>
      if forallb (fun x => isclose x d) (diffs (xs t)) then Ok t
      else
        let lo := fst (hd (0, 0) t) in
        let hi := last_x t in
        if Rleb d 0 then Err ValueError
        else
          let n := (floor_nat ((hi - lo) / d) + 1)%nat in
          if (length t <=? 1)%nat then Err ValueError
          else Ok (map (fun x => (x, interp t 0 0 x)) (linspace lo hi n))
  end.

(** Lines 1061-1103 [_trim_transmission_by_quantile].  A table without any interval has no
    [cumulative_area[-1]] (IndexError). *)
Definition trim_table (t : table) (q : option R) : result table :=
  match q with
  | None => Ok t
  | Some q =>
      if Reqb q 0 then Ok t
      else if (Rltb q 0 || Rleb (1 / 2) q)%bool then Err ValueError
      else
        let cum := cumtrapz t in
        match cum with
        | [] => Err IndexError
        | _ =>
            (* zero total area: numpy divides 0/0, all entries are nan and both searches give 0 *)
            if Reqb (last cum 0) 0 then Ok (firstn 1 t) else
            let cum' := map (fun a => a / last cum 0) cum in
            let lower := Nat.max (ss_right cum' q - 1) 0 in
            let upper := ss_left cum' (1 - q) in
            Ok (firstn (upper + 1 - lower) (skipn lower t))
        end
  end.

(** Lines 1105-1152 [_normalize_transmission_table]. *)
Definition numerators (t : table) : table := map (fun p => (fst p, snd p / fst p)) t.
Definition normalize_table (t : table) : result table :=
  match t with
  | [] => Err ValueError
  | [_] => Err ValueError
  | _ =>
      let den := trapz (numerators t) in
      if Reqb den 0 then Err ValueError
      else Ok (map (fun p => (fst p, snd p / den)) (numerators t))
  end.

(** Lines 1006-1026 [process_transmission_table]; the passband's observable state. *)
Record passband := mkPB {
  pb_survey : string; pb_filter : string;
  pb_loaded : table;              (* _loaded_table *)
  pb_table : table;               (* processed_transmission_table *)
  pb_delta : option R             (* delta_wave *)
}.
Definition pb_waves (p : passband) : list R := xs (pb_table p).
Definition process_table (t : table) (delta q : option R) : result table :=
  bind (interpolate_table t delta) (fun t1 => bind (trim_table t1 q) normalize_table).
Definition pb_process (p : passband) (delta q : option R) : result passband :=
  bind (process_table (pb_loaded p) delta q) (fun t =>
    Ok (mkPB (pb_survey p) (pb_filter p) (pb_loaded p) t delta)).
(** Lines 662-725 [__init__]. *)
Definition pb_make (t : table) (survey filter : string) (delta q : option R) (u : wunits) : result passband :=
  bind (validate t u) (fun loaded =>
  bind (process_table loaded delta q) (fun tab =>
    Ok (mkPB survey filter loaded tab delta))).
(** Line 696. *)
Definition pb_full (p : passband) : string := (pb_survey p ++ "_" ++ pb_filter p)%string.

(** Lines 1196-1215 of [fluxes_to_bandflux]: one row of the flux matrix. *)
Definition row_bandflux (phi : table) (delta : option R) (row : list R) : R :=
  let integrand := map (fun a => fst a * snd a) (combine row (ys phi)) in
  match delta with
  | Some d => (Rsum integrand - 1 / 2 * (hd 0 integrand + last integrand 0)) * d
  | None => trapz (combine (xs phi) integrand)
  end.
(** Lines 1154-1215 [fluxes_to_bandflux] for a 2-d matrix ([np.ndarray] rows of equal
    length); 3-d input is the same row computation and not modelled separately. *)
Definition fluxes_to_bandflux (p : passband) (m : list (list R)) : result (list R) :=
  match m with
  | [] => Err ValueError
  | r :: _ =>
      if (length r =? 0)%nat then Err ValueError
      else if negb (length (pb_waves p) =? length r)%nat then Err ValueError
      else Ok (map (row_bandflux (pb_table p) (pb_delta p)) m)
  end.

(** ** PassbandGroup *)
(** Line 452-457: a position list of a band in the group's grid. *)
Record pgroup := mkPG {
  pg_bands : dict passband;              (* passbands: full name -> passband *)
  pg_waves : list R;                     (* waves *)
  pg_index : dict (list nat);            (* _in_band_wave_indices (a slice is its index range) *)
  pg_names : dict (list string)          (* _filter_to_name *)
}.

(** Lines 440-449 of [_update_internal_data]: filter name -> full names. *)
Definition filter_names (bands : dict passband) : dict (list string) :=
  fold_left (fun acc fb =>
    match dget (pb_filter (snd fb)) acc with
    | Some l => dset (pb_filter (snd fb)) (l ++ [fst fb]) acc
    | None => dset (pb_filter (snd fb)) [fst fb] acc
    end) bands [].

(** Lines 472-481: the merged grid.  The first point is always kept (gap 1e8). *)
Definition threshold : R := 1 / 10 ^ 5.
Fixpoint keep_gaps (prev : R) (l : list R) : list R :=
  match l with
  | [] => []
  | a :: l' => if Rleb threshold (a - prev) then a :: keep_gaps a l' else keep_gaps a l'
  end.
Definition merge_waves (bands : dict passband) : list R :=
  match sortR (flat_map (fun fb => pb_waves (snd fb)) bands) with
  | [] => []
  | a :: l => a :: keep_gaps a l
  end.
(** [np.array_equal] *)
Fixpoint list_eqb (a b : list R) : bool :=
  match a, b with
  | [], [] => true
  | x :: a', y :: b' => (Reqb x y && list_eqb a' b')%bool
  | _, _ => false
  end.
(** Lines 486-499: the indices of one band.  A band without wavelengths has no [waves[0]]
    (IndexError); processed passbands always have at least two. *)
Definition band_indices (grid : list R) (waves : list R) : result (list nat) :=
  match waves with
  | [] => Err IndexError
  | w0 :: _ =>
      let lower := ss_left grid w0 in
      let upper := ss_left grid (last waves 0) in
      if list_eqb (firstn (upper + 1 - lower) (skipn lower grid)) waves
      then Ok (seq lower (upper + 1 - lower))     (* slice(lower, upper + 1) *)
      else Ok (map (ss_left grid) waves)
  end.
Definition pg_update (bands : dict passband) : result pgroup :=
  let grid := merge_waves bands in
  bind (fold_res (fun acc fb => bind (band_indices grid (pb_waves (snd fb))) (fun ix => Ok (dset (fst fb) ix acc)))
                 [] bands) (fun ix =>
    Ok (mkPG bands grid ix (filter_names bands))).

(** Lines 49-126 [__init__] for Passband objects; [filters] a set of names. *)
Definition collect (l : list passband) : dict passband :=
  fold_left (fun acc p => dset (pb_full p) p acc) l [].
Definition prune (bands : dict passband) (filters : list string) : dict passband * list string :=
  fold_left (fun st fb =>
      let '(kept, remaining) := st in
      if smem (fst fb) filters then (kept ++ [fb], filter (fun x => negb (String.eqb x (fst fb))) remaining)
      else if smem (pb_filter (snd fb)) filters
           then (kept ++ [fb], filter (fun x => negb (String.eqb x (pb_filter (snd fb)))) remaining)
           else (kept, remaining))
    bands ([], filters).
Definition pg_make (l : list passband) (filters : option (list string)) : result pgroup :=
  match l with
  | [] => Err ValueError
  | _ =>
      let bands := collect l in
      match filters with
      | None => pg_update bands
      | Some fs =>
          let '(kept, remaining) := prune bands fs in
          if negb (length remaining =? 0)%nat then Err ValueError else pg_update kept
      end
  end.

(** Lines 428-437 [add_passband]. *)
Definition pg_add (g : pgroup) (p : passband) : result pgroup := pg_update (dset (pb_full p) p (pg_bands g)).
(** Lines 535-549 [process_transmission_tables].  The passbands are mutated in place; here the call
    returns the updated group (the state left behind when one of them raises is not modelled). *)
Definition pg_process (g : pgroup) (delta q : option R) : result pgroup :=
  bind (fold_res (fun acc fb => bind (pb_process (snd fb) delta q) (fun p => Ok (acc ++ [(fst fb, p)]))) [] (pg_bands g))
       pg_update.

(** Lines 135-150 [__getitem__]. *)
Definition pg_getitem (g : pgroup) (key : string) : result passband :=
  match dget key (pg_bands g) with
  | Some p => Ok p
  | None =>
      match dget key (pg_names g) with
      | Some names =>
          if (1 <? length names)%nat then Err KeyError
          else match names with
               | n :: _ => match dget n (pg_bands g) with Some p => Ok p | None => Err KeyError end
               | [] => Err IndexError
               end
      | None => Err KeyError
      end
  end.
(** Lines 152-157 [__contains__]. *)
Definition pg_contains (g : pgroup) (key : string) : bool :=
  (dmem key (pg_bands g) || dmem key (pg_names g))%bool.
(** Lines 515-533 [mask_by_filter]. *)
Definition pg_mask (g : pgroup) (filters : list string) : list bool :=
  map (fun f => (smem f (dkeys (pg_bands g)) || smem f (dkeys (pg_names g)))%bool) filters.

(** [m[:, indices]] *)
Fixpoint take_cols (r : list R) (ix : list nat) : result (list R) :=
  match ix with
  | [] => Ok []
  | i :: ix' => match nth_error r i with
                | None => Err IndexError
                | Some v => bind (take_cols r ix') (fun vs => Ok (v :: vs))
                end
  end.
Fixpoint take_cols_all (m : list (list R)) (ix : list nat) : result (list (list R)) :=
  match m with
  | [] => Ok []
  | r :: m' => bind (take_cols r ix) (fun v => bind (take_cols_all m' ix) (fun vs => Ok (v :: vs)))
  end.
(** Lines 551-584 [fluxes_to_bandflux]: resolves the filter name to the *first* passband. *)
Definition pg_resolve (g : pgroup) (filter : string) : result string :=
  if dmem filter (pg_bands g) then Ok filter
  else match dget filter (pg_names g) with
       | Some (n :: _) => Ok n
       | Some [] => Err IndexError
       | None => Err ValueError
       end.
Definition pg_bandflux (g : pgroup) (m : list (list R)) (filter : string) : result (list R) :=
  bind (pg_resolve g filter) (fun name =>
    match dget name (pg_bands g), dget name (pg_index g) with
    | Some p, Some ix => bind (take_cols_all m ix) (fluxes_to_bandflux p)
    | _, _ => Err KeyError
    end).
(** Lines 586-615 [fluxes_to_bandfluxes]. *)
Definition pg_bandfluxes (g : pgroup) (m : list (list R)) : result (dict (list R)) :=
  match m with
  | [] => Err ValueError
  | r :: _ =>
      if ((length r =? 0)%nat || negb (length (pg_waves g) =? length r)%nat)%bool then Err ValueError
      else fold_res (fun acc fb => bind (pg_bandflux g m (fst fb)) (fun b => Ok (dset (fst fb) b acc))) [] (pg_bands g)
  end.
