(** Model of [src/lightcurvelynx/simulate.py]: [get_time_windows] (12-48), [simulate_lightcurves]
    (51-238), [compute_single_noise_free_lightcurve] (241-304) and [compute_noise_free_lightcurves]
    (307-395).

    The physical model is abstract: sampling its parameters yields the positions, t0, redshift and one
    state per object; [mask_by_time], [evaluate_bandfluxes] and the survey's error model are arbitrary
    functions.  The observation tables and their searches are those of [ObsTableModel].  Normal draws
    come from an arbitrary stream of standard normal deviates. *)
From Coq Require Import Reals String Ascii List Bool Arith ZArith Lia Lra.
From Verif Require Import Base RealBase ObsTableModel.
Import ListNotations.
Open Scope R_scope.

(** ** get_time_windows, lines 12-48 *)
(** t0 as returned by [get_param]: None, one number, or an array whose entries may be None. *)
Inductive t0arg := T0None | T0Scalar (r : R) | T0Arr (l : list (option R)).
(** [t0 - before] on an array: subtracting from None is a TypeError. *)
Fixpoint arr_shift (l : list (option R)) (d : R) : result (list R) :=
  match l with
  | [] => Ok []
  | None :: _ => Err TypeError
  | Some r :: l' => bind (arr_shift l' d) (fun rs => Ok (r + d :: rs))
  end.
Definition shift_side (l : list (option R)) (sign : R) (off : option R) : result (option (list R)) :=
  match off with
  | None => Ok None
  | Some d => bind (arr_shift l (sign * d)) (fun rs => Ok (Some rs))
  end.
Definition get_time_windows (t0 : t0arg) (off : option (list (option R)))
  : result (option (list R) * option (list R)) :=
  match t0, off with
  | T0None, _ => Ok (None, None)                                   (* lines 36-37 *)
  | _, None => Ok (None, None)
  | _, Some [before; after] =>                                     (* lines 40-48 *)
      let arr := match t0 with T0Scalar r => [Some r] | T0Arr l => l | T0None => [] end in
      bind (shift_side arr (-1) before) (fun s =>
      bind (shift_side arr 1 after) (fun e => Ok (s, e)))
  | _, Some _ => Err ValueError                                    (* lines 38-39 *)
  end.
Definition targ_of (t : option (list R)) : targ := match t with None => TNone | Some l => TArray l end.

(** ** Cells of the result *)
(** A per-observation cell: a number, text, the None of a missing column, an integer, or NaN. *)
Inductive ncell := NNum (r : R) | NStr (s : string) | NNone | NIdx (n : nat) | NNan.
Definition ncell_of (c : cell) : ncell := match c with CNum r => NNum r | CStr s => NStr s | CNan => NNan end.

(** [col.replace(".", "_")]. *)
Fixpoint undot (s : string) : string :=
  match s with
  | EmptyString => EmptyString
  | String c s' => String (if Ascii.eqb c dot then "_"%char else c) (undot s')
  end.
(** [d[k].extend(vals)]; the keys used below are present. *)
Definition dext {V} (k : string) (vals : list V) (d : dict (list V)) : dict (list V) :=
  dset k (match dget k d with Some l => l | None => [] end ++ vals) d.
Fixpoint set_nth {A} (i : nat) (x : A) (l : list A) : list A :=
  match l, i with
  | [], _ => []
  | _ :: l', O => x :: l'
  | y :: l', S i' => y :: set_nth i' x l'
  end.
(** Fancy indexing [a[index]] with in-range integers. *)
Fixpoint pick {A} (l : list A) (index : list nat) : result (list A) :=
  match index with
  | [] => Ok []
  | i :: index' => match nth_error l i with
                   | None => Err IndexError
                   | Some a => bind (pick l index') (fun r => Ok (a :: r))
                   end
  end.
(** A filter name; non-text filters are outside the model. *)
Definition text_of (c : cell) : string := match c with CStr s => s | _ => EmptyString end.

Section Simulate.
Context {St PV : Type}.
Variable ball : list vec3 -> vec3 -> R -> list nat.

(** What the abstract physical model contributes. *)
Record physical := mkPhys {
  ph_bandflux : bool;                                                     (* isinstance(model, BandfluxModel) *)
  ph_mask : list R -> St -> list bool;                                    (* mask_by_time *)
  ph_eval : nat -> list R -> list string -> St -> result (list R);        (* evaluate_bandfluxes, by survey *)
  ph_error : nat -> list R -> list nat -> result (list R)                 (* bandflux_error_point_source *)
}.
(** The sampled parameters: [sample_states] and the model's own parameters in it. *)
Record samples := mkSamples {
  sm_states : list St;
  sm_ra : list R; sm_dec : list R;
  sm_t0 : t0arg;
  sm_z : list PV;
  sm_t0col : list PV;                       (* np.atleast_1d(t0).tolist() *)
  sm_params : list PV;                      (* [state.to_dict() ...] *)
  sm_param : string -> option (list PV)     (* sample_states[col] as list, if present *)
}.
(** An object-level cell. *)
Inductive ocell := ONat (n : nat) | ONum (r : R) | OVal (v : PV).

(** Lines 133-149. *)
Definition object_dict (n : nat) (sm : samples) : dict (list ocell) :=
  [("id", map ONat (seq 0 n)); ("ra", map ONum (sm_ra sm)); ("dec", map ONum (sm_dec sm));
   ("nobs", repeat (ONat 0) n); ("t0", map OVal (sm_t0col sm)); ("z", map OVal (sm_z sm));
   ("params", map OVal (sm_params sm))]%string.
Definition add_params (sm : samples) (cols : list string) (d : dict (list ocell)) : result (dict (list ocell)) :=
  fold_res (fun d col => match sm_param sm col with
                         | None => Err KeyError
                         | Some v => Ok (dset (undot col) (map OVal v) d)
                         end) d cols.
(** Lines 152-157. *)
Definition base_cols : list string := ["mjd"; "filter"; "flux"; "fluxerr"; "flux_perfect"; "survey_idx"]%string.
Definition nested_init (save : list string) : dict (list ncell) :=
  fold_left (fun d col => dset col [] d) save (map (fun k => (k, [])) base_cols).

(** The accumulated per-observation data, the row labels, and how many deviates were used. *)
Record acc := mkAcc { ac_nested : dict (list ncell); ac_index : list nat; ac_used : nat }.

Fixpoint zip_with {A B C} (f : A -> B -> C) (a : list A) (b : list B) : list C :=
  match a, b with x :: a', y :: b' => f x y :: zip_with f a' b' | _, _ => [] end.
(** [rng.normal(loc=flux, scale=err)], noise_model.py line 102. *)
Definition noisy (draws : nat -> R) (used : nat) (flux err : list R) : list R :=
  zip_with (fun k fe => fst fe + snd fe * draws k) (seq used (length flux)) (combine flux err).

(** Lines 210-216: [float_index] is true when [obs_index] is the float array made from an empty list
    (line 179); numpy refuses it as an index. *)
Definition save_col (o : obstable) (obs_index : list nat) (float_index : bool) (d : dict (list ncell)) (col : string)
  : result (dict (list ncell)) :=
  if ob_contains o col
  then bind (ob_getitem o col) (fun c =>
       if float_index then Err IndexError
       else bind (pick c obs_index) (fun vs => Ok (dext col (map ncell_of vs) d)))
  else Ok (dext col (repeat NNone (length obs_index)) d).

(** Lines 178-219: one object in one survey.  [raw_empty]: the kd-tree returned the empty list. *)
Definition one_survey (m : physical) (draws : nat -> R) (use_mask : bool) (save : list string)
    (o : obstable) (s : nat) (i : nat) (st : St) (found : list nat) (raw_empty : bool)
    (a : acc) (total : nat) : result (acc * nat) :=
  bind (ob_getitem o "time") (fun times =>
  bind (ob_getitem o "filter") (fun filters =>
  let times := map num_of times in
  let filters := map text_of filters in
  bind (match found with
        | [] => Ok ([], [], [])
        | _ => bind (pick times found) (fun ts =>
               let idx := if use_mask then mask_list (ph_mask m ts st) found else found in
               let ts := if use_mask then mask_list (ph_mask m ts st) ts else ts in
               bind (pick filters idx) (fun fs => Ok (idx, ts, fs)))
        end) (fun ob =>
  let '(idx, ts, fs) := ob in
  bind (ph_eval m s ts fs st) (fun perfect =>
  bind (ph_error m s perfect idx) (fun errs =>
  let fluxes := noisy draws (ac_used a) perfect errs in
  let n := length ts in
  let d := dext "mjd" (map NNum ts) (ac_nested a) in
  let d := dext "filter" (map NStr fs) d in
  let d := dext "flux_perfect" (map NNum perfect) d in
  let d := dext "flux" (map NNum fluxes) d in
  let d := dext "fluxerr" (map NNum errs) d in
  let d := dext "survey_idx" (repeat (NIdx s) n) d in
  bind (fold_res (save_col o idx raw_empty) d save) (fun d =>
  Ok (mkAcc d (ac_index a ++ repeat i n) (ac_used a + length perfect), (total + n)%nat))))))).

(** Was the list handed out by the kd-tree itself empty (and hence not turned into an integer array)? *)
Definition raw_empty (o : obstable) (ra dec : R) : bool :=
  match preset_radius o with
  | Ok r => match ball (ob_tree o) (cart ra dec) (2 * sin (1 / 2 * radians r)) with [] => true | _ => false end
  | Err _ => false
  end.
(** Lines 164-166. *)
Definition all_matches (surveys : list obstable) (sm : samples) (lo hi : option (list R)) : result (list (list (list nat))) :=
  fold_res (fun l o => bind (range_search ball o (QArray (sm_ra sm)) (QArray (sm_dec sm)) None (targ_of lo) (targ_of hi))
                         (fun f => match f with Many x => Ok (l ++ [x]) | One _ => Err TypeError end)) [] surveys.

(** Lines 177-219 for one object over all surveys. *)
Definition one_object (m : physical) (draws : nat -> R) (use_mask : bool) (save : list string)
    (surveys : list obstable) (matches : list (list (list nat))) (sm : samples) (i : nat) (st : St) (a : acc)
  : result (acc * nat) :=
  fold_res (fun at_ so =>
    let '(a, total) := at_ in
    let '(s, o) := so in
    match nth_error matches s with
    | None => Err IndexError
    | Some ms => match nth_error ms i with
                 | None => Err IndexError
                 | Some found => one_survey m draws use_mask save o s i st found
                                   (raw_empty o (nth i (sm_ra sm) 0) (nth i (sm_dec sm) 0)) a total
                 end
    end) (a, 0%nat) (combine (seq 0 (length surveys)) surveys).

(** Lines 174-222. *)
Definition all_objects (m : physical) (draws : nat -> R) (use_mask : bool) (save : list string)
    (surveys : list obstable) (matches : list (list (list nat))) (sm : samples) (a : acc) (res : dict (list ocell))
  : result (acc * dict (list ocell)) :=
  fold_res (fun ar ist =>
    let '(a, res) := ar in
    let '(i, st) := ist in
    bind (one_object m draws use_mask save surveys matches sm i st a) (fun x =>
      let '(a', total) := x in
      match dget "nobs" res with
      | None => Err KeyError
      | Some l => if (i <? length l)%nat then Ok (a', dset "nobs" (set_nth i (ONat total) l) res)
                  else Err IndexError
      end)) (a, res) (combine (seq 0 (length (sm_states sm))) (sm_states sm)).

(** The result: object columns and, per observation, a label and the nested columns. *)
Record simres := mkSim { sr_cols : dict (list ocell); sr_index : list nat; sr_nested : dict (list ncell) }.
Definition all_len {V} (n : nat) (d : dict (list V)) : bool := forallb (fun kc => (length (snd kc) =? n)%nat) d.

(** Lines 106-238 (without citations).  A single survey is passed as a one-element list.  [npass] is the
    number of passband groups.  [add_nested] attaches the rows labelled i to object i. *)
Definition simulate (m : physical) (draws : nat -> R) (num_samples : Z) (sm : samples)
    (surveys : list obstable) (npass : nat) (save : list string) (params : list string) (use_mask : bool)
    (off : option (list (option R))) : result simres :=
  if (num_samples <=? 0)%Z then Err ValueError
  else if negb (length surveys =? npass)%nat then Err ValueError
  else if (1 <? length surveys)%nat && ph_bandflux m then Err ValueError
  else
    let n := Z.to_nat num_samples in
    bind (add_params sm params (object_dict n sm)) (fun res =>
    bind (get_time_windows (sm_t0 sm) off) (fun w =>
    bind (all_matches surveys sm (fst w) (snd w)) (fun matches =>
    bind (all_objects m draws use_mask save surveys matches sm (mkAcc (nested_init save) [] 0) res) (fun ar =>
      let '(a, res) := ar in
      if all_len n res && all_len (length (ac_index a)) (ac_nested a)
      then Ok (mkSim res (ac_index a) (ac_nested a))
      else Err ValueError)))).

(** The light curve of object i: the rows labelled i, in order ([add_nested]). *)
Definition rows_of (r : simres) (i : nat) : list nat :=
  map snd (filter (fun p => (fst p =? i)%nat) (combine (sr_index r) (seq 0 (length (sr_index r))))).

(** ** Noise-free light curves, lines 241-304 and 307-395 *)
(** [np.arange(lo, hi, step)] for a positive step: the k-th entry is lo + k*step; the number of entries
    is ceil((hi-lo)/step). *)
Definition arange_len (lo hi step : R) : nat := Z.to_nat (- Int_part (- ((hi - lo) / step)))%Z.
Definition arange (lo hi step : R) : list R := map (fun k => lo + INR k * step) (seq 0 (arange_len lo hi step)).
(** Lines 286-296; [z], [t0]: the model's parameters, possibly None. *)
Definition noise_free_times (z t0 : option R) (lo hi step : R) : list R * list R :=
  let phase := arange lo hi step in
  let times := match z with Some z => if Rltb 0 z then map (fun p => p * (1 + z)) phase else phase | None => phase end in
  let times := match t0 with Some t => map (fun p => p + t) times | None => times end in
  (phase, times).
(** Lines 299-304: a dict with times, rest_phase and one entry per filter. *)
Definition single_noise_free (eval : list R -> list string -> St -> result (list R)) (filters : list string) (st : St)
    (z t0 : option R) (lo hi step : R) : result (dict (list R)) :=
  let '(phase, times) := noise_free_times z t0 lo hi step in
  fold_res (fun d f => bind (eval times (repeat f (length times)) st) (fun b => Ok (dset f b d)))
    [("times", times); ("rest_phase", phase)]%string filters.
(** Lines 369-395: the nested data over all samples.  [zt i]: the redshift and t0 of sample i; the phase
    bounds are already expanded to one per sample. *)
Definition noise_free (eval : list R -> list string -> St -> result (list R)) (filters : list string)
    (samples : list (St * (option R * option R) * (R * R * R)))
  : result (dict (list R) * list nat) :=
  let init := fold_left (fun d f => dset f [] d) filters [("times", []); ("rest_phase", [])]%string in
  fold_res (fun di ist =>
    let '(d, index) := di in
    let '(i, (st, (z, t0), (lo, hi, step))) := ist in
    bind (single_noise_free eval filters st z t0 lo hi step) (fun lc =>
      let times := match dget "times" lc with Some l => l | None => [] end in
      Ok (fold_left (fun d k => dext k (match dget k lc with Some l => l | None => [] end) d) (dkeys d) d,
          index ++ repeat i (length times))))
    (init, []) (combine (seq 0 (length samples)) samples).
End Simulate.
