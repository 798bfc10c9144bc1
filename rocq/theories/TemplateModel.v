(** Model of [src/lightcurvelynx/models/lightcurve_template_model.py] (LightcurveData,
    BaseLightcurveTemplateModel, LightcurveTemplateModel, MultiLightcurveTemplateModel), of
    [periodic_model.py], [basic_models.py] and [static_sed_model.py].

    Arrays hold numbers (float dtype); a 2D light curve array is its number of columns and the list of its
    (first, second) column pairs, the optional third column (errors) is dropped by the code and not represented. *)
From Coq Require Import Reals String Ascii List Bool Arith ZArith Lia Lra.
From Verif Require Import Base RealBase PassbandModel ObsTableModel SedModel NoiseModel.
Import ListNotations.
Open Scope R_scope.

(** Python/numpy [t % p] for p > 0. *)
Definition Rmod (t p : R) : R := t - p * IZR (Int_part (t / p)).

(** ** LightcurveData *)
Record tab := mkTab { tb_cols : nat; tb_rows : curve }.
Inductive lcin :=
| LDict (d : dict tab)                                        (* filter -> 2D array *)
| LArray (cols : nat) (rows : list (R * R * string))          (* 2D array with a filter column *)
| LOther.                                                     (* anything else, e.g. a LightcurveData *)
Record lcdata := mkLc {
  lc_curves : dict curve;       (* lightcurves *)
  lc_t0 : R;                    (* lc_data_t0 *)
  lc_period : option R;         (* period *)
  lc_min : dict R;              (* min_times *)
  lc_max : dict R;              (* max_times *)
  lc_base : dict R              (* baseline *)
}.
Definition lc_filters (lc : lcdata) : list string := dkeys (lc_curves lc).

(** Lines 99-109: break an array up by filter; [np.unique] sorts the names. *)
Definition split_array (rows : list (R * R * string)) : dict tab :=
  map (fun f => (f, mkTab 2 (map fst (filter (fun r => String.eqb (snd r) f) rows)))) (unique_names (map snd rows)).
(** Lines 95-113. *)
Definition lc_parse (i : lcin) : result (dict tab) :=
  match i with
  | LDict d => Ok d
  | LArray c rows => if negb (c =? 3)%nat then Err ValueError else Ok (split_array rows)
  | LOther => Err TypeError
  end.
(** Lines 117-130: one curve. *)
Definition check_curve (t0 : R) (mags : bool) (t : tab) : result curve :=
  if negb ((tb_cols t =? 2)%nat || (tb_cols t =? 3)%nat) then Err ValueError
  else if negb (forallb (fun d => Rltb 0 d) (diffs (xs (tb_rows t)))) then Err ValueError
  else Ok (map (fun p => (fst p - t0, if mags then mag2flux (snd p) else snd p)) (tb_rows t)).
Definition check_curves (t0 : R) (mags : bool) (d : dict tab) : result (dict curve) :=
  fold_res (fun acc ft => bind (check_curve t0 mags (snd ft)) (fun c => Ok (acc ++ [(fst ft, c)]))) [] d.

(** [np.allclose(a, b)] of two time columns, line 180; arrays of different length broadcast if one has a single
    entry and raise ValueError otherwise ([false] here: both outcomes end in a ValueError). *)
Definition allclose (a b : list R) : bool :=
  if (length a =? length b)%nat then forallb (fun p => isclose (fst p) (snd p)) (combine a b)
  else match a, b with
       | [x], _ => forallb (fun y => isclose x y) b
       | _, [y] => forallb (fun x => isclose x y) a
       | _, _ => false
       end.
Definition shift (t0 : R) (c : curve) : curve := map (fun p => (fst p - t0, snd p)) c.
Definition first_x (c : curve) : R := fst (hd (0, 0) c).
Definition first_y (c : curve) : R := snd (hd (0, 0) c).
Definition last_y (c : curve) : R := snd (last c (0, 0)).
(** Lines 164-201 [_validate_periodicity]: curves, lc_data_t0 and period.  Rows are read only from curves that
    passed [allclose], which are not empty. *)
Definition validate_periodicity (cs : dict curve) (t0 : R) : result (dict curve * R * R) :=
  match map snd cs with
  | [] => Err ValueError
  | c0 :: _ =>
      if (length c0 <? 2)%nat then Err ValueError
      else if negb (forallb (fun c => (allclose (xs c) (xs c0) && isclose (first_y c) (last_y c))%bool) (map snd cs)) then Err ValueError
      else
        let period := last_x c0 - first_x c0 in
        if Rleb period 0 then Err ValueError
        else if isclose (first_x c0) 0 then Ok (cs, t0, period)
        else if negb (Reqb t0 0) then Err ValueError
        else let s := first_x c0 in Ok (map (fun fc => (fst fc, shift s (snd fc))) cs, s, period)
  end.
(** Lines 136-137: [lc[0, 0]] and [lc[-1, 0]] of an empty curve raise IndexError. *)
Definition has_rows (cs : dict curve) : bool := forallb (fun fc => negb (length (snd fc) =? 0)%nat) cs.
(** Lines 83-153 [__init__].  Also returned: what the [baseline] dictionary given by the caller contains
    afterwards (lines 149-153 alias it and assign into it). *)
Definition make_lc (i : lcin) (t0 : R) (periodic mags : bool) (baseline : option (dict R)) : result (lcdata * option (dict R)) :=
  bind (lc_parse i) (fun d =>
  bind (check_curves t0 mags d) (fun cs =>
  bind (if periodic then bind (validate_periodicity cs t0) (fun r => Ok (fst (fst r), snd (fst r), Some (snd r)))
        else Ok (cs, t0, None)) (fun r =>
  let '(cs, t0, period) := r in
  if negb (has_rows cs) then Err IndexError
  else
    let mn := map (fun fc => (fst fc, first_x (snd fc))) cs in
    let mx := map (fun fc => (fst fc, last_x (snd fc))) cs in
    let conv := map (fun fb : string * R => (fst fb, if mags then mag2flux (snd fb) else snd fb)) in
    match baseline with
    | None => Ok (mkLc cs t0 period mn mx (conv (map (fun fc => (fst fc, 0)) cs)), None)
    | Some b =>
        if negb (forallb (fun fc => dmem (fst fc) b) cs) then Err ValueError
        else Ok (mkLc cs t0 period mn mx (conv b), Some (conv b))
    end))).
(** Lines 306-345 [evaluate_sed]. *)
Definition lc_evaluate (lc : lcdata) (ts : list R) (f : string) : result (list R) :=
  match dget f (lc_curves lc) with
  | None => Err ValueError
  | Some c =>
      let ts := match lc_period lc with Some p => map (fun t => Rmod t p) ts | None => ts end in
      let base := match dget f (lc_base lc) with Some b => b | None => 0 end in
      match dget f (lc_min lc), dget f (lc_max lc) with
      | Some mn, Some mx =>
          let overlap := map (fun t => (Rleb mn t && Rleb t mx)%bool) ts in
          Ok (put overlap (map (interp c 0 0) (mask_list overlap ts)) (repeat base (length ts)))
      | _, _ => Err KeyError
      end
  end.

(** ** Template models *)
(** Lines 443-496 [_create_sed_basis]; 460-470: the wavelengths used by each filter. *)
Definition set_at (ix : list nat) (n : nat) : result (list bool) :=
  if existsb (fun i => (n <=? i)%nat) ix then Err IndexError
  else Ok (map (fun k => existsb (Nat.eqb k) ix) (seq 0 n)).
Definition used_waves (g : pgroup) (f : string) : result (list bool) :=
  bind (pg_getitem g f) (fun p =>
    let sig := mask_list (map (fun r => Rltb (1 / 10 ^ 5) (snd r)) (pb_table p)) (pb_waves p) in
    set_at (map (ss_left (pg_waves g)) sig) (length (pg_waves g))).
Definition all_used (g : pgroup) (fs : list string) : result (list (string * list bool)) :=
  fold_res (fun acc f => bind (used_waves g f) (fun u => Ok (acc ++ [(f, u)]))) [] fs.
(** Lines 472-484: used by this filter and by exactly one filter. *)
Definition count_used (l : list (string * list bool)) (k : nat) : nat :=
  length (filter (fun fu => nth k (snd fu) false) l).
Definition own_waves (l : list (string * list bool)) (u : list bool) : list bool :=
  map (fun k => (nth k u false && (count_used l k =? 1)%nat)%bool) (seq 0 (length u)).
Definition one_basis (g : pgroup) (l : list (string * list bool)) (f : string) (u : list bool) : result (list R) :=
  let valid := own_waves l u in
  if negb (existsb (fun b => b) valid) then Err ValueError
  else
    let box := map (fun b : bool => if b then 1 else 0) valid in
    bind (pg_bandflux g [box] f) (fun fl =>
      match fl with
      | [] => Err IndexError
      | t :: _ => if Rleb t 0 then Err ValueError else Ok (map (fun x => x / t) box)
      end).
Definition sed_basis (g : pgroup) (fs : list string) : result (dict (list R)) :=
  bind (all_used g fs) (fun l =>
    fold_res (fun acc fu => bind (one_basis g l (fst fu) (snd fu)) (fun b => Ok (dset (fst fu) b acc))) [] l).
(** Lines 420-441 with the filters of the light curves. *)
Record template := mkTpl {
  tp_node : string;
  tp_setters : params;
  tp_waves : list R;            (* all_waves *)
  tp_basis : dict (list R)      (* sed_values *)
}.
Definition make_template (node : string) (setters : params) (g : pgroup) (fs : list string) : result template :=
  if negb (forallb (pg_contains g) fs) then Err ValueError
  else bind (sed_basis g fs) (fun b =>
    match dget "t0" setters with
    | None | Some PNone => Err ValueError
    | _ => Ok (mkTpl node setters (pg_waves g) b)
    end).
(** Numeric access [params[name]] in an arithmetic expression. *)
Definition need (name : string) (ps : params) : result R :=
  match dget name ps with
  | None => Err KeyError
  | Some (PNum r) => Ok r
  | Some _ => Err TypeError
  end.
(** Lines 498-543 [compute_sed_given_lc]. *)
Definition lc_sed (tp : template) (lc : lcdata) (ts ws : list R) (st : gst) : result matrix :=
  bind (local_params (tp_node tp) st) (fun ps =>
  bind (need "t0" ps) (fun t0 =>
  fold_res (fun acc f =>
    match dget f (tp_basis tp) with
    | None => Err KeyError
    | Some b =>
        let sed := map (interp (combine (tp_waves tp) b) 0 0) ws in
        bind (lc_evaluate lc (map (fun t => t - t0) ts) f) (fun mult => Ok (madd acc (outer mult sed)))
    end) (zeros (length ts) (length ws)) (lc_filters lc))).
(** Lines 676-710, 895-931 [compute_bandflux] for the light curve [lc]. *)
Definition lc_bands (node : string) (lc : lcdata) (ts : list R) (fs : list string) (st : gst) : result (list R) :=
  bind (local_params node st) (fun ps =>
  if negb (forallb (fun f => dmem f (lc_curves lc)) (unique_names fs)) then Err ValueError
  else bind (need "t0" ps) (fun t0 =>
  fold_res (fun out f =>
    let mask := map (fun x => String.eqb x f) fs in
    bind (lc_evaluate lc (mask_list mask (map (fun t => t - t0) ts)) f) (fun v => Ok (put mask v out)))
    (repeat 0 (length ts)) (lc_filters lc))).
(** LightcurveTemplateModel as a BandfluxModel. *)
Definition template_model (tp : template) (lc : lcdata) (effs : list effect) : bandm :=
  mkBand (tp_node tp) (tp_setters tp) (lc_bands (tp_node tp) lc) effs.
(** MultiLightcurveTemplateModel: lines 782-811, 895-931.  An index parameter holds 0, 1, ... (the values the
    sampler node draws); anything else is an IndexError here. *)
Fixpoint index_of (r : R) (n : nat) : option nat :=
  match n with
  | O => None
  | S n' => if Reqb r (INR n') then Some n' else index_of r n'
  end.
Definition pick {A} (l : list A) (v : option pval) : result A :=
  match v with
  | Some (PNum r) => match index_of r (length l) with
                     | Some k => match nth_error l k with Some a => Ok a | None => Err IndexError end
                     | None => Err IndexError
                     end
  | _ => Err TypeError
  end.
Definition multi_bands (node : string) (lcs : list lcdata) (ts : list R) (fs : list string) (st : gst) : result (list R) :=
  bind (local_params node st) (fun ps =>
  match dget "selected_lightcurve" ps with
  | None => Err KeyError
  | v => bind (pick lcs v) (fun lc => lc_bands node lc ts fs st)
  end).
Definition multi_template_model (node : string) (setters : params) (lcs : list lcdata) (effs : list effect) : bandm :=
  mkBand node setters (multi_bands node lcs) effs.

(** ** periodic_model.py 53-77.  [phi] is [_evaluate_phases]. *)
Definition phases (ts : list R) (t0 period : R) : list R := map (fun t => Rmod (t - t0) period / period) ts.
Definition periodic_sed (node : string) (phi : list R -> list R -> gst -> params -> result matrix)
  (ts ws : list R) (st : gst) (kw : params) : result matrix :=
  bind (local_params node st) (fun ps =>
  bind (need "period" ps) (fun p =>
  bind (need "t0" ps) (fun t0 => phi (phases ts t0 p) ws st kw))).

(** ** basic_models.py *)
(** Lines 31-51 ConstantSEDModel. *)
Definition constant_sed (node : string) (ts ws : list R) (st : gst) (_ : params) : result matrix :=
  bind (local_params node st) (fun ps =>
  bind (need "brightness" ps) (fun b => Ok (map (fun _ => map (fun _ => b) ws) ts))).
(** Lines 84-110 StepModel. *)
Definition step_sed (node : string) (ts ws : list R) (st : gst) (_ : params) : result matrix :=
  bind (local_params node st) (fun ps =>
  bind (need "t0" ps) (fun t0 =>
  bind (need "t1" ps) (fun t1 =>
  bind (need "brightness" ps) (fun b =>
    let mask := map (fun t => (Rleb t0 t && Rleb t t1)%bool) ts in
    Ok (put mask (map (fun _ => map (fun _ => b) ws) (mask_list mask ts)) (zeros (length ts) (length ws))))))).
(** Lines 146-169 SinWaveModel. *)
Definition sin_sed (node : string) (ts ws : list R) (st : gst) (_ : params) : result matrix :=
  bind (local_params node st) (fun ps =>
  bind (need "frequency" ps) (fun fr =>
  bind (need "t0" ps) (fun t0 =>
  bind (need "brightness" ps) (fun b =>
  bind (need "amplitude" ps) (fun a =>
    Ok (map (fun t => repeat (b + a * sin (2 * PI * fr * (t - t0))) (length ws)) ts)))))).
(** Lines 253-274 LinearWavelengthModel. *)
Definition linear_sed (node : string) (ts ws : list R) (st : gst) (_ : params) : result matrix :=
  bind (local_params node st) (fun ps =>
  bind (need "linear_base" ps) (fun b =>
  bind (need "linear_scale" ps) (fun s => Ok (repeat (map (fun w => b + s * w) ws) (length ts))))).

(** ** static_sed_model.py *)
(** Lines 41-62: the validation of one SED; [rows] is the number of rows of the array. *)
Record sedarr := mkArr { ar_rows : nat; ar_data : curve }.
Definition check_sed (a : sedarr) : result curve :=
  if negb (ar_rows a =? 2)%nat then Err ValueError
  else if (length (ar_data a) <? 2)%nat then Err ValueError
  else if negb (forallb (fun d => Rltb 0 d) (diffs (xs (ar_data a)))) then Err ValueError
  else Ok (ar_data a).
Definition make_static (l : list sedarr) : result (list curve) :=
  fold_res (fun acc a => bind (check_sed a) (fun c => Ok (acc ++ [c]))) [] l.
(** Lines 41-62 with the wrapping of a lone array (lines 48-51) and the sampler node, which refuses an empty list
    (given_sampler.py 147-149).  [SMat]: a 2D array; [SList]: a list of arrays; [SCube]: a 3D array of SEDs, which is
    taken for one SED when it holds two. *)
Inductive static_in := SMat (a : sedarr) | SList (l : list sedarr) | SCube (l : list sedarr).
Definition make_static_model (i : static_in) : result (list curve) :=
  bind (match i with
        | SMat a => if (ar_rows a =? 2)%nat then make_static [a] else Err ValueError
        | SList l => make_static l
        | SCube l => if (length l =? 2)%nat then Err ValueError else make_static l
        end) (fun seds => match seds with [] => Err ValueError | _ => Ok seds end).
(** [self.get_param(graph_state, "selected_idx")]: None when missing, and [list[None]] is a TypeError. *)
Definition selected {A} (node : string) (st : gst) (l : list A) : result A := pick l (Some (get_param node st "selected_idx")).
(** Lines 180-217 [compute_sed]; a keyword argument is a TypeError. *)
Definition static_sed (node : string) (seds : list curve) (ts ws : list R) (st : gst) (kw : params) : result matrix :=
  match kw with
  | [] => bind (selected node st seds) (fun c => Ok (repeat (map (interp c 0 0) ws) (length ts)))
  | _ => Err TypeError
  end.
(** Lines 144-178 [minwave], [maxwave] ([None] also stands for a failing look-up). *)
Definition static_min (node : string) (seds : list curve) (st : gst) : option R :=
  match selected node st seds with Ok c => Some (first_x c) | Err _ => None end.
Definition static_max (node : string) (seds : list curve) (st : gst) : option R :=
  match selected node st seds with Ok c => Some (last_x c) | Err _ => None end.
(** Lines 266-290 StaticBandfluxModel.compute_bandflux. *)
Definition static_bands (node : string) (maps : list (dict R)) (ts : list R) (fs : list string) (st : gst) : result (list R) :=
  bind (selected node st maps) (fun m =>
  fold_res (fun out f =>
    match dget f m with
    | None => Err KeyError
    | Some v => let mask := map (fun x => String.eqb x f) fs in
                Ok (put mask (map (fun _ => v) (mask_list mask ts)) out)
    end) (repeat 0 (length ts)) (unique_names fs)).
(** The models as SEDModel objects (base class: no wavelength bounds, see SedModel). *)
Definition plain_sed (node : string) (setters : params) (redshift : bool)
  (c : list R -> list R -> gst -> params -> result matrix) (rest obs : list effect) : sed :=
  mkSed node setters redshift (fun _ => None) (fun _ => None) None c rest obs.
Definition linear_model (node : string) (setters : params) (redshift : bool) (lo hi : option R) (x : option extrap) (rest obs : list effect) : sed :=
  mkSed node setters redshift (fun _ => lo) (fun _ => hi) x (linear_sed node) rest obs.
Definition static_model (node : string) (setters : params) (redshift : bool) (seds : list curve) (x : option extrap) (rest obs : list effect) : sed :=
  mkSed node setters redshift (static_min node seds) (static_max node seds) x (static_sed node seds) rest obs.
