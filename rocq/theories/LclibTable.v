(** Model of [LightcurveData.from_lclib_table] and [MultiLightcurveTemplateModel.from_lclib_file],
    src/lightcurvelynx/models/lightcurve_template_model.py 203-304, 782-865.

    The tables are those of LclibModel (what [read_lclib_data] returns), with real numbers in their cells.
    [list(set(a) & set(b))] has an arbitrary order: the function [ord] puts the names in that order, and the theorems
    hold for every [ord] that only permutes. *)
From Coq Require Import Reals String Ascii List Bool Arith ZArith Lia Lra.
From Verif Require Import Base RealBase PassbandModel ObsTableModel SedModel NoiseModel.
From Verif Require LclibModel.
From Verif Require Import TemplateModel.
Import ListNotations.
Open Scope R_scope.

Notation cell := (LclibModel.cell R).
Notation table := (LclibModel.table R).
Notation t_cols := (LclibModel.tb_cols R).
Notation t_meta := (LclibModel.tb_meta R).
Notation CNum := (@LclibModel.CNum R).
Notation CText := (@LclibModel.CText R).

(** A number of a cell; text in a numeric column ends in an error (which one depends on the text). *)
Definition cell_num (c : cell) : result R := match c with LclibModel.CNum r => Ok r | LclibModel.CText _ => Err ValueError end.
(** [column.astype(float)] *)
Definition col_nums (l : list cell) : result (list R) :=
  fold_res (fun acc c => bind (cell_num c) (fun r => Ok (acc ++ [r]))) [] l.
Definition column (t : dict (list cell)) (name : string) : result (list cell) :=
  match dget name t with None => Err KeyError | Some l => Ok l end.
(** Line 246: [column == "S"] *)
Definition is_obs (c : cell) : bool := match c with LclibModel.CText s => String.eqb s "S" | LclibModel.CNum _ => false end.
(** [table[mask]] *)
Definition mask_cols (m : list bool) (d : dict (list cell)) : dict (list cell) := map (fun kc => (fst kc, mask_list m (snd kc))) d.
(** Lines 232-240. *)
Definition lib_filters (ord : list string -> list string) (d : dict (list cell)) (filters : option (list string)) : list string :=
  let cols := filter (fun c => (negb (String.eqb c "time") && negb (String.eqb c "type"))%bool) (dkeys d) in
  match filters with
  | None => cols
  | Some l => ord (filter (fun c => smem c l) cols)
  end.
(** Line 254: the first row of the template table, [mag2flux(tmp_table[filter][0])] for each filter. *)
Definition base_of (d : dict (list cell)) (f : string) : result R :=
  bind (column d f) (fun l => match l with [] => Err IndexError | c :: _ => bind (cell_num c) (fun m => Ok (mag2flux m)) end).
Definition collect {A} (F : string -> result A) (fs : list string) : result (dict A) :=
  fold_res (fun acc f => bind (F f) (fun a => Ok (dset f a acc))) [] fs.
(** Lines 244-255: the baseline and the source rows. *)
Definition split_types (fs : list string) (d : dict (list cell)) : result (dict R * dict (list cell)) :=
  match dget "type" d with
  | None => Ok (map (fun f => (f, 0)) fs, d)
  | Some ty =>
      let m := map is_obs ty in
      bind (if existsb negb m then collect (base_of (mask_cols (map negb m) d)) fs else Ok (map (fun f => (f, 0)) fs)) (fun b =>
      Ok (b, mask_cols m d))
  end.
(** Lines 261-265: one curve. *)
Definition lib_curve (d : dict (list cell)) (f : string) : result curve :=
  bind (column d "time") (fun tc => bind (col_nums tc) (fun ts =>
  bind (column d f) (fun mc => bind (col_nums mc) (fun ms => Ok (combine ts (map mag2flux ms)))))).
(** Lines 268-288: RECUR_CLASS; [None]: unknown. *)
Definition recur_class (meta : dict LclibModel.mval) : option bool :=
  match dget "RECUR_CLASS" meta with
  | None => Some false
  | Some (LclibModel.MText s) =>
      if (String.eqb s "PERIODIC" || String.eqb s "RECUR-PERIODIC")%bool then Some true
      else if String.eqb s "RECUR-NONPERIODIC" then Some false
      else if String.eqb s "NON-RECUR" then Some false
      else if String.eqb s "" then Some false
      else None
  | Some (LclibModel.MPar _) => None
  end.
(** Lines 291-302: the row that closes the period. *)
Definition wrap_curves (ts : list R) (cs : dict curve) : result (dict curve) :=
  if existsb (fun fc => (length (snd fc) =? 0)%nat) cs then Err IndexError
  else if forallb (fun fc => isclose (first_y (snd fc)) (last_y (snd fc))) cs then Ok cs
  else
    let dt := last ts 0 - hd 0 ts in
    let ave := dt / INR (length ts - 1) in
    let new_end := last ts 0 + ave in
    Ok (map (fun fc => (fst fc, snd fc ++ [(new_end, first_y (snd fc))])) cs).
Definition min_list (l : list R) : result R :=
  match l with [] => Err ValueError | x :: l' => Ok (fold_left Rmin l' x) end.
(** Lines 203-304. *)
Definition from_lclib_table (ord : list string -> list string) (t : table) (forced : option R) (filters : option (list string)) : result lcdata :=
  if negb (dmem "time" (t_cols t)) then Err ValueError
  else
    let fs := lib_filters ord (t_cols t) filters in
    if (length fs =? 0)%nat then Err ValueError
    else
      bind (split_types fs (t_cols t)) (fun bd => let '(baseline, d) := bd in
      bind (column d "time") (fun tc => bind (col_nums tc) (fun ts =>
      bind (match forced with None => min_list ts | Some x => Ok x end) (fun t0 =>
      bind (collect (lib_curve d) fs) (fun cs =>
      match recur_class (t_meta t) with
      | None => Err ValueError
      | Some periodic =>
          bind (if periodic then wrap_curves ts cs else Ok cs) (fun cs =>
          bind (make_lc (LDict (map (fun fc => (fst fc, mkTab 2 (snd fc))) cs)) t0 periodic false
                  (if periodic then None else Some baseline)) (fun r => Ok (fst r)))
      end))))).

(** Lines 845-865: the value(s) of [forced_lc_t0]. *)
Inductive forced_in := FNone | FScalar (x : R) | FArray (l : list R).
Definition forced_list (n : nat) (i : forced_in) : result (list (option R)) :=
  match i with
  | FNone => Ok (repeat None n)
  | FScalar x => Ok (repeat (Some x) n)
  | FArray l => if (length l =? n)%nat then Ok (map Some l) else Err ValueError
  end.
(** Lines 782-799: the list of the light curves of a model must not be empty (the sampler node refuses that,
    given_sampler.py 147-149); all its filters must be in the passband group (lines 420-441, see TemplateModel). *)
Definition from_lclib_file (parse : string -> option R) (ord : list string -> list string) (lines : list string)
  (forced : forced_in) (filters : option (list string)) : result (list lcdata) :=
  bind (LclibModel.read_lclib R parse lines) (fun tables =>
  match tables with
  | [] => Err ValueError
  | _ =>
      bind (forced_list (length tables) forced) (fun t0s =>
      fold_res (fun acc tx => bind (from_lclib_table ord (fst tx) (snd tx) filters) (fun lc => Ok (acc ++ [lc]))) []
        (combine tables t0s))
  end).
