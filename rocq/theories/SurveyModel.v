(** The survey tables: Rubin's OpSim ([obstable/opsim.py]), ZTF ([obstable/ztf_obstable.py]) and Roman
    ([obstable/roman_obstable.py]), and the vectorised zero points of [astro_utils/zeropoint.py]. *)
From Coq Require Import Reals String List Bool Arith ZArith Lia Lra.
From Verif Require Import Base RealBase ObsTableModel NoiseModel FakeModel.
Import ListNotations.
Open Scope R_scope.

(** ** astro_utils/zeropoint.py *)
(** A number in a Python dictionary is an int or a float. *)
Inductive pynum := PInt (z : Z) | PFloat (r : R).
(** [int(r)]: towards zero. *)
Definition trunc (r : R) : Z := if Rltb r 0 then (- Int_part (- r))%Z else Int_part r.
(** Lines 55-56 [np.vectorize(d.get)(band)]: numpy calls the function on the first element and converts every result to
    its type; an unknown key gives [None], which becomes NaN among floats and cannot become an int.  A filter cell that is
    not text is no key.  [Err TypeError] for an unknown first key is that of the arithmetic that follows (plain
    arrays; pandas series mask it instead). *)
Definition key_get (d : dict pynum) (c : cell) : option pynum := match c with CStr s => dget s d | _ => None end.
Definition vget (d : dict pynum) (bands : list cell) : result (list (option R)) :=
  match bands with
  | [] => Err ValueError
  | b :: _ =>
      match key_get d b with
      | None => Err TypeError
      | Some (PFloat _) =>
          Ok (map (fun c => match key_get d c with Some (PFloat r) => Some r | Some (PInt z) => Some (IZR z) | None => None end) bands)
      | Some (PInt _) =>
          seq_res (map (fun c => match key_get d c with
                                 | Some (PFloat r) => Ok (Some (IZR (trunc r)))
                                 | Some (PInt z) => Ok (Some (IZR z))
                                 | None => Err TypeError
                                 end) bands)
      end
  end.
Definition num_opt (c : cell) : option R := match c with CNum r => Some r | _ => None end.
(** Lines 43-58 [magnitude_electron_zeropoint] and lines 101-112 [flux_electron_zeropoint] for arrays of equal length;
    [None] is a non-finite entry. *)
Definition mag_zp_entry (z k a t : option R) : option R :=
  match z, k, a, t with
  | Some z, Some k, Some a, Some t => if Rleb t 0 then None else Some (z + k * (a - 1) + 25 / 10 * log10 t)
  | _, _, _, _ => None
  end.
Fixpoint zip4 {A B C D E} (f : A -> B -> C -> D -> E) (a : list A) (b : list B) (c : list C) (d : list D) : list E :=
  match a, b, c, d with
  | x :: a', y :: b', z :: c', w :: d' => f x y z w :: zip4 f a' b' c' d'
  | _, _, _, _ => []
  end.
Definition vec_mag_zeropoint (zps exs : dict pynum) (bands airmass exptime : list cell) : result (list (option R)) :=
  bind (vget zps bands) (fun z => bind (vget exs bands) (fun k =>
    Ok (zip4 mag_zp_entry z k (map num_opt airmass) (map num_opt exptime)))).
Definition vec_flux_zeropoint (zps exs : dict pynum) (bands airmass exptime : list cell) : result (list (option R)) :=
  bind (vec_mag_zeropoint zps exs bands airmass exptime) (fun l => Ok (map (option_map mag2flux) l)).

(** ** obs_table.py lines 80-146 [ObsTable.__init__] for a class with its own defaults and zero points *)
Definition survey_values (defaults meta kwargs : dict sval) : dict sval :=
  fold_left (fun acc kv => dset (fst kv) (snd kv) acc) kwargs
    (fold_left (fun acc kv => dset (fst kv) (snd kv) acc) meta defaults).
Definition survey_make (defaults : dict sval) (zero_points : obstable -> result obstable)
  (f : frame) (cm : dict string) (meta kwargs : dict sval) (fp : option footprint) : result obstable :=
  bind (remap (Some cm) f) (fun fi =>
    let '(f', inv) := fi in
    if negb (forallb (fun c => smem c (columns f')) required) then Err KeyError
    else
      let o := mkObs f' inv (survey_values defaults meta kwargs) (unique_filters f') [] fp in
      bind (if ob_contains o "zp" then Ok o else zero_points o) (fun o =>
      Ok (mkObs (ob_frame o) (ob_inv o) (ob_values o) (ob_filters o) (build_tree (ob_frame o)) (ob_footprint o)))).
(** A column of possibly non-finite numbers. *)
Definition cell_of (v : option R) : cell := match v with Some r => CNum r | None => CNan end.

(** ** obstable/opsim.py *)
(** Lines 66-78 [_default_colnames] *)
Definition opsim_colnames : dict string :=
  [("airmass", "airmass"); ("dec", "fieldDec"); ("exptime", "visitExposureTime"); ("filter", "filter"); ("ra", "fieldRA");
   ("time", "observationStartMJD"); ("zp", "zp_nJy"); ("seeing", "seeingFwhmEff"); ("skybrightness", "skyBrightness");
   ("nexposure", "numExposures")]%string.
(** Lines 81-89 [_default_survey_values] *)
Definition opsim_defaults : dict sval :=
  [("dark_current", SNum (2 / 10)); ("ext_coeff", SMap lsst_ext); ("pixel_scale", SNum (2 / 10)); ("radius", SNum (175 / 100));
   ("read_noise", SNum (88 / 10)); ("zp_per_sec", SMap lsst_zp); ("survey_name", SText "LSST")]%string.
(** [safe_get_survey_value] used as a dictionary of floats. *)
Definition safe_map (o : obstable) (key : string) : result (dict R) :=
  match dget key (ob_values o) with
  | None | Some SNone => Err ValueError
  | Some (SMap m) => Ok m
  | Some _ => Err AttributeError
  end.
Definition floats (m : dict R) : dict pynum := map (fun kv => (fst kv, PFloat (snd kv))) m.
Definition col_of (o : obstable) (name : string) : list cell :=
  match dget name (f_cols (ob_frame o)) with Some c => c | None => [] end.
(** Lines 101-117 [_assign_zero_points] *)
Definition opsim_zero_points (o : obstable) : result obstable :=
  let f := ob_frame o in
  if negb (dmem "filter" (f_cols f) && dmem "airmass" (f_cols f) && dmem "exptime" (f_cols f)) then Err ValueError
  else
    bind (safe_map o "ext_coeff") (fun exs => bind (safe_map o "zp_per_sec") (fun zps =>
    bind (vec_flux_zeropoint (floats zps) (floats exs) (col_of o "filter") (col_of o "airmass") (col_of o "exptime")) (fun vals =>
    add_column o "zp" (ColList (map cell_of vals)) true))).
(** Lines 92-99 [__init__] *)
Definition opsim_make (f : frame) (colmap : option (dict string)) (meta kwargs : dict sval) (fp : option footprint) : result obstable :=
  survey_make opsim_defaults opsim_zero_points f (match colmap with None => opsim_colnames | Some c => c end) meta kwargs fp.
(** Lines 148-186 [bandflux_error_point_source], for as many fluxes as indices. *)
Definition row_num (o : obstable) (name : string) (i : nat) : option R :=
  match nth_error (col_of o name) i with Some c => num_opt c | None => None end.
Definition in_rows (o : obstable) (index : list nat) : bool := forallb (fun i => (i <? nrows (ob_frame o))%nat) index.
Fixpoint need_cols (o : obstable) (names : list string) : result unit :=
  match names with [] => Ok tt | n :: names' => bind (need_col o n) (fun _ => need_cols o names') end.
Definition opsim_errors (o : obstable) (flux : list R) (index : list nat) : result (list (option R)) :=
  if negb (in_rows o index) then Err IndexError
  else
    bind (safe_number o "pixel_scale") (fun ps =>
    bind (need_cols o ["seeing"; "zp"; "skybrightness"; "exptime"; "nexposure"]%string) (fun _ =>
    bind (safe_number o "read_noise") (fun rn => bind (safe_number o "dark_current") (fun dk =>
    if negb (length flux =? length index)%nat then Err ValueError
    else Ok (map (fun p => let '(x, i) := p in
           match row_num o "exptime" i, row_num o "nexposure" i, row_num o "seeing" i, row_num o "skybrightness" i, row_num o "zp" i with
           | Some t, Some n, Some s, Some b, Some z => if Reqb ps 0 then None else opsim_error x t n s b z ps rn dk
           | _, _, _, _, _ => None
           end) (combine flux index)))))).

(** ** obstable/ztf_obstable.py *)
(** Lines 52-62 and 65-72 *)
Definition ztf_colnames : dict string :=
  [("maglim", "maglim"); ("sky", "scibckgnd"); ("fwhm", "fwhm"); ("dec", "dec"); ("exptime", "exptime"); ("filter", "filter");
   ("ra", "ra"); ("time", "obsmjd"); ("zp", "zp_nJy")]%string.
Definition ztf_defaults : dict sval :=
  [("dark_current", SNum ztf_dark); ("gain", SNum ztf_gain); ("pixel_scale", SNum (101 / 100)); ("radius", SNum (2735 / 1000));
   ("read_noise", SNum ztf_read); ("survey_name", SText "ZTF")]%string.
(** Lines 95-97: empty strings become NaN, then the rows without width are dropped (their labels go with them). *)
Definition blank (c : cell) : cell := match c with CStr EmptyString => CNan | c => c end.
Definition is_nan (c : cell) : bool := match c with CNan => true | _ => false end.
Definition ztf_clean (f : frame) : frame :=
  let f1 := mkFrame (f_labels f) (map (fun kc => (fst kc, map blank (snd kc))) (f_cols f)) in
  mask_frame (map (fun c => negb (is_nan c)) (match dget "fwhm" (f_cols f1) with Some c => c | None => [] end)) f1.
(** Lines 86-109 [_assign_zero_points]; a cell of the four columns that is not a number gives NaN (text is outside the model). *)
Definition ztf_row_zp (m s w t : option R) : option R :=
  match m, s, w, t with Some m, Some s, Some w, Some t => ztf_zero_point m s w t | _, _, _, _ => None end.
Definition ztf_zero_points (o : obstable) : result obstable :=
  let f := ob_frame o in
  if negb (dmem "maglim" (f_cols f) && dmem "sky" (f_cols f) && dmem "fwhm" (f_cols f) && dmem "exptime" (f_cols f)) then Err ValueError
  else
    let o' := mkObs (ztf_clean f) (ob_inv o) (ob_values o) (ob_filters o) (ob_tree o) (ob_footprint o) in
    add_column o' "zp"
      (ColList (map cell_of (zip4 ztf_row_zp (map num_opt (col_of o' "maglim")) (map num_opt (col_of o' "sky"))
                                             (map num_opt (col_of o' "fwhm")) (map num_opt (col_of o' "exptime"))))) true.
(** Lines 74-84 [__init__]; [mjd] is astropy's conversion of an ISO date. *)
Definition ztf_make (mjd : string -> R) (f : frame) (colmap : option (dict string)) (meta kwargs : dict sval) (fp : option footprint)
  : result obstable :=
  let cm := match colmap with None => ztf_colnames | Some c => c end in
  let f' := match dget "obsdate" (f_cols f) with
            | Some dates =>
                if dmem "obsmjd" (f_cols f) then f
                else mkFrame (f_labels f) (dset "obsmjd" (map (fun c => match c with CStr s => CNum (mjd s) | c => c end) dates) (f_cols f))
            | None => f
            end in
  survey_make ztf_defaults ztf_zero_points f' cm meta kwargs fp.
(** Lines 154-184 [bandflux_error_point_source] *)
Definition ztf_errors (o : obstable) (flux : list R) (index : list nat) : result (list (option R)) :=
  if negb (in_rows o index) then Err IndexError
  else
    bind (need_cols o ["fwhm"; "exptime"; "sky"]%string) (fun _ =>
    bind (safe_number o "gain") (fun g => bind (need_cols o ["zp"]%string) (fun _ =>
    bind (safe_number o "read_noise") (fun rn => bind (safe_number o "dark_current") (fun dk =>
    if negb (length flux =? length index)%nat then Err ValueError
    else Ok (map (fun p => let '(x, i) := p in
           match row_num o "exptime" i, row_num o "fwhm" i, row_num o "sky" i, row_num o "zp" i with
           | Some t, Some w, Some s, Some z => ztf_error x t w s z g rn dk
           | _, _, _, _ => None
           end) (combine flux index))))))).
