(** Model of [src/lightcurvelynx/obstable/fake_obs_table.py] class [FakeObsTable]. *)
From Coq Require Import Reals String List Bool Arith Lia Lra.
From Verif Require Import Base RealBase ObsTableModel NoiseModel.
Import ListNotations.
Open Scope R_scope.

(** Lines 61-70 [_default_survey_values]. *)
Definition fake_defaults : dict sval :=
  [("dark_current", SNum 0); ("exptime", SNum 30); ("fwhm_px", SNone); ("nexposure", SNum 1); ("radius", SNone);
   ("read_noise", SNum 0); ("sky", SNone); ("survey_name", SText "FAKE_SURVEY")]%string.
(** The argument [const_flux_error]: missing, a number or a dictionary. *)
Inductive cflux := CFNone | CFNum (r : R) | CFMap (m : dict R).
(** Lines 72-88: the keyword arguments of the constructor; [fa_extra] is [**kwargs]. *)
Record fake_args := mkFake {
  fa_zp : option (dict R); fa_const : cflux; fa_dark : sval; fa_exptime : sval; fa_footprint : sval; fa_fwhm : sval;
  fa_nexp : sval; fa_radius : sval; fa_read : sval; fa_sky : sval; fa_extra : dict sval }.
(** The default arguments in the signature. *)
Definition fake_signature : fake_args :=
  mkFake None CFNone (SNum 0) (SNum 30) SNone SNone (SNum 1) SNone (SNum 0) SNone [].
(** Lines 93-105: what is handed to [ObsTable.__init__]. *)
Definition fake_kwargs (a : fake_args) : dict sval :=
  [("dark_current", fa_dark a); ("exptime", fa_exptime a); ("psf_footprint", fa_footprint a); ("fwhm_px", fa_fwhm a);
   ("nexposure", fa_nexp a); ("radius", fa_radius a); ("read_noise", fa_read a); ("sky", fa_sky a)]%string ++ fa_extra a.
(** obs_table.py lines 119-129 with this class's defaults. *)
Definition fake_values (meta : dict sval) (a : fake_args) : dict sval :=
  fold_left (fun acc kv => dset (fst kv) (snd kv) acc) (fake_kwargs a)
    (fold_left (fun acc kv => dset (fst kv) (snd kv) acc) meta fake_defaults).

(** Lines 136-162 [_assign_zero_points]. *)
Definition fake_zero_points (zpb : option (dict R)) (o : obstable) : result obstable :=
  let f := ob_frame o in
  if dmem "zp" (f_cols f) then Ok o
  else match zpb with
  | None => Err ValueError
  | Some m =>
      if negb (dmem "filter" (f_cols f)) then Err ValueError
      else if negb (forallb (fun fil => dmem fil m) (ob_filters o)) then Err ValueError
      else
        bind (fold_res (fun vals kv =>
          if Rleb (snd kv) 0 then Err ValueError
          else Ok (set_where (fst kv) (snd kv) (filter_cells f) vals)) (repeat 0 (nrows f)) m) (fun vals =>
        add_column o "zp" (ColList (map CNum vals)) true)
  end.

(** Lines 107-119: the constant flux error per band. *)
Definition fake_const (c : cflux) (filters : list string) : result (option (dict R)) :=
  let check (m : dict R) :=
    if negb (forallb (fun fil => dmem fil m) filters) then Err ValueError
    else if existsb (fun kv => Rltb (snd kv) 0) m then Err ValueError
    else Ok (Some m) in
  match c with
  | CFNone => Ok None
  | CFNum v => check (map (fun fil => (fil, v)) filters)
  | CFMap m => check m
  end.
(** [if not self._assign_constant_if_needed(...): raise ValueError] *)
Definition needs (o : obstable) (name : string) (check_positive : bool) : result obstable :=
  bind (assign_constant o name check_positive) (fun r => if fst r then Ok (snd r) else Err ValueError).
(** Lines 120-134: the columns of the noise model. *)
Definition fake_noise_columns (o : obstable) : result obstable :=
  bind (needs o "exptime" true) (fun o =>
  bind (needs o "nexposure" true) (fun o =>
  bind (bind (assign_constant o "psf_footprint" true) (fun r =>
    if fst r then Ok (snd r)
    else
      bind (needs (snd r) "fwhm_px" true) (fun o =>
        add_column o "psf_footprint"
          (ColList (map (fun w => CNum (gauss_area * (w * w))) (num_col "fwhm_px" (ob_frame o)))) false))) (fun o =>
  needs o "sky" false))).

Record fake := mkFakeTable { fk_obs : obstable; fk_const : option (dict R) }.
(** Lines 72-134 [__init__] (with obs_table.py lines 80-146; the tree is built after the zero points). *)
Definition fake_make (f : frame) (colmap : option (dict string)) (meta : dict sval) (a : fake_args) (fp : option footprint)
  : result fake :=
  bind (remap colmap f) (fun fi =>
    let '(f', inv) := fi in
    if negb (forallb (fun c => smem c (columns f')) required) then Err KeyError
    else
      let o := mkObs f' inv (fake_values meta a) (unique_filters f') [] fp in
      bind (if ob_contains o "zp" then Ok o else fake_zero_points (fa_zp a) o) (fun o =>
      let o := mkObs (ob_frame o) (ob_inv o) (ob_values o) (ob_filters o) (build_tree (ob_frame o)) (ob_footprint o) in
      bind (fake_const (fa_const a) (ob_filters o)) (fun c =>
        match c with
        | Some m => Ok (mkFakeTable o (Some m))
        | None => bind (fake_noise_columns o) (fun o => Ok (mkFakeTable o None))
        end))).

(** obs_table.py lines 213-226 [safe_get_survey_value], used as a number. *)
Definition safe_number (o : obstable) (key : string) : result R :=
  match dget key (ob_values o) with
  | None | Some SNone => Err ValueError
  | Some (SNum r) => Ok r
  | Some _ => Err TypeError
  end.
(** [observations[name]] *)
Definition need_col (o : obstable) (name : string) : result (list cell) :=
  match dget name (f_cols (ob_frame o)) with Some c => Ok c | None => Err KeyError end.
Fixpoint seq_res {A} (l : list (result A)) : result (list A) :=
  match l with [] => Ok [] | r :: l' => bind r (fun a => bind (seq_res l') (fun t => Ok (a :: t))) end.
(** Lines 164-199 [bandflux_error_point_source], for as many fluxes as indices and indices counted from the
    start; a non-finite result is [None]. *)
Definition fake_error (k : fake) (flux : list R) (index : list nat) : result (list (option R)) :=
  let o := fk_obs k in
  match fk_const k with
  | Some m =>
      bind (need_col o "filter") (fun filters =>
      if negb (forallb (fun i => (i <? nrows (ob_frame o))%nat) index) then Err IndexError
      else seq_res (map (fun i => match nth_error filters i with
                                  | Some (CStr s) => match dget s m with Some v => Ok (Some v) | None => Err KeyError end
                                  | _ => Err KeyError
                                  end) index))
  | None =>
      if negb (forallb (fun i => (i <? nrows (ob_frame o))%nat) index) then Err IndexError
      else
        bind (need_col o "psf_footprint") (fun fpc => bind (need_col o "exptime") (fun tc =>
        bind (need_col o "nexposure") (fun nc => bind (need_col o "sky") (fun sc => bind (need_col o "zp") (fun zc =>
        bind (safe_number o "read_noise") (fun rn => bind (safe_number o "dark_current") (fun dk =>
        if negb (length flux =? length index)%nat then Err ValueError
        else
          let at_ c i := num_of (nth i c (CNum 0)) in
          Ok (map (fun p => let '(x, i) := p in
                poisson_std x (at_ tc i) (at_ nc i) (at_ fpc i) (at_ sc i) (at_ zc i) (RNum rn) dk)
              (combine flux index)))))))))
  end.
