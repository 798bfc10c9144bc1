(** Roman's observation table ([obstable/roman_obstable.py]). *)
From Coq Require Import Reals String List Bool Arith Lia Lra.
From Verif Require Import Base RealBase ObsTableModel NoiseModel FakeModel SurveyModel.
Import ListNotations.
Open Scope R_scope.

(** Lines 47-58 and 61-70: the characterisation tables, as lists of rows in file order: band or MA table number, and value. *)
Record rchar := mkChar {
  rc_zp : list (string * R);        (* zp_table: element, ABMag *)
  rc_psf : list (string * R);       (* psf_table: Filter, N_Eff_Pix *)
  rc_zodi : list (string * R);      (* zodiacal_table: filter, rate *)
  rc_thermal : list (string * R);   (* thermal_table: filter, rate *)
  rc_ma : list (R * R)              (* ma_table: MATableNumber, Exptime *)
}.
(** Lines 126-136: [table.loc[table.key == k, "value"].values[0]] *)
Definition first_row {K} (eqb : K -> K -> bool) (k : K) (t : list (K * R)) : result R :=
  match filter (fun kv => eqb (fst kv) k) t with kv :: _ => Ok (snd kv) | [] => Err IndexError end.
(** Lines 127-144: [table.loc[key == table.COL, name] = v], the mask being given *)
Definition set_rows (m : list bool) (v : R) (c : list cell) : list cell :=
  map (fun bc => if fst bc : bool then CNum v else snd bc) (combine m c).
Definition set_col (name : string) (m : list bool) (v : R) (f : frame) : frame :=
  mkFrame (f_labels f) (dset name (set_rows m v (match dget name (f_cols f) with Some c => c | None => [] end)) (f_cols f)).
Definition whole_col (name : string) (c : list cell) (f : frame) : frame := mkFrame (f_labels f) (dset name c (f_cols f)).
Definition text_is (s : string) (c : cell) : bool := match c with CStr t => String.eqb s t | _ => false end.
Definition num_is (r : R) (c : cell) : bool := match c with CNum t => Reqb r t | _ => false end.
(** [np.unique] of a column of text (in any order) or numbers (ascending); other cells are outside the model: TypeError. *)
Definition texts (c : list cell) : result (list string) :=
  bind (seq_res (map (fun x => match x with CStr s => Ok s | _ => Err TypeError end) c)) (fun l =>
    Ok (fold_left (fun acc s => sadd s acc) l [])).
Fixpoint insert_num (x : R) (l : list R) : list R :=
  match l with
  | [] => [x]
  | y :: l' => if Reqb x y then l else if Rltb x y then x :: l else y :: insert_num x l'
  end.
Definition numbers (c : list cell) : result (list R) :=
  bind (seq_res (map (fun x => match x with CNum r => Ok r | _ => Err TypeError end) c)) (fun l => Ok (fold_right insert_num [] l)).
(** Lines 116-146 [_append_apt_table]; [table.BANDPASS] for a missing column is an AttributeError. *)
Definition attr_col (name : string) (f : frame) : result (list cell) :=
  match dget name (f_cols f) with Some c => Ok c | None => Err AttributeError end.
Definition zeros (f : frame) : list cell := map (fun _ => CNum 0) (f_labels f).
Definition band_step (ch : rchar) (bp : list cell) (f : frame) (band : string) : result frame :=
  let m := map (text_is band) bp in
  bind (first_row String.eqb band (rc_zp ch)) (fun zp => let f := set_col "zp_abmag" m zp f in
  bind (first_row String.eqb band (rc_psf ch)) (fun n => let f := set_col "N_Eff_Pix" m n f in
  bind (first_row String.eqb band (rc_zodi ch)) (fun z => let f := set_col "zodi_countrate_min" m z f in
  bind (first_row String.eqb band (rc_thermal ch)) (fun t => Ok (set_col "thermal_countrate" m t f))))).
Definition ma_step (ch : rchar) (ma : list cell) (f : frame) (n : R) : result frame :=
  bind (first_row Reqb n (rc_ma ch)) (fun t => Ok (set_col "exptime" (map (num_is n) ma) t f)).
Definition pass_step (ps : list cell) (f : frame) (ip : nat * R) : result frame :=
  Ok (set_col "time" (map (num_is (snd ip)) ps) (61304 + 5 * INR (fst ip)) f).
Definition roman_append (ch : rchar) (f : frame) : result frame :=
  let f := fold_left (fun f name => whole_col name (zeros f) f)
             ["zp_abmag"; "N_Eff_Pix"; "zodi_countrate_min"; "thermal_countrate"; "time"; "exptime"]%string f in
  bind (attr_col "BANDPASS" f) (fun bp => bind (texts bp) (fun bands =>
  bind (fold_res (band_step ch bp) f bands) (fun f =>
  bind (attr_col "MA_TABLE_NUMBER" f) (fun ma => bind (numbers ma) (fun mas =>
  bind (fold_res (ma_step ch ma) f mas) (fun f =>
  bind (attr_col "PASS" f) (fun ps => bind (numbers ps) (fun passes =>
  bind (fold_res (pass_step ps) f (combine (seq 0 (length passes)) passes)) (fun f =>
  Ok (whole_col "zp_nJy" (map (fun c => match c with CNum m => CNum (mag2flux m) | c => c end)
        (match dget "zp_abmag" (f_cols f) with Some c => c | None => [] end)) f)))))))))).
(** Lines 92-101 *)
Definition roman_colnames : dict string :=
  [("dec", "DEC"); ("filter", "BANDPASS"); ("ra", "RA"); ("zp", "zp_nJy"); ("time", "time")]%string.
Definition roman_defaults : dict sval :=
  [("dark_current", SNum 0); ("pixel_scale", SNum (11 / 100)); ("survey_name", SText "Roman"); ("radius", SNum (sqrt ((28 / 100) / PI)));
   ("zodi_level", SNum (15 / 10))]%string.
(** The argument [table] is a data frame or a dictionary, which has no attribute BANDPASS. *)
Inductive rtable := RFrame (f : frame) | RDict (d : dict (list cell)).
(** Lines 103-114 [__init__] and 61-70 [_get_ma_table], which assigns the file name only when no path is given.  The result
    is the table of the caller afterwards and the object; [meta] is the table's attrs. *)
Definition roman_make (ch : rchar) (t : rtable) (colmap : option (dict string)) (ma_table_path : option string) (meta kwargs : dict sval)
  (fp : option footprint) : result (frame * obstable) :=
  match ma_table_path with
  | Some _ => Err NameError
  | None =>
      match t with
      | RDict _ => Err AttributeError
      | RFrame f =>
          bind (roman_append ch f) (fun f' =>
          bind (survey_make roman_defaults Ok f' (match colmap with None => roman_colnames | Some c => c end) meta kwargs fp) (fun o =>
          Ok (f', o)))
      end
  end.
(** Lines 206-246 [bandflux_error_point_source], for as many fluxes as indices; non-finite results are [None]. *)
Definition read_square (t : R) : R := let n := t / (304 / 100) in 25 + 3072 * ((n - 1) / n / (n + 1)).
Definition roman_row (x : R) (t nz nt np zp : option R) (lvl dk : R) : option R :=
  match t, nz, nt, np, zp with
  | Some t, Some nz, Some nt, Some np, Some zp =>
      if (Reqb t 0 || Reqb (t / (304 / 100) + 1) 0 || Rltb (read_square t) 0)%bool then None else roman_error x t np lvl nz nt zp dk
  | _, _, _, _, _ => None
  end.
Definition roman_errors (o : obstable) (flux : list R) (index : list nat) : result (list (option R)) :=
  if negb (in_rows o index) then Err IndexError
  else
    bind (need_cols o ["exptime"]%string) (fun _ => bind (safe_number o "zodi_level") (fun lvl =>
    bind (need_cols o ["zodi_countrate_min"; "thermal_countrate"; "N_Eff_Pix"; "zp"]%string) (fun _ =>
    bind (safe_number o "dark_current") (fun dk =>
    if negb (length flux =? length index)%nat then Err ValueError
    else Ok (map (fun p => let '(x, i) := p in
           roman_row x (row_num o "exptime" i) (row_num o "zodi_countrate_min" i) (row_num o "thermal_countrate" i) (row_num o "N_Eff_Pix" i)
                     (row_num o "zp" i) lvl dk) (combine flux index)))))).
