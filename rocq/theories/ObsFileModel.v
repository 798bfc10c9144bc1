(** Saving survey tables to files and loading them again: [src/lightcurvelynx/obstable/obs_table.py] [from_db] (245-283),
    [from_parquet] (285-302), [write_db] (378-404), [write_parquet] (406-426), [time_bounds] (428-438), the [radius] setter (233-238),
    and [ztf_obstable.py] [from_db] (111-152); the classes' constructors are those of ObsTableModel, SurveyModel, FakeModel and RomanModel.
    Not modelled: files pyarrow or sqlite cannot open for other reasons, named indices, survey values JSON cannot write (numpy arrays),
    limits of sqlite (2000 columns). *)
From Coq Require Import Reals String Ascii List Bool Arith Lia Lra.
From Verif Require Import Base RealBase ObsTableModel NoiseModel FakeModel SurveyModel RomanModel.
Import ListNotations.
Open Scope string_scope.
Open Scope list_scope.
Open Scope nat_scope.

(** ** Files *)
(** The columns of a database table, in order. *)
Definition sqltable : Type := dict (list cell).
(** The entry "lightcurvelynx_survey_data" of a parquet file's attrs: a dictionary or something else. *)
Inductive attr := AMap (m : dict sval) | AOther.
(** What a file holds: a parquet table (rows, labels, attrs entry), a database (tables by name), or neither. *)
Inductive file := FParquet (f : frame) (a : option attr) | FDb (d : dict sqltable) | FOther.
Definition files : Type := string -> option file.
Definition put (p : string) (x : file) (fs : files) : files := fun q => if String.eqb q p then Some x else fs q.

(** [str.lower] of ASCII letters: sqlite's names do not depend on case. *)
Definition low_char (c : ascii) : ascii :=
  let n := nat_of_ascii c in if ((65 <=? n) && (n <=? 90))%bool then ascii_of_nat (n + 32) else c.
Fixpoint low (s : string) : string := match s with EmptyString => EmptyString | String c s' => String (low_char c) (low s') end.

(** ** Survey classes *)
(** A class with its default values, zero points, default column map, and what its constructor does to the table first. *)
Record klass := mkKlass { k_defaults : dict sval; k_zero : obstable -> result obstable; k_map : dict string; k_prep : frame -> frame }.
Definition kmake (k : klass) (f : frame) (colmap : option (dict string)) (meta kwargs : dict sval) (fp : option footprint) : result obstable :=
  survey_make (k_defaults k) (k_zero k) (k_prep k f) (match colmap with None => k_map k | Some c => c end) meta kwargs fp.
(** obs_table.py lines 350-356: the base class derives no zero points. *)
Definition base_class : klass := mkKlass default_values Ok [] (fun f => f).
(** opsim.py lines 42-117 *)
Definition opsim_class : klass := mkKlass opsim_defaults opsim_zero_points opsim_colnames (fun f => f).
(** ztf_obstable.py lines 30-109; lines 78-81 are [k_prep] *)
Definition add_mjd (mjd : string -> R) (f : frame) : frame :=
  match dget "obsdate" (f_cols f) with
  | Some dates =>
      if dmem "obsmjd" (f_cols f) then f
      else mkFrame (f_labels f) (dset "obsmjd" (map (fun c => match c with CStr s => CNum (mjd s) | c => c end) dates) (f_cols f))
  | None => f
  end.
Definition ztf_class (mjd : string -> R) : klass := mkKlass ztf_defaults ztf_zero_points ztf_colnames (add_mjd mjd).

(** Lines 233-238: the [radius] setter. *)
Definition set_radius (o : obstable) (r : R) : result obstable :=
  if Rleb r 0 then Err ValueError
  else Ok (mkObs (ob_frame o) (ob_inv o) (dset "radius" (SNum r) (ob_values o)) (ob_filters o) (ob_tree o) (ob_footprint o)).
(** Lines 167-169 [clear_detector_footprint]. *)
Definition clear_footprint (o : obstable) : obstable :=
  mkObs (ob_frame o) (ob_inv o) (ob_values o) (ob_filters o) (ob_tree o) None.

(** ** Parquet *)
(** pyarrow's conversion of a column of objects: it must be all numbers or all text, up to missing values; the first value decides
    which error is raised. *)
Fixpoint first_value (c : list cell) : option cell :=
  match c with [] => None | CNan :: c' => first_value c' | x :: _ => Some x end.
Definition arrow_column (c : list cell) : result unit :=
  match first_value c with
  | None | Some CNan => Ok tt
  | Some (CNum _) => if forallb (fun x => match x with CStr _ => false | _ => true end) c then Ok tt else Err ValueError
  | Some (CStr _) => if forallb (fun x => match x with CNum _ => false | _ => true end) c then Ok tt else Err TypeError
  end.
Fixpoint arrow_columns (d : dict (list cell)) : result unit :=
  match d with [] => Ok tt | kc :: d' => bind (arrow_column (snd kc)) (fun _ => arrow_columns d') end.
(** Lines 406-426 [write_parquet]: the rows with their labels, and all survey values as metadata.  [RuntimeError] stands for
    FileExistsError. *)
Definition write_parquet (fs : files) (o : obstable) (p : string) (overwrite : bool) : result unit * files :=
  if (negb overwrite && match fs p with Some _ => true | None => false end)%bool then (Err RuntimeError, fs)
  else
    match arrow_columns (f_cols (ob_frame o)) with
    | Err e => (Err e, fs)
    | Ok _ => (Ok tt, put p (FParquet (ob_frame o) (Some (AMap (ob_values o)))) fs)
    end.
(** Lines 298-301: the table of a parquet file and its metadata (lines 119-127 refuse metadata that is no dictionary, but only after
    the columns have been checked: [TypeError] here stands for either error).  [RuntimeError] stands for FileNotFoundError. *)
Definition load_parquet (fs : files) (p : string) : result (frame * dict sval) :=
  match fs p with
  | None => Err RuntimeError
  | Some (FParquet f None) => Ok (f, [])
  | Some (FParquet f (Some (AMap m))) => Ok (f, m)
  | Some (FParquet _ (Some AOther)) => Err TypeError
  | Some _ => Err ValueError
  end.
(** Lines 285-302 [from_parquet] of the base class, OpSim and ZTF. *)
Definition from_parquet (k : klass) (fs : files) (p : string) : result obstable :=
  bind (load_parquet fs p) (fun fm => kmake k (fst fm) None (snd fm) [] None).
(** The same for FakeObsTable: the arguments are those of the signature. *)
Definition fake_from_parquet (fs : files) (p : string) : result fake :=
  bind (load_parquet fs p) (fun fm => fake_make (fst fm) None (snd fm) fake_signature None).
(** The same for RomanObsTable. *)
Definition roman_from_parquet (ch : rchar) (fs : files) (p : string) : result obstable :=
  bind (load_parquet fs p) (fun fm => bind (roman_make ch (RFrame (fst fm)) None None (snd fm) [] None) (fun r => Ok (snd r))).

(** ** Databases *)
(** pandas [to_sql]: the row labels become the first column, named "index", or "level_0" if that is taken. *)
Definition label_name (cols : list string) : string := if smem "index" cols then "level_0" else "index".
Definition sql_columns (f : frame) : sqltable :=
  (label_name (columns f), map (fun n => CNum (INR n)) (f_labels f)) :: f_cols f.
(** sqlite accepts no two names that differ only by case, pandas no empty ones. *)
Fixpoint distinctb (l : list string) : bool :=
  match l with [] => true | x :: l' => (negb (smem x l') && distinctb l')%bool end.
Definition sql_names_ok (cols : list string) : bool := (distinctb (map low cols) && negb (smem "" cols))%bool.
Definition table_name_ok (t : string) (d : dict sqltable) : bool :=
  (negb (String.eqb t "") && negb (String.prefix "sqlite_" (low t)) && negb (smem (low t) (map low (dkeys d))))%bool.
(** Lines 378-404 [write_db].  With "replace" pandas drops the old table first; sqlite commits that at once. *)
Definition write_db (fs : files) (o : obstable) (p t : string) (overwrite : bool) : result unit * files :=
  let go (d : dict sqltable) :=
    if (dmem t d && negb overwrite)%bool then (Err ValueError, fs)
    else
      let d1 := ddel t d in
      let cols := sql_columns (ob_frame o) in
      if (table_name_ok t d1 && sql_names_ok (dkeys cols))%bool
      then (Ok tt, put p (FDb (d1 ++ [(t, cols)])) fs)
      else (Err ValueError, put p (FDb d1) fs) in
  match fs p with
  | None => go []
  | Some (FDb d) => go d
  | Some _ => (Err ValueError, fs)
  end.
(** A query: the table it selects, or nothing if sqlite refuses it.  [SELECT * FROM t] *)
Definition query : Type := dict sqltable -> option sqltable.
Fixpoint select_all (t : string) (d : dict sqltable) : option sqltable :=
  match d with
  | [] => None
  | (n, cols) :: d' => if String.eqb (low n) (low t) then Some cols else select_all t d'
  end.
(** Lines 267-281: [pd.read_sql_query]; the rows get the labels 0, 1, ...  The length is that of the first column. *)
Definition load_db (fs : files) (p : string) (q : query) : result frame :=
  match fs p with
  | None => Err RuntimeError
  | Some (FDb d) =>
      match q d with
      | None => Err ValueError
      | Some cols => Ok (mkFrame (seq 0 (match cols with [] => 0 | (_, c) :: _ => length c end)) cols)
      end
  | Some _ => Err ValueError
  end.
(** Lines 245-283 [from_db]; the arguments after the query are those passed on to the constructor. *)
Definition from_db (k : klass) (fs : files) (p : string) (q : query) (colmap : option (dict string)) (kwargs : dict sval)
  (fp : option footprint) : result obstable :=
  bind (load_db fs p q) (fun f => kmake k f colmap [] kwargs fp).
Definition default_query : query := select_all "observations".
(** ztf_obstable.py lines 111-152 [from_db], whose default query reads another table and which passes only the column map. *)
Definition ztf_default_query : query := select_all "exposures".
Definition ztf_from_db (mjd : string -> R) (fs : files) (p : string) (q : query) (colmap : option (dict string)) : result obstable :=
  bind (load_db fs p q) (fun f => kmake (ztf_class mjd) f (Some (match colmap with None => ztf_colnames | Some c => c end)) [] [] None).

(** ** Times *)
(** Lines 428-438 [time_bounds]: pandas skips missing values; without any time both bounds are NaN. *)
Definition times_of (c : list cell) : list R := flat_map (fun x => match x with CNum r => [r] | _ => [] end) c.
Definition time_bounds (o : obstable) : result (option R * option R) :=
  match dget "time" (f_cols (ob_frame o)) with
  | None => Err KeyError
  | Some c =>
      match times_of c with
      | [] => Ok (None, None)
      | t :: ts => Ok (Some (fold_left Rmin ts t), Some (fold_left Rmax ts t))
      end
  end.
