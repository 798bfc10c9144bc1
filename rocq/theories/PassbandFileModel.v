(** Model of how [src/lightcurvelynx/astro_utils/passbands.py] makes passbands and groups of them from files, directories, presets and the
    SVO service: [PassbandGroup.__init__] for dictionaries (49-126), [from_dir] (169-225), [from_preset] (227-267), [_lsst_load_preset]
    (271-313), [_roman_load_preset] (317-369), [from_svo] (373-427), and [Passband.from_file] (740-806), [from_sncosmo] (810-849),
    [from_svo] (853-915), [load_transmission_table] (918-1004).  The file system and downloads are those of DownloadModel (C89).
    What is in a file is given by [parse], from the suffix of its name and its content: what numpy.loadtxt makes of the lines of a text
    file (comma separated or not), or astropy of a VOTable.  Floats are reals; NaN is not modelled. *)
From Coq Require Import Reals String Ascii List Bool Arith ZArith Lia Lra.
From Verif Require Import Base RealBase PassbandModel DownloadModel.
Import ListNotations.
Open Scope string_scope.
Open Scope list_scope.
Open Scope nat_scope.

(** ** pathlib *)
(** [str.rfind(".")] *)
Fixpoint rfind_dot (s : string) : option nat :=
  match s with
  | EmptyString => None
  | String c s' => match rfind_dot s' with Some k => Some (S k) | None => if Ascii.eqb c "." then Some 0 else None end
  end.
(** [Path.suffix] and [Path.stem] of a file name. *)
Definition suffix (name : string) : string :=
  match rfind_dot name with
  | Some i => if ((0 <? i) && (i <? String.length name - 1))%bool then String.substring i (String.length name - i) name else ""
  | None => ""
  end.
Definition stem (name : string) : string :=
  match rfind_dot name with
  | Some i => if ((0 <? i) && (i <? String.length name - 1))%bool then String.substring 0 i name else name
  | None => name
  end.
Definition file_name (p : path) : string := List.last p "".
(** [str.lower] of ASCII letters. *)
Definition lower_ascii (c : ascii) : ascii :=
  let n := nat_of_ascii c in if ((65 <=? n) && (n <=? 90))%bool then ascii_of_nat (n + 32) else c.
Fixpoint lower (s : string) : string := match s with EmptyString => EmptyString | String c s' => String (lower_ascii c) (lower s') end.
(** [str.split(c)] *)
Fixpoint split_on (c : ascii) (s : string) : list string :=
  match s with
  | EmptyString => [""]
  | String d s' => if Ascii.eqb d c then "" :: split_on c s'
                   else match split_on c s' with w :: ws => String d w :: ws | [] => [String d ""] end
  end.

(** ** Files *)
Record votable := mkVO { vo_fields : list string; vo_unit : option string; vo_rows : list (R * R) }.
Inductive content := Text (rows : list (list R)) | Vo (t : votable) | Unreadable.

(** [np.loadtxt] followed by the check of lines 982-983.  loadtxt gives an array of one dimension for a file of one row or one column,
    which has no [shape[1]] (IndexError); rows of different lengths are a ValueError. *)
Definition two_columns (rows : list (list R)) : result table :=
  match rows with
  | [] => Err ValueError
  | [_] => Err IndexError
  | r :: rows' =>
      if negb (forallb (fun s => length s =? length r) rows') then Err ValueError
      else if length r <=? 1 then Err IndexError
      else if negb (length r =? 2) then Err ValueError
      else Ok (map (fun s => (nth 0 s 0%R, nth 1 s 0%R)) rows)
  end.
(** Lines 985-1004.  As in the constructor, duplicates raise TypeError ([dup_inds] is a tuple). *)
Definition in_angstroms (t : table) (u : wunits) : result table :=
  match t with
  | [] => Err ValueError
  | _ =>
      bind (match u with
            | Nm => Ok (map (fun p => (fst p * 10, snd p)%R) t)
            | Angstrom => Ok t
            | BadUnits => Err ValueError
            end) (fun t =>
      if existsb (fun d => Rltb d 0) (diffs (xs t)) then Err ValueError
      else if existsb (fun d => Reqb d 0) (diffs (xs t)) then Err TypeError
      else Ok t)
  end.
Definition nm_names : list string := ["nm"; "nanometers"; "namo"; "nanometer"].
Definition a_names : list string := ["a"; "aa"; "angstrom"; "angstroms"].
Definition vo_suffixes : list string := [".xml"; ".vot"; ".votable"].
Definition text_suffixes : list string := [".csv"; ".ecsv"; ".txt"; ".dat"].
(** Lines 945-980 [load_transmission_table].  A path that is not a file: FileNotFoundError or IsADirectoryError, here RuntimeError. *)
Definition load_table (parse : string -> Z -> content) (w : world) (p : path) (u : wunits) : result table :=
  match w_file w p with
  | None => Err RuntimeError
  | Some c =>
      let sfx := suffix (file_name p) in
      if smem sfx vo_suffixes then
        match parse sfx c with
        | Vo t =>
            match vo_fields t with
            | [a; _] =>
                if negb (String.prefix "wave" (lower a)) then Err ValueError
                else match vo_unit t with
                     | None => Err AttributeError
                     | Some un =>
                         if smem (lower un) nm_names then in_angstroms (vo_rows t) Nm
                         else if smem (lower un) a_names then in_angstroms (vo_rows t) Angstrom
                         else Err ValueError
                     end
            | _ => Err ValueError
            end
        | _ => Err ValueError
        end
      else if smem sfx text_suffixes then
        match parse sfx c with
        | Text rows => bind (two_columns rows) (fun t => in_angstroms t u)
        | _ => Err ValueError
        end
      else Err ValueError
  end.

(** Lines 740-806 [Passband.from_file]; [base]: the data directory. *)
Record params := mkParams {
  f_survey : string; f_filter : string; f_delta : option R; f_q : option R; f_path : option path; f_url : option string; f_units : wunits; f_force : bool }.
Definition table_path (base : path) (f : params) : path :=
  match f_path f with Some p => p | None => base ++ ["passbands"; f_survey f; (f_filter f ++ ".dat")%string] end.
Definition from_file (parse : string -> Z -> content) (base : path) (w : world) (f : params) : result passband * world :=
  let p := table_path base f in
  match download w p (f_url f) (f_force f) with
  | (Ok true, w') => (bind (load_table parse w' p (f_units f)) (fun t => pb_make t (f_survey f) (f_filter f) (f_delta f) (f_q f) Angstrom), w')
  | (Ok false, w') => (Err RuntimeError, w')
  | (Err e, w') => (Err e, w')
  end.
(** Lines 78-97 of [PassbandGroup.__init__]: the passbands of a list of dictionaries, one after the other. *)
Fixpoint load_all (parse : string -> Z -> content) (base : path) (w : world) (fs : list params) : result (list passband) * world :=
  match fs with
  | [] => (Ok [], w)
  | f :: fs' =>
      match from_file parse base w f with
      | (Err e, w1) => (Err e, w1)
      | (Ok p, w1) => match load_all parse base w1 fs' with
                      | (Ok ps, w2) => (Ok (p :: ps), w2)
                      | (Err e, w2) => (Err e, w2)
                      end
      end
  end.
Definition group_load (parse : string -> Z -> content) (base : path) (w : world) (fs : list params) (filters : option (list string)) : result pgroup * world :=
  match load_all parse base w fs with
  | (Ok ps, w') => (pg_make ps filters, w')
  | (Err e, w') => (Err e, w')
  end.

(** Lines 169-225 [from_dir].  [listing]: the names of the entries of a directory in the order of [iterdir]; a relative directory is a
    list of names below the working directory (no ".."). *)
Definition dir_path (d : darg) : path := match d with Abs p => p | Rel p => p end.
Definition dir_file (w : world) (d : darg) (name : string) : path := at_cwd w d ++ [name].
(** [dir_path / entry], where [entry] already begins with [dir_path]; an absolute entry replaces the directory. *)
Definition joined (w : world) (d : darg) (name : string) : path :=
  match d with Abs p => p ++ [name] | Rel p => at_cwd w (Rel (p ++ p ++ [name])) end.
Definition is_file (w : world) (p : path) : bool := match w_file w p with Some _ => true | None => false end.
Definition from_dir (parse : string -> Z -> content) (base : path) (w : world) (listing : path -> list string) (d : darg)
    (filters : option (list string)) (delta q : option R) (u : wunits) : result pgroup * world :=
  if negb (w_dir w (at_cwd w d)) then (Err ValueError, w)
  else
    let names := filter (fun name => (is_file w (dir_file w d name) && match filters with None => true | Some fs => smem (stem name) fs end)%bool)
                        (listing (at_cwd w d)) in
    group_load parse base w
      (map (fun name => mkParams (file_name (dir_path d)) (stem name) delta q (Some (joined w d name)) None u false) names) filters.

(** ** Presets *)
(** The keyword arguments of [from_preset] that its loaders look at; [None]: not given. *)
Record kwargs := mkKw { k_units : option string; k_delta : option (option R); k_q : option (option R); k_force : option bool }.
Definition no_kwargs : kwargs := mkKw None None None None.
Definition units_of (s : string) : wunits := if String.eqb s "nm" then Nm else if String.eqb s "A" then Angstrom else BadUnits.
Definition delta_of (k : kwargs) : option R := match k_delta k with Some d => d | None => Some 5%R end.
Definition q_of (k : kwargs) : option R := match k_q k with Some q => q | None => Some (1 / 1000)%R end.
Definition force_of (k : kwargs) : bool := match k_force k with Some b => b | None => false end.
Definition lsst_filters : list string := ["u"; "g"; "r"; "i"; "z"; "y"].
Definition lsst_url (f : string) : string := ("https://github.com/lsst/throughputs/blob/main/baseline/total_" ++ f ++ ".dat?raw=true")%string.
(** Lines 271-313. *)
Definition lsst_params (dir : path) (k : kwargs) (f : string) : params :=
  mkParams "LSST" f (delta_of k) (q_of k) (Some (dir ++ ["LSST"; (f ++ ".dat")%string])) (Some (lsst_url f)) Nm (force_of k).
Definition lsst_preset (parse : string -> Z -> content) (base : path) (w : world) (dir : path) (k : kwargs) : result (list passband) * world :=
  match k_units k with
  | Some u => if String.eqb u "nm" then load_all parse base w (map (lsst_params dir k) lsst_filters) else (Err ValueError, w)
  | None => load_all parse base w (map (lsst_params dir k) lsst_filters)
  end.
(** Lines 317-369; [columns]: what pandas reads from the file (column name -> numbers).  All keyword arguments go on to [Passband],
    which knows no [force_download] (TypeError) and no unit "micron". *)
Definition roman_filters : list string := ["F062"; "F087"; "F106"; "F129"; "F146"; "F158"; "F184"; "F213"].
Definition roman_url : string :=
  "https://github.com/RomanSpaceTelescope/roman-technical-information/blob/main/data/WideFieldInstrument/Imaging/EffectiveAreas/Roman_effarea_v8_SCA01_20240301.ecsv?raw=true".
Definition roman_band (k : kwargs) (waves : list R) (cols : dict (list R)) (f : string) : result passband :=
  match dget f cols with
  | None => Err KeyError
  | Some vs =>
      match k_force k with
      | Some _ => Err TypeError
      | None => pb_make (combine (map (fun x => x * 10000)%R waves) vs) "Roman" f (delta_of k) (q_of k)
                  (match k_units k with Some u => units_of u | None => Angstrom end)
      end
  end.
Fixpoint map_res {X Y} (g : X -> result Y) (l : list X) : result (list Y) :=
  match l with [] => Ok [] | x :: l' => bind (g x) (fun y => bind (map_res g l') (fun ys => Ok (y :: ys))) end.
Definition roman_file (dir : path) : path := dir ++ ["Roman"; "roman_wfi_filters.ecsv"].
Definition roman_bands (columns : Z -> option (dict (list R))) (w : world) (dir : path) (k : kwargs) : result (list passband) :=
  match w_file w (roman_file dir) with
  | None => Err RuntimeError
  | Some c => match columns c with
              | None => Err ValueError
              | Some cols => match dget "Wave" cols with
                             | None => Err KeyError
                             | Some waves => map_res (roman_band k waves cols) roman_filters
                             end
              end
  end.
Definition roman_preset (columns : Z -> option (dict (list R))) (w : world) (dir : path) (k : kwargs) : result (list passband) * world :=
  if negb (String.eqb (match k_units k with Some u => u | None => "micron" end) "micron") then (Err ValueError, w)
  else match download w (roman_file dir) (Some roman_url) (force_of k) with
       | (Ok true, w') => (roman_bands columns w' dir k, w')
       | (Ok false, w') => (Err RuntimeError, w')
       | (Err e, w') => (Err e, w')
       end.
(** Lines 810-849 [from_sncosmo] with a registered name; [registry]: the table of the band that sncosmo knows by that name (otherwise an
    error of sncosmo, here ValueError).  The keyword arguments are not used; [delta_wave] has its default. *)
Definition from_sncosmo (registry : string -> option table) (survey filter name : string) (k : kwargs) : result passband :=
  match registry name with
  | None => Err ValueError
  | Some t => pb_make t survey filter (Some 5%R) None Angstrom
  end.
Definition ztf_filters : list string := ["g"; "r"; "i"].
Definition ztf_preset (registry : string -> option table) (k : kwargs) : result (list passband) :=
  map_res (fun f => from_sncosmo registry "ZTF" f ("ztf" ++ f)%string k) ztf_filters.
(** Lines 227-267 [from_preset]; the keyword arguments go also to the constructor of the group, which only uses them for dictionaries. *)
Definition from_preset (parse : string -> Z -> content) (columns : Z -> option (dict (list R))) (registry : string -> option table)
    (base : path) (w : world) (preset : string) (table_dir : option path) (filters : option (list string)) (k : kwargs) : result pgroup * world :=
  let dir := match table_dir with Some d => d | None => base ++ ["passbands"] end in
  let name := lower preset in
  match (if String.eqb name "lsst" then lsst_preset parse base w dir k
         else if String.eqb name "ztf" then (ztf_preset registry k, w)
         else if String.eqb name "roman" then roman_preset columns w dir k
         else (Err ValueError, w)) with
  | (Ok ps, w') => (pg_make ps filters, w')
  | (Err e, w') => (Err e, w')
  end.

(** ** The SVO service *)
Definition nonempty (s : string) : bool := match s with EmptyString => false | _ => true end.
Definition svo_url (name : string) : string := ("https://svo2.cab.inta-csic.es/svo/theory/fps3/fps.php?ID=" ++ name)%string.
(** Lines 853-915.  The survey may hold "/", which pathlib takes as separators (a survey that begins with "/" is not modelled).  *)
Definition svo_params (base : path) (name survey flt : string) (delta q : option R) (table_dir : option path) (force : bool) (u : wunits) : params :=
  mkParams survey flt delta q
    (Some ((match table_dir with Some d => d | None => base ++ ["passbands"] end) ++ List.filter nonempty (split_on "/" survey) ++ [(flt ++ ".xml")%string]))
    (Some (svo_url name)) u force.
Definition from_svo (parse : string -> Z -> content) (base : path) (w : world) (name : string) (delta q : option R) (table_dir : option path)
    (force : bool) (u : wunits) : result passband * world :=
  match split_on "." name with
  | [survey; flt] => from_file parse base w (svo_params base name survey flt delta q table_dir force u)
  | _ => (Err ValueError, w)
  end.
(** Lines 373-427. *)
Fixpoint svo_all (parse : string -> Z -> content) (base : path) (w : world) (names : list string) (delta q : option R) (table_dir : option path)
    (force : bool) : result (list passband) * world :=
  match names with
  | [] => (Ok [], w)
  | name :: names' =>
      match from_svo parse base w name delta q table_dir force Angstrom with
      | (Err e, w1) => (Err e, w1)
      | (Ok p, w1) => match svo_all parse base w1 names' delta q table_dir force with
                      | (Ok ps, w2) => (Ok (p :: ps), w2)
                      | (Err e, w2) => (Err e, w2)
                      end
      end
  end.
Definition group_from_svo (parse : string -> Z -> content) (base : path) (w : world) (names : list string) (delta q : option R)
    (table_dir : option path) (force : bool) : result pgroup * world :=
  match svo_all parse base w names delta q table_dir force with
  | (Ok ps, w') => (pg_make ps None, w')
  | (Err e, w') => (Err e, w')
  end.
