(** Model of [src/lightcurvelynx/obstable/obs_table.py] class [ObsTable] (without SQL/parquet files,
    MOC construction and noise).  A pandas data frame is a list of integer row labels and an ordered
    dict of columns; angles and times are reals. *)
From Coq Require Import Reals String List Bool Arith Lia Lra.
From Verif Require Import Base RealBase.
Import ListNotations.
Open Scope R_scope.

(** A cell: a number, text, or a missing or non-finite number (NaN). *)
Inductive cell := CNum (r : R) | CStr (s : string) | CNan.
(** The columns ra, dec, time are numeric; any other cell there is outside the model. *)
Definition num_of (c : cell) : R := match c with CNum r => r | _ => 0 end.

Record frame := mkFrame { f_labels : list nat; f_cols : dict (list cell) }.
Definition nrows (f : frame) : nat := length (f_labels f).
Definition columns (f : frame) : list string := dkeys (f_cols f).
(** [pd.DataFrame(dict)]: default labels 0..n-1, columns must have equal lengths. *)
Definition frame_of_dict (d : dict (list cell)) : result frame :=
  match d with
  | [] => Ok (mkFrame [] [])
  | (_, c) :: _ =>
      if forallb (fun kc => (length (snd kc) =? length c)%nat) d
      then Ok (mkFrame (seq 0 (length c)) d) else Err ValueError
  end.

(** Survey values: None, a number, one number per filter, or text. *)
Inductive sval := SNone | SNum (r : R) | SMap (m : dict R) | SText (s : string).
(** Lines 70-78 [_default_survey_values]. *)
Definition default_values : dict sval :=
  [("dark_current", SNone); ("ext_coeff", SNone); ("pixel_scale", SNone); ("radius", SNone);
   ("read_noise", SNone); ("zp_per_sec", SNone); ("survey_name", SText "Unknown")]%string.

(** A point on the unit sphere. *)
Definition vec3 : Type := (R * R * R)%type.
Definition dist3 (p q : vec3) : R :=
  let '(x1, y1, z1) := p in let '(x2, y2, z2) := q in
  sqrt ((x1 - x2) ^ 2 + (y1 - y2) ^ 2 + (z1 - z2) ^ 2).
Definition radians (d : R) : R := d * PI / 180.
(** Lines 338-345 and 556-562: pointing (degrees) to Cartesian coordinates. *)
Definition cart (ra dec : R) : vec3 :=
  (cos (radians dec) * cos (radians ra), cos (radians dec) * sin (radians ra), sin (radians dec)).

(** The detector footprint test of one query against one pointing with its rotation. *)
Definition footprint := (R * R) -> (R * R) -> option R -> bool.

Record obstable := mkObs {
  ob_frame : frame;                  (* _table *)
  ob_inv : dict string;              (* _inv_colmap *)
  ob_values : dict sval;             (* survey_values *)
  ob_filters : list string;          (* filters *)
  ob_tree : list vec3;               (* points held by _kd_tree *)
  ob_footprint : option footprint    (* _detector_footprint *)
}.

(** Lines 96-113: column renaming. *)
Definition remap_step (cols : list string) (st : dict string * dict string) (kv : string * string)
  : result (dict string * dict string) :=
  let '(name_map, inv) := st in
  let '(key, value) := kv in
  if dmem value name_map
  then if (smem key cols && negb (String.eqb key value))%bool then Err ValueError
       else Ok (dset value key name_map, dset value key inv)
  else Ok (name_map, dset value key inv).
Definition rename_cols {A} (name_map : dict string) (d : dict A) : dict A :=
  map (fun cv => (match dget (fst cv) name_map with Some k => k | None => fst cv end, snd cv)) d.
Definition remap (colmap : option (dict string)) (f : frame) : result (frame * dict string) :=
  let name_map0 := map (fun c => (c, c)) (columns f) in
  match colmap with
  | None => Ok (mkFrame (f_labels f) (rename_cols name_map0 (f_cols f)), [])
  | Some cm =>
      bind (fold_res (remap_step (columns f)) (name_map0, []) cm) (fun st =>
        Ok (mkFrame (f_labels f) (rename_cols (fst st) (f_cols f)), snd st))
  end.

(** A numeric column ([self._table[name].to_numpy()]). *)
Definition num_col (name : string) (f : frame) : list R :=
  match dget name (f_cols f) with Some c => map num_of c | None => [] end.
(** Lines 334-348 [_build_kd_tree]. *)
Definition build_tree (f : frame) : list vec3 :=
  map (fun p => cart (fst p) (snd p)) (combine (num_col "ra" f) (num_col "dec" f)).
(** [np.unique] of the filter column (sorted there; the order is not used). *)
Definition cell_name (c : cell) : list string := match c with CStr s => [s] | _ => [] end.
Definition unique_filters (f : frame) : list string :=
  match dget "filter" (f_cols f) with
  | Some c => fold_left (fun acc s => sadd s acc) (flat_map cell_name c) []
  | None => []
  end.
(** Lines 119-129: the values of the table's metadata, then the keyword arguments. *)
Definition merge_values (meta kwargs : dict sval) : dict sval :=
  fold_left (fun acc kv => dset (fst kv) (snd kv) acc) kwargs
    (fold_left (fun acc kv => dset (fst kv) (snd kv) acc) meta default_values).
Definition required : list string := ["ra"; "dec"; "time"]%string.   (* line 67 *)
(** Lines 80-146 [__init__] for a table given as frame; the base class derives no zero points. *)
Definition ob_make (f : frame) (colmap : option (dict string)) (meta kwargs : dict sval) (fp : option footprint)
  : result obstable :=
  bind (remap colmap f) (fun fi =>
    let '(f', inv) := fi in
    if forallb (fun c => smem c (columns f')) required
    then Ok (mkObs f' inv (merge_values meta kwargs) (unique_filters f') (build_tree f') fp)
    else Err KeyError).

(** Lines 148-157 [__getitem__] and 159-165 [__contains__]. *)
Definition ob_getitem (o : obstable) (key : string) : result (list cell) :=
  match dget key (f_cols (ob_frame o)) with
  | Some c => Ok c
  | None => match dget key (ob_inv o) with
            | Some k => match dget k (f_cols (ob_frame o)) with Some c => Ok c | None => Err KeyError end
            | None => Err KeyError
            end
  end.
Definition ob_contains (o : obstable) (key : string) : bool :=
  (dmem key (f_cols (ob_frame o)) ||
   match dget key (ob_inv o) with Some k => dmem k (f_cols (ob_frame o)) | None => false end)%bool.

(** Lines 357-376 [add_column]; a scalar is repeated. *)
Inductive colarg := ColScalar (c : cell) | ColList (l : list cell).
Definition add_column (o : obstable) (name : string) (v : colarg) (overwrite : bool) : result obstable :=
  let f := ob_frame o in
  if (dmem name (f_cols f) && negb overwrite)%bool then Err KeyError
  else
    let vals := match v with ColScalar c => repeat c (nrows f) | ColList l => l end in
    if (length vals =? nrows f)%nat
    then Ok (mkObs (mkFrame (f_labels f) (dset name vals (f_cols f))) (ob_inv o) (ob_values o) (ob_filters o)
                   (ob_tree o) (ob_footprint o))
    else Err ValueError.

(** Lines 171-211 [_assign_constant_if_needed]: returns (added-or-present, table). *)
Definition filter_cells (f : frame) : list cell :=
  match dget "filter" (f_cols f) with Some c => c | None => [] end.
Definition set_where (fil : string) (v : R) (filters : list cell) (vals : list R) : list R :=
  map (fun p => match fst p with CStr s => if String.eqb s fil then v else snd p | _ => snd p end)
      (combine filters vals).
Definition assign_constant (o : obstable) (name : string) (check_positive : bool) : result (bool * obstable) :=
  let f := ob_frame o in
  if dmem name (f_cols f) then Ok (true, o)
  else
    let go (m : dict R) :=
      bind (fold_res (fun vals fil =>
        match dget fil m with
        | None => Err ValueError
        | Some v => if (check_positive && Rleb v 0)%bool then Err ValueError
                    else Ok (set_where fil v (filter_cells f) vals)
        end) (repeat 0 (nrows f)) (ob_filters o)) (fun vals =>
      bind (add_column o name (ColList (map CNum vals)) false) (fun o' => Ok (true, o'))) in
    match dget name (ob_values o) with
    | None | Some SNone => Ok (false, o)
    | Some (SNum v) => go (map (fun fil => (fil, v)) (ob_filters o))
    | Some (SMap m) => go m
    | Some (SText _) =>
        (* a string: [fil not in value] is a substring test, then indexing a string by a string *)
        match ob_filters o with
        | [] => go []
        | _ => Err TypeError
        end
    end.

(** Lines 440-472 [filter_rows].  A Python list of indices may be negative (counted from the end); an
    empty index list becomes a float array and is refused by numpy. *)
Fixpoint mask_list {A} (m : list bool) (l : list A) : list A :=
  match m, l with
  | b :: m', a :: l' => if b then a :: mask_list m' l' else mask_list m' l'
  | _, _ => []
  end.
Definition mask_frame (m : list bool) (f : frame) : frame :=
  mkFrame (mask_list m (f_labels f)) (map (fun kc => (fst kc, mask_list m (snd kc))) (f_cols f)).
Inductive rowsel := RMask (m : list bool) | RIndex (l : list nat).
Definition index_mask (n : nat) (l : list nat) : result (list bool) :=
  match l with
  | [] => Err IndexError
  | _ => if forallb (fun i => (i <? n)%nat) l
         then Ok (map (fun i => existsb (Nat.eqb i) l) (seq 0 n))
         else Err IndexError
  end.
Definition filter_rows (o : obstable) (r : rowsel) : result obstable :=
  let f := ob_frame o in
  let keep m := let f' := mask_frame m f in
                Ok (mkObs f' (ob_inv o) (ob_values o) (ob_filters o) (build_tree f') (ob_footprint o)) in
  match r with
  | RMask m => if (length m =? nrows f)%nat then keep m else Err ValueError
  | RIndex l => bind (index_mask (nrows f) l) keep
  end.

(** ** Searches *)
(** A query coordinate: scalar or array; time bounds: missing, scalar or array. *)
Inductive qarg := QScalar (r : R) | QArray (l : list R).
Inductive targ := TNone | TScalar (r : R) | TArray (l : list R).
Definition qlist (q : qarg) : list R := match q with QScalar r => [r] | QArray l => l end.
Definition is_scalar (q : qarg) : bool := match q with QScalar _ => true | QArray _ => false end.
(** Per-query bound (lines 569-583): missing gives no bound, a scalar becomes a length-1 array. *)
Definition tlist (n : nat) (t : targ) : result (list (option R)) :=
  match t with
  | TNone => Ok (repeat None n)
  | TScalar r => if (n =? 1)%nat then Ok [Some r] else Err ValueError
  | TArray l => if (length l =? n)%nat then Ok (map Some l) else Err ValueError
  end.
Inductive found := One (l : list nat) | Many (l : list (list nat)).

Definition in_time (lo hi : option R) (t : R) : bool :=
  (match lo with Some a => Rleb a t | None => true end && match hi with Some b => Rleb t b | None => true end)%bool.
(** The preset radius (line 544). *)
Definition preset_radius (o : obstable) : result R :=
  match dget "radius" (ob_values o) with
  | Some (SNum r) => Ok r
  | Some SNone | None => Err ValueError
  | _ => Err TypeError
  end.
Definition rotation_of (f : frame) (i : nat) : option R :=
  match dget "rotation" (f_cols f) with
  | Some c => option_map num_of (nth_error c i)
  | None => None
  end.

Section Search.
  (** [KDTree.query_ball_point]: all positions within the distance, in no particular order. *)
  Variable ball : list vec3 -> vec3 -> R -> list nat.

  (** Lines 564-608 for one query point. *)
  Definition search_one (o : obstable) (ra dec r : R) (lo hi : option R) : list nat :=
    let f := ob_frame o in
    let inds := ball (ob_tree o) (cart ra dec) (2 * sin (1 / 2 * radians r)) in
    let inds := filter (fun i => in_time lo hi (nth i (num_col "time" f) 0)) inds in
    match ob_footprint o with
    | None => inds
    | Some fp => filter (fun i => fp (ra, dec) (nth i (num_col "ra" f) 0, nth i (num_col "dec" f) 0) (rotation_of f i)) inds
    end.
  (** Lines 505-614 [range_search].  [None] coordinates are outside the model. *)
  Definition range_search (o : obstable) (ra dec : qarg) (radius : option R) (tmin tmax : targ) : result found :=
    bind (match radius with Some r => Ok r | None => preset_radius o end) (fun r =>
    let qs := combine (qlist ra) (qlist dec) in
    if negb (length (qlist ra) =? length (qlist dec))%nat then Err ValueError
    else
      let n := length (qlist ra) in
      bind (tlist n tmin) (fun lo =>
      bind (tlist n tmax) (fun hi =>
        let res := map (fun q => search_one o (fst (fst q)) (snd (fst q)) r (fst (snd q)) (snd (snd q)))
                       (combine qs (combine lo hi)) in
        if (is_scalar ra && is_scalar dec)%bool
        then match res with l :: _ => Ok (One l) | [] => Err IndexError end
        else Ok (Many res)))).
  (** Lines 474-503 [is_observed]. *)
  Inductive seen := SeenOne (b : bool) | SeenMany (l : list bool).
  Definition nonempty (l : list nat) : bool := negb (length l =? 0)%nat.
  Definition is_observed (o : obstable) (ra dec : qarg) (radius : option R) (tmin tmax : targ) : result seen :=
    bind (range_search o ra dec radius tmin tmax) (fun inds =>
      if is_scalar ra
      then Ok (SeenOne (match inds with One l => nonempty l | Many l => negb (length l =? 0)%nat end))
      else Ok (SeenMany (match inds with Many l => map nonempty l | One l => map (fun _ => true) l end))).

  (** Lines 616-658 [get_observations]: [self[col][neighbors]] selects by row label. *)
  Fixpoint by_label (labels : list nat) (c : list cell) (k : nat) : option cell :=
    match labels, c with
    | l :: labels', v :: c' => if (l =? k)%nat then Some v else by_label labels' c' k
    | _, _ => None
    end.
  Fixpoint select_labels (labels : list nat) (c : list cell) (ks : list nat) : result (list cell) :=
    match ks with
    | [] => Ok []
    | k :: ks' => match by_label labels c k with
                  | None => Err KeyError
                  | Some v => bind (select_labels labels c ks') (fun vs => Ok (v :: vs))
                  end
    end.
  Definition get_observations (o : obstable) (ra dec : R) (radius : option R) (tmin tmax : targ) (cols : option (list string))
    : result (dict (list cell)) :=
    bind (range_search o (QScalar ra) (QScalar dec) radius tmin tmax) (fun inds =>
      match inds with
      | Many _ => Err TypeError
      | One ks =>
          let cols := match cols with Some c => c | None => columns (ob_frame o) end in
          fold_res (fun acc col =>
            bind (ob_getitem o col) (fun c =>
            bind (select_labels (f_labels (ob_frame o)) c ks) (fun vs => Ok (dset col vs acc)))) [] cols
      end).
End Search.
