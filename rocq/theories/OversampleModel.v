(** [oversample_opsim] ([obstable/opsim.py] lines 254-353). *)
From Coq Require Import Reals String List Bool Arith ZArith Lia Lra.
From Verif Require Import Base RealBase ObsTableModel SurveyModel RomanModel.
From Verif Require SedModel SimulateModel.
Import ListNotations.
Open Scope R_scope.

(** The cells of a column at the given positions ([observations[name]]); a missing column is a KeyError. *)
Definition cells_of (f : frame) (name : string) (rows : list nat) : result (list cell) :=
  match dget name (f_cols f) with Some c => Ok (map (fun i => nth i c CNan) rows) | None => Err KeyError end.
(** Line 327: [np.tile(bands, k)] *)
Definition tile {A} (l : list A) (k : nat) : list A := concat (repeat l k).
(** Line 336: position of the first maximum among the rows (NaN skipped; no number at all: ValueError). *)
Fixpoint best (c : list cell) (rows : list nat) : option (nat * R) :=
  match rows with
  | [] => None
  | i :: rows' =>
      match num_opt (nth i c CNan), best c rows' with
      | Some x, Some (j, y) => if Rltb x y then Some (j, y) else Some (i, x)
      | Some x, None => Some (i, x)
      | None, b => b
      end
  end.
(** Lines 334-348: which row of the old table each new row is copied from (instead of copying cell by cell).  [pick] is the
    generator behind [sample]: the j-th entry of the call for the b-th band among n rows. *)
Definition in_band (f : frame) (band : string) (i : nat) : bool :=
  match dget "filter" (f_cols f) with Some c => text_is band (nth i c CNan) | None => false end.
(** [new_table.loc[idx, ...] = ...] where the j-th row of the band gets [p j]. *)
Fixpoint copy_rows (band : string) (names : list string) (p : nat -> nat) (j : nat) (l : list (option nat)) : list (option nat) :=
  match names, l with
  | s :: names', x :: l' => if String.eqb s band then Some (p j) :: copy_rows band names' p (S j) l' else x :: copy_rows band names' p j l'
  | _, _ => l
  end.
Definition darkest (f : frame) (rows : list nat) (names : list string) (l : list (option nat)) (band : string) : result (list (option nat)) :=
  match dget "skybrightness" (f_cols f) with
  | None => Err KeyError
  | Some c => match best c (filter (in_band f band) rows) with
              | Some (i, _) => Ok (copy_rows band names (fun _ => i) 0 l)
              | None => Err ValueError
              end
  end.
Definition sampled (pick : nat -> nat -> nat -> nat) (f : frame) (rows : list nat) (names : list string) (l : list (option nat)) (kb : nat * string)
  : result (list (option nat)) :=
  let own := filter (in_band f (snd kb)) rows in
  match own with
  | [] => Err ValueError
  | i0 :: _ => Ok (copy_rows (snd kb) names (fun j => nth (pick (fst kb) j (length own) mod length own)%nat own i0) 0 l)
  end.
Definition prototypes (pick : nat -> nat -> nat -> nat) (f : frame) (rows : list nat) (names bands : list string) (strategy : string) : result (list (option nat)) :=
  let l := map (fun _ => None) names in
  if String.eqb strategy "darkest_sky" then fold_res (darkest f rows names) l bands
  else if String.eqb strategy "random" then fold_res (sampled pick f rows names) l (combine (seq 0 (length bands)) bands)
  else Err ValueError.
Definition own_names : list string := ["observationId"; "time"; "ra"; "dec"; "filter"]%string.
Definition copied (c : list cell) (p : list (option nat)) : list cell := map (fun x => match x with Some i => nth i c CNan | None => CNan end) p.
Definition other_cols (f : frame) (p : list (option nat)) : dict (list cell) :=
  map (fun cv => (fst cv, copied (snd cv) p)) (filter (fun cv => negb (smem (fst cv) own_names)) (f_cols f)).
Section Oversample.
  Variable ball : list vec3 -> vec3 -> R -> list nat.
  Variable pick : nat -> nat -> nat -> nat.
  (** The function; [cm] is the table's column map.  Non-text filters, non-numeric ids: outside the model (TypeError). *)
  Definition oversample (o : obstable) (cm : dict string) (ra dec radius delta_t : R) (time_min time_max : option R) (bands : option (list string)) (strategy : string)
    : result obstable :=
    let f := ob_frame o in
    bind (range_search ball o (QScalar ra) (QScalar dec) (Some radius) TNone TNone) (fun res =>
    let rows := match res with One l => l | Many l => concat l end in
    if (length rows =? 0)%nat then Err ValueError else
    bind (cells_of f "time" rows) (fun tc => let ts := map num_of tc in
    bind (match time_min with Some t => Ok t | None => SedModel.list_min ts end) (fun t0 =>
    bind (match time_max with Some t => Ok t | None => SedModel.list_max ts end) (fun t1 =>
    if Rleb t1 t0 then Err ValueError else
    bind (cells_of f "filter" rows) (fun fc => bind (texts fc) (fun names =>
    let uniq := SedModel.unique_names names in
    bind (match bands with None => Ok uniq | Some b => if forallb (fun s => smem s uniq) b then Ok b else Err ValueError end) (fun bands =>
    if Reqb delta_t 0 then Err ZeroDivisionError else
    let new_times := SimulateModel.arange t0 t1 delta_t in
    let n := length new_times in
    if (n <? length bands)%nat then Err ValueError else
    bind (match dget "observationId" (f_cols f) with Some c => numbers c | None => Err KeyError end) (fun ids =>
    bind (SedModel.list_max ids) (fun last =>
    if (length bands =? 0)%nat then Err ZeroDivisionError else
    let names := tile bands (n / length bands) in
    if negb (length names =? n)%nat then Err ValueError else
    bind (prototypes pick f rows names bands strategy) (fun p =>
    opsim_make
      (mkFrame (seq 0 n)
        ([("observationId", map (fun i => CNum (last + 1 + INR i)) (seq 0 n)); ("time", map CNum new_times); ("ra", repeat (CNum ra) n); ("dec", repeat (CNum dec) n);
          ("filter", map CStr names)]%string ++ other_cols f p))
      (Some cm) [] (ob_values o) None)))))))))).
End Oversample.
