(** Model of src/lightcurvelynx/utils/post_process_results.py.

    Columns hold exact numbers (no NaN in the flux columns).  A masked array is a list with [None] at
    the masked places.  A nested frame is stored as nested_pandas stores it: for each object the
    number of its observations ([None]: missing light curve), and flat columns over all objects. *)
From Coq Require Import String List Bool Arith Reals.
From Verif Require Import Base RealBase NoiseModel.
Import ListNotations.
Open Scope string_scope.
Open Scope list_scope.
Open Scope R_scope.

(** A detection flag: a truth value, or numpy's [masked]. *)
Inductive flag := Flag (b : bool) | FMasked.
Inductive column := CNums (l : list R) | CMask (l : list (option R)) | CFlags (l : list flag) | COther (l : list string).
Definition nums (c : column) : result (list R) := match c with CNums l => Ok l | _ => Err TypeError end.

(** post_process_results.py 43-48 and 66-75: elementwise; arrays of different lengths do not broadcast. *)
Definition valid (f e : R) : bool := Rltb 0 f && Rltb 0 e.
Fixpoint zip_with {A B C} (g : A -> B -> C) (a : list A) (b : list B) : list C :=
  match a, b with x :: a', y :: b' => g x y :: zip_with g a' b' | _, _ => [] end.
(** post_process_results.py 27-48 [lightcurve_compute_snr]. *)
Definition compute_snr (flux err : list R) : result (list (option R)) :=
  if (length flux =? length err)%nat then Ok (zip_with (fun f e => if valid f e then Some (f / e) else None) flux err)
  else Err ValueError.
(** post_process_results.py 51-76 [lightcurve_compute_mag]. *)
Definition compute_mag (flux err : list R) : result (list (option R) * list (option R)) :=
  if (length flux =? length err)%nat then
    Ok (zip_with (fun f e => if valid f e then flux2mag f else None) flux err,
        zip_with (fun f e => if valid f e then Some (25 / 10 / ln 10 * (e / f)) else None) flux err)
  else Err ValueError.

(** post_process_results.py 104 [x is not ma.masked and x >= min_snr]. *)
Definition flag_single (min_snr : R) (x : option R) : flag :=
  match x with None => Flag false | Some s => Flag (Rleb min_snr s) end.
(** post_process_results.py 149 [x is not None and x >= min_snr]: a masked x is not None, and
    comparing it gives masked. *)
Definition flag_nested (min_snr : R) (x : option R) : flag :=
  match x with None => FMasked | Some s => Flag (Rleb min_snr s) end.

(** The columns added by lines 97-108 and 144-154. *)
Definition add_columns (fl : R -> option R -> flag) (min_snr : R) (df : dict column) : result (dict column) :=
  match dget "flux" df, dget "fluxerr" df with
  | Some cf, Some ce =>
      bind (nums cf) (fun flux => bind (nums ce) (fun err =>
      bind (compute_snr flux err) (fun snr =>
      let df := dset "snr" (CMask snr) df in
      let df := dset "detection" (CFlags (map (fl min_snr) snr)) df in
      bind (compute_mag flux err) (fun mm =>
      Ok (dset "magerr" (CMask (snd mm)) (dset "mag" (CMask (fst mm)) df))))))
  | _, _ => Err ValueError
  end.

(** post_process_results.py 79-112 [augment_single_lightcurve]. *)
Definition augment_single (df : dict column) (min_snr : R) (t0 : option R) : result (dict column) :=
  bind (add_columns flag_single min_snr df) (fun df =>
  match t0, dget "mjd" df with
  | Some t, Some cm => bind (nums cm) (fun mjd => Ok (dset "time_rel" (CNums (map (fun m => m - t) mjd)) df))
  | _, _ => Ok df
  end).

(** A nested frame: the labels of the objects, the t0 column (if there is one; [None]: missing
    value) and the light curves (if there is such a column). *)
Record curves := mkCurves { cu_counts : list (option nat); cu_flat : dict column }.
Record nframe := mkNF { nf_labels : list nat; nf_t0 : option (list (option R)); nf_lc : option curves }.
Definition size (c : option nat) : nat := match c with Some n => n | None => 0%nat end.
(** The label of the object of each observation. *)
Definition flat_index (labels : list nat) (counts : list (option nat)) : list nat :=
  flat_map (fun lc => repeat (fst lc) (size (snd lc))) (combine labels counts).

(** [np.all(t0)] and [t0.notna().all()]: every value is present and not zero. *)
Definition t0_usable (l : list (option R)) : bool :=
  forallb (fun x => match x with Some t => negb (Reqb t 0) | None => false end) l.
Fixpoint index_all (l : list (option R)) (idx : list nat) : result (list R) :=
  match idx with
  | [] => Ok []
  | i :: idx' => match nth_error l i with
                 | None => Err IndexError
                 | Some None => Err TypeError
                 | Some (Some t) => bind (index_all l idx') (fun r => Ok (t :: r))
                 end
  end.

(** post_process_results.py 115-163 [results_augment_lightcurves]; [is_nested]: whether the argument
    is a NestedFrame.  The second component is the exception raised, the first the frame as it is
    left behind. *)
Definition augment_nested (is_nested : bool) (nf : nframe) (min_snr : R) : nframe * option err :=
  match is_nested, nf_lc nf with
  | true, Some lc =>
      match add_columns flag_nested min_snr (cu_flat lc) with
      | Err e => (nf, Some e)
      | Ok df =>
          let nf1 := mkNF (nf_labels nf) (nf_t0 nf) (Some (mkCurves (cu_counts lc) df)) in
          match nf_t0 nf with
          | Some t0 =>
              if t0_usable t0 then
                match dget "mjd" df with
                | None => (nf1, Some ValueError)
                | Some cm =>
                    match bind (nums cm) (fun mjd => bind (index_all t0 (flat_index (nf_labels nf) (cu_counts lc)))
                                  (fun ts => Ok (zip_with Rminus mjd ts))) with
                    | Err e => (nf1, Some e)
                    | Ok rel => (mkNF (nf_labels nf) (nf_t0 nf)
                                   (Some (mkCurves (cu_counts lc) (dset "time_rel" (CNums rel) df))), None)
                    end
                end
              else (nf1, None)
          | None => (nf1, None)
          end
      end
  | _, _ => (nf, Some ValueError)
  end.

(** post_process_results.py 12-24 [results_drop_empty]: [dropna(subset=["lightcurve"])].  The flat
    columns are unchanged because dropped objects have no observations. *)
Definition keep {A} (counts : list (option nat)) (l : list A) : list A :=
  map snd (filter (fun ca => match fst ca with Some _ => true | None => false end) (combine counts l)).
Definition drop_empty (nf : nframe) : result nframe :=
  match nf_lc nf with
  | None => Err KeyError
  | Some lc => Ok (mkNF (keep (cu_counts lc) (nf_labels nf)) (option_map (keep (cu_counts lc)) (nf_t0 nf))
                     (Some (mkCurves (keep (cu_counts lc) (cu_counts lc)) (cu_flat lc))))
  end.
