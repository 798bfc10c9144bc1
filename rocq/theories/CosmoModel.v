(** Distances from redshifts: [src/lightcurvelynx/models/physical_model.py] [BasePhysicalModel.__init__] with a cosmology (60-96), and
    [src/lightcurvelynx/astro_utils/redshift.py] [redshift_to_distance] (61-79), [RedshiftDistFunc] (82-112).
    The nodes are those of NodeGraphModel; the cosmology is a function from redshift to distance, for the theorems about numbers the flat
    one of SniaModel.  None and "not given" are the same argument.  Not modelled: the seed of the object's own generator. *)
From Coq Require Import Reals String Ascii List Bool Arith ZArith.
From Verif Require Import Base RealBase ScipyModel SniaModel GraphStateModel NodeGraphModel SniaSourceModel.
Import ListNotations.
Open Scope string_scope.
Open Scope list_scope.
Open Scope nat_scope.

Section Cosmo.
Context {A : Type} (none : value A).
Definition arg (o : option (pyval A)) : pyval A := match o with Some v => v | None => PConst none end.
(** redshift.py lines 100-112: the function node; further keyword arguments become arguments of its function. *)
Definition redshift_node (redshift : pyval A) (extra : list (string * pyval A)) (h : nheap A) : result (nheap A * nat) :=
  fn_make none "RedshiftDistFunc" "redshift_to_distance" None (("redshift", redshift) :: extra) h.
(** physical_model.py lines 62-90: [extra] are the keyword arguments that are not named in the signature, without the cosmology. *)
Definition physical_cosmo (cls : string) (label : option string) (ra dec redshift t0 distance : option (pyval A)) (cosmology : bool)
    (extra : list (string * pyval A)) (h : nheap A) : result (nheap A * nat) :=
  let i := length h in
  let h := h ++ [renamed (mkNode label cls false None [] None "" [] [] [])] in
  lift (add_parameter none h i "ra" (arg ra) (Some false) []) (fun h =>
  lift (add_parameter none h i "dec" (arg dec) (Some false) []) (fun h =>
  lift (add_parameter none h i "redshift" (arg redshift) (Some false) []) (fun h =>
  lift (add_parameter none h i "t0" (arg t0) None []) (fun h =>
    match distance, redshift, cosmology with
    | Some d, _, _ => lift (add_parameter none h i "distance" d (Some false) []) (fun h => Ok (h, i))
    | None, Some _, true =>
        bind (redshift_node (PMethod i "redshift") extra h) (fun '(h, j) =>
        lift (add_parameter none h i "distance" (PNode j) (Some false) []) (fun h => Ok (h, i)))
    | _, _, _ => lift (add_parameter none h i "distance" (PConst none) (Some false) []) (fun h => Ok (h, i))
    end)))).

(** redshift.py lines 61-79, on a number or an array of numbers: [dist] for one redshift.  Another argument than the redshift is a
    TypeError. *)
Variable dist : A -> result A.
Fixpoint dist_all (l : list (value A)) : result (list (value A)) :=
  match l with
  | [] => Ok []
  | Atom z :: l' => bind (dist z) (fun d => bind (dist_all l') (fun ds => Ok (Atom d :: ds)))
  | GraphStateModel.Arr _ :: _ => Err TypeError
  end.
Definition redshift_to_distance (args : dict (value A)) : result (value A) :=
  match args with
  | [(k, v)] =>
      if String.eqb k "redshift" then
        match v with
        | Atom z => bind (dist z) (fun d => Ok (Atom d))
        | GraphStateModel.Arr l => bind (dist_all l) (fun ds => Ok (GraphStateModel.Arr ds))
        end
      else Err TypeError
  | _ => Err TypeError
  end.
End Cosmo.

(** The luminosity distance in parsec of a flat universe; None times a unit is a TypeError; what is not finite stays so. *)
Definition parsec (h0 om z : R) : R := (1000000 * luminosity_distance h0 om z)%R.
Definition flat_distance (h0 om : R) (c : cell) : result cell :=
  match c with
  | CNone => Err TypeError
  | CNum None => Ok (CNum None)
  | CNum (Some z) => Ok (CNum (Some (parsec h0 om z)))
  end.
