(** Model of [src/lightcurvelynx/graph_state.py], class [DependencyGraph] (632-722). *)
From Coq Require Import String Ascii List Bool Arith.
From Verif Require Import Base Numerals.
Import ListNotations.
Open Scope string_scope.
Open Scope list_scope.

(** graph_state.py 653-658: the attributes. *)
Record dgraph := mkDG {
  dg_params : list string;               (* all_params, a set *)
  dg_nodes : list string;                (* all_nodes, a set *)
  dg_in : dict (list string);            (* incoming *)
  dg_out : dict (list string);           (* outgoing *)
  dg_consts : nat                        (* num_constants *)
}.
Definition dg_new : dgraph := mkDG [] [] [] [] 0.

(** graph_state.py 660-664 [__len__], [__contains__]. *)
Definition dg_len (g : dgraph) : nat := length (dg_params g).
Definition dg_contains (g : dgraph) (p : string) : bool := smem p (dg_params g).

(** graph_state.py 686-689: add a full name. *)
Definition dg_add_full (g : dgraph) (p : string) : dgraph :=
  if smem p (dg_params g) then g
  else mkDG (sadd p (dg_params g)) (dg_nodes g) (dset p [] (dg_in g)) (dset p [] (dg_out g))
            (dg_consts g).

(** graph_state.py 666-689 [add_parameter]. *)
Definition dg_add_parameter (g : dgraph) (param : string) (node : option string) : dgraph :=
  match node with
  | None => dg_add_full g param
  | Some nd =>
      let g1 := mkDG (dg_params g) (sadd nd (dg_nodes g)) (dg_in g) (dg_out g) (dg_consts g) in
      dg_add_full g1 (nd ++ String dot param)%string
  end.

(** graph_state.py 704: [f"const_{self.num_constants}={value}"]; [value] is given by its
    string rendering. *)
Definition const_name (k : nat) (value : string) : string :=
  ("const_" ++ decimal k ++ String "="%char value)%string.

(** graph_state.py 691-707 [add_constant]. *)
Definition dg_add_constant (g : dgraph) (value : string) : dgraph * string :=
  let name := const_name (dg_consts g) value in
  (dg_add_full (mkDG (dg_params g) (dg_nodes g) (dg_in g) (dg_out g) (S (dg_consts g))) name, name).

(** [d[k].append(x)]; KeyError if [k] is missing. *)
Definition dappend (k x : string) (d : dict (list string)) : option (dict (list string)) :=
  match dget k d with Some l => Some (dset k (l ++ [x]) d) | None => None end.

(** graph_state.py 709-722 [add_edge]. *)
Definition dg_add_edge (g : dgraph) (from to : string) : result dgraph :=
  if negb (smem from (dg_params g)) || negb (smem to (dg_params g)) then Err KeyError
  else match dappend to from (dg_in g) with
       | None => Err KeyError
       | Some i => match dappend from to (dg_out g) with
                   | None => Err KeyError
                   | Some o => Ok (mkDG (dg_params g) (dg_nodes g) i o (dg_consts g))
                   end
       end.

(** Call histories. *)
Inductive dgop :=
| DGParam (param : string) (node : option string)
| DGConst (value : string)
| DGEdge (from to : string).

Definition dg_apply (g : dgraph) (o : dgop) : dgraph :=
  match o with
  | DGParam p n => dg_add_parameter g p n
  | DGConst v => fst (dg_add_constant g v)
  | DGEdge a b => match dg_add_edge g a b with Ok g' => g' | Err _ => g end
  end.
Definition dg_run (g : dgraph) (ops : list dgop) : dgraph := fold_left dg_apply ops g.

(** The names returned by the [add_constant] calls of a history, in order. *)
Fixpoint dg_const_names (g : dgraph) (ops : list dgop) : list string :=
  match ops with
  | [] => []
  | DGConst v :: ops' => snd (dg_add_constant g v) :: dg_const_names (dg_apply g (DGConst v)) ops'
  | o :: ops' => dg_const_names (dg_apply g o) ops'
  end.

(** The [add_edge] calls of a history that succeeded, in order. *)
Fixpoint dg_edges (g : dgraph) (ops : list dgop) : list (string * string) :=
  match ops with
  | [] => []
  | DGEdge a b :: ops' =>
      (if is_ok (dg_add_edge g a b) then [(a, b)] else []) ++ dg_edges (dg_apply g (DGEdge a b)) ops'
  | o :: ops' => dg_edges (dg_apply g o) ops'
  end.
