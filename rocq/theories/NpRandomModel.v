(** Model of src/lightcurvelynx/math_nodes/np_random.py (NumpyRandomFunc).
    A numpy generator is its seed and the calls made on it so far; [draw] (an oracle) is the number that a generator returns
    for one element of the array asked for, given the values of the distribution's parameters for that element.
    Parameter values are numbers or rectangular arrays of numbers.  [known] says which names numpy's Generator has. *)
From Coq Require Import ZArith String List Bool Arith.
From Verif Require Import Base GraphStateModel.
Import ListNotations.
Open Scope list_scope.
Open Scope nat_scope.

Section NpRandom.
Context {A : Type} (zero : A).
Notation value := (value A).

(** ** numpy arrays *)
Fixpoint shape_of (v : value) : list nat :=
  match v with
  | Atom _ => []
  | Arr [] => [0]
  | Arr (x :: l) => S (length l) :: shape_of x
  end.
Fixpoint has_shape (sh : list nat) (v : value) : bool :=
  match sh, v with
  | [], Atom _ => true
  | n :: sh', Arr l => (length l =? n) && forallb (has_shape sh') l
  | _, _ => false
  end.
Fixpoint vget (v : value) (idx : list nat) : A :=
  match v, idx with
  | Atom a, _ => a
  | Arr l, i :: idx' => match nth_error l i with Some x => vget x idx' | None => zero end
  | Arr _, [] => zero
  end.
Fixpoint tabulate (sh : list nat) (f : list nat -> A) : value :=
  match sh with
  | [] => Atom (f [])
  | n :: sh' => Arr (map (fun i => tabulate sh' (fun idx => f (i :: idx))) (seq 0 n))
  end.
(** numpy's broadcasting aligns the last dimensions: here on reversed shapes and reversed indices. *)
Fixpoint fits_rev (sh out : list nat) : bool :=
  match sh, out with
  | [], _ => true
  | d :: sh', o :: out' => ((d =? 1) || (d =? o)) && fits_rev sh' out'
  | _ :: _, [] => false
  end.
Fixpoint bidx_rev (sh idx : list nat) : list nat :=
  match sh, idx with
  | d :: sh', i :: idx' => (if d =? 1 then 0 else i) :: bidx_rev sh' idx'
  | _, _ => []
  end.
Definition fits (sh out : list nat) : bool := fits_rev (rev sh) (rev out).
Definition bidx (sh idx : list nat) : list nat := rev (bidx_rev (rev sh) (rev idx)).
(** The common shape of two arrays ([None]: they do not broadcast). *)
Fixpoint join_rev (a b : list nat) : option (list nat) :=
  match a, b with
  | [], _ => Some b
  | _, [] => Some a
  | x :: a', y :: b' =>
      match join_rev a' b' with
      | None => None
      | Some r => if x =? y then Some (x :: r) else if x =? 1 then Some (y :: r) else if y =? 1 then Some (x :: r) else None
      end
  end.
Fixpoint join_all (shs : list (list nat)) : option (list nat) :=
  match shs with
  | [] => Some []
  | s :: rest => match join_all rest with None => None | Some r => option_map (@rev nat) (join_rev (rev s) (rev r)) end
  end.

(** ** Generators *)
Definition args := dict value.
Record call := mkCall { ca_name : string; ca_args : args; ca_size : option (list nat) }.
Record gen := mkGen { ge_seed : Z; ge_calls : list call }.
(** [np.random.default_rng(seed)]. *)
Definition default_rng (seed : Z) : gen := mkGen seed [].
Context (draw : gen -> call -> list nat -> dict A -> A) (known : string -> bool).
(** One call of a method of the generator ([size=None]: the shape of the parameters).  The parameters must broadcast to [size]. *)
Definition np_call (g : gen) (name : string) (a : args) (size : option (list nat)) : result value * gen :=
  let c := mkCall name a size in
  let rect := forallb (fun kv => has_shape (shape_of (snd kv)) (snd kv)) a in
  let shs := map (fun kv => shape_of (snd kv)) a in
  let out := match size with
             | Some sz => if forallb (fun sh => fits sh sz) shs then Some sz else None
             | None => join_all shs
             end in
  match (if rect then out else None) with
  | None => (Err ValueError, g)
  | Some sh =>
      (Ok (tabulate sh (fun idx => draw g c idx (map (fun kv => (fst kv, vget (snd kv) (bidx (shape_of (snd kv)) idx))) a))),
       mkGen (ge_seed g) (ge_calls g ++ [c]))
  end.

(** ** The node *)
(** The argument [size]: None, an integer or a tuple. *)
Inductive size_arg := SNone | SInt (z : Z) | STuple (l : list Z).
(** [nr_fixed]: the arguments bound in [self.func] by [fixed_params] (base_models.py 815-822). *)
Record np_node := mkNp { nr_name : string; nr_dims : list nat; nr_own : gen; nr_fixed : args }.
(** Lines 51-81 [__init__]. *)
Definition np_make (name : string) (size : size_arg) (seed : Z) (fixed : args) : result np_node :=
  if String.eqb name "choice" then Err ValueError
  else
    let dims := match size with
                | SNone => Some []
                | SInt z => if (z =? 1)%Z then Some [] else if (z <=? 0)%Z then None else Some [Z.to_nat z]
                | STuple l => if existsb (fun z => (z <=? 0)%Z) l then None else Some (map Z.to_nat l)
                end in
    match dims with
    | None => Err ValueError
    | Some d => if known name then Ok (mkNp name d (default_rng seed) fixed) else Err ValueError
    end.
(** Lines 83-92 [set_seed]. *)
Definition np_set_seed (nd : np_node) (seed : Z) : np_node := mkNp (nr_name nd) (nr_dims nd) (default_rng seed) [].
(** A call of [partial]: the arguments of the call replace the bound ones. *)
Definition with_fixed (fixed a : args) : args := fold_left (fun d kv => dset (fst kv) (snd kv) d) a fixed.
(** Lines 94-135 [compute]; [a]: the inputs built from the graph state, [n]: its number of samples. *)
Definition np_compute (nd : np_node) (n : nat) (a : args) (rng : option gen) : result value * np_node * option gen :=
  let shape := n :: nr_dims nd in
  let size := match shape with [1] => None | _ => Some shape end in
  match rng with
  | None =>
      let (r, g) := np_call (nr_own nd) (nr_name nd) (with_fixed (nr_fixed nd) a) size in
      (r, mkNp (nr_name nd) (nr_dims nd) g (nr_fixed nd), None)
  | Some g0 =>
      let (r, g) := np_call g0 (nr_name nd) a size in (r, nd, Some g)
  end.
(** What the graph state holds for the parameters [ps] given by the user (a constant is repeated, GraphState.set). *)
Fixpoint stored (n : nat) (ps : args) : result args :=
  match ps with
  | [] => Ok []
  | (k, v) :: ps' => bind (store_value n v) (fun w => bind (stored n ps') (fun r => Ok ((k, w) :: r)))
  end.
End NpRandom.
