(** Model of array sharing in [src/lightcurvelynx/graph_state.py]: [GraphState.copy] (176-195)
    and the three storing branches of [GraphState.set] (421-436), on a heap of numpy
    arrays.  Everything that does not concern aliasing (name checks, fixed parameters, counters)
    is in [GraphStateModel]. *)
From Coq Require Import String List Bool Arith.
From Verif Require Import Base.
Import ListNotations.
Open Scope list_scope.
Open Scope nat_scope.

Section Heap.
Context {A : Type}.

(** The arrays that exist, by address. *)
Definition heap := list (list A).

(** A stored value: an immutable scalar or a reference to an array. *)
Inductive hval := HScalar (a : A) | HRef (addr : nat).

Record hstate := mkH { h_n : nat; h_st : dict (dict hval) }.

Definition hlook (s : hstate) (node var : string) : option hval :=
  match dget node (h_st s) with Some d => dget var d | None => None end.

(** What a reader of [state["node.var"]] sees: the scalar or the array's contents. *)
Definition hread (h : heap) (v : hval) : list A :=
  match v with HScalar a => [a] | HRef p => nth p h [] end.
Definition hsee (h : heap) (s : hstate) (node var : string) : option (list A) :=
  option_map (hread h) (hlook s node var).

(** [arr.copy()]: allocate a new array with the same contents. *)
Definition halloc (h : heap) (l : list A) : heap * hval := (h ++ [l], HRef (length h)).

(** graph_state.py 189-192: one value of [copy]. *)
Definition hcopy_val (n : nat) (h : heap) (v : hval) : heap * hval :=
  if n =? 1 then (h, v) else halloc h (hread h v).

Fixpoint hcopy_params (n : nat) (h : heap) (d : dict hval) : heap * dict hval :=
  match d with
  | [] => (h, [])
  | (k, v) :: d' =>
      let '(h1, v1) := hcopy_val n h v in
      let '(h2, d2) := hcopy_params n h1 d' in
      (h2, (k, v1) :: d2)
  end.

Fixpoint hcopy_states (n : nat) (h : heap) (st : dict (dict hval)) : heap * dict (dict hval) :=
  match st with
  | [] => (h, [])
  | (k, d) :: st' =>
      let '(h1, d1) := hcopy_params n h d in
      let '(h2, st2) := hcopy_states n h1 st' in
      (h2, (k, d1) :: st2)
  end.

(** graph_state.py 176-195 [copy]. *)
Definition hcopy (h : heap) (s : hstate) : heap * hstate :=
  let '(h', st) := hcopy_states (h_n s) h (h_st s) in (h', mkH (h_n s) st).

(** The argument of a [set] call. *)
Inductive harg := ArgScalar (a : A) | ArgArray (addr : nat).

(** graph_state.py 421-436: the storing branches of [set]; [None] is the ValueError. *)
Definition hstore (n : nat) (force_copy : bool) (h : heap) (v : harg) : option (heap * hval) :=
  if n =? 1 then Some (h, match v with ArgScalar a => HScalar a | ArgArray p => HRef p end)
  else match v with
       | ArgScalar a => Some (halloc h (repeat a n))
       | ArgArray p =>
           if length (nth p h []) =? n then
             Some (if force_copy then halloc h (nth p h []) else (h, HRef p))
           else None
       end.

Definition hset (h : heap) (s : hstate) (node var : string) (v : harg) (force_copy : bool)
  : heap * hstate :=
  match hstore (h_n s) force_copy h v with
  | None => (h, s)
  | Some (h', w) =>
      let d := match dget node (h_st s) with Some d => d | None => [] end in
      (h', mkH (h_n s) (dset node (dset var w d) (h_st s)))
  end.

Fixpoint set_nth {B} (i : nat) (x : B) (l : list B) : list B :=
  match l, i with
  | [], _ => []
  | _ :: l', 0 => x :: l'
  | y :: l', S i' => y :: set_nth i' x l'
  end.

(** [state["node.var"][i] = x]: write into the referenced array, in place. *)
Definition hwrite (h : heap) (s : hstate) (node var : string) (i : nat) (x : A) : heap :=
  match hlook s node var with
  | Some (HRef p) => set_nth p (set_nth i x (nth p h [])) h
  | _ => h
  end.

(** What a user can do with one GraphState: write into its arrays, set a scalar, or
    set a parameter from one of his own arrays with [force_copy=True]. *)
Inductive hop :=
| HWrite (node var : string) (i : nat) (x : A)
| HSetScalar (node var : string) (a : A)
| HSetCopy (node var : string) (addr : nat).

Definition hstep (w : heap * hstate) (o : hop) : heap * hstate :=
  let '(h, s) := w in
  match o with
  | HWrite node var i x => (hwrite h s node var i x, s)
  | HSetScalar node var a => hset h s node var (ArgScalar a) false
  | HSetCopy node var p => hset h s node var (ArgArray p) true
  end.
Definition hrun (w : heap * hstate) (ops : list hop) : heap * hstate := fold_left hstep ops w.

End Heap.
Arguments heap A : clear implicits.
Arguments hval A : clear implicits.
Arguments hstate A : clear implicits.
Arguments harg A : clear implicits.
Arguments hop A : clear implicits.
