(** Regenerating values: [src/lightcurvelynx/base_models.py] [FunctionNode.generate] (973-1002), [list_params] (264-272),
    [set_allow_gradient] (440-450), over the nodes of NodeGraphModel. *)
From Coq Require Import String Ascii List Bool Arith ZArith.
From Verif Require Import Base GraphStateModel NodeGraphModel.
Import ListNotations.
Open Scope string_scope.
Open Scope list_scope.
Open Scope nat_scope.

Section Regen.
Context {A W : Type} (none : value A).
(** What [generate] returns: one value, or a list of values. *)
Inductive generated := GenOne (v : value A) | GenList (l : list (value A)).
Fixpoint get_all (g : gs A) (nd : string) (names : list string) : result (list (value A)) :=
  match names with
  | [] => Ok []
  | o :: names' => bind (get_param g nd o none) (fun v => bind (get_all g nd names') (fun l => Ok (v :: l)))
  end.
(** Lines 994-1002; the keyword arguments [kwargs] are accepted and not used. *)
Definition generate (func : W -> nat -> dict (value A) -> W * result (value A)) (fuel : nat) (h : nheap A) (i : nat) (g : given A) (num : Z)
    (kwargs : dict (value A)) (w : W) : result (nheap A * W * generated) :=
  bind (sample_parameters func fuel h i g num w) (fun '(h', m) =>
  match nth_error h' i with
  | None => Err AttributeError
  | Some n =>
      match nd_outs n with
      | [o] => bind (get_param (sm_gs m) (nd_str n) o none) (fun v => Ok (h', sm_w m, GenOne v))
      | outs => bind (get_all (sm_gs m) (nd_str n) outs) (fun l => Ok (h', sm_w m, GenList l))
      end
  end).
(** Lines 264-272 *)
Definition list_params (h : nheap A) (i : nat) : result (list string) :=
  match nth_error h i with Some n => Ok (dkeys (nd_setters n)) | None => Err AttributeError end.
(** Lines 440-450 *)
Definition set_allow_gradient (h : nheap A) (i : nat) (name : string) (b : bool) : result (nheap A) :=
  match nth_error h i with
  | None => Err AttributeError
  | Some n =>
      match dget name (nd_setters n) with
      | None => Err KeyError
      | Some s => Ok (put_setter h i name (mkSet (st_type s) (st_dep s) (st_src s) (st_const s) b))
      end
  end.
End Regen.
