(** Sampling a [BasicMathNode]: src/lightcurvelynx/math_nodes/basic_math_node.py 120-177 (the function built from the expression, [eval], [prepare_params]) with the libraries it calls,
    and [FunctionNode.compute] (base_models.py 932-971).

    Numbers of all types (floats with nan and inf, integers) are an abstract type [A] with operators and library functions on single numbers.  An array is a nested [Arr].
    Simplifications: numpy 2 promotion and the same rounding for an array and its single entries; literals are numbers; a result that is a function object is refused; a further
    positional argument of a numpy function (its [out] array) is refused. *)
From Coq Require Import String List Bool Arith ZArith.
From Verif Require Import Base GraphStateModel NodeGraphModel MathNodeModel.
Import ListNotations.
Open Scope string_scope.
Open Scope list_scope.
Open Scope nat_scope.

Section Sampling.
Context {A : Type}.
Notation value := (value A).
Variable lit : string -> A.                                    (* a literal *)
Variable sbin : binop -> A -> A -> result A.                    (* operators on single numbers *)
Variable sun : unop -> A -> result A.
Variable lib : string -> string -> list A -> result A.          (* module and function, on single numbers *)
Variable const : string -> string -> A.                         (* np.pi, math.e, ... *)
Variable larger smaller : A -> A -> A.
Variable index : A -> option Z.                                 (* operator.index: integers only *)

(** Objects met while evaluating: numbers and arrays, modules, functions. *)
Inductive pv := PNum (v : value) | PMod (m : string) | PFun (m f : string).

Fixpoint oks {X} (l : list (result X)) : result (list X) :=
  match l with
  | [] => Ok []
  | r :: l' => bind r (fun x => bind (oks l') (fun xs => Ok (x :: xs)))
  end.
(** numpy: a function applied to every entry. *)
Fixpoint lift1 (g : A -> result A) (v : value) : result value :=
  match v with
  | Atom a => bind (g a) (fun x => Ok (Atom x))
  | Arr l => bind (oks (map (lift1 g) l)) (fun xs => Ok (Arr xs))
  end.
Fixpoint depth (v : value) : nat := match v with Atom _ => 0 | Arr l => S (fold_right (fun x n => Nat.max (depth x) n) 0 l) end.
(** numpy's broadcasting: the trailing axes are aligned; an axis of length 1 is repeated. *)
Fixpoint lift2 (fuel : nat) (g : A -> A -> result A) (v w : value) : result value :=
  match fuel with
  | O => Err RuntimeError
  | S k =>
      match v, w with
      | Atom a, Atom b => bind (g a b) (fun x => Ok (Atom x))
      | Arr l, Atom _ => bind (oks (map (fun x => lift2 k g x w) l)) (fun xs => Ok (Arr xs))
      | Atom _, Arr m => bind (oks (map (fun y => lift2 k g v y) m)) (fun xs => Ok (Arr xs))
      | Arr l, Arr m =>
          if depth w <? depth v then bind (oks (map (fun x => lift2 k g x w) l)) (fun xs => Ok (Arr xs))
          else if depth v <? depth w then bind (oks (map (fun y => lift2 k g v y) m)) (fun xs => Ok (Arr xs))
          else if length l =? length m then bind (oks (map (fun p => lift2 k g (fst p) (snd p)) (combine l m))) (fun xs => Ok (Arr xs))
          else match l, m with
               | [x], _ => bind (oks (map (fun y => lift2 k g x y) m)) (fun xs => Ok (Arr xs))
               | _, [y] => bind (oks (map (fun x => lift2 k g x y) l)) (fun xs => Ok (Arr xs))
               | _, _ => Err ValueError
               end
      end
  end.
Definition broadcast (g : A -> A -> result A) (v w : value) : result value := lift2 (S (depth v + depth w)) g v w.

(** [np.max(x)] and [np.max(x, axis)]: the largest of all entries, or along an axis.  Simplification: with an axis only for numbers and arrays of one dimension. *)
Fixpoint flatten (v : value) : list A := match v with Atom a => [a] | Arr l => flat_map flatten l end.
Definition extreme (pick : A -> A -> A) (v : value) : result value :=
  match flatten v with [] => Err ValueError | x :: xs => Ok (Atom (fold_left pick xs x)) end.
Definition reduce (m : string) (pick : A -> A -> A) (args : list value) : result value :=
  match args with
  | [v] => extreme pick v
  | [v; Atom ax] =>
      match index ax with
      | None => Err TypeError
      | Some z =>
          if ((z =? 0) || (z =? -1))%Z%bool then
            match v with
            | Atom a => if String.eqb m "np" then Ok v else Err ValueError     (* numpy lets a number have the axes 0 and -1 *)
            | Arr _ => if depth v =? 1 then extreme pick v else Err RuntimeError
            end
          else Err ValueError
      end
  | _ => Err TypeError
  end.
(** The builtins [max] and [min] compare two numbers; of one array they take the largest entry; arrays cannot be compared with each other. *)
Definition builtin (pick : A -> A -> A) (args : list value) : result value :=
  match args with
  | [] => Err TypeError
  | [Atom _] => Err TypeError
  | [Arr l] => if depth (Arr l) =? 1 then extreme pick (Arr l) else Err ValueError
  | _ => bind (oks (map (fun v => match v with Atom a => Ok a | Arr _ => Err ValueError end) args)) (fun xs => extreme pick (Arr (map Atom xs)))
  end.
Definition two_arguments (f : string) : bool := smem f ["atan2"; "pow"; "power"].
Definition call_function (m f : string) (args : list value) : result value :=
  if String.eqb m "math" then
    (* math's functions take single numbers *)
    bind (oks (map (fun v => match v with Atom a => Ok a | Arr _ => Err TypeError end) args)) (fun xs =>
    if length xs =? (if two_arguments f then 2 else 1) then bind (lib m f xs) (fun x => Ok (Atom x)) else Err TypeError)
  else if String.eqb m "builtins" then
    if String.eqb f "max" then builtin larger args
    else if String.eqb f "min" then builtin smaller args
    else match args with [v] => lift1 (fun a => lib m f [a]) v | _ => Err TypeError end
  else if String.eqb f "max" then reduce m larger args
  else if String.eqb f "min" then reduce m smaller args
  else match args with
       | [v] => if two_arguments f then Err TypeError else lift1 (fun a => lib m f [a]) v
       | [v; w] => if two_arguments f then broadcast (fun a b => lib m f [a; b]) v w else Err TypeError
       | _ => Err TypeError
       end.

(** The Python objects of [node_eval]. *)
Definition numbers (l : list pv) : result (list value) := oks (map (fun p => match p with PNum v => Ok v | _ => Err TypeError end) l).
Definition py_attr (o : pv) (f : string) : result pv :=
  match o with
  | PMod m => if (String.eqb f "pi" || String.eqb f "e")%bool then Ok (PNum (Atom (const m f))) else Ok (PFun m f)
  | _ => Err AttributeError
  end.
Definition py_call (o : pv) (args : list pv) : result pv :=
  match o with
  | PFun m f => bind (numbers args) (fun vs => bind (call_function m f vs) (fun v => Ok (PNum v)))
  | _ => Err TypeError
  end.
Definition py_bin (op : binop) (a b : pv) : result pv :=
  match a, b with PNum v, PNum w => bind (broadcast (sbin op) v w) (fun x => Ok (PNum x)) | _, _ => Err TypeError end.
Definition py_un (op : unop) (a : pv) : result pv :=
  match a with PNum v => bind (lift1 (sun op) v) (fun x => Ok (PNum x)) | _ => Err TypeError end.
(** The globals of basic_math_node.py (lines 7-15) and the builtins. *)
Definition py_globals (g : string) : option pv :=
  if smem g ["math"; "np"; "jnp"] then Some (PMod g) else if smem g ["abs"; "max"; "min"] then Some (PFun "builtins" g) else None.

(** Lines 129-139 [eval_func] and 155-177 [prepare_params] (an array made of a value has the same entries). *)
Definition eval_func (m : module) (args : dict value) : result value :=
  bind (node_eval (fun c => PNum (Atom (lit c))) py_attr py_call py_bin py_un (fun _ _ => Err TypeError) py_globals (map (fun kv => (fst kv, PNum (snd kv))) args) m)
       (fun r => match r with PNum v => Ok v | _ => Err TypeError end).
(** base_models.py 932-971 [FunctionNode.compute] of the node made of [m]: the arguments are all the parameters given to the node (lines 820-830), the only output is "function_node_result". *)
Definition math_compute (m : module) (params : list string) (node : string) (st : gs A) : gs A * result value :=
  match build_inputs st node params [] with
  | Err e => (st, Err e)
  | Ok args =>
      match eval_func m args with
      | Err e => (st, Err e)
      | Ok v => match save_results_gs st node ["function_node_result"] v with
                | (st', None) => (st', Ok v)
                | (st', Some e) => (st', Err e)
                end
      end
  end.
End Sampling.
