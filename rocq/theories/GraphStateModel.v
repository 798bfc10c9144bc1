(** Model of [src/lightcurvelynx/graph_state.py], class [GraphState] (lines 17-629) and
    [transpose_dict_of_list] (725-755).

    Values.  A stored value is an atom (any Python scalar, [np.isscalar] true) or a sequence / numpy
    array, whose elements are again values (a 2-d array is a sequence of rows).  [None] and
    other non-scalar objects without [len] are not passed to [set] in this model.
    Aliasing ([force_copy], sharing of arrays) is not visible here: it is modelled in
    [GraphStateHeapModel]. *)
From Coq Require Import String Ascii List Bool Arith ZArith QArith Qabs.
From Verif Require Import Base.
Import ListNotations.
Open Scope string_scope.
Open Scope list_scope.
Open Scope nat_scope.

Inductive value (A : Type) :=
| Atom (a : A)
| Arr (l : list (value A)).
Arguments Atom {A} a.
Arguments Arr {A} l.

Section GraphState.
Context {A : Type}.

(** graph_state.py 58-61: the attributes of a GraphState. *)
Record gs := mkGS {
  gs_n : nat;                              (* num_samples *)
  gs_np : nat;                             (* num_parameters *)
  gs_states : dict (dict (value A));       (* states *)
  gs_fixed : dict (list string)            (* fixed_vars *)
}.

(** graph_state.py 53-61 [__init__]. *)
Definition gs_fresh (n : nat) : gs := mkGS n 0 [] [].
Definition gs_new (num_samples : Z) : result gs :=
  if (num_samples <? 1)%Z then Err ValueError else Ok (gs_fresh (Z.to_nat num_samples)).

(** graph_state.py 63-64 [__len__]. *)
Definition gs_len (s : gs) : nat := gs_np s.

(** graph_state.py 198-213 [extended_param_name]. *)
Definition full_name (node param : string) : string := (node ++ String dot param)%string.

(** graph_state.py 344-356 [get_all_params_names]. *)
Definition gs_names (s : gs) : list string :=
  flat_map (fun nd => map (fun pv => full_name (fst nd) (fst pv)) (snd nd)) (gs_states s).

(** What [state[key]] evaluates to: a node's dict, a parameter's value, or Python's
    [None] when the method falls off its end (lines 167-172). *)
Inductive item :=
| INode (d : dict (value A))
| IVal (v : value A)
| INone.

(** graph_state.py 144-174 [__getitem__]. *)
Definition gs_getitem (s : gs) (key : string) : result item :=
  match dget key (gs_states s) with
  | Some d => Ok (INode d)
  | None =>
      if has_dot key then
        match split_dot key with
        | [node; param] =>
            match dget node (gs_states s) with
            | None => Err KeyError
            | Some d => match dget param d with
                        | None => Err KeyError
                        | Some v => Ok (IVal v)
                        end
            end
        | _ => Err KeyError
        end
      else
        match gs_states s with
        | [(_, d)] => match dget key d with Some v => Ok (IVal v) | None => Ok INone end
        | _ => Err KeyError
        end
  end.

(** graph_state.py 78-109 [__contains__].  Falling off the end (line 106 false) returns
    [None], which the [in] operator turns into [False]. *)
Definition gs_contains (s : gs) (key : string) : result bool :=
  if dmem key (gs_states s) then Ok true
  else if has_dot key then
    match split_dot key with
    | [node; param] =>
        Ok (match dget node (gs_states s) with
            | None => false
            | Some d => dmem param d
            end)
    | _ => Err KeyError
    end
  else
    match gs_states s with
    | [(_, d)] => Ok (dmem key d)
    | _ => Ok false
    end.

(** graph_state.py 421-436: the value that ends up stored. *)
Definition store_value (n : nat) (v : value A) : result (value A) :=
  if n =? 1 then Ok v
  else match v with
       | Atom a => Ok (Arr (repeat (Atom a) n))
       | Arr l => if length l =? n then Ok (Arr l) else Err ValueError
       end.

(** graph_state.py 386-440 [set].  The state is returned also when an exception is raised,
    because lines 411-415 have run by then. *)
Definition gs_set (s : gs) (node var : string) (v : value A) (fixed : bool) : gs * option err :=
  if has_dot node || has_dot var then (s, Some ValueError)
  else
    let states1 := if dmem node (gs_states s) then gs_states s else dset node [] (gs_states s) in
    let fixed1 := if dmem node (gs_states s) then gs_fixed s else dset node [] (gs_fixed s) in
    let cur := match dget node states1 with Some d => d | None => [] end in
    let np1 := if dmem var cur then gs_np s else S (gs_np s) in
    let s1 := mkGS (gs_n s) np1 states1 fixed1 in
    match dget node fixed1 with
    | None => (s1, Some KeyError)
    | Some fx =>
        if smem var fx then (s1, None)
        else
          match store_value (gs_n s) v with
          | Err e => (s1, Some e)
          | Ok w =>
              (mkGS (gs_n s) np1 (dset node (dset var w cur) states1)
                    (if fixed then dset node (sadd var fx) fixed1 else fixed1), None)
          end
    end.

(** A sequence of [set] calls inside one method: stops at the first exception. *)
Fixpoint gs_set_all (s : gs) (l : list (string * string * value A)) (fixed : bool)
  : gs * option err :=
  match l with
  | [] => (s, None)
  | (node, var, v) :: l' =>
      match gs_set s node var v fixed with
      | (s', None) => gs_set_all s' l' fixed
      | (s', Some e) => (s', Some e)
      end
  end.

(** The order in which two nested loops over a dict of dicts visit the entries. *)
Definition entries (d : dict (dict (value A))) : list (string * string * value A) :=
  flat_map (fun nd => map (fun pv => (fst nd, fst pv, snd pv)) (snd nd)) d.

(** graph_state.py 442-483 [update] with a dictionary (lines 475-483). *)
Definition gs_update_dict (s : gs) (inputs : dict (dict (value A))) (all_fixed : bool)
  : gs * option err :=
  gs_set_all s (entries inputs) all_fixed.

(** graph_state.py 442-483 [update] with a GraphState (lines 468-474, 481-483). *)
Definition gs_update (s : gs) (inputs : gs) (all_fixed : bool) : gs * option err :=
  if negb (gs_n s =? gs_n inputs) && negb (gs_n inputs =? 1) then (s, Some ValueError)
  else gs_set_all s (entries (gs_states inputs)) all_fixed.

(** [arr[i]] for a sequence value; an atom is not indexable. *)
Definition value_at (v : value A) (i : nat) : result (value A) :=
  match v with
  | Atom _ => Err TypeError
  | Arr l => match nth_error l i with Some x => Ok x | None => Err IndexError end
  end.

(** The dict comprehension [{k: f(v) for k, v in d.items()}]. *)
Fixpoint dmap_res {V W} (f : V -> result W) (d : dict V) : result (dict W) :=
  match d with
  | [] => Ok []
  | (k, v) :: d' =>
      match f v with
      | Err e => Err e
      | Ok w => match dmap_res f d' with Err e => Err e | Ok d'' => Ok ((k, w) :: d'') end
      end
  end.

(** graph_state.py 485-508 [extract_single_sample].  [fixed_vars] of the new state stays
    empty. *)
Definition gs_extract (s : gs) (sample_num : Z) : result gs :=
  if (gs_n s =? 0) then Err ValueError
  else if (sample_num <? 0)%Z || (Z.of_nat (gs_n s) <=? sample_num)%Z then Err ValueError
  else
    match dmap_res (dmap_res (fun v => if gs_n s =? 1 then Ok v
                                       else value_at v (Z.to_nat sample_num)))
                   (gs_states s) with
    | Err e => Err e
    | Ok st => Ok (mkGS 1 (gs_np s) st [])
    end.

(** graph_state.py 72-76 [_iterate]: the list of all yielded states. *)
Fixpoint collect {B} (l : list (result B)) : result (list B) :=
  match l with
  | [] => Ok []
  | Err e :: _ => Err e
  | Ok b :: l' => match collect l' with Err e => Err e | Ok bs => Ok (b :: bs) end
  end.
Definition gs_iterate (s : gs) : result (list gs) :=
  collect (map (fun i => gs_extract s (Z.of_nat i)) (seq 0 (gs_n s))).

(** graph_state.py 358-384 [get_node_state]. *)
Definition gs_get_node_state (s : gs) (node : string) (sample_num : Z)
  : result (dict (value A)) :=
  match dget node (gs_states s) with
  | None => Err KeyError
  | Some d =>
      if (sample_num <? 0)%Z || (Z.of_nat (gs_n s) <=? sample_num)%Z then Err ValueError
      else if gs_n s =? 1 then Ok d
      else dmap_res (fun v => value_at v (Z.to_nat sample_num)) d
  end.

(** graph_state.py 598-615 [to_dict].  ([list(param_value)] is the same sequence of values;
    for a multi-sample state holding an atom [list()] would raise, which the shape
    invariant excludes.) *)
Definition gs_to_dict (s : gs) : dict (value A) :=
  fold_left (fun d nd =>
    fold_left (fun d pv => dset (full_name (fst nd) (fst pv)) (snd pv) d) (snd nd) d)
    (gs_states s) [].

(** Entries of the dictionaries accepted by [from_dict]. *)
Inductive dentry :=
| DVal (v : value A)
| DNested (d : dict (value A)).

(** graph_state.py 254-285 [from_dict].  Simplification: a dict stored under a dotted key
    is reported as ValueError. *)
Definition from_dict_step (s : gs) (kv : string * dentry) : result gs :=
  let lift (r : gs * option err) := match r with (s', None) => Ok s' | (_, Some e) => Err e end in
  if has_dot (fst kv) then
    match split_dot (fst kv), snd kv with
    | [node; param], DVal v => lift (gs_set s node param v false)
    | _, _ => Err ValueError
    end
  else
    match snd kv with
    | DNested d => lift (gs_set_all s (map (fun pv => (fst kv, fst pv, snd pv)) d) false)
    | DVal _ => Err ValueError
    end.
Definition gs_from_dict (data : dict dentry) (num_samples : Z) : result gs :=
  bind (gs_new num_samples) (fun s => fold_res from_dict_step s data).

(** An astropy Table as its columns; [len(table)] is the length of the first column, 0 without
    columns. *)
Definition table := list (string * list (value A)).
Definition table_len (t : table) : nat :=
  match t with [] => 0 | (_, c) :: _ => length c end.

(** [np.atleast_1d(v)]: an atom becomes a length-1 array. *)
Definition as_column (v : value A) : list (value A) :=
  match v with Atom a => [Atom a] | Arr l => l end.

(** graph_state.py 582-596 [to_table].  Only meant for states with two or more samples: what astropy
    does with the 0-d arrays of a one-sample state is not modelled (the theorems assume
    [2 <= gs_n s]). *)
Definition gs_to_table (s : gs) : table :=
  map (fun nv => (fst nv, as_column (snd nv)))
      (flat_map (fun nd => map (fun pv => (full_name (fst nd) (fst pv), snd pv)) (snd nd))
                (gs_states s)).

(** graph_state.py 216-239 [from_table]. *)
Definition from_table_step (s : gs) (c : string * list (value A)) : result gs :=
  match split_dot (fst c) with
  | [node; param] =>
      let lift (r : gs * option err) :=
        match r with (s', None) => Ok s' | (_, Some e) => Err e end in
      if gs_n s =? 1 then
        match snd c with
        | v :: _ => lift (gs_set s node param v false)
        | [] => Err IndexError
        end
      else lift (gs_set s node param (Arr (snd c)) false)
  | _ => Err ValueError
  end.
Definition gs_from_table (t : table) : result gs :=
  bind (gs_new (Z.of_nat (table_len t))) (fun s => fold_res from_table_step s t).

(** graph_state.py 307-328: the first loop of [from_list]; all entries are already
    GraphStates (dictionaries are first converted by [from_dict], line 312). *)
Definition same_names (l1 l2 : list string) : bool :=
  forallb (fun x => smem x l2) l1 && forallb (fun x => smem x l1) l2.

(** graph_state.py 335-341: [np.concatenate] of [np.atleast_1d] of each value.  Simplification:
    numpy's check that all parts have the same number of dimensions is not modelled. *)
Fixpoint concat_values (name : string) (l : list gs) : result (list (value A)) :=
  match l with
  | [] => Ok []
  | s :: l' =>
      match gs_getitem s name with
      | Ok (IVal v) => match concat_values name l' with
                       | Ok vs => Ok (as_column v ++ vs)
                       | Err e => Err e
                       end
      | Ok _ => Err TypeError
      | Err e => Err e
      end
  end.

Definition from_list_step (l : list gs) (s : gs) (name : string) : result gs :=
  match split_dot name with
  | [node; param] =>
      match concat_values name l with
      | Err e => Err e
      | Ok vs => match gs_set s node param (Arr vs) false with
                 | (s', None) => Ok s'
                 | (_, Some e) => Err e
                 end
      end
  | _ => Err ValueError
  end.

(** graph_state.py 288-342 [from_list].  Python iterates over a set of names in an
    unspecified order (line 332): [order] is that order and theorems quantify over it. *)
Definition gs_from_list (order : list string) (l : list gs) : result gs :=
  match l with
  | [] => Err ValueError
  | s0 :: _ =>
      if forallb (fun s => same_names (gs_names s0) (gs_names s)) l then
        bind (gs_new (Z.of_nat (list_sum (map gs_n l))))
             (fun s => fold_res (from_list_step l) s order)
      else Err ValueError
  end.

(** graph_state.py 532-542: full names are looked up, short names collected. *)
Definition extract_split (s : gs) (acc : list string * dict (value A)) (cur : string)
  : result (list string * dict (value A)) :=
  if has_dot cur then
    match split_dot cur with
    | [node; param] =>
        match dget node (gs_states s) with
        | None => Err KeyError
        | Some d => match dget param d with
                    | None => Err KeyError
                    | Some v => Ok (fst acc, dset cur v (snd acc))
                    end
        end
    | _ => Err ValueError
    end
  else Ok (sadd cur (fst acc), snd acc).

(** graph_state.py 551-573: one step of the nested traversal. *)
Definition extract_visit (single : list string) (acc : dict (value A) * dict string)
    (e : string * string * value A) : dict (value A) * dict string :=
  let '(node, param, v) := e in
  let '(results, first_seen) := acc in
  if smem param single then
    match dget param first_seen with
    | Some first =>
        let results1 :=
          match dget param results with
          | Some w => ddel param (dset (full_name first param) w results)
          | None => results
          end in
        (dset (full_name node param) v results1, first_seen)
    | None => (dset param v results, dset param node first_seen)
    end
  else acc.

(** graph_state.py 510-580 [extract_parameters]. *)
Definition gs_extract_parameters (s : gs) (params : list string) : result (dict (value A)) :=
  match fold_res (extract_split s) ([], []) params with
  | Err e => Err e
  | Ok (single, results) =>
      match single with
      | [] => Ok results
      | _ =>
          let '(results', first_seen) :=
            fold_left (extract_visit single) (entries (gs_states s)) (results, []) in
          if forallb (fun p => dmem p first_seen) single then Ok results' else Err KeyError
      end
  end.

(** ** Call histories: the public mutators of a GraphState. *)
Inductive op :=
| OSet (node var : string) (v : value A) (fixed : bool)
| OUpdateDict (inputs : dict (dict (value A))) (all_fixed : bool)
| OUpdate (inputs : gs) (all_fixed : bool).

Definition apply_op (s : gs) (o : op) : gs * option err :=
  match o with
  | OSet node var v fixed => gs_set s node var v fixed
  | OUpdateDict inputs f => gs_update_dict s inputs f
  | OUpdate inputs f => gs_update s inputs f
  end.

(** Run a history; a raised exception is caught by the caller, who goes on. *)
Definition run (s : gs) (ops : list op) : gs :=
  fold_left (fun s o => fst (apply_op s o)) ops s.

(** Every call of the history returned normally. *)
Fixpoint run_clean (s : gs) (ops : list op) : Prop :=
  match ops with
  | [] => True
  | o :: ops' => snd (apply_op s o) = None /\ run_clean (fst (apply_op s o)) ops'
  end.

(** The states that exist: the result of any history on a fresh GraphState. *)
Definition reachable (s : gs) : Prop :=
  exists n ops, 1 <= n /\ s = run (gs_fresh n) ops.

End GraphState.
Arguments gs A : clear implicits.
Arguments op A : clear implicits.
Arguments item A : clear implicits.
Arguments dentry A : clear implicits.
Arguments table A : clear implicits.

(** ** [__eq__] on numeric states.  [np.isclose]: |a - b| <= atol + rtol*|b| with
    atol = 1e-8, rtol = 1e-5 (numpy defaults). *)
Definition isclose (a b : Q) : bool :=
  Qle_bool (Qabs (a - b)) ((1 # 100000000) + (1 # 100000) * Qabs b).

Definition atom_of {A} (v : value A) : option A :=
  match v with Atom a => Some a | Arr _ => None end.

Fixpoint atoms_of {A} (l : list (value A)) : option (list A) :=
  match l with
  | [] => Some []
  | v :: l' => match atom_of v, atoms_of l' with
               | Some a, Some l'' => Some (a :: l'')
               | _, _ => None
               end
  end.

(** A number or a 1-d array of numbers, as the list of its entries and whether it is 0-d. *)
Definition flat_of {A} (v : value A) : option (bool * list A) :=
  match v with
  | Atom a => Some (true, [a])
  | Arr l => match atoms_of l with Some l' => Some (false, l') | None => None end
  end.

(** [np.allclose] on 0-d and 1-d operands with numpy broadcasting (an operand with one
    entry is stretched); incompatible lengths raise ValueError.  Operands of dimension two or
    more are not modelled (TypeError). *)
Definition allclose (v w : value Q) : result bool :=
  match flat_of v, flat_of w with
  | Some (_, l), Some (_, m) =>
      if length l =? length m then Ok (forallb (fun p => isclose (fst p) (snd p)) (combine l m))
      else match l, m with
           | [a], _ => Ok (forallb (fun b => isclose a b) m)
           | _, [b] => Ok (forallb (fun a => isclose a b) l)
           | _, _ => Err ValueError
           end
  | _, _ => Err TypeError
  end.

(** graph_state.py 134-139: compare the parameters of one node. *)
Fixpoint eq_params (d1 d2 : dict (value Q)) : result bool :=
  match d1 with
  | [] => Ok true
  | (k, v) :: d1' =>
      match dget k d2 with
      | None => Ok false
      | Some w => match allclose v w with
                  | Err e => Err e
                  | Ok false => Ok false
                  | Ok true => eq_params d1' d2
                  end
      end
  end.

(** graph_state.py 125-139: compare node by node. *)
Fixpoint eq_states (st1 st2 : dict (dict (value Q))) : result bool :=
  match st1 with
  | [] => Ok true
  | (k, d1) :: st1' =>
      match dget k st2 with
      | None => Ok false
      | Some d2 =>
          if negb (length d1 =? length d2) then Ok false
          else match eq_params d1 d2 with
               | Err e => Err e
               | Ok false => Ok false
               | Ok true => eq_states st1' st2
               end
      end
  end.

(** Python [==] on dicts of sets (line 142). *)
Definition fixed_eq (f1 f2 : dict (list string)) : bool :=
  (length f1 =? length f2) &&
  forallb (fun kv => match dget (fst kv) f2 with
                     | Some l => same_names (snd kv) l
                     | None => false
                     end) f1.

(** graph_state.py 119-142 [__eq__]. *)
Definition gs_eq (s t : gs Q) : result bool :=
  if negb (gs_n s =? gs_n t) then Ok false
  else if negb (length (gs_states s) =? length (gs_states t)) then Ok false
  else match eq_states (gs_states s) (gs_states t) with
       | Err e => Err e
       | Ok false => Ok false
       | Ok true => Ok (fixed_eq (gs_fixed s) (gs_fixed t))
       end.

(** ** graph_state.py 725-755 [transpose_dict_of_list]. *)
Definition transpose_step {V} (n : nat) (out : list (dict V)) (kv : string * list V)
  : result (list (dict V)) :=
  if negb (length (snd kv) =? n) then Err ValueError
  else Ok (map (fun p => dset (fst kv) (snd p) (fst p)) (combine out (snd kv))).
Definition transpose_dict_of_list {V} (d : dict (list V)) (num_elem : Z)
  : result (list (dict V)) :=
  if (num_elem <? 1)%Z then Err ValueError
  else fold_res (transpose_step (Z.to_nat num_elem)) (repeat [] (Z.to_nat num_elem)) d.
