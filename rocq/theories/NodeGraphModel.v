(** Model of [src/lightcurvelynx/base_models.py]: ParameterSource (61-166),
    ParameterizedNode (169-759) and FunctionNode (762-1002).

    Node objects live in a heap (a list, the identity of a node is its index), so that sharing
    and cycles are expressible.  Python's recursion limit is the [fuel] argument of the recursive
    methods: running out of it is RecursionError.  Functions wrapped in FunctionNodes, and
    the [compute] overrides of the samplers, are an arbitrary function [func] of an arbitrary
    "world" (random number generators, global state), the node and the arguments. *)
From Coq Require Import String Ascii List Bool Arith ZArith.
From Verif Require Import Base Numerals GraphStateModel DependencyGraphModel.
Import ListNotations.
Open Scope string_scope.
Open Scope list_scope.
Open Scope nat_scope.

Section Nodes.
Context {A : Type}.
Notation value := (value A).
Notation gs := (gs A).

(** base_models.py 86-91: the source types. *)
Inductive stype := SUndef | SConst | SModel | SFunc | SCompute.

(** base_models.py 93-99.  [value] is the constant for constants and a parameter name for links: two
    fields here. *)
Record setter := mkSet {
  st_type : stype;
  st_dep : option nat;
  st_src : string;
  st_const : option value;
  st_grad : bool
}.

(** base_models.py 101-165: the [set_as_...] methods. *)
Definition undefined : setter := mkSet SUndef None "" None false.
Definition as_constant (v : value) : setter := mkSet SConst None "" (Some v) true.
Definition as_parameter (j : nat) (p : string) : setter := mkSet SModel (Some j) p None false.
Definition as_function (j : nat) (p : string) : setter := mkSet SFunc (Some j) p None false.
(** Line 148-165: the dependency is kept. *)
Definition as_compute_output (s : setter) (p : string) : setter :=
  mkSet SCompute (st_dep s) p None false.

(** base_models.py 202-210 and, for function nodes, 814-838. *)
Record node := mkNode {
  nd_label : option string;
  nd_class : string;                (* __class__.__name__ *)
  nd_fn : bool;                     (* is a FunctionNode *)
  nd_func : option string;          (* __name__ of func; None if func is None *)
  nd_setters : dict setter;
  nd_pos : option nat;
  nd_str : string;                  (* node_string *)
  nd_args : list string;            (* arg_names *)
  nd_outs : list string;            (* outputs *)
  nd_attrs : list string            (* other attribute names of the object, for hasattr *)
}.
Definition with_setters (n : node) (d : dict setter) : node :=
  mkNode (nd_label n) (nd_class n) (nd_fn n) (nd_func n) d (nd_pos n) (nd_str n) (nd_args n)
         (nd_outs n) (nd_attrs n).
Definition with_pos (n : node) (p : option nat) : node :=
  mkNode (nd_label n) (nd_class n) (nd_fn n) (nd_func n) (nd_setters n) p (nd_str n) (nd_args n)
         (nd_outs n) (nd_attrs n).
Definition with_str (n : node) (s : string) : node :=
  mkNode (nd_label n) (nd_class n) (nd_fn n) (nd_func n) (nd_setters n) (nd_pos n) s (nd_args n)
         (nd_outs n) (nd_attrs n).

Definition nheap := list node.

Fixpoint upd {B} (i : nat) (x : B) (l : list B) : list B :=
  match l, i with
  | [], _ => []
  | _ :: l', 0 => x :: l'
  | y :: l', S i' => y :: upd i' x l'
  end.

(** base_models.py 216-233 and 851-859 [_update_node_string].  (The [node_name] field of the
    setters, lines 235-237, is only informational and left out.) *)
Definition node_string (n : node) : string :=
  match nd_label n with
  | Some l => l
  | None =>
      (nd_class n ++
       (if nd_fn n then match nd_func n with Some f => String ":"%char f | None => "" end else "") ++
       match nd_pos n with Some p => String "_"%char (decimal p) | None => "" end)%string
  end.
Definition renamed (n : node) : node := with_str n (node_string n).

(** base_models.py 239-262 [set_graph_positions]; [seen] is the set of seen nodes, in order
    of insertion. *)
Fixpoint positions (fuel : nat) (h : nheap) (seen : list nat) (i : nat)
  : result (nheap * list nat) :=
  match fuel with
  | 0 => Err RecursionError
  | S f =>
      if existsb (Nat.eqb i) seen then Ok (h, seen)
      else match nth_error h i with
           | None => Err AttributeError
           | Some n =>
               fold_res (fun hs s =>
                   match st_dep s with
                   | Some j => if j =? i then Ok hs else positions f (fst hs) (snd hs) j
                   | None => Ok hs
                   end)
                 (upd i (renamed (with_pos n (Some (length seen)))) h, seen ++ [i])
                 (map snd (nd_setters n))
           end
  end.

(** ** Sampling *)
Context {W : Type}.
Variable func : W -> nat -> dict value -> W * result value.

(** What happens during one sampling run (ghost information for the ordering property). *)
Inductive event := EEnter (i : nat) | EAssign (i : nat) (name : string) | ECompute (i : nat) | ELeave (i : nat).

Record sm := mkSM {
  sm_gs : gs;                 (* graph_state, modified in place *)
  sm_seen : dict nat;         (* seen_nodes: node string -> object *)
  sm_w : W;                   (* the world *)
  sm_tr : list event
}.
Definition sm_log (m : sm) (e : event) : sm := mkSM (sm_gs m) (sm_seen m) (sm_w m) (sm_tr m ++ [e]).

(** [graph_state.set(self.node_string, name, v)]. *)
Definition sm_set (m : sm) (nd name : string) (v : value) : result sm :=
  match gs_set (sm_gs m) nd name v false with
  | (g, None) => Ok (mkSM g (sm_seen m) (sm_w m) (sm_tr m))
  | (_, Some e) => Err e
  end.

(** [graph_state[node_string][name]]. *)
Definition gs_item (g : gs) (nd name : string) : result value :=
  match gs_getitem g nd with
  | Ok (INode d) => match dget name d with Some v => Ok v | None => Err KeyError end
  | Ok (IVal _) => Err IndexError
  | Ok INone => Err TypeError
  | Err e => Err e
  end.

(** base_models.py 861-883 [_build_inputs]. *)
Fixpoint build_inputs (g : gs) (nd : string) (args : list string) (kwargs : dict value)
  : result (dict value) :=
  match args with
  | [] => Ok []
  | k :: args' =>
      match (match dget k kwargs with Some v => Ok v | None => gs_item g nd k end) with
      | Err e => Err e
      | Ok v => match build_inputs g nd args' kwargs with
                | Err e => Err e
                | Ok d => Ok ((k, v) :: d)
                end
      end
  end.

(** base_models.py 885-905 [_save_results], on the graph state, which is modified in place: the
    state is returned also when an exception is raised.  With several outputs [len(results)] is
    taken, which fails for a scalar. *)
Definition save_results_gs (g : gs) (nd : string) (outs : list string) (r : value) : gs * option err :=
  match outs with
  | [o] => gs_set g nd o r false
  | _ =>
      match r with
      | Atom _ => (g, Some TypeError)
      | Arr l =>
          if negb (length l =? length outs) then (g, Some ValueError)
          else gs_set_all g (map (fun ov => (nd, fst ov, snd ov)) (combine outs l)) false
      end
  end.
Definition save_results (m : sm) (nd : string) (outs : list string) (r : value) : result sm :=
  match save_results_gs (sm_gs m) nd outs r with
  | (g, None) => Ok (mkSM g (sm_seen m) (sm_w m) (sm_tr m))
  | (_, Some e) => Err e
  end.

(** base_models.py 932-971 [FunctionNode.compute] and 521-538 [ParameterizedNode.compute]. *)
Definition compute (m : sm) (i : nat) (n : node) (kwargs : dict value) : result sm :=
  if negb (nd_fn n) then Ok m
  else match nd_func n with
       | None => Err ValueError
       | Some _ =>
           match build_inputs (sm_gs m) (nd_str n) (nd_args n) kwargs with
           | Err e => Err e
           | Ok args =>
               match func (sm_w m) i args with
               | (_, Err e) => Err e
               | (w, Ok r) => save_results (mkSM (sm_gs m) (sm_seen m) w (sm_tr m)) (nd_str n) (nd_outs n) r
               end
           end
       end.

Definition is_compute (s : setter) : bool := match st_type s with SCompute => true | _ => false end.

(** base_models.py 575-604: one pass of the loop over the parameters of node [i] ([rec] is the
    recursive call). *)
Definition sample_param (rec : sm -> nat -> result sm) (h : nheap) (i : nat) (n : node)
    (m0 : sm) (ps : string * setter) : result sm :=
  let '(name, s) := ps in
  match (match st_dep s with
         | Some j => if j =? i then Ok m0 else rec m0 j
         | None => Ok m0
         end) with
  | Err e => Err e
  | Ok m =>
      match st_type s with
      | SConst =>
          match st_const s with
          | None => Err TypeError
          | Some v =>
              sm_set (sm_log m (EAssign i name)) (nd_str n) name
                     (if gs_n (sm_gs m) =? 1 then v else Arr (repeat v (gs_n (sm_gs m))))
          end
      | SModel | SFunc =>
          match st_dep s with
          | None => Err AttributeError
          | Some j =>
              match nth_error h j with
              | None => Err AttributeError
              | Some d =>
                  match gs_item (sm_gs m) (nd_str d) (st_src s) with
                  | Err e => Err e
                  | Ok v => sm_set (sm_log m (EAssign i name)) (nd_str n) name v
                  end
              end
          end
      | SCompute => Ok m
      | SUndef => Err ValueError
      end
  end.

(** base_models.py 540-610 [_sample_helper]. *)
Fixpoint sample_helper (fuel : nat) (h : nheap) (m : sm) (i : nat) : result sm :=
  match fuel with
  | 0 => Err RecursionError
  | S f =>
      match nth_error h i with
      | None => Err AttributeError
      | Some n =>
          match dget (nd_str n) (sm_seen m) with
          | Some j => if j =? i then Ok m else Err ValueError
          | None =>
              match fold_res (sample_param (sample_helper f h) h i n)
                      (mkSM (sm_gs m) (dset (nd_str n) i (sm_seen m)) (sm_w m) (sm_tr m ++ [EEnter i]))
                      (nd_setters n) with
              | Err e => Err e
              | Ok m2 =>
                  match (if existsb (fun ps => is_compute (snd ps)) (nd_setters n)
                         then compute (sm_log m2 (ECompute i)) i n [] else Ok m2) with
                  | Err e => Err e
                  | Ok m3 => Ok (sm_log m3 (ELeave i))
                  end
              end
          end
      end
  end.

(** The accepted forms of [given_args]. *)
Inductive given := GNone | GDict (d : dict (dict value)) | GState (g : gs).

(** base_models.py 612-653 [sample_parameters]. *)
Definition start_heap (fuel : nat) (h : nheap) (root : nat) : result nheap :=
  match nth_error h root with
  | None => Err AttributeError
  | Some n => match nd_pos n with
              | Some _ => Ok h
              | None => match positions fuel h [] root with Ok (h', _) => Ok h' | Err e => Err e end
              end
  end.
Definition start_state (g : given) (num_samples : Z) : result gs :=
  match gs_new num_samples with
  | Err e => Err e
  | Ok s =>
      match g with
      | GNone => Ok s
      | GDict d => match gs_update_dict s d true with (s', None) => Ok s' | (_, Some e) => Err e end
      | GState t => match gs_update s t true with (s', None) => Ok s' | (_, Some e) => Err e end
      end
  end.
Definition sample_parameters (fuel : nat) (h : nheap) (root : nat) (g : given) (num_samples : Z) (w : W)
  : result (nheap * sm) :=
  match start_heap fuel h root with
  | Err e => Err e
  | Ok h' =>
      match start_state g num_samples with
      | Err e => Err e
      | Ok s => match sample_helper fuel h' (mkSM s [] w []) root with
                | Err e => Err e
                | Ok m => Ok (h', m)
                end
      end
  end.

(** base_models.py 294-325 [get_param] ([node_string in state] then index). *)
Definition get_param (g : gs) (nd name : string) (default : value) : result value :=
  match gs_contains g nd with
  | Err e => Err e
  | Ok false => Ok default
  | Ok true =>
      match gs_getitem g nd with
      | Ok (INode d) => match dget name d with Some v => Ok v | None => Ok default end
      | Ok _ => Err TypeError
      | Err e => Err e
      end
  end.

(** ** Dependency graph of a model *)
(** [str(value)] of a constant, for the name of its graph parameter. *)
Variable render : option value -> string.

(** base_models.py 676-694: one parameter. *)
Definition dep_param (rec : dgraph -> nat -> result dgraph) (h : nheap) (i : nat) (n : node)
    (g : dgraph) (ps : string * setter) : result dgraph :=
  let '(name, s) := ps in
  let full := full_name (nd_str n) name in
  let g1 := dg_add_parameter g name (Some (nd_str n)) in
  let own :=
    match st_type s with
    | SConst => let '(g2, c) := dg_add_constant g1 (render (st_const s)) in dg_add_edge g2 c full
    | _ => Ok g1
    end in
  match st_dep s with
  | Some j =>
      if j =? i then own
      else match nth_error h j with
           | None => Err AttributeError
           | Some d => bind (rec g1 j) (fun g2 => dg_add_edge g2 (full_name (nd_str d) (st_src s)) full)
           end
  | None => own
  end.
(** base_models.py 923-930: the edges from the arguments to one output. *)
Definition dep_outputs (n : node) (g : dgraph) (ps : string * setter) : result dgraph :=
  if is_compute (snd ps) then
    fold_res (fun g a => dg_add_edge g (full_name (nd_str n) a) (full_name (nd_str n) (fst ps)))
             g (nd_args n)
  else Ok g.
(** base_models.py 655-694 and 907-930 [_dependency_graph_helper]. *)
Fixpoint dep_helper (fuel : nat) (h : nheap) (g : dgraph) (i : nat) : result dgraph :=
  match fuel with
  | 0 => Err RecursionError
  | S f =>
      match nth_error h i with
      | None => Err AttributeError
      | Some n =>
          if smem (nd_str n) (dg_nodes g) then Ok g
          else match fold_res (dep_param (dep_helper f h) h i n) g (nd_setters n) with
               | Err e => Err e
               | Ok g' => if nd_fn n then fold_res (dep_outputs n) g' (nd_setters n) else Ok g'
               end
      end
  end.
(** base_models.py 696-715 [build_dependency_graph]. *)
Definition build_dependency_graph (fuel : nat) (h : nheap) (root : nat) : result dgraph :=
  match start_heap fuel h root with
  | Err e => Err e
  | Ok h' => dep_helper fuel h' dg_new root
  end.

(** ** base_models.py 750-758: one parameter of [build_pytree]. *)
Definition tree_param (rec : dict (dict value) -> nat -> result (dict (dict value)))
    (g : gs) (n : node) (p : dict (dict value)) (ps : string * setter) : result (dict (dict value)) :=
  let '(name, s) := ps in
  if st_grad s then
    match gs_item g (nd_str n) name with
    | Err e => Err e
    | Ok v =>
        match dget (nd_str n) p with
        | Some d => Ok (dset (nd_str n) (dset name v d) p)
        | None => Err KeyError
        end
    end
  else match st_dep s with
       | Some j => rec p j
       | None => Ok p
       end.
(** base_models.py 717-759 [build_pytree]. *)
Fixpoint pytree (fuel : nat) (h : nheap) (g : gs) (partial : dict (dict value)) (i : nat)
  : result (dict (dict value)) :=
  match fuel with
  | 0 => Err RecursionError
  | S f =>
      match nth_error h i with
      | None => Err AttributeError
      | Some n =>
          match nd_pos n with
          | None => Err ValueError
          | Some _ =>
              if dmem (nd_str n) partial then Ok partial
              else fold_res (tree_param (pytree f h g) g n) (dset (nd_str n) [] partial) (nd_setters n)
          end
      end
  end.

(** ** Building nodes *)
(** A value given to [set_parameter]: a bound method of a node, another callable, a node, or
    anything else (a constant). *)
Inductive pyval :=
| PMethod (j : nat) (name : string)
| PCall (fname : string)
| PNode (j : nat)
| PConst (v : value).

Definition put_setter (h : nheap) (i : nat) (name : string) (s : setter) : nheap :=
  match nth_error h i with
  | Some n => upd i (with_setters n (dset name s (nd_setters n))) h
  | None => h
  end.

(** base_models.py 826-849: a new FunctionNode without arguments and outputs yet
    (lines 814-826, 202-210). *)
Definition fn_blank (fname : string) (label : option string) : node :=
  renamed (mkNode label "FunctionNode" true (Some fname) [] None "" [] [] []).

(** base_models.py 356-438 [set_parameter], with the construction of the wrapping FunctionNode
    (line 419) given by [wrap]. *)
Definition set_parameter_with (wrap : nheap -> string -> nheap * nat * option err)
    (h : nheap) (i : nat) (name : string) (v : pyval) : nheap * option err :=
  match nth_error h i with
  | None => (h, Some AttributeError)
  | Some n0 =>
      let n := with_pos n0 None in
      let h := upd i n h in
      match dget name (nd_setters n) with
      | None => (h, Some KeyError)
      | Some _ =>
          match v with
          | PMethod j m =>
              match nth_error h j with
              | None => (h, Some AttributeError)
              | Some d => if dmem m (nd_setters d) then (put_setter h i name (as_parameter j m), None)
                          else (h, Some ValueError)
              end
          | PCall fname =>
              match wrap h fname with
              | (h', j, None) => (put_setter h' i name (as_function j "function_node_result"), None)
              | (h', _, Some e) => (h', Some e)
              end
          | PNode j =>
              match nth_error h j with
              | None => (h, Some AttributeError)
              | Some d =>
                  if nd_fn d then
                    (put_setter h i name
                       (as_function j (if smem name (nd_outs d) then name else "function_node_result")), None)
                  else if j =? i then (h, Some ValueError)
                  else if negb (dmem name (nd_setters d)) then (h, Some ValueError)
                  else (put_setter h i name (as_parameter j name), None)
              end
          | PConst c => (put_setter h i name (as_constant c), None)
          end
      end
  end.

(** base_models.py 452-520 [add_parameter].  The getter attribute it creates has the parameter's
    name, which is in [setters] by then. *)
Definition add_parameter_with (wrap : nheap -> string -> nheap * nat * option err)
    (h : nheap) (i : nat) (name : string) (v : pyval) (grad : option bool) : nheap * option err :=
  match nth_error h i with
  | None => (h, Some AttributeError)
  | Some n =>
      if smem name (nd_attrs n) && negb (dmem name (nd_setters n)) then (h, Some KeyError)
      else if dmem name (nd_setters n) then (h, Some KeyError)
      else
        let h1 := put_setter h i name undefined in
        match set_parameter_with wrap h1 i name v with
        | (h2, Some e) => (h2, Some e)
        | (h2, None) =>
            match grad, nth_error h2 i with
            | Some b, Some n2 =>
                match dget name (nd_setters n2) with
                | Some s => (put_setter h2 i name (mkSet (st_type s) (st_dep s) (st_src s) (st_const s) b), None)
                | None => (h2, None)
                end
            | _, _ => (h2, None)
            end
        end
  end.

(** base_models.py 841-846: one output of a FunctionNode; [none] is Python's None. *)
Variable none : value.
Definition fn_add_output (h : nheap) (i : nat) (name : string) : nheap * option err :=
  match add_parameter_with (fun h _ => (h, 0, Some TypeError)) h i name (PConst none) None with
  | (h', Some e) => (h', Some e)
  | (h', None) =>
      match nth_error h' i with
      | Some n => match dget name (nd_setters n) with
                  | Some s => (put_setter h' i name (as_compute_output s name), None)
                  | None => (h', Some KeyError)
                  end
      | None => (h', Some AttributeError)
      end
  end.
Fixpoint fn_add_outputs (h : nheap) (i : nat) (outs : list string) : nheap * option err :=
  match outs with
  | [] => (h, None)
  | o :: outs' => match fn_add_output h i o with
                  | (h', None) => fn_add_outputs h' i outs'
                  | (h', Some e) => (h', Some e)
                  end
  end.

(** base_models.py 828-832: the arguments, in order. *)
Definition add_arg_name (h : nheap) (i : nat) (k : string) : nheap :=
  match nth_error h i with
  | Some n => upd i (mkNode (nd_label n) (nd_class n) (nd_fn n) (nd_func n) (nd_setters n) (nd_pos n)
                            (nd_str n) (nd_args n ++ [k]) (nd_outs n) (nd_attrs n)) h
  | None => h
  end.
Definition set_outs (h : nheap) (i : nat) (outs : list string) : nheap :=
  match nth_error h i with
  | Some n => upd i (mkNode (nd_label n) (nd_class n) (nd_fn n) (nd_func n) (nd_setters n) (nd_pos n)
                            (nd_str n) (nd_args n) outs (nd_attrs n)) h
  | None => h
  end.
Fixpoint fn_add_args (wrap : nheap -> string -> nheap * nat * option err)
    (h : nheap) (i : nat) (args : list (string * pyval)) : nheap * option err :=
  match args with
  | [] => (h, None)
  | (k, v) :: args' =>
      match add_parameter_with wrap (add_arg_name h i k) i k v None with
      | (h', None) => fn_add_args wrap h' i args'
      | (h', Some e) => (h', Some e)
      end
  end.

(** base_models.py 812-846 [FunctionNode.__init__] (without [fixed_params]: a partial function is
    just another function). *)
Definition fn_new_with (wrap : nheap -> string -> nheap * nat * option err)
    (h : nheap) (fname : string) (label : option string) (args : list (string * pyval))
    (outs : list string) : nheap * nat * option err :=
  let i := length h in
  match fn_add_args wrap (h ++ [fn_blank fname label]) i args with
  | (h', Some e) => (h', i, Some e)
  | (h', None) =>
      let outs := match outs with [] => ["function_node_result"] | _ => outs end in
      let '(h'', r) := fn_add_outputs (set_outs h' i outs) i outs in
      (h'', i, r)
  end.
(** A callable argument of a wrapped function is itself wrapped, without arguments. *)
Definition wrap0 (h : nheap) (fname : string) : nheap * nat * option err :=
  fn_new_with (fun h _ => (h, 0, Some TypeError)) h fname None [] [].
Definition fn_new := fn_new_with wrap0.

(** The public methods: a general callable is wrapped in [FunctionNode(value, **kwargs)]. *)
Definition set_parameter (h : nheap) (i : nat) (name : string) (v : pyval) (kwargs : list (string * pyval)) :=
  set_parameter_with (fun h f => fn_new h f None kwargs []) h i name v.
Definition add_parameter (h : nheap) (i : nat) (name : string) (v : pyval) (grad : option bool)
    (kwargs : list (string * pyval)) :=
  add_parameter_with (fun h f => fn_new h f None kwargs []) h i name v grad.

End Nodes.
Arguments setter A : clear implicits.
Arguments node A : clear implicits.
Arguments nheap A : clear implicits.
Arguments sm A W : clear implicits.
Arguments given A : clear implicits.
Arguments pyval A : clear implicits.
