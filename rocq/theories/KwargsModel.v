(** Keyword arguments as values of parameters: [src/lightcurvelynx/base_models.py] [set_parameter] (399-401 and 418-420) and [add_parameter]
    (452-520), as the constructors of the models call them (e.g. [models/basic_models.py] 27-29, [models/periodic_variable_star.py] 131-138,
    [models/snia_host.py] 16-18: [self.add_parameter(name, value, **kwargs)]).
    [kw_vals] are the keyword arguments other than [node_label], in order.  None and "not given" are the same.  Not modelled: keywords that
    are names of Python-level arguments of [set_parameter], [add_parameter] or [FunctionNode] ([name], [value], [allow_gradient], [func],
    [outputs], [fixed_params]). *)
From Coq Require Import String Ascii List Bool Arith ZArith.
From Verif Require Import Base ScipyModel GraphStateModel NodeGraphModel SniaSourceModel CosmoModel.
Import ListNotations.
Open Scope string_scope.
Open Scope list_scope.
Open Scope nat_scope.

Section Kwargs.
Context {A : Type} (none : value A).
Record keywords := mkKw { kw_label : option string; kw_vals : list (string * pyval A) }.

(** base_models.py 399-401: the value that is used. *)
Definition resolve (name : string) (v : option (pyval A)) (kw : keywords) : pyval A :=
  match v with
  | Some v => v
  | None => match dget name (kw_vals kw) with Some v => v | None => PConst none end
  end.
(** base_models.py 418-420: [FunctionNode(value, **kwargs)]. *)
Definition wrap_kw (kw : keywords) (h : nheap A) (f : string) : nheap A * nat * option err :=
  fn_new none h f (kw_label kw) (kw_vals kw) [].
(** base_models.py 356-438. *)
Definition set_parameter_kw (h : nheap A) (i : nat) (name : string) (v : option (pyval A)) (kw : keywords) :=
  set_parameter_with (wrap_kw kw) h i name (resolve name v kw).
(** base_models.py 452-520. *)
Definition add_parameter_kw (h : nheap A) (i : nat) (name : string) (v : option (pyval A)) (grad : option bool) (kw : keywords) :=
  add_parameter_with (wrap_kw kw) h i name (resolve name v kw) grad.

(** physical_model.py 61-90: the keywords that the base class takes for itself; the rest goes to the node that computes the distance
    ([wave_extrapolation], which the class in between takes, is not modelled as a keyword). *)
Definition own_keyword (k : string) : bool := smem k ["ra"; "dec"; "redshift"; "t0"; "distance"; "seed"].
Definition physical_kw (cls : string) (kw : keywords) (h : nheap A) : result (nheap A * nat) :=
  let get k := dget k (kw_vals kw) in
  physical_cosmo none cls (kw_label kw) (get "ra") (get "dec") (get "redshift") (get "t0") (get "distance") (dmem "cosmology" (kw_vals kw))
    (filter (fun kv => negb (own_keyword (fst kv)) && negb (String.eqb (fst kv) "cosmology")) (kw_vals kw)) h.
(** A model class that adds parameters of its own, each from an argument of its signature ([Some v]) or from the keywords ([None]):
    basic_models.py 27-29, periodic_variable_star.py 131-138, snia_host.py 16-18. *)
Fixpoint add_own (h : nheap A) (i : nat) (ps : list (string * option (pyval A))) (kw : keywords) : result (nheap A * nat) :=
  match ps with
  | [] => Ok (h, i)
  | (name, v) :: ps' => lift (add_parameter_kw h i name v None kw) (fun h' => add_own h' i ps' kw)
  end.
Definition model_kw (cls : string) (own : list (string * option (pyval A))) (kw : keywords) (h : nheap A) : result (nheap A * nat) :=
  bind (physical_kw cls kw h) (fun '(h', i) => add_own h' i own kw).
Definition constant_sed (brightness : pyval A) : keywords -> nheap A -> result (nheap A * nat) :=
  model_kw "ConstantSEDModel" [("brightness", Some brightness)].
Definition snia_host : keywords -> nheap A -> result (nheap A * nat) := model_kw "SNIaHost" [("hostmass", None)].
(** periodic_model.py 24-29 and periodic_variable_star.py 131-138: [period] is an argument of the signature of the base class, but a keyword of
    the subclass. *)
Definition without (k : string) (kw : keywords) : keywords :=
  mkKw (kw_label kw) (filter (fun kv => negb (String.eqb (fst kv) k)) (kw_vals kw)).
Definition eclipsing_binary (kw : keywords) (h : nheap A) : result (nheap A * nat) :=
  match dget "period" (kw_vals kw) with
  | None => Err TypeError
  | Some p =>
      bind (model_kw "EclipsingBinaryStar" [("period", Some p)] (without "period" kw) h) (fun '(h', i) =>
      add_own h' i [("major_semiaxis", None); ("inclination", None); ("primary_radius", None); ("secondary_radius", None);
                    ("primary_temperature", None); ("secondary_temperature", None)] kw)
  end.
End Kwargs.
Arguments keywords A : clear implicits.
