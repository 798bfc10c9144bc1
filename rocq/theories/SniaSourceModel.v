(** Model of [construct_snia_source] (src/lightcurvelynx/example_runs/simulate_snia.py 25-84), with the constructors it calls
    (models/physical_model.py 62-95, models/snia_host.py 16-18, models/sncomso_models.py 57-96) and the functions of the nodes it makes.

    The nodes are built in the heap of NodeGraphModel, so sampling is [sample_parameters] of that model.  What the class of a node
    does when it is computed is [snia_func].  Random numbers: a generator is a stream of uniform numbers of which some have been taken
    (ScipyModel); a standard normal number is a function [norm] of the stream and the position, using up any number of them. *)
From Coq Require Import Reals String Ascii List Bool Arith ZArith.
From Verif Require Import Base RealBase ScipyModel SniaModel GraphStateModel NodeGraphModel.
Import ListNotations.
Open Scope string_scope.
Open Scope list_scope.
Open Scope nat_scope.

(** ** Building *)
Section Build.
Context {A : Type} (none : value A).
Notation nheap := (nheap A).
Notation pyval := (pyval A).

Definition lift {X} (r : nheap * option err) (k : nheap -> result X) : result X :=
  match r with (h, None) => k h | (_, Some e) => Err e end.
(** base_models.py 812-849 [FunctionNode.__init__] of a subclass [cls] wrapping a function of name [fname]. *)
Definition fn_make (cls fname : string) (label : option string) (args : list (string * pyval)) (h : nheap) : result (nheap * nat) :=
  match fn_new none h fname label args [] with
  | (h', i, None) =>
      match nth_error h' i with
      | Some n => Ok (upd i (renamed (mkNode (nd_label n) cls (nd_fn n) (nd_func n) (nd_setters n) (nd_pos n) (nd_str n) (nd_args n) (nd_outs n) (nd_attrs n))) h', i)
      | None => Err AttributeError
      end
  | (_, _, Some e) => Err e
  end.
(** physical_model.py 62-95 [BasePhysicalModel.__init__] (and 255-265 of SEDModel, which adds no parameters).  No cosmology is given,
    so the distance is None unless given.  The other attributes of the object have no names of parameters used here. *)
Definition physical_make (cls : string) (label : option string) (ra dec redshift t0 distance : pyval) (h : nheap) : result (nheap * nat) :=
  let i := length h in
  let h := h ++ [renamed (mkNode label cls false None [] None "" [] [] [])] in
  lift (add_parameter none h i "ra" ra (Some false) []) (fun h =>
  lift (add_parameter none h i "dec" dec (Some false) []) (fun h =>
  lift (add_parameter none h i "redshift" redshift (Some false) []) (fun h =>
  lift (add_parameter none h i "t0" t0 None []) (fun h =>
  lift (add_parameter none h i "distance" distance (Some false) []) (fun h => Ok (h, i)))))).
(** A keyword argument that may be missing (then None). *)
Definition kwarg (kw : list (string * pyval)) (k : string) : pyval := match dget k kw with Some v => v | None => PConst none end.
(** snia_host.py 16-18: [add_parameter("hostmass", **kwargs)] takes the value from the keyword arguments. *)
Definition host_make (label : option string) (kw : list (string * pyval)) (h : nheap) : result (nheap * nat) :=
  bind (physical_make "SNIaHost" label (kwarg kw "ra") (kwarg kw "dec") (kwarg kw "redshift") (kwarg kw "t0") (kwarg kw "distance") h) (fun hi =>
  lift (add_parameter none (fst hi) (snd hi) "hostmass" (kwarg kw "hostmass") None kw) (fun h => Ok (h, snd hi))).
(** sncomso_models.py 57-96: the keyword arguments that are not parameters yet are added, in order (the list [source_param_names] is
    modelled in SncosmoModel). *)
Definition sncosmo_make (label : option string) (kw : list (string * pyval)) (h : nheap) : result (nheap * nat) :=
  bind (physical_make "SncosmoWrapperModel" label (kwarg kw "ra") (kwarg kw "dec") (kwarg kw "redshift") (kwarg kw "t0") (kwarg kw "distance") h) (fun hi =>
  let i := snd hi in
  bind (fold_res (fun h kv =>
          match nth_error h i with
          | Some n => if dmem (fst kv) (nd_setters n) then Ok h else lift (add_parameter none h i (fst kv) (snd kv) None []) (fun h => Ok h)
          | None => Err AttributeError
          end) (fst hi) kw) (fun h => Ok (h, i))).

(** The constants of [construct_snia_source]. *)
Record constants := mkConst {
  k_tmin : value A; k_tmax : value A; k_mhalf : value A; k_half : value A; k_7 : value A; k_12 : value A; k_0 : value A;
  k_c : value A; k_m : value A; k_ms : value A; k_alpha : value A; k_beta : value A; k_pos : value A }.
Context (k : constants).
Definition uniform_node (low high : value A) : nheap -> result (nheap * nat) :=
  fn_make "NumpyRandomFunc" "uniform" None [("low", PConst low); ("high", PConst high)].
Definition normal_node (loc : pyval) (scale : value A) : nheap -> result (nheap * nat) :=
  fn_make "NumpyRandomFunc" "normal" None [("loc", loc); ("scale", PConst scale)].
(** simulate_snia.py 47-84: the nodes, in the order in which the statements make them. *)
Definition snia_nodes : result (nheap * nat) :=
  bind (uniform_node (k_mhalf k) (k_half k) []) (fun '(h, ra) =>
  bind (uniform_node (k_mhalf k) (k_half k) h) (fun '(h, dec) =>
  bind (uniform_node (k_7 k) (k_12 k) h) (fun '(h, mass) =>
  bind (fn_make "SamplePDF" "_rvs" None [] h) (fun '(h, z) =>
  bind (host_make (Some "host") [("ra", PNode ra); ("dec", PNode dec); ("hostmass", PNode mass); ("redshift", PNode z)] h) (fun '(h, host) =>
  bind (fn_make "DistModFromRedshift" "_distmod_from_redshift" None [("redshift", PMethod host "redshift")] h) (fun '(h, distmod) =>
  bind (fn_make "HostmassX1Func" "_rvs" None [("hostmass", PMethod host "hostmass")] h) (fun '(h, x1) =>
  bind (normal_node (PConst (k_0 k)) (k_c k) h) (fun '(h, c) =>
  bind (normal_node (PConst (k_m k)) (k_ms k) h) (fun '(h, m_abs) =>
  bind (fn_make "X0FromDistMod" "_x0_from_distmod" (Some "x0_func")
          [("distmod", PNode distmod); ("x1", PNode x1); ("c", PNode c); ("alpha", PConst (k_alpha k)); ("beta", PConst (k_beta k));
           ("m_abs", PNode m_abs)] h) (fun '(h, x0) =>
  bind (uniform_node (k_tmin k) (k_tmax k) h) (fun '(h, t0) =>
  bind (normal_node (PMethod host "ra") (k_pos k) h) (fun '(h, sra) =>
  bind (normal_node (PMethod host "dec") (k_pos k) h) (fun '(h, sdec) =>
  sncosmo_make (Some "source")
    [("t0", PNode t0); ("x0", PNode x0); ("x1", PNode x1); ("c", PNode c); ("ra", PNode sra); ("dec", PNode sdec);
     ("redshift", PMethod host "redshift")] h))))))))))))).
End Build.

Open Scope R_scope.
(** ** Values: None or a number (not finite: [None]). *)
Inductive cell := CNone | CNum (x : option R).
Definition num (x : R) : value cell := Atom (CNum (Some x)).
(** The numbers of a parameter sampled [n] times. *)
Definition cell_num (v : value cell) : option (option R) := match v with Atom (CNum x) => Some x | _ => None end.
Fixpoint cells (l : list (value cell)) : option (list (option R)) :=
  match l with
  | [] => Some []
  | v :: l' => match cell_num v, cells l' with Some x, Some xs => Some (x :: xs) | _, _ => None end
  end.
Definition unpack (n : nat) (v : value cell) : option (list (option R)) :=
  if (n =? 1)%nat then cells [v] else match v with GraphStateModel.Arr l => if (length l =? n)%nat then cells l else None | Atom _ => None end.
Definition pack (n : nat) (xs : list (option R)) : value cell :=
  if (n =? 1)%nat then Atom (CNum (hd None xs)) else GraphStateModel.Arr (map (fun x => Atom (CNum x)) xs).
Fixpoint finite (xs : list (option R)) : option (list R) :=
  match xs with
  | [] => Some []
  | Some x :: xs' => option_map (cons x) (finite xs')
  | None :: _ => None
  end.
Definition numbers (n : nat) (v : value cell) : option (list R) :=
  match unpack n v with Some xs => finite xs | None => None end.

(** ** simulate_snia.py 41-43 and the arguments of the constructors. *)
Definition list_min (t : R) (l : list R) : R := fold_left Rmin l t.
Definition list_max (t : R) (l : list R) : R := fold_left Rmax l t.
Definition snia_constants (tmin tmax : R) : constants (A := cell) :=
  mkConst (num tmin) (num tmax) (num (- (1 / 2))) (num (1 / 2)) (num 7) (num 12) (num 0) (num (2 / 100)) (num (- (193 / 10))) (num (1 / 10))
          (num (14 / 100)) (num (31 / 10)) (num (1 / 100)).
(** What the nodes with state of their own hold: the inverse of the redshift distribution and those of x1. *)
Record parts := mkParts { pa_zinv : R -> R; pa_x1 : x1_node }.
(** [t :: times]: the column observationStartMJD (of an empty table the range would be not a number).  [pinv] is scipy's
    NumericalInversePolynomial; [stream]: the own numbers of the x1 node (not used below: they are [own 6]). *)
Definition construct_snia_source (pinv : (R -> R) -> result (R -> R)) (t : R) (times : list R) (zpdf : R -> R) (stream : nat -> R)
  : result (nheap cell * nat * parts) :=
  bind (pinv zpdf) (fun zinv => bind (x1_make pinv stream) (fun x1 =>
  bind (snia_nodes (Atom CNone) (snia_constants (list_min t times) (list_max t times))) (fun hi => Ok (hi, mkParts zinv x1)))).

(** ** Computing the nodes *)
Section Run.
Context (norm : (nat -> R) -> nat -> R * nat).
(** The numbers of the own generators of the nodes, and of the one given to [sample_parameters], if any; the world says how many of
    them have been taken. *)
Context (own : nat -> nat -> R) (given : option (nat -> R)).
Record world := mkWorld { w_own : nat -> nat; w_given : nat }.
Definition with_rng {X} (w : world) (i : nat) (draw : gen -> X * gen) : X * world :=
  match given with
  | Some s => let (x, g) := draw (mkGen s (w_given w)) in (x, mkWorld (w_own w) (g_pos g))
  | None => let (x, g) := draw (mkGen (own i) (w_own w i)) in (x, mkWorld (fun j => if (j =? i)%nat then g_pos g else w_own w j) (w_given w))
  end.
(** [rng.uniform(low, high)] and [rng.normal(loc, scale)] for the arrays of the parameters: one number per entry, in order. *)
Definition uniforms (lows highs : list R) (g : gen) : list R * gen :=
  let (us, g') := take g (length lows) in (map (fun p => fst (fst p) + (snd (fst p) - fst (fst p)) * snd p) (combine (combine lows highs) us), g').
Fixpoint normals (ps : list (R * R)) (g : gen) : list R * gen :=
  match ps with
  | [] => ([], g)
  | (loc, scale) :: ps' =>
      let (z, p) := norm (g_stream g) (g_pos g) in
      let (xs, g') := normals ps' (mkGen (g_stream g) p) in (loc + scale * z :: xs, g')
  end.
(** The two arguments of a distribution as finite numbers; numpy raises for others. *)
Definition two_args (n : nat) (args : dict (value cell)) (a b : string) : option (list R * list R) :=
  match dget a args, dget b args with
  | Some u, Some v => match numbers n u, numbers n v with Some x, Some y => Some (x, y) | _, _ => None end
  | _, _ => None
  end.
(** The sampled numbers of HostmassX1Func. *)
Definition outcome_list (o : outcome) : list R := match o with Num x => [x] | ScipyModel.Arr l => l end.
(** Arithmetic on numbers that may be not finite. *)
Definition lift2 {X Y Z} (f : X -> Y -> Z) (a : option X) (b : option Y) : option Z :=
  match a, b with Some x, Some y => Some (f x y) | _, _ => None end.
Fixpoint map6 (f : option R -> option R -> option R -> option R -> option R -> option R -> option R) (a b c d e m : list (option R)) : list (option R) :=
  match a, b, c, d, e, m with
  | a1 :: a', b1 :: b', c1 :: c', d1 :: d', e1 :: e', m1 :: m' => f a1 b1 c1 d1 e1 m1 :: map6 f a' b' c' d' e' m'
  | _, _, _, _, _, _ => []
  end.
Definition x0_cell (mu x1 c alpha beta m_abs : option R) : option R :=
  match mu, x1, c, alpha, beta, m_abs with
  | Some mu, Some x1, Some c, Some alpha, Some beta, Some m => Some (x0_from_distmod mu x1 c alpha beta m)
  | _, _, _, _, _, _ => None
  end.
Definition six_args (n : nat) (args : dict (value cell)) : option (list (option R)) :=
  match dget "distmod" args, dget "x1" args, dget "c" args, dget "alpha" args, dget "beta" args, dget "m_abs" args with
  | Some a, Some b, Some c, Some d, Some e, Some m =>
      match unpack n a, unpack n b, unpack n c, unpack n d, unpack n e, unpack n m with
      | Some a, Some b, Some c, Some d, Some e, Some m => Some (map6 x0_cell a b c d e m)
      | _, _, _, _, _, _ => None
      end
  | _, _, _, _, _, _ => None
  end.

(** [compute] of the nodes, by the class: np_random.py 94-135, scipy_random.py 104-142 (SamplePDF), snia_utils.py 208-248 (HostmassX1Func),
    313-327 (DistModFromRedshift, H0 = 73.0 and Omega_m = 0.3 of line 57 of simulate_snia.py) and 151-178 (X0FromDistMod), for [n] samples.
    Not finite arguments of a distribution and arguments that are not numbers raise (ValueError or TypeError). *)
Definition snia_func (h : nheap cell) (pa : parts) (n : nat) (w : world) (i : nat) (args : dict (value cell)) : world * result (value cell) :=
  match nth_error h i with
  | None => (w, Err AttributeError)
  | Some nd =>
      let draw (r : list R * world) := let (xs, w') := r in (w', Ok (pack n (map Some xs))) in
      let pure (r : option (list (option R))) := match r with Some xs => (w, Ok (pack n xs)) | None => (w, Err TypeError) end in
      if String.eqb (nd_class nd) "NumpyRandomFunc" then
        if match nd_func nd with Some f => String.eqb f "uniform" | None => false end then
          match two_args n args "low" "high" with
          | Some (lo, hi) => draw (with_rng w i (uniforms lo hi))
          | None => (w, Err ValueError)
          end
        else
          match two_args n args "loc" "scale" with
          | Some (lo, sc) => draw (with_rng w i (normals (combine lo sc)))
          | None => (w, Err ValueError)
          end
      else if String.eqb (nd_class nd) "SamplePDF" then draw (with_rng w i (rvs (pa_zinv pa) n))
      else if String.eqb (nd_class nd) "HostmassX1Func" then
        match (match dget "hostmass" args with Some v => numbers n v | None => None end) with
        | Some mass => let (o, w') := with_rng w i (x1_run (pa_x1 pa) mass) in (w', Ok (pack n (map Some (outcome_list o))))
        | None => (w, Err TypeError)
        end
      else if String.eqb (nd_class nd) "DistModFromRedshift" then
        pure (match (match dget "redshift" args with Some v => unpack n v | None => None end) with
              | Some zs => Some (map (fun z => match z with Some z => distmod 73 (3 / 10) z | None => None end) zs)
              | None => None
              end)
      else if String.eqb (nd_class nd) "X0FromDistMod" then pure (six_args n args)
      else (w, Err NotImplementedError)
  end.
(** [source.sample_parameters(num_samples=n, rng_info=rng)] *)
Definition sample_snia (fuel : nat) (model : nheap cell * nat * parts) (n : Z) (w : world) : result (nheap cell * sm cell world) :=
  let '(h, root, pa) := model in
  sample_parameters (snia_func h pa (Z.to_nat n)) fuel h root GNone n w.
End Run.
