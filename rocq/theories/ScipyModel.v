(** Model of src/lightcurvelynx/math_nodes/scipy_random.py (NumericalInversePolynomialFunc, SamplePDF, SampleLogPDF).
    A density is a function on the reals.  [pinv] is scipy's NumericalInversePolynomial: from a density to the approximate inverse
    of its distribution function, or an exception.  Sampling by inversion takes one uniform number of the generator per sample; a
    generator is the stream of the numbers it returns and how many have been taken. *)
From Coq Require Import Reals String List Bool Arith ZArith.
From Verif Require Import Base GraphStateModel.
Import ListNotations.
Open Scope R_scope.

Section Scipy.
Context {A : Type} (pinv : (R -> R) -> result (R -> R)).

(** A Python object as far as it matters: its methods pdf and logpdf, and what it returns when called with a number. *)
Record pyobj := mkObj { o_pdf : option (R -> R); o_logpdf : option (R -> R); o_call : option (R -> R) }.
(** The argument [dist]: an object, or a class, of which the constructor makes an object from keyword arguments.  [cl_pdf] and
    [cl_logpdf]: whether the class has such an attribute. *)
Inductive darg := DObj (o : pyobj) | DClass (cl_pdf cl_logpdf : bool) (make : dict A -> result pyobj).
(** The density of an object; an object with both methods describes one density. *)
Definition density (o : pyobj) : option (R -> R) :=
  match o_pdf o, o_logpdf o with
  | Some f, _ => Some f
  | None, Some g => Some (fun x => exp (g x))
  | None, None => None
  end.
(** [NumericalInversePolynomial(obj)]; without a density: ValueError. *)
Definition inverse (o : pyobj) : result (R -> R) := match density o with Some f => pinv f | None => Err ValueError end.

(** Generators. *)
Record gen := mkGen { g_stream : nat -> R; g_pos : nat }.
Definition fresh (stream : nat -> R) : gen := mkGen stream 0.
Definition take (g : gen) (n : nat) : list R * gen := (map (fun i => g_stream g (g_pos g + i)%nat) (seq 0 n), mkGen (g_stream g) (g_pos g + n)).
(** [inv.rvs(n, rng)] *)
Definition rvs (q : R -> R) (n : nat) (g : gen) : list R * gen := let (us, g') := take g n in (map q us, g').

(** The node: [_inv_poly] or the class, and the own generator. *)
Inductive sampler := Fixed (q : R -> R) | Class (make : dict A -> result pyobj).
Record node := mkNode { nd_dist : sampler; nd_rng : gen }.
Definition has_density (d : darg) : bool :=
  match d with
  | DObj o => match density o with Some _ => true | None => false end
  | DClass p l _ => p || l
  end.
(** Lines 44-66 [__init__]; [stream]: the numbers of the generator for the given (or drawn) seed. *)
Definition inv_make (d : darg) (stream : nat -> R) : result node :=
  if negb (has_density d) then Err ValueError
  else match d with
       | DObj o => bind (inverse o) (fun q => Ok (mkNode (Fixed q) (fresh stream)))
       | DClass _ _ make => Ok (mkNode (Class make) (fresh stream))
       end.
(** Lines 72-80 [set_seed]. *)
Definition inv_set_seed (nd : node) (stream : nat -> R) : node := mkNode (nd_dist nd) (fresh stream).
(** Lines 82-102 [_create_and_sample]. *)
Definition create_and_sample (make : dict A -> result pyobj) (args : dict A) (g : gen) : result R * gen :=
  match bind (make args) inverse with
  | Err e => (Err e, g)
  | Ok q => match rvs q 1 g with (x :: _, g') => (Ok x, g') | ([], g') => (Err IndexError, g') end
  end.
Fixpoint each (make : dict A -> result pyobj) (l : list (dict A)) (g : gen) : result (list R) * gen :=
  match l with
  | [] => (Ok [], g)
  | a :: l' =>
      match create_and_sample make a g with
      | (Err e, g') => (Err e, g')
      | (Ok x, g') => match each make l' g' with (Err e, g'') => (Err e, g'') | (Ok xs, g'') => (Ok (x :: xs), g'') end
      end
  end.
(** [np.vectorize(f)(l, rng)]: to find the type of the output numpy calls the function on the first element, and then, without
    reusing that result (cache=False), on every element. *)
Definition vectorized (make : dict A -> result pyobj) (l : list (dict A)) (g : gen) : result (list R) * gen :=
  match l with
  | [] => (Err ValueError, g)
  | a :: _ => match create_and_sample make a g with
              | (Err e, g') => (Err e, g')
              | (Ok _, g') => each make l g'
              end
  end.
(** What [compute] returns and stores: a number or an array. *)
Inductive outcome := Num (x : R) | Arr (l : list R).
(** The inputs built from the graph state: for one sample the values, for several the arrays of values. *)
Inductive inputs := Single (d : dict A) | Arrays (d : dict (list A)).
(** Lines 104-147 [compute] on one generator, for [n] samples. *)
Definition run (d : sampler) (n : nat) (inp : inputs) (g : gen) : result outcome * gen :=
  match d with
  | Fixed q => let (xs, g') := rvs q n g in
               (match n, xs with 1%nat, x :: _ => Ok (Num x) | _, _ => Ok (Arr xs) end, g')
  | Class make =>
      match n, inp with
      | 1%nat, Single a => match create_and_sample make a g with (r, g') => (bind r (fun x => Ok (Num x)), g') end
      | 1%nat, Arrays _ => (Err TypeError, g)
      | _, Arrays a =>
          match transpose_dict_of_list a (Z.of_nat n) with
          | Err e => (Err e, g)
          | Ok l => match vectorized make l g with (r, g') => (bind r (fun xs => Ok (Arr xs)), g') end
          end
      | _, Single _ => (Err TypeError, g)
      end
  end.
(** [compute] with or without a given generator: the result, the node and the given generator afterwards. *)
Definition inv_compute (nd : node) (n : nat) (inp : inputs) (given : option gen) : result outcome * node * option gen :=
  match given with
  | Some g => let (r, g') := run (nd_dist nd) n inp g in (r, nd, Some g')
  | None => let (r, g') := run (nd_dist nd) n inp (nd_rng nd) in (r, mkNode (nd_dist nd) g', None)
  end.

(** Lines 150-162, 165-182, 185-197 and 200-214: SamplePDF and SampleLogPDF.  A class is callable: without the method it is wrapped
    like a function, whose values (objects) no sampling can use ([Err TypeError]). *)
Definition pdf_wrapper (f : R -> R) : pyobj := mkObj (Some f) None None.
Definition logpdf_wrapper (f : R -> R) : pyobj := mkObj None (Some f) None.
Definition sample_pdf (d : darg) (stream : nat -> R) : result node :=
  match d with
  | DObj o => match o_pdf o, o_call o with
              | Some _, _ => inv_make d stream
              | None, Some f => inv_make (DObj (pdf_wrapper f)) stream
              | None, None => Err ValueError
              end
  | DClass p _ _ => if p then inv_make d stream else Err TypeError
  end.
Definition sample_logpdf (d : darg) (stream : nat -> R) : result node :=
  match d with
  | DObj o => match o_logpdf o, o_call o with
              | Some _, _ => inv_make d stream
              | None, Some f => inv_make (DObj (logpdf_wrapper f)) stream
              | None, None => Err ValueError
              end
  | DClass _ l _ => if l then inv_make d stream else Err TypeError
  end.
End Scipy.
Arguments pyobj : clear implicits.
