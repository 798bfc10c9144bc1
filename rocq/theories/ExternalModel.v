(** Model of the nodes that sample from external packages:
    src/lightcurvelynx/math_nodes/bilby_priors.py (BilbyPriorNode) and src/lightcurvelynx/astro_utils/pzflow_node.py (PZFlowNode).
    The packages themselves (bilby, pzflow, pandas) are not modelled: bilby's priors and a flow are arguments, with the part of their
    documented behaviour that is used stated next to the theorems. *)
From Coq Require Import ZArith String List Bool Arith.
From Verif Require Import Base GraphStateModel NodeGraphModel.
Import ListNotations.
Open Scope string_scope.
Open Scope list_scope.
Open Scope nat_scope.

(** ** Bilby *)
Section Bilby.
(** [A]: scalars. [G]: the states of bilby's generator, a variable of the module bilby.core.utils.random that all users of bilby in the process
    share.  [seeded s]: its state after [seed(s)]. *)
Context {A G : Type} (seeded : Z -> G).
Notation value := (value A).
Notation gs := (gs A).

(** One entry of a PriorDict: a distribution ([draw n g]: [n] values drawn from the generator [g], and the generator afterwards) or a
    [Constraint], which is never drawn. *)
Inductive prior :=
| PDist (draw : nat -> G -> list A * G)
| PConstraint.

(** bilby's [PriorDict.sample(n)]: the entries are drawn in their order; constraints are left out of the result.  Simplification: the
    rejection of draws that violate a constraint is not modelled (no theorem says which values are drawn when there are constraints). *)
Fixpoint prior_sample (prior : dict prior) (n : nat) (g : G) : dict (list A) * G :=
  match prior with
  | [] => ([], g)
  | (k, PConstraint) :: l => prior_sample l n g
  | (k, PDist draw) :: l =>
      let (xs, g1) := draw n g in
      let (d, g2) := prior_sample l n g1 in
      ((k, xs) :: d, g2)
  end.

(** The attributes of the node (bilby_priors.py 64-68). *)
Record bnode := mkB { b_name : string; b_prior : dict prior; b_outputs : list string }.

(** bilby_priors.py 70-86 [set_seed]: reseeds bilby's own generator. *)
Definition bilby_set_seed (seed : Z) (g : G) : G := seeded seed.

(** bilby_priors.py 47-68 [__init__], without further keyword arguments; the seed is set before the prior is looked at.  Lines 53-61 make a
    PriorDict with the same entries. *)
Definition bilby_init (node : string) (p : dict prior) (seed : option Z) (g : G) : G * result bnode :=
  let g1 := match seed with Some s => bilby_set_seed s g | None => g end in
  if length p =? 0 then (g1, Err ValueError)
  else (g1, Ok (mkB node p (dkeys p))).

(** bilby_priors.py 119-124: the loop over the outputs. *)
Fixpoint bilby_store (node : string) (outs : list string) (d : dict (list A)) (st : gs) (acc : list value) : gs * result (list value) :=
  match outs with
  | [] => (st, Ok acc)
  | key :: outs' =>
      match dget key d with
      | None => (st, Err KeyError)
      | Some xs =>
          match (if gs_n st =? 1 then match xs with x :: _ => Ok (Atom x) | [] => Err IndexError end
                 else Ok (Arr (map Atom xs))) with
          | Err e => (st, Err e)
          | Ok v =>
              match gs_set st node key v false with
              | (st', None) => bilby_store node outs' d st' (acc ++ [v])
              | (st', Some e) => (st', Err e)
              end
          end
      end
  end.
(** bilby_priors.py 88-125 [compute]; [rng] is the argument [rng_info]. *)
Definition bilby_compute {RNG : Type} (b : bnode) (st : gs) (rng : option RNG) (g : G) : G * (gs * result (list value)) :=
  let (d, g') := prior_sample (b_prior b) (gs_n st) g in
  (g', bilby_store (b_name b) (b_outputs b) d st []).
End Bilby.
Arguments prior A G : clear implicits.
Arguments bnode A G : clear implicits.

(** ** PZFlow *)
Section PZFlow.
(** [A]: scalars. [RNG]: the states of a numpy generator; [rng_bytes k r]: what [r.bytes(k)] returns, and the generator afterwards. *)
Context {A RNG : Type} (rng_bytes : nat -> RNG -> list Z * RNG).
Notation value := (value A).
Notation gs := (gs A).

(** A pandas DataFrame: its number of rows and its columns. *)
Record frame := mkF { f_rows : nat; f_cols : dict (list A) }.

(** A flow: the names of its columns, the names of its conditional columns, and what [sample(nsamples, conditions, seed)] returns. *)
Record flow := mkFlow {
  fl_data : list string;
  fl_cond : option (list string);
  fl_sample : nat -> option frame -> option Z -> result frame
}.

(** [pd.DataFrame(d)] for a dictionary of node parameters: columns that are scalars are repeated, the others must be 1-d arrays of one
    common length; ValueError when all are scalars. *)
Definition scalars (l : list value) : option (list A) :=
  fold_right (fun v acc => match v, acc with Atom a, Some l => Some (a :: l) | _, _ => None end) (Some []) l.
Definition common_length (d : dict value) : result nat :=
  match fold_right (fun kv acc => match snd kv with Arr l => Some (length l) | Atom _ => acc end) None d with
  | None => Err ValueError
  | Some n => Ok n
  end.
Fixpoint frame_cols (n : nat) (d : dict value) : result (dict (list A)) :=
  match d with
  | [] => Ok []
  | (k, v) :: d' =>
      match (match v with
             | Atom a => Ok (repeat a n)
             | Arr l => if length l =? n then match scalars l with Some xs => Ok xs | None => Err ValueError end else Err ValueError
             end) with
      | Err e => Err e
      | Ok c => match frame_cols n d' with Err e => Err e | Ok cs => Ok ((k, c) :: cs) end
      end
  end.
Definition data_frame (d : dict value) : result frame :=
  match common_length d with
  | Err e => Err e
  | Ok n => match frame_cols n d with Err e => Err e | Ok cs => Ok (mkF n cs) end
  end.

(** The attributes of the node (pzflow_node.py 33-49). *)
Record pznode := mkP { z_name : string; z_flow : flow; z_cond : option (list string); z_outputs : list string }.

(** pzflow_node.py 32-49 [__init__]; [given] are the names of the further keyword arguments.  base_models.py 836-838: without outputs there
    is the one default output. *)
Definition pz_init (node : string) (fl : flow) (given : list string) : result pznode :=
  let outs := match fl_data fl with [] => ["function_node_result"] | cols => cols end in
  match fl_cond fl with
  | Some (c :: cs) =>
      if forallb (fun col => smem col given) (c :: cs) then Ok (mkP node fl (Some (c :: cs)) outs) else Err ValueError
  | _ => Ok (mkP node fl None outs)
  end.

(** [int.from_bytes(b, byteorder="big")]. *)
Definition from_bytes_big (b : list Z) : Z := fold_left (fun acc x => (256 * acc + x)%Z) b 0%Z.

(** pzflow_node.py 102-104: the inputs of the flow. *)
Fixpoint pz_inputs (params : dict value) (cols : list string) (acc : dict value) : result (dict value) :=
  match cols with
  | [] => Ok acc
  | c :: cols' => match dget c params with None => Err KeyError | Some v => pz_inputs params cols' (dset c v acc) end
  end.
(** pzflow_node.py 98-109: the call of the flow. *)
Definition pz_samples (z : pznode) (st : gs) (seed : option Z) : result frame :=
  match z_cond z with
  | Some (c :: cs) =>
      match gs_getitem st (z_name z) with
      | Err e => Err e
      | Ok (INode params) =>
          match pz_inputs params (c :: cs) [] with
          | Err e => Err e
          | Ok inputs => match data_frame inputs with Err e => Err e | Ok df => fl_sample (z_flow z) 1 (Some df) seed end
          end
      | Ok _ => Err TypeError
      end
  | _ => fl_sample (z_flow z) (gs_n st) None seed
  end.
(** pzflow_node.py 112-118: one result per column. *)
Fixpoint pz_results (n : nat) (cols : list string) (df : frame) : result (list value) :=
  match cols with
  | [] => Ok []
  | c :: cols' =>
      match dget c (f_cols df) with
      | None => Err KeyError
      | Some xs =>
          match (if n =? 1 then match xs with x :: _ => Ok (Atom x) | [] => Err IndexError end else Ok (Arr (map Atom xs))) with
          | Err e => Err e
          | Ok v => match pz_results n cols' df with Err e => Err e | Ok vs => Ok (v :: vs) end
          end
      end
  end.
(** pzflow_node.py 75-125 [compute]: the generator afterwards, the state afterwards and the result. *)
Definition pz_compute (z : pznode) (st : gs) (rng : option RNG) : option RNG * (gs * result value) :=
  let '(seed, rng') :=
    match rng with
    | None => (None, None)
    | Some r => let (b, r') := rng_bytes 4 r in (Some (from_bytes_big b), Some r')
    end in
  (rng',
   match pz_samples z st seed with
   | Err e => (st, Err e)
   | Ok df =>
       match pz_results (gs_n st) (fl_data (z_flow z)) df with
       | Err e => (st, Err e)
       | Ok rs =>
           let res := match rs with [v] => v | _ => Arr rs end in
           match save_results_gs st (z_name z) (z_outputs z) res with
           | (st', None) => (st', Ok res)
           | (st', Some e) => (st', Err e)
           end
       end
   end).
End PZFlow.
Arguments frame A : clear implicits.
Arguments flow A : clear implicits.
Arguments pznode A : clear implicits.
