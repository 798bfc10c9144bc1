(** Model of [src/lightcurvelynx/math_nodes/given_sampler.py] and of the two sky samplers of
    [src/lightcurvelynx/math_nodes/ra_dec_sampler.py] whose logic is not a library call.

    The nodes' [compute] methods are state machines: the node's mutable attributes in, the new
    attributes and the returned value (or exception) out.  What [_save_results] does with the
    returned value is modelled in [NodeGraphModel.save_results_gs].  Random draws are arguments. *)
From Coq Require Import String List Bool Arith ZArith QArith.
From Verif Require Import Base GraphStateModel.
Import ListNotations.
Open Scope string_scope.
Open Scope list_scope.
Open Scope nat_scope.

(** numpy's [a[start:end]] for [start <= end]. *)
Definition slice {A} (l : list A) (start stop : nat) : list A := firstn (stop - start) (skipn start l).

(** ** GivenValueList (given_sampler.py 64-124) *)
Section GivenValueList.
Context {A : Type}.

(** The attributes [values] and [next_ind] (lines 76-80). *)
Record gvl := mkGVL { gv_values : list A; gv_next : nat }.

(** Lines 75-82 [__init__]. *)
Definition gvl_make (values : list A) : result gvl :=
  match values with [] => Err ValueError | _ => Ok (mkGVL values 0) end.

(** Lines 84-86 [reset]. *)
Definition gvl_reset (s : gvl) : gvl := mkGVL (gv_values s) 0.

(** Lines 88-124 [compute]; [n] is [graph_state.num_samples].  Elements of [values] are atoms. *)
Definition gvl_compute (s : gvl) (n : nat) : gvl * result (value A) :=
  if n =? 1 then
    if length (gv_values s) <=? gv_next s then (s, Err IndexError)
    else match nth_error (gv_values s) (gv_next s) with
         | Some v => (mkGVL (gv_values s) (gv_next s + 1), Ok (Atom v))
         | None => (s, Err IndexError)
         end
  else
    let end_ind := gv_next s + n in
    if length (gv_values s) <? end_ind then (s, Err IndexError)
    else (mkGVL (gv_values s) end_ind,
          Ok (Arr (map Atom (slice (gv_values s) (gv_next s) end_ind)))).

(** A history of method calls on one node, and what each returned. *)
Inductive gvl_call := GCompute (n : nat) | GReset.
Fixpoint gvl_run (s : gvl) (cs : list gvl_call) : gvl * list (result (value A)) :=
  match cs with
  | [] => (s, [])
  | GReset :: cs' => gvl_run (gvl_reset s) cs'
  | GCompute n :: cs' =>
      let (s1, r) := gvl_compute s n in
      let (s2, rs) := gvl_run s1 cs' in (s2, r :: rs)
  end.
End GivenValueList.
Arguments gvl : clear implicits.

(** ** BinarySampler (given_sampler.py 15-61).  Finite floats are rationals, so the
    comparisons are exact. *)
(** Lines 28-33 [__init__]. *)
Definition binary_make (p : Q) : result Q :=
  if (negb (Qle_bool 0 p) || negb (Qle_bool p 1))%bool then Err ValueError else Ok p.
(** Lines 53-58 [compute]: [draws] are the [num_samples] values of [rng.random]. *)
Definition qlt (a b : Q) : bool := negb (Qle_bool b a).
Definition binary_compute (p : Q) (draws : list Q) : value bool :=
  match draws with
  | [d] => Atom (qlt d p)
  | _ => Arr (map (fun d => Atom (qlt d p)) draws)
  end.

(** ** GivenValueSampler (given_sampler.py 127-191) *)
(** Lines 142-160 [__init__] for a list of values; [int_dtype] says that
    [np.asarray(weights)] has an integer dtype, for which numpy's in-place true division raises
    (a [TypeError] subclass).  The second component is what the caller's own weights array
    holds afterwards: [np.asarray] does not copy a float array, so [/=] writes through; a
    Python list ([is_array = false]) is copied. *)
Record gvs := mkGVS { vs_n : nat; vs_weights : option (list Q) }.
Definition qsum (l : list Q) : Q := fold_right Qplus 0%Q l.
Definition gvs_make {A} (values : list A) (weights : option (bool * bool * list Q))
  : result gvs * option (list Q) :=
  match values with
  | [] => (Err ValueError, option_map snd weights)
  | _ =>
    match weights with
    | None => (Ok (mkGVS (length values) None), None)
    | Some (int_dtype, is_array, ws) =>
        if negb (length ws =? length values) then (Err ValueError, Some ws)
        else if int_dtype then (Err TypeError, Some ws)
        else let ws' := map (fun w => Qdiv w (qsum ws)) ws in
             (Ok (mkGVS (length values) (Some ws')), Some (if is_array then ws' else ws))
    end
  end.
(** Lines 181-191 [compute]; [inds] are the indices drawn by [rng.choice]. *)
Fixpoint take_inds {A} (l : list A) (inds : list nat) : result (list A) :=
  match inds with
  | [] => Ok []
  | i :: is' => match nth_error l i with
                | None => Err IndexError
                | Some v => bind (take_inds l is') (fun vs => Ok (v :: vs))
                end
  end.
(** [a[0]] if there was one sample, else the whole array. *)
Definition squeeze {A} (n : nat) (l : list A) : result (value A) :=
  if n =? 1 then match l with x :: _ => Ok (Atom x) | [] => Err IndexError end
  else Ok (Arr (map Atom l)).
Definition gvs_compute {A} (values : list A) (n : nat) (inds : list nat) : result (value A) :=
  bind (take_inds values inds) (squeeze n).

(** ** GivenValueSelector (given_sampler.py 194-219) *)
(** An index argument: a Python int / numpy integer, or an array of them. *)
Inductive idx := IScalar (i : Z) | IArray (l : list Z).
Definition zget {A} (l : list A) (i : Z) : result A :=
  (* numpy element access: negative indices count from the end *)
  let j := if (i <? 0)%Z then (i + Z.of_nat (length l))%Z else i in
  if (j <? 0)%Z then Err IndexError
  else match nth_error l (Z.to_nat j) with Some v => Ok v | None => Err IndexError end.
Fixpoint zget_all {A} (l : list A) (is' : list Z) : result (list A) :=
  match is' with
  | [] => Ok []
  | i :: is'' => bind (zget l i) (fun v => bind (zget_all l is'') (fun vs => Ok (v :: vs)))
  end.
(** Lines 208-213 [__init__]. *)
Definition selector_make {A} (values : list A) : result (list A) :=
  match values with [] => Err ValueError | _ => Ok values end.
(** Lines 215-219 [_select]. *)
Definition out_of_bounds (len : nat) (i : Z) : bool := ((i <? 0) || (Z.of_nat len <=? i))%Z.
Definition selector_select {A} (values : list A) (index : idx) : result (value A) :=
  match index with
  | IScalar i =>
      if out_of_bounds (length values) i then Err IndexError
      else bind (zget values i) (fun v => Ok (Atom v))
  | IArray l =>
      if existsb (out_of_bounds (length values)) l then Err IndexError
      else bind (zget_all values l) (fun vs => Ok (Arr (map Atom vs)))
  end.

(** ** TableSampler (given_sampler.py 222-317) *)
Section TableSampler.
Context {A : Type}.
(** A table: named columns.  [ts_data] is the node's own copy. *)
Record tsampler := mkTS { ts_data : dict (list A); ts_in_order : bool; ts_next : nat; ts_num : nat }.

(** [len(Table)]: the length of its first column, 0 without columns. *)
Definition table_len (d : dict (list A)) : nat := match d with [] => 0 | (_, c) :: _ => length c end.

(** Lines 246-268 [__init__] for a dict of columns or an existing table.  astropy's [Table(data)]
    raises ValueError if the columns have different lengths. *)
Definition ts_make (data : dict (list A)) (in_order : bool) : result tsampler :=
  if negb (forallb (fun c => length (snd c) =? table_len data) data) then Err ValueError
  else if table_len data =? 0 then Err ValueError
  else Ok (mkTS data in_order 0 (table_len data)).

(** Lines 270-272 [reset]. *)
Definition ts_reset (s : tsampler) : tsampler := mkTS (ts_data s) (ts_in_order s) 0 (ts_num s).

(** Lines 305-313: one value per output column, all read with the same [sample_inds]. *)
Fixpoint ts_columns (d : dict (list A)) (n : nat) (inds : list nat) : result (list (value A)) :=
  match d with
  | [] => Ok []
  | (_, col) :: d' =>
      bind (take_inds col inds) (fun vs =>
      bind (squeeze n vs) (fun v =>
      bind (ts_columns d' n inds) (fun rest => Ok (v :: rest))))
  end.

(** Lines 274-317 [compute]; [draws] is what [rng.integers(0, num_values, size=n)] returns and is
    only used when not [in_order]. *)
Definition ts_compute (s : tsampler) (n : nat) (draws : list nat) : tsampler * result (list (value A)) :=
  if ts_in_order s then
    let end_index := ts_next s + n in
    if table_len (ts_data s) <? end_index then (s, Err IndexError)
    else (mkTS (ts_data s) true end_index (ts_num s),
          ts_columns (ts_data s) n (seq (ts_next s) (end_index - ts_next s)))
  else (s, ts_columns (ts_data s) n draws).

(** A history of calls (each with its draws). *)
Inductive ts_call := TCompute (n : nat) (draws : list nat) | TReset.
Fixpoint ts_run (s : tsampler) (cs : list ts_call) : tsampler * list (result (list (value A))) :=
  match cs with
  | [] => (s, [])
  | TReset :: cs' => ts_run (ts_reset s) cs'
  | TCompute n dr :: cs' =>
      let (s1, r) := ts_compute s n dr in
      let (s2, rs) := ts_run s1 cs' in (s2, r :: rs)
  end.
End TableSampler.
Arguments tsampler : clear implicits.

(** ** ObsTableUniformRADECSampler (ra_dec_sampler.py 155-263) *)
Section Rejection.
Context {C : Type}.           (* coordinates *)
Variable zero : C.            (* 0.0 *)
Variable observed : C -> C -> bool.   (* self.data.is_observed(ra, dec, radius=self.radius), elementwise (C35) *)

(** Lines 198-211 [__init__]: the argument checks. [radius] already resolved. *)
Definition rej_make (radius : option Q) (table_rows : nat) (max_iterations : Z) : result nat :=
  match radius with
  | None => Err ValueError
  | Some r =>
      if Qle_bool r 0 then Err ValueError
      else if table_rows =? 0 then Err ValueError
      else if (max_iterations <=? 0)%Z then Err ValueError
      else Ok (Z.to_nat max_iterations)
  end.

(** [x[~mask] = new] *)
Fixpoint scatter_missing {T} (mask : list bool) (x new : list T) : list T :=
  match mask, x with
  | true :: m', v :: x' => v :: scatter_missing m' x' new
  | false :: m', v :: x' => match new with
                            | w :: new' => w :: scatter_missing m' x' new'
                            | [] => v :: scatter_missing m' x' []   (* numpy would raise; never happens *)
                            end
  | _, _ => x
  end.

Record rej := mkRej { rj_ra : list C; rj_dec : list C; rj_mask : list bool; rj_missing : nat; rj_iter : nat }.

(** Lines 238-241. *)
Definition rej_init (n : nat) : rej := mkRej (repeat zero n) (repeat zero n) (repeat false n) n 1.

Definition count_false (m : list bool) : nat := length (filter negb m).

(** Lines 246-254: the loop body; the draws are the two arrays of [num_missing] coordinates. *)
Definition rej_body (s : rej) (dra ddec : list C) : rej :=
  let ra := scatter_missing (rj_mask s) (rj_ra s) dra in
  let dec := scatter_missing (rj_mask s) (rj_dec s) ddec in
  let mask := map (fun p => observed (fst p) (snd p)) (combine ra dec) in
  mkRej ra dec mask (count_false mask) (S (rj_iter s)).

(** Lines 246-254: the loop.  [draw k m] are the arrays drawn in round [k] for [m] missing
    points.  [fuel] only makes the recursion structural: [max_iterations + 1] suffices. *)
Fixpoint rej_loop (fuel : nat) (max_it : nat) (draw : nat -> nat -> list C * list C) (s : rej) : rej :=
  match fuel with
  | O => s
  | S f =>
      if ((0 <? rj_missing s) && (rj_iter s <=? max_it))%bool then
        let d := draw (rj_iter s) (rj_missing s) in
        rej_loop f max_it draw (rej_body s (fst d) (snd d))
      else s
  end.

(** Lines 236-263 [compute]. *)
Definition rej_compute (n max_it : nat) (draw : nat -> nat -> list C * list C)
  : result (value C * value C) :=
  let s := rej_loop (S max_it) max_it draw (rej_init n) in
  bind (squeeze n (rj_ra s)) (fun ra => bind (squeeze n (rj_dec s)) (fun dec => Ok (ra, dec))).
End Rejection.

(** ** ApproximateMOCSampler (ra_dec_sampler.py 266-372) *)
Open Scope Z_scope.
Definition u64 (x : Z) : Z := x mod 2 ^ 64.
(** Lines 287-289 [__init__]. *)
Definition moc_make (depth : Z) (pixels : list Z) : result (Z * list Z) :=
  if ((depth <? 2) || (29 <? depth))%bool then Err ValueError else Ok (depth, pixels).
(** Lines 351-358 [compute] for one sample, in unsigned 64 bit arithmetic; [offset] is the value
    drawn by [rng.integers(offset_range)], [pixel] the one drawn by [rng.choice]. *)
Definition moc_offset_range (depth : Z) : Z := u64 (Z.shiftl 1 (2 * (29 - depth))).
Definition moc_pixel29 (depth pixel offset : Z) : Z :=
  u64 (u64 (Z.shiftl (u64 pixel) (2 * (29 - depth))) + offset).
