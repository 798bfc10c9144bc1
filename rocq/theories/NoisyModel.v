(** Model of src/lightcurvelynx/effects/white_noise.py and of the generator [rng_info] on its way through
    src/lightcurvelynx/models/physical_model.py (164-224, 400-463, 526-559, 638-678), models/multi_object_model.py (299-406, 482-579)
    and simulate.py (195-199).  Everything else is as in SedModel.
    A generator is the stream of the standard normal numbers it returns and how many have been taken.  [np.random.default_rng()]
    makes a generator from the operating system's entropy: the k-th one made has the stream [os k]. *)
From Coq Require Import Reals String List Bool Arith ZArith.
From Verif Require Import Base RealBase PassbandModel ObsTableModel SedModel ScipyModel.
Import ListNotations.
Open Scope R_scope.

(** The generator handed down ([None]: none), and how many unseeded generators have been made so far. *)
Record world := mkWorld { w_rng : option gen; w_made : nat }.
(** A computation that may raise an exception and changes the generators. *)
Definition act (A : Type) := world -> result A * world.
Definition ret {A} (x : A) : act A := fun w => (Ok x, w).
Definition fail {A} (e : err) : act A := fun w => (Err e, w).
Definition lift {A} (r : result A) : act A := fun w => (r, w).
Definition andthen {A B} (a : act A) (k : A -> act B) : act B :=
  fun w => match a w with (Ok x, w') => k x w' | (Err e, w') => (Err e, w') end.
Fixpoint fold_act {A B} (k : A -> B -> act A) (a : A) (l : list B) : act A :=
  match l with [] => ret a | b :: l' => andthen (k a b) (fun a' => fold_act k a' l') end.

Section Noisy.
Variable os : nat -> nat -> R.
(** [if rng_info is None: rng_info = np.random.default_rng()] and [n] numbers of it, white_noise.py 53-55 and 97-99. *)
Definition draw (n : nat) : act (list R) := fun w =>
  match w_rng w with
  | Some g => let (zs, g') := take g n in (Ok zs, mkWorld (Some g') (w_made w))
  | None => (Ok (fst (take (fresh (os (w_made w))) n)), mkWorld None (S (w_made w)))
  end.
(** [rng.normal(loc=x, scale=s)] for an array: loc + scale * number, the numbers in the order of the entries; a negative scale is
    refused by numpy (after the generator was made). *)
Definition made (w : world) : world := match w_rng w with Some _ => w | None => mkWorld None (S (w_made w)) end.
Definition noisy_row (s : R) (row zs : list R) : list R := map (fun xz => fst xz + s * snd xz) (combine row zs).
Fixpoint noisy_rows (s : R) (m : matrix) (zs : list R) : matrix :=
  match m with [] => [] | r :: m' => noisy_row s r (firstn (length r) zs) :: noisy_rows s m' (skipn (length r) zs) end.
Definition white_matrix (ps : params) (m : matrix) : act matrix :=
  match num_param "white_noise_sigma" ps with
  | None => fail ValueError
  | Some s => if Rltb s 0 then fun w => (Err ValueError, made w)
              else andthen (draw (length (concat m))) (fun zs => ret (noisy_rows s m zs))
  end.
Definition white_band (ps : params) (b : list R) : act (list R) :=
  match num_param "white_noise_sigma" ps with
  | None => fail ValueError
  | Some s => if Rltb s 0 then fun w => (Err ValueError, made w)
              else andthen (draw (length b)) (fun zs => ret (noisy_row s b zs))
  end.

(** ** Effects: those of SedModel, which leave the generator alone, and white noise. *)
Inductive reff := Plain (e : effect) | White (rest : bool) (sigma : pval).
Definition reff_params (e : reff) : params := match e with Plain e => ef_params e | White _ s => [("white_noise_sigma"%string, s)] end.
Definition apply_one (e : reff) (ts ws : list R) (ps : params) (m : matrix) : act matrix :=
  match e with Plain e => lift (ef_apply e ts ws ps m) | White _ _ => white_matrix ps m end.
Definition band_one (e : reff) (ts : list R) (fs : list string) (ps : params) (b : list R) : act (list R) :=
  match e with Plain e => lift (ef_band e ts fs ps b) | White _ _ => white_band ps b end.
Definition rapply (es : list reff) (ts ws : list R) (ps : params) (m : matrix) : act matrix :=
  fold_act (fun m e => apply_one e ts ws ps m) m es.
Definition rbands (es : list reff) (ts : list R) (fs : list string) (ps : params) (b : list R) : act (list R) :=
  fold_act (fun b e => band_one e ts fs ps b) b es.

(** ** Models.  [RSed s rest obs]: the effect lists are [rest] and [obs], not those of [s]. *)
Inductive rphys :=
| RSed (s : sed) (rest obs : list reff)
| RBand (b : bandm) (es : list reff)
| RAdd (node : string) (objs : list rphys) (weights : list R) (obs : list reff)
| RRand (node : string) (objs : list rphys) (names : list string) (obs : list reff).
Definition is_rband (m : rphys) : bool := match m with RBand _ _ => true | _ => false end.
(** physical_model.py 400-463. *)
Definition rsed_single (s : sed) (rest obs : list reff) (ts ws : list R) (st : gst) (kw : params) : act matrix :=
  andthen (lift (local_params (sd_node s) st)) (fun ps =>
  andthen (lift (rest_frame s ps ts ws)) (fun rf =>
  let '(rt, rw, oz) := rf in
  andthen (lift (sed_extrapolated s rt rw st kw)) (fun m =>
  andthen (rapply rest rt rw ps m) (fun m =>
  let m := match oz with Some z => rest_to_obs_flux m z | None => m end in
  rapply obs ts ws ps m)))).
Definition robject_map (names : list string) (n : nat) : dict nat :=
  fold_left (fun d ni => dset (fst ni) (snd ni) d) (combine names (seq 0 n)) [].
(** [_evaluate_single]: also multi_object_model.py 299-356, 482-535. *)
Fixpoint reval (m : rphys) (ts ws : list R) (st : gst) (kw : params) {struct m} : act matrix :=
  match m with
  | RSed s rest obs => rsed_single s rest obs ts ws st kw
  | RBand _ _ => fail AttributeError
  | RAdd node objs weights obs =>
      if existsb is_rband objs then fail TypeError
      else andthen ((fix go (l : list rphys) (w : list R) (acc : matrix) {struct l} : act matrix :=
                       match l, w with
                       | o :: l', x :: w' => andthen (reval o ts ws st kw) (fun f => go l' w' (madd acc (mscale x f)))
                       | _, _ => ret acc
                       end) objs weights (zeros (length ts) (length ws))) (fun fl =>
           andthen (lift (local_params node st)) (fun ps => rapply obs ts ws ps fl))
  | RRand node objs names obs =>
      if existsb is_rband objs then fail TypeError
      else match get_param node st "selected_object" with
           | PStr name =>
               match dget name (robject_map names (length objs)) with
               | None => fail KeyError
               | Some k =>
                   andthen ((fix pick (l : list rphys) (k : nat) {struct l} : act matrix :=
                               match l, k with
                               | [], _ => fail KeyError
                               | o :: _, O => reval o ts ws st kw
                               | _ :: l', S k' => pick l' k'
                               end) objs k) (fun fl =>
                   andthen (lift (local_params node st)) (fun ps => rapply obs ts ws ps fl))
               end
           | _ => fail KeyError
           end
  end.
(** physical_model.py 526-559: one SED per filter, the filters in sorted order. *)
Definition rsed_bandfluxes (ev : list R -> list R -> act matrix) (g : option pgroup) (ts : list R) (fs : list string) : act (list R) :=
  fold_act (fun out f =>
    match g with
    | None => fail TypeError
    | Some g =>
        andthen (lift (pg_getitem g f)) (fun p =>
        let mask := map (fun x => String.eqb x f) fs in
        andthen (ev (mask_list mask ts) (pb_waves p)) (fun m =>
        andthen (lift (fluxes_to_bandflux p m)) (fun b => ret (SedModel.put mask b out))))
    end) (repeat 0 (length ts)) (unique_names fs).
(** 638-678. *)
Definition rband_single (b : bandm) (es : list reff) (ts : list R) (fs : list string) (st : gst) : act (list R) :=
  andthen (lift (local_params (bm_node b) st)) (fun ps =>
  andthen (lift (bm_compute b ts fs st)) (rbands es ts fs ps)).
(** [_evaluate_bandfluxes_single]. *)
Fixpoint rband_eval (m : rphys) (g : option pgroup) (ts : list R) (fs : list string) (st : gst) {struct m} : act (list R) :=
  match m with
  | RSed s rest obs => rsed_bandfluxes (fun t w => rsed_single s rest obs t w st []) g ts fs
  | RBand b es => rband_single b es ts fs st
  | RAdd node objs weights obs =>
      andthen ((fix go (l : list rphys) (w : list R) (acc : list R) {struct l} : act (list R) :=
                  match l, w with
                  | o :: l', x :: w' => andthen (rband_eval o g ts fs st) (fun b => go l' w' (vadd acc (vscale x b)))
                  | _ :: _, [] => fail IndexError
                  | [], _ => ret acc
                  end) objs weights (repeat 0 (length ts))) (fun b =>
      andthen (lift (local_params node st)) (fun ps => rbands obs ts fs ps b))
  | RRand node objs names obs =>
      match get_param node st "selected_object" with
      | PStr name =>
          match dget name (robject_map names (length objs)) with
          | None => fail KeyError
          | Some k =>
              andthen ((fix pick (l : list rphys) (k : nat) {struct l} : act (list R) :=
                          match l, k with
                          | [], _ => fail KeyError
                          | o :: _, O => rband_eval o g ts fs st
                          | _ :: l', S k' => pick l' k'
                          end) objs k) (fun b =>
              andthen (lift (local_params node st)) (fun ps => rbands obs ts fs ps b))
          end
      | _ => fail KeyError
      end
  end.
(** 164-224 [evaluate_bandfluxes] for a group and the samples of a state: one after the other with the same generator. *)
Definition revaluate_bandfluxes (m : rphys) (g : pgroup) (ts : list R) (fs : list string) (sts : list gst) : act (list (list R)) :=
  if negb (length fs =? length ts)%nat then fail ValueError
  else fold_act (fun acc st => andthen (rband_eval m (Some g) ts fs st) (fun b => ret (acc ++ [b]))) [] sts.
(** simulate.py 195-199: the noise-free band fluxes are evaluated without a generator, whatever generator the simulation was given;
    that one goes only into the survey noise ([errors], one per observation). *)
Definition simulate_object (m : rphys) (g : pgroup) (ts : list R) (fs : list string) (st : gst) (errors : list R -> result (list R)) (w : world)
  : result (list R * list R) * world :=
  match revaluate_bandfluxes m g ts fs [st] (mkWorld None (w_made w)) with
  | (Err e, w1) => (Err e, mkWorld (w_rng w) (w_made w1))
  | (Ok l, w1) =>
      let perfect := hd [] l in
      andthen (lift (errors perfect)) (fun er =>
      andthen (draw (length perfect)) (fun zs => ret (perfect, map (fun p => fst (fst p) + snd (fst p) * snd p) (combine (combine perfect er) zs))))
        (mkWorld (w_rng w) (w_made w1))
  end.
End Noisy.
