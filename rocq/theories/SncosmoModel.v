(** Model of [src/lightcurvelynx/models/sncomso_models.py] (SncosmoWrapperModel) and
    [src/lightcurvelynx/models/redback_models.py] (RedbackWrapperModel).  The wrapped objects of the sncosmo and redback packages
    are arguments ([source], [rbfun]); what is modelled is the wrapper: the mutable parameters of the sncosmo source, which
    parameters reach the wrapped object, the times, units, bounds and the mutual recursion with
    [compute_sed_with_extrapolation]. *)
From Coq Require Import Reals String List Bool Arith ZArith Lia Lra.
From Verif Require Import Base BaseFacts RealBase SedModel NoiseModel TemplateModel Salt2Model.
Import ListNotations.
Open Scope R_scope.

(** ** sncosmo *)
(** The immutable part of a [sncosmo.Source]: names of its parameters, flux as a function of the parameters' values, bounds. *)
Record source := mkSource { so_names : list string; so_flux : params -> list R -> list R -> result matrix;
  so_minwave : R; so_maxwave : R; so_minphase : R; so_maxphase : R }.
(** How a parameter of the node gets its value when sampled: a constant, or drawn by some other node. *)
Inductive setter := Const (v : pval) | Drawn (k : nat).
(** The wrapper: its settable parameters, [source_param_names], and the source's current parameter values. *)
Record sncosmo := mkSn { sn_node : string; sn_setters : dict setter; sn_names : list string; sn_values : params }.
(** [Source.set]: assigns in order; an unknown name raises KeyError after the earlier ones have been assigned. *)
Fixpoint source_set (src : source) (kvs values : params) : result unit * params :=
  match kvs with
  | [] => (Ok tt, values)
  | (k, v) :: kvs' => if smem k (so_names src) then source_set src kvs' (dset k v values) else (Err KeyError, values)
  end.
(** physical_model.py lines 60-89: the parameters every physical model has. *)
Definition base_names : list string := ["ra"; "dec"; "redshift"; "t0"; "distance"]%string.
Definition base_setters (kwargs : dict setter) : dict setter :=
  map (fun n => (n, match dget n kwargs with Some s => s | None => Const PNone end)) base_names.
(** sncomso_models.py lines 58-93 [__init__].  [attrs]: the names of the object's attributes and methods that are not parameters.  [defaults]: the
    source's parameter values as loaded by [get_source] (a copy of its own). *)
Definition sn_make (src : source) (attrs : list string) (node : string) (defaults : params) (kwargs : dict setter) : result sncosmo :=
  bind (fold_res (fun d kv => if dmem (fst kv) d then Ok d
                              else if smem (fst kv) attrs then Err KeyError
                              else Ok (dset (fst kv) (snd kv) d)) (base_setters kwargs) kwargs) (fun setters =>
  Ok (mkSn node setters (filter (fun k => smem k (so_names src)) (dkeys kwargs)) defaults)).
Fixpoint pick_all (names : list string) (ps : params) : result params :=
  match names with
  | [] => Ok []
  | n :: names' => match dget n ps with None => Err KeyError | Some v => bind (pick_all names' ps) (fun l => Ok ((n, v) :: l)) end
  end.
Definition sn_with (m : sncosmo) (values : params) : sncosmo := mkSn (sn_node m) (sn_setters m) (sn_names m) values.
(** Lines 139-145 [_update_sncosmo_model_parameters]: the dictionary is complete before the source is touched. *)
Definition sn_update (src : source) (m : sncosmo) (st : gst) : result unit * sncosmo :=
  match bind (local_params (sn_node m) st) (pick_all (sn_names m)) with
  | Err e => (Err e, m)
  | Ok kvs => let '(r, values) := source_set src kvs (sn_values m) in (r, sn_with m values)
  end.
(** Lines 161-178 [set], constants only. *)
Definition sn_set (src : source) (attrs : list string) (m : sncosmo) (kvs : params) : result unit * sncosmo :=
  let step (acc : result unit * sncosmo) kv :=
    match fst acc with
    | Err e => acc
    | Ok _ =>
        let m := snd acc in
        if (negb (dmem (fst kv) (sn_setters m)) && smem (fst kv) attrs)%bool then (Err KeyError, m)
        else (Ok tt, mkSn (sn_node m) (dset (fst kv) (Const (snd kv)) (sn_setters m))
                       (if smem (fst kv) (sn_names m) then sn_names m else sn_names m ++ [fst kv]) (sn_values m))
    end in
  let '(r, m) := fold_left step kvs (Ok tt, m) in
  match r with
  | Err e => (Err e, m)
  | Ok _ => let '(r, values) := source_set src kvs (sn_values m) in (r, sn_with m values)
  end.
(** Lines 180-207 [_sample_helper], one sample: [draw k] is what the other nodes give. *)
Definition sn_state (m : sncosmo) (draw : nat -> pval) : gst :=
  [(sn_node m, map (fun kv => (fst kv, match snd kv with Const v => v | Drawn k => draw k end)) (sn_setters m))].
Definition sn_sample (src : source) (m : sncosmo) (draw : nat -> pval) : result gst * sncosmo :=
  let st := sn_state m draw in
  match sn_update src m st with (Ok _, m') => (Ok st, m') | (Err e, m') => (Err e, m') end.
(** Lines 209-241 [mask_by_time]. *)
Definition value_or_zero (node : string) (st : gst) (name : string) : result R :=
  match get_param node st name with PNone => Ok 0 | PNum r => Ok r | PStr _ => Err TypeError end.
Definition sn_mask (src : source) (m : sncosmo) (ts : list R) (st : option gst) : result (list bool) :=
  match st with
  | None => Err ValueError
  | Some st =>
      bind (value_or_zero (sn_node m) st "redshift") (fun z =>
      bind (value_or_zero (sn_node m) st "t0") (fun t0 =>
      Ok (map (fun t => (Rltb (t0 + so_minphase src * (1 + z)) t && Rltb t (t0 + so_maxphase src * (1 + z)))%bool) ts)))
  end.
(** [np.any(wavelengths < lo) or np.any(wavelengths > hi)] *)
Definition beyond (lo hi : R) (ws : list R) : bool := (existsb (fun w => Rltb w lo) ws || existsb (fun w => Rltb hi w) ws)%bool.
(** Lines 243-279 [compute_sed].  The mutual recursion with [compute_sed_with_extrapolation] is cut by [fuel] (Python's stack);
    the nested calls set the source's parameters to the same values again, which is not repeated here (see
    [update_again] in SncosmoProps). *)
Fixpoint sn_compute (fuel : nat) (src : source) (x : option extrap) (m : sncosmo) (ts ws : list R) (st : gst) (kw : params)
  : result matrix * sncosmo :=
  match fuel with
  | O => (Err RecursionError, m)
  | S fuel' =>
      match local_params (sn_node m) st with
      | Err e => (Err e, m)
      | Ok ps =>
          match sn_update src m st with
          | (Err e, m') => (Err e, m')
          | (Ok _, m') =>
              if beyond (so_minwave src) (so_maxwave src) ws
              then (sed_extrapolated (mkSed (sn_node m) [] true (fun _ => Some (so_minwave src)) (fun _ => Some (so_maxwave src)) x
                      (fun ts ws st kw => fst (sn_compute fuel' src x m' ts ws st kw)) [] []) ts ws st kw, m')
              else
                (match dget "t0" ps with
                 | None => Err KeyError
                 | Some (PNum t0) =>
                     bind (so_flux src (sn_values m') (map (fun t => t - t0) ts) ws) (fun fl => flam_to_fnu fl ws u_aa u_flam u_njy)
                 | Some _ => Err TypeError
                 end, m')
          end
      end
  end.
(** Lines 105-137: the bounds are the source's.  The SEDModel at this moment of the wrapper's life. *)
Definition sn_sed (fuel : nat) (src : source) (x : option extrap) (redshift : bool) (rest obs : list effect) (m : sncosmo) : sed :=
  mkSed (sn_node m) [] redshift (fun _ => Some (so_minwave src)) (fun _ => Some (so_maxwave src)) x
    (fun ts ws st kw => fst (sn_compute fuel src x m ts ws st kw)) rest obs.
(** What a user can do with the wrapper between two evaluations. *)
Inductive sn_op := DoSample (draw : nat -> pval) | DoCompute (fuel : nat) (ts ws : list R) (st : gst) (kw : params) | DoMask (ts : list R) (st : option gst).
Definition sn_do (src : source) (x : option extrap) (m : sncosmo) (o : sn_op) : sncosmo :=
  match o with
  | DoSample draw => snd (sn_sample src m draw)
  | DoCompute fuel ts ws st kw => snd (sn_compute fuel src x m ts ws st kw)
  | DoMask _ _ => m
  end.

(** ** redback *)
(** A redback model function called with [output_format="sncosmo_source"]: bounds and flux density, or an exception. *)
Record rbresult := mkRb { rb_minwave : R; rb_maxwave : R; rb_flux : list R -> list R -> result matrix }.
Definition rbfun := list R -> params -> result rbresult.
(** redback_models.py lines 59-123 [__init__]: the parameters given to the source.  [parameters] is the user's dictionary,
    [priors] the outputs of the prior node (already bound to it), [kwargs] the other keyword arguments. *)
Record redback := mkRedback { rd_node : string; rd_setters : dict setter; rd_names : list string }.
Definition rd_make (attrs : list string) (node : string) (parameters kwargs : dict setter) (priors : option (dict setter)) : result redback :=
  if existsb (fun k => dmem k kwargs) (dkeys parameters) then Err ValueError
  else
    let all := match priors with
               | None => parameters
               | Some pr => fold_left (fun d kv => if dmem (fst kv) d then d else dset (fst kv) (snd kv) d) pr parameters
               end in
    bind (fold_res (fun d kv => if dmem (fst kv) d then Ok (dset (fst kv) (snd kv) d)
                                else if smem (fst kv) attrs then Err KeyError
                                else Ok (dset (fst kv) (snd kv) d)) (base_setters kwargs) all) (fun setters =>
    Ok (mkRedback node setters (dkeys all))).
(** redback_models.py lines 130-162: bounds 0 and infinity; lines 164-220 [compute_sed].  No wavelength is above infinity, so the upper bound is
    [None] (physical_model.py [compute_sed_with_extrapolation] treat both alike as long as no wavelength is negative). *)
Fixpoint rd_compute (fuel : nat) (src : rbfun) (x : option extrap) (m : redback) (ts ws : list R) (st : gst) (kw : params) : result matrix :=
  match fuel with
  | O => Err RecursionError
  | S fuel' =>
      bind (local_params (rd_node m) st) (fun ps =>
      bind (pick_all (rd_names m) ps) (fun args =>
      bind (match dget "t0" ps with None | Some PNone => Ok 0 | Some (PNum t) => Ok t | Some (PStr _) => Err TypeError end) (fun t0 =>
      let shifted := map (fun t => t - t0) ts in
      bind (src shifted args) (fun rb =>
      if beyond (rb_minwave rb) (rb_maxwave rb) ws
      then sed_extrapolated (mkSed (rd_node m) [] false (fun _ => Some 0) (fun _ => None) x (rd_compute fuel' src x m) [] []) ts ws st kw
      else bind (rb_flux rb shifted ws) (fun fl => flam_to_fnu fl ws u_aa u_flam u_njy)))))
  end.
(** The SEDModel; redback applies the redshift itself (redback_models.py line 123). *)
Definition rd_sed (fuel : nat) (src : rbfun) (x : option extrap) (rest obs : list effect) (m : redback) : sed :=
  mkSed (rd_node m) [] false (fun _ => Some 0) (fun _ => None) x (rd_compute fuel src x m) rest obs.
