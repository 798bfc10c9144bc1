(** Model of the flux pipeline: [src/lightcurvelynx/astro_utils/redshift.py] (11-58),
    [src/lightcurvelynx/utils/wave_extrapolate.py], [src/lightcurvelynx/models/physical_model.py]
    (145-678), [src/lightcurvelynx/models/multi_object_model.py] and the effects in
    [src/lightcurvelynx/effects/].

    A flux matrix is the list of its rows (one per time).  Random number generators are not threaded
    through: an effect is a function of the arguments of [apply]/[apply_bandflux] without [rng_info].
    A one-sample [GraphState] maps node strings to parameter dictionaries; a state with several
    samples is the list of its one-sample slices (see [GraphStateModel] for that correspondence). *)
From Coq Require Import Reals String Ascii List Bool Arith ZArith Lia Lra.
From Verif Require Import Base RealBase PassbandModel ObsTableModel.
Import ListNotations.
Open Scope R_scope.

Definition matrix := list (list R).
Inductive pval := PNone | PNum (r : R) | PStr (s : string).
Definition params := dict pval.
Definition gst := dict params.

(** base_models.py lines 327-355 [get_local_params] / graph_state.py 358-384. *)
Definition local_params (node : string) (st : gst) : result params :=
  match dget node st with None => Err KeyError | Some p => Ok p end.
(** base_models.py lines 294-325 [get_param] (default None). *)
Definition get_param (node : string) (st : gst) (name : string) : pval :=
  match dget node st with
  | None => PNone
  | Some p => match dget name p with Some v => v | None => PNone end
  end.

(** ** redshift.py *)
(** Lines 11-37. *)
Definition obs_to_rest (ts ws : list R) (z t0 : R) : list R * list R :=
  (map (fun t => (t - t0) / (1 + z) + t0) ts, map (fun w => w / (1 + z)) ws).
(** Lines 40-58. *)
Definition rest_to_obs_flux (m : matrix) (z : R) : matrix := map (map (fun x => x * (1 + z))) m.

(** ** wave_extrapolate.py *)
(** The extrapolation objects: lines 8-12, 41-55, 84-88, 116-131, 161-177. *)
Inductive extrap := XBase | XConst (v : R) | XLast | XLinear (width : R) | XExp (rate : R).
Definition make_const (v : R) : result extrap := if Rltb v 0 then Err ValueError else Ok (XConst v).
Definition make_linear (w : R) : result extrap := if Rleb w 0 then Err ValueError else Ok (XLinear w).
Definition make_exp (r : R) : result extrap := if Rltb r 0 then Err ValueError else Ok (XExp r).
(** [np.clip(x, 0, 1)] *)
Definition clip01 (x : R) : R := Rmin (Rmax x 0) 1.
(** [__call__]: lines 14-38, 57-81, 90-113, 133-158, 179-204.  [outer]: [flux[:, None] * mult[None, :]]. *)
Definition outer (a b : list R) : matrix := map (fun x => map (fun y => x * y) b) a.
Definition extrap_call (e : extrap) (last_wave : R) (last_flux : list R) (qw : list R) : matrix :=
  let dist := map (fun w => Rabs (w - last_wave)) qw in
  match e with
  | XBase => map (fun _ => map (fun _ => 0) qw) last_flux
  | XConst v => map (fun _ => map (fun _ => v) qw) last_flux
  | XLast => map (fun f => map (fun _ => f) qw) last_flux
  | XLinear width => outer last_flux (map (fun d => clip01 (1 - d / width)) dist)
  | XExp rate => outer last_flux (map (fun d => exp (- rate * d)) dist)
  end.

(** ** Effects *)
(** effect_model.py: [rest_frame], [parameters] (constants only), [apply], [apply_bandflux].  [None] for
    an [apply...] that the class does not override (NotImplementedError). *)
Record effect := mkEff {
  ef_rest : bool;
  ef_params : params;
  ef_apply : list R -> list R -> params -> matrix -> result matrix;
  ef_band : list R -> list string -> params -> list R -> result (list R)
}.
(** basic_effects.py: ConstantDimming.  A keyword argument that is missing or None raises ValueError. *)
Definition num_param (name : string) (ps : params) : option R :=
  match dget name ps with Some (PNum r) => Some r | _ => None end.
Definition dimming (rest : bool) (fraction : pval) : effect :=
  mkEff rest [("flux_fraction"%string, fraction)]
    (fun _ _ ps m => match num_param "flux_fraction" ps with
                     | None => Err ValueError
                     | Some f => Ok (map (map (fun x => x * f)) m)
                     end)
    (fun _ _ ps b => match num_param "flux_fraction" ps with
                     | None => Err ValueError
                     | Some f => Ok (map (fun x => x * f) b)
                     end).
(** extinction.py [apply]: multiplies each wavelength column by [extinguish(wave, Ebv=ebv)]; the dust
    curve is an arbitrary function.  [apply_bandflux] is not overridden. *)
Definition extinction (rest : bool) (extinguish : R -> R -> R) (ebv : pval) : effect :=
  mkEff rest [("ebv"%string, ebv)]
    (fun _ ws ps m => match num_param "ebv" ps with
                      | None => Err ValueError
                      | Some e => Ok (map (fun row => map (fun wx => snd wx * extinguish (fst wx) e) (combine ws row)) m)
                      end)
    (fun _ _ _ _ => Err NotImplementedError).
(** microlensing.py [apply]/[apply_bandflux]: per-time magnification, an arbitrary function of the three
    parameters and the time ([PSPLLightCurve]); skipped when [apply_microlensing] is false (0 or None).
    Always an observer-frame effect. *)
Definition truthy (v : option pval) : bool :=
  match v with None | Some PNone => false | Some (PNum r) => negb (Reqb r 0) | Some (PStr s) => negb (String.eqb s "") end.
Definition magnify {A} (mag : R -> R -> R -> R -> R) (scale : R -> A -> A) (ts : list R) (ps : params) (m : list A)
  : result (list A) :=
  if negb (truthy (dget "apply_microlensing" ps)) then Ok m
  else match num_param "microlensing_t0" ps, num_param "u_0" ps, num_param "t_E" ps with
       | Some t0, Some u0, Some te => Ok (map (fun tr => scale (mag t0 u0 te (fst tr)) (snd tr)) (combine ts m))
       | _, _, _ => Err ValueError
       end.
Definition microlensing (mag : R -> R -> R -> R -> R) (t0 u0 te use : pval) : effect :=
  mkEff false [("microlensing_t0", t0); ("u_0", u0); ("t_E", te); ("apply_microlensing", use)]%string
    (fun ts _ ps m => magnify mag (fun k row => map (fun x => x * k) row) ts ps m)
    (fun ts _ ps b => magnify mag (fun k x => x * k) ts ps b).

Definition apply_effects (es : list effect) (ts ws : list R) (ps : params) (m : matrix) : result matrix :=
  fold_res (fun m e => ef_apply e ts ws ps m) m es.
Definition apply_bands (es : list effect) (ts : list R) (fs : list string) (ps : params) (b : list R) : result (list R) :=
  fold_res (fun b e => ef_band e ts fs ps b) b es.

(** ** SEDModel *)
Record sed := mkSed {
  sd_node : string;
  sd_setters : params;                        (* constant setters of the node *)
  sd_redshift : bool;                         (* apply_redshift *)
  sd_min : gst -> option R;                   (* minwave *)
  sd_max : gst -> option R;                   (* maxwave *)
  sd_extrap : option extrap;                  (* wave_extrapolation *)
  sd_compute : list R -> list R -> gst -> params -> result matrix;   (* compute_sed(times, waves, state, **kwargs) *)
  sd_rest : list effect;                      (* rest_frame_effects *)
  sd_obs : list effect                        (* obs_frame_effects *)
}.
(** Lines 249-275. *)
Definition sd_set_redshift (s : sed) (b : bool) : sed :=
  mkSed (sd_node s) (sd_setters s) b (sd_min s) (sd_max s) (sd_extrap s) (sd_compute s) (sd_rest s) (sd_obs s).
(** Lines 294-298 (also multi_object_model.py 110-112): effect parameters that are not already parameters of the node. *)
Definition add_params (ps : params) (setters : params) : params :=
  fold_left (fun d nv => if dmem (fst nv) d then d else dset (fst nv) (snd nv) d) ps setters.
(** Lines 277-304 (skip_params = False). *)
Definition sd_add_effect (s : sed) (e : effect) : sed :=
  let st := add_params (ef_params e) (sd_setters s) in
  if ef_rest e
  then mkSed (sd_node s) st (sd_redshift s) (sd_min s) (sd_max s) (sd_extrap s) (sd_compute s) (sd_rest s ++ [e]) (sd_obs s)
  else mkSed (sd_node s) st (sd_redshift s) (sd_min s) (sd_max s) (sd_extrap s) (sd_compute s) (sd_rest s) (sd_obs s ++ [e]).

(** [np.min], [np.max]: ValueError on an empty array. *)
Definition list_min (l : list R) : result R :=
  match l with [] => Err ValueError | a :: l' => Ok (fold_left Rmin l' a) end.
Definition list_max (l : list R) : result R :=
  match l with [] => Err ValueError | a :: l' => Ok (fold_left Rmax l' a) end.
(** [row[mask] = vals]. *)
Fixpoint put {A} (mask : list bool) (vals : list A) (row : list A) : list A :=
  match mask, row with
  | true :: mask', _ :: row' => match vals with
                                | v :: vals' => v :: put mask' vals' row'
                                | [] => row
                                end
  | false :: mask', x :: row' => x :: put mask' vals row'
  | _, _ => row
  end.
Definition put_rows (mask : list bool) (vals m : matrix) : matrix := map (fun vr => put mask (fst vr) (snd vr)) (combine vals m).
(** Lines 333-398.  A [compute_sed] whose result has not the shape T x N of its query is reported as
    ValueError (numpy may broadcast some such shapes). *)
Definition shape_ok (t n : nat) (m : matrix) : bool :=
  ((length m =? t)%nat && forallb (fun r => (length r =? n)%nat) m)%bool.
Definition sed_extrapolated (s : sed) (ts ws : list R) (st : gst) (kw : params) : result matrix :=
  bind (list_min ws) (fun qmin =>
  bind (list_max ws) (fun qmax =>
  let vmin := match sd_min s st with None => qmin | Some v => v end in
  let vmax := match sd_max s st with None => qmax | Some v => v end in
  if (Rleb vmin qmin && Rleb qmax vmax)%bool then sd_compute s ts ws st kw      (* 364-365 *)
  else
    let before := map (fun w => Rltb w vmin) ws in
    let after := map (fun w => Rltb vmax w) ws in
    let inr := map (fun w => (negb (Rltb w vmin) && negb (Rltb vmax w))%bool) ws in
    let query := [vmin] ++ mask_list inr ws ++ [vmax] in
    bind (sd_compute s ts query st []) (fun cf =>                             (* 374: without kwargs *)
    if negb (shape_ok (length ts) (length query) cf) then Err ValueError
    else
      let fl := put_rows inr (map (fun r => removelast (tl r)) cf) (map (fun _ => map (fun _ => 0) ws) ts) in
      match sd_extrap s with
      | None => Ok fl
      | Some e =>
          let fl := put_rows before (extrap_call e vmin (map (fun r => hd 0 r) cf) (mask_list before ws)) fl in
          Ok (put_rows after (extrap_call e vmax (map (fun r => last r 0) cf) (mask_list after ws)) fl)
      end))).
(** Lines 424-436: the rest-frame times and wavelengths and the redshift factor to apply ([None]: skipped). *)
Definition rest_frame (s : sed) (ps : params) (ts ws : list R) : result (list R * list R * option R) :=
  if sd_redshift s then
    match dget "redshift" ps with
    | None => Err KeyError
    | Some PNone => Err ValueError
    | Some (PStr _) => Err TypeError
    | Some (PNum z) =>
        if Reqb z 0 then Ok (ts, ws, None)
        else match dget "t0" ps with
             | Some (PNum t0) => let '(rt, rw) := obs_to_rest ts ws z t0 in Ok (rt, rw, Some z)
             | Some (PStr _) => Err TypeError
             | _ => Err ValueError
             end
    end
  else Ok (ts, ws, None).
(** Lines 400-463. *)
Definition sed_single (s : sed) (ts ws : list R) (st : gst) (kw : params) : result matrix :=
  bind (local_params (sd_node s) st) (fun ps =>
  bind (rest_frame s ps ts ws) (fun rf =>
  let '(rt, rw, oz) := rf in
  bind (sed_extrapolated s rt rw st kw) (fun m =>
  bind (apply_effects (sd_rest s) rt rw ps m) (fun m =>
  let m := match oz with Some z => rest_to_obs_flux m z | None => m end in
  apply_effects (sd_obs s) ts ws ps m)))).

(** ** BandfluxModel, lines 562-678 *)
Record bandm := mkBand {
  bm_node : string;
  bm_setters : params;
  bm_compute : list R -> list string -> gst -> result (list R);      (* compute_bandflux *)
  bm_effects : list effect
}.
Definition bm_add_effect (b : bandm) (e : effect) : bandm :=
  mkBand (bm_node b) (add_params (ef_params e) (bm_setters b)) (bm_compute b) (bm_effects b ++ [e]).
Definition band_single (b : bandm) (ts : list R) (fs : list string) (st : gst) : result (list R) :=
  bind (local_params (bm_node b) st) (fun ps =>
  bind (bm_compute b ts fs st) (apply_bands (bm_effects b) ts fs ps)).

(** ** Models, including the multi-object ones.  The sub-objects of a multi-object model are assumed to be
    distinct objects (adding an effect to one does not change another). *)
Inductive phys :=
| PSed (s : sed)
| PBand (b : bandm)
| PAdd (node : string) (setters : params) (objs : list phys) (weights : list R) (obs : list effect)
| PRand (node : string) (setters : params) (objs : list phys) (names : list string) (obs : list effect).

(** isinstance(object, BandfluxModel), lines 53-61. *)
Definition is_band (m : phys) : bool := match m with PBand _ => true | _ => false end.
(** multi_object_model.py lines 240-253. *)
Definition make_additive (node : string) (setters : params) (objs : list phys) (weights : option (list R)) : result phys :=
  match weights with
  | None => Ok (PAdd node setters objs (map (fun _ => 1) objs) [])
  | Some w => if negb (length w =? length objs)%nat then Err ValueError else Ok (PAdd node setters objs w [])
  end.
(** Line 442: name -> object (here its position); a repeated name keeps the last object, [zip] stops at the
    shorter list. *)
Definition object_map (names : list string) (objs : list phys) : dict nat :=
  fold_left (fun d ni => dset (fst ni) (snd ni) d) (combine names (seq 0 (length objs))) [].

Definition madd (a b : matrix) : matrix := map (fun p => map (fun q => fst q + snd q) (combine (fst p) (snd p))) (combine a b).
Definition mscale (w : R) (m : matrix) : matrix := map (map (fun x => w * x)) m.
Definition vadd (a b : list R) : list R := map (fun q => fst q + snd q) (combine a b).
Definition vscale (w : R) (a : list R) : list R := map (fun x => w * x) a.
Definition zeros (t n : nat) : matrix := repeat (repeat 0 n) t.

(** [_evaluate_single]: physical_model.py 400-463, multi_object_model.py 299-356 and 482-535.
    A BandfluxModel has no such method. *)
Fixpoint eval_single (m : phys) (ts ws : list R) (st : gst) (kw : params) {struct m} : result matrix :=
  match m with
  | PSed s => sed_single s ts ws st kw
  | PBand _ => Err AttributeError
  | PAdd node _ objs weights obs =>
      if existsb is_band objs then Err TypeError
      else bind ((fix go (l : list phys) (w : list R) (acc : matrix) {struct l} : result matrix :=
                    match l, w with
                    | o :: l', x :: w' => bind (eval_single o ts ws st kw) (fun f => go l' w' (madd acc (mscale x f)))
                    | _, _ => Ok acc
                    end) objs weights (zeros (length ts) (length ws))) (fun fl =>
           bind (local_params node st) (fun ps => apply_effects obs ts ws ps fl))
  | PRand node _ objs names obs =>
      if existsb is_band objs then Err TypeError
      else match get_param node st "selected_object" with
           | PStr name =>
               match dget name (object_map names objs) with
               | None => Err KeyError
               | Some k =>
                   bind ((fix pick (l : list phys) (k : nat) {struct l} : result matrix :=
                            match l, k with
                            | [], _ => Err KeyError
                            | o :: _, O => eval_single o ts ws st kw
                            | _ :: l', S k' => pick l' k'
                            end) objs k) (fun fl =>
                   bind (local_params node st) (fun ps => apply_effects obs ts ws ps fl))
               end
           | _ => Err KeyError
           end
  end.
(** [evaluate_sed], lines 465-524 (graph state given). *)
Inductive seds := SOne (m : matrix) | SMany (l : list matrix).
Definition evaluate_sed (m : phys) (ts ws : list R) (sts : list gst) (kw : params) : result seds :=
  match sts with
  | [st] => bind (eval_single m ts ws st kw) (fun x => Ok (SOne x))
  | _ => bind (fold_res (fun l st => bind (eval_single m ts ws st kw) (fun x => Ok (l ++ [x]))) [] sts)
              (fun l => Ok (SMany l))
  end.

(** [np.unique] of filter names: sorted, without repetition. *)
Fixpoint ins_name (s : string) (l : list string) : list string :=
  match l with
  | [] => [s]
  | x :: l' => match String.compare s x with
               | Lt => s :: l
               | Eq => l
               | Gt => x :: ins_name s l'
               end
  end.
Definition unique_names (l : list string) : list string := fold_right ins_name [] l.
(** physical_model.py lines 526-559; [ev] is [self.evaluate_sed(times, waves, state)].  [np.empty] is a list of
    zeros here. *)
Definition sed_bandfluxes (ev : list R -> list R -> result matrix) (g : option pgroup) (ts : list R) (fs : list string)
  : result (list R) :=
  fold_res (fun out f =>
    match g with
    | None => Err TypeError
    | Some g =>
        bind (pg_getitem g f) (fun p =>
        let mask := map (fun x => String.eqb x f) fs in
        bind (ev (mask_list mask ts) (pb_waves p)) (fun m =>
        bind (fluxes_to_bandflux p m) (fun b => Ok (put mask b out))))
    end) (repeat 0 (length ts)) (unique_names fs).
(** [_evaluate_bandfluxes_single]: physical_model.py 526-559 and 638-678, multi_object_model.py 358-406, 537-579. *)
Fixpoint band_eval (m : phys) (g : option pgroup) (ts : list R) (fs : list string) (st : gst) {struct m} : result (list R) :=
  match m with
  | PSed s => sed_bandfluxes (fun t w => sed_single s t w st []) g ts fs
  | PBand b => band_single b ts fs st
  | PAdd node _ objs weights obs =>
      bind ((fix go (l : list phys) (w : list R) (acc : list R) {struct l} : result (list R) :=
               match l, w with
               | o :: l', x :: w' => bind (band_eval o g ts fs st) (fun b => go l' w' (vadd acc (vscale x b)))
               | _ :: _, [] => Err IndexError
               | [], _ => Ok acc
               end) objs weights (repeat 0 (length ts))) (fun b =>
      bind (local_params node st) (fun ps => apply_bands obs ts fs ps b))
  | PRand node _ objs names obs =>
      match get_param node st "selected_object" with
      | PStr name =>
          match dget name (object_map names objs) with
          | None => Err KeyError
          | Some k =>
              bind ((fix pick (l : list phys) (k : nat) {struct l} : result (list R) :=
                       match l, k with
                       | [], _ => Err KeyError
                       | o :: _, O => band_eval o g ts fs st
                       | _ :: l', S k' => pick l' k'
                       end) objs k) (fun b =>
              bind (local_params node st) (fun ps => apply_bands obs ts fs ps b))
          end
      | _ => Err KeyError
      end
  end.
(** [evaluate_bandfluxes], lines 164-224 (state given). *)
Inductive pbarg := POne (p : passband) | PGroup (g : pgroup) | PNoGroup.
Inductive bandfluxes := BOne (b : list R) | BMany (l : list (list R)).
Definition evaluate_bandfluxes (m : phys) (pb : pbarg) (ts : list R) (fs : option (list string)) (sts : list gst)
  : result bandfluxes :=
  bind (match pb with
        | POne p => bind (pg_make [p] None) (fun g =>
            Ok (Some g, match fs with None => Some (map (fun _ => pb_filter p) ts) | Some l => Some l end))
        | PGroup g => Ok (Some g, fs)
        | PNoGroup => Ok (None, fs)
        end) (fun gf =>
  match snd gf with
  | None => Err ValueError
  | Some l =>
      if negb (length l =? length ts)%nat then Err ValueError
      else match sts with
           | [st] => bind (band_eval m (fst gf) ts l st) (fun b => Ok (BOne b))
           | _ => bind (fold_res (fun acc st => bind (band_eval m (fst gf) ts l st) (fun b => Ok (acc ++ [b]))) [] sts)
                       (fun x => Ok (BMany x))
           end
  end).

(** [add_effect]: physical_model.py 277-304, 595-615; multi_object_model.py 95-113. *)
Fixpoint add_effect (m : phys) (e : effect) {struct m} : phys :=
  match m with
  | PSed s => PSed (sd_add_effect s e)
  | PBand b => PBand (bm_add_effect b e)
  | PAdd node st objs w obs =>
      if ef_rest e then PAdd node st (map (fun o => add_effect o e) objs) w obs
      else PAdd node (add_params (ef_params e) st) objs w (obs ++ [e])
  | PRand node st objs names obs =>
      if ef_rest e then PRand node st (map (fun o => add_effect o e) objs) names obs
      else PRand node (add_params (ef_params e) st) objs names (obs ++ [e])
  end.
(** [set_apply_redshift]: physical_model.py 265-275, 585-593; multi_object_model.py 83-93 (only the bandflux
    sub-objects are told, and they raise). *)
Definition set_apply_redshift (m : phys) (b : bool) : result phys :=
  match m with
  | PSed s => Ok (PSed (sd_set_redshift s b))
  | PBand _ => Err NotImplementedError
  | PAdd _ _ objs _ _ | PRand _ _ objs _ _ => if existsb is_band objs then Err NotImplementedError else Ok m
  end.
(** [minwave]: physical_model.py 97-112, multi_object_model.py 255-275 and 446-462 (a list indexed by a
    name).  [None] stands for a missing bound. *)
Inductive wbound := WNone | WNum (r : R) | WList (l : list wbound).
Fixpoint minwave (m : phys) (st : gst) {struct m} : result wbound :=
  match m with
  | PSed s => Ok (match sd_min s st with None => WNone | Some r => WNum r end)
  | PBand _ => Ok WNone
  | PAdd _ _ objs _ _ =>
      bind ((fix go l := match l with
                         | [] => Ok []
                         | o :: l' => bind (minwave o st) (fun x => bind (go l') (fun xs => Ok (x :: xs)))
                         end) objs) (fun l => Ok (WList l))
  | PRand node _ _ _ _ => Err TypeError     (* self.objects[name], or self.objects[None] *)
  end.
