(** Model of src/lightcurvelynx/math_nodes/ra_dec_sampler.py lines 15-152 (UniformRADEC and ObsTableRADECSampler); the other two samplers of the
    file are in SamplerModel.v.  A numpy generator is an abstract state [G] with the two methods used here; numbers are exact reals. *)
From Coq Require Import Reals String List Bool Arith ZArith.
From Verif Require Import Base RealBase GraphStateModel NodeGraphModel SamplerModel ObsTableModel.
Import ListNotations.
Open Scope string_scope.
Open Scope list_scope.
Open Scope nat_scope.

Section Radec.
Context {G : Type}.
(** [default_rng(seed)]; the numbers of [0, 1) behind [rng.uniform(.., size=n)]; [rng.integers(0, m, size=n)]. *)
Variable seeded : Z -> G.
Variable unit_draws : nat -> G -> list R * G.
Variable int_draws : nat -> nat -> G -> list nat * G.
(** [rng.uniform(a, b, size=n)]. *)
Definition rng_uniform (a b : R) (n : nat) (g : G) : list R * G :=
  let (us, g') := unit_draws n g in (map (fun u => (a + (b - a) * u)%R) us, g').
(** [np.degrees]. *)
Definition degrees (x : R) : R := (x * 180 / PI)%R.

(** ** UniformRADEC *)
Record unode := mkU { un_str : string; un_deg : bool; un_own : G }.
(** Lines 25-32 [__init__] ([outputs] is overridden); np_random.py 83-92 [set_seed].  Without a seed the entropy of the system is used: [seed] is then any number. *)
Definition ur_init (node : string) (seed : Z) (use_degrees : bool) : unode := mkU node use_degrees (seeded seed).
Definition ur_set_seed (u : unode) (seed : Z) : unode := mkU (un_str u) (un_deg u) (seeded seed).
(** Lines 56-75 [compute]: the node and the given generator afterwards, the graph state and the outcome. *)
Definition ur_compute (u : unode) (st : gs R) (rng : option G) : unode * option G * gs R * result (value R * value R) :=
  let n := gs_n st in
  let g := match rng with Some g => g | None => un_own u end in
  let (ra, g1) := rng_uniform 0 (2 * PI) n g in
  let (ys, g2) := rng_uniform (-1) 1 n g1 in
  let dec := map asin ys in
  let ra := if un_deg u then map degrees ra else ra in
  let dec := if un_deg u then map degrees dec else dec in
  let u' := match rng with Some _ => u | None => mkU (un_str u) (un_deg u) g2 end in
  let rng' := match rng with Some _ => Some g2 | None => None end in
  match squeeze n ra, squeeze n dec with
  | Ok a, Ok d =>
      match gs_set st (un_str u) "ra" a false with
      | (st1, Some e) => (u', rng', st1, Err e)
      | (st1, None) =>
          match gs_set st1 (un_str u) "dec" d false with
          | (st2, Some e) => (u', rng', st2, Err e)
          | (st2, None) => (u', rng', st2, Ok (a, d))
          end
      end
  | Err e, _ | _, Err e => (u', rng', st, Err e)
  end.

(** ** ObsTableRADECSampler *)
Record onode := mkO { on_str : string; on_radius : R; on_tab : tsampler R; on_own : G }.
(** Lines 95-109 [__init__]; [data["ra"]] etc. are float columns. *)
Definition os_init (node : string) (o : obstable) (radius : option R) (in_order : bool) (seed : Z) : result onode :=
  bind (match radius with Some r => Ok r | None => preset_radius o end) (fun r =>
  if Rltb r 0 then Err ValueError
  else
    bind (ob_getitem o "ra") (fun ra => bind (ob_getitem o "dec") (fun dec => bind (ob_getitem o "time") (fun time =>
    bind (ts_make [("ra", map num_of ra); ("dec", map num_of dec); ("time", map num_of time)] in_order) (fun t =>
    Ok (mkO node r t (seeded seed))))))).
(** given_sampler.py 270-272 [TableSampler.reset]. *)
Definition os_reset (s : onode) : onode := mkO (on_str s) (on_radius s) (ts_reset (on_tab s)) (on_own s).
(** numpy's [value + array] for one output of the table sampler: a number and an array of one element give an array. *)
Definition add_offset (v : value R) (ds : list R) : value R :=
  match v with
  | Atom x => Arr (map (fun d => Atom (x + d)%R) ds)
  | Arr l => Arr (map (fun p => match fst p with Atom x => Atom (x + snd p)%R | w => w end) (combine l ds))
  end.
(** Lines 131-152 [compute]; the first [_save_results] is the one of TableSampler.compute (given_sampler.py 316). *)
Definition os_outs : list string := ["ra"; "dec"; "time"].
Definition os_compute (s : onode) (st : gs R) (rng : option G) : onode * option G * gs R * result (list (value R)) :=
  let n := gs_n st in
  let back g s := match rng with Some _ => (s, Some g) | None => (mkO (on_str s) (on_radius s) (on_tab s) g, None) end in
  let g := match rng with Some g => g | None => on_own s end in
  let (draws, g1) := if ts_in_order (on_tab s) then ([], g) else int_draws (ts_num (on_tab s)) n g in
  let (t', r) := ts_compute (on_tab s) n draws in
  let s1 := mkO (on_str s) (on_radius s) t' (on_own s) in
  match r with
  | Err e => let (s', rng') := back g1 s1 in (s', rng', st, Err e)
  | Ok vs =>
      match save_results_gs st (on_str s) os_outs (Arr vs) with
      | (st1, Some e) => let (s', rng') := back g1 s1 in (s', rng', st1, Err e)
      | (st1, None) =>
          if Rltb 0 (on_radius s) then
            let (us, g2) := rng_uniform 0 1 n g1 in
            let (ws, g3) := rng_uniform 0 1 n g2 in
            let amt := map (fun u => (on_radius s * sqrt u)%R) us in
            let ang := map (fun w => (2 * PI * w)%R) ws in
            let dra := map (fun p => (fst p * cos (snd p))%R) (combine amt ang) in
            let ddec := map (fun p => (fst p * sin (snd p))%R) (combine amt ang) in
            let (s', rng') := back g3 s1 in
            match vs with
            | [ra; dec; time] =>
                let vs' := [add_offset ra dra; add_offset dec ddec; time] in
                match save_results_gs st1 (on_str s) os_outs (Arr vs') with
                | (st2, Some e) => (s', rng', st2, Err e)
                | (st2, None) => (s', rng', st2, Ok vs')
                end
            | _ => (s', rng', st1, Err IndexError)
            end
          else let (s', rng') := back g1 s1 in (s', rng', st1, Ok vs)
      end
  end.
End Radec.
Arguments unode : clear implicits.
Arguments onode : clear implicits.
