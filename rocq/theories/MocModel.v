(** Model of src/lightcurvelynx/math_nodes/ra_dec_sampler.py lines 266-372 (ApproximateMOCSampler as a node; the arithmetic of one pixel is in SamplerModel.v)
    and of src/lightcurvelynx/obstable/obs_table.py lines 304-334 ([build_moc]). *)
From Coq Require Import Reals String List Bool Arith ZArith.
From Verif Require Import Base RealBase GraphStateModel NodeGraphModel SamplerModel ObsTableModel.
Import ListNotations.
Open Scope string_scope.
Open Scope list_scope.
Open Scope Z_scope.

(** ** mocpy *)
(** A multi-order coverage map: cells (order, nested HEALPix number).  mocpy keeps them normalised; the order of the list means nothing here. *)
Definition moc := list (Z * Z).
(** A pixel [p] of depth [d] meets the cell [(o, q)]: it lies in the cell or, for a finer cell, is its ancestor. *)
Definition meets (d p : Z) (c : Z * Z) : bool :=
  let (o, q) := c in if o <=? d then p / 4 ^ (d - o) =? q else q / 4 ^ (o - d) =? p.
(** [moc.to_order(d).flatten()] (line 290): the pixels of depth [d] in ascending order; coarser cells are refined, finer ones replaced by their ancestor (mocpy). *)
Definition flat_at (d : Z) (m : moc) : list Z :=
  filter (fun p => existsb (meets d p) m) (map Z.of_nat (seq 0 (Z.to_nat (12 * 4 ^ d)))).

Section Moc.
Context {G : Type}.
(** [default_rng(seed)]; the positions behind [rng.choice(list, size=n)]; [rng.integers(m, size=n, dtype=uint64)]; [healpix_to_skycoord(.., depth=29)] in degrees. *)
Variable seeded : Z -> G.
Variable pick_draws : nat -> nat -> G -> list nat * G.
Variable off_draws : Z -> nat -> G -> list Z * G.
Variable centre : Z -> R * R.
Record mnode := mkM { mn_str : string; mn_depth : Z; mn_cells : list Z; mn_own : G }.
(** Lines 286-296 [__init__] ([outputs] is overridden); np_random.py 83-92 [set_seed].  Without a seed the entropy of the system is used: [seed] is then any number. *)
Definition mn_init (node : string) (m : moc) (seed depth : Z) : result mnode :=
  bind (moc_make depth (flat_at depth m)) (fun dc => Ok (mkM node (fst dc) (snd dc) (seeded seed))).
Definition mn_set_seed (s : mnode) (seed : Z) : mnode := mkM (mn_str s) (mn_depth s) (mn_cells s) (seeded seed).
(** Lines 298-323 [from_file]: [None] stands for a path that is not a file, [RuntimeError] for FileNotFoundError; [MOC.load] reads the rest. *)
Definition mn_from_file (node : string) (file : option (result moc)) (seed depth : Z) : result mnode :=
  match file with None => Err RuntimeError | Some r => bind r (fun m => mn_init node m seed depth) end.
(** Lines 325-372 [compute]: the node and the given generator afterwards, the graph state and the outcome.  [rng.choice] refuses an empty list before it draws. *)
Definition mn_compute (s : mnode) (st : gs R) (rng : option G) : mnode * option G * gs R * result (value R * value R) :=
  let n := gs_n st in
  let g := match rng with Some g => g | None => mn_own s end in
  match mn_cells s with
  | [] => (s, rng, st, Err ValueError)
  | _ =>
      let (ks, g1) := pick_draws (length (mn_cells s)) n g in
      let ids := map (fun k => nth k (mn_cells s) 0) ks in
      let (offs, g2) := off_draws (moc_offset_range (mn_depth s)) n g1 in
      let p29 := map (fun x => moc_pixel29 (mn_depth s) (fst x) (snd x)) (combine ids offs) in
      let ra := map (fun p => fst (centre p)) p29 in
      let dec := map (fun p => snd (centre p)) p29 in
      let s' := match rng with Some _ => s | None => mkM (mn_str s) (mn_depth s) (mn_cells s) g2 end in
      let rng' := match rng with Some _ => Some g2 | None => None end in
      match squeeze n ra, squeeze n dec with
      | Ok a, Ok d =>
          match gs_set st (mn_str s) "ra" a false with
          | (st1, Some e) => (s', rng', st1, Err e)
          | (st1, None) =>
              match gs_set st1 (mn_str s) "dec" d false with
              | (st2, Some e) => (s', rng', st2, Err e)
              | (st2, None) => (s', rng', st2, Ok (a, d))
              end
          end
      | Err e, _ | _, Err e => (s', rng', st, Err e)
      end
  end.
End Moc.
Arguments mnode : clear implicits.

(** ** obs_table.py lines 304-334 [build_moc] *)
Section Build.
(** [MOC.from_cones] with [delta_depth=0]: the centres, the common radius (degrees) and the deepest order. *)
Variable from_cones : list (R * R) -> R -> Z -> result moc.
(** astropy's [Latitude] refuses angles outside of [-90, 90]; [Longitude] wraps, which [from_cones] does not see. *)
Definition is_lat (x : R) : bool := (Rleb (-90) x && Rleb x 90)%bool.
Definition build_moc (o : obstable) (radius : option R) (max_depth : Z) : result moc :=
  bind (match radius with Some r => Ok r | None => preset_radius o end) (fun r =>
  let ra := num_col "ra" (ob_frame o) in
  let dec := num_col "dec" (ob_frame o) in
  if forallb is_lat dec then from_cones (combine ra dec) r max_depth else Err ValueError).
End Build.
