(** [load_and_register_passband] (src/lightcurvelynx/example_runs/simulate_snia.py 88-131).
    sncosmo's registry of bands is a function from names to tables; [sncosmo.register(.., force=True)] replaces an entry.  An absolute
    directory; [sncosmo.Bandpass] accepts every processed table (at least two increasing wavelengths). *)
From Coq Require Import Reals String List Bool Arith ZArith.
From Verif Require Import Base RealBase PassbandModel DownloadModel PassbandFileModel.
Import ListNotations.
Open Scope string_scope.
Open Scope list_scope.
Open Scope nat_scope.

Definition registry := string -> option table.
Definition register (name : string) (t : table) (r : registry) : registry := fun x => if String.eqb x name then Some t else r x.
(** Lines 106-119 (the keyword arguments of PassbandGroup are the missing arguments of [Passband.from_file]). *)
Definition band_params (dir : path) (band : string) : params :=
  mkParams "LSST" band (Some 1%R) (Some (1 / 1000)%R) (Some (dir ++ ["LSST"; (band ++ ".dat")%string])) None Nm false.
(** Lines 88-131. *)
Definition load_and_register (parse : string -> Z -> content) (base : path) (w : world) (r : registry) (dir : path) (to_use : list string)
  : result pgroup * world * registry :=
  match to_use with
  | [] => (Err ValueError, w, r)
  | _ =>
      match group_load parse base w (map (band_params dir) to_use) None with
      | (Err e, w') => (Err e, w', r)
      | (Ok g, w') => (Ok g, w', fold_left (fun r fb => register ("lightcurvelynx_" ++ fst fb)%string (pb_table (snd fb)) r) (pg_bands g) r)
      end
  end.
