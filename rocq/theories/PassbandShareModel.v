(** Passbands as the shared, mutable objects they are: a [PassbandGroup] keeps references, so a passband may sit
    in several groups, and [process_transmission_table(s)] changes it in place
    (/repo/src/lightcurvelynx/astro_utils/passbands.py).  [PassbandModel.v] treats passbands as values; here the
    objects live on a heap, an operation may fail halfway, and what it leaves behind is modelled. *)
From Coq Require Import Reals String List Bool Arith.
From Verif Require Import Base RealBase PassbandModel.
Import ListNotations.
Open Scope nat_scope.
Open Scope list_scope.

(** Lines 84-86, 452-500: the attributes of a group; [passbands] holds references (addresses). *)
Record group := mkGroup {
  gr_refs : dict nat;                    (* passbands: full name -> object *)
  gr_waves : list R;                     (* waves *)
  gr_index : dict (list nat);            (* _in_band_wave_indices *)
  gr_names : dict (list string)          (* _filter_to_name *)
}.
(** The passband objects and the groups that exist. *)
Record world := mkWorld { objs : list passband; grps : list group }.

(** Assignment to one object or group. *)
Fixpoint put {A} (i : nat) (x : A) (l : list A) : list A :=
  match l, i with
  | [], _ => []
  | _ :: l', O => x :: l'
  | y :: l', S i' => y :: put i' x l'
  end.

(** Following the references ([self.passbands.items()]). *)
Fixpoint deref (h : list passband) (refs : dict nat) : dict passband :=
  match refs with
  | [] => []
  | (k, a) :: r => match nth_error h a with Some p => (k, p) :: deref h r | None => deref h r end
  end.
(** What a group looks like now: its passbands as they are and the data it has cached. *)
Definition look (h : list passband) (g : group) : pgroup :=
  mkPG (deref h (gr_refs g)) (gr_waves g) (gr_index g) (gr_names g).

(** Lines 439-500 [_update_internal_data] and [_update_waves].  It fails only for a passband without
    wavelengths, which does not exist ([refresh_total]); the attributes are then kept, a simplification. *)
Definition refresh (h : list passband) (g : group) : group * option err :=
  match pg_update (deref h (gr_refs g)) with
  | Ok v => (mkGroup (gr_refs g) (pg_waves v) (pg_index v) (pg_names v), None)
  | Err e => (g, Some e)
  end.

(** Lines 546-547: the loop of [process_transmission_tables]; it stops at the first passband that raises,
    with the earlier ones already processed. *)
Fixpoint process_refs (h : list passband) (refs : dict nat) (d q : option R) : list passband * option err :=
  match refs with
  | [] => (h, None)
  | (_, a) :: r =>
      match nth_error h a with
      | None => (h, Some NameError)
      | Some p =>
          match pb_process p d q with
          | Err e => (h, Some e)
          | Ok p' => process_refs (put a p' h) r d q
          end
      end
  end.

(** Lines 95-98: [self.passbands[pb.full_name] = pb]. *)
Definition collect_refs (h : list passband) (l : list nat) : dict nat :=
  fold_left (fun acc a => match nth_error h a with Some p => dset (pb_full p) a acc | None => acc end) l [].
(** Lines 107-121: the names that are not wanted are deleted. *)
Definition prune_refs (h : list passband) (refs : dict nat) (filters : list string) : dict nat * list string :=
  fold_left (fun st ka =>
      let '(kept, remaining) := st in
      match nth_error h (snd ka) with
      | None => st
      | Some p =>
          if smem (fst ka) filters then (kept ++ [ka], filter (fun x => negb (String.eqb x (fst ka))) remaining)
          else if smem (pb_filter p) filters
               then (kept ++ [ka], filter (fun x => negb (String.eqb x (pb_filter p))) remaining)
               else (kept, remaining)
      end)
    refs ([], filters).

(** What a program does with passbands and groups. *)
Inductive op : Type :=
| NewBand (t : table) (survey filter : string) (delta q : option R) (u : wunits)   (* Passband(...), lines 662-725 *)
| NewGroup (l : list nat) (filters : option (list string))                        (* PassbandGroup([...]), lines 49-126 *)
| AddBand (i a : nat)                                        (* group.add_passband(passband), lines 428-437 *)
| ProcessGroup (i : nat) (d q : option R)                    (* group.process_transmission_tables, lines 535-549 *)
| ProcessBand (a : nat) (d q : option R).                    (* passband.process_transmission_table, lines 1006-1026 *)

(** One operation: the world afterwards, and the exception it raised if any.  A variable that is not bound is a
    NameError. *)
Definition step (w : world) (o : op) : world * option err :=
  match o with
  | NewBand t s f d q u =>
      match pb_make t s f d q u with
      | Ok p => (mkWorld (objs w ++ [p]) (grps w), None)
      | Err e => (w, Some e)
      end
  | NewGroup l fs =>
      match l with
      | [] => (w, Some ValueError)
      | _ =>
          if forallb (fun a => a <? length (objs w)) l then
            let refs := collect_refs (objs w) l in
            let '(kept, remaining) := match fs with None => (refs, []) | Some fs => prune_refs (objs w) refs fs end in
            if negb (length remaining =? 0) then (w, Some ValueError)
            else match refresh (objs w) (mkGroup kept [] [] []) with
                 | (g, None) => (mkWorld (objs w) (grps w ++ [g]), None)
                 | (_, Some e) => (w, Some e)
                 end
          else (w, Some NameError)
      end
  | AddBand i a =>
      match nth_error (grps w) i, nth_error (objs w) a with
      | Some g, Some p =>
          let '(g', e) := refresh (objs w) (mkGroup (dset (pb_full p) a (gr_refs g)) (gr_waves g) (gr_index g) (gr_names g)) in
          (mkWorld (objs w) (put i g' (grps w)), e)
      | _, _ => (w, Some NameError)
      end
  | ProcessGroup i d q =>
      match nth_error (grps w) i with
      | None => (w, Some NameError)
      | Some g =>
          match process_refs (objs w) (gr_refs g) d q with
          | (h, Some e) => (mkWorld h (grps w), Some e)
          | (h, None) => let '(g', e) := refresh h g in (mkWorld h (put i g' (grps w)), e)
          end
      end
  | ProcessBand a d q =>
      match nth_error (objs w) a with
      | None => (w, Some NameError)
      | Some p => match pb_process p d q with
                  | Ok p' => (mkWorld (put a p' (objs w)) (grps w), None)
                  | Err e => (w, Some e)
                  end
      end
  end.
(** A program that catches every exception. *)
Definition after (w : world) (o : op) : world := fst (step w o).
Definition run (w : world) (l : list op) : world := fold_left after l w.

(** What reading group [i] works with ([getitem], [fluxes_to_bandflux(es)], ... take this value). *)
Definition view (w : world) (i : nat) : option pgroup := option_map (look (objs w)) (nth_error (grps w) i).
