(** C07, files: [src/lightcurvelynx/graph_state.py] [GraphState.from_file] (241-251) and [save_to_file] (617-629). *)
From Coq Require Import ZArith String List Bool Arith Lia.
From Verif Require Import Base GraphStateModel GraphStateProofs GraphStateProofs2 GraphStateProps.
Import ListNotations.
Open Scope string_scope.
Open Scope list_scope.
Open Scope nat_scope.

Section S.
Context {A : Type}.
(** The files: an ECSV table (astropy keeps names, order, types and full precision of the columns), or anything else. *)
Inductive ecsv := ETable (t : @table A) | EOther.
Definition ecsvs : Type := string -> option ecsv.
(** Lines 617-629 [save_to_file]; [RuntimeError] stands for OSError. *)
Definition gs_save (fs : ecsvs) (s : gs A) (name : string) (overwrite : bool) : result unit * ecsvs :=
  if (negb overwrite && match fs name with Some _ => true | None => false end)%bool then (Err RuntimeError, fs)
  else (Ok tt, fun q => if String.eqb q name then Some (ETable (gs_to_table s)) else fs q).
(** Lines 241-251 [from_file]; [RuntimeError] stands for FileNotFoundError, [ValueError] for astropy's InconsistentTableError. *)
Definition gs_load (fs : ecsvs) (name : string) : result (gs A) :=
  match fs name with
  | None => Err RuntimeError
  | Some (ETable t) => gs_from_table t
  | Some EOther => Err ValueError
  end.
End S.

(** A state of two or more samples with at least one parameter, saved to a file that does not exist or that may be overwritten, is
    loaded with the same number of samples, parameters and values - also after other states have been saved to other files since. *)
Theorem C07_file_round_trip_partial : forall A (fs : @ecsvs A) (s : gs A) name overwrite (later : list (gs A * string * bool)),
  reachable s -> 2 <= gs_n s -> (exists node var v, reads s node var v) -> (fs name = None \/ overwrite = true) ->
  List.Forall (fun x => snd (fst x) <> name) later ->
  exists fs', gs_save fs s name overwrite = (Ok tt, fs') /\
  exists r, gs_load (fold_left (fun w x => snd (gs_save w (fst (fst x)) (snd (fst x)) (snd x))) later fs') name = Ok r /\
    gs_n r = gs_n s /\ forall node var v, reads r node var v <-> reads s node var v.
Proof.
  intros A fs s name ow later R HN HV HF HL. unfold gs_save at 1.
  replace (negb ow && match fs name with Some _ => true | None => false end)%bool with false
    by (destruct HF as [-> | ->]; [destruct ow|]; reflexivity).
  eexists. split; [reflexivity|]. destruct (C07_table_round_trip_partial A s R HN HV) as (r & H1 & H2 & H3). exists r. split; [|auto].
  set (w0 := fun q => if (q =? name)%string then Some (ETable (gs_to_table s)) else fs q).
  assert (W : w0 name = Some (ETable (gs_to_table s))) by (unfold w0; now rewrite String.eqb_refl).
  clearbody w0. clear HF. revert w0 W. induction HL as [|x later HX HL IH]; intros w0 W.
  - cbn [fold_left]. unfold gs_load. rewrite W. exact H1.
  - cbn [fold_left]. apply IH. unfold gs_save. destruct (_ && _)%bool; cbn [snd]; [exact W|]. destruct (String.eqb_spec name (snd (fst x))); [congruence|exact W].
Qed.
(** Without overwrite an existing file is kept as it is, and a missing file cannot be loaded. *)
Theorem C07_file_kept : forall A (fs : @ecsvs A) (s : gs A) name x, fs name = Some x -> gs_save fs s name false = (Err RuntimeError, fs).
Proof. intros A fs s name x H. unfold gs_save. rewrite H. reflexivity. Qed.
Theorem C07_file_missing : forall A (fs : @ecsvs A) name, fs name = None -> gs_load fs name = Err RuntimeError.
Proof. intros A fs name H. unfold gs_load. now rewrite H. Qed.
Example C07_file_case : exists fs', gs_save (fun _ => None) ex_state "run.ecsv" false = (Ok tt, fs') /\
  gs_save fs' ex_state "run.ecsv" false = (Err RuntimeError, fs') /\
  exists r, gs_load fs' "run.ecsv" = Ok r /\ gs_n r = gs_n ex_state /\ map fst (gs_to_dict r) = ["a.x"; "a.y"; "b.x"].
Proof. eexists. split; [reflexivity|]. split; [reflexivity|]. eexists. split; [reflexivity|]. split; reflexivity. Qed.
