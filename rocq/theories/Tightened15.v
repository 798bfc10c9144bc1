(** Statements added after mutations survived: default arguments, and a declaration that fails. *)
From Coq Require Import Reals List Bool Arith Lia Lra.
From Coq Require Import String.
From Verif Require Import Base BaseFacts RealBase ObsTableModel ObsFileModel FakeModel FakeProps.
Import ListNotations.
Open Scope string_scope.
Open Scope list_scope.

(** ZTF's loader without a query reads the table "exposures". *)
Theorem C107_ztf_default : forall mjd fs p, ztf_from_db mjd fs p ztf_default_query None = ztf_from_db mjd fs p (select_all "exposures") None.
Proof. reflexivity. Qed.
(** The survey values of a FakeObsTable made without keyword arguments, whatever the metadata of the file say. *)
Theorem C71_signature : forall meta,
  let get k := dget k (fake_values meta fake_signature) in
  get "dark_current" = Some (SNum 0) /\ get "exptime" = Some (SNum 30) /\ get "psf_footprint" = Some SNone /\ get "fwhm_px" = Some SNone /\
  get "nexposure" = Some (SNum 1) /\ get "radius" = Some SNone /\ get "read_noise" = Some (SNum 0) /\ get "sky" = Some SNone.
Proof.
  intros meta. assert (AO : args_ok fake_signature) by (split; [repeat constructor; simpl; intuition discriminate|discriminate]). cbv zeta.
  repeat match goal with |- _ /\ _ => split end; apply fake_value_get; auto; simpl; tauto.
Qed.
