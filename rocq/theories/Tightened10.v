(** Theorems added after mechanical edits survived (tools/automut.py), continued: the time window of sncosmo models (C87). *)
From Coq Require Import Reals String List Bool Arith Lia Lra.
From Verif Require Import Base BaseFacts RealBase SedModel SedProps SncosmoModel SncosmoProps.
Import ListNotations.
Open Scope list_scope.
Open Scope R_scope.

(** ** C87: the time window *)
(** What a parameter counts as: the number the state holds; 0 if the state has none or None; text is not a number. *)
Definition counts_as (st : gst) (node name : string) (r : R) : Prop :=
  match dget node st with
  | Some ps => match dget name ps with Some (PNum x) => r = x | Some (PStr _) => False | Some PNone | None => r = 0 end
  | None => r = 0
  end.
Theorem C87_mask_values : forall src m ts (st : gst) z t0, counts_as st (sn_node m) "redshift" z -> counts_as st (sn_node m) "t0" t0 -> -1 < z ->
  exists mask, sn_mask src m ts (Some st) = Ok mask /\ length mask = length ts /\
  forall i t, nth_error ts i = Some t -> exists b, nth_error mask i = Some b /\ (b = true <-> so_minphase src < (t - t0) / (1 + z) < so_maxphase src).
Proof.
  assert (E : forall st node name r, counts_as st node name r -> value_or_zero node st name = Ok r).
  { intros st node name r H. unfold counts_as in H. unfold value_or_zero, get_param. destruct (dget node st) as [ps|]; [|congruence]. destruct (dget name ps) as [[| |]|]; try congruence; tauto. }
  intros src m ts st z t0 HZ HT Hz. apply C87_mask; auto.
Qed.
Example C87_mask_values_applies : counts_as [("sn", [("t0", PNum 5); ("redshift", PNone)])]%string "sn" "t0" 5 /\ counts_as [("sn", [("t0", PNum 5); ("redshift", PNone)])]%string "sn" "redshift" 0.
Proof. split; reflexivity. Qed.
