(** C29, C31: when a passband can be made with regridding and trimming (src/lightcurvelynx/astro_utils/passbands.py 1006-1152). *)
From Coq Require Import Reals String List Bool Arith ZArith Lia Lra.
From Verif Require Import Base BaseFacts RealBase PassbandModel PassbandProofs PassbandProps.
Import ListNotations.
Open Scope R_scope.

(** No single step of the table holds the fraction [x] of the area. *)
Definition no_step_holds (x : R) (t : table) : Prop := forall l1 p1 p2 l2, t = l1 ++ p1 :: p2 :: l2 -> trapz [p1; p2] < x * trapz t.
Definition physical_table (t : table) : Prop := increasing (xs t) /\ Forall (fun p => 0 < fst p /\ 0 <= snd p) t.

Lemma trapz_app : forall l1 p l2, trapz (l1 ++ p :: l2) = trapz (l1 ++ [p]) + trapz (p :: l2).
Proof.
  induction l1 as [|a l1 IH]; intros p l2; cbn [app].
  - replace (trapz [p]) with 0 by (destruct p; reflexivity). lra.
  - destruct l1 as [|b l1].
    + cbn [app] in *. rewrite (trapz_cons a p l2), (trapz_cons a p []). replace (trapz [p]) with 0 by (destruct p; reflexivity). lra.
    + specialize (IH p l2). cbn [app] in *. rewrite (trapz_cons a b), IH. rewrite (trapz_cons a b (l1 ++ [p])). lra.
Qed.
Lemma exists_pos : forall t, Forall (fun p => 0 <= snd p) t -> 0 < trapz t -> (2 <= length t)%nat /\ Exists (fun p => 0 < snd p) t.
Proof.
  intros t HF HT. split.
  - destruct t as [|[x y] [|p t]]; cbn in *; try lra; lia.
  - destruct (Exists_dec (fun p => 0 < snd p) t) as [E|E]; [intros p; destruct (Rlt_dec 0 (snd p)); auto|exact E|]. exfalso.
    assert (Z : Forall (fun p => snd p = 0) t). { apply Forall_forall. intros p HP. rewrite Forall_forall in HF. pose proof (HF p HP). destruct (Rlt_dec 0 (snd p)) as [L|L]; [|lra]. destruct E. apply Exists_exists. eauto. }
    assert (T0 : trapz t = 0). { clear - Z. induction t as [|[x y] [|[x2 y2] t] IH]; auto. rewrite trapz_cons. inversion Z as [|? ? Z1 Z2]; subst. inversion Z2 as [|? ? Z3 Z4]; subst. cbn [snd fst] in *. rewrite IH by auto. subst. lra. }
    lra.
Qed.
(** Trimming and normalising succeed unless one step holds all but the two tails. *)
Theorem C31_trim_defined : forall t q, physical_table t -> 0 < trapz t -> 0 < q < 1 / 2 -> no_step_holds (1 - 2 * q) t ->
  exists kept t', trim_table t (Some q) = Ok kept /\ normalize_table kept = Ok t' /\ 0 < trapz kept.
Proof.
  intros t q [HI HF] HT Hq NS. assert (HF0 : Forall (fun p => 0 <= snd p) t) by (eapply Forall_impl; [|exact HF]; intros p [_ H]; exact H).
  destruct (C31_contiguous_partial t q HI HF0 HT Hq) as (a & kept & b & E1 & E2 & L & A1 & A2).
  assert (PK : 0 < trapz kept).
  { destruct kept as [|k1 kept]; [cbn in L; lia|]. cbn [firstn] in A1.
    assert (D1 : trapz t = trapz (a ++ [k1]) + trapz (k1 :: kept ++ b)) by (rewrite E2; cbn [app]; apply trapz_app).
    destruct b as [|b1 b].
    - rewrite app_nil_r in D1. assert (q * trapz t < 1 * trapz t) by (apply Rmult_lt_compat_r; lra). lra.
    - destruct (exists_last (l := k1 :: kept)) as (l & kl & EL); [discriminate|].
      assert (D2 : trapz (k1 :: kept ++ b1 :: b) = trapz (k1 :: kept) + trapz [kl; b1] + trapz (b1 :: b)).
      { change (k1 :: kept ++ b1 :: b) with ((k1 :: kept) ++ b1 :: b). rewrite EL, <- app_assoc. cbn [app]. rewrite (trapz_app l kl (b1 :: b)), (trapz_cons kl b1 b).
        rewrite (trapz_cons kl b1 []). replace (trapz [b1]) with 0 by (destruct b1; reflexivity). lra. }
      assert (ST : trapz [kl; b1] < (1 - 2 * q) * trapz t). { apply (NS (a ++ l) kl b1 b). rewrite E2, EL. now rewrite <- !app_assoc. }
      lra. }
  destruct (trim_block _ _ _ E1) as (k & l & EK).
  assert (HFK : Forall (fun p => 0 < fst p /\ 0 <= snd p) kept) by (rewrite EK; now apply Forall_block).
  assert (HIK : increasing (xs kept)) by (rewrite EK; now apply sub_increasing).
  destruct (exists_pos kept) as [LK XK]; auto; [eapply Forall_impl; [|exact HFK]; intros p [_ H]; exact H|].
  destruct (normalize_defined kept HIK HFK LK XK) as (t' & EN). eauto.
Qed.
(** The passband is made whenever the regridded table is such. *)
Theorem C29_defined_general : forall t s f d q u t1, u <> BadUnits -> increasing (xs t) ->
  interpolate_table (match u with Nm => map (fun p => (fst p * 10, snd p)) t | _ => t end) d = Ok t1 -> physical_table t1 -> 0 < trapz t1 ->
  match q with None => True | Some q => q = 0 \/ 0 < q < 1 / 2 /\ no_step_holds (1 - 2 * q) t1 end ->
  exists p, pb_make t s f d q u = Ok p.
Proof.
  intros t s f d q u t1 HU HI E1 [HI1 HF1] HT HQ. unfold pb_make. assert (V : validate t u = Ok (match u with Nm => map (fun p => (fst p * 10, snd p)) t | _ => t end)).
  { unfold validate. destruct (increasing_diffs (xs t) HI) as [-> ->]. destruct u; auto. congruence. }
  rewrite V. cbn [bind]. unfold process_table. match goal with |- context [interpolate_table ?x d] => replace (interpolate_table x d) with (@Ok table t1) by (symmetry; exact E1) end. cbn [bind].
  assert (X : exists t', bind (trim_table t1 q) normalize_table = Ok t').
  { assert (PLAIN : exists t', normalize_table t1 = Ok t').
    { destruct (exists_pos t1) as [LK XK]; auto; [eapply Forall_impl; [|exact HF1]; intros p [_ H]; exact H|]. now apply normalize_defined. }
    destruct q as [q|]; [|exact PLAIN]. destruct HQ as [->|[HQ NS]].
    - destruct (C31_no_trim t1) as [_ ->]. exact PLAIN.
    - destruct (C31_trim_defined t1 q (conj HI1 HF1) HT HQ NS) as (kept & t' & -> & EN & _). cbn [bind]. eauto. }
  destruct X as [t' ->]. cbn [bind]. eauto.
Qed.
(** The regridded table of a physical table is physical, for every step between zero and the width of the table; with a transmission that is positive at one of the ends
    the area is positive. *)
Theorem C29_regrid_defined : forall t d, physical_table t -> (2 <= length t)%nat -> 0 < d <= last_x t - fst (hd (0, 0) t) ->
  exists t1, interpolate_table t (Some d) = Ok t1 /\ physical_table t1 /\ (2 <= length t1)%nat /\ 0 <= trapz t1.
Proof.
  intros t d [HI HF] HL HD.
  assert (HF0 : Forall (fun p => 0 <= snd p) t) by (eapply Forall_impl; [|exact HF]; intros p [_ H]; exact H).
  assert (X : exists t1, interpolate_table t (Some d) = Ok t1 /\ (2 <= length t1)%nat).
  { unfold interpolate_table. destruct (forallb _ _); [eauto|]. replace (Rleb d 0) with false by (symmetry; apply Rleb_false; lra). cbv zeta.
    replace (length t <=? 1)%nat with false by (symmetry; apply Nat.leb_gt; lia). eexists. split; [reflexivity|]. rewrite map_length.
    assert (F1 : (1 <= floor_nat ((last_x t - fst (hd (0, 0)%R t)) / d))%nat).
    { unfold floor_nat. assert (Q : 1 <= (last_x t - fst (hd (0, 0) t)) / d). { apply Rmult_le_reg_r with d; [lra|]. unfold Rdiv. rewrite Rmult_assoc, Rinv_l by lra. lra. }
      destruct (base_Int_part ((last_x t - fst (hd (0, 0) t)) / d)) as [B1 B2]. assert (IZR 0 < IZR (Int_part ((last_x t - fst (hd (0, 0) t)) / d))) by (cbn; lra). apply lt_IZR in H. lia. }
    destruct (floor_nat ((last_x t - fst (hd (0, 0) t)) / d)) as [|k]; [lia|]. replace (S k + 1)%nat with (S (S k)) by lia. rewrite linspace_S, map_length, seq_length. lia. }
  destruct X as (t1 & E1 & L1). exists t1. split; auto. assert (HI1 := interpolate_increasing _ _ _ HI E1). assert (HF1 := interpolate_nonneg _ _ _ HI HF E1). split; [split; auto|]. split; auto.
  apply trapz_nonneg; auto. eapply Forall_impl; [|exact HF1]; intros p [_ H]; exact H.
Qed.
(** Four rows in nanometers that are 1 Angstrom apart, trimmed by 0.001. *)
Definition flat_rows : table := [(400, 1); (4001 / 10, 1); (4002 / 10, 1); (4003 / 10, 1)].
Example C29_defined_case : forall s f, exists p, pb_make flat_rows s f (Some 1) (Some (1 / 1000)) Nm = Ok p.
Proof.
  intros s f. set (t1 := map (fun p : R * R => (fst p * 10, snd p)) flat_rows).
  assert (AREA : trapz t1 = 3) by (unfold t1, flat_rows; cbn [map fst snd]; rewrite !trapz_cons; cbn [fst snd]; replace (trapz [(4003 / 10 * 10, 1)]) with 0 by reflexivity; lra).
  apply (C29_defined_general flat_rows s f (Some 1) (Some (1 / 1000)) Nm t1); try discriminate.
  - cbn. lra.
  - unfold interpolate_table. fold t1. replace (forallb _ _) with true; [reflexivity|]. symmetry. apply forallb_forall. intros x HX. unfold t1, flat_rows, xs in HX. cbn in HX.
    unfold isclose. apply Rleb_true. assert (x = 1) by (destruct HX as [<-|[<-|[<-|[]]]]; lra). subst x. replace (1 - 1) with 0 by lra. rewrite !Rabs_pos_eq by lra. lra.
  - split; [unfold t1; cbn; lra|]. unfold t1, flat_rows. cbn [map fst snd]. repeat constructor; cbn [fst snd]; lra.
  - lra.
  - right. split; [lra|]. intros l1 p1 p2 l2 E. rewrite AREA. unfold t1, flat_rows in E. cbn [map fst snd] in E.
    assert (ONE : trapz [p1; p2] = 1).
    { destruct l1 as [|a [|b [|c [|d l1]]]]; cbn in E; injection E; intros; subst; try (cbn; lra); try discriminate.
      destruct l1; discriminate. }
    lra.
Qed.
