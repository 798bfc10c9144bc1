(** Property C119: the fluxes of an evaluation do not depend on how the times and wavelengths are cut into
    calls (physical_model.py 333-400, 402-520: the extrapolation looks at the smallest and the largest wavelength of
    the call, 347-358, and evaluates the model at other wavelengths when one of them is out of range). *)
From Coq Require Import Reals String List Bool Arith ZArith Lia Lra.
From Verif Require Import Base BaseFacts RealBase PassbandModel PassbandProofs PassbandProps ObsTableModel SedModel SedProps SedPipeline SedBands.
Import ListNotations.
Open Scope R_scope.

(** ** Specification vocabulary *)
(** [l'] is made of the entries of [l] at the positions [idx], in this order (a subset, a rearrangement, repetitions). *)
Definition picked {X} (l : list X) (idx : list nat) (l' : list X) : Prop := Forall2 (fun i x => nth_error l i = Some x) idx l'.
(** [m] is a table of [a] rows and [b] columns. *)
Definition sized (m : matrix) (a b : nat) : Prop := length m = a /\ Forall (fun r => length r = b) m.
(** The model [m], in the state [st], is one for which C42_pipeline holds: effects [effs] on a model with a pointwise [compute_sed],
    redshift [z] about [t0] in force. *)
Definition pointwise_model (m : phys) (st : gst) : Prop :=
  exists s0 effs ps z t0 f g,
    m = fold_left add_effect effs (PSed s0) /\ sd_rest s0 = [] /\ sd_obs s0 = [] /\
    dget (sd_node s0) st = Some ps /\ in_force s0 ps z t0 /\ -1 < z /\ computes s0 st [] f /\
    (forall e, sd_extrap s0 = Some e -> extrap_made e) /\
    (forall lo hi, sd_min s0 st = Some lo -> sd_max s0 st = Some hi -> lo <= hi) /\
    (forall e, In e effs -> acts e ps (g e)).

Lemma pointwise_one : forall m st, pointwise_model m st -> exists F, forall ts ws, ws <> [] ->
  evaluate_sed m ts ws [st] [] = Ok (SOne (mat ts ws F)).
Proof.
  intros m st (s0 & effs & ps & z & t0 & f & g & -> & H1 & H2 & H3 & H4 & H5 & H6 & H7 & H8 & H9).
  exists (expected_flux (extended s0 st f) g effs z t0). intros ts ws HW.
  now apply (C42_pipeline s0 effs ts ws st [] ps z t0 f g).
Qed.
Lemma mat_sized : forall ts ws F, sized (mat ts ws F) (length ts) (length ws).
Proof.
  intros. unfold sized, mat. split; [apply map_length|]. apply Forall_forall. intros r Hr.
  apply in_map_iff in Hr as (t & <- & _). apply map_length.
Qed.

(** ** The property *)
(** Of the table for [ts] and [ws], a call for any selection of these times and wavelengths returns that selection:
    asking for fewer, in another order, or repeatedly, changes no flux. *)
Theorem C119_selection : forall m st ts ws full, pointwise_model m st ->
  evaluate_sed m ts ws [st] [] = Ok (SOne full) -> ws <> [] ->
  forall idx jdx ts' ws', picked ts idx ts' -> picked ws jdx ws' -> ws' <> [] ->
  exists part, evaluate_sed m ts' ws' [st] [] = Ok (SOne part) /\ sized part (length idx) (length jdx) /\
    forall a b i j, nth_error idx a = Some i -> nth_error jdx b = Some j ->
      exists x, entry part a b = Some x /\ entry full i j = Some x.
Proof.
  intros m st ts ws full HM HE HW idx jdx ts' ws' HT HV HN.
  destruct (pointwise_one m st HM) as (F & HF). rewrite HF in HE by auto. injection HE as <-.
  exists (mat ts' ws' F). split; [now apply HF|].
  assert (LEN : forall X (l l' : list X) d, picked l d l' -> length d = length l').
  { intros X l l' d H. induction H; simpl; auto. }
  split; [rewrite (LEN _ _ _ _ HT), (LEN _ _ _ _ HV); apply mat_sized|].
  assert (AT : forall X (l l' : list X) d a i, picked l d l' -> nth_error d a = Some i -> exists x, nth_error l' a = Some x /\ nth_error l i = Some x).
  { intros X l l' d a i H. revert a. induction H as [|k x d l' H1 H2 IH]; intros [|a] HA; simpl in HA; try discriminate.
    - injection HA as <-. exists x. auto.
    - apply IH in HA. exact HA. }
  intros a b i j Ha Hb.
  destruct (AT _ _ _ _ _ _ HT Ha) as (t & T1 & T2). destruct (AT _ _ _ _ _ _ HV Hb) as (w & W1 & W2).
  exists (F t w). split; now apply entry_mat.
Qed.
(** Cutting the times into two calls: the second table goes below the first. *)
Theorem C119_times_split : forall m st ts1 ts2 ws m1 m2, pointwise_model m st -> ws <> [] ->
  evaluate_sed m ts1 ws [st] [] = Ok (SOne m1) -> evaluate_sed m ts2 ws [st] [] = Ok (SOne m2) ->
  evaluate_sed m (ts1 ++ ts2) ws [st] [] = Ok (SOne (m1 ++ m2)).
Proof.
  intros m st ts1 ts2 ws m1 m2 HM HW H1 H2. destruct (pointwise_one m st HM) as (F & HF).
  rewrite HF in H1, H2 |- * by auto. injection H1 as <-. injection H2 as <-. unfold mat. now rewrite map_app.
Qed.
(** Cutting the wavelengths into two calls - also when one of them needs extrapolation and the other does not: the rows are
    put one after the other. *)
Theorem C119_wavelengths_split : forall m st ts ws1 ws2 m1 m2, pointwise_model m st -> ws1 <> [] -> ws2 <> [] ->
  evaluate_sed m ts ws1 [st] [] = Ok (SOne m1) -> evaluate_sed m ts ws2 [st] [] = Ok (SOne m2) ->
  evaluate_sed m ts (ws1 ++ ws2) [st] [] = Ok (SOne (map (fun r => fst r ++ snd r) (combine m1 m2))).
Proof.
  intros m st ts ws1 ws2 m1 m2 HM N1 N2 H1 H2. destruct (pointwise_one m st HM) as (F & HF).
  rewrite HF in H1, H2 by auto. rewrite HF by (destruct ws1; [congruence|discriminate]). injection H1 as <-. injection H2 as <-. do 2 f_equal. unfold mat.
  clear. induction ts as [|t ts IH]; simpl; auto. rewrite map_app. now f_equal.
Qed.
(** Band fluxes: a list of observations cut in two, each part with its own filters (any model whose observations do not see
    each other, C45_pointwise_models, C45_times_models). *)
Theorem C119_bandfluxes_split : forall m pb st ts1 fs1 ts2 fs2 b1 b2, one_by_one m st -> ts1 <> [] -> ts2 <> [] ->
  length fs1 = length ts1 -> length fs2 = length ts2 ->
  evaluate_bandfluxes m pb ts1 (Some fs1) [st] = Ok (BOne b1) -> evaluate_bandfluxes m pb ts2 (Some fs2) [st] = Ok (BOne b2) ->
  evaluate_bandfluxes m pb (ts1 ++ ts2) (Some (fs1 ++ fs2)) [st] = Ok (BOne (b1 ++ b2)).
Proof.
  intros m pb st ts1 fs1 ts2 fs2 b1 b2 HO N1 N2 L1 L2 H1 H2.
  apply C45_entries in H1; auto. apply C45_entries in H2; auto.
  apply C45_entries; auto; [destruct ts1; [congruence|discriminate]|rewrite !app_length; lia|].
  assert (C : combine (ts1 ++ ts2) (fs1 ++ fs2) = (combine ts1 fs1 ++ combine ts2 fs2)%list).
  { clear - L1. revert fs1 L1. induction ts1 as [|t ts1 IH]; intros [|f fs1] L1; try discriminate; simpl; auto.
    f_equal. apply IH. simpl in L1. lia. }
  rewrite C. now apply Forall2_app.
Qed.
(** A call without wavelengths is no neutral part: it fails, whatever the model. *)
Theorem C119_empty_refuted : forall s0 ts st ps z t0, dget (sd_node s0) st = Some ps -> in_force s0 ps z t0 -> -1 < z ->
  evaluate_sed (PSed s0) ts [] [st] [] = Err ValueError.
Proof.
  intros s0 ts st ps z t0 HP HF Hz. unfold evaluate_sed, eval_single, sed_single, local_params. rewrite HP. cbn [bind].
  destruct (rest_frame_force s0 ps ts [] z t0 HF Hz) as (oz & RF & _). rewrite RF. cbn [bind map].
  reflexivity.
Qed.
(** The hypotheses hold of a redshifted model with bounds, extrapolation and two effects, and of a wavelength list of which one part is
    in range and the other is not. *)
Example C119_case : exists m st, pointwise_model m st /\
  exists x y, evaluate_sed m [80] [4000] [st] [] = Ok (SOne [[x]]) /\ evaluate_sed m [80] [9000] [st] [] = Ok (SOne [[y]]) /\
              evaluate_sed m [80] [4000; 9000] [st] [] = Ok (SOne [[x; y]]) /\ x = 8280 /\ y = 23130.
Proof.
  set (s := mkSed "m" [] true (fun _ => Some 1000) (fun _ => Some 2500) (Some XLast) (fun ts ws _ _ => Ok (map (fun t => map (fun w => t + w) ws) ts)) [] []).
  set (effs := [extinction false (fun w e => w / 1000) (PNum 1); dimming true (PNum (1/2))]).
  set (ps := [("redshift", PNum 1); ("t0", PNum 60); ("ebv", PNum 1); ("flux_fraction", PNum (1/2))]%string).
  assert (HA : forall e, In e effs -> acts e ps (fun t w x => if ef_rest e then x * (1/2) else x * (w / 1000))).
  { intros e [<-|[<-|[]]].
    - change (acts (extinction false (fun w _ => w / 1000) (PNum 1)) ps (fun t w x => x * (fun w (_ : R) => w / 1000) w 1)).
      apply C68_extinction_acts with (ebv := 1). reflexivity.
    - change (acts (dimming true (PNum (1/2))) ps (fun t w x => x * (1/2))). apply C68_dimming_acts. reflexivity. }
  assert (HF : in_force s ps 1 60) by (left; auto).
  assert (HC : computes s [("m"%string, ps)] [] (fun t w => t + w)) by (intros ts ws kw _; reflexivity).
  assert (HE : forall e, sd_extrap s = Some e -> extrap_made e) by (intros e E; injection E as <-; right; left; reflexivity).
  assert (HB : forall lo hi, sd_min s [("m"%string, ps)] = Some lo -> sd_max s [("m"%string, ps)] = Some hi -> lo <= hi)
    by (intros lo hi E1 E2; injection E1 as <-; injection E2 as <-; lra).
  assert (HM : pointwise_model (fold_left add_effect effs (PSed s)) [("m"%string, ps)]).
  { exists s, effs, ps, 1, 60, (fun t w => t + w), (fun e t w x => if ef_rest e then x * (1/2) else x * (w / 1000)).
    repeat match goal with |- _ /\ _ => split end; auto; lra. }
  exists (fold_left add_effect effs (PSed s)), [("m"%string, ps)]. split; [exact HM|].
  assert (EV : forall ts ws, ws <> [] -> evaluate_sed (fold_left add_effect effs (PSed s)) ts ws [[("m"%string, ps)]] [] =
     Ok (SOne (mat ts ws (expected_flux (extended s [("m"%string, ps)] (fun t w => t + w)) (fun e t w x => if ef_rest e then x * (1/2) else x * (w / 1000)) effs 1 60)))).
  { intros ts ws HW. apply (C42_pipeline s effs ts ws [("m"%string, ps)] [] ps 1 60 (fun t w => t + w)); auto; lra. }
  set (F := expected_flux (extended s [("m"%string, ps)] (fun t w => t + w)) (fun e t w x => if ef_rest e then x * (1/2) else x * (w / 1000)) effs 1 60) in *.
  exists (F 80 4000), (F 80 9000). rewrite !EV by discriminate.
  repeat match goal with |- _ /\ _ => split end; auto.
  - unfold F, expected_flux, extended. cbn. rewrite (proj2 (Rltb_false (4000 / (1 + 1)) 1000)) by lra. rewrite (proj2 (Rltb_false 2500 (4000 / (1 + 1)))) by lra. lra.
  - unfold F, expected_flux, extended. cbn. rewrite (proj2 (Rltb_false (9000 / (1 + 1)) 1000)) by lra. rewrite (proj2 (Rltb_true 2500 (9000 / (1 + 1)))) by lra. lra.
Qed.
Print Assumptions C119_selection.
Print Assumptions C119_times_split.
Print Assumptions C119_wavelengths_split.
Print Assumptions C119_bandfluxes_split.
Print Assumptions C119_empty_refuted.
