(** C101, continued: a worked run. *)
From Coq Require Import Reals String List Bool Arith ZArith Lia Lra.
From Verif Require Import Base BaseFacts RealBase PassbandModel PassbandProofs PassbandProps PassbandGroupProps ObsTableModel ObsTableProps SedModel SedProps SedPipeline SedBands SedMulti
  SimulateModel SimulateProps SimulateDefined SimulateMore NoiseModel NoiseProps FakeModel FakeProps SurveyModel SurveyProps RomanModel EndToEndModel EndToEndProps EndToEndSed EndToEndDefined.
Import ListNotations.
Open Scope R_scope.

(** Two visits of the same field on two days. *)
Definition two_nights : frame := mkFrame [0; 1]%nat
  [("fieldRA", [CNum 0; CNum 0]); ("fieldDec", [CNum 0; CNum 0]); ("observationStartMJD", [CNum 60000; CNum 60001]);
   ("filter", [CStr "r"; CStr "g"]); ("zp_nJy", [CNum 1; CNum 2]); ("visitExposureTime", [CNum 30; CNum 10]);
   ("seeingFwhmEff", [CNum 1; CNum 2]); ("skyBrightness", [CNum 21; CNum 20]); ("numExposures", [CNum 1; CNum 2])]%string.
Definition two_nights_table : obstable :=
  Eval cbv [remap] in match remap (Some opsim_colnames) two_nights with
  | Ok (f', inv) => mkObs f' inv (survey_values opsim_defaults [] []) (unique_filters f') (build_tree f') None
  | Err _ => mkObs two_nights [] [] [] [] None end.
Lemma two_nights_ok : frame_ok two_nights.
Proof. split; [|repeat constructor]. repeat constructor; simpl; intuition discriminate. Qed.
Lemma two_nights_made : opsim_make two_nights None [] [] None = Ok two_nights_table.
Proof. with_strategy opaque [build_tree unique_filters] reflexivity. Qed.
Lemma two_nights_inv : tinv two_nights_table.
Proof.
  constructor; [|simpl; intuition (subst; simpl; tauto)|reflexivity].
  split; [|repeat constructor]. repeat constructor; simpl; intuition discriminate.
Qed.
Lemma two_nights_rows : forall j t, num_at two_nights_table "time" j = Some t -> (j = 0%nat /\ t = 60000) \/ (j = 1%nat /\ t = 60001).
Proof.
  intros [|[|j]] t H; cbn in H; [left|right|destruct j; discriminate]; injection H as <-; auto.
Qed.
(** A source of flux 2t at redshift 1. *)
Definition beacon : sed :=
  mkSed "x" [] true (fun _ => None) (fun _ => None) None (fun ts ws _ _ => Ok (map (fun t => map (fun _ => 2 * t) ws) ts)) [] [].
Definition beacon_params : SedModel.params := [("ra", PNum 0); ("dec", PNum 0); ("t0", PNum 59999); ("redshift", PNum 1)]%string.
Definition beacon_state : gst := [("x"%string, beacon_params)].
Lemma beacon_source : source beacon beacon_state beacon_params 1 59999 (fun t _ => 2 * t) (fun _ _ _ x => x).
Proof.
  constructor; simpl; try tauto; try lra; try discriminate; auto.
  - left. repeat split; auto.
  - intros ts ws kw _. reflexivity.
Qed.
Lemma noise_some : forall x t n f s z r d, 0 <= x -> 0 <= t -> 0 <= n -> 0 <= f -> 0 <= s -> 0 < z -> 0 <= d -> exists e, poisson_std x t n f s z (RNum r) d = Some e.
Proof.
  intros x t n f s z r d Hx Ht Hn Hf Hs Hz Hd. unfold poisson_std. replace (Reqb z 0) with false by (symmetry; apply Reqb_false; lra). cbv zeta.
  match goal with |- context [Rltb ?a 0] => assert (0 <= a) end.
  { assert (0 <= x / z) by (apply Rmult_le_pos; auto; left; now apply Rinv_0_lt_compat). assert (0 <= s * f) by now apply Rmult_le_pos.
    assert (0 <= r * r) by (pose proof (Rle_0_sqr r); auto). assert (0 <= r * r * f) by now apply Rmult_le_pos. assert (0 <= r * r * f * n) by now apply Rmult_le_pos.
    assert (0 <= d * t) by now apply Rmult_le_pos. assert (0 <= d * t * f) by now apply Rmult_le_pos. lra. }
  match goal with |- context [Rltb ?a 0] => replace (Rltb a 0) with false by (symmetry; apply Rltb_false; lra) end. eauto.
Qed.
Lemma two_nights_errors : forall j x, (j < 2)%nat -> 0 <= x -> exists e, sv_errors (SvOpsim two_nights_table) [x] [j] = Ok [Some e].
Proof.
  assert (GA : 0 <= PI / (2 * ln 2)) by (apply Rmult_le_pos; [pose proof PI_RGT_0; lra|left; apply Rinv_0_lt_compat; assert (0 < ln 2) by (rewrite <- ln_1; apply ln_increasing; lra); lra]).
    assert (MP : forall m, 0 <= mag2flux m) by (intros m; left; apply exp_pos).
    intros j x Hj Hx. cbn [sv_errors].
    destruct (C72_opsim_errors two_nights_table [x] [j] (2 / 10) (88 / 10) (2 / 10)) as (out & EO & LO & HO); auto; try lra.
    { intros i [<-|[]]. exact Hj. }
    { intros c [<-|[<-|[<-|[<-|[<-|[]]]]]]; simpl; tauto. }
    destruct out as [|v [|]]; try discriminate. clear LO. destruct j as [|[|j]]; [| |lia].
    - specialize (HO 0%nat x 0%nat 30 1 1 21 1 eq_refl eq_refl eq_refl eq_refl eq_refl eq_refl eq_refl). cbn [nth_error] in HO. injection HO as ->.
      edestruct noise_some as (e & E); [..|exists e; rewrite EO, E; reflexivity]; specialize (MP 21); try lra;
      try (apply Rmult_le_pos; [exact GA|lra]).
    - specialize (HO 0%nat x 1%nat 10 2 2 20 2 eq_refl eq_refl eq_refl eq_refl eq_refl eq_refl eq_refl). cbn [nth_error] in HO. injection HO as ->.
      edestruct noise_some as (e & E); [..|exists e; rewrite EO, E; reflexivity]; specialize (MP 20); try lra;
      try (apply Rmult_le_pos; [exact GA|lra]).
Qed.
Lemma error_nonneg : forall o x j e, sv_errors (SvOpsim o) [x] [j] = Ok [Some e] -> (forall zp, cell_at o "zp" j = Some (CNum zp) -> 0 <= zp) -> 0 <= e.
Proof.
  intros o x j e H HZ. apply opsim_error_inv in H. destruct H as (ps & rn & dk & t & n & see & sky & zp & _ & _ & _ & _ & _ & _ & _ & CZ & E).
  unfold poisson_std in E. destruct (Reqb zp 0); [discriminate|]. cbv zeta in E. destruct (Rltb _ 0) in E; [discriminate|]. injection E as ->.
  apply Rmult_le_pos; [apply sqrt_pos|auto].
Qed.
(** One beacon, two visits, a window that leaves the first: the run has one row, with the redshifted flux through the band
    of the visit, noise of that visit's error and the generator's first deviate. *)
Example C101_case : exists g r e, built g /\ (forall p, In p (members g) -> pb_waves p <> []) /\
  sim_run ref_ball (PSed beacon) "x" keep_all (fun _ => 3) 1%Z [beacon_state] [SvOpsim two_nights_table] [g] [] [] false (Some [Some 0; Some (3 / 2)]) = Ok r /\
  sr_index r = [0%nat] /\ 0 <= e /\
  col "mjd" (sr_nested r) = [NNum 60000] /\ col "filter" (sr_nested r) = [NStr "r"] /\ col "flux_perfect" (sr_nested r) = [NNum 239998] /\
  col "fluxerr" (sr_nested r) = [NNum e] /\ col "flux" (sr_nested r) = [NNum (239998 + e * 3)].
Proof.
  destruct (two_rows_ok "LSST" "g" 100 200) as (p1 & E1 & S1 & F1 & W1); [lra|].
  destruct (two_rows_ok "LSST" "r" 300 400) as (p2 & E2 & S2 & F2 & W2); [lra|].
  assert (N1 : pb_full p1 = "LSST_g"%string) by (unfold pb_full; rewrite S1, F1; reflexivity).
  assert (N2 : pb_full p2 = "LSST_r"%string) by (unfold pb_full; rewrite S2, F2; reflexivity).
  destruct (pair_group p1 p2) as (g & B & EB & EM); try (eapply two_rows_built; eauto); [congruence|].
  assert (D1 : denotes g "g" p1).
  { split; [rewrite EM; left; auto|]. right. rewrite EM. simpl. rewrite N1, N2. split; [intros [H|[H|[]]]; discriminate|].
    split; auto. intros p' [<-|[<-|[]]] H; auto. congruence. }
  assert (D2 : denotes g "r" p2).
  { split; [rewrite EM; right; left; auto|]. right. rewrite EM. simpl. rewrite N1, N2. split; [intros [H|[H|[]]]; discriminate|].
    split; auto. intros p' [<-|[<-|[]]] H; auto. congruence. }
  assert (FL1 : forall c, row_bandflux (pb_table p1) (pb_delta p1) [c; c] = c).
  { intros c. pose proof (flat_pair _ _ _ _ p1 c E1 W1) as X. apply bandflux_rows in X. simpl in X. injection X as X. symmetry. exact X. }
  assert (FL2 : forall c, row_bandflux (pb_table p2) (pb_delta p2) [c; c] = c).
  { intros c. pose proof (flat_pair _ _ _ _ p2 c E2 W2) as X. apply bandflux_rows in X. simpl in X. injection X as X. symmetry. exact X. }
  assert (MW : forall p, In p (members g) -> pb_waves p <> []) by (rewrite EM; intros p [<-|[<-|[]]]; congruence).
  pose proof beacon_source as BS. pose proof BS as [H1 H2 H3 H4 H5 H6 H7 H8 H9].
  destruct (C45_pointwise_models _ _ _ _ _ _ _ H1 H2 H3 H4 H5 H6 H7 H8 H9) as [ONE V].
  assert (VAL : forall f t, f = "r"%string \/ f = "g"%string -> single_flux (PSed beacon) (PGroup g) beacon_state t f (4 * (59999 + (t - 59999) / 2))).
  { intros f t [->| ->].
    - specialize (V p2 g "r"%string t B D2 ltac:(congruence)). rewrite W2 in V. cbn [map app sd_rest sd_obs beacon] in V. unfold expected_flux, extended in V. cbn in V.
      rewrite FL2 in V. replace (4 * (59999 + (t - 59999) / 2)) with ((1 + 1) * (2 * (59999 + (t - 59999) / (1 + 1)))) by field. exact V.
    - specialize (V p1 g "g"%string t B D1 ltac:(congruence)). rewrite W1 in V. cbn [map app sd_rest sd_obs beacon] in V. unfold expected_flux, extended in V. cbn in V.
      rewrite FL1 in V. replace (4 * (59999 + (t - 59999) / 2)) with ((1 + 1) * (2 * (59999 + (t - 59999) / (1 + 1)))) by field. exact V. }
  pose proof two_nights_errors as ERR.
  assert (TB : forall tb, In tb [SvOpsim two_nights_table] -> tinv (sv_table tb) /\ exists rad, dget "radius" (ob_values (sv_table tb)) = Some (SNum rad) /\ 0 <= rad <= 180).
  { intros tb [<-|[]]. split; [apply two_nights_inv|]. exists (175 / 100). split; [reflexivity|lra]. }
  assert (MK : forall ts st, keep_all ts st = map ((fun (_ : gst) (_ : R) => true) st) ts).
  { intros ts st. unfold keep_all. induction ts; cbn; congruence. }
  destruct (C101_defined ref_ball (PSed beacon) "x" keep_all (fun _ _ => true) (fun _ => 3) 1%Z [beacon_state] [SvOpsim two_nights_table] [g] [] [] false
    (Some [Some 0; Some (3 / 2)])) as (r & ER); auto using ref_ball_spec.
  - lia.
  - intros st [<-|[]]. split; auto. 
  - intros st [<-|[]]. split; eexists; reflexivity.
  - right. exists (Some 0), (Some (3 / 2)). split; auto. intros st [<-|[]]. eexists. reflexivity.
  - intros tb HI. destruct (TB tb HI) as [T1 T2]. split; auto. split; auto. destruct HI as [<-|[]]. split; [eexists; reflexivity|reflexivity].
  - intros [|s] tb g0 st j t f0 Htb Hg HI Ht Hf; [|destruct s; discriminate]. injection Htb as <-. injection Hg as <-. destruct HI as [<-|[]].
    cbn [sv_table] in *. apply two_nights_rows in Ht. destruct Ht as [[-> ->]|[-> ->]]; cbn in Hf; injection Hf as <-; cbn [text_of].
    + destruct (ERR 0%nat (4 * (59999 + (60000 - 59999) / 2))) as (e & E); [lia|lra|]. eexists _, e. split; [apply VAL; auto|]. exact E.
    + destruct (ERR 1%nat (4 * (59999 + (60001 - 59999) / 2))) as (e & E); [lia|lra|]. eexists _, e. split; [apply VAL; auto|]. exact E.
  - intros c [].
  - constructor.
  - intros tb k st _ [].
  - destruct (C101_rows ref_ball (PSed beacon) "x" keep_all (fun _ _ => true) (fun _ => 3) 1%Z [beacon_state] [SvOpsim two_nights_table] [g] [] [] false
      (Some [Some 0; Some (3 / 2)]) r ref_ball_spec MK) as (rows & RS & RL); auto; try solve [constructor].
    { intros st [<-|[]]. eapply source_settled. exact BS. }
    destruct (RS 0%nat 0%nat beacon_state (SvOpsim two_nights_table) eq_refl eq_refl) as [ND IFF].
    assert (R0 : rows 0%nat 0%nat = [0%nat]).
    { assert (I0 : forall j, In j (rows 0%nat 0%nat) <-> j = 0%nat).
      { intros j. rewrite IFF. cbn [sv_table]. split.
        - intros (ra & dec & ra' & dec' & t & rad & _ & _ & _ & _ & Ht & _ & _ & W & _). destruct (two_nights_rows _ _ Ht) as [[? _]|[_ ->]]; auto.
          destruct (W _ _ _ eq_refl eq_refl) as [_ W2']. specialize (W2' _ eq_refl). lra.
        - intros ->. exists 0, 0, 0, 0, 60000, (175 / 100). repeat match goal with |- _ /\ _ => split end; try reflexivity.
          + rewrite sep_same. lra.
          + intros b a t0 E G. injection E as <- <-. injection G as <-. split; intros d E; injection E as <-; lra.
          + discriminate. }
      destruct (rows 0%nat 0%nat) as [|a l]; [exfalso; apply (proj2 (I0 0%nat) eq_refl)|]. assert (a = 0%nat) as -> by (apply I0; left; auto). f_equal.
      destruct l as [|b l]; auto. assert (b = 0%nat) as -> by (apply I0; right; left; auto). inversion ND as [|? ? X]. exfalso. apply X. left; auto. }
    cbv zeta in RL. unfold observations in RL. cbn [length seq flat_map app map] in RL. rewrite R0 in RL. cbn [map app length] in RL. destruct RL as (LEN & LC & OBS).
    destruct (OBS 0%nat 0%nat 0%nat 0%nat eq_refl) as (st & tb & g0 & t & fc & x & e & K1 & K2 & K3 & K4 & K5 & K6 & K7 & K8 & K9 & K10 & K11 & K12 & K13 & K14 & _).
    injection K1 as <-. injection K2 as <-. injection K3 as <-. cbn in K4, K5. injection K4 as <-. injection K5 as <-. cbn [text_of] in *.
    specialize (VAL "r"%string 60000 (or_introl eq_refl)).
    assert (x = 239998) as -> by (unfold single_flux in *; rewrite VAL in K6; injection K6 as <-; field).
    assert (ONEC : forall k v, nth_error (col k (sr_nested r)) 0 = Some v -> col k (sr_nested r) = [v]).
    { intros k v E. unfold col in *. destruct (dget k (sr_nested r)) as [c|] eqn:DK; [|discriminate]. apply dget_In in DK. apply LC in DK.
      destruct c as [|w [|]]; try discriminate. cbn in E. injection E as ->. reflexivity. }
    exists g, r, e. repeat match goal with |- _ /\ _ => split end; auto.
    + destruct (sr_index r) as [|a [|]]; try discriminate. cbn in K8. congruence.
    + apply (error_nonneg _ _ _ _ K7). cbn. intros zp E. injection E as <-. lra.
Qed.
(** Tables built with OpSim's default columns and a radius meet the conditions. *)
Theorem C101_opsim_tables : forall f meta kw fp o rad, frame_ok f -> NoDup (dkeys meta) -> NoDup (dkeys kw) -> opsim_make f None meta kw fp = Ok o ->
  value_given opsim_defaults meta kw "radius" = Some (SNum rad) -> 0 <= rad <= 180 ->
  tinv o /\ exists r, dget "radius" (ob_values o) = Some (SNum r) /\ 0 <= r <= 180.
Proof.
  intros f meta kw fp o rad F NM NK H VR HR. pose proof H as H'. unfold opsim_make in H'. destruct (survey_base _ _ _ _ _ _ _ _ H') as (o0 & E0 & M).
  assert (ND : NoDup (dkeys (opsim_map None))) by (repeat constructor; simpl; intuition discriminate).
  destruct (opsim_grows f None meta kw fp o o0 F ND E0 H) as (G & T & O). cbv zeta in *. split; auto.
  exists rad. pose proof (gr_values _ _ G) as GV. cbn [ob_values] in GV. rewrite GV, survey_value_get; auto.
Qed.
