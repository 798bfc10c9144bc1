(** C102, continued: when a draw succeeds; a worked case; a filtered table. *)
From Coq Require Import Reals String List Bool Arith ZArith Lia Lra.
From Verif Require Import Base BaseFacts RealBase PassbandModel PassbandProofs PassbandProps PassbandGroupProps ObsTableModel ObsTableProps SedModel SedProps SedPipeline SedBands SedMulti
  SimulateModel SimulateProps SimulateDefined SimulateMore NoiseModel NoiseProps FakeModel FakeProps SurveyModel SurveyProps Salt2Model EndToEndModel EndToEndProps EndToEndSed EndToEndDefined EndToEndCase SnRunModel SnRunProps SnRunMore.
Import ListNotations.
Open Scope R_scope.

Lemma labelled_ok : forall o key ks c, tinv o -> plain_labels o -> ob_getitem o key = Ok c -> (forall k, In k ks -> (k < nrows (ob_frame o))%nat) ->
  exists vs, labelled o key ks = Ok vs /\ Forall2 (fun k v => item_at o key k = Some v) ks vs.
Proof.
  intros o key ks c HT HP EG HK. unfold labelled. rewrite EG. cbn [bind]. assert (LC : length c = nrows (ob_frame o)) by (eapply getitem_length; eauto).
  rewrite HP, <- LC. destruct (select_labels_seq c ks) as (vs & -> & F); [rewrite LC; auto|]. exists vs. split; auto.
  unfold item_at. rewrite EG. exact F.
Qed.
(** An SED source with position, t0 and redshift can be drawn when each of its observations has a flux and an error bar. *)
Theorem C102_defined : forall ball s o g st draws ps z t0 f act, ball_spec ball -> tinv o -> plain_labels o ->
  source s st ps z t0 f act -> pg_waves g <> [] -> Forall (fun w => 0 < w) (pg_waves g) ->
  (forall name, In name ["ra"; "dec"; "t0"; "redshift"]%string -> exists x, of_source st name x) ->
  (exists c, ob_getitem o "filter" = Ok c) -> opsim_errors o [] [] = Ok [] ->
  (forall j t fc, sn_row st o j -> num_at o "time" j = Some t -> item_at o "filter" j = Some fc ->
     exists x e, single_flux (PSed s) (PGroup g) st t ("LSST_" ++ text_of fc) x /\ opsim_errors o [x] [j] = Ok [Some e]) ->
  exists r, draw_sn ball (PSed s) o g st draws = Ok r.
Proof.
  intros ball s o g st draws ps z t0 f act HB HT HP HS HW HPOS HN (cf & EF) E0 HR. unfold draw_sn.
  destruct (HN "ra"%string) as (ra & N1); [simpl; auto|]. destruct (HN "dec"%string) as (dec & N2); [simpl; auto|].
  destruct (HN "t0"%string) as (t1 & N3); [simpl; auto|]. destruct (HN "redshift"%string) as (z1 & N4); [simpl; auto|].
  rewrite (proj2 (source_number_spec _ _ _) N1), (proj2 (source_number_spec _ _ _) N2), (proj2 (source_number_spec _ _ _) N3), (proj2 (source_number_spec _ _ _) N4). cbn [bind]. cbv zeta.
  assert (RG : exists res, range_search ball o (QScalar ra) (QScalar dec) (Some (175 / 100)) TNone TNone = Ok res) by (eexists; reflexivity).
  destruct RG as (res & ER). rewrite ER. cbn [bind].
  destruct (exact_scalar_inv ball o ra dec (Some (175 / 100)) TNone TNone res (175 / 100) HB HT eq_refl ltac:(lra) ER) as (index & -> & ND & IFF).
  assert (CT : exists ct, ob_getitem o "time" = Ok ct /\ dget "time" (f_cols (ob_frame o)) = Some ct).
  { pose proof (ti_req _ HT "time"%string ltac:(simpl; auto)) as X. apply dget_keys in X. unfold ob_getitem. destruct (dget "time" (f_cols (ob_frame o))); [eauto|congruence]. }
  destruct CT as (ct & EG & DC). assert (LC : length ct = nrows (ob_frame o)) by (eapply getitem_length; eauto).
  assert (BD : forall k, In k index -> (k < nrows (ob_frame o))%nat).
  { intros k HI. apply IFF in HI. destruct HI as (ra' & dec' & t & _ & _ & A3 & _). unfold num_at, cell_at in A3. rewrite DC in A3.
    rewrite <- LC. apply nth_error_Some. destruct (nth_error ct k); [discriminate|discriminate]. }
  destruct (labelled_ok o "time" index ct HT HP EG BD) as (all & EA & FA). rewrite EA. cbn [bind].
  assert (EI : mask_list (map (fun c => alive t1 z1 (num_of c)) all) index = filter (fun j => match num_at o "time" j with Some t => alive t1 z1 t | None => false end) index).
  { rewrite <- mask_map. f_equal. clear - FA HT. induction FA as [|k v ks vs E _ IH]; cbn [map]; auto. rewrite IH, (item_num _ _ _ HT E). reflexivity. }
  rewrite EI. set (rows := filter _ index). clear EI EA FA all.
  assert (BD2 : forall k, In k rows -> (k < nrows (ob_frame o))%nat) by (intros k HI; apply filter_In in HI; apply BD, HI).
  destruct (labelled_ok o "time" rows ct HT HP EG BD2) as (tc & -> & FT). destruct (labelled_ok o "filter" rows cf HT HP EF BD2) as (fc & -> & FF). cbn [bind].
  set (ts := map num_of tc). set (fs := map (fun c => ("LSST_" ++ text_of c)%string) fc).
  rewrite (source_sed _ _ _ _ _ _ _ _ _ HS HW). cbn [bind].
  assert (FL : forall M, Forall (fun row => length row = length (pg_waves g)) M -> exists flam, fnu_to_flam M (pg_waves g) u_aa u_flam u_njy = Ok flam).
  { intros M HM. assert (X : bind (fnu_to_flam M (pg_waves g) u_aa u_flam u_njy) (fun x => flam_to_fnu x (pg_waves g) u_aa u_flam u_njy) = Ok M).
    { apply C54_fnu_flam_fnu; auto; unfold u_aa, u_flam, u_njy; try apply Rinv_0_lt_compat; apply pow_lt; lra. }
    destruct (fnu_to_flam M (pg_waves g) u_aa u_flam u_njy) as [fl|]; [eauto|discriminate]. }
  destruct (FL (mat ts (pg_waves g) (expected_flux (extended s st f) act (sd_rest s ++ sd_obs s) z t0))) as (flam & ->).
  { apply Forall_forall. intros row HI. unfold mat in HI. apply in_map_iff in HI. destruct HI as (t & <- & _). now rewrite map_length. }
  cbn [bind].
  assert (SN : forall j, In j rows -> sn_row st o j).
  { intros j HI. apply filter_In in HI. destruct HI as [HI AL]. apply IFF in HI. destruct HI as (ra' & dec' & t & A1 & A2 & A3 & A4 & _ & _ & A5).
    rewrite A3 in AL. apply alive_spec in AL. exists ra, dec, t1, z1, ra', dec', t. repeat match goal with |- _ /\ _ => split end; auto; apply AL. }
  assert (ALL : exists xs es, Forall2 (fun tf x => single_flux (PSed s) (PGroup g) st (fst tf) (snd tf) x) (combine ts fs) xs /\
     Forall2 (fun p e => opsim_errors o [fst p] [snd p] = Ok [Some e]) (combine xs rows) es /\ length xs = length rows /\ length ts = length rows /\ length fs = length rows).
  { unfold ts, fs. clear - FT FF HR HT SN. revert fc FF SN. clearbody rows. induction FT as [|j v rows tc E FT IH]; intros fc FF SN.
    - inversion FF; subst. exists [], []. cbn. auto.
    - inversion FF as [|? w ? fc' E2 FF2]; subst. destruct (IH fc' FF2) as (xs & es & I1 & I2 & I3 & I4 & I5); [intros k HK; apply SN; simpl; auto|].
      destruct (HR j (num_of v) w (SN j (or_introl eq_refl)) (item_num _ _ _ HT E) E2) as (x & e & X1 & X2).
      exists (x :: xs), (e :: es). cbn [map combine length]. repeat split; auto. }
  destruct ALL as (xs & es & A1 & A2 & A3 & A4 & A5).
  destruct (source_settled _ _ _ _ _ _ _ [g] HS) as [ONE _].
  assert (EB : evaluate_bandfluxes (PSed s) (PGroup g) ts (Some fs) [st] = Ok (BOne xs)).
  { destruct ts as [|t ts'] eqn:ETS.
    - assert (rows = []) as RN by (destruct rows; [auto|discriminate]). rewrite RN in *. destruct xs; [|discriminate]. destruct fs; [|discriminate]. reflexivity.
    - apply C45_entries; auto; [discriminate|]. congruence. }
  rewrite EB. cbn [bind].
  pose proof (errors_all (SvOpsim o) xs rows (map Some es) A3 E0) as EE. cbn [sv_errors] in EE. rewrite EE by (clear - A2; induction A2; cbn [map]; constructor; auto). cbn [bind].
  rewrite (proj2 (finite_spec (map Some es) es) eq_refl). cbn [bind]. eauto.
Qed.

(** ** A worked case *)
Definition nova : sed :=
  mkSed "source" [] true (fun _ => None) (fun _ => None) None (fun ts ws _ _ => Ok (map (fun t => map (fun _ => 2 * t) ws) ts)) [] [].
Definition nova_params (t0 : R) : SedModel.params := [("ra", PNum 0); ("dec", PNum 0); ("t0", PNum t0); ("redshift", PNum 1)]%string.
Definition nova_state (t0 : R) : gst := [("source"%string, nova_params t0)].
Lemma nova_source : forall t0, source nova (nova_state t0) (nova_params t0) 1 t0 (fun t _ => 2 * t) (fun _ _ _ x => x).
Proof.
  intros t0. constructor; simpl; try tauto; try lra; try discriminate; auto.
  - left. repeat split; auto.
  - intros ts ws kw _. reflexivity.
Qed.
Lemma two_nights_plain : plain_labels two_nights_table.
Proof. reflexivity. Qed.
Example C102_case : exists g r e, built g /\
  draw_sn ref_ball (PSed nova) two_nights_table g (nova_state (60040 + 1 / 2)) (fun _ => 3) = Ok r /\
  dr_times r = [60001] /\ dr_filters r = ["LSST_g"%string] /\ dr_perfect r = [240083] /\ dr_error r = [e] /\ dr_flux r = [240083 + e * 3].
Proof.
  destruct (two_rows_ok "LSST" "g" 100 200) as (p1 & E1 & S1 & F1 & W1); [lra|].
  destruct (two_rows_ok "LSST" "r" 300 400) as (p2 & E2 & S2 & F2 & W2); [lra|].
  assert (N1 : pb_full p1 = "LSST_g"%string) by (unfold pb_full; rewrite S1, F1; reflexivity).
  assert (N2 : pb_full p2 = "LSST_r"%string) by (unfold pb_full; rewrite S2, F2; reflexivity).
  destruct (pair_group p1 p2) as (g & B & EB & EM); try (eapply two_rows_built; eauto); [congruence|].
  assert (D1 : denotes g "LSST_g" p1) by (split; [rewrite EM; left; auto|left; auto]).
  assert (D2 : denotes g "LSST_r" p2) by (split; [rewrite EM; right; left; auto|left; auto]).
  assert (FL1 : forall c, row_bandflux (pb_table p1) (pb_delta p1) [c; c] = c).
  { intros c. pose proof (flat_pair _ _ _ _ p1 c E1 W1) as X. apply bandflux_rows in X. simpl in X. injection X as X. symmetry. exact X. }
  assert (FL2 : forall c, row_bandflux (pb_table p2) (pb_delta p2) [c; c] = c).
  { intros c. pose proof (flat_pair _ _ _ _ p2 c E2 W2) as X. apply bandflux_rows in X. simpl in X. injection X as X. symmetry. exact X. }
  set (t0 := 60040 + 1 / 2). pose proof (nova_source t0) as BS. pose proof BS as [H1 H2 H3 H4 H5 H6 H7 H8 H9].
  destruct (C45_pointwise_models _ _ _ _ _ _ _ H1 H2 H3 H4 H5 H6 H7 H8 H9) as [ONE V].
  assert (VAL : forall f t, f = "LSST_r"%string \/ f = "LSST_g"%string -> single_flux (PSed nova) (PGroup g) (nova_state t0) t f (4 * (t0 + (t - t0) / 2))).
  { intros f t [->| ->].
    - specialize (V p2 g _ t B D2 ltac:(congruence)). rewrite W2 in V. cbn [map app sd_rest sd_obs nova] in V. unfold expected_flux, extended in V. cbn in V.
      rewrite FL2 in V. replace (4 * (t0 + (t - t0) / 2)) with ((1 + 1) * (2 * (t0 + (t - t0) / (1 + 1)))) by field. exact V.
    - specialize (V p1 g _ t B D1 ltac:(congruence)). rewrite W1 in V. cbn [map app sd_rest sd_obs nova] in V. unfold expected_flux, extended in V. cbn in V.
      rewrite FL1 in V. replace (4 * (t0 + (t - t0) / 2)) with ((1 + 1) * (2 * (t0 + (t - t0) / (1 + 1)))) by field. exact V. }
  assert (GW : pg_waves g <> [] /\ Forall (fun w => 0 < w) (pg_waves g)).
  { destruct (C33_grid g B) as [_ GX].
    { rewrite all_waves_bands, EB. cbn [flat_map snd app]. rewrite W1, W2. cbn [app].
      assert (TH : threshold <= 1) by (unfold threshold; lra).
      intros x y Hx Hy L. simpl in Hx, Hy. destruct Hx as [<-|[<-|[<-|[<-|[]]]]]; destruct Hy as [<-|[<-|[<-|[<-|[]]]]]; lra. }
    split.
    - intros E. assert (X : In 100 (pg_waves g)) by (apply GX; exists p1; rewrite EM, W1; simpl; auto). rewrite E in X. destruct X.
    - apply Forall_forall. intros x Hx. apply GX in Hx. destruct Hx as (p & HI & HX). rewrite EM in HI. destruct HI as [<-|[<-|[]]]; [rewrite W1 in HX|rewrite W2 in HX];
        simpl in HX; intuition lra. }
  destruct GW as [GW GP].
  destruct (C102_defined ref_ball nova two_nights_table g (nova_state t0) (fun _ => 3) (nova_params t0) 1 t0 _ _ ref_ball_spec two_nights_inv two_nights_plain BS GW GP) as (r & ER).
  - intros name [<-|[<-|[<-|[<-|[]]]]]; eexists; reflexivity.
  - eexists. reflexivity.
  - reflexivity.
  - intros j t fc _ Ht Hf. destruct (two_nights_rows _ _ Ht) as [[-> ->]|[-> ->]]; cbn in Hf; injection Hf as <-; cbn [text_of append].
    + destruct (two_nights_errors 0%nat (4 * (t0 + (60000 - t0) / 2))) as (e & E); [lia|unfold t0; lra|]. eexists _, e. split; [apply VAL; auto|exact E].
    + destruct (two_nights_errors 1%nat (4 * (t0 + (60001 - t0) / 2))) as (e & E); [lia|unfold t0; lra|]. eexists _, e. split; [apply VAL; auto|exact E].
  - assert (SET : settled (PSed nova) [g] (nova_state t0)) by (eapply source_settled; exact BS).
    destruct (C102_rows ref_ball (PSed nova) two_nights_table g (nova_state t0) (fun _ => 3) r ref_ball_spec two_nights_inv two_nights_plain SET ER)
      as (rows & ND & IFF & L1 & L2 & L3 & L4 & L5 & OBS).
    assert (I1 : forall j, In j rows <-> j = 1%nat).
    { intros j. rewrite IFF. split.
      - intros (ra & dec & t1 & z & ra' & dec' & t & _ & _ & K3 & K4 & _ & _ & Ht & _ & W & _). unfold of_source in K3, K4. cbn in K3, K4. injection K3 as <-. injection K4 as <-.
        destruct (two_nights_rows _ _ Ht) as [[_ ->]|[-> _]]; auto. unfold t0 in W. lra.
      - intros ->. exists 0, 0, t0, 1, 0, 0, 60001. repeat match goal with |- _ /\ _ => split end; try reflexivity; try (unfold t0; lra).
        + rewrite sep_same. lra.
        + discriminate. }
    assert (R1 : rows = [1%nat]).
    { destruct rows as [|a l]; [exfalso; apply (proj2 (I1 1%nat) eq_refl)|]. assert (a = 1%nat) as -> by (apply I1; left; auto). f_equal.
      destruct l as [|b l]; auto. assert (b = 1%nat) as -> by (apply I1; right; left; auto). inversion ND as [|? ? X]. exfalso. apply X. left; auto. }
    subst rows. destruct (OBS 0%nat 1%nat eq_refl) as (t & fc & x & e & K1 & K2 & K3 & K4 & K5 & K6 & K7 & K8 & K9). cbn in K1, K2. injection K1 as <-. injection K2 as <-. cbn [text_of append] in *.
    specialize (VAL "LSST_g"%string 60001 (or_intror eq_refl)).
    assert (x = 240083) as -> by (unfold single_flux in *; rewrite VAL in K3; injection K3 as <-; unfold t0; field).
    exists g, r, e. cbn [length] in *.
    assert (O : forall A (l : list A) v, length l = 1%nat -> nth_error l 0 = Some v -> l = [v]) by (intros A [|w [|? ?]] v Q1 Q2; try discriminate; cbn in Q2; congruence).
    repeat match goal with |- _ /\ _ => split end; auto.
Qed.
(** The same table with its first row filtered out: the row that is left cannot be drawn. *)
Theorem C102_filtered_refuted : exists o g st, filter_rows two_nights_table (RMask [false; true]) = Ok o /\ sn_row st o 0 /\
  (forall m draws, draw_sn ref_ball m o g st draws = Err KeyError).
Proof.
  assert (SEP : separation 0 0 0 0 <= 175 / 100) by (rewrite sep_same; lra).
  set (o := match filter_rows two_nights_table (RMask [false; true]) with Ok o => o | Err _ => two_nights_table end).
  assert (EO : filter_rows two_nights_table (RMask [false; true]) = Ok o) by reflexivity.
  assert (SN : sn_row (nova_state 60001) o 0).
  { exists 0, 0, 60001, 1, 0, 0, 60001. repeat match goal with |- _ /\ _ => split end; try reflexivity; try lra. discriminate. }
  assert (TI : tinv o) by (eapply filter_rows_inv; [apply two_nights_inv|exact EO]).
  exists o, (mkPG [] [] [] []), (nova_state 60001). split; auto. split; auto. intros m draws. unfold draw_sn.
  cbn [source_number dget nova_state nova_params String.eqb Ascii.eqb Bool.eqb bind]. cbv zeta.
  destruct (range_search _ _ _ _ _ _ _) as [res|] eqn:ER; [|discriminate].
  destruct (exact_scalar_inv ref_ball o 0 0 (Some (175 / 100)) TNone TNone res (175 / 100) ref_ball_spec TI eq_refl ltac:(lra) ER) as (index & -> & ND & IFF).
  cbn [bind].
  assert (IX : index = [0%nat]).
  { assert (I0 : forall j, In j index <-> j = 0%nat).
    { intros j. rewrite IFF. split.
      - intros (ra' & dec' & t & _ & _ & A & _). destruct j as [|[|j]]; auto; discriminate.
      - intros ->. exists 0, 0, 60001. repeat match goal with |- _ /\ _ => split end; try reflexivity; auto; discriminate. }
    destruct index as [|a l]; [exfalso; apply (proj2 (I0 0%nat) eq_refl)|]. assert (a = 0%nat) as -> by (apply I0; left; auto). f_equal.
    destruct l as [|b l]; auto. assert (b = 0%nat) as -> by (apply I0; right; left; auto). inversion ND as [|? ? X]. exfalso. apply X. left; auto. }
  subst index. reflexivity.
Qed.
