(** C101, continued: SED models observed with OpSim tables, in formulas; object columns; when a run succeeds; a worked run. *)
From Coq Require Import Reals String List Bool Arith ZArith Lia Lra Classical_Prop.
From Verif Require Import Base BaseFacts RealBase PassbandModel PassbandProofs PassbandProps PassbandGroupProps ObsTableModel ObsTableProps SedModel SedProps SedPipeline SedBands
  SimulateModel SimulateProps SimulateDefined SimulateMore NoiseModel NoiseProps FakeModel FakeProps SurveyModel SurveyProps RomanModel EndToEndModel EndToEndProps.
Import ListNotations.
Open Scope R_scope.

(** ** Object columns *)
(** Object i of the result has its own number, position, t0, redshift and parameters. *)
Theorem C101_objects : forall ball m node mask draws num sts tables groups save params use_mask off r,
  sim_run ball m node mask draws num sts tables groups save params use_mask off = Ok r ->
  (forall c, In c params -> ~ In (undot c) ["id"; "ra"; "dec"; "t0"; "z"; "params"; "nobs"]%string) ->
  (forall c c', In c params -> In c' params -> undot c' = undot c -> c' = c) ->
  let cell k i := match dget k (sr_cols r) with Some l => nth_error l i | None => None end in
  forall i st, nth_error sts i = Some st -> (i < Z.to_nat num)%nat ->
    cell "id"%string i = Some (ONat i) /\
    (exists ra dec, get_param node st "ra" = PNum ra /\ get_param node st "dec" = PNum dec /\ cell "ra"%string i = Some (ONum ra) /\ cell "dec"%string i = Some (ONum dec)) /\
    cell "t0"%string i = Some (OVal (VParam (get_param node st "t0"))) /\ cell "z"%string i = Some (OVal (VParam (get_param node st "redshift"))) /\
    cell "params"%string i = Some (OVal (VState st)) /\
    (forall n p, In (n ++ String dot p)%string params -> has_dot n = false -> has_dot p = false ->
       cell (undot (n ++ String dot p)) i = Some (OVal (VParam (get_param n st p)))).
Proof.
  intros ball m node mask draws num sts tables groups save params use_mask off r H HC HJ cell i st Hi Hn.
  unfold sim_run in H. destruct (num <=? 0)%Z; [discriminate|]. destruct (sim_samples node sts) as [sm|] eqn:ESM; [|discriminate]. cbn [bind] in H.
  unfold sim_samples in ESM. destruct (numbers node "ra" sts) as [ras|] eqn:ERA; [|discriminate]. cbn [bind] in ESM.
  destruct (numbers node "dec" sts) as [decs|] eqn:EDEC; [|discriminate]. cbn [bind] in ESM. injection ESM as <-.
  apply numbers_spec in ERA. apply numbers_spec in EDEC.
  destruct (C38_object_columns _ _ _ _ _ _ _ _ _ _ _ _ H) as (K1 & K2 & K3 & K4 & K5 & K6 & K7). cbn [sm_ra sm_dec sm_t0col sm_z sm_params sm_param] in *.
  assert (NK : forall k c, In k ["id"; "ra"; "dec"; "t0"; "z"; "params"; "nobs"]%string -> In c params -> undot c <> k) by (intros k c H1 H2 E; apply (HC _ H2); now rewrite E).
  assert (ND : forall c, In c params -> undot c <> "nobs"%string) by (intros c; apply NK; simpl; tauto).
  unfold cell. rewrite K1, K2, K3, K4, K5, K6 by (intros c; apply NK; simpl; tauto). rewrite !nth_error_map, Hi. cbn [option_map].
  destruct (f2_nth _ _ _ _ _ _ _ ERA Hi) as (ra & Hra & Gra). destruct (f2_nth _ _ _ _ _ _ _ EDEC Hi) as (dec & Hdec & Gdec). rewrite Hra, Hdec.
  assert (EI : nth_error (seq 0 (Z.to_nat num)) i = Some i).
  { rewrite (nth_error_nth' (seq 0 (Z.to_nat num)) 0%nat) by now rewrite seq_length. now rewrite seq_nth. }
  rewrite EI. cbn [option_map]. repeat match goal with |- _ /\ _ => split end; auto; [exists ra, dec; auto|].
  intros n p HI D1 D2. set (c := (n ++ String dot p)%string) in *.
  assert (SD : split_dot c = [n; p]) by (unfold c; rewrite split_dot_join, (split_dot_nodot p) by auto; reflexivity).
  assert (SC : exists v, state_column sts c = Some v).
  { clear - H HI. unfold simulate in H. destruct (num <=? 0)%Z; [discriminate|]. destruct (negb _); [discriminate|]. destruct (_ && _)%bool; [discriminate|].
    cbv zeta in H. match type of H with bind ?X _ = _ => destruct X as [res|] eqn:EP end; [|discriminate]. clear H. unfold add_params in EP. cbn [sm_param] in EP.
    revert EP. match goal with |- fold_res _ ?D _ = _ -> _ => generalize D end. induction params as [|c' ps IH]; intros d EP; [destruct HI|]. cbn [fold_res] in EP.
    destruct (state_column sts c') as [v|] eqn:E; [|discriminate]. destruct HI as [->|HI]; [eauto|]. eapply IH; eauto. }
  destruct SC as (v & EV). rewrite (K7 c v HI EV (ND _ HI) (fun c' H' => HJ c c' HI H')). unfold state_column in EV. rewrite SD in EV.
  match type of EV with (if ?b then _ else _) = _ => destruct b end; [|discriminate]. injection EV as <-. rewrite !nth_error_map, Hi. reflexivity.
Qed.

(** ** SED models *)
Lemma sed_quiet : forall s g st b, evaluate_bandfluxes (PSed s) (PGroup g) [] (Some []) [st] = Ok (BOne b) -> b = [].
Proof. intros s g st b H. cbn in H. injection H as <-. reflexivity. Qed.
(** An SED model whose flux is a function of time and wavelength, with effects that act value by value. *)
Record source (s : sed) (st : gst) (ps : SedModel.params) (z t0 : R) (f : R -> R -> R) (act : effect -> R -> R -> R -> R) : Prop := {
  sc_params : dget (sd_node s) st = Some ps;
  sc_force : in_force s ps z t0;
  sc_z : -1 < z;
  sc_compute : computes s st [] f;
  sc_extrap : forall e, sd_extrap s = Some e -> extrap_made e;
  sc_range : forall lo hi, sd_min s st = Some lo -> sd_max s st = Some hi -> lo <= hi;
  sc_acts : forall e, In e (sd_rest s ++ sd_obs s) -> acts e ps (act e);
  sc_rest : forall e, In e (sd_rest s) -> ef_rest e = true;
  sc_obs : forall e, In e (sd_obs s) -> ef_rest e = false
}.
Lemma source_settled : forall s st ps z t0 f act groups, source s st ps z t0 f act -> settled (PSed s) groups st.
Proof.
  intros s st ps z t0 f act groups [H1 H2 H3 H4 H5 H6 H7 H8 H9]. split.
  - apply (C45_pointwise_models s st ps z t0 f act); auto.
  - intros g b _ H. eapply sed_quiet; eauto.
Qed.
Lemma source_flux : forall s st ps z t0 f act g name t x, source s st ps z t0 f act -> built g -> (forall p, In p (members g) -> pb_waves p <> []) ->
  single_flux (PSed s) (PGroup g) st t name x ->
  exists p, denotes g name p /\ x = row_bandflux (pb_table p) (pb_delta p) (map (expected_flux (extended s st f) act (sd_rest s ++ sd_obs s) z t0 t) (pb_waves p)).
Proof.
  intros s st ps z t0 f act g name t x [H1 H2 H3 H4 H5 H6 H7 H8 H9] HB HW H.
  assert (D : exists p, denotes g name p).
  { unfold single_flux in H. rewrite (evaluate_unfold _ _ _ _ _ (Some g)) in H by reflexivity. cbn [band_eval] in H. unfold sed_bandfluxes in H.
    cbn [unique_names fold_right ins_name fold_res] in H. destruct (classic (exists p, denotes g name p)) as [D|D]; auto.
    rewrite (proj2 (C32_getitem g name HB)) in H; [discriminate|]. intros p HP. apply D. eauto. }
  destruct D as (p & D). exists p. split; auto. destruct (C45_pointwise_models s st ps z t0 f act H1 H2 H3 H4 H5 H6 H7 H8 H9) as [_ V].
  specialize (V p g name t HB D (HW _ (proj1 D))). unfold single_flux in *. rewrite V in H. injection H as <-. reflexivity.
Qed.

(** ** OpSim error bars *)
Lemma opsim_error_inv : forall o x j e, opsim_errors o [x] [j] = Ok [Some e] ->
  exists ps rn dk t n see sky zp, dget "pixel_scale" (ob_values o) = Some (SNum ps) /\ dget "read_noise" (ob_values o) = Some (SNum rn) /\
    dget "dark_current" (ob_values o) = Some (SNum dk) /\
    cell_at o "exptime" j = Some (CNum t) /\ cell_at o "nexposure" j = Some (CNum n) /\ cell_at o "seeing" j = Some (CNum see) /\
    cell_at o "skybrightness" j = Some (CNum sky) /\ cell_at o "zp" j = Some (CNum zp) /\
    Some e = poisson_std x t n (PI / (2 * ln 2) * (see / ps) ^ 2) (mag2flux sky * ps ^ 2 / zp) zp (RNum rn) dk.
Proof.
  intros o x j e H. unfold opsim_errors in H. destruct (in_rows o [j]); [|discriminate]. cbn [negb] in H.
  destruct (safe_number o "pixel_scale") as [ps|] eqn:E1; [|discriminate]. cbn [bind] in H. destruct (need_cols o _) in H; [|discriminate]. cbn [bind] in H.
  destruct (safe_number o "read_noise") as [rn|] eqn:E2; [|discriminate]. cbn [bind] in H. destruct (safe_number o "dark_current") as [dk|] eqn:E3; [|discriminate].
  cbn [bind length Nat.eqb negb combine map] in H. apply safe_number_ok in E1. apply safe_number_ok in E2. apply safe_number_ok in E3.
  rewrite !num_at_row in H.
  destruct (cell_at o "exptime" j) as [[t| |]|] eqn:C1; cbn [num_opt] in H; try discriminate.
  destruct (cell_at o "nexposure" j) as [[n| |]|] eqn:C2; cbn [num_opt] in H; try discriminate.
  destruct (cell_at o "seeing" j) as [[see| |]|] eqn:C3; cbn [num_opt] in H; try discriminate.
  destruct (cell_at o "skybrightness" j) as [[sky| |]|] eqn:C4; cbn [num_opt] in H; try discriminate.
  destruct (cell_at o "zp" j) as [[zp| |]|] eqn:C5; cbn [num_opt] in H; try discriminate.
  destruct (Reqb ps 0); [discriminate|]. injection H as H. exists ps, rn, dk, t, n, see, sky, zp. repeat match goal with |- _ /\ _ => split end; auto.
  rewrite <- H. unfold opsim_error. destruct (Reqb zp 0) eqn:EZ; [unfold opsim_error in H; rewrite EZ in H; discriminate|].
  unfold gauss_area. now rewrite <- !Rsqr_pow2.
Qed.

(** From parameters to noisy fluxes: SED sources observed with OpSim tables. *)
Theorem C101_sed_opsim : forall ball s node mask keep draws num sts tables groups save params use_mask off r ps z t0 f act,
  ball_spec ball -> (forall ts st, mask ts st = map (keep st) ts) ->
  (forall st, In st sts -> source s st (ps st) (z st) (t0 st) (f st) (act st)) -> length sts = Z.to_nat num ->
  (forall o, In o tables -> tinv o /\ exists rad, dget "radius" (ob_values o) = Some (SNum rad) /\ 0 <= rad <= 180) ->
  (forall g, In g groups -> built g /\ forall p, In p (members g) -> pb_waves p <> []) ->
  NoDup save -> (forall k, In k save -> ~ In k base_cols) ->
  sim_run ball (PSed s) node mask draws num sts (map SvOpsim tables) groups save params use_mask off = Ok r ->
  exists rows : nat -> nat -> list nat,
    (forall i k st o, nth_error sts i = Some st -> nth_error tables k = Some o ->
       NoDup (rows i k) /\ forall j, In j (rows i k) <-> seen_row node off use_mask keep st o j) /\
    let obs := observations rows (length sts) (length tables) in
    length (sr_index r) = length obs /\ (forall k c, In (k, c) (sr_nested r) -> length c = length obs) /\
    forall p i k j, nth_error obs p = Some (i, k, j) ->
      exists st o g t fc band scale rn dk texp n see sky zp x e,
        nth_error sts i = Some st /\ nth_error tables k = Some o /\ nth_error groups k = Some g /\
        num_at o "time" j = Some t /\ item_at o "filter" j = Some fc /\ denotes g (text_of fc) band /\
        x = row_bandflux (pb_table band) (pb_delta band)
              (map (expected_flux (extended s st (f st)) (act st) (sd_rest s ++ sd_obs s) (z st) (t0 st) t) (pb_waves band)) /\
        dget "pixel_scale" (ob_values o) = Some (SNum scale) /\ dget "read_noise" (ob_values o) = Some (SNum rn) /\
        dget "dark_current" (ob_values o) = Some (SNum dk) /\
        cell_at o "exptime" j = Some (CNum texp) /\ cell_at o "nexposure" j = Some (CNum n) /\ cell_at o "seeing" j = Some (CNum see) /\
        cell_at o "skybrightness" j = Some (CNum sky) /\ cell_at o "zp" j = Some (CNum zp) /\
        Some e = poisson_std x texp n (PI / (2 * ln 2) * (see / scale) ^ 2) (mag2flux sky * scale ^ 2 / zp) zp (RNum rn) dk /\
        let cols k := nth_error (col k (sr_nested r)) p in
        nth_error (sr_index r) p = Some i /\ cols "survey_idx"%string = Some (NIdx k) /\
        cols "mjd"%string = Some (NNum t) /\ cols "filter"%string = Some (NStr (text_of fc)) /\
        cols "flux_perfect"%string = Some (NNum x) /\ cols "fluxerr"%string = Some (NNum e) /\ cols "flux"%string = Some (NNum (x + e * draws p)).
Proof.
  intros ball s node mask keep draws num sts tables groups save params use_mask off r ps z t0 f act HB HM HS HN HT HG HD HBC H.
  assert (HT' : forall tb, In tb (map SvOpsim tables) -> tinv (sv_table tb) /\ exists rad, dget "radius" (ob_values (sv_table tb)) = Some (SNum rad) /\ 0 <= rad <= 180).
  { intros tb HI. apply in_map_iff in HI. destruct HI as (o & <- & HI). cbn [sv_table]. auto. }
  destruct (C101_rows _ _ _ _ keep _ _ _ _ _ _ _ _ _ _ HB HM (fun st HI => source_settled _ _ _ _ _ _ _ groups (HS st HI)) HN HT' HD HBC H) as (rows & R1 & R2).
  exists rows. rewrite map_length in R2. cbv zeta in R2. destruct R2 as (R2 & R2' & R3). split; [|split; [auto|split; [auto|]]].
  - intros i k st o Hi Ho. apply (R1 i k st (SvOpsim o) Hi). rewrite nth_error_map, Ho. reflexivity.
  - intros p i k j HP. destruct (R3 p i k j HP) as (st & tb & g & t & fc & x & e & E1 & E2 & E3 & E4 & E5 & E6 & E7 & E8).
    rewrite nth_error_map in E2. destruct (nth_error tables k) as [o|] eqn:EO; [|discriminate]. cbn in E2. injection E2 as <-. cbn [sv_table sv_errors] in *.
    destruct (HG g (nth_error_In _ _ E3)) as [GB GW]. destruct (source_flux _ _ _ _ _ _ _ _ _ _ _ (HS st (nth_error_In _ _ E1)) GB GW E6) as (band & DB & VX).
    destruct (opsim_error_inv _ _ _ _ E7) as (scale & rn & dk & texp & n & see & sky & zp & X1 & X2 & X3 & X4 & X5 & X6 & X7 & X8 & X9).
    exists st, o, g, t, fc, band, scale, rn, dk, texp, n, see, sky, zp, x, e. cbv zeta in E8. destruct E8 as (Y1 & Y2 & Y3 & Y4 & Y5 & Y6 & Y7 & _).
    repeat match goal with |- _ /\ _ => split end; auto.
Qed.
