(** The flux density of the BayeSN model (C93). *)
From Coq Require Import Reals String List Bool Arith Lia Lra.
From Verif Require Import Base BaseFacts RealBase SedModel SedProps SedPipeline SimpleModels NoiseModel NoiseProps TemplateModel Salt2Model Salt2Props BayesnModel BayesnSpline BayesnProps.
Import ListNotations.
Open Scope R_scope.

(** ** Specification *)
(** The parameters of a sample. *)
Definition bay_params (ps : params) (t0 theta av rv amp : R) : Prop :=
  dget "t0" ps = Some (PNum t0) /\ dget "theta" ps = Some (PNum theta) /\ dget "Av" ps = Some (PNum av) /\ dget "Rv" ps = Some (PNum rv) /\ dget "Amplitude" ps = Some (PNum amp).
(** The magnitudes added at phase [t] and wavelength [w] by a table of values at the knots: the natural spline along the
    wavelengths through the natural splines along the phases. *)
Definition magnitudes (b : bay_data) (W : list (list R)) (t w : R) : R :=
  spline (b_l b) (fun k => spline (b_tau b) (fun m => cell W k m) t) w.
(** The flux density in nJy: template, intrinsic spectrum, host extinction [k], amplitude; and erg/s/cm2/Angstrom to nJy. *)
Definition bay_flux (b : bay_data) (theta amp k t w : R) : R :=
  surface (b_phase b) (b_wave b) (b_flux b) t w * Rpower 10 (- 0.4 * (magnitudes b (b_w0 b) t w + theta * magnitudes b (b_w1 b) t w)) * k * amp * (w * w) * (10 ^ 22 / 299792458).

Lemma sum_swap : forall n m (F : nat -> nat -> R), sum_to n (fun i => sum_to m (fun j => F i j)) = sum_to m (fun j => sum_to n (fun i => F i j)).
Proof.
  induction n as [|n IH]; intros m F.
  - symmetry. apply sum_zero. reflexivity.
  - rewrite sum_S, IH. rewrite <- sum_add. apply sum_ext. intros j Hj. now rewrite sum_S.
Qed.
Lemma w_entry_spec : forall b theta w t, w_entry b theta w t = magnitudes b (b_w0 b) t w + theta * magnitudes b (b_w1 b) t w.
Proof.
  intros. unfold w_entry, magnitudes, spline. rewrite <- sum_scale, <- sum_add. apply sum_ext. intros k Hk.
  rewrite (sum_ext _ _ (fun m => basis_row (b_tau b) (invkd (b_tau b)) t m * cell (b_w0 b) k m + theta * (basis_row (b_tau b) (invkd (b_tau b)) t m * cell (b_w1 b) k m))) by (intros; ring).
  rewrite sum_add, sum_scale. ring.
Qed.
Lemma f99_all_spec : forall f99 ebv k ws, (forall w, In w ws -> f99 f99_default w ebv = Some (k w)) -> f99_all f99 ebv ws = Ok (map k ws).
Proof.
  induction ws as [|w ws IH]; intros H; [reflexivity|]. cbn [f99_all map]. rewrite H by now left. rewrite IH by (intros; apply H; now right). reflexivity.
Qed.
Lemma combine_k : forall (g k : R -> R) ws, map (fun p => fst p * snd p) (combine (map g ws) (map k ws)) = map (fun w => g w * k w) ws.
Proof. induction ws as [|w ws IH]; cbn; auto. now rewrite IH. Qed.

(** ** The value *)
(** In the rest frame: the entry of each time and wavelength depends on nothing else, and is the formula, with the extinction law
    for R_V = 3.1 at E(B-V) = Av / Rv. *)
Theorem C93_rest : forall f99 b node ts ws (st : gst) kw (ps : params) t0 theta av rv amp k, dget node st = Some ps -> bay_params ps t0 theta av rv amp -> rv <> 0 ->
  (forall w, In w ws -> f99 (31 / 10) w (av / rv) = Some (k w)) ->
  bay_sed f99 b node ts ws st kw = Ok (mat ts ws (fun t w => bay_flux b theta amp (k w) (t - t0) w)).
Proof.
  intros f99 b node ts ws st kw ps t0 theta av rv amp k HP (H0 & H1 & H2 & H3 & H4) HR HK. unfold bay_sed, local_params. rewrite HP. cbn [bind]. unfold need. rewrite H0. cbn [bind]. rewrite H1. cbn [bind]. cbv zeta.
  rewrite H2. cbn [bind]. rewrite H3. cbn [bind]. rewrite (proj2 (Reqb_false rv 0) HR). rewrite (f99_all_spec f99 (av / rv) k ws HK). cbn [bind]. rewrite H4. cbn [bind].
  unfold evaluate_2d. rewrite zip2_map, !map_map.
  rewrite (map_ext _ (fun t => map (fun w => surface (b_phase b) (b_wave b) (b_flux b) (t - t0) w * Rpower 10 (- (4 / 10) * w_entry b theta w (t - t0)) * k w * amp) ws)) by (intros t; rewrite combine_k, map_map; reflexivity).
  rewrite flam_map. unfold mat. f_equal. apply map_ext. intros t. apply map_ext. intros w. unfold bay_flux. rewrite w_entry_spec. unfold u_aa, u_flam, u_njy, light_speed.
  replace (- (4 / 10) * (magnitudes b (b_w0 b) (t - t0) w + theta * magnitudes b (b_w1 b) (t - t0) w)) with (- 0.4 * (magnitudes b (b_w0 b) (t - t0) w + theta * magnitudes b (b_w1 b) (t - t0) w)) by lra.
  set (P := Rpower 10 _). field.
Qed.
(** The model: SEDModel without wavelength bounds. *)
Definition bay_model (f99 : f99_law) (b : bay_data) (node : string) (setters : params) (rs : bool) : phys := PSed (plain_sed node setters rs (bay_sed f99 b node) [] []).
Lemma plain_eval : forall node setters rs c ts ws (st : gst) (ps : params) z t0 f, dget node st = Some ps -> redshifted rs ps z -> (z <> 0 -> dget "t0" ps = Some (PNum t0)) -> ws <> [] ->
  c (map (fun t => t0 + (t - t0) / (1 + z)) ts) (map (fun w => w / (1 + z)) ws) st [] = Ok (mat (map (fun t => t0 + (t - t0) / (1 + z)) ts) (map (fun w => w / (1 + z)) ws) f) ->
  evaluate_sed (PSed (plain_sed node setters rs c [] [])) ts ws [st] [] = Ok (SOne (mat ts ws (fun t w => (1 + z) * f (t0 + (t - t0) / (1 + z)) (w / (1 + z))))).
Proof.
  intros node setters rs c ts ws st ps z t0 f HP [Hz HR] HT HW HC.
  assert (E : evaluate_sed (PSed (plain_sed node setters rs c [] [])) ts ws [st] [] = bind (sed_single (plain_sed node setters rs c [] []) ts ws st []) (fun x => Ok (SOne x))) by reflexivity.
  rewrite E. unfold sed_single, local_params. cbn [sd_node plain_sed]. rewrite HP. cbn [bind].
  destruct (rest_frame_force (plain_sed node setters rs c [] []) ps ts ws z t0) as (oz & RF & OZ); auto.
  { unfold in_force. cbn [sd_redshift plain_sed]. destruct HR as [[A B]|[A B]]; auto. left. repeat split; auto. destruct (Req_dec z 0); auto. }
  rewrite RF. cbn [bind]. unfold sed_extrapolated. cbn [sd_min sd_max plain_sed sd_compute].
  destruct (list_min (map (fun w => w / (1 + z)) ws)) as [lo|] eqn:EL; [|destruct ws; [congruence|discriminate]].
  destruct (list_max (map (fun w => w / (1 + z)) ws)) as [hi|] eqn:EH; [|destruct ws; [congruence|discriminate]].
  cbn [bind]. rewrite !Rleb_refl. cbn [andb]. rewrite HC. cbn [bind sd_rest sd_obs plain_sed apply_effects fold_res]. rewrite mat_map.
  destruct oz as [z'|]; [subst z'|]; unfold apply_effects, rest_to_obs_flux, mat; cbn [fold_res bind]; do 2 f_equal.
  - rewrite map_map. apply map_ext. intros t. rewrite map_map. apply map_ext. intros w. ring.
  - apply map_ext. intros t. apply map_ext. intros w. rewrite OZ. ring.
Qed.
(** As observed: redshifted about t0. *)
Theorem C93_observed : forall f99 b node setters rs ts ws (st : gst) (ps : params) z t0 theta av rv amp k, dget node st = Some ps -> bay_params ps t0 theta av rv amp -> rv <> 0 -> redshifted rs ps z -> ws <> [] ->
  (forall w, In w ws -> f99 (31 / 10) (w / (1 + z)) (av / rv) = Some (k (w / (1 + z)))) ->
  evaluate_sed (bay_model f99 b node setters rs) ts ws [st] [] =
  Ok (SOne (mat ts ws (fun t w => (1 + z) * bay_flux b theta amp (k (w / (1 + z))) ((t - t0) / (1 + z)) (w / (1 + z))))).
Proof.
  intros f99 b node setters rs ts ws st ps z t0 theta av rv amp k HP HB HR HZ HW HK. unfold bay_model.
  rewrite (plain_eval node setters rs _ ts ws st ps z t0 (fun t w => bay_flux b theta amp (k w) (t - t0) w)); auto.
  - do 2 f_equal. apply mat_ext. intros t w _ _. do 2 f_equal. ring.
  - intros _. apply HB.
  - apply (C93_rest f99 b node _ _ st [] ps t0 theta av rv amp k); auto. intros w Hw. apply in_map_iff in Hw. destruct Hw as (w' & <- & I). auto.
Qed.
(** What the parameters do.  Amplitude: a factor.  theta: magnitudes, linearly. *)
Theorem C93_amplitude : forall b theta amp c k t w, bay_flux b theta (c * amp) k t w = c * bay_flux b theta amp k t w.
Proof. intros. unfold bay_flux. ring. Qed.
Theorem C93_theta : forall b theta d amp k t w, bay_flux b (theta + d) amp k t w = Rpower 10 (- 0.4 * (d * magnitudes b (b_w1 b) t w)) * bay_flux b theta amp k t w.
Proof.
  intros. unfold bay_flux. replace (- 0.4 * (magnitudes b (b_w0 b) t w + (theta + d) * magnitudes b (b_w1 b) t w)) with (- 0.4 * (d * magnitudes b (b_w1 b) t w) + - 0.4 * (magnitudes b (b_w0 b) t w + theta * magnitudes b (b_w1 b) t w)) by lra.
  rewrite Rpower_plus. ring.
Qed.
(** At the knots of the tables the magnitudes are the tables' values. *)
Theorem C93_knots : forall b W k m, increasing (b_l b) -> increasing (b_tau b) -> (2 <= length (b_l b))%nat -> (2 <= length (b_tau b))%nat -> (k < length (b_l b))%nat -> (m < length (b_tau b))%nat ->
  magnitudes b W (at_ (b_tau b) m) (at_ (b_l b) k) = cell W k m.
Proof. intros b W k m IL IT TL TT Hk Hm. unfold magnitudes. rewrite C91_at_knot by auto. now rewrite C91_at_knot. Qed.
(** The host's R_V does not select the extinction law: samples with the same Av / Rv are equal, whatever the law. *)
Theorem C93_rv_refuted : forall f99 b node ts ws (st1 st2 : gst) kw (ps1 ps2 : params) t0 theta av rv amp c, dget node st1 = Some ps1 -> dget node st2 = Some ps2 ->
  bay_params ps1 t0 theta av rv amp -> bay_params ps2 t0 theta (c * av) (c * rv) amp -> rv <> 0 -> c <> 0 ->
  bay_sed f99 b node ts ws st1 kw = bay_sed f99 b node ts ws st2 kw.
Proof.
  intros f99 b node ts ws st1 st2 kw ps1 ps2 t0 theta av rv amp c E1 E2 (A0 & A1 & A2 & A3 & A4) (B0 & B1 & B2 & B3 & B4) HR HC.
  assert (N : c * rv <> 0) by (apply Rmult_integral_contrapositive_currified; auto).
  unfold bay_sed, local_params, need. rewrite E1, E2. cbn [bind]. rewrite A0, B0. cbn [bind]. rewrite A1, B1. cbn [bind]. cbv zeta. rewrite A2, B2. cbn [bind]. rewrite A3, B3. cbn [bind].
  rewrite (proj2 (Reqb_false _ _) HR), (proj2 (Reqb_false _ _) N). replace (c * av / (c * rv)) with (av / rv) by (field; auto). rewrite A4, B4. reflexivity.
Qed.
(** Refused: a wavelength outside the range of the law, R_V = 0, and the defaults (theta, Av, Rv are None). *)
Lemma f99_all_refuses : forall f99 ebv ws, (exists w, In w ws /\ f99 f99_default w ebv = None) -> f99_all f99 ebv ws = Err ValueError.
Proof.
  induction ws as [|w ws IH]; intros (v & I & N); [destruct I|]. cbn [f99_all]. destruct I as [-> | I]; [now rewrite N|]. destruct (f99 f99_default w ebv); [|reflexivity]. rewrite IH by eauto. reflexivity.
Qed.
Theorem C93_refused : forall f99 b node ts ws (st : gst) kw (ps : params) t0 theta av rv amp, dget node st = Some ps -> bay_params ps t0 theta av rv amp ->
  (rv = 0 -> bay_sed f99 b node ts ws st kw = Err ZeroDivisionError) /\
  (rv <> 0 -> (exists w, In w ws /\ f99 (31 / 10) w (av / rv) = None) -> bay_sed f99 b node ts ws st kw = Err ValueError).
Proof.
  intros f99 b node ts ws st kw ps t0 theta av rv amp HP (H0 & H1 & H2 & H3 & H4). unfold bay_sed, local_params, need. rewrite HP. cbn [bind]. rewrite H0. cbn [bind]. rewrite H1. cbn [bind]. cbv zeta. rewrite H2. cbn [bind]. rewrite H3. cbn [bind].
  split; [intros ->; now rewrite (proj2 (Reqb_true 0 0) eq_refl)|]. intros HR X. rewrite (proj2 (Reqb_false _ _) HR). now rewrite f99_all_refuses.
Qed.
Theorem C93_defaults : forall f99 b node ts ws (st : gst) kw (ps : params) t0 theta av, dget node st = Some ps -> dget "t0" ps = Some (PNum t0) ->
  (dget "theta" ps = Some PNone -> bay_sed f99 b node ts ws st kw = Err TypeError) /\
  (dget "theta" ps = Some (PNum theta) -> dget "Av" ps = Some PNone -> bay_sed f99 b node ts ws st kw = Err TypeError) /\
  (dget "theta" ps = Some (PNum theta) -> dget "Av" ps = Some (PNum av) -> dget "Rv" ps = Some PNone -> bay_sed f99 b node ts ws st kw = Err TypeError).
Proof.
  intros f99 b node ts ws st kw ps t0 theta av HP H0. unfold bay_sed, local_params, need. rewrite HP. cbn [bind]. rewrite H0. cbn [bind]. split; [|split].
  - intros ->. reflexivity.
  - intros -> ->. reflexivity.
  - intros -> -> ->. reflexivity.
Qed.
(** The mask selects the observer times whose rest-frame phase lies strictly between -20 and 50 days. *)
Theorem C93_mask : forall node ts (st : gst) z t0, value_or_0 node st "redshift" z -> value_or_0 node st "t0" t0 -> -1 < z ->
  exists mask, bay_mask node ts (Some st) = Ok mask /\ length mask = length ts /\
    forall i t, nth_error ts i = Some t -> nth_error mask i = Some true /\ -20 < (t - t0) / (1 + z) < 50 \/
                                          nth_error mask i = Some false /\ ~ -20 < (t - t0) / (1 + z) < 50.
Proof.
  intros node ts st z t0 HZ HT Hz. unfold bay_mask. rewrite (param_or_0_spec _ _ _ _ HZ). cbn [bind]. rewrite (param_or_0_spec _ _ _ _ HT). cbn [bind].
  eexists. split; [reflexivity|]. split; [apply map_length|]. intros i t Hi. rewrite nth_error_map, Hi. cbn [option_map].
  set (q := (t - t0) / (1 + z)). assert (E : t = t0 + q * (1 + z)) by (unfold q; field; lra).
  destruct (_ && _)%bool eqn:B.
  - left. split; auto. apply andb_true_iff in B. destruct B as [B1 B2]. apply Rltb_true in B1, B2. split; apply Rmult_lt_reg_r with (1 + z); lra.
  - right. split; auto. intros [A1 A2]. apply andb_false_iff in B. apply (Rmult_lt_compat_r (1 + z)) in A1; [|lra]. apply (Rmult_lt_compat_r (1 + z)) in A2; [|lra].
    destruct B as [B|B]; apply Rltb_false in B; lra.
Qed.
Theorem C93_mask_no_state : forall node ts, bay_mask node ts None = Err ValueError. Proof. reflexivity. Qed.

(** ** Concrete cases *)
Definition flat_data : bay_data := mkBay [[0; 0]; [0; 0]] [[1; 1]; [1; 1]] [3000; 9000] [-10; 40] [-20; 50] [1000; 20000] [[2; 2]; [2; 2]].
Definition flat_params (av rv : R) : params := [("t0", PNum 60000); ("theta", PNum 0); ("Av", PNum av); ("Rv", PNum rv); ("Amplitude", PNum 3)]%string.
Definition flat_law : f99_law := fun rv w ebv => if Rltb w 1000 then None else Some (Rpower 10 (- 0.4 * (rv * ebv))).
Lemma flat_W : forall W c t w, (forall k m, (k < 2)%nat -> (m < 2)%nat -> cell W k m = c) -> magnitudes flat_data W t w = c.
Proof.
  intros W c t w H. unfold magnitudes, flat_data. cbn [b_l b_tau].
  assert (I1 : increasing [3000; 9000]) by (cbn; lra). assert (I2 : increasing [-10; 40]) by (cbn; lra).
  assert (E : forall k, (k < 2)%nat -> spline [-10; 40] (fun m => cell W k m) t = c).
  { intros k Hk. rewrite <- (Rplus_0_l c). replace 0 with (0 * t) by ring. rewrite <- (C91_straight [-10; 40] 0 c t) by (auto; cbn; lia). apply sum_ext. intros m Hm. rewrite H by (auto; cbn in Hm; lia). ring. }
  rewrite <- (Rplus_0_l c). replace 0 with (0 * w) by ring. rewrite <- (C91_straight [3000; 9000] 0 c w) by (auto; cbn; lia). apply sum_ext. intros k Hk. rewrite E by (cbn in Hk; lia). ring.
Qed.
Example C93_case : bay_params (flat_params 0 3) 60000 0 0 3 3 /\
  evaluate_sed (bay_model flat_law flat_data "sn" [] false) [60010] [5000] [[("sn"%string, flat_params 0 3)]] [] = Ok (SOne [[6 * (5000 * 5000) * (10 ^ 22 / 299792458)]]) /\
  bay_sed flat_law flat_data "sn" [60010] [900] [("sn"%string, flat_params 0 3)] [] = Err ValueError /\
  natural_spline 3 (at_ [0; 1; 3]) (at_ [2; 5; 1]) (spline [0; 1; 3] (at_ [2; 5; 1])) /\ at_ [0; 1; 3] 0 <= 2 <= at_ [0; 1; 3] 2.
Proof.
  assert (B : forall av rv, bay_params (flat_params av rv) 60000 0 av rv 3) by (intros; repeat split).
  split; [apply B|]. split; [|split; [|split]].
  - rewrite (C93_observed flat_law flat_data "sn" [] false [60010] [5000] _ (flat_params 0 3) 0 60000 0 0 3 3 (fun _ => 1)); auto; try lra; try discriminate.
    + unfold mat, bay_flux. cbn [map]. do 4 f_equal. replace ((60010 - 60000) / (1 + 0)) with 10 by field. replace (5000 / (1 + 0)) with 5000 by field.
      rewrite !(flat_W _ 0) by (intros [|[|k]] [|[|m]] Hk Hm; try lia; reflexivity).
      assert (S : surface (b_phase flat_data) (b_wave flat_data) (b_flux flat_data) 10 5000 = 2).
      { rewrite (C92_bilinear _ _ _ 2 0 0 0); cbn [flat_data b_phase b_wave b_flux]; [lra|cbn; lra|cbn; lra|cbn; lia|cbn; lia|]. intros [|[|k]] [|[|m]] Hk Hm; cbn in *; try lia; lra. }
      rewrite S. replace (- 0.4 * (0 + 0 * magnitudes flat_data (b_w1 flat_data) 10 5000)) with 0 by lra. rewrite Rpower_O by lra. ring.
    + split; [lra|]. auto.
    + intros w [<- | []]. unfold flat_law. rewrite (proj2 (Rltb_false _ _)) by lra. replace (- 0.4 * (31 / 10 * (0 / 3))) with 0 by lra. now rewrite Rpower_O by lra.
  - apply (proj2 (C93_refused flat_law flat_data "sn" [60010] [900] [("sn"%string, flat_params 0 3)] [] (flat_params 0 3) 60000 0 0 3 3 eq_refl (B 0 3))); [lra|]. exists 900. split; [now left|]. unfold flat_law. now rewrite (proj2 (Rltb_true 900 1000)) by lra.
  - apply (C91_natural [0; 1; 3] (at_ [2; 5; 1])); cbn; [lra|lia].
  - unfold at_. cbn. lra.
Qed.
