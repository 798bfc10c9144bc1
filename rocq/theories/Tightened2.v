(** Theorems added after seeded bugs survived: eclipsing binaries (C70), table defaults (C71), AGN structure function (C76),
    positions in a galaxy (C80). *)
From Coq Require Import Reals String List Bool Arith ZArith Lia Lra.
From Verif Require Import Base BaseFacts RealBase SedModel TemplateModel EclipseModel NoiseModel NoiseProps AgnModel ObsTableModel ObsTableProps FakeModel FakeProps GalaxyModel GalaxyProps.
Import ListNotations.
Open Scope R_scope.

(** ** C70: a binary without a distance is refused with a ValueError *)
Theorem C70_no_distance_error : forall node setters rs,
  dget "distance" setters = None \/ dget "distance" setters = Some PNone -> binary_make node setters rs = Err ValueError.
Proof. intros node setters rs H. unfold binary_make. now destruct H as [-> | ->]. Qed.

(** ** C76: the variability amplitude and time scale at 4000 A *)
(** Reference: magnitude -23 and a billion solar masses.  One magnitude fainter multiplies the amplitude by 10^0.118 and the
    time scale by 10^0.035; ten times the mass by 10^0.118 and 10^0.141. *)
Theorem C76_amplitude_reference : sf_4000 (-23) (10 ^ 9 * m_sun_g) = Rpower 10 (- 476 / 1000) /\ tau_4000 (-23) (10 ^ 9 * m_sun_g) = Rpower 10 (2597 / 1000).
Proof.
  assert (P : 0 < m_sun_g) by (unfold m_sun_g; apply Rmult_lt_0_compat; [lra|apply Rinv_0_lt_compat; unfold grav; lra]).
  assert (L : log10 (10 ^ 9 * m_sun_g / (10 ^ 9 * m_sun_g)) = 0).
  { replace (10 ^ 9 * m_sun_g / (10 ^ 9 * m_sun_g)) with 1 by (field; lra). unfold log10. rewrite ln_1. unfold Rdiv. ring. }
  unfold sf_4000, tau_4000. rewrite L. split; f_equal; lra.
Qed.
Lemma log10_tenfold : forall x, 0 < x -> log10 (10 * x) = 1 + log10 x.
Proof. intros x H. unfold log10. rewrite ln_mult by lra. assert (ln 10 <> 0) by (pose proof ln10_pos; lra). field. auto. Qed.
Theorem C76_amplitude_scaling : forall mag mass d, 0 < mass ->
  sf_4000 (mag + d) mass = sf_4000 mag mass * Rpower 10 (118 / 1000 * d) /\ sf_4000 mag (10 * mass) = sf_4000 mag mass * Rpower 10 (118 / 1000) /\
  tau_4000 (mag + d) mass = tau_4000 mag mass * Rpower 10 (35 / 1000 * d) /\ tau_4000 mag (10 * mass) = tau_4000 mag mass * Rpower 10 (141 / 1000).
Proof.
  intros mag mass d H. assert (P : 0 < m_sun_g) by (unfold m_sun_g; apply Rmult_lt_0_compat; [lra|apply Rinv_0_lt_compat; unfold grav; lra]).
  assert (L : log10 (10 * mass / (10 ^ 9 * m_sun_g)) = 1 + log10 (mass / (10 ^ 9 * m_sun_g))).
  { replace (10 * mass / (10 ^ 9 * m_sun_g)) with (10 * (mass / (10 ^ 9 * m_sun_g))) by (unfold Rdiv; ring). apply log10_tenfold.
    apply Rmult_lt_0_compat; auto. apply Rinv_0_lt_compat. apply Rmult_lt_0_compat; lra. }
  unfold sf_4000, tau_4000. rewrite L, <- !Rpower_plus. repeat split; f_equal; ring.
Qed.

(** ** C71: survey values *)
(** The value of any survey key in a FakeObsTable: the keyword argument if there is one of that name (those in the signature
    always are), else the table's metadata, else the class default. *)
Theorem C71_survey_values : forall f cm meta a fp k o0 key, frame_ok f -> (forall d, cm = Some d -> NoDup (dkeys d)) -> args_ok a -> NoDup (dkeys meta) ->
  ob_make f cm meta [] fp = Ok o0 -> In "filter"%string (columns (ob_frame o0)) -> fake_make f cm meta a fp = Ok k ->
  dget key (ob_values (fk_obs k)) =
    match dget key (fake_kwargs a) with Some v => Some v | None =>
    match dget key meta with Some v => Some v | None => if String.eqb key "survey_name" then Some (SText "FAKE_SURVEY") else None end end.
Proof.
  intros f cm meta a fp k o0 key F ND AO NM E0 HF H. destruct (make_grows f cm meta a fp k o0 F ND AO E0 HF H) as (G & _).
  rewrite (gr_values _ _ G). cbn [ob_values]. unfold fake_values. rewrite !fold_dset_get, !dget_rev; auto; [|apply AO].
  destruct (dget key (fake_kwargs a)) eqn:EK; auto. destruct (dget key meta); auto.
  assert (NK : forall k, In k ["dark_current"; "exptime"; "psf_footprint"; "fwhm_px"; "nexposure"; "radius"; "read_noise"; "sky"]%string -> key <> k).
  { intros k' HI ->. apply dget_None in EK. apply EK. unfold fake_kwargs, dkeys. rewrite map_app. apply in_or_app. left. exact HI. }
  unfold fake_defaults. cbn [dget]. repeat match goal with |- context [String.eqb key ?s] => destruct (String.eqb_spec key s); [try reflexivity; exfalso; eapply NK; eauto; simpl; tauto|] end. reflexivity.
Qed.

(** ** C80: a position with a coordinate that is missing or None *)
Theorem C80_no_position : forall node setters rs ts ws st kw,
  (exists c, (c = "ra" \/ c = "dec")%string /\ (dget c kw = None \/ dget c kw = Some PNone)) ->
  evaluate_sed (PSed (galaxy node setters rs [] [])) ts ws [st] kw = evaluate_sed (PSed (galaxy node setters rs [] [])) ts ws [st] [].
Proof.
  intros node setters rs ts ws st kw (c & HC & HK). apply C80_half_position. unfold given. destruct HC as [-> | ->]; [left|right]; now destruct HK as [-> | ->].
Qed.
