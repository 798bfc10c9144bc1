(** What every survey knows about itself when the file and the caller say nothing. *)
From Coq Require Import Reals String List Bool Arith Lia Lra.
From Verif Require Import Base BaseFacts RealBase ObsTableModel ObsTableProps ObsTableMore NoiseModel NoiseProps FakeModel FakeProps SurveyModel SurveyProps RomanModel RomanProps.
Import ListNotations.
Open Scope R_scope.

Lemma survey_make_values : forall dv zp f cm meta kw fp o,
  (forall a b, zp a = Ok b -> ob_values b = ob_values a) ->
  survey_make dv zp f cm meta kw fp = Ok o -> ob_values o = survey_values dv meta kw.
Proof.
  intros dv zp f cm meta kw fp o Z H. unfold survey_make in H. destruct (remap (Some cm) f) as [[f' inv]|]; [|discriminate]. cbn [bind] in H.
  destruct (negb _); [discriminate|]. set (o0 := mkObs f' inv (survey_values dv meta kw) (unique_filters f') [] fp) in *.
  destruct (ob_contains o0 "zp").
  - cbn [bind] in H. injection H as <-. reflexivity.
  - destruct (zp o0) as [o1|] eqn:E; [|discriminate]. cbn [bind] in H. injection H as <-. cbn [ob_values]. now rewrite (Z _ _ E).
Qed.
Lemma add_column_values : forall a n v w b, add_column a n v w = Ok b -> ob_values b = ob_values a.
Proof.
  intros a n v w b H. unfold add_column in H. destruct (_ && _)%bool; [discriminate|]. destruct (_ =? _)%nat; [|discriminate]. now injection H as <-.
Qed.
Lemma opsim_zp_values : forall a b, opsim_zero_points a = Ok b -> ob_values b = ob_values a.
Proof.
  intros a b H. unfold opsim_zero_points in H. destruct (negb _); [discriminate|].
  destruct (safe_map a "ext_coeff"); [|discriminate]. cbn [bind] in H. destruct (safe_map a "zp_per_sec"); [|discriminate]. cbn [bind] in H.
  destruct (vec_flux_zeropoint _ _ _ _ _); [|discriminate]. cbn [bind] in H. eapply add_column_values; eauto.
Qed.
Lemma ztf_zp_values : forall a b, ztf_zero_points a = Ok b -> ob_values b = ob_values a.
Proof. intros a b H. unfold ztf_zero_points in H. destruct (negb _); [discriminate|]. apply add_column_values in H. exact H. Qed.

(** A plain table made without metadata and keywords knows nothing but that its survey is unknown. *)
Theorem C66_nothing_given : forall f cm fp o, ob_make f cm [] [] fp = Ok o ->
  dget "survey_name" (ob_values o) = Some (SText "Unknown") /\
  forall k, In k ["dark_current"; "ext_coeff"; "pixel_scale"; "radius"; "read_noise"; "zp_per_sec"]%string -> dget k (ob_values o) = Some SNone.
Proof.
  intros f cm fp o H. assert (P : forall k, dget k (ob_values o) = dget k default_values) by (intros k; exact (C66_precedence f cm [] [] fp o k (NoDup_nil _) (NoDup_nil _) H)).
  split; [now rewrite P|]. intros k I. rewrite P. cbn [In] in I. decompose [or] I; try (subst k; reflexivity). easy.
Qed.
(** The cameras' own values: what an OpSim, a ZTF and a Roman table know in that case. *)
Theorem C72_nothing_given : forall f cm fp o, opsim_make f cm [] [] fp = Ok o ->
  ob_values o = [("dark_current", SNum 0.2); 
    ("ext_coeff", SMap [("u", -0.458); ("g", -0.208); ("r", -0.122); ("i", -0.074); ("z", -0.057); ("y", -0.095)]);
    ("pixel_scale", SNum 0.2); ("radius", SNum 1.75); ("read_noise", SNum 8.8);
    ("zp_per_sec", SMap [("u", 26.524); ("g", 28.508); ("r", 28.361); ("i", 28.171); ("z", 27.782); ("y", 26.818)]);
    ("survey_name", SText "LSST")]%string.
Proof.
  intros f cm fp o H. rewrite (survey_make_values _ _ _ _ _ _ _ _ opsim_zp_values H). cbn [survey_values fold_left]. unfold opsim_defaults, lsst_ext, lsst_zp.
  repeat f_equal; lra.
Qed.
Theorem C73_nothing_given : forall mjd f cm fp o, ztf_make mjd f cm [] [] fp = Ok o ->
  ob_values o = [("dark_current", SNum 0); ("gain", SNum 6.2); ("pixel_scale", SNum 1.01); ("radius", SNum 2.735); ("read_noise", SNum 8);
    ("survey_name", SText "ZTF")]%string.
Proof.
  intros mjd f cm fp o H. rewrite (survey_make_values _ _ _ _ _ _ _ _ ztf_zp_values H). cbn [survey_values fold_left]. unfold ztf_defaults, ztf_dark, ztf_gain, ztf_read.
  repeat f_equal; lra.
Qed.
(** Roman's radius is that of a circle of the field's area, 0.28 square degrees. *)
Theorem C74_nothing_given : forall ch f cm fp f' o, roman_make ch (RFrame f) cm None [] [] fp = Ok (f', o) ->
  exists r, ob_values o = [("dark_current", SNum 0); ("pixel_scale", SNum 0.11); ("survey_name", SText "Roman"); ("radius", SNum r); ("zodi_level", SNum 1.5)]%string /\
    0 < r /\ PI * r ^ 2 = 0.28.
Proof.
  intros ch f cm fp f' o H. unfold roman_make in H. destruct (roman_append ch f) as [g|]; [|discriminate]. cbn [bind] in H.
  destruct (survey_make roman_defaults Ok g _ [] [] fp) as [o1|] eqn:E; [|discriminate]. cbn [bind] in H. injection H as <- <-.
  apply survey_make_values in E; [|intros a b X; now injection X as <-]. rewrite E. exists (sqrt (28 / 100 / PI)).
  assert (P := PI_RGT_0). split; [|split].
  - cbn [survey_values fold_left]. unfold roman_defaults. repeat f_equal; lra.
  - apply sqrt_lt_R0. apply Rdiv_lt_0_compat; lra.
  - rewrite pow2_sqrt; [replace (28 / 100 / PI) with (0.28 / PI) by (f_equal; lra); unfold Rdiv; rewrite (Rmult_comm _ (/ PI)), <- Rmult_assoc, Rinv_r by lra; apply Rmult_1_l|]. apply Rlt_le, Rdiv_lt_0_compat; lra.
Qed.
