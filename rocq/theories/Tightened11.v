(** Theorems added after mechanical edits survived (tools/automut.py), continued: tables and constants (C57, C69-C74, C76, C83), objects without a time of their own (C60), default paths of passbands
    (C106) and axes of reductions (C114). *)
From Coq Require Import Reals String Ascii List Bool Arith ZArith Lia Lra.
From Verif Require Import Base BaseFacts RealBase ObsTableModel SurveyModel RomanModel FakeModel NoiseModel EclipseModel AgnModel Salt2Model Tightened8 PostModel PostProps.
From Verif Require PassbandModel SniaModel PassbandFileModel MathSampleModel GraphStateModel DownloadModel.
Import ListNotations.
Open Scope list_scope.
Open Scope R_scope.

(** ** Tables *)
Theorem C71_fake_values : value_is fake_defaults "dark_current"%string 0 /\ value_is fake_defaults "exptime"%string 30 /\ value_is fake_defaults "nexposure"%string 1 /\ value_is fake_defaults "read_noise"%string 0 /\
  dget "fwhm_px"%string fake_defaults = Some SNone /\ dget "radius"%string fake_defaults = Some SNone /\ dget "sky"%string fake_defaults = Some SNone /\
  dget "survey_name"%string fake_defaults = Some (SText "FAKE_SURVEY"%string) /\ length fake_defaults = 8%nat.
Proof. repeat match goal with |- _ /\ _ => split end; try reflexivity; eexists; (split; [reflexivity|lra]). Qed.
(** The surveys' default column of each quantity. *)
Open Scope string_scope.
Theorem C72_columns : map (fun k => dget k opsim_colnames) ["ra"; "dec"; "time"; "filter"; "airmass"; "exptime"; "nexposure"; "seeing"; "skybrightness"; "zp"] =
  map Some ["fieldRA"; "fieldDec"; "observationStartMJD"; "filter"; "airmass"; "visitExposureTime"; "numExposures"; "seeingFwhmEff"; "skyBrightness"; "zp_nJy"] /\ length opsim_colnames = 10%nat.
Proof. split; reflexivity. Qed.
Theorem C73_columns : map (fun k => dget k ztf_colnames) ["ra"; "dec"; "time"; "filter"; "exptime"; "fwhm"; "maglim"; "sky"; "zp"] =
  map Some ["ra"; "dec"; "obsmjd"; "filter"; "exptime"; "fwhm"; "maglim"; "scibckgnd"; "zp_nJy"] /\ length ztf_colnames = 9%nat.
Proof. split; reflexivity. Qed.
Theorem C74_columns : map (fun k => dget k roman_colnames) ["ra"; "dec"; "time"; "filter"; "zp"] = map Some ["RA"; "DEC"; "time"; "BANDPASS"; "zp_nJy"] /\ length roman_colnames = 5%nat.
Proof. split; reflexivity. Qed.
Close Scope string_scope.

(** ** Constants (CODATA 2018 in cgs units; lengths in centimetres) *)
Theorem C70_constants : planck_h * 10 ^ 27 = 6.62607015 /\ boltzmann * 10 ^ 16 = 1.380649 /\ c_cgs = 2.9979245800 * 10 ^ 10 /\ angstrom_cm * 10 ^ 8 = 1 /\ cgs_njy = 10 ^ 23 * 10 ^ 9 /\
  parsec_cm * PI = 149597870.7 * 10 ^ 5 * (180 * 3600).
Proof.
  unfold planck_h, boltzmann, c_cgs, angstrom_cm, cgs_njy, parsec_cm. pose proof PI_RGT_0. repeat match goal with |- _ /\ _ => split end; try lra.
  transitivity (648000 * 14959787070000 * (PI / PI)); [field; lra|]. replace (PI / PI) with 1 by (field; lra). lra.
Qed.
Theorem C76_constants : grav * 10 ^ 8 = 6.6743 /\ sigma_sb * 10 ^ 5 = 5.6703744191844314.
Proof. unfold grav, sigma_sb. split; lra. Qed.
Theorem C83_light_speed : SniaModel.light_km_s = 299792.458 /\ light_speed = 1000 * SniaModel.light_km_s /\ c_cgs = 100 * light_speed.
Proof. unfold SniaModel.light_km_s, light_speed, c_cgs. repeat split; lra. Qed.

(** ** C60: an object without a time of its own, or with the time 0 *)
Theorem C60_no_time_rel : forall nf lc min_snr nf' t0 x, augment_nested true nf min_snr = (nf', None) -> nf_lc nf = Some lc -> nf_t0 nf = Some t0 -> In x t0 -> x = None \/ x = Some 0 ->
  exists lc', nf_lc nf' = Some lc' /\ dget "time_rel" (cu_flat lc') = dget "time_rel" (cu_flat lc).
Proof.
  intros nf lc m nf' t0 x H EL ET HI HX. assert (US : t0_usable t0 = false).
  { destruct (t0_usable t0) eqn:E; auto. unfold t0_usable in E. rewrite forallb_forall in E. specialize (E x HI). destruct HX as [-> | ->]; [discriminate|]. apply negb_true_iff, Reqb_false in E. congruence. }
  unfold augment_nested in H. rewrite EL, ET, US in H. destruct (add_columns flag_nested m (cu_flat lc)) as [df|] eqn:EA; [|discriminate]. injection H as <-.
  eexists. split; [reflexivity|]. cbn [nf_lc cu_flat]. destruct (add_columns_ok _ (flag_nested_ok m) _ _ _ (flag_nested_point m) EA) as (v1 & v2 & v3 & v4 & v5 & v6 & A).
  apply (proj2 (proj2 (proj2 (proj2 (proj2 (proj2 (proj2 (proj2 (proj2 (proj2 A)))))))))); simpl; intuition discriminate.
Qed.

(** ** C106: where passbands are looked for *)
Theorem C106_default_path : forall base survey flt delta q url u force,
  PassbandFileModel.table_path base (PassbandFileModel.mkParams survey flt delta q None url u force) = base ++ ["passbands"; survey; flt ++ ".dat"]%string.
Proof. reflexivity. Qed.
(** pathlib drops empty parts: the file of a band of the SVO service lies below the table directory, one directory per non-empty part of the survey's name. *)
Theorem C106_svo_path : forall base name survey flt delta q dir force u,
  exists parts, PassbandFileModel.f_path (PassbandFileModel.svo_params base name survey flt delta q dir force u) =
    Some ((match dir with Some d => d | None => base ++ ["passbands"%string] end) ++ parts ++ [(flt ++ ".xml")%string]) /\
  (forall p, In p parts <-> p <> ""%string /\ In p (PassbandFileModel.split_on "/"%char survey)).
Proof.
  intros. eexists. split; [reflexivity|]. intros p. rewrite filter_In. destruct p; simpl; intuition discriminate.
Qed.
Example C106_svo_path_applies : PassbandFileModel.f_path (PassbandFileModel.svo_params ["d"%string] "Palomar//ZTF.g" "Palomar//ZTF" "g" None None None false PassbandModel.Angstrom) =
  Some ["d"; "passbands"; "Palomar"; "ZTF"; "g.xml"]%string.
Proof. reflexivity. Qed.

(** ** C114: reductions along an axis *)
Theorem C114_axis : forall (A : Type) index m pick l ax z, index ax = Some z -> MathSampleModel.depth (GraphStateModel.Arr l) = 1%nat ->
  (z = 0%Z \/ z = (-1)%Z -> @MathSampleModel.reduce A index m pick [GraphStateModel.Arr l; GraphStateModel.Atom ax] = @MathSampleModel.reduce A index m pick [GraphStateModel.Arr l]) /\
  (z <> 0%Z -> z <> (-1)%Z -> @MathSampleModel.reduce A index m pick [GraphStateModel.Arr l; GraphStateModel.Atom ax] = Err ValueError).
Proof.
  intros A index m pick l ax z HI HD. unfold MathSampleModel.reduce. rewrite HI, HD. cbn [Nat.eqb]. split.
  - intros [-> | ->]; reflexivity.
  - intros H1 H2. apply Z.eqb_neq in H1, H2. rewrite H1, H2. reflexivity.
Qed.
