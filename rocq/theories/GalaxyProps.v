(** Property C80: GaussianGalaxy. *)
From Coq Require Import Reals String List Bool Arith ZArith Lia Lra.
From Verif Require Import Base BaseFacts RealBase PassbandModel PassbandProofs SedModel SedProps SedPipeline TemplateModel SimpleModels GalaxyModel.
Import ListNotations.
Open Scope R_scope.

(** ** The angle between two directions *)
(** The direction of longitude and latitude (radians), as a unit vector, and the inner product. *)
Definition direction (lon lat : R) : R * R * R := (cos lat * cos lon, cos lat * sin lon, sin lat).
Definition inner (a b : R * R * R) : R := let '(x, y, z) := a in let '(x', y', z') := b in x * x' + y * y' + z * z'.

Lemma sqr1 : forall t, sin t * sin t + cos t * cos t = 1.
Proof. intros t. pose proof (sin2_cos2 t) as H. unfold Rsqr in H. exact H. Qed.
Lemma squares_0 : forall a b c, a * a + b * b + c * c = 0 -> a = 0 /\ b = 0 /\ c = 0.
Proof.
  intros a b c H. pose proof (Rle_0_sqr a) as A. pose proof (Rle_0_sqr b) as B. pose proof (Rle_0_sqr c) as C. unfold Rsqr in *.
  assert (ZA : a * a = 0) by lra. assert (ZB : b * b = 0) by lra. assert (ZC : c * c = 0) by lra.
  apply Rmult_integral in ZA, ZB, ZC. tauto.
Qed.
Lemma atan2_acos : forall y x, 0 <= y -> x * x + y * y = 1 -> atan2_up y x = acos x.
Proof.
  intros y x Hy H. unfold atan2_up. assert (Y : y = sqrt (1 - x * x)).
  { replace (1 - x * x) with (y * y) by lra. now rewrite sqrt_square. }
  destruct (Rltb 0 x) eqn:E1; [apply Rltb_true in E1|apply Rltb_false in E1].
  - rewrite acos_atan by auto. now rewrite Y.
  - destruct (Rltb x 0) eqn:E2; [apply Rltb_true in E2|apply Rltb_false in E2].
    + rewrite <- (Ropp_involutive x) at 2. rewrite acos_opp, acos_atan by lra. unfold Rsqr. replace (- x * - x) with (x * x) by ring. rewrite <- Y.
      replace (y / - x) with (- (y / x)) by (field; lra). rewrite atan_opp. ring.
    + assert (x = 0) by lra. subst x. rewrite acos_0. replace (Rltb 0 y) with true; auto. symmetry. apply Rltb_true.
      destruct (Rle_lt_or_eq_dec 0 y Hy) as [L|L]; auto. rewrite <- L in H. lra.
Qed.
Lemma separation_acos : forall lon1 lat1 lon2 lat2,
  angular_separation lon1 lat1 lon2 lat2 = acos (inner (direction lon1 lat1) (direction lon2 lat2)) /\
  -1 <= inner (direction lon1 lat1) (direction lon2 lat2) <= 1.
Proof.
  intros a b c d. unfold angular_separation. cbv zeta.
  assert (D : inner (direction a b) (direction c d) = sin b * sin d + cos b * cos d * cos (c - a)).
  { unfold inner, direction. rewrite cos_minus. ring. }
  pose proof (sqr1 b) as B. pose proof (sqr1 d) as DD. pose proof (sqr1 (c - a)) as C.
  set (sb := sin b) in *. set (cb := cos b) in *. set (sd := sin d) in *. set (cd := cos d) in *. set (sc := sin (c - a)) in *. set (cc := cos (c - a)) in *.
  assert (P : 0 <= (cd * sc) * (cd * sc) + (cb * sd - sb * cd * cc) * (cb * sd - sb * cd * cc)) by (apply Rplus_le_le_0_compat; apply Rle_0_sqr).
  assert (Q : (sb * sd + cb * cd * cc) * (sb * sd + cb * cd * cc) + ((cd * sc) * (cd * sc) + (cb * sd - sb * cd * cc) * (cb * sd - sb * cd * cc)) = 1).
  { transitivity ((sb * sb + cb * cb) * (sd * sd) + (sb * sb + cb * cb) * (cd * cd) * (cc * cc) + (cd * cd) * (sc * sc)); [ring|].
    rewrite B. transitivity (sd * sd + cd * cd * (sc * sc + cc * cc)); [ring|]. rewrite C. lra. }
  rewrite D. split; [|nra]. apply atan2_acos; [apply sqrt_pos|]. rewrite sqrt_sqrt by auto. exact Q.
Qed.
(** The separation is the angle between the two directions: the one number in [0, pi] whose cosine is their inner product. *)
Theorem C80_separation : forall lon1 lat1 lon2 lat2, let s := angular_separation lon1 lat1 lon2 lat2 in
  0 <= s <= PI /\ cos s = inner (direction lon1 lat1) (direction lon2 lat2) /\
  (s = 0 <-> direction lon1 lat1 = direction lon2 lat2) /\ s = angular_separation lon2 lat2 lon1 lat1.
Proof.
  intros a b c d s. destruct (separation_acos a b c d) as [E [L U]]. destruct (separation_acos c d a b) as [E' _].
  unfold s. split; [rewrite E; apply acos_bound|]. split; [rewrite E; now apply cos_acos|]. split.
  - rewrite E. split.
    + intros Z. assert (I1 : inner (direction a b) (direction c d) = 1) by (rewrite <- (cos_acos _ (conj L U)), Z; apply cos_0).
      unfold direction, inner in *. pose proof (sqr1 a) as A1. pose proof (sqr1 b) as B1. pose proof (sqr1 c) as C1. pose proof (sqr1 d) as D1.
      set (x := cos b * cos a) in *. set (y := cos b * sin a) in *. set (z := sin b) in *. set (x' := cos d * cos c) in *. set (y' := cos d * sin c) in *. set (z' := sin d) in *.
      assert (N1 : x * x + y * y + z * z = 1). { unfold x, y. transitivity (cos b * cos b * (sin a * sin a + cos a * cos a) + z * z); [ring|]. rewrite A1. lra. }
      assert (N2 : x' * x' + y' * y' + z' * z' = 1). { unfold x', y'. transitivity (cos d * cos d * (sin c * sin c + cos c * cos c) + z' * z'); [ring|]. rewrite C1. lra. }
      clearbody x y z x' y' z'. assert (Q : (x - x') * (x - x') + (y - y') * (y - y') + (z - z') * (z - z') = 0) by nra.
      destruct (squares_0 _ _ _ Q) as (Q1 & Q2 & Q3). replace x with x' by lra. replace y with y' by lra. replace z with z' by lra. reflexivity.
    + intros Z. rewrite Z. replace (inner (direction c d) (direction c d)) with 1; [apply acos_1|].
      unfold inner, direction. pose proof (sqr1 c) as C1. pose proof (sqr1 d) as D1. symmetry.
      transitivity (cos d * cos d * (sin c * sin c + cos c * cos c) + sin d * sin d); [ring|]. rewrite C1. lra.
  - rewrite E, E'. f_equal. unfold inner, direction. ring.
Qed.
(** Along a meridian it is the difference of the latitudes. *)
Theorem C80_meridian : forall lon lat1 lat2, Rabs (lat2 - lat1) <= PI -> angular_separation lon lat1 lon lat2 = Rabs (lat2 - lat1).
Proof.
  intros lon a b H. destruct (separation_acos lon a lon b) as [E _]. rewrite E.
  assert (I1 : inner (direction lon a) (direction lon b) = cos (Rabs (b - a))).
  { unfold inner, direction. transitivity (cos a * cos b * (sin lon * sin lon + cos lon * cos lon) + sin a * sin b); [ring|]. rewrite sqr1.
    replace (cos (Rabs (b - a))) with (cos (b - a)); [rewrite cos_minus; ring|]. unfold Rabs. destruct (Rcase_abs (b - a)); auto. symmetry. apply cos_neg. }
  rewrite I1. apply acos_cos. split; [apply Rabs_pos|auto].
Qed.

(** ** The galaxy *)
(** Without a position (the way the simulation and the band fluxes evaluate it) every flux is the full brightness, at all times and
    wavelengths; the radius has no influence. *)
Theorem C80_centre : forall node setters rs (st : gst) (ps : params) z b r t0, dget node st = Some ps -> dget "brightness" ps = Some (PNum b) ->
  dget "galaxy_radius_std" ps = Some (PNum r) -> r <> 0 ->
  redshifted rs ps z -> (z <> 0 -> dget "t0" ps = Some (PNum t0)) ->
  shines (PSed (galaxy node setters rs [] [])) st (fun _ _ => (1 + z) * b).
Proof.
  intros node setters rs st ps z b r t0 HP HB HS HN [Hz HR] HT. eapply shines_ext.
  - apply (bare_shines _ st ps z t0 (fun _ _ => b)); auto; try plain.
    + unfold in_force. simpl. destruct HR as [[A B]|[A B]]; auto. left. repeat split; auto. destruct (Req_dec z 0); auto.
    + intros ts ws kw [->| ->]; simpl; unfold galaxy_sed, local_params; rewrite HP; cbn [bind]; unfold need, galaxy_distance; simpl; rewrite HS; cbn [bind];
      (replace (Reqb r 0) with false by (symmetry; now apply Reqb_false)); rewrite HB; cbn [bind]; do 2 f_equal; (apply map_ext_in || idtac);
      replace (- (0 * 0) / (2 * r * r)) with 0 by (field; auto); rewrite exp_0, Rmult_1_r; reflexivity.
  - intros t w. reflexivity.
Qed.
(** The flux the code returns when a position is passed. *)
Definition profile (b std s : R) : R := b * exp (- (s * s) / (2 * std * std)).
(** At a position (degrees) all values are the brightness times the Gaussian of the angular separation in radians from the galaxy's
    own position, times 1 + z. *)
Theorem C80_position : forall node setters rs (st : gst) (ps kw : params) z b r t0 ra0 dec0 ra dec ts ws,
  dget node st = Some ps -> dget "brightness" ps = Some (PNum b) ->
  dget "galaxy_radius_std" ps = Some (PNum r) -> r <> 0 -> dget "ra" ps = Some (PNum ra0) -> dget "dec" ps = Some (PNum dec0) ->
  redshifted rs ps z -> (z <> 0 -> dget "t0" ps = Some (PNum t0)) -> ws <> [] ->
  dget "ra" kw = Some (PNum ra) -> dget "dec" kw = Some (PNum dec) ->
  evaluate_sed (PSed (galaxy node setters rs [] [])) ts ws [st] kw =
  Ok (SOne (mat ts ws (fun _ _ => (1 + z) * profile b r (angular_separation (ra0 * PI / 180) (dec0 * PI / 180) (ra * PI / 180) (dec * PI / 180))))).
Proof.
  intros node setters rs st ps kw z b r t0 ra0 dec0 ra dec ts ws HP HB HS HN HA HD [Hz HR] HT HW KA KD.
  unfold evaluate_sed, eval_single. set (s := galaxy node setters rs [] []). unfold sed_single, local_params. change (sd_node s) with node. rewrite HP. cbn [bind].
  assert (IF : in_force s ps z t0). { unfold in_force. simpl. destruct HR as [[A B]|[A B]]; auto. left. repeat split; auto. destruct (Req_dec z 0); auto. }
  destruct (rest_frame_force s ps ts ws z t0 IF Hz) as (oz & R1 & O1). rewrite R1. cbn [bind].
  set (rt := map _ ts). set (rw := map _ ws).
  assert (EX : sed_extrapolated s rt rw st kw = sd_compute s rt rw st kw).
  { unfold sed_extrapolated. assert (N : rw <> []) by (unfold rw; destruct ws; [congruence|discriminate]).
    destruct rw as [|a0 rw']; [congruence|]. unfold list_min, list_max. cbn [bind]. set (a := fold_left Rmin rw' a0). set (c := fold_left Rmax rw' a0). cbv zeta. simpl sd_min. simpl sd_max. cbv iota.
    replace (Rleb a a) with true by (symmetry; apply Rleb_true; lra). replace (Rleb c c) with true by (symmetry; apply Rleb_true; lra). reflexivity. }
  rewrite EX. simpl sd_compute. unfold galaxy_sed, local_params. rewrite HP. cbn [bind]. unfold galaxy_distance, given. rewrite KA, KD. unfold need at 1 2. rewrite HA, HD. cbn [bind as_num].
  unfold need. rewrite HS. cbn [bind]. replace (Reqb r 0) with false by (symmetry; now apply Reqb_false). rewrite HB. cbn [bind]. simpl sd_rest. simpl sd_obs.
  unfold apply_effects. cbn [fold_res bind]. f_equal. f_equal. unfold profile. set (v := b * _). unfold rt, rw, mat.
  destruct oz as [z'|].
  - subst z'. unfold rest_to_obs_flux. rewrite !map_map. apply map_ext. intros t. rewrite ?map_map. apply map_ext. intros w. ring.
  - subst z. rewrite ?map_map. apply map_ext. intros t. rewrite ?map_map. apply map_ext. intros w. ring.
Qed.
(** Half a position is no position: unless both ra and dec are given (and not None) the result is the one without them. *)
Theorem C80_half_position : forall node setters rs ts ws st kw, given "ra" kw = None \/ given "dec" kw = None ->
  evaluate_sed (PSed (galaxy node setters rs [] [])) ts ws [st] kw = evaluate_sed (PSed (galaxy node setters rs [] [])) ts ws [st] [].
Proof.
  intros node setters rs ts ws st kw H. unfold evaluate_sed, eval_single, sed_single. f_equal. simpl sd_node. destruct (local_params node st) as [ps|] eqn:EP; auto. cbn [bind].
  destruct (rest_frame _ ps ts ws) as [[[rt rw] oz]|]; auto. cbn [bind].
  assert (EX : sed_extrapolated (galaxy node setters rs [] []) rt rw st kw = sed_extrapolated (galaxy node setters rs [] []) rt rw st []); [|now rewrite EX].
  unfold sed_extrapolated. destruct (list_min rw); auto. cbn [bind]. destruct (list_max rw); auto. cbn [bind]. cbv zeta. destruct (_ && _)%bool; auto.
  simpl sd_compute. unfold galaxy_sed. rewrite EP. cbn [bind]. f_equal. unfold galaxy_distance. destruct H as [-> | H]; [reflexivity|].
  rewrite H. destruct (given "ra" kw); reflexivity.
Qed.
(** The profile: at most the central brightness, reached exactly at the galaxy's own position, and strictly falling with the
    separation (for a positive brightness). *)
Theorem C80_falls_off : forall b std, 0 < b -> std <> 0 ->
  (forall s, 0 < profile b std s <= b) /\ profile b std 0 = b /\
  (forall s s', 0 <= s -> s < s' -> profile b std s' < profile b std s) /\
  (forall s, profile b std s = b -> s = 0) /\
  (forall s std', 0 < s -> 0 < std -> std < std' -> profile b std s < profile b std' s).
Proof.
  intros b std Hb Hs. assert (Q : 0 < 2 * std * std) by nra.
  assert (M : forall s s', 0 <= s -> s < s' -> profile b std s' < profile b std s).
  { intros s s' H0 H1. unfold profile. apply Rmult_lt_compat_l; auto. apply exp_increasing. unfold Rdiv. apply Rmult_lt_compat_r; [now apply Rinv_0_lt_compat|]. nra. }
  assert (Z : profile b std 0 = b). { unfold profile. replace (- (0 * 0) / (2 * std * std)) with 0 by (field; auto). rewrite exp_0. ring. }
  assert (SY : forall s, profile b std (- s) = profile b std s). { intros s. unfold profile. do 4 f_equal. ring. }
  split; [|split; [|split; [|split]]]; auto.
  - intros s. split; [unfold profile; apply Rmult_lt_0_compat; [auto|apply exp_pos]|].
    destruct (Rtotal_order 0 s) as [L|[L|L]].
    + pose proof (M 0 s (Rle_refl 0) L) as X. rewrite Z in X. lra.
    + subst. rewrite Z. lra.
    + pose proof (M 0 (- s) (Rle_refl 0) ltac:(lra)) as X. rewrite SY, Z in X. lra.
  - intros s E. destruct (Rtotal_order 0 s) as [L|[L|L]]; auto; exfalso.
    + pose proof (M 0 s (Rle_refl 0) L). lra.
    + pose proof (M 0 (- s) (Rle_refl 0) ltac:(lra)) as X. rewrite SY in X. lra.
  - intros s std' H1 H2 H3. unfold profile. apply Rmult_lt_compat_l; auto. apply exp_increasing. unfold Rdiv. rewrite !Ropp_mult_distr_l_reverse. apply Ropp_lt_contravar.
    assert (SQ : std * std < std' * std') by nra. assert (S2 : 0 < std * std) by nra. apply Rmult_lt_compat_l; [nra|]. apply Rinv_lt_contravar; [apply Rmult_lt_0_compat; lra|lra].
Qed.
(** The documentation gives the standard deviation in degrees; but the separation it is compared with is in radians.  One documented
    standard deviation away from the centre, due north, the brightness should have fallen to exp (-1/2); it is still above 99.98%. *)
Theorem C80_degrees_refuted : forall node (st : gst) (ps kw : params) b r ra0 dec0 ts ws, dget node st = Some ps -> dget "brightness" ps = Some (PNum b) ->
  dget "galaxy_radius_std" ps = Some (PNum r) -> dget "ra" ps = Some (PNum ra0) -> dget "dec" ps = Some (PNum dec0) -> 0 < b -> 0 < r <= 180 -> ws <> [] ->
  dget "ra" kw = Some (PNum ra0) -> dget "dec" kw = Some (PNum (dec0 + r)) ->
  exists v, evaluate_sed (PSed (galaxy node [] false [] [])) ts ws [st] kw = Ok (SOne (mat ts ws (fun _ _ => v))) /\
    b * exp (- (1 / 2)) < v /\ 9998 / 10000 * b < v.
Proof.
  intros node st ps kw b r ra0 dec0 ts ws HP HB HS HA HD Hb Hr HW KA KD.
  assert (PP : 0 < PI) by apply PI_RGT_0. assert (P4 : PI <= 4) by apply PI_4.
  assert (X := C80_position node [] false st ps kw 0 b r 0 ra0 dec0 ra0 (dec0 + r) ts ws HP HB HS ltac:(lra) HA HD).
  rewrite X; auto; clear X; [|split; [lra|right; auto]|congruence].
  assert (A : angular_separation (ra0 * PI / 180) (dec0 * PI / 180) (ra0 * PI / 180) ((dec0 + r) * PI / 180) = r * PI / 180).
  { assert (E : (dec0 + r) * PI / 180 - dec0 * PI / 180 = r * PI / 180) by field.
    assert (RP : 0 <= r * PI <= 180 * PI) by (split; [apply Rmult_le_pos|apply Rmult_le_compat_r]; lra). assert (PO : 0 <= r * PI / 180) by lra.
    rewrite C80_meridian; rewrite E, Rabs_right by lra; lra. }
  rewrite A. exists (profile b r (r * PI / 180)). split.
  - do 2 f_equal. apply mat_ext. intros t w _ _. ring.
  - assert (V : profile b r (r * PI / 180) = b * exp (- (PI * PI / 64800))). { unfold profile. do 2 f_equal. field. lra. }
    rewrite V. assert (PB : PI * PI < 1296 / 100).
    { assert (H : PI < 36 / 10); [|nra]. assert (H := PI_ineq 2). destruct H as [_ H]. unfold tg_alt, PI_tg in H. simpl in H. lra. }
    assert (EB : 9998 / 10000 < exp (- (PI * PI / 64800))).
    { apply Rlt_le_trans with (1 + - (PI * PI / 64800)); [lra|]. destruct (Req_dec (- (PI * PI / 64800)) 0) as [E|NE]; [rewrite E, exp_0; lra|]. apply Rlt_le. now apply exp_ineq1. }
    split; [|nra]. apply Rmult_lt_compat_l; auto. apply exp_increasing. lra.
Qed.
Example C80_case : exists v, evaluate_sed (PSed (galaxy "g" [] false [] [])) [1; 2] [5000]
    [[("g"%string, [("brightness"%string, PNum 10); ("galaxy_radius_std"%string, PNum 1); ("ra"%string, PNum 20); ("dec"%string, PNum 5)])]]
    [("ra"%string, PNum 20); ("dec"%string, PNum 6)] = Ok (SOne [[v]; [v]]) /\ 9 < v.
Proof.
  destruct (C80_degrees_refuted "g" [("g"%string, [("brightness"%string, PNum 10); ("galaxy_radius_std"%string, PNum 1); ("ra"%string, PNum 20); ("dec"%string, PNum 5)])]
    [("brightness"%string, PNum 10); ("galaxy_radius_std"%string, PNum 1); ("ra"%string, PNum 20); ("dec"%string, PNum 5)] [("ra"%string, PNum 20); ("dec"%string, PNum (5 + 1))]
    10 1 20 5 [1; 2] [5000]) as (v & E & _ & L); try reflexivity; try lra; try discriminate.
  exists v. split; [|lra]. replace 6 with (5 + 1) by lra. exact E.
Qed.
