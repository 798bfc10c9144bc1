(** Property C81: detector footprints. *)
From Coq Require Import Reals String List Bool Arith ZArith Lia Lra.
From Verif Require Import Base BaseFacts RealBase FootprintModel.
Import ListNotations.
Open Scope R_scope.

(** ** Specification *)
Definition dot (a b : vec) : R := let '(x, y, z) := a in let '(x', y', z') := b in x * x' + y * y' + z * z'.
(** Towards the east and the north at a position (degrees). *)
Definition east (ra dec : R) : vec := (- sin (rad ra), cos (rad ra), 0).
Definition north (ra dec : R) : vec := (- sin (rad dec) * cos (rad ra), - sin (rad dec) * sin (rad ra), cos (rad dec)).
(** Coordinates of the position (ra, dec) on the plane that touches the sky at the pointing, in degrees: the gnomonic projection,
    x along the direction that lies [turn] degrees from east (away from north), y perpendicular to it. *)
Definition ahead (ra dec cra cdec : R) : R := dot (unit_vec ra dec) (unit_vec cra cdec).
Definition plane_x (ra dec cra cdec turn : R) : R :=
  deg ((cos (rad turn) * dot (unit_vec ra dec) (east cra cdec) - sin (rad turn) * dot (unit_vec ra dec) (north cra cdec)) / ahead ra dec cra cdec).
Definition plane_y (ra dec cra cdec turn : R) : R :=
  deg ((sin (rad turn) * dot (unit_vec ra dec) (east cra cdec) + cos (rad turn) * dot (unit_vec ra dec) (north cra cdec)) / ahead ra dec cra cdec).
(** The pixel scale is measured over one arc second, not in the limit: sizes are stretched by tan(1'') / 1''. *)
Definition stretch : R := tan (rad arcsec) / rad arcsec.
Definition turn_of (rotation : option R) : R := match rotation with None => 0 | Some r => r end.

(** ** Angles *)
Lemma sin2cos2 : forall t, sin t * sin t + cos t * cos t = 1.
Proof. intros t. pose proof (sin2_cos2 t) as H. unfold Rsqr in H. exact H. Qed.
Lemma rad_deg : forall a, rad (deg a) = a.
Proof. intros a. unfold rad, deg. field. apply PI_neq0. Qed.
Lemma deg_rad : forall a, deg (rad a) = a.
Proof. intros a. unfold rad, deg. field. apply PI_neq0. Qed.
Lemma atan2_polar : forall y x, sqrt (x * x + y * y) * cos (atan2 y x) = x /\ sqrt (x * x + y * y) * sin (atan2 y x) = y.
Proof.
  intros y x. pose proof PI_RGT_0 as PP.
  assert (NZ : x <> 0 -> sqrt (x * x + y * y) * cos (atan (y / x)) = Rabs x /\ sqrt (x * x + y * y) * sin (atan (y / x)) = Rabs x * (y / x)).
  { intros HX. assert (S2 : sqrt (1 + Rsqr (y / x)) = sqrt (x * x + y * y) / Rabs x).
    { rewrite <- (sqrt_Rsqr_abs x). rewrite <- sqrt_div_alt by (unfold Rsqr; nra). f_equal. unfold Rsqr. field. auto. }
    assert (AX : 0 < Rabs x) by now apply Rabs_pos_lt.
    assert (RP : 0 < sqrt (x * x + y * y)). { apply sqrt_lt_R0. assert (0 < x * x) by (destruct (Rdichotomy _ _ HX); nra). nra. }
    rewrite cos_atan, sin_atan, S2. split; field; split; try lra; auto. }
  unfold atan2. destruct (Rltb 0 x) eqn:E1; [apply Rltb_true in E1|apply Rltb_false in E1].
  - destruct (NZ ltac:(lra)) as [A B]. rewrite A, B, Rabs_right by lra. split; [auto|field; lra].
  - destruct (Rltb x 0) eqn:E2; [apply Rltb_true in E2|apply Rltb_false in E2].
    + destruct (NZ ltac:(lra)) as [A B]. rewrite Rabs_left in A, B by lra.
      destruct (Rleb 0 y).
      * rewrite neg_cos, neg_sin. split; [lra|]. rewrite Ropp_mult_distr_r_reverse, B. field. lra.
      * unfold Rminus. rewrite cos_plus, sin_plus. rewrite cos_neg, sin_neg, cos_PI, sin_PI.
        split; [transitivity (- (sqrt (x * x + y * y) * cos (atan (y / x)))); [ring|rewrite A; ring]|].
        transitivity (- (sqrt (x * x + y * y) * sin (atan (y / x)))); [ring|rewrite B; field; lra].
    + assert (x = 0) by lra. subst x. replace (0 * 0 + y * y) with (Rsqr y) by (unfold Rsqr; ring). rewrite sqrt_Rsqr_abs.
      destruct (Rltb 0 y) eqn:E3; [apply Rltb_true in E3|apply Rltb_false in E3].
      * rewrite cos_PI2, sin_PI2, Rabs_right by lra. split; ring.
      * destruct (Rltb y 0) eqn:E4; [apply Rltb_true in E4|apply Rltb_false in E4].
        -- rewrite cos_neg, sin_neg, cos_PI2, sin_PI2, Rabs_left by lra. split; ring.
        -- assert (y = 0) by lra. subst y. rewrite Rabs_R0. split; ring.
Qed.
Lemma atan2_range : forall y x, - PI <= atan2 y x <= PI.
Proof.
  intros y x. pose proof PI_RGT_0 as PP. pose proof (atan_bound (y / x)) as [B1 B2]. unfold atan2.
  destruct (Rltb 0 x) eqn:E1; [lra|]. destruct (Rltb x 0) eqn:E2.
  - apply Rltb_true in E2. destruct (Rleb 0 y) eqn:E3; [apply Rleb_true in E3|apply Rleb_false in E3].
    + assert (y / x <= 0). { unfold Rdiv. assert (/ x < 0) by now apply Rinv_lt_0_compat. nra. }
      assert (atan (y / x) <= 0). { rewrite <- atan_0. destruct H as [H|H]; [left; now apply atan_increasing|rewrite H; right; auto]. } lra.
    + assert (0 < y / x). { unfold Rdiv. assert (/ x < 0) by now apply Rinv_lt_0_compat. nra. }
      assert (0 < atan (y / x)). { rewrite <- atan_0. now apply atan_increasing. } lra.
  - destruct (Rltb 0 y); [lra|]. destruct (Rltb y 0); lra.
Qed.
Lemma atan2_right : forall y x, 0 <= x -> - (PI / 2) <= atan2 y x <= PI / 2.
Proof.
  intros y x H. pose proof PI_RGT_0 as PP. pose proof (atan_bound (y / x)) as [B1 B2]. unfold atan2.
  destruct (Rltb 0 x) eqn:E1; [lra|]. destruct (Rltb x 0) eqn:E2; [apply Rltb_true in E2; lra|].
  destruct (Rltb 0 y); [lra|]. destruct (Rltb y 0); lra.
Qed.
Lemma unit_norm : forall a b, dot (unit_vec a b) (unit_vec a b) = 1.
Proof.
  intros a b. unfold dot, unit_vec. pose proof (sin2cos2 (rad a)) as A. pose proof (sin2cos2 (rad b)) as B.
  transitivity (cos (rad b) * cos (rad b) * (sin (rad a) * sin (rad a) + cos (rad a) * cos (rad a)) + sin (rad b) * sin (rad b)); [ring|]. rewrite A. lra.
Qed.
(** The offset frame: components along the pointing, and along the turned east and north directions. *)
Lemma offset_components : forall ra dec cra cdec r,
  to_offset (rad cra) (rad cdec) (rad r) (unit_vec ra dec) =
  (ahead ra dec cra cdec,
   cos (rad r) * dot (unit_vec ra dec) (east cra cdec) - sin (rad r) * dot (unit_vec ra dec) (north cra cdec),
   sin (rad r) * dot (unit_vec ra dec) (east cra cdec) + cos (rad r) * dot (unit_vec ra dec) (north cra cdec)).
Proof.
  intros. unfold to_offset, ahead. destruct (unit_vec ra dec) as [[x y] z]. unfold unit_vec, east, north, dot, rot_z, rot_y, rot_x.
  rewrite !cos_neg, !sin_neg. f_equal; [f_equal|]; ring.
Qed.
Lemma offset_norm : forall a b c v, dot (to_offset a b c v) (to_offset a b c v) = dot v v.
Proof.
  intros a b c [[x y] z]. unfold to_offset, rot_z, rot_y, rot_x, dot. rewrite !cos_neg, !sin_neg.
  pose proof (sin2cos2 a) as A. pose proof (sin2cos2 b) as B. pose proof (sin2cos2 c) as C.
  set (sa := sin a) in *. set (ca := cos a) in *. set (sb := sin b) in *. set (cb := cos b) in *. set (sc := sin c) in *. set (cc := cos c) in *.
  set (X := ca * x + sa * y). set (Y := - sa * x + ca * y).
  transitivity (X * X * (sb * sb + cb * cb) * 1 + z * z * (sb * sb + cb * cb) * 1 + Y * Y * 1 + ((sc * sc + cc * cc) - 1) * (Y * Y + (- sb * X + cb * z) * (- sb * X + cb * z))); [ring|].
  rewrite B, C. unfold X, Y. transitivity ((sa * sa + ca * ca) * (x * x + y * y) + z * z); [ring|]. rewrite A. ring.
Qed.
(** Longitude and latitude returned by rotate_to_center denote the rotated direction. *)
Lemma rotate_spec : forall ra dec cra cdec rot lon lat, rotate_to_center ra dec cra cdec rot = (lon, lat) ->
  unit_vec lon lat = to_offset (rad cra) (rad cdec) (rad (turn_of rot)) (unit_vec ra dec).
Proof.
  intros ra dec cra cdec rot lon lat H. unfold rotate_to_center in H. fold (turn_of rot) in H.
  pose proof (offset_norm (rad cra) (rad cdec) (rad (turn_of rot)) (unit_vec ra dec)) as N. rewrite unit_norm in N.
  destruct (to_offset _ _ _ _) as [[x y] z]. unfold dot in N. pose proof PI_RGT_0 as PP.
  pose proof (atan2_range y x) as R1. pose proof (atan2_right z (sqrt (x * x + y * y)) (sqrt_pos _)) as R2.
  assert (D1 : deg (atan2 y x) <= 180). { unfold deg. apply Rmult_le_reg_r with PI; auto. unfold Rdiv. rewrite Rmult_assoc, Rinv_l by lra. nra. }
  assert (D2 : deg (atan2 z (sqrt (x * x + y * y))) <= 90). { unfold deg. apply Rmult_le_reg_r with PI; auto. unfold Rdiv. rewrite Rmult_assoc, Rinv_l by lra. nra. }
  replace (Rltb 180 (deg (atan2 y x))) with false in H by (symmetry; apply Rltb_false; lra).
  replace (Rltb 90 (deg (atan2 z (sqrt (x * x + y * y))))) with false in H by (symmetry; apply Rltb_false; lra).
  injection H as <- <-. unfold unit_vec. rewrite !rad_deg.
  destruct (atan2_polar y x) as [P1 P2]. destruct (atan2_polar z (sqrt (x * x + y * y))) as [Q1 Q2].
  assert (SQ : sqrt (sqrt (x * x + y * y) * sqrt (x * x + y * y) + z * z) = 1).
  { rewrite sqrt_sqrt by nra. replace (x * x + y * y + z * z) with 1 by lra. apply sqrt_1. }
  rewrite SQ, Rmult_1_l in Q1, Q2. rewrite Q1, Q2, P1, P2. reflexivity.
Qed.

(** ** Building *)
Lemma arcsec_angle : 0 < rad arcsec < 1 / 10000.
Proof. unfold rad, arcsec. pose proof PI_RGT_0. pose proof PI_4. lra. Qed.
Lemma cos_arcsec : 0 < cos (rad arcsec).
Proof. pose proof arcsec_angle. pose proof PI_RGT_0. pose proof PI2_1. apply cos_gt_0; lra. Qed.
Lemma sin_arcsec : 0 < sin (rad arcsec).
Proof. pose proof arcsec_angle. pose proof PI_RGT_0. pose proof PI2_1. apply sin_gt_0; lra. Qed.
Lemma stretch_pos : 0 < stretch.
Proof. unfold stretch, tan. pose proof arcsec_angle. pose proof cos_arcsec. pose proof sin_arcsec. apply Rdiv_lt_0_compat; [apply Rdiv_lt_0_compat; auto|lra]. Qed.
Lemma rad_0 : rad 0 = 0.
Proof. unfold rad. field. Qed.
Lemma sky_rect_pixels : forall ps w h a, 0 < ps ->
  sky_to_pixel_region (tan_pixel ps) w h a = Ok (PixRect (-1 / 2) (-1 / 2) (w * stretch / ps) (h * stretch / ps) (rad a)).
Proof.
  intros ps w h a Hp. pose proof arcsec_angle as AA. pose proof cos_arcsec as CA. pose proof sin_arcsec as SA. pose proof PI_RGT_0 as PP.
  unfold sky_to_pixel_region, tan_pixel, unit_vec. rewrite rad_0, cos_0, sin_0.
  replace (Rltb 0 (1 * 1)) with true by (symmetry; apply Rltb_true; lra).
  replace (Rltb 0 (cos (rad arcsec) * 1)) with true by (symmetry; apply Rltb_true; lra).
  set (T := sin (rad arcsec) / (cos (rad arcsec) * 1)).
  assert (TE : T = tan (rad arcsec)) by (unfold T, tan; f_equal; ring).
  assert (TP : 0 < T) by (unfold T; apply Rdiv_lt_0_compat; lra).
  assert (DP : 0 < deg T / ps). { unfold deg. apply Rdiv_lt_0_compat; auto. apply Rdiv_lt_0_compat; auto. nra. }
  replace (cos (rad arcsec) * 0 / (cos (rad arcsec) * 1)) with 0 by (field; lra). replace (1 * 0 / (1 * 1)) with 0 by field. replace (0 / (1 * 1)) with 0 by field.
  assert (D0 : deg 0 = 0) by (unfold deg; field; lra). rewrite D0.
  replace (0 / ps + (1 / 2 - 1)) with (-1 / 2) by (field; lra).
  replace (deg T / ps + (1 / 2 - 1) - -1 / 2) with (deg T / ps) by lra. replace (-1 / 2 - -1 / 2) with 0 by lra.
  replace (0 * 0 + deg T / ps * (deg T / ps)) with (Rsqr (deg T / ps)) by (unfold Rsqr; ring). rewrite sqrt_Rsqr by lra.
  assert (N : atan2 (deg T / ps) 0 = PI / 2).
  { unfold atan2. replace (Rltb 0 0) with false by (symmetry; apply Rltb_false; lra). replace (Rltb 0 (deg T / ps)) with true by (symmetry; apply Rltb_true; auto). reflexivity. }
  rewrite N. replace (rad a + (PI / 2 - PI / 2)) with (rad a) by ring.
  assert (K : forall q, q / (arcsec / (deg T / ps)) = q * stretch / ps).
  { intros q. unfold stretch. rewrite <- TE. unfold deg, rad, arcsec. field. repeat split; lra. }
  now rewrite !K.
Qed.
Lemma floor_le0 : forall x, x <= 0 -> (floor x <= 0)%Z.
Proof. intros x H. unfold floor. apply le_IZR. pose proof (base_Int_part x) as [A _]. simpl. lra. Qed.
Lemma ceil_ge0 : forall x, 0 <= x -> (0 <= ceil x)%Z.
Proof. intros x H. unfold ceil. assert (floor (- x) <= 0)%Z by (apply floor_le0; lra). unfold floor in *. lia. Qed.
Lemma sky_rect_built : forall w h a ps, 0 < ps ->
  foot_make (SkyRect w h a) None (Some ps) = Ok (mkFoot (PixRect (-1 / 2) (-1 / 2) (w * stretch / ps) (h * stretch / ps) (rad a)) (tan_pixel ps)).
Proof.
  intros w h a ps Hp. unfold foot_make. replace (Rleb ps 0) with false by (symmetry; apply Rleb_false; lra). cbn [bind]. rewrite sky_rect_pixels by auto. cbn [bind bounding_box].
  set (dx := Rmax _ _). set (dy := Rmax (Rabs (_ * sin _ + _)) _).
  assert (DX : 0 <= dx) by (unfold dx; eapply Rle_trans; [apply Rabs_pos|apply Rmax_l]).
  assert (DY : 0 <= dy) by (unfold dy; eapply Rle_trans; [apply Rabs_pos|apply Rmax_l]).
  repeat match goal with |- context[(floor ?x <=? 0)%Z] => replace (floor x <=? 0)%Z with true by (symmetry; apply Z.leb_le, floor_le0; lra) end.
  repeat match goal with |- context[(0 <=? ceil ?x)%Z] => replace (0 <=? ceil x)%Z with true by (symmetry; apply Z.leb_le, ceil_ge0; lra) end.
  reflexivity.
Qed.
(** A rectangle of positive size is accepted with any positive pixel scale; without a pixel scale (and WCS), or with one that is not
    positive, or with a size that is not positive, ValueError. *)
Theorem C81_from_rect : forall w h ps, 
  (0 < w -> 0 < h -> 0 < ps -> exists f, from_rect w h None (Some ps) = Ok f) /\
  from_rect w h None None = Err ValueError /\ (ps <= 0 -> from_rect w h None (Some ps) = Err ValueError) /\
  (forall wc p, w <= 0 \/ h <= 0 -> from_rect w h wc p = Err ValueError).
Proof.
  intros w h ps. unfold from_rect. split; [|split; [|split]].
  - intros H1 H2 H3. replace (Rleb w 0) with false by (symmetry; apply Rleb_false; lra). replace (Rleb h 0) with false by (symmetry; apply Rleb_false; lra). cbn [orb].
    rewrite sky_rect_built by auto. eauto.
  - destruct (_ || _)%bool; reflexivity.
  - intros H. destruct (_ || _)%bool; [reflexivity|]. unfold foot_make. replace (Rleb ps 0) with true by (symmetry; apply Rleb_true; lra). reflexivity.
  - intros wc p [H|H]; [replace (Rleb w 0) with true by (symmetry; apply Rleb_true; lra)|replace (Rleb h 0) with true by (symmetry; apply Rleb_true; lra); rewrite orb_true_r]; reflexivity.
Qed.
(** A pixel region whose bounding box misses the origin is refused. *)
Theorem C81_origin : forall test x1 x2 y1 y2 wc ps, (0 < ps ->
  (x1 <= 0 <= x2 /\ y1 <= 0 <= y2)%Z -> foot_make (Pix (PixOther test x1 x2 y1 y2)) None (Some ps) = Ok (mkFoot (PixOther test x1 x2 y1 y2) (tan_pixel ps))) /\
  (~ (x1 <= 0 <= x2 /\ y1 <= 0 <= y2)%Z -> foot_make (Pix (PixOther test x1 x2 y1 y2)) (Some wc) None = Err ValueError).
Proof.
  intros. split.
  - intros Hp H. unfold foot_make. replace (Rleb ps 0) with false by (symmetry; apply Rleb_false; lra). cbn [bind bounding_box].
    replace ((x1 <=? 0) && (0 <=? x2) && (y1 <=? 0) && (0 <=? y2))%Z with true; auto. symmetry. rewrite !andb_true_iff, !Z.leb_le. lia.
  - intros H. unfold foot_make. cbn [bind bounding_box]. replace ((x1 <=? 0) && (0 <=? x2) && (y1 <=? 0) && (0 <=? y2))%Z with false; auto.
    symmetry. apply not_true_iff_false. rewrite !andb_true_iff, !Z.leb_le. lia.
Qed.

(** ** Containment *)
Lemma deg_lin : forall a b x y, a * deg x + b * deg y = deg (a * x + b * y).
Proof. intros. unfold deg, Rdiv. ring. Qed.
Lemma sky_rect_test : forall w h a ps ra dec cra cdec rot f, 0 < ps -> foot_make (SkyRect w h a) None (Some ps) = Ok f ->
  (foot_test f ra dec cra cdec rot = true <->
   0 < ahead ra dec cra cdec /\ Rabs (plane_x ra dec cra cdec (turn_of rot - a)) < stretch * w / 2 /\ Rabs (plane_y ra dec cra cdec (turn_of rot - a)) < stretch * h / 2).
Proof.
  intros w h a ps ra dec cra cdec rot f Hp HF. rewrite sky_rect_built in HF by auto. injection HF as <-.
  unfold foot_test. destruct (rotate_to_center ra dec cra cdec rot) as [lon lat] eqn:E. apply rotate_spec in E. cbn [df_region df_wcs]. unfold tan_pixel. rewrite E, offset_components.
  unfold plane_x, plane_y. set (X := ahead ra dec cra cdec). set (e := dot _ (east cra cdec)). set (n := dot _ (north cra cdec)). set (r := turn_of rot).
  destruct (Rltb 0 X) eqn:EX; [apply Rltb_true in EX|apply Rltb_false in EX].
  2:{ split; [discriminate|intros [H _]; lra]. }
  cbn [pix_contains]. rewrite andb_true_iff, !Rltb_true.
  replace (rad (r - a)) with (rad r - rad a) by (unfold rad; field). rewrite cos_minus, sin_minus.
  set (cr := cos (rad r)). set (sr := sin (rad r)). set (ca := cos (rad a)). set (sa := sin (rad a)).
  replace (ca * (deg ((cr * e - sr * n) / X) / ps + (1 / 2 - 1) - -1 / 2) + sa * (deg ((sr * e + cr * n) / X) / ps + (1 / 2 - 1) - -1 / 2))
    with (deg (((cr * ca + sr * sa) * e - (sr * ca - cr * sa) * n) / X) / ps).
  2:{ unfold deg. field. pose proof PI_neq0. repeat match goal with |- _ /\ _ => split end; auto; lra. }
  replace (sa * (deg ((cr * e - sr * n) / X) / ps + (1 / 2 - 1) - -1 / 2) - ca * (deg ((sr * e + cr * n) / X) / ps + (1 / 2 - 1) - -1 / 2))
    with (- (deg (((sr * ca - cr * sa) * e + (cr * ca + sr * sa) * n) / X) / ps)).
  2:{ unfold deg. field. pose proof PI_neq0. repeat match goal with |- _ /\ _ => split end; auto; lra. }
  rewrite Rabs_Ropp.
  assert (M : forall u q, Rabs (u / ps) < q * stretch / ps * (1 / 2) <-> Rabs u < stretch * q / 2).
  { intros u q. unfold Rdiv at 1. rewrite Rabs_mult, (Rabs_right (/ ps)) by (apply Rle_ge, Rlt_le, Rinv_0_lt_compat; auto).
    assert (IP : 0 < / ps) by now apply Rinv_0_lt_compat. replace (q * stretch / ps * (1 / 2)) with (stretch * q / 2 * / ps) by (field; lra).
    split; intros H; [eapply Rmult_lt_reg_r; eauto|now apply Rmult_lt_compat_r]. }
  rewrite !M. tauto.
Qed.
(** A position is in a rectangular footprint exactly if it lies on the pointing's side of the sky and its gnomonic projection, in
    the detector's own axes, is within half the width and half the height (strictly). *)
Theorem C81_contains : forall w h ps f ra dec cra cdec rot, from_rect w h None (Some ps) = Ok f ->
  (foot_test f ra dec cra cdec rot = true <->
   0 < ahead ra dec cra cdec /\ Rabs (plane_x ra dec cra cdec (turn_of rot)) < stretch * w / 2 /\ Rabs (plane_y ra dec cra cdec (turn_of rot)) < stretch * h / 2).
Proof.
  intros w h ps f ra dec cra cdec rot H. unfold from_rect in H. destruct (_ || _)%bool; [discriminate|].
  assert (Hp : 0 < ps). { unfold foot_make in H. destruct (Rleb ps 0) eqn:E; [discriminate|]. now apply Rleb_false in E. }
  rewrite (sky_rect_test w h 0 ps ra dec cra cdec rot f Hp H). replace (turn_of rot - 0) with (turn_of rot) by ring. tauto.
Qed.
(** The stretch is negligible: more than 1 (so everything within the nominal size is inside), less than 1 + 1e-8. *)
Theorem C81_stretch : 1 <= stretch < 1 + 1 / 100000000.
Proof.
  pose proof arcsec_angle as AA. pose proof cos_arcsec as CA. unfold stretch, tan. set (t := rad arcsec) in *. assert (PP := PI2_1).
  assert (S1 : sin t <= t) by (apply Rlt_le, sin_lt_x; lra).
  assert (SB : t - t * t * t / 6 <= sin t).
  { pose proof (sin_bound t 0 ltac:(lra) ltac:(lra)) as [L _]. unfold sin_approx, sin_term in L. simpl in L. lra. }
  assert (CB : 1 - t * t / 2 <= cos t <= 1 - t * t / 2 + t * t * t * t / 24).
  { pose proof (cos_bound t 0 ltac:(lra) ltac:(lra)) as [L U]. unfold cos_approx, cos_term in L, U. simpl in L, U. lra. }
  split.
  - apply Rmult_le_reg_r with (cos t * t); [nra|]. replace (sin t / cos t / t * (cos t * t)) with (sin t) by (field; lra).
    assert (cos t * t <= (1 - t * t / 2 + t * t * t * t / 24) * t) by (apply Rmult_le_compat_r; lra).
    assert (0 <= t * t * t) by nra. assert (t * t * t * (t * t) <= t * t * t) by nra. nra.
  - apply Rmult_lt_reg_r with (cos t * t); [nra|]. replace (sin t / cos t / t * (cos t * t)) with (sin t) by (field; lra).
    assert (TT : t * t < 1 / 100000000) by nra. assert ((1 - t * t / 2) * t <= cos t * t) by (apply Rmult_le_compat_r; lra). nra.
Qed.
(** The pointing itself is always inside; so is, for pointings in the middle of the sky, everything the nominal rectangle covers. *)
Lemma ahead_centre : forall cra cdec, ahead cra cdec cra cdec = 1 /\ dot (unit_vec cra cdec) (east cra cdec) = 0 /\ dot (unit_vec cra cdec) (north cra cdec) = 0.
Proof.
  intros. split; [apply unit_norm|]. unfold dot, unit_vec, east, north. split; [ring|].
  pose proof (sin2cos2 (rad cra)) as A. transitivity (cos (rad cdec) * sin (rad cdec) * (1 - (sin (rad cra) * sin (rad cra) + cos (rad cra) * cos (rad cra)))); [ring|]. rewrite A. ring.
Qed.
Theorem C81_centre : forall w h ps f cra cdec rot, from_rect w h None (Some ps) = Ok f -> foot_test f cra cdec cra cdec rot = true.
Proof.
  intros w h ps f cra cdec rot H. apply (C81_contains _ _ _ _ _ _ _ _ _ H). destruct (ahead_centre cra cdec) as (A & B & C). unfold plane_x, plane_y. rewrite A, B, C.
  assert (W : 0 < w /\ 0 < h). { unfold from_rect in H. destruct (Rleb w 0) eqn:E1; [discriminate|]. destruct (Rleb h 0) eqn:E2; [discriminate|]. apply Rleb_false in E1, E2. auto. }
  pose proof stretch_pos. assert (Z : forall a b, deg ((a * 0 - b * 0) / 1) = 0 /\ deg ((a * 0 + b * 0) / 1) = 0) by (intros; unfold deg; split; field; apply PI_neq0).
  destruct (Z (cos (rad (turn_of rot))) (sin (rad (turn_of rot)))) as [Z1 _]. destruct (Z (sin (rad (turn_of rot))) (cos (rad (turn_of rot)))) as [_ Z2].
  rewrite Z1, Z2, Rabs_R0. split; [lra|]. split; apply Rdiv_lt_0_compat; try lra; apply Rmult_lt_0_compat; tauto.
Qed.
(** The pixel scale is irrelevant for a footprint given in degrees. *)
Theorem C81_pixel_scale : forall w h a ps ps' f f' ra dec cra cdec rot, 0 < ps -> 0 < ps' ->
  foot_make (SkyRect w h a) None (Some ps) = Ok f -> foot_make (SkyRect w h a) None (Some ps') = Ok f' ->
  foot_test f ra dec cra cdec rot = foot_test f' ra dec cra cdec rot.
Proof.
  intros w h a ps ps' f f' ra dec cra cdec rot Hp Hp' H H'. apply eq_true_iff_eq.
  rewrite (sky_rect_test _ _ _ _ _ _ _ _ rot _ Hp H), (sky_rect_test _ _ _ _ _ _ _ _ rot _ Hp' H'). tauto.
Qed.
(** A sky rectangle drawn at an angle is the upright one with the detector turned back by that angle. *)
Theorem C81_region_angle : forall w h a ps f f' ra dec cra cdec rot, 0 < ps ->
  foot_make (SkyRect w h a) None (Some ps) = Ok f -> foot_make (SkyRect w h 0) None (Some ps) = Ok f' ->
  foot_test f ra dec cra cdec rot = foot_test f' ra dec cra cdec (Some (turn_of rot - a)).
Proof.
  intros w h a ps f f' ra dec cra cdec rot Hp H H'. apply eq_true_iff_eq.
  rewrite (sky_rect_test _ _ _ _ _ _ _ _ rot _ Hp H), (sky_rect_test _ _ _ _ _ _ _ _ _ _ Hp H'). cbn [turn_of].
  replace (turn_of rot - a - 0) with (turn_of rot - a) by ring. tauto.
Qed.
(** Rotating by 180 degrees changes nothing, by 90 degrees exchanges width and height, by 360 degrees nothing; no rotation is
    rotation 0. *)
Lemma rad_plus : forall a b, rad (a + b) = rad a + rad b.
Proof. intros. unfold rad. field. Qed.
Theorem C81_half_turn : forall w h ps f ra dec cra cdec r, from_rect w h None (Some ps) = Ok f ->
  foot_test f ra dec cra cdec (Some (r + 180)) = foot_test f ra dec cra cdec (Some r) /\
  foot_test f ra dec cra cdec (Some 0) = foot_test f ra dec cra cdec None.
Proof.
  intros w h ps f ra dec cra cdec r H. split; [|reflexivity]. apply eq_true_iff_eq. rewrite !(C81_contains _ _ _ _ _ _ _ _ _ H). cbn [turn_of]. unfold plane_x, plane_y.
  rewrite rad_plus. replace (rad 180) with PI by (unfold rad; field). rewrite neg_cos, neg_sin.
  set (c := cos (rad r)). set (s := sin (rad r)). set (e := dot _ (east _ _)). set (n := dot _ (north _ _)). set (X := ahead _ _ _ _).
  replace (deg ((- c * e - - s * n) / X)) with (- deg ((c * e - s * n) / X)) by (unfold deg, Rdiv; ring).
  replace (deg ((- s * e + - c * n) / X)) with (- deg ((s * e + c * n) / X)) by (unfold deg, Rdiv; ring).
  rewrite !Rabs_Ropp. tauto.
Qed.
Theorem C81_quarter_turn : forall w h ps f f' ra dec cra cdec r, from_rect w h None (Some ps) = Ok f -> from_rect h w None (Some ps) = Ok f' ->
  foot_test f ra dec cra cdec (Some (r + 90)) = foot_test f' ra dec cra cdec (Some r).
Proof.
  intros w h ps f f' ra dec cra cdec r H H'. apply eq_true_iff_eq. rewrite (C81_contains _ _ _ _ _ _ _ _ _ H), (C81_contains _ _ _ _ _ _ _ _ _ H'). cbn [turn_of]. unfold plane_x, plane_y.
  rewrite rad_plus. replace (rad 90) with (PI / 2) by (unfold rad; field). rewrite cos_plus, sin_plus, cos_PI2, sin_PI2.
  set (c := cos (rad r)). set (s := sin (rad r)). set (e := dot _ (east _ _)). set (n := dot _ (north _ _)). set (X := ahead _ _ _ _).
  replace (deg (((c * 0 - s * 1) * e - (s * 0 + c * 1) * n) / X)) with (- deg ((s * e + c * n) / X)) by (unfold deg, Rdiv; ring).
  replace (deg (((s * 0 + c * 1) * e + (c * 0 - s * 1) * n) / X)) with (deg ((c * e - s * n) / X)) by (unfold deg, Rdiv; ring).
  rewrite !Rabs_Ropp. tauto.
Qed.
(** Only the position relative to the pointing matters in right ascension; whole turns do not matter. *)
Theorem C81_right_ascension : forall w h ps f ra dec cra cdec rot d, from_rect w h None (Some ps) = Ok f ->
  foot_test f (ra + d) dec (cra + d) cdec rot = foot_test f ra dec cra cdec rot /\
  foot_test f (ra + 360) dec cra cdec rot = foot_test f ra dec cra cdec rot /\ foot_test f ra dec (cra + 360) cdec rot = foot_test f ra dec cra cdec rot.
Proof.
  intros w h ps f ra dec cra cdec rot d H.
  assert (A : forall ra dec cra cdec, ahead ra dec cra cdec = cos (rad dec) * cos (rad cdec) * cos (rad ra - rad cra) + sin (rad dec) * sin (rad cdec)).
  { intros. unfold ahead, dot, unit_vec. rewrite cos_minus. ring. }
  assert (E : forall ra dec cra cdec, dot (unit_vec ra dec) (east cra cdec) = cos (rad dec) * sin (rad ra - rad cra)).
  { intros. unfold dot, unit_vec, east. rewrite sin_minus. ring. }
  assert (N : forall ra dec cra cdec, dot (unit_vec ra dec) (north cra cdec) = - cos (rad dec) * sin (rad cdec) * cos (rad ra - rad cra) + sin (rad dec) * cos (rad cdec)).
  { intros. unfold dot, unit_vec, north. rewrite cos_minus. ring. }
  assert (T2 : rad 360 = 2 * PI) by (unfold rad; field).
  split; [|split]; apply eq_true_iff_eq; rewrite !(C81_contains _ _ _ _ _ _ _ _ _ H); unfold plane_x, plane_y; rewrite !A, !E, !N, !rad_plus.
  - replace (rad ra + rad d - (rad cra + rad d)) with (rad ra - rad cra) by ring. tauto.
  - rewrite T2. replace (rad ra + 2 * PI - rad cra) with (rad ra - rad cra + 2 * PI) by ring. rewrite sin_plus, cos_plus, sin_2PI, cos_2PI.
    replace (cos (rad ra - rad cra) * 1 - sin (rad ra - rad cra) * 0) with (cos (rad ra - rad cra)) by ring.
    replace (sin (rad ra - rad cra) * 1 + cos (rad ra - rad cra) * 0) with (sin (rad ra - rad cra)) by ring. tauto.
  - rewrite T2. replace (rad ra - (rad cra + 2 * PI)) with (rad ra - rad cra - 2 * PI) by ring. rewrite sin_minus, cos_minus, sin_2PI, cos_2PI.
    replace (cos (rad ra - rad cra) * 1 + sin (rad ra - rad cra) * 0) with (cos (rad ra - rad cra)) by ring.
    replace (sin (rad ra - rad cra) * 1 - cos (rad ra - rad cra) * 0) with (sin (rad ra - rad cra)) by ring. tauto.
Qed.
