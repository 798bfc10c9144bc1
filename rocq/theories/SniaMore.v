(** C84: positions of supernovae at a physical distance from their host (SNCoordGivenPhysicalSep). *)
From Coq Require Import Reals String List Bool Arith ZArith Lia Lra.
From Verif Require Import Base BaseFacts RealBase SurveyModel ObsTableModel ObsTableProps FootprintModel FootprintProps FootprintMore ScipyModel SniaModel SniaProps.
Import ListNotations.
Open Scope R_scope.

Lemma trig_turns : forall x (k : Z), cos (x + 2 * IZR k * PI) = cos x /\ sin (x + 2 * IZR k * PI) = sin x.
Proof.
  intros x k. destruct (Z_le_dec 0 k) as [P|N].
  - rewrite <- (Z2Nat.id k P), <- INR_IZR_INZ. split; [apply cos_period|apply sin_period].
  - set (j := Z.to_nat (- k)). assert (E : IZR k = - INR j). { unfold j. rewrite INR_IZR_INZ, Z2Nat.id by lia. rewrite opp_IZR. ring. }
    rewrite E. set (y := x + 2 * - INR j * PI). replace x with (y + 2 * INR j * PI) by (unfold y; ring). now rewrite cos_period, sin_period.
Qed.
Lemma wrap360_range : forall d, 0 <= wrap360 d < 360.
Proof.
  intros d. unfold wrap360. destruct (base_Int_part (d / 360)) as [A B]. set (k := IZR (Int_part (d / 360))) in *.
  assert (E : d = 360 * (d / 360)) by field. set (q := d / 360) in *. lra.
Qed.
Lemma wrap360_trig : forall d, cos (rad (wrap360 d)) = cos (rad d) /\ sin (rad (wrap360 d)) = sin (rad d).
Proof.
  intros d. destruct (trig_turns (rad (wrap360 d)) (Int_part (d / 360))) as [C S].
  replace (rad (wrap360 d) + 2 * IZR (Int_part (d / 360)) * PI) with (rad d) in C, S by (unfold wrap360, rad; field). auto.
Qed.
Lemma sin2 : forall x, sin x * sin x = 1 - cos x * cos x.
Proof. intros x. pose proof (sin2cos2 x). lra. Qed.
(** The sines below which astropy treats a position as a pole. *)
Definition tiny : R := / 10 ^ 12.
Lemma tiny_pos : 0 < tiny.
Proof. apply Rinv_0_lt_compat, pow_lt. lra. Qed.
Definition away_from_poles (dec : R) : Prop := tiny <= cos (rad dec).
Definition at_pole (dec : R) : Prop := dec = 90 \/ dec = -90.

Lemma cos_b_bounds : forall c s ca sa cB sB : R, s * s + c * c = 1 -> sa * sa + ca * ca = 1 -> sB * sB + cB * cB = 1 ->
  (c * ca + s * sa * cB) * (c * ca + s * sa * cB) + (sa * sB) * (sa * sB) + (s * ca - c * sa * cB) * (s * ca - c * sa * cB) = 1.
Proof.
  intros c s ca sa cB sB H1 H2 H3.
  transitivity ((c * c + s * s) * (ca * ca) + (s * s + c * c) * (sa * sa) * (cB * cB) + sa * sa * (sB * sB)); [ring|].
  replace (c * c + s * s) with 1 by lra. rewrite H1. replace (sB * sB) with (1 - cB * cB) by lra. replace (ca * ca) with (1 - sa * sa) by lra. ring.
Qed.
Lemma sq_bound : forall b r, b * b + r = 1 -> 0 <= r -> -1 <= b <= 1.
Proof.
  intros b r H Hr. assert (B : Rabs b <= Rabs 1). { apply Rsqr_le_abs_0. unfold Rsqr. lra. } rewrite Rabs_R1 in B. now apply Rabs_le_between in B || (unfold Rabs in B; destruct (Rcase_abs b); lra).
Qed.
(** The point at distance [dist] in the direction [pa]. *)
Theorem C84_offset : forall ra dec pa d, away_from_poles dec \/ (at_pole dec /\ 0 <= d <= 180) ->
  let '(ra', dec') := offset_by (rad ra) (rad dec) (rad pa) (rad d) in
  unit_vec ra' dec' = at_angle ra dec d pa /\ 0 <= ra' < 360 /\ -90 <= dec' <= 90.
Proof.
  intros ra dec pa d HP. unfold offset_by.
  set (c := sin (rad dec)). set (s := cos (rad dec)). set (ca := cos (rad d)). set (sa := sin (rad d)). set (cB := cos (rad pa)). set (sB := sin (rad pa)).
  assert (H1 : s * s + c * c = 1) by (unfold s, c; pose proof (sin2cos2 (rad dec)); lra).
  assert (H2 : sa * sa + ca * ca = 1) by (unfold sa, ca; pose proof (sin2cos2 (rad d)); lra).
  assert (H3 : sB * sB + cB * cB = 1) by (unfold sB, cB; pose proof (sin2cos2 (rad pa)); lra).
  pose proof (cos_b_bounds c s ca sa cB sB H1 H2 H3) as NB. set (cb := c * ca + s * sa * cB) in *. set (e := sa * sB) in *. set (m := s * ca - c * sa * cB) in *.
  assert (EE : 0 <= e * e) by apply Rle_0_sqr. assert (MM : 0 <= m * m) by apply Rle_0_sqr.
  assert (BB : -1 <= cb <= 1) by (apply sq_bound with (e * e + m * m); lra).
  set (A := if Rltb s (/ 10 ^ 12) then _ else _). set (k := sqrt (1 - Rsqr cb)).
  assert (KK : k * k = e * e + m * m). { unfold k. rewrite sqrt_sqrt; unfold Rsqr; lra. }
  assert (K0 : 0 <= k) by apply sqrt_pos.
  assert (PA : k * cos A = m /\ k * sin A = e).
  { destruct HP as [HP|[HP HD]].
    - unfold A. replace (Rltb s (/ 10 ^ 12)) with false by (symmetry; apply Rltb_false; exact HP). assert (S0 : 0 < s) by (pose proof tiny_pos; unfold away_from_poles in HP; fold s in HP; lra).
      destruct (atan2_polar (e * s) (ca - cb * c)) as [P1 P2]. replace (ca - cb * c) with (s * m) in * by (unfold m, cb; replace (ca - (c * ca + s * sa * cB) * c) with (ca * (1 - c * c) - s * sa * cB * c) by ring; replace (1 - c * c) with (s * s) by lra; ring).
      replace (e * s) with (s * e) in * by ring.
      assert (SQ : sqrt (s * m * (s * m) + s * e * (s * e)) = s * k). { replace (s * m * (s * m) + s * e * (s * e)) with (s * s * (e * e + m * m)) by ring. rewrite <- KK. replace (s * s * (k * k)) with (s * k * (s * k)) by ring. apply sqrt_square. apply Rmult_le_pos; lra. }
      rewrite SQ in P1, P2. split; apply Rmult_eq_reg_l with s; lra.
    - assert (S0 : s = 0). { unfold s. destruct HP as [-> | ->]; unfold rad; [replace (90 * PI / 180) with (PI / 2) by field; apply cos_PI2|replace (-90 * PI / 180) with (- (PI / 2)) by field; rewrite cos_neg; apply cos_PI2]. }
      assert (RB : Rltb s (/ 10 ^ 12) = true). { apply Rltb_true. rewrite S0. apply tiny_pos. } unfold A. rewrite RB.
      assert (C1 : c = 1 \/ c = -1). { assert (Q : (c - 1) * (c + 1) = 0) by (rewrite S0 in H1; lra). apply Rmult_integral in Q. destruct Q; [left|right]; lra. }
      assert (AM : m = - c * (sa * cB)) by (unfold m; rewrite S0; ring).
      assert (KV : k = Rabs sa). { apply Rsqr_inj; [auto|apply Rabs_pos|]. unfold Rsqr. rewrite KK. rewrite <- Rabs_mult. rewrite (Rabs_pos_eq (sa * sa)) by apply Rle_0_sqr. unfold e. rewrite AM.
        assert (CC : c * c = 1) by (destruct C1 as [-> | ->]; ring). replace (sa * sB * (sa * sB) + - c * (sa * cB) * (- c * (sa * cB))) with (sa * sa * (sB * sB + c * c * (cB * cB))) by ring. rewrite CC, Rmult_1_l, H3. ring. }
      assert (SA : 0 <= sa). { unfold sa. apply sin_ge_0; unfold rad; pose proof PI_RGT_0; [|apply Rmult_le_reg_r with (180 / PI); [apply Rdiv_lt_0_compat; lra|]; field_simplify; lra]. assert (0 <= d * PI) by (apply Rmult_le_pos; lra). lra. }
      rewrite Rabs_pos_eq in KV by auto. rewrite KV, AM. unfold e, cB, sB. destruct C1 as [-> | ->].
      + replace (PI / 2 + 1 * (PI / 2 - rad pa)) with (PI - rad pa) by field. rewrite cos_minus, sin_minus, cos_PI, sin_PI. split; ring.
      + replace (PI / 2 + -1 * (PI / 2 - rad pa)) with (rad pa) by field. split; ring. }
  destruct PA as [PC PS]. split; [|split; [apply wrap360_range|]].
  - unfold unit_vec. destruct (wrap360_trig (deg (rad ra + A))) as [W1 W2]. rewrite W1, W2, !rad_deg. rewrite cos_asin, sin_asin by auto. fold k. rewrite cos_plus, sin_plus.
    unfold at_angle, vadd, vmul, unit_vec, north, east. fold c s ca sa cB sB. set (x := cos (rad ra)). set (y := sin (rad ra)).
    replace (k * (x * cos A - y * sin A)) with (x * (k * cos A) - y * (k * sin A)) by ring. replace (k * (y * cos A + x * sin A)) with (y * (k * cos A) + x * (k * sin A)) by ring. rewrite PC, PS.
    unfold m, e, cb. f_equal; [f_equal|]; ring.
  - pose proof (asin_bound cb) as [L U]. unfold deg. pose proof PI_RGT_0 as PP. split.
    + apply Rmult_le_reg_r with PI; auto. replace (asin cb * 180 / PI * PI) with (asin cb * 180) by (field; lra). lra.
    + apply Rmult_le_reg_r with PI; auto. replace (asin cb * 180 / PI * PI) with (asin cb * 180) by (field; lra). lra.
Qed.
Theorem C84_separation : forall ra dec pa d, away_from_poles dec \/ at_pole dec -> 0 <= d <= 180 ->
  let '(ra', dec') := offset_by (rad ra) (rad dec) (rad pa) (rad d) in separation ra dec ra' dec' = d.
Proof.
  intros ra dec pa d HP HD. pose proof (C84_offset ra dec pa d ltac:(tauto)) as O. destruct (offset_by _ _ _ _) as [ra' dec']. destruct O as (U & _).
  destruct (separation_cos ra' dec' ra dec) as [S1 S2]. unfold ahead in S2. rewrite U in S2. unfold at_angle in S2. destruct (frame_orthonormal ra dec) as (F1 & F2 & F3 & F4 & F5 & F6).
  rewrite !dot_lin, F1, (dot_comm (north ra dec)), (dot_comm (east ra dec)), F4, F5 in S2. replace (cos (rad d) * 1 + _) with (cos (rad d)) in S2 by ring.
  assert (RD : 0 <= rad d <= PI). { unfold rad. pose proof PI_RGT_0. assert (0 <= d * PI) by (apply Rmult_le_pos; lra). assert (d * PI <= 180 * PI) by (apply Rmult_le_compat_r; lra). lra. }
  assert (E : rad (separation ra dec ra' dec') = rad d). { rewrite <- (acos_cos (rad (separation ra dec ra' dec'))) by auto. rewrite S2. now apply acos_cos. }
  rewrite <- (deg_rad (separation ra dec ra' dec')), E. apply deg_rad.
Qed.
Lemma angular_distance_pos : forall h om z, 0 < h -> 0 <= om <= 1 -> 0 < z -> 0 < angular_diameter_distance h om z.
Proof.
  intros h om z Hh Ho Hz. unfold angular_diameter_distance. apply Rdiv_lt_0_compat; [|lra]. rewrite <- (comoving_0 h om). apply comoving_increasing; auto; lra.
Qed.
(** The angle (radians) seen at redshift z by the separation (kpc): at most half a turn, else the supernova would be beyond the antipode. *)
Definition visible (h om sep z : R) : Prop := 0 <= sep /\ sep / 1000 <= PI * angular_diameter_distance h om z.
Theorem C84_position : forall h om ra dec sep z u, 0 < h -> 0 <= om <= 1 -> 0 < z -> visible h om sep z -> away_from_poles dec \/ at_pole dec ->
  exists ra' dec', sn_position h om ra dec sep z u = Some (ra', dec') /\ 0 <= ra' < 360 /\ -90 <= dec' <= 90 /\
  rad (separation ra dec ra' dec') * angular_diameter_distance h om z = sep / 1000 /\
  unit_vec ra' dec' = at_angle ra dec (separation ra dec ra' dec') (360 * u).
Proof.
  intros h om ra dec sep z u Hh Ho Hz [V1 V2] HP. pose proof (angular_distance_pos h om z Hh Ho Hz) as D. set (da := angular_diameter_distance h om z) in *.
  unfold sn_position, angular_sep. fold da. destruct (Reqb da 0) eqn:E; [apply Reqb_true in E; lra|]. cbn [option_map]. set (a := sep / 1000 / da).
  assert (A : 0 <= deg a <= 180).
  { assert (A0 : 0 <= a) by (unfold a, Rdiv; apply Rmult_le_pos; [lra|]; left; now apply Rinv_0_lt_compat).
    assert (A1 : a <= PI). { unfold a. apply Rmult_le_reg_r with da; auto. replace (sep / 1000 / da * da) with (sep / 1000) by (field; lra). exact V2. }
    pose proof PI_RGT_0 as PP. unfold deg. split; [unfold Rdiv; apply Rmult_le_pos; [lra|]; left; now apply Rinv_0_lt_compat|].
    apply Rmult_le_reg_r with PI; auto. replace (a * 180 / PI * PI) with (a * 180) by (field; lra). lra. }
  replace (2 * PI * u) with (rad (360 * u)) by (unfold rad; field). rewrite <- (rad_deg a).
  pose proof (C84_offset ra dec (360 * u) (deg a) ltac:(tauto)) as O. pose proof (C84_separation ra dec (360 * u) (deg a) HP A) as S. destruct (offset_by _ _ _ _) as [ra' dec'].
  destruct O as (U & R1 & R2). exists ra', dec'. rewrite S. split; [reflexivity|]. split; [exact R1|]. split; [exact R2|]. split; [|exact U]. rewrite rad_deg. unfold a. field. lra.
Qed.
Lemma combine_nth_error : forall {A B} (l : list A) (m : list B) i x u, nth_error l i = Some x -> nth_error m i = Some u -> nth_error (combine l m) i = Some (x, u).
Proof.
  intros A B l. induction l as [|y l IH]; intros m i x u Hx U; [destruct i; discriminate|]. destruct m as [|v m]; [destruct i; discriminate|]. destruct i as [|i]; simpl in *; [congruence|]. auto.
Qed.
(** The node: object i is placed around host i, in the direction given by the i-th of the next numbers of numpy's global generator. *)
Theorem C84_objects : forall h om hosts given glob l glob', sn_compute h om hosts given glob = (Ok l, glob') ->
  length l = length hosts /\ glob' = mkGen (g_stream glob) (g_pos glob + length hosts) /\
  forall i x, nth_error hosts i = Some x ->
    -90 <= ho_dec x <= 90 /\ nth_error l i = Some (sn_position h om (ho_ra x) (ho_dec x) (ho_sep x) (ho_z x) (g_stream glob (g_pos glob + i))).
Proof.
  intros h om hosts given glob l glob' H. unfold sn_compute in H. destruct (existsb _ hosts) eqn:E; [discriminate|]. unfold take in H. apply pair_equal_spec in H. destruct H as [H <-]. injection H as <-.
  assert (LU : length (map (fun i : nat => g_stream glob (g_pos glob + i)%nat) (seq 0 (length hosts))) = length hosts) by (rewrite map_length; apply seq_length).
  set (us := map _ (seq 0 _)) in *. split. { rewrite map_length, combine_length, LU. lia. } split; [reflexivity|].
  intros i x Hx. split.
  - rewrite <- Bool.not_true_iff_false in E. assert (Q : (Rltb (ho_dec x) (-90) || Rltb 90 (ho_dec x))%bool <> true).
    { intros Q. apply E. apply existsb_exists. exists x. split; [now apply nth_error_In with i|exact Q]. }
    rewrite Bool.orb_true_iff in Q. split; apply Rnot_lt_le; intros L; apply Q; [left|right]; now apply Rltb_true.
  - assert (L : (i < length hosts)%nat) by (apply nth_error_Some; congruence).
    assert (U : nth_error us i = Some (g_stream glob (g_pos glob + i)%nat)). { unfold us. rewrite nth_error_map, (nth_error_nth' _ 0%nat) by now rewrite seq_length. rewrite seq_nth by auto. reflexivity. }
    assert (C : nth_error (combine hosts us) i = Some (x, g_stream glob (g_pos glob + i)%nat)).
    { now apply combine_nth_error. }
    rewrite nth_error_map, C. reflexivity.
Qed.
Theorem C84_errors : forall h om hosts given glob,
  ((exists x, In x hosts /\ (ho_dec x < -90 \/ 90 < ho_dec x)) <-> sn_compute h om hosts given glob = (Err ValueError, glob)) /\
  ((forall x, In x hosts -> -90 <= ho_dec x <= 90) <-> exists l g, sn_compute h om hosts given glob = (Ok l, g)).
Proof.
  intros h om hosts given glob. assert (B : forall x, (Rltb (ho_dec x) (-90) || Rltb 90 (ho_dec x))%bool = true <-> ho_dec x < -90 \/ 90 < ho_dec x).
  { intros x. rewrite Bool.orb_true_iff. split; (intros [H|H]; [left|right]; now apply Rltb_true). }
  unfold sn_compute. destruct (existsb _ hosts) eqn:E.
  - apply existsb_exists in E. destruct E as (x & I & Q). apply B in Q. split; split.
    + reflexivity.
    + eauto.
    + intros H. specialize (H x I). lra.
    + intros (l & g & H). discriminate.
  - assert (N : forall x, In x hosts -> -90 <= ho_dec x <= 90).
    { intros x I. rewrite <- Bool.not_true_iff_false in E. split; apply Rnot_lt_le; intros L; apply E, existsb_exists; exists x; (split; [auto|apply B; auto]). }
    destruct (take glob (length hosts)) as [us g]. split; split.
    + intros (x & I & Q). specialize (N x I). lra.
    + discriminate.
    + eauto.
    + auto.
Qed.
(** No distance to redshift 0: no position. *)
Theorem C84_zero_redshift : forall h om ra dec sep u, sn_position h om ra dec sep 0 u = None.
Proof.
  intros. unfold sn_position, angular_sep. assert (Z : angular_diameter_distance h om 0 = 0) by (unfold angular_diameter_distance; rewrite comoving_0; field).
  rewrite Z. destruct (Reqb 0 0) eqn:E; auto. apply Reqb_false in E. lra.
Qed.
Theorem C84_constants : forall h om f, sn_make h om = Ok f <-> exists x y, h = PFloat x /\ om = PFloat y /\ f = sn_compute x y.
Proof.
  intros h om f. split; [|intros (x & y & -> & -> & ->); reflexivity]. intros H. destruct h, om; try discriminate. injection H as <-. eauto.
Qed.
(** Finding: the generator handed to compute (and the node's own, so its seed) has no influence ... *)
Theorem C84_generator_refuted : forall h om hosts g1 g2 glob, sn_compute h om hosts g1 glob = sn_compute h om hosts g2 glob.
Proof. reflexivity. Qed.
(** ... what is returned depends on numpy's global generator: with the same generator given, a supernova is north or south of its host. *)
Theorem C84_global_refuted : forall given, exists hosts glob1 glob2 ra1 dec1 ra2 dec2,
  fst (sn_compute 70 (3 / 10) hosts given glob1) = Ok [Some (ra1, dec1)] /\ fst (sn_compute 70 (3 / 10) hosts given glob2) = Ok [Some (ra2, dec2)] /\ dec1 <> dec2.
Proof.
  intros given. set (da := angular_diameter_distance 70 (3 / 10) (1 / 10)). assert (D : 0 < da) by (apply angular_distance_pos; lra).
  exists [mkHost 10 0 (1000 * da) (1 / 10)], (fresh (fun _ => 0)), (fresh (fun _ => 1 / 2)).
  set (o1 := offset_by (rad 10) (rad 0) (2 * PI * 0) 1). set (o2 := offset_by (rad 10) (rad 0) (2 * PI * (1 / 2)) 1).
  exists (fst o1), (snd o1), (fst o2), (snd o2). cbv zeta. unfold sn_compute. cbn [existsb ho_dec].
  replace (Rltb 0 (-90)) with false by (symmetry; apply Rltb_false; lra). replace (Rltb 90 0) with false by (symmetry; apply Rltb_false; lra). cbn [orb].
  unfold take. cbn [length seq map combine fst snd fresh g_stream g_pos ho_ra ho_dec ho_sep ho_z].
  unfold sn_position, angular_sep. fold da. destruct (Reqb da 0) eqn:E; [apply Reqb_true in E; lra|]. cbn [option_map]. replace (1000 * da / 1000 / da) with 1 by (field; lra). fold o1 o2.
  rewrite <- !surjective_pairing. split; [reflexivity|]. split; [reflexivity|]. unfold o1, o2, offset_by. cbn [snd]. rewrite rad_0, sin_0, cos_0.
  replace (2 * PI * 0) with 0 by ring. replace (2 * PI * (1 / 2)) with PI by field. rewrite cos_0, cos_PI.
  replace (0 * cos 1 + 1 * sin 1 * 1) with (sin 1) by ring. replace (0 * cos 1 + 1 * sin 1 * -1) with (- sin 1) by ring. rewrite asin_opp. rewrite asin_sin by (pose proof PI2_1; pose proof PI_RGT_0; unfold PI2 in *; lra).
  unfold deg. pose proof PI_RGT_0 as PP. intros Q. apply (f_equal (fun x => x * PI)) in Q. replace (1 * 180 / PI * PI) with 180 in Q by (field; lra). replace (-(1) * 180 / PI * PI) with (-(180)) in Q by (field; lra). lra.
Qed.
(** A case: a host away from the poles at redshift 0.1 and a separation as large as the distance to it. *)
Example C84_case : away_from_poles 60 /\ forall u, exists ra dec, sn_position 70 (3 / 10) 10 60 (1000 * angular_diameter_distance 70 (3 / 10) (1 / 10)) (1 / 10) u = Some (ra, dec) /\ rad (separation 10 60 ra dec) = 1.
Proof.
  assert (A : away_from_poles 60). { unfold away_from_poles, rad. replace (60 * PI / 180) with (PI / 3) by field. rewrite cos_PI3. unfold tiny. apply Rle_trans with (/ 10); [|lra]. apply Rinv_le_contravar; [lra|]. simpl. lra. }
  split; auto. intros u. pose proof (angular_distance_pos 70 (3 / 10) (1 / 10) ltac:(lra) ltac:(lra) ltac:(lra)) as D. set (da := angular_diameter_distance 70 (3 / 10) (1 / 10)) in *.
  destruct (C84_position 70 (3 / 10) 10 60 (1000 * da) (1 / 10) u) as (ra & dec & E & _ & _ & S & _); try lra; auto.
  { split; [apply Rmult_le_pos; lra|]. fold da. replace (1000 * da / 1000) with (1 * da) by field. apply Rmult_le_compat_r; [lra|]. pose proof PI2_1. unfold PI2 in *. lra. }
  exists ra, dec. split; auto. fold da in S. apply Rmult_eq_reg_r with da; [|lra]. rewrite S. field.
Qed.
