(** Property C70, light curve of an eclipsing binary star. *)
From Coq Require Import Reals String List Bool Arith ZArith Lia Lra.
From Verif Require Import Base BaseFacts RealBase PassbandModel PassbandProofs ObsTableModel SedModel SedProps SedPipeline NoiseModel TemplateModel TemplateProps SimpleModels EclipseModel EclipseGeometry.
Import ListNotations.
Open Scope R_scope.

(** ** Black body *)
Lemma const_pos : 0 < planck_h /\ 0 < boltzmann /\ 0 < c_cgs.
Proof. unfold planck_h, boltzmann, c_cgs. repeat split; try lra; apply Rmult_lt_0_compat; try lra; apply Rinv_0_lt_compat; apply pow_lt; lra. Qed.
Lemma exponent_pos : forall temp wave, 0 < temp -> 0 < wave -> 0 < planck_h * (c_cgs / wave) / (boltzmann * temp).
Proof.
  intros temp wave HT HW. destruct const_pos as (A & B & C). assert (0 < c_cgs / wave) by (apply Rmult_lt_0_compat; [auto|now apply Rinv_0_lt_compat]).
  apply Rmult_lt_0_compat; [now apply Rmult_lt_0_compat|]. apply Rinv_0_lt_compat. now apply Rmult_lt_0_compat.
Qed.
Lemma exp_gt_1 : forall x, 0 < x -> 1 < exp x.
Proof. intros x H. rewrite <- exp_0. now apply exp_increasing. Qed.
Theorem C70_black_body : forall t t' wave, 0 < t -> t < t' -> 0 < wave -> 0 < black_body t wave < black_body t' wave.
Proof.
  intros t t' w HT HL HW. destruct const_pos as (A & B & C). unfold black_body. cbv zeta.
  assert (N : 0 < c_cgs / w) by (apply Rmult_lt_0_compat; [auto|now apply Rinv_0_lt_compat]).
  assert (E := exponent_pos t w HT HW). assert (E' := exponent_pos t' w ltac:(lra) HW).
  assert (EL : planck_h * (c_cgs / w) / (boltzmann * t') < planck_h * (c_cgs / w) / (boltzmann * t)).
  { apply Rmult_lt_compat_l; [now apply Rmult_lt_0_compat|]. apply Rinv_lt_contravar; [|now apply Rmult_lt_compat_l]. repeat apply Rmult_lt_0_compat; lra. }
  assert (G := exp_gt_1 _ E). assert (G' := exp_gt_1 _ E'). assert (GL := exp_increasing _ _ EL).
  assert (K : 0 < 2 * planck_h * (c_cgs / w) ^ 3 / (c_cgs * c_cgs)).
  { apply Rmult_lt_0_compat; [|apply Rinv_0_lt_compat; now apply Rmult_lt_0_compat]. apply Rmult_lt_0_compat; [lra|now apply pow_lt]. }
  split.
  - apply Rmult_lt_0_compat; auto. apply Rinv_0_lt_compat. lra.
  - apply Rmult_lt_compat_l; auto. apply Rinv_lt_contravar; [|lra]. apply Rmult_lt_0_compat; lra.
Qed.
Lemma bb_pos : forall t w, 0 < t -> 0 < w -> 0 < black_body t w.
Proof. intros t w H1 H2. apply (C70_black_body t (t + 1) w); lra. Qed.
Lemma bb_mono : forall t t' w, 0 < t -> t <= t' -> 0 < w -> black_body t w <= black_body t' w.
Proof. intros t t' w H1 [H2|<-] H3; [left; now apply C70_black_body|lra]. Qed.

(** ** The projected distance of the two stars *)
(** In units of the major semiaxis: between |cos i| (in conjunction, at phases 0 and 1/2) and 1 (at phases 1/4 and 3/4). *)
Theorem C70_distance : forall phase incl, let i := incl * PI / 180 in
  Rabs (cos i) <= centre_distance phase incl <= 1 /\
  (centre_distance phase incl) ^ 2 = cos i ^ 2 + sin i ^ 2 * sin (2 * PI * phase) ^ 2 /\
  centre_distance 0 incl = Rabs (cos i) /\ centre_distance (1 / 2) incl = Rabs (cos i) /\
  centre_distance (1 / 4) incl = 1 /\ centre_distance (3 / 4) incl = 1.
Proof.
  intros phase incl i. assert (EI : incl * (PI / 180) = i) by (unfold i; field).
  assert (G : forall x y, x * x + y * y = 1 -> forall c s, c * c + s * s = 1 ->
     sqrt (c * x * (c * x) + y * y) * sqrt (c * x * (c * x) + y * y) = c * c + s * s * (y * y) /\ Rabs c <= sqrt (c * x * (c * x) + y * y) <= 1).
  { intros x y H c s HC. assert (P : 0 <= c * x * (c * x) + y * y) by nra. assert (Q := sqrt_sqrt _ P). assert (PS := sqrt_pos (c * x * (c * x) + y * y)).
    assert (V : c * x * (c * x) + y * y = c * c + s * s * (y * y)) by (replace (s * s) with (1 - c * c) by lra; replace (x * x) with (1 - y * y) by lra; nra).
    split; [rewrite Q; auto|]. split.
    - rewrite <- (sqrt_Rsqr_abs c). apply sqrt_le_1_alt. unfold Rsqr. rewrite V. assert (0 <= s * s) by nra. assert (0 <= y * y) by nra. nra.
    - rewrite <- sqrt_1. apply sqrt_le_1_alt. assert (c * c <= 1) by nra. assert (y * y <= 1) by nra. rewrite V. assert (0 <= s * s) by nra. nra. }
  assert (SC : forall a, cos a * cos a + sin a * sin a = 1) by (intros a; pose proof (sin2_cos2 a) as Z; unfold Rsqr in Z; lra).
  destruct (G (cos (2 * PI * phase)) (sin (2 * PI * phase)) (SC _) (cos i) (sin i) (SC _)) as [A B].
  split; [unfold centre_distance; cbv zeta; rewrite EI; exact B|]. split; [unfold centre_distance; cbv zeta; rewrite EI; simpl; rewrite !Rmult_1_r; exact A|].
  assert (Z : forall x, sin (2 * PI * x) = 0 -> cos (2 * PI * x) * cos (2 * PI * x) = 1 -> centre_distance x incl = Rabs (cos i)).
  { intros x S C. unfold centre_distance. cbv zeta. rewrite EI, S. rewrite <- sqrt_Rsqr_abs. f_equal. unfold Rsqr. nra. }
  assert (O : forall x, cos (2 * PI * x) = 0 -> centre_distance x incl = 1).
  { intros x C. unfold centre_distance. cbv zeta. rewrite EI, C. rewrite <- sqrt_1 at 1. f_equal. pose proof (SC (2 * PI * x)) as Q. rewrite C in Q. lra. }
  repeat split.
  - apply Z; rewrite Rmult_0_r; [apply sin_0|rewrite cos_0; lra].
  - apply Z; replace (2 * PI * (1 / 2)) with PI by field; [apply sin_PI|rewrite cos_PI; lra].
  - apply O. replace (2 * PI * (1 / 4)) with (PI / 2) by field. apply cos_PI2.
  - apply O. replace (2 * PI * (3 / 4)) with (3 * (PI / 2)) by field. apply cos_3PI2.
Qed.
Lemma distance_mirror : forall phase incl, centre_distance (1 - phase) incl = centre_distance phase incl.
Proof.
  intros. unfold centre_distance. cbv zeta. replace (2 * PI * (1 - phase)) with (- (2 * PI * phase) + 2 * INR 1 * PI) by (simpl; ring).
  rewrite cos_period, sin_period, cos_neg, sin_neg. f_equal. ring.
Qed.

(** ** The light *)
(** At phase [x] the star in the background is the primary near phase 0, else the secondary. *)
Definition background (x b1 b2 : R) : R := if Rlt_dec x (1 / 4) then b1 else if Rlt_dec (3 / 4) x then b1 else b2.
(** The light of both stars less the covered part of the star in the background. *)
Theorem C70_light : forall t1 r1 t2 r2 axis incl phase wave, 0 < t1 -> 0 < t2 -> 0 < r1 -> 0 < r2 -> 0 <= axis -> 0 < wave ->
  binary_lum t1 r1 t2 r2 axis incl phase wave =
  PI * r1 ^ 2 * black_body t1 wave + PI * r2 ^ 2 * black_body t2 wave -
  background phase (black_body t1 wave) (black_body t2 wave) * overlap_area (axis * centre_distance phase incl) r1 r2.
Proof.
  intros t1 r1 t2 r2 axis incl ph w HT1 HT2 HR1 HR2 HA HW. unfold binary_lum, bb_luminosity, background. cbv zeta.
  assert (B1 := bb_pos t1 w HT1 HW). assert (B2 := bb_pos t2 w HT2 HW). set (b1 := black_body t1 w) in *. set (b2 := black_body t2 w) in *.
  assert (CD : 0 <= centre_distance ph incl) by apply sqrt_pos.
  destruct (C70_bounds (axis * centre_distance ph incl) r1 r2 HR1 HR2 ltac:(now apply Rmult_le_pos)) as ([A0 A1] & _).
  set (A := overlap_area _ _ _) in *. assert (P := PI_RGT_0).
  assert (M1 : PI * (Rmin r1 r2 * Rmin r1 r2) <= PI * (r1 * r1)).
  { apply Rmult_le_compat_l; [lra|]. assert (0 < Rmin r1 r2) by now apply Rmin_pos. assert (Rmin r1 r2 <= r1) by apply Rmin_l. nra. }
  assert (M2 : PI * (Rmin r1 r2 * Rmin r1 r2) <= PI * (r2 * r2)).
  { apply Rmult_le_compat_l; [lra|]. assert (0 < Rmin r1 r2) by now apply Rmin_pos. assert (Rmin r1 r2 <= r2) by apply Rmin_r. nra. }
  assert (Q1 : b1 * PI * (r1 * r1) * (1 - A / (PI * (r1 * r1))) = PI * r1 ^ 2 * b1 - b1 * A) by (field; split; lra).
  assert (Q2 : b2 * PI * (r2 * r2) * (1 - A / (PI * (r2 * r2))) = PI * r2 ^ 2 * b2 - b2 * A) by (field; split; lra).
  assert (Z1 : b1 * PI * (r1 * r1) * (1 - 0) = PI * r1 ^ 2 * b1) by ring. assert (Z2 : b2 * PI * (r2 * r2) * (1 - 0) = PI * r2 ^ 2 * b2) by ring.
  assert (N1 : 0 <= PI * r1 ^ 2 * b1 - b1 * A) by (replace (PI * r1 ^ 2 * b1 - b1 * A) with (b1 * (PI * (r1 * r1) - A)) by ring; apply Rmult_le_pos; lra).
  assert (N2 : 0 <= PI * r2 ^ 2 * b2 - b2 * A) by (replace (PI * r2 ^ 2 * b2 - b2 * A) with (b2 * (PI * (r2 * r2) - A)) by ring; apply Rmult_le_pos; lra).
  assert (F1 : 0 <= b1 * A) by (apply Rmult_le_pos; lra). assert (F2 : 0 <= b2 * A) by (apply Rmult_le_pos; lra).
  assert (C : (Rltb ph (25 / 100) || Rltb (75 / 100) ph)%bool = if Rlt_dec ph (1 / 4) then true else if Rlt_dec (3 / 4) ph then true else false).
  { destruct (Rlt_dec ph (1 / 4)); [apply orb_true_iff; left; apply Rltb_true; lra|]. destruct (Rlt_dec (3 / 4) ph); [apply orb_true_iff; right; apply Rltb_true; lra|].
    apply orb_false_iff. split; apply Rltb_false; lra. }
  rewrite C. destruct (Rlt_dec ph (1 / 4)); [|destruct (Rlt_dec (3 / 4) ph)]; cbn [negb]; rewrite ?Q1, ?Q2, ?Z1, ?Z2; repeat dec1; lra.
Qed.
(** The flux seen by the observer: in nJy, with the distance in parsec; [x] is the phase of the time. *)
Definition nJy_at (dist : R) : R := 10 ^ 32 / (dist * parsec_cm) ^ 2.
Theorem C70_flux : forall node setters rs m (st : gst) (ps : params) z t0 p dist t1 r1 t2 r2 axis incl,
  binary_make node setters rs = Ok m -> dget node st = Some ps -> dget "t0" ps = Some (PNum t0) -> dget "period" ps = Some (PNum p) ->
  dget "distance" ps = Some (PNum dist) -> dget "primary_temperature" ps = Some (PNum t1) -> dget "primary_radius" ps = Some (PNum r1) ->
  dget "secondary_temperature" ps = Some (PNum t2) -> dget "secondary_radius" ps = Some (PNum r2) ->
  dget "major_semiaxis" ps = Some (PNum axis) -> dget "inclination" ps = Some (PNum incl) -> redshifted rs ps z ->
  0 < p -> 0 < dist -> 0 < t1 -> 0 < t2 -> 0 < r1 -> 0 < r2 -> 0 <= axis ->
  exists F, shines m st F /\ forall (k : Z) x w, 0 <= x < 1 -> 0 < w ->
    let wcm := w / (1 + z) / 10 ^ 8 in
    F (t0 + (1 + z) * p * (x + IZR k)) w =
    (1 + z) * nJy_at dist *
    (PI * r1 ^ 2 * black_body t1 wcm + PI * r2 ^ 2 * black_body t2 wcm -
     background x (black_body t1 wcm) (black_body t2 wcm) * overlap_area (axis * centre_distance x incl) r1 r2).
Proof.
  intros node setters rs m st ps z t0 p dist t1 r1 t2 r2 axis incl HM HP H0 HPER HD HT1 HR1 HT2 HR2 HAX HIN [Hz HR] Pp Pd P1 P2 P3 P4 P5.
  assert (EM : m = PSed (plain_sed node setters rs (periodic_sed node (binary_phases node)) [] [])).
  { unfold binary_make in HM. destruct (dget "distance" setters) as [[| |]|]; congruence. }
  subst m. set (f := fun t w => binary_lum t1 r1 t2 r2 axis incl (Rmod (t - t0) p / p) (w * angstrom_cm) / (dist * parsec_cm * (dist * parsec_cm)) * cgs_njy).
  eexists. split.
  - apply (bare_shines _ st ps z t0 f); auto; try (simpl; discriminate).
    + unfold in_force. simpl. destruct HR as [[A B]|[A B]]; auto.
    + intros ts ws kw _. simpl. unfold periodic_sed, local_params. rewrite HP. cbn [bind]. unfold need at 1. rewrite HPER. cbn [bind]. unfold need. rewrite H0. cbn [bind].
      unfold binary_phases, get_param, local_params. rewrite HP, HD. cbn [bind]. unfold need. rewrite HT1, HR1, HT2, HR2, HAX, HIN. cbn [bind]. unfold phases. rewrite map_map. reflexivity.
  - intros k x w Hx Hw. cbv beta zeta. rewrite plain_extended. unfold f.
    assert (W : w / (1 + z) * angstrom_cm = w / (1 + z) / 10 ^ 8) by (unfold angstrom_cm; field; lra). rewrite W.
    assert (PH : Rmod (t0 + (t0 + (1 + z) * p * (x + IZR k) - t0) / (1 + z) - t0) p / p = x).
    { assert (U := C50_phase_unique (t0 + p * (x + IZR k)) t0 p x k Pp Hx ltac:(ring)). unfold phases in U. cbn [map] in U. inversion U as [V]. rewrite V at 1. rewrite <- V.
      do 2 f_equal. field. lra. }
    rewrite PH, C70_light; auto.
    + unfold nJy_at, cgs_njy. simpl. field. assert (0 < parsec_cm) by (unfold parsec_cm; apply Rmult_lt_0_compat; [apply Rmult_lt_0_compat; [lra|apply Rinv_0_lt_compat, PI_RGT_0]|lra]). lra.
    + apply Rmult_lt_0_compat; [|apply Rinv_0_lt_compat; apply pow_lt; lra]. apply Rmult_lt_0_compat; auto. apply Rinv_0_lt_compat. lra.
Qed.
(** A binary needs a distance. *)
Theorem C70_distance_required : forall node setters rs,
  (exists m, binary_make node setters rs = Ok m) <-> (exists v, dget "distance" setters = Some v /\ v <> PNone).
Proof.
  intros. unfold binary_make. destruct (dget "distance" setters) as [[| |]|]; split; intros [m H]; try discriminate; eauto.
  - destruct H as [H N]. congruence.
  - exists (PNum r). split; congruence.
  - exists (PStr s). split; congruence.
  - destruct H as [H N]. congruence.
Qed.

(** ** The shape of the light curve *)
Section Shape.
  Variables (t1 r1 t2 r2 axis incl wave : R).
  Hypotheses (PT1 : 0 < t1) (PT2 : 0 < t2) (PR1 : 0 < r1) (PR2 : 0 < r2) (PA : 0 <= axis) (PW : 0 < wave).
  Let L := fun x => binary_lum t1 r1 t2 r2 axis incl x wave.
  Let full := PI * r1 ^ 2 * black_body t1 wave + PI * r2 ^ 2 * black_body t2 wave.
  (** Never negative, never more than both stars, which is reached exactly when the discs are apart. *)
  Theorem C70_range : forall x, 0 <= L x <= full /\ (L x = full <-> r1 + r2 <= axis * centre_distance x incl).
  Proof.
    intros x. unfold L, full. rewrite C70_light by auto. assert (B1 := bb_pos t1 wave PT1 PW). assert (B2 := bb_pos t2 wave PT2 PW).
    set (b1 := black_body t1 wave) in *. set (b2 := black_body t2 wave) in *. assert (CD : 0 <= centre_distance x incl) by apply sqrt_pos.
    destruct (C70_bounds (axis * centre_distance x incl) r1 r2 PR1 PR2 ltac:(now apply Rmult_le_pos)) as ([A0 A1] & AZ & _). set (A := overlap_area _ _ _) in *.
    assert (P := PI_RGT_0).
    assert (M1 : PI * (Rmin r1 r2 * Rmin r1 r2) <= PI * (r1 * r1)).
    { apply Rmult_le_compat_l; [lra|]. assert (0 < Rmin r1 r2) by now apply Rmin_pos. assert (Rmin r1 r2 <= r1) by apply Rmin_l. nra. }
    assert (M2 : PI * (Rmin r1 r2 * Rmin r1 r2) <= PI * (r2 * r2)).
    { apply Rmult_le_compat_l; [lra|]. assert (0 < Rmin r1 r2) by now apply Rmin_pos. assert (Rmin r1 r2 <= r2) by apply Rmin_r. nra. }
    assert (BG : background x b1 b2 = b1 /\ A <= PI * (r1 * r1) \/ background x b1 b2 = b2 /\ A <= PI * (r2 * r2)).
    { unfold background. destruct (Rlt_dec x (1 / 4)); [left; split; auto; lra|]. destruct (Rlt_dec (3 / 4) x); [left|right]; split; auto; lra. }
    set (b := background x b1 b2) in *. assert (PB : 0 < b) by (destruct BG as [[-> _]|[-> _]]; auto).
    assert (G1 : 0 <= PI * r1 ^ 2 * b1) by (apply Rmult_le_pos; [|lra]; apply Rmult_le_pos; [lra|]; apply pow_le; lra).
    assert (G2 : 0 <= PI * r2 ^ 2 * b2) by (apply Rmult_le_pos; [|lra]; apply Rmult_le_pos; [lra|]; apply pow_le; lra).
    assert (BA : 0 <= b * A) by (apply Rmult_le_pos; lra). split.
    - split; [|lra]. destruct BG as [[EB AB]|[EB AB]]; rewrite EB in *.
      + assert (b1 * A <= b1 * (PI * (r1 * r1))) by (apply Rmult_le_compat_l; lra). replace (PI * r1 ^ 2 * b1) with (b1 * (PI * (r1 * r1))) in * by ring. lra.
      + assert (b2 * A <= b2 * (PI * (r2 * r2))) by (apply Rmult_le_compat_l; lra). replace (PI * r2 ^ 2 * b2) with (b2 * (PI * (r2 * r2))) in * by ring. lra.
    - rewrite <- AZ. split; [intros E|intros ->; ring]. assert (Z : b * A = 0) by lra. apply Rmult_integral in Z. destruct Z; lra.
  Qed.
  (** The light curve is symmetric about t0. *)
  Theorem C70_mirror : forall x, L (1 - x) = L x.
  Proof.
    intros x. unfold L. rewrite !C70_light by auto. rewrite distance_mirror. do 2 f_equal. unfold background.
    destruct (Rlt_dec (1 - x) (1 / 4)); destruct (Rlt_dec (3 / 4) (1 - x)); destruct (Rlt_dec x (1 / 4)); destruct (Rlt_dec (3 / 4) x); auto; lra.
  Qed.
  (** Phase 0 is the minimum of the primary half of the orbit, phase 1/2 of the secondary half; phase 0 is the deeper
      one exactly if the primary is not the cooler star or there is no eclipse. *)
  Theorem C70_minima :
    (forall x, x < 1 / 4 \/ 3 / 4 < x -> L 0 <= L x) /\
    (forall x, 1 / 4 <= x <= 3 / 4 -> L (1 / 2) <= L x) /\
    (L 0 <= L (1 / 2) <-> t2 <= t1 \/ r1 + r2 <= axis * Rabs (cos (incl * PI / 180))).
  Proof.
    assert (B1 := bb_pos t1 wave PT1 PW). assert (B2 := bb_pos t2 wave PT2 PW). unfold L.
    assert (D0 : forall x, overlap_area (axis * centre_distance x incl) r1 r2 <= overlap_area (axis * Rabs (cos (incl * PI / 180))) r1 r2).
    { intros x. apply C70_decreasing; auto.
      - apply Rmult_le_pos; auto. apply Rabs_pos.
      - apply Rmult_le_compat_l; auto. apply (C70_distance x incl). }
    destruct (C70_distance 0 incl) as (_ & _ & E0 & E1 & _). split; [|split].
    - intros x Hx. rewrite !C70_light by auto. rewrite E0. specialize (D0 x). unfold background.
      destruct (Rlt_dec 0 (1 / 4)); [|lra]. destruct (Rlt_dec x (1 / 4)); [|destruct (Rlt_dec (3 / 4) x); [|lra]].
      all: apply Rplus_le_compat_l, Ropp_le_contravar, Rmult_le_compat_l; lra.
    - intros x Hx. rewrite !C70_light by auto. rewrite E1. specialize (D0 x). unfold background.
      destruct (Rlt_dec (1 / 2) (1 / 4)); [lra|]. destruct (Rlt_dec (3 / 4) (1 / 2)); [lra|]. destruct (Rlt_dec x (1 / 4)); [lra|]. destruct (Rlt_dec (3 / 4) x); [lra|].
      apply Rplus_le_compat_l, Ropp_le_contravar, Rmult_le_compat_l; lra.
    - rewrite !C70_light by auto. rewrite E0, E1. unfold background. destruct (Rlt_dec 0 (1 / 4)); [|lra].
      destruct (Rlt_dec (1 / 2) (1 / 4)); [lra|]. destruct (Rlt_dec (3 / 4) (1 / 2)); [lra|].
      destruct (C70_bounds (axis * Rabs (cos (incl * PI / 180))) r1 r2 PR1 PR2 ltac:(apply Rmult_le_pos; auto; apply Rabs_pos)) as ([A0 _] & AZ & _).
      set (A := overlap_area _ _ _) in *. split.
      + intros H. destruct (Rle_or_lt t2 t1) as [T|T]; auto. right. apply AZ. destruct (C70_black_body t1 t2 wave PT1 T PW) as [_ BB].
        assert (black_body t2 wave * A <= black_body t1 wave * A) by lra. nra.
      + intros [H|H].
        * assert (BB := bb_mono t2 t1 wave PT2 H PW). assert (black_body t2 wave * A <= black_body t1 wave * A) by (apply Rmult_le_compat_r; auto). lra.
        * apply AZ in H. rewrite H. lra.
  Qed.
End Shape.

(** The documentation gives the semiaxis in astronomical units and the radii in solar radii, but the code compares them
    as they are: two Suns one astronomical unit (215 solar radii) apart, seen edge-on, are still in eclipse when their
    centres are 107 solar radii apart on the sky. *)
Theorem C70_documented_units_refuted : forall t wave, 0 < t -> 0 < wave ->
  exists axis_au r1_sun r2_sun incl phase,
    r1_sun + r2_sun < 215 * axis_au * centre_distance phase incl /\
    binary_lum t r1_sun t r2_sun axis_au incl phase wave < PI * r1_sun ^ 2 * black_body t wave + PI * r2_sun ^ 2 * black_body t wave.
Proof.
  intros t w HT HW. exists 1, 1, 1, 90, (1 / 12).
  assert (D : centre_distance (1 / 12) 90 = 1 / 2).
  { unfold centre_distance. cbv zeta. replace (90 * (PI / 180)) with (PI / 2) by field. rewrite cos_PI2. replace (2 * PI * (1 / 12)) with (PI / 6) by field.
    rewrite sin_PI6. replace (0 * cos (PI / 6) * (0 * cos (PI / 6)) + 1 / 2 * (1 / 2)) with ((1 / 2) * (1 / 2)) by ring. apply sqrt_square. lra. }
  rewrite D. split; [lra|]. destruct (C70_range t 1 t 1 1 90 w HT HT ltac:(lra) ltac:(lra) ltac:(lra) HW (1 / 12)) as [[_ U] E]. rewrite D in E.
  destruct U as [U|U]; auto. apply E in U. lra.
Qed.
(** A case: equal stars of radius 3 and 5, total eclipse at phase 0: only the secondary (in front) shines. *)
Example C70_case : forall t1 t2 w, 0 < t1 -> 0 < t2 -> 0 < w ->
  binary_lum t1 3 t2 5 100 90 0 w = PI * 5 ^ 2 * black_body t2 w /\
  binary_lum t1 3 t2 5 100 90 (1 / 4) w = PI * 3 ^ 2 * black_body t1 w + PI * 5 ^ 2 * black_body t2 w.
Proof.
  intros t1 t2 w H1 H2 H3. assert (CZ : cos (90 * PI / 180) = 0) by (replace (90 * PI / 180) with (PI / 2) by field; apply cos_PI2).
  destruct (C70_distance 0 90) as (_ & _ & E0 & _ & E1 & _). rewrite CZ, Rabs_R0 in E0. rewrite !C70_light by (auto; lra). rewrite E0, E1. split.
  - rewrite C70_inside by (try lra; rewrite Rmult_0_r; try lra; apply Rabs_pos). rewrite Rmin_left by lra. unfold background. destruct (Rlt_dec 0 (1 / 4)); [ring|lra].
  - rewrite C70_apart by lra. ring.
Qed.
Example C70_flux_case :
  let ps : params := [("t0"%string, PNum 7); ("period"%string, PNum 2); ("distance"%string, PNum 10); ("primary_temperature"%string, PNum 6000); ("primary_radius"%string, PNum 3);
    ("secondary_temperature"%string, PNum 4000); ("secondary_radius"%string, PNum 5); ("major_semiaxis"%string, PNum 100); ("inclination"%string, PNum 90); ("redshift"%string, PNum 1)] in
  exists m F, binary_make "m" ps true = Ok m /\ shines m [("m"%string, ps)] F /\
    F (7 + 4) 5000 = 2 * nJy_at 10 * (PI * 5 ^ 2 * black_body 4000 (5000 / (1 + 1) / 10 ^ 8)).
Proof.
  intros ps. eexists. destruct (C70_flux "m" ps true _ [("m"%string, ps)] ps 1 7 2 10 6000 3 4000 5 100 90 eq_refl eq_refl eq_refl eq_refl eq_refl eq_refl eq_refl eq_refl eq_refl eq_refl eq_refl) as (F & SH & V);
    try lra; [split; [lra|left; split; reflexivity]|]. exists F. split; [reflexivity|]. split; [exact SH|].
  replace (7 + 4) with (7 + (1 + 1) * 2 * (0 + IZR 1)) by (simpl; ring). rewrite V by lra. cbv zeta.
  set (wcm := 5000 / (1 + 1) / 10 ^ 8). assert (W : 0 < wcm) by (unfold wcm; lra).
  destruct (C70_case 6000 4000 wcm ltac:(lra) ltac:(lra) W) as [E _]. rewrite C70_light in E by (auto; lra). rewrite E. ring.
Qed.
