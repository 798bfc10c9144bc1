(** Properties C53-C57: magnitudes, flux units, noise, zero points. *)
From Coq Require Import Reals Machin String List Bool Arith ZArith Lia Lra.
From Verif Require Import Base BaseFacts RealBase NoiseModel.
Import ListNotations.
Open Scope R_scope.

Lemma ln10_pos : 0 < ln 10.
Proof. rewrite <- ln_1. apply ln_increasing; lra. Qed.
Lemma log10_pow : forall x, log10 (Rpower 10 x) = x.
Proof. intros. unfold log10, Rpower. rewrite ln_exp. field. pose proof ln10_pos. lra. Qed.
Lemma pow_log10 : forall x, 0 < x -> Rpower 10 (log10 x) = x.
Proof.
  intros x H. unfold log10, Rpower. replace (ln x / ln 10 * ln 10) with (ln x); [now apply exp_ln|]. field. pose proof ln10_pos. lra.
Qed.
Lemma Rpower_pos : forall x y, 0 < Rpower x y.
Proof. intros. unfold Rpower. apply exp_pos. Qed.

(** ** C53 *)
Theorem C53_positive : forall m, 0 < mag2flux m.
Proof. intros. apply Rpower_pos. Qed.
Theorem C53_mag_flux_mag : forall m, flux2mag (mag2flux m) = Some m.
Proof.
  intros m. unfold flux2mag. replace (Rleb (mag2flux m) 0) with false.
  - f_equal. unfold mag2flux. rewrite log10_pow. field.
  - symmetry. apply Rleb_false. apply C53_positive.
Qed.
Theorem C53_flux_mag_flux : forall f, 0 < f -> exists m, flux2mag f = Some m /\ mag2flux m = f.
Proof.
  intros f H. unfold flux2mag. replace (Rleb f 0) with false by (symmetry; now apply Rleb_false). eexists. split; [reflexivity|].
  unfold mag2flux. replace (- (4 / 10) * (mag_zp - 25 / 10 * log10 f - mag_zp)) with (log10 f) by field. now apply pow_log10.
Qed.
Theorem C53_no_magnitude : forall f, f <= 0 -> flux2mag f = None.
Proof. intros f H. unfold flux2mag. now rewrite (proj2 (Rleb_true f 0) H). Qed.
Theorem C53_brighter_is_smaller : forall a b, a < b <-> mag2flux b < mag2flux a.
Proof.
  assert (X : forall a b, a < b -> mag2flux b < mag2flux a).
  { intros a b H. unfold mag2flux. apply Rpower_lt; lra. }
  intros a b. split; auto. intros H. destruct (Rtotal_order a b) as [L|[->|L]]; auto; [lra|]. apply X in L. lra.
Qed.
Theorem C53_magnitude_decreases : forall f g mf mg, flux2mag f = Some mf -> flux2mag g = Some mg -> (f < g <-> mg < mf).
Proof.
  intros f g mf mg Hf Hg. assert (P : forall x m, flux2mag x = Some m -> x = mag2flux m).
  { intros x m H. unfold flux2mag in H. destruct (Rleb x 0) eqn:E; [discriminate|]. apply Rleb_false in E.
    inversion H; subst. unfold mag2flux. replace (- (4 / 10) * (mag_zp - 25 / 10 * log10 x - mag_zp)) with (log10 x) by field. symmetry. now apply pow_log10. }
  rewrite (P _ _ Hf), (P _ _ Hg). rewrite <- C53_brighter_is_smaller. tauto.
Qed.
Lemma ten_pow2 : Rpower 10 2 = 100.
Proof. replace 2 with (INR 2) by (simpl; lra). rewrite Rpower_pow by lra. simpl. lra. Qed.
(** Five magnitudes are a factor of exactly 100. *)
Theorem C53_five_magnitudes : forall m, mag2flux m = 100 * mag2flux (m + 5).
Proof.
  intros m. unfold mag2flux. rewrite <- ten_pow2, <- Rpower_plus. f_equal. lra.
Qed.
Theorem C53_reference : mag2flux (314 / 10) = 1 /\ mag2flux (89 / 10) = 10 ^ 9.
Proof.
  split; unfold mag2flux, mag_zp.
  - replace (- (4 / 10) * (314 / 10 - (89 / 10 + 25 / 10 * 9))) with 0 by field. apply Rpower_O. lra.
  - replace (- (4 / 10) * (89 / 10 - (89 / 10 + 25 / 10 * 9))) with (INR 9) by (simpl; field). apply Rpower_pow. lra.
Qed.
(** A flux ratio is a magnitude difference. *)
Theorem C53_ratio : forall f c mf, 0 < c -> flux2mag f = Some mf -> flux2mag (c * f) = Some (mf - 25 / 10 * log10 c).
Proof.
  intros f c mf HC H. unfold flux2mag in *. destruct (Rleb f 0) eqn:E; [discriminate|]. apply Rleb_false in E. inversion H; subst.
  replace (Rleb (c * f) 0) with false. { f_equal. unfold log10. rewrite ln_mult by lra. field. pose proof ln10_pos. lra. }
  symmetry. apply Rleb_false. now apply Rmult_lt_0_compat.
Qed.

(** ** C54 *)
Lemma bc_row_same : forall f row ws, length row = length ws -> bc_row f row ws = Ok (map (fun p => f (fst p) (snd p)) (combine row ws)).
Proof. intros. unfold bc_row. now rewrite H, Nat.eqb_refl. Qed.
Lemma bc_same : forall f m ws, Forall (fun r => length r = length ws) m -> bc f m ws = Ok (map (fun row => map (fun p => f (fst p) (snd p)) (combine row ws)) m).
Proof. intros f m ws H. unfold bc. induction H as [|r m H1 H2 IH]; simpl; auto. rewrite bc_row_same, IH by auto. reflexivity. Qed.
Lemma conv_len : forall (c : R) f row (ws : list R), length row = length ws -> length (map (fun x => c * x) (map (fun p : R * R => f (fst p) (snd p)) (combine row ws))) = length ws.
Proof. intros. rewrite !map_length, combine_length. lia. Qed.
Lemma row_round : forall f g c d row ws, (forall x w, In w ws -> d * g (c * f x w) w = x) -> length row = length ws ->
  map (fun x => d * x) (map (fun p : R * R => g (fst p) (snd p)) (combine (map (fun x => c * x) (map (fun p : R * R => f (fst p) (snd p)) (combine row ws))) ws)) = row.
Proof.
  intros f g c d row. induction row as [|x row IH]; intros [|w ws] H HL; try discriminate; auto. simpl. f_equal.
  - apply H. left; auto.
  - apply IH; [|simpl in HL; lia]. intros. apply H. right; auto.
Qed.
Lemma mat_round : forall f g c d m ws, (forall x w, In w ws -> d * g (c * f x w) w = x) -> Forall (fun r => length r = length ws) m ->
  bind (bc f m ws) (fun fl => bind (bc g (map (map (fun x => c * x)) fl) ws) (fun fl2 => Ok (map (map (fun x => d * x)) fl2))) = Ok m.
Proof.
  intros f g c d m ws H HL. rewrite (bc_same f) by auto. cbn [bind]. rewrite (bc_same g).
  - cbn [bind]. f_equal. rewrite !map_map. rewrite <- (map_id m) at 2. apply map_ext_in. intros row HI. rewrite Forall_forall in HL. apply row_round; auto.
  - apply Forall_forall. intros r HI. apply in_map_iff in HI. destruct HI as (r1 & <- & HI). apply in_map_iff in HI. destruct HI as (r2 & <- & HI).
    rewrite Forall_forall in HL. apply conv_len. auto.
Qed.
(** The conversions undo each other, for every matrix with one column per wavelength and positive units. *)
Theorem C54_flam_fnu_flam : forall m ws wu fl fn, 0 < wu -> 0 < fl -> 0 < fn -> Forall (fun w => 0 < w) ws -> Forall (fun r => length r = length ws) m ->
  bind (flam_to_fnu m ws wu fl fn) (fun x => fnu_to_flam x ws wu fl fn) = Ok m.
Proof.
  intros m ws wu fl fn H1 H2 H3 HW HL. unfold flam_to_fnu, fnu_to_flam, bulk_convert.
  etransitivity; [|apply (mat_round (fun x w => x * (w * w) / light_speed) (fun x w => x * light_speed / (w * w)) (fl * wu * wu / 1 / fn) (fn * 1 / (wu * wu) / fl) m ws); auto].
  { destruct (bc _ m ws); reflexivity. }
  intros x w HI. rewrite Forall_forall in HW. specialize (HW w HI). unfold light_speed. field. repeat split; lra.
Qed.
Theorem C54_fnu_flam_fnu : forall m ws wu fl fn, 0 < wu -> 0 < fl -> 0 < fn -> Forall (fun w => 0 < w) ws -> Forall (fun r => length r = length ws) m ->
  bind (fnu_to_flam m ws wu fl fn) (fun x => flam_to_fnu x ws wu fl fn) = Ok m.
Proof.
  intros m ws wu fl fn H1 H2 H3 HW HL. unfold flam_to_fnu, fnu_to_flam, bulk_convert.
  etransitivity; [|apply (mat_round (fun x w => x * light_speed / (w * w)) (fun x w => x * (w * w) / light_speed) (fn * 1 / (wu * wu) / fl) (fl * wu * wu / 1 / fn) m ws); auto].
  { destruct (bc _ m ws); reflexivity. }
  intros x w HI. rewrite Forall_forall in HW. specialize (HW w HI). unfold light_speed. field. repeat split; lra.
Qed.
(** Each entry depends on its own flux and wavelength only, with the physical factor lambda^2/c. *)
Theorem C54_entries : forall m ws wu fl fn out, Forall (fun r => length r = length ws) m -> flam_to_fnu m ws wu fl fn = Ok out ->
  length out = length m /\
  forall i j row x w, nth_error m i = Some row -> nth_error row j = Some x -> nth_error ws j = Some w ->
    exists orow, nth_error out i = Some orow /\ length orow = length ws /\ nth_error orow j = Some (fl * (wu * wu) / fn * (x * (w * w) / light_speed)).
Proof.
  intros m ws wu fl fn out HL H. unfold flam_to_fnu in H. rewrite bc_same in H by auto. cbn [bind] in H. inversion H; subst. clear H.
  unfold bulk_convert. split; [now rewrite !map_length|]. intros i j row x w Hr Hx Hw. rewrite map_map.
  assert (LR : length row = length ws). { rewrite Forall_forall in HL. apply HL. eapply nth_error_In; eauto. }
  eexists. split; [apply (map_nth_error _ _ _ Hr)|]. split; [rewrite !map_length, combine_length; lia|].
  rewrite map_map.
  assert (C : nth_error (combine row ws) j = Some (x, w)).
  { clear - Hx Hw. revert ws j Hx Hw. induction row as [|a row IH]; intros [|b ws] [|j] Hx Hw; try discriminate; simpl in *; [congruence|auto]. }
  rewrite (map_nth_error _ _ _ C). f_equal. simpl. unfold light_speed. unfold Rdiv. ring_simplify. rewrite Rinv_1. ring.
Qed.
(** Wavelengths that do not fit are refused. *)
Theorem C54_mismatch : forall m ws wu fl fn row, In row m -> length row <> length ws -> length row <> 1%nat -> length ws <> 1%nat ->
  flam_to_fnu m ws wu fl fn = Err ValueError /\ fnu_to_flam m ws wu fl fn = Err ValueError.
Proof.
  intros m ws wu fl fn row HI H1 H2 H3.
  assert (X : forall f, bc f m ws = Err ValueError).
  { intros f. assert (RW : forall row, (exists r, bc_row f row ws = Ok r) \/ bc_row f row ws = Err ValueError).
    { intros r. unfold bc_row. destruct (_ =? _)%nat; eauto. destruct ws as [|w [|w2 ws]]; destruct r as [|x [|x2 r]]; eauto. }
    unfold bc. induction m as [|r m IH]; [destruct HI|]. simpl. destruct (RW r) as [[r' E]|E]; rewrite E; [cbn [bind]|reflexivity].
    destruct HI as [->|HI].
    - exfalso. unfold bc_row in E. apply Nat.eqb_neq in H1. rewrite H1 in E. destruct ws as [|w [|w2 ws]]; destruct row as [|x [|x2 row]]; simpl in *; try discriminate; try lia.
    - now rewrite IH. }
  unfold flam_to_fnu, fnu_to_flam. now rewrite !X.
Qed.
Example C54_case : bind (flam_to_fnu [[1; 2]; [3; 4]] [5000; 6000] (1 / 10 ^ 10) 7 11) (fun x => fnu_to_flam x [5000; 6000] (1 / 10 ^ 10) 7 11) = Ok [[1; 2]; [3; 4]].
Proof. apply C54_flam_fnu_flam; try lra; repeat constructor; lra. Qed.

(** ** C55 *)
Definition sane (exptime count footprint sky zp : R) (ro : readout) (dark : R) : Prop :=
  0 <= exptime /\ 0 <= count /\ 0 <= footprint /\ 0 <= sky /\ 0 < zp /\ 0 <= dark.
(** Background variance in electrons. *)
Definition background (exptime count footprint sky : R) (ro : readout) (dark : R) : R :=
  sky * footprint + match ro with RNum r => r * r * footprint * count | RFun f => f exptime * f exptime end + dark * exptime * footprint.
Lemma background_nonneg : forall t c f s z ro d, sane t c f s z ro d -> 0 <= background t c f s ro d.
Proof.
  intros t c f s z ro d (H1 & H2 & H3 & H4 & H5 & H6). unfold background.
  assert (0 <= s * f) by now apply Rmult_le_pos.
  assert (0 <= d * t * f) by (apply Rmult_le_pos; auto; now apply Rmult_le_pos).
  assert (0 <= match ro with RNum r => r * r * f * c | RFun g => g t * g t end).
  { destruct ro as [r|g]; [|apply Rle_0_sqr]. pose proof (Rle_0_sqr r) as Q. unfold Rsqr in Q. apply Rmult_le_pos; auto. apply Rmult_le_pos; auto. }
  lra.
Qed.
Lemma poisson_value : forall flux t c f s z ro d, 0 < z ->
  poisson_std flux t c f s z ro d = if Rltb (flux / z + background t c f s ro d) 0 then None else Some (sqrt (flux / z + background t c f s ro d) * z).
Proof.
  intros. unfold poisson_std, background. replace (Reqb z 0) with false by (symmetry; apply Reqb_false; lra). cbv zeta.
  replace (flux / z + s * f + match ro with RNum r => r * r * f * c | RFun g => g t * g t end + d * t * f)
    with (flux / z + (s * f + match ro with RNum r => r * r * f * c | RFun g => g t * g t end + d * t * f)) by ring.
  reflexivity.
Qed.
Lemma div_nonneg : forall a z, 0 <= a -> 0 < z -> 0 <= a / z.
Proof. intros. apply Rmult_le_pos; auto. left. now apply Rinv_0_lt_compat. Qed.
(** Non-negative inputs give a finite, non-negative error. *)
Theorem C55_defined : forall flux t c f s z ro d, 0 <= flux -> sane t c f s z ro d ->
  exists e, poisson_std flux t c f s z ro d = Some e /\ 0 <= e /\ e * e = z * z * (flux / z + background t c f s ro d).
Proof.
  intros flux t c f s z ro d HF HS. pose proof (background_nonneg _ _ _ _ _ _ _ HS) as HB. destruct HS as (H1 & H2 & H3 & H4 & H5 & H6).
  rewrite poisson_value by auto. pose proof (div_nonneg flux z HF H5) as HD.
  replace (Rltb _ 0) with false by (symmetry; apply Rltb_false; lra). eexists. split; [reflexivity|]. split.
  - apply Rmult_le_pos; [apply sqrt_pos|lra].
  - replace (sqrt (flux / z + background t c f s ro d) * z * (sqrt (flux / z + background t c f s ro d) * z))
      with (z * z * (sqrt (flux / z + background t c f s ro d) * sqrt (flux / z + background t c f s ro d))) by ring.
    rewrite sqrt_sqrt; auto. lra.
Qed.
(** Electron counting: the error in electrons squared is the sum of the variances. *)
Theorem C55_variance_sum : forall flux t c f s z r d, 0 <= flux -> sane t c f s z (RNum r) d ->
  exists e, poisson_std flux t c f s z (RNum r) d = Some e /\ (e / z) ^ 2 = flux / z + s * f + r ^ 2 * f * c + d * t * f.
Proof.
  intros flux t c f s z r d HF HS. destruct (C55_defined flux t c f s z (RNum r) d HF HS) as (e & E & P & Q). exists e. split; auto.
  destruct HS as (_ & _ & _ & _ & Z & _). replace ((e / z) ^ 2) with (e * e / (z * z)) by (field; lra). rewrite Q. unfold background. field. lra.
Qed.
(** The error does not decrease when any of the inputs grows. *)
Theorem C55_monotone : forall flux t c f s z r d flux' t' c' f' s' r' d' e e', 0 <= flux -> sane t c f s z (RNum r) d -> 0 <= r ->
  flux <= flux' -> t <= t' -> c <= c' -> f <= f' -> s <= s' -> r <= r' -> d <= d' ->
  poisson_std flux t c f s z (RNum r) d = Some e -> poisson_std flux' t' c' f' s' z (RNum r') d' = Some e' -> e <= e'.
Proof.
  intros flux t c f s z r d flux' t' c' f' s' r' d' e e' HF (H1 & H2 & H3 & H4 & H5 & H6) HR L1 L2 L3 L4 L5 L6 L7 E E'.
  rewrite poisson_value in E, E' by auto. destruct (Rltb _ 0) in E; [discriminate|]. destruct (Rltb _ 0) in E'; [discriminate|].
  inversion E; inversion E'; subst. apply Rmult_le_compat_r; [lra|]. apply sqrt_le_1_alt. unfold background.
  assert (flux / z <= flux' / z) by (apply Rmult_le_compat_r; auto; left; now apply Rinv_0_lt_compat).
  assert (s * f <= s' * f') by (apply Rmult_le_compat; auto).
  assert (d * t <= d' * t') by (apply Rmult_le_compat; auto).
  assert (d * t * f <= d' * t' * f') by (apply Rmult_le_compat; auto; now apply Rmult_le_pos).
  assert (r * r <= r' * r') by (apply Rmult_le_compat; auto).
  assert (r * r * f <= r' * r' * f') by (apply Rmult_le_compat; auto; now apply Rmult_le_pos).
  assert (r * r * f * c <= r' * r' * f' * c') by (apply Rmult_le_compat; auto; apply Rmult_le_pos; auto; now apply Rmult_le_pos).
  lra.
Qed.
(** Source noise only. *)
Theorem C55_source_only : forall flux t c z ro, 0 <= flux -> 0 < z -> (ro = RNum 0 \/ ro = RFun (fun _ => 0)) ->
  forall f, poisson_std flux t c f 0 z ro 0 = Some (sqrt (flux * z)).
Proof.
  intros flux t c z ro HF HZ HR f. rewrite poisson_value by auto. unfold background.
  replace (flux / z + _) with (flux / z) by (destruct HR as [-> | ->]; ring).
  pose proof (div_nonneg flux z HF HZ). replace (Rltb _ 0) with false by (symmetry; apply Rltb_false; lra). f_equal.
  apply Rsqr_inj; [apply Rmult_le_pos; [apply sqrt_pos|lra]|apply sqrt_pos|].
  assert (0 <= flux * z) by (apply Rmult_le_pos; lra).
  rewrite Rsqr_mult, !Rsqr_sqrt by auto. unfold Rsqr. field. lra.
Qed.
(** Measuring fluxes in other units rescales the error. *)
Theorem C55_units : forall k flux t c f s z ro d, 0 < k -> 0 < z ->
  poisson_std (k * flux) t c f s (k * z) ro d = option_map (fun e => k * e) (poisson_std flux t c f s z ro d).
Proof.
  intros k flux t c f s z ro d HK HZ. rewrite !poisson_value by (auto; now apply Rmult_lt_0_compat).
  replace (k * flux / (k * z)) with (flux / z) by (field; lra). destruct (Rltb _ 0); auto. simpl. f_equal. ring.
Qed.
(** Brighter sources have a higher signal-to-noise ratio. *)
Theorem C55_snr_increases : forall t c f s z ro d flux flux' e e', sane t c f s z ro d -> 0 < flux < flux' ->
  poisson_std flux t c f s z ro d = Some e -> poisson_std flux' t c f s z ro d = Some e' -> 0 < e /\ 0 < e' /\ flux / e < flux' / e'.
Proof.
  intros t c f s z ro d flux flux' e e' HS HL E E'. pose proof (background_nonneg _ _ _ _ _ _ _ HS) as HB.
  destruct (C55_defined flux t c f s z ro d ltac:(lra) HS) as (x & X & P & Q). rewrite X in E. inversion E; subst x.
  destruct (C55_defined flux' t c f s z ro d ltac:(lra) HS) as (x & X' & P' & Q'). rewrite X' in E'. inversion E'; subst x. clear E E' X X'.
  destruct HS as (_ & _ & _ & _ & Z & _). set (B := background t c f s ro d) in *.
  assert (V : 0 < z * z * (flux / z + B)). { apply Rmult_lt_0_compat; [now apply Rmult_lt_0_compat|]. assert (0 < flux / z) by (apply Rdiv_lt_0_compat; lra). lra. }
  assert (V' : 0 < z * z * (flux' / z + B)). { apply Rmult_lt_0_compat; [now apply Rmult_lt_0_compat|]. assert (0 < flux' / z) by (apply Rdiv_lt_0_compat; lra). lra. }
  assert (PE : 0 < e). { destruct P as [P|P]; auto. subst e. rewrite <- Q in V. lra. }
  assert (PE' : 0 < e'). { destruct P' as [P'|P']; auto. subst e'. rewrite <- Q' in V'. lra. }
  split; auto. split; auto.
  apply Rsqr_incrst_0; [|apply Rlt_le, Rdiv_lt_0_compat; lra|apply Rlt_le, Rdiv_lt_0_compat; lra].
  unfold Rsqr. replace (flux / e * (flux / e)) with (flux * flux / (e * e)) by (field; lra). replace (flux' / e' * (flux' / e')) with (flux' * flux' / (e' * e')) by (field; lra).
  rewrite Q, Q'. assert (EW : z * z * (flux / z + B) = z * flux + z * z * B) by (field; lra). assert (EW' : z * z * (flux' / z + B) = z * flux' + z * z * B) by (field; lra).
  rewrite EW, EW' in *. clear EW EW'. set (W := z * flux + z * z * B) in *. set (W' := z * flux' + z * z * B) in *.
  apply Rmult_lt_reg_r with (r := W); auto. apply Rmult_lt_reg_r with (r := W'); auto.
  replace (flux * flux / W * W * W') with (flux * flux * (z * flux') + flux * flux * (z * z * B)) by (transitivity (flux * flux * W'); [unfold W'; ring|field; lra]).
  replace (flux' * flux' / W' * W * W') with (flux' * flux' * (z * flux) + flux' * flux' * (z * z * B)) by (transitivity (flux' * flux' * W); [unfold W; ring|field; lra]).
  assert (0 < flux * flux' * z * (flux' - flux)). { repeat apply Rmult_lt_0_compat; lra. }
  assert (0 <= (flux' - flux) * (flux' + flux) * (z * z * B)). { apply Rmult_le_pos; [apply Rmult_le_pos; lra|]. apply Rmult_le_pos; auto. apply Rlt_le, Rmult_lt_0_compat; lra. }
  nra.
Qed.
(** A read-out noise given as a function of the exposure time is the noise of the whole aperture: unlike a number it is
    not multiplied by the footprint and the number of exposures, although both are documented as "per pixel per exposure". *)
Theorem C55_callable_readout_refuted : exists flux t c f s z r d e e', sane t c f s z (RNum r) d /\
  poisson_std flux t c f s z (RNum r) d = Some e /\ poisson_std flux t c f s z (RFun (fun _ => r)) d = Some e' /\ e <> e'.
Proof.
  exists 0, 1, 1, 4, 0, 1, 1, 0, 2, 1. split; [unfold sane; lra|]. rewrite !poisson_value by lra. unfold background.
  replace (0 / 1 + (0 * 4 + 1 * 1 * 4 * 1 + 0 * 1 * 4)) with 4 by field. replace (0 / 1 + (0 * 4 + 1 * 1 + 0 * 1 * 4)) with 1 by field.
  replace (Rltb 4 0) with false by (symmetry; apply Rltb_false; lra). replace (Rltb 1 0) with false by (symmetry; apply Rltb_false; lra).
  rewrite sqrt_1. replace (sqrt 4) with 2 by (symmetry; replace 4 with (2 * 2) by ring; apply sqrt_square; lra). split; [f_equal; ring|]. split; [f_equal; ring|]. intros X. lra.
Qed.
Example C55_case : exists e, poisson_std 100 30 2 4 10 1 (RNum 8) (1 / 10) = Some e /\ e ^ 2 = 664.
Proof.
  destruct (C55_variance_sum 100 30 2 4 10 1 8 (1 / 10)) as (e & E & Q); [lra|unfold sane; lra|]. exists e. split; auto.
  replace ((e / 1) ^ 2) with (e ^ 2) in Q by (field). rewrite Q. field.
Qed.

(** ** C56 *)
Ltac nonneg := repeat first [assumption | apply Rmult_le_pos].
Lemma npix_nonneg : forall w, 0 <= npix w.
Proof. intros. unfold npix. pose proof (Rle_0_sqr w) as Q. unfold Rsqr in Q. lra. Qed.
(** The quadratic equation behind the limit: the solution [F] electrons has F^2 = 25 (F + N). *)
Lemma limit_flux : forall n, 0 <= n -> let F := 125 / 10 + 25 / 10 * sqrt (25 + 4 * n) in 0 < F /\ F * F = 25 * (F + n).
Proof.
  intros n H. cbv zeta. assert (S : sqrt (25 + 4 * n) * sqrt (25 + 4 * n) = 25 + 4 * n) by (apply sqrt_sqrt; lra).
  pose proof (sqrt_pos (25 + 4 * n)). split; [lra|]. set (q := sqrt (25 + 4 * n)) in *. nra.
Qed.
(** A source of exactly the limiting magnitude, observed with the noise parameters used for the zero point, has
    signal-to-noise ratio exactly 5. *)
Theorem C56_five_sigma : forall maglim sky fwhm gain ro dark exptime nexp zmag,
  0 <= sky -> 0 <= gain -> 0 <= dark -> 0 <= exptime -> 0 <= nexp ->
  zp_from_maglim maglim sky fwhm gain ro dark exptime nexp = Some zmag ->
  exists e, poisson_std (mag2flux maglim) (exptime * nexp) nexp (npix fwhm) (sky * gain) (mag2flux zmag) (RNum ro) dark = Some e /\
    0 < e /\ mag2flux maglim / e = 5.
Proof.
  intros maglim sky fwhm gain ro dark exptime nexp zmag H1 H2 H3 H4 H5 H. unfold zp_from_maglim in H. cbv zeta in H.
  set (n := limit_noise sky fwhm gain ro dark exptime nexp) in *. destruct (Rltb (25 + 4 * n) 0); [discriminate|]. inversion H; subst zmag. clear H.
  pose proof (npix_nonneg fwhm) as HP.
  assert (HS : sane (exptime * nexp) nexp (npix fwhm) (sky * gain) (mag2flux (25 / 10 * log10 (125 / 10 + 25 / 10 * sqrt (25 + 4 * n)) + maglim)) (RNum ro) dark).
  { unfold sane. repeat split; auto; try (apply Rmult_le_pos; auto). apply C53_positive. }
  pose proof (background_nonneg _ _ _ _ _ _ _ HS) as HB.
  assert (EB : background (exptime * nexp) nexp (npix fwhm) (sky * gain) (RNum ro) dark = n).
  { unfold background, n, limit_noise. ring. }
  rewrite EB in HB. destruct (limit_flux n HB) as [FP FQ]. set (F := 125 / 10 + 25 / 10 * sqrt (25 + 4 * n)) in *.
  set (z := mag2flux (25 / 10 * log10 F + maglim)) in *.
  assert (EZ : mag2flux maglim = F * z).
  { unfold z, mag2flux. rewrite <- (pow_log10 F) at 1 by auto. rewrite <- Rpower_plus. f_equal. field. }
  destruct (C55_defined (mag2flux maglim) _ _ _ _ _ _ _ (Rlt_le _ _ (C53_positive maglim)) HS) as (e & E & P & Q).
  assert (ZP : 0 < z) by apply C53_positive. exists e. split; auto. rewrite EB, EZ in Q.
  replace (F * z / z) with F in Q by (field; lra). assert (Q2 : (5 * e) * (5 * e) = (F * z) * (F * z)) by nra.
  assert (Q3 : 5 * e = F * z). { apply Rsqr_inj; [lra|apply Rlt_le, Rmult_lt_0_compat; lra|exact Q2]. }
  assert (0 < F * z) by now apply Rmult_lt_0_compat. split; [lra|]. rewrite EZ, <- Q3. field. lra.
Qed.
(** Brighter than the limit: more than 5 sigma; fainter: less. *)
Theorem C56_detection : forall maglim sky fwhm gain ro dark exptime nexp zmag m e,
  0 <= sky -> 0 <= gain -> 0 <= dark -> 0 <= exptime -> 0 <= nexp ->
  zp_from_maglim maglim sky fwhm gain ro dark exptime nexp = Some zmag ->
  poisson_std (mag2flux m) (exptime * nexp) nexp (npix fwhm) (sky * gain) (mag2flux zmag) (RNum ro) dark = Some e ->
  (m < maglim <-> 5 < mag2flux m / e).
Proof.
  intros maglim sky fwhm gain ro dark exptime nexp zmag m e H1 H2 H3 H4 H5 H E.
  destruct (C56_five_sigma _ _ _ _ _ _ _ _ _ H1 H2 H3 H4 H5 H) as (e0 & E0 & P0 & Q0).
  assert (HS : sane (exptime * nexp) nexp (npix fwhm) (sky * gain) (mag2flux zmag) (RNum ro) dark).
  { pose proof (npix_nonneg fwhm). unfold sane. repeat split; auto; try (apply Rmult_le_pos; auto). apply C53_positive. }
  destruct (Rtotal_order m maglim) as [L|[->|L]].
  - split; auto. intros _. apply C53_brighter_is_smaller in L.
    destruct (C55_snr_increases _ _ _ _ _ _ _ _ _ _ _ HS (conj (C53_positive maglim) L) E0 E) as (_ & _ & X). lra.
  - rewrite E in E0. inversion E0; subst. lra.
  - apply C53_brighter_is_smaller in L as L'.
    destruct (C55_snr_increases _ _ _ _ _ _ _ _ _ _ _ HS (conj (C53_positive m) L') E E0) as (_ & _ & X). lra.
Qed.
(** The limit exists for all physical inputs. *)
Theorem C56_defined : forall maglim sky fwhm gain ro dark exptime nexp, 0 <= sky -> 0 <= gain -> 0 <= dark -> 0 <= exptime -> 0 <= nexp ->
  exists zmag, zp_from_maglim maglim sky fwhm gain ro dark exptime nexp = Some zmag /\ maglim < zmag.
Proof.
  intros maglim sky fwhm gain ro dark exptime nexp H1 H2 H3 H4 H5. unfold zp_from_maglim. cbv zeta. pose proof (npix_nonneg fwhm) as HP.
  assert (N : 0 <= limit_noise sky fwhm gain ro dark exptime nexp).
  { unfold limit_noise. pose proof (Rle_0_sqr ro) as Q. unfold Rsqr in Q.
    assert (0 <= sky * npix fwhm * gain) by nonneg. assert (0 <= ro * ro * nexp * npix fwhm) by nonneg. assert (0 <= dark * npix fwhm * exptime * nexp) by nonneg. lra. }
  replace (Rltb _ 0) with false by (symmetry; apply Rltb_false; lra). eexists. split; [reflexivity|].
  set (n := limit_noise _ _ _ _ _ _ _) in *. assert (1 <= sqrt (25 + 4 * n)) by (rewrite <- sqrt_1; apply sqrt_le_1_alt; lra).
  assert (0 < log10 (125 / 10 + 25 / 10 * sqrt (25 + 4 * n))).
  { unfold log10. apply Rdiv_lt_0_compat; [|apply ln10_pos]. rewrite <- ln_1. apply ln_increasing; lra. }
  lra.
Qed.

(** ** The numerical value of pi/(2 ln 2) *)
Lemma exp_neg_bounds : forall x N, 0 <= x <= 1 ->
  sum_f_R0 (tg_alt (fun n => x ^ n / INR (fact n))) (S (2 * N)) <= exp (- x) <= sum_f_R0 (tg_alt (fun n => x ^ n / INR (fact n))) (2 * N).
Proof.
  intros x N Hx. apply alternated_series_ineq.
  - intros n. rewrite fact_simpl, mult_INR. simpl pow. pose proof (INR_fact_lt_0 n) as F. pose proof (pow_le x n (proj1 Hx)) as P.
    assert (S1 : 1 <= INR (S n)) by (rewrite S_INR; pose proof (pos_INR n); lra).
    unfold Rdiv. rewrite Rinv_mult. replace (x * x ^ n * (/ INR (S n) * / INR (fact n))) with (x * / INR (S n) * (x ^ n * / INR (fact n))) by ring.
    rewrite <- (Rmult_1_l (x ^ n * / INR (fact n))) at 2. apply Rmult_le_compat_r.
    + apply Rmult_le_pos; auto. left. now apply Rinv_0_lt_compat.
    + apply Rmult_le_reg_r with (r := INR (S n)); [lra|]. rewrite Rmult_assoc, Rinv_l by lra. lra.
  - apply cv_speed_pow_fact.
  - unfold exp. destruct (exist_exp (- x)) as [l H]. simpl. unfold exp_in, infinite_sum in H. intros e He. destruct (H e He) as [n0 Hn]. exists n0. intros n Hn0.
    specialize (Hn n Hn0). replace (sum_f_R0 (tg_alt (fun n1 => x ^ n1 / INR (fact n1))) n) with (sum_f_R0 (fun i => / INR (fact i) * (- x) ^ i) n); auto.
    apply sum_eq. intros i _. unfold tg_alt. replace (- x) with (-1 * x) by ring. rewrite Rpow_mult_distr. unfold Rdiv. ring.
Qed.
Lemma inv_lt : forall a b, 0 < a -> / a < / b -> b < a.
Proof. intros a b Ha H. destruct (Rle_lt_dec a b) as [L|L]; auto. apply Rinv_le_contravar in L; auto. lra. Qed.
Lemma ln2_bounds : 693140 / 1000000 < ln 2 < 693160 / 1000000.
Proof.
  assert (A : forall a, 0 <= a <= 1 -> / 2 < exp (- a) -> a < ln 2).
  { intros a Ha H. apply exp_lt_inv. rewrite exp_ln by lra. rewrite exp_Ropp in H. now apply inv_lt in H; [|lra]. }
  assert (B : forall a, 0 <= a <= 1 -> exp (- a) < / 2 -> ln 2 < a).
  { intros a Ha H. apply exp_lt_inv. rewrite exp_ln by lra. rewrite exp_Ropp in H. apply inv_lt in H; auto. apply exp_pos. }
  split.
  - apply A; [lra|]. destruct (exp_neg_bounds (693140 / 1000000) 4) as [H _]; [lra|]. eapply Rlt_le_trans; [|exact H].
    unfold tg_alt. cbn [Nat.mul Nat.add sum_f_R0]. rewrite !fact_simpl, !mult_INR. change (fact 0) with 1%nat. cbn [pow INR]. lra.
  - apply B; [lra|]. destruct (exp_neg_bounds (693160 / 1000000) 4) as [_ H]; [lra|]. eapply Rle_lt_trans; [exact H|].
    unfold tg_alt. cbn [Nat.mul Nat.add sum_f_R0]. rewrite !fact_simpl, !mult_INR. change (fact 0) with 1%nat. cbn [pow INR]. lra.
Qed.

Lemma pi_bounds : 314159 / 100000 < PI < 314160 / 100000.
Proof.
  destruct (PI_2_3_7_ineq 3) as [H1 H2]. unfold tg_alt, PI_2_3_7_tg, Ratan_seq in *. simpl in H1, H2. lra.
Qed.
Lemma gauss_bounds : 226605 / 100000 < gauss_area < 226625 / 100000.
Proof.
  pose proof pi_bounds as [P1 P2]. pose proof ln2_bounds as [L1 L2]. unfold gauss_area. split.
  - apply Rmult_lt_reg_r with (r := 2 * ln 2); [lra|]. unfold Rdiv at 2. rewrite Rmult_assoc, Rinv_l by lra. lra.
  - apply Rmult_lt_reg_r with (r := 2 * ln 2); [lra|]. unfold Rdiv at 1. rewrite Rmult_assoc, Rinv_l by lra. lra.
Qed.
(** ZTF: the zero point of a row uses 2.266, the error of an observation pi/(2 ln 2), as effective area.  With the
    default camera the limiting magnitude is therefore almost, but never exactly, a 5-sigma detection. *)
Theorem C56_ztf_close : forall maglim sky fwhm exptime zp, 0 <= sky -> 0 < fwhm -> 0 <= exptime ->
  ztf_zero_point maglim sky fwhm exptime = Some zp ->
  exists e, ztf_error (mag2flux maglim) exptime fwhm sky zp ztf_gain ztf_read ztf_dark = Some e /\ 0 < e /\
    49995 / 10000 < mag2flux maglim / e < 5.
Proof.
  intros maglim sky fwhm exptime zp H1 H2 H3 H. unfold ztf_zero_point in H.
  destruct (zp_from_maglim maglim sky fwhm ztf_gain ztf_read ztf_dark exptime 1) as [zmag|] eqn:EZ; [|discriminate]. simpl in H. inversion H; subst zp. clear H.
  unfold zp_from_maglim in EZ. cbv zeta in EZ. set (n := limit_noise sky fwhm ztf_gain ztf_read ztf_dark exptime 1) in *.
  destruct (Rltb (25 + 4 * n) 0); [discriminate|]. inversion EZ; subst zmag. clear EZ.
  pose proof gauss_bounds as [G1 G2]. assert (W : 0 < fwhm * fwhm) by now apply Rmult_lt_0_compat.
  set (w := fwhm * fwhm) in *. set (q := sky * ztf_gain + 64).
  assert (Q : 64 <= q). { unfold q, ztf_gain. lra. }
  assert (EN : n = 2266 / 1000 * w * q). { unfold n, limit_noise, npix, ztf_gain, ztf_read, ztf_dark, q. fold w. unfold ztf_gain. field. }
  assert (NP : 0 < n). { rewrite EN. apply Rmult_lt_0_compat; lra. }
  destruct (limit_flux n (Rlt_le _ _ NP)) as [FP FQ]. set (F := 125 / 10 + 25 / 10 * sqrt (25 + 4 * n)) in *.
  set (z := mag2flux (25 / 10 * log10 F + maglim)) in *.
  assert (EM : mag2flux maglim = F * z).
  { unfold z, mag2flux. rewrite <- (pow_log10 F) at 1 by auto. rewrite <- Rpower_plus. f_equal. field. }
  assert (ZP : 0 < z) by apply C53_positive. unfold ztf_error. fold w.
  assert (HS : sane exptime 1 (gauss_area * w) (sky * ztf_gain) z (RNum ztf_read) ztf_dark).
  { unfold sane, ztf_gain, ztf_dark. repeat split; auto; try lra. apply Rmult_le_pos; lra. }
  destruct (C55_defined (mag2flux maglim) _ _ _ _ _ _ _ (Rlt_le _ _ (C53_positive maglim)) HS) as (e & E & P & QE).
  exists e. split; auto. rewrite EM in *. replace (F * z / z) with F in QE by (field; lra).
  assert (EB : background exptime 1 (gauss_area * w) (sky * ztf_gain) (RNum ztf_read) ztf_dark = gauss_area * w * q).
  { unfold background, ztf_read, ztf_dark, q. ring. }
  rewrite EB in QE. set (b := gauss_area * w * q) in *.
  assert (WQ : 0 < w * q) by (apply Rmult_lt_0_compat; lra).
  assert (B1 : n < b) by (rewrite EN; unfold b; rewrite !Rmult_assoc; apply Rmult_lt_compat_r; lra).
  assert (B2 : b < 10002 / 10000 * n) by (rewrite EN; unfold b; nra).
  assert (FZ : 0 < F * z) by now apply Rmult_lt_0_compat.
  assert (EP : 0 < e). { destruct P as [P|P]; auto. subst e. assert (0 < z * z * (F + b)) by (repeat apply Rmult_lt_0_compat; lra). lra. }
  split; auto. assert (ZZ : 0 < z * z) by now apply Rmult_lt_0_compat.
  assert (S1 : (F * z) * (F * z) < (5 * e) * (5 * e)).
  { replace (5 * e * (5 * e)) with (25 * (e * e)) by ring. rewrite QE. replace (F * z * (F * z)) with (z * z * (F * F)) by ring. rewrite FQ. nra. }
  assert (S2 : (49995 / 10000 * e) * (49995 / 10000 * e) < (F * z) * (F * z)).
  { replace (49995 / 10000 * e * (49995 / 10000 * e)) with ((49995 / 10000 * (49995 / 10000)) * (e * e)) by ring. rewrite QE. replace (F * z * (F * z)) with (z * z * (F * F)) by ring. rewrite FQ. nra. }
  assert (T1 : F * z < 5 * e) by (apply Rsqr_incrst_0; [exact S1|lra|lra]).
  assert (T2 : 49995 / 10000 * e < F * z) by (apply Rsqr_incrst_0; [exact S2|lra|lra]).
  split.
  - apply Rmult_lt_reg_r with (r := e); auto. unfold Rdiv at 2. rewrite Rmult_assoc, Rinv_l by lra. lra.
  - apply Rmult_lt_reg_r with (r := e); auto. unfold Rdiv at 1. rewrite Rmult_assoc, Rinv_l by lra. lra.
Qed.
(** With an overridden camera (here: read noise 80 instead of 8) the zero points are still those of the default camera, so
    the limiting magnitude is nowhere near 5 sigma. *)
Theorem C56_ztf_override_refuted : exists maglim sky fwhm exptime zp e, 0 <= sky /\ 0 < fwhm /\
  ztf_zero_point maglim sky fwhm exptime = Some zp /\ ztf_error (mag2flux maglim) exptime fwhm sky zp ztf_gain 80 ztf_dark = Some e /\
  mag2flux maglim / e < 1.
Proof.
  destruct (C56_defined 20 0 1 ztf_gain ztf_read ztf_dark 30 1) as (zmag & EZ & _); try (unfold ztf_gain, ztf_dark; lra).
  assert (HZ : ztf_zero_point 20 0 1 30 = Some (mag2flux zmag)) by (unfold ztf_zero_point; now rewrite EZ).
  unfold zp_from_maglim in EZ. cbv zeta in EZ. set (n := limit_noise 0 1 ztf_gain ztf_read ztf_dark 30 1) in *. destruct (Rltb (25 + 4 * n) 0); [discriminate|]. inversion EZ; subst zmag. clear EZ.
  assert (EN : n = 2266 / 1000 * 64). { unfold n, limit_noise, npix, ztf_gain, ztf_read, ztf_dark. field. }
  destruct (limit_flux n ltac:(lra)) as [FP FQ]. set (F := 125 / 10 + 25 / 10 * sqrt (25 + 4 * n)) in *. set (z := mag2flux (25 / 10 * log10 F + 20)) in *.
  assert (EM : mag2flux 20 = F * z).
  { unfold z, mag2flux. rewrite <- (pow_log10 F) at 1 by auto. rewrite <- Rpower_plus. f_equal. field. }
  assert (ZP : 0 < z) by apply C53_positive. pose proof gauss_bounds as [G1 G2].
  assert (HS : sane 30 1 (gauss_area * (1 * 1)) (0 * ztf_gain) z (RNum 80) ztf_dark).
  { unfold sane, ztf_gain, ztf_dark. repeat split; auto; lra. }
  destruct (C55_defined (mag2flux 20) _ _ _ _ _ _ _ (Rlt_le _ _ (C53_positive 20)) HS) as (e & E & P & QE).
  exists 20, 0, 1, 30, z, e. split; [lra|]. split; [lra|]. split; auto. split; auto. rewrite EM in *. replace (F * z / z) with F in QE by (field; lra).
  assert (EB : background 30 1 (gauss_area * (1 * 1)) (0 * ztf_gain) (RNum 80) ztf_dark = gauss_area * 6400) by (unfold background, ztf_dark; ring).
  rewrite EB in QE. assert (FZ : 0 < F * z) by now apply Rmult_lt_0_compat. assert (ZZ : 0 < z * z) by now apply Rmult_lt_0_compat.
  assert (FB : F < 100). { destruct (Rlt_le_dec F 100) as [L|L]; auto. exfalso. nra. }
  assert (S1 : (F * z) * (F * z) < e * e). { rewrite QE. replace (F * z * (F * z)) with (z * z * (F * F)) by ring. apply Rmult_lt_compat_l; auto. nra. }
  assert (T1 : F * z < e) by (apply Rsqr_incrst_0; [exact S1|lra|lra]).
  apply Rmult_lt_reg_r with (r := e); [lra|]. unfold Rdiv. rewrite Rmult_assoc, Rinv_l by lra. lra.
Qed.

(** ** C57 *)
Lemma log10_mult : forall a b, 0 < a -> 0 < b -> log10 (a * b) = log10 a + log10 b.
Proof. intros. unfold log10. rewrite ln_mult by auto. field. pose proof ln10_pos. lra. Qed.
(** The flux zero point is the flux of the magnitude zero point. *)
Theorem C57_consistent : forall zps exs band airmass exptime,
  flux_zeropoint zps exs band airmass exptime =
  match magnitude_zeropoint zps exs band airmass exptime with
  | Ok (Some m) => Ok (Some (mag2flux m)) | Ok None => Ok None | Err e => Err e
  end.
Proof. intros. unfold flux_zeropoint. destruct (magnitude_zeropoint _ _ _ _ _) as [[m|]|]; reflexivity. Qed.
Theorem C57_exposure_time : forall zps exs band airmass t c z, 0 < c -> flux_zeropoint zps exs band airmass t = Ok (Some z) ->
  flux_zeropoint zps exs band airmass (c * t) = Ok (Some (z / c)).
Proof.
  intros zps exs band airmass t c z HC H. rewrite C57_consistent in *. unfold magnitude_zeropoint in *. cbv zeta in *.
  destruct (dget band _) as [z0|]; [|discriminate]. destruct (dget band _) as [k|]; [|discriminate]. destruct (Rleb t 0) eqn:ET; [discriminate|].
  apply Rleb_false in ET. inversion H; subst. replace (Rleb (c * t) 0) with false by (symmetry; apply Rleb_false; now apply Rmult_lt_0_compat).
  do 2 f_equal. rewrite log10_mult by auto. unfold mag2flux. set (x := log10 t). transitivity (Rpower 10 (- (4 / 10) * (z0 + k * (airmass - 1) + 25 / 10 * x - mag_zp)) * / Rpower 10 (log10 c)).
  - rewrite <- Rpower_Ropp, <- Rpower_plus. f_equal. field.
  - now rewrite pow_log10.
Qed.
(** Airmass: the sign of the extinction coefficient decides. *)
Theorem C57_airmass : forall zps exs band a1 a2 t z1 z2, a1 < a2 ->
  flux_zeropoint zps exs band a1 t = Ok (Some z1) -> flux_zeropoint zps exs band a2 t = Ok (Some z2) ->
  exists k, dget band (match exs with None => lsst_ext | Some d => d end) = Some k /\
    (k < 0 -> z1 < z2) /\ (k = 0 -> z1 = z2) /\ (0 < k -> z2 < z1) /\ z2 = z1 * Rpower 10 (- (4 / 10) * (k * (a2 - a1))).
Proof.
  intros zps exs band a1 a2 t z1 z2 HA H1 H2. rewrite C57_consistent in *. unfold magnitude_zeropoint in *. cbv zeta in *.
  destruct (dget band (match zps with None => lsst_zp | Some d => d end)) as [z0|]; [|discriminate].
  destruct (dget band (match exs with None => lsst_ext | Some d => d end)) as [k|] eqn:EK; [|discriminate]. destruct (Rleb t 0); [discriminate|].
  inversion H1; inversion H2; subst. exists k. split; auto. repeat split; intros.
  - apply (proj1 (C53_brighter_is_smaller _ _)). assert (0 < (a2 - a1) * - k) by (apply Rmult_lt_0_compat; lra). lra.
  - subst. f_equal. ring.
  - apply (proj1 (C53_brighter_is_smaller _ _)). assert (0 < (a2 - a1) * k) by (apply Rmult_lt_0_compat; lra). lra.
  - unfold mag2flux. rewrite <- Rpower_plus. f_equal. field.
Qed.
(** The built-in tables cover the six LSST bands, and the zero point flux grows with airmass in all of them. *)
Theorem C57_lsst : forall band airmass t, In band ["u"; "g"; "r"; "i"; "z"; "y"]%string -> 0 < t ->
  exists z, flux_zeropoint None None band airmass t = Ok (Some z) /\ 0 < z /\
    forall a2 z2, airmass < a2 -> flux_zeropoint None None band a2 t = Ok (Some z2) -> z < z2.
Proof.
  intros band airmass t HB HT.
  assert (D : exists z0 k, dget band lsst_zp = Some z0 /\ dget band lsst_ext = Some k /\ k < 0).
  { simpl in HB. destruct HB as [<-|[<-|[<-|[<-|[<-|[<-|[]]]]]]]; simpl; eexists; eexists; (split; [reflexivity|]; split; [reflexivity|]; lra). }
  destruct D as (z0 & k & D1 & D2 & D3). eexists. split; [|split].
  - rewrite C57_consistent. unfold magnitude_zeropoint. cbv zeta. rewrite D1, D2. replace (Rleb t 0) with false by (symmetry; now apply Rleb_false). reflexivity.
  - apply C53_positive.
  - intros a2 z2 HA H2. rewrite C57_consistent in H2. unfold magnitude_zeropoint in H2. cbv zeta in H2. rewrite D1, D2 in H2.
    replace (Rleb t 0) with false in H2 by (symmetry; now apply Rleb_false). inversion H2; subst. apply (proj1 (C53_brighter_is_smaller _ _)). assert (0 < (a2 - airmass) * - k) by (apply Rmult_lt_0_compat; lra). lra.
Qed.
Theorem C57_unknown_band : forall zps exs band a t, dget band (match zps with None => lsst_zp | Some d => d end) = None ->
  flux_zeropoint zps exs band a t = Err TypeError.
Proof. intros zps exs band a t H. rewrite C57_consistent. unfold magnitude_zeropoint. cbv zeta. now rewrite H. Qed.
Theorem C57_reference : forall zps exs band z0 k, dget band zps = Some z0 -> dget band exs = Some k ->
  flux_zeropoint (Some zps) (Some exs) band 1 1 = Ok (Some (mag2flux z0)).
Proof.
  intros zps exs band z0 k H1 H2. rewrite C57_consistent. unfold magnitude_zeropoint. cbv zeta. rewrite H1, H2.
  replace (Rleb 1 0) with false by (symmetry; apply Rleb_false; lra). do 3 f_equal. unfold log10. rewrite ln_1. field. pose proof ln10_pos. lra.
Qed.
(** OpSim: the error is finite and positive for every physical row. *)
Theorem C55_opsim_defined : forall flux t nexp seeing skyb zp ps rn dark, 0 <= flux -> 0 <= t -> 0 <= nexp -> 0 < zp -> 0 <= dark -> 0 < ps -> 0 < seeing ->
  exists e, opsim_error flux t nexp seeing skyb zp ps rn dark = Some e /\ 0 < e.
Proof.
  intros flux t nexp seeing skyb zp ps rn dark H1 H2 H3 H4 H5 H6 H7. unfold opsim_error. replace (Reqb zp 0) with false by (symmetry; apply Reqb_false; lra).
  pose proof gauss_bounds as [G _]. pose proof (C53_positive skyb) as SB.
  assert (FP : 0 < gauss_area * (seeing / ps * (seeing / ps))).
  { assert (0 < seeing / ps) by (apply Rdiv_lt_0_compat; auto). apply Rmult_lt_0_compat; [lra|]. now apply Rmult_lt_0_compat. }
  assert (SK : 0 < mag2flux skyb * (ps * ps) / zp) by (apply Rdiv_lt_0_compat; auto; repeat apply Rmult_lt_0_compat; auto).
  assert (HS : sane t nexp (gauss_area * (seeing / ps * (seeing / ps))) (mag2flux skyb * (ps * ps) / zp) zp (RNum rn) dark) by (unfold sane; repeat split; lra).
  destruct (C55_defined flux _ _ _ _ _ _ _ H1 HS) as (e & E & P & Q). exists e. split; auto. destruct P as [P|P]; auto. subst e.
  assert (0 <= flux / zp) by now apply div_nonneg. unfold background in Q.
  assert (0 < mag2flux skyb * (ps * ps) / zp * (gauss_area * (seeing / ps * (seeing / ps)))) by now apply Rmult_lt_0_compat.
  assert (0 <= rn * rn * (gauss_area * (seeing / ps * (seeing / ps))) * nexp). { pose proof (Rle_0_sqr rn) as QQ. unfold Rsqr in QQ. apply Rmult_le_pos; auto. apply Rmult_le_pos; auto. lra. }
  assert (0 <= dark * t * (gauss_area * (seeing / ps * (seeing / ps)))). { apply Rmult_le_pos; [|lra]. now apply Rmult_le_pos. }
  assert (0 < zp * zp) by now apply Rmult_lt_0_compat. nra.
Qed.
