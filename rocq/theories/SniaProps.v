(** C83: SN Ia rates, distances and light-curve parameters. *)
From Coq Require Import Reals String List Bool Arith ZArith Lia Lra.
From Coquelicot Require Import Coquelicot.
From Verif Require Import Base BaseFacts RealBase PassbandModel PassbandProofs NoiseModel NoiseProps SurveyModel FootprintModel ScipyModel ScipyProps SniaModel.
Import ListNotations.
Open Scope R_scope.

(** ** The expansion function and distances *)
Lemma inside_pos : forall om z, 0 <= om <= 1 -> -1 < z -> 0 < om * (1 + z) ^ 3 + (1 - om).
Proof.
  intros om z Ho Hz. assert (C : 0 < (1 + z) ^ 3) by (apply pow_lt; lra). destruct (Req_dec om 1) as [-> | N]; [lra|].
  assert (0 <= om * (1 + z) ^ 3) by (apply Rmult_le_pos; lra). lra.
Qed.
Lemma efunc_pos : forall om z, 0 <= om <= 1 -> -1 < z -> 0 < efunc om z.
Proof. intros om z Ho Hz. apply sqrt_lt_R0. now apply inside_pos. Qed.
Lemma inv_e_cont : forall om z, 0 <= om <= 1 -> -1 < z -> continuous (fun t => / efunc om t) z.
Proof.
  intros om z Ho Hz. apply (ex_derive_continuous (fun t => / efunc om t)). unfold efunc. auto_derive.
  pose proof (inside_pos om z Ho Hz) as P. pose proof (efunc_pos om z Ho Hz) as Q. unfold efunc in Q.
  simpl in *. split; [|split; auto]; lra.
Qed.
Lemma inv_e_int : forall om a b, 0 <= om <= 1 -> -1 < a -> -1 < b -> ex_RInt (fun t => / efunc om t) a b.
Proof.
  intros om a b Ho Ha Hb. apply (ex_RInt_continuous (V := R_CompleteNormedModule)). intros z Hz. apply inv_e_cont; auto.
  unfold Rmin, Rmax in Hz. destruct (Rle_dec a b); lra.
Qed.
Lemma comoving_0 : forall h om, comoving h om 0 = 0.
Proof. intros. unfold comoving. rewrite RInt_point. unfold zero. simpl. ring. Qed.
Lemma comoving_increasing : forall h om a b, 0 < h -> 0 <= om <= 1 -> -1 < a -> a < b -> comoving h om a < comoving h om b.
Proof.
  intros h om a b Hh Ho Ha Hb. unfold comoving. assert (HD : 0 < hubble_distance h). { unfold hubble_distance, light_km_s. apply Rdiv_lt_0_compat; lra. }
  apply Rmult_lt_compat_l; auto.
  rewrite <- (RInt_Chasles (fun t => / efunc om t) 0 a b) by (apply inv_e_int; auto; lra). unfold plus. simpl.
  assert (0 < RInt (fun t => / efunc om t) a b); [|lra].
  apply RInt_gt_0; auto. { intros x Hx. apply Rinv_0_lt_compat, efunc_pos; auto; lra. }
  intros x Hx. apply inv_e_cont; auto; lra.
Qed.
(** Distances: zero at redshift 0, growing with redshift; the distance duality relation. *)
Theorem C83_distances : forall h om, 0 < h -> 0 <= om <= 1 ->
  luminosity_distance h om 0 = 0 /\
  (forall a b, 0 <= a -> a < b -> luminosity_distance h om a < luminosity_distance h om b) /\
  (forall z, 0 <= z -> luminosity_distance h om z = (1 + z) ^ 2 * angular_diameter_distance h om z) /\
  (forall h' z, 0 < h' -> h * luminosity_distance h om z = h' * luminosity_distance h' om z).
Proof.
  intros h om Hh Ho. unfold luminosity_distance, angular_diameter_distance. repeat match goal with |- _ /\ _ => split end.
  - rewrite comoving_0. ring.
  - intros a b Ha Hb. pose proof (comoving_increasing h om a b Hh Ho ltac:(lra) Hb) as I.
    assert (0 <= comoving h om a). { destruct Ha as [Ha|<-]; [|rewrite comoving_0; lra]. rewrite <- (comoving_0 h om). left. apply comoving_increasing; auto; lra. }
    apply Rle_lt_trans with ((1 + b) * comoving h om a); [apply Rmult_le_compat_r; lra|apply Rmult_lt_compat_l; lra].
  - intros z Hz. field. lra.
  - intros h' z Hh'. unfold comoving, hubble_distance. field. lra.
Qed.
(** The distance modulus: defined for z > 0, growing, five magnitudes for a factor 10 in distance. *)
Theorem C83_distmod : forall h om z, 0 < h -> 0 <= om <= 1 ->
  distmod h om 0 = None /\
  (0 < z -> distmod h om z = Some (5 * log10 (luminosity_distance h om z) + 25)) /\
  (forall z' m m', 0 < z -> z < z' -> distmod h om z = Some m -> distmod h om z' = Some m' -> m < m').
Proof.
  intros h om z Hh Ho. destruct (C83_distances h om Hh Ho) as (Z0 & MON & _).
  assert (D : forall y, 0 < y -> 0 < luminosity_distance h om y). { intros y Hy. rewrite <- Z0. apply MON; lra. }
  assert (V : forall y, 0 < y -> distmod h om y = Some (5 * log10 (luminosity_distance h om y) + 25)).
  { intros y Hy. specialize (D y Hy). unfold distmod. rewrite Rabs_right by lra. destruct (Reqb (luminosity_distance h om y) 0) eqn:E; auto. apply Reqb_true in E. lra. }
  split; [|split; auto].
  - unfold distmod. rewrite Z0, Rabs_R0. destruct (Reqb 0 0) eqn:E; auto. apply Reqb_false in E. lra.
  - intros z' m m' Hz Hz' H H'. rewrite V in H, H' by lra. injection H as <-. injection H' as <-.
    assert (L : log10 (luminosity_distance h om z) < log10 (luminosity_distance h om z')).
    { unfold log10. unfold Rdiv. apply Rmult_lt_compat_r; [apply Rinv_0_lt_compat, ln10_pos|]. apply ln_increasing; auto. apply MON; lra. }
    lra.
Qed.
(** The node accepts floats only. *)
Theorem C83_constants : forall h om, (forall x y, h = PFloat x -> om = PFloat y -> distmod_make h om = Ok (distmod x y)) /\
  (forall m, distmod_make h om = Ok m -> exists x y, h = PFloat x /\ om = PFloat y /\ m = distmod x y) /\ (forall e, distmod_make h om = Err e -> e = ValueError).
Proof.
  intros h om. repeat match goal with |- _ /\ _ => split end.
  - intros x y -> ->. reflexivity.
  - intros m H. destruct h, om; try discriminate. injection H as <-. eauto.
  - intros e H. destruct h, om; simpl in H; congruence.
Qed.
(** Finding: a constant given as an integer (H0=70) is refused, with the message that the values must be constants. *)
Theorem C83_integer_refuted : forall om, distmod_make (PInt 70) om = Err ValueError.
Proof. reflexivity. Qed.

(** ** Rates *)
Theorem C83_rate : volumetric_rate 0 = 227 / 10000000 /\ (forall z, 0 < volumetric_rate z) /\
  (forall a b, -1 < a -> a < b -> volumetric_rate a < volumetric_rate b).
Proof.
  unfold volumetric_rate. repeat match goal with |- _ /\ _ => split end.
  - replace (1 + 0) with 1 by ring. unfold Rpower. rewrite ln_1, Rmult_0_r, exp_0. lra.
  - intros z. apply Rmult_lt_0_compat; [lra|]. apply exp_pos.
  - intros a b Ha Hb. apply Rmult_lt_compat_l; [lra|]. unfold Rpower. apply exp_increasing, Rmult_lt_compat_l; [lra|]. apply ln_increasing; lra.
Qed.
Lemma pairs_nth : forall {A} (l : list A) i a b, nth_error l i = Some a -> nth_error l (S i) = Some b -> nth_error (pairs l) i = Some (a, b).
Proof.
  intros A l. induction l as [|x l IH]; intros i a b H1 H2; [destruct i; discriminate|]. destruct l as [|y l]; [destruct i; discriminate|].
  destruct i as [|i]; simpl in *; [congruence|]. apply IH; auto.
Qed.
Lemma pairs_length : forall {A} (l : list A), length (pairs l) = pred (length l).
Proof. intros A l. induction l as [|x [|y l] IH]; auto. change (pairs (x :: y :: l)) with ((x, y) :: pairs (y :: l)). simpl length. simpl in IH. now rewrite IH. Qed.
Lemma linspace_nth : forall lo hi n i, (2 <= n)%nat -> (i < n)%nat -> nth_error (linspace lo hi n) i = Some (lo + INR i * ((hi - lo) / INR (n - 1))).
Proof.
  intros lo hi n i Hn Hi. destruct n as [|[|k]]; try lia. unfold linspace. rewrite nth_error_map.
  rewrite (nth_error_nth' _ 0%nat) by now rewrite seq_length. rewrite seq_nth by auto. simpl option_map. replace (S (S k) - 1)%nat with (S k) by lia. reflexivity.
Qed.
Lemma linspace_length : forall lo hi n, length (linspace lo hi n) = n.
Proof. intros lo hi [|[|k]]; auto. unfold linspace. now rewrite map_length, seq_length. Qed.
(** The edges of the bins. *)
Definition edge (zmin zmax : R) (bins i : nat) : R := zmin + INR i * ((zmax - zmin) / INR bins).
Lemma bins_nth : forall zmin zmax bins i, (i < bins)%nat ->
  nth_error (pairs (linspace zmin zmax (S bins))) i = Some (edge zmin zmax bins i, edge zmin zmax bins (S i)).
Proof.
  intros zmin zmax bins i Hi. unfold edge. apply pairs_nth; (rewrite linspace_nth by lia); now replace (S bins - 1)%nat with bins by lia.
Qed.
Lemma edge_lt : forall zmin zmax bins i, zmin < zmax -> (i < bins)%nat -> edge zmin zmax bins i < edge zmin zmax bins (S i).
Proof.
  intros zmin zmax bins i H Hi. unfold edge. assert (0 < (zmax - zmin) / INR bins). { apply Rdiv_lt_0_compat; [lra|]. apply lt_0_INR. lia. }
  rewrite S_INR. lra.
Qed.
Lemma edge_range : forall zmin zmax bins i, zmin < zmax -> (i <= bins)%nat -> (1 <= bins)%nat -> zmin <= edge zmin zmax bins i <= zmax.
Proof.
  intros zmin zmax bins i H Hi Hb. unfold edge. assert (B : 0 < INR bins) by (apply lt_0_INR; lia). assert (0 <= INR i) by apply pos_INR. assert (LE : INR i <= INR bins) by now apply le_INR.
  assert (Q : 0 < (zmax - zmin) / INR bins) by (apply Rdiv_lt_0_compat; lra). split.
  - assert (0 <= INR i * ((zmax - zmin) / INR bins)) by (apply Rmult_le_pos; lra). lra.
  - assert (INR i * ((zmax - zmin) / INR bins) <= INR bins * ((zmax - zmin) / INR bins)) by (apply Rmult_le_compat_r; lra).
    replace (INR bins * ((zmax - zmin) / INR bins)) with (zmax - zmin) in H1 by (field; lra). lra.
Qed.
Lemma Rsum_arith : forall n a d k, Rsum (map (fun i => a + INR i * d) (seq k n)) = INR n * (a + d * (INR k + (INR n - 1) / 2)).
Proof.
  induction n as [|n IH]; intros a d k; [simpl; ring|]. simpl seq. simpl map. simpl Rsum. rewrite IH, !S_INR. field.
Qed.
(** [bins] bins of equal width fill the range from zmin to zmax; the mean redshift is the middle of the bin. *)
Theorem C83_bins : forall zmin zmax bins area h om num zm, (1 <= bins)%nat -> snia_numbers zmin zmax bins area h om = (num, zm) ->
  length num = bins /\ length zm = bins /\ edge zmin zmax bins 0 = zmin /\ edge zmin zmax bins bins = zmax /\
  forall i, (i < bins)%nat -> nth_error zm i = Some ((edge zmin zmax bins i + edge zmin zmax bins (S i)) / 2).
Proof.
  intros zmin zmax bins area h om num zm Hb H. unfold snia_numbers in H. apply pair_equal_spec in H. destruct H as [<- <-]. rewrite !map_length, pairs_length, linspace_length. change (pred (S bins)) with bins.
  assert (B : 0 < INR bins) by (apply lt_0_INR; lia).
  split; auto. split; auto. split; [unfold edge; simpl; ring|]. split; [unfold edge; field; lra|].
  intros i Hi. rewrite !nth_error_map, bins_nth by auto. cbn [option_map fst snd]. f_equal. set (a := edge _ _ _ i). set (b := edge _ _ _ (S i)).
  unfold mean. rewrite linspace_length. unfold linspace. rewrite Rsum_arith. simpl INR. field.
Qed.
(** The number per bin is the width of the bin times a value between any bounds of dN/dz there; dN/dz is the volumetric rate times the
    volume per redshift of the solid angle. *)
Definition dn_dz (area h om z : R) : R := volumetric_rate z * area * diff_volume h om z * (h / 70) ^ 3.
Lemma trapz_bounds : forall (t : curve) m mm p, increasing (xs (p :: t)) -> List.Forall (fun q => m <= snd q <= mm) (p :: t) ->
  m * (last (xs (p :: t)) 0 - fst p) <= trapz (p :: t) <= mm * (last (xs (p :: t)) 0 - fst p).
Proof.
  intros t m mm. induction t as [|q t IH]; intros p HI HF; [destruct p as [px py]; simpl; replace (px - px) with 0 by ring; lra|].
  inversion HF as [|? ? F1 F2]; subst. inversion F2 as [|? ? F3 _]; subst. rewrite trapz_cons.
  assert (LT : fst p < fst q) by (simpl in HI; tauto). assert (HI' : increasing (xs (q :: t))) by (simpl in HI; tauto).
  specialize (IH q HI' F2). change (last (xs (p :: q :: t)) 0) with (last (xs (q :: t)) 0). set (e := last (xs (q :: t)) 0) in *.
  assert (A1 : m * (fst q - fst p) <= (fst q - fst p) * (snd p + snd q) / 2).
  { replace ((fst q - fst p) * (snd p + snd q) / 2) with ((snd p + snd q) / 2 * (fst q - fst p)) by field. apply Rmult_le_compat_r; lra. }
  assert (A2 : (fst q - fst p) * (snd p + snd q) / 2 <= mm * (fst q - fst p)).
  { replace ((fst q - fst p) * (snd p + snd q) / 2 ) with ((snd p + snd q) / 2 * (fst q - fst p)) by field. apply Rmult_le_compat_r; lra. }
  split; lra.
Qed.
Theorem C83_numbers : forall zmin zmax bins area h om num zm i m mm, zmin < zmax -> (i < bins)%nat -> snia_numbers zmin zmax bins area h om = (num, zm) ->
  let a := edge zmin zmax bins i in let b := edge zmin zmax bins (S i) in
  (forall z, a <= z <= b -> m <= dn_dz (match area with None => 4 * PI | Some s => s end) h om z <= mm) ->
  exists v, nth_error num i = Some v /\ m * (b - a) <= v <= mm * (b - a).
Proof.
  intros zmin zmax bins area h om num zm i m mm Hz Hi H a b HB. unfold snia_numbers in H. apply pair_equal_spec in H. destruct H as [<- _]. rewrite !nth_error_map, bins_nth by auto. cbn [option_map fst snd].
  fold a b. eexists. split; [reflexivity|]. assert (AB : a < b) by now apply edge_lt.
  set (s := match area with None => 4 * PI | Some s => s end) in *. set (dn := fun z => volumetric_rate z * (s * diff_volume h om z * (h / 70) ^ 3)).
  pose proof (linspace_increasing a b 50 AB) as INC. pose proof (fun x => linspace_In a b 50 x (Rlt_le _ _ AB)) as RNG.
  destruct (linspace a b 50) as [|z0 l] eqn:E; [discriminate|].
  assert (H0 : z0 = a). { pose proof (linspace_nth a b 50 0 ltac:(lia) ltac:(lia)) as N. rewrite E in N. injection N as ->. simpl. ring. }
  assert (HL : last (z0 :: l) 0 = b).
  { assert (LL : length (z0 :: l) = 50%nat) by (rewrite <- E; apply linspace_length). pose proof (linspace_nth a b 50 49 ltac:(lia) ltac:(lia)) as N. rewrite E in N.
    apply nth_error_nth with (d := 0) in N. rewrite <- (firstn_skipn 49 (z0 :: l)). 
    assert (S49 : skipn 49 (z0 :: l) = [nth 49 (z0 :: l) 0]).
    { assert (LS : length (skipn 49 (z0 :: l)) = 1%nat) by (rewrite skipn_length, LL; reflexivity). destruct (skipn 49 (z0 :: l)) as [|y [|? ?]] eqn:ES; try discriminate.
      f_equal. rewrite <- (firstn_skipn 49 (z0 :: l)) at 1. rewrite app_nth2; rewrite firstn_length, LL; [|lia]. rewrite ES. reflexivity. }
    rewrite S49, last_last, N. replace (INR (50 - 1)) with (INR 49) by reflexivity. field. apply not_0_INR. lia. }
  assert (XS : xs (map (fun z => (z, dn z)) (z0 :: l)) = z0 :: l). { unfold xs. rewrite map_map. apply map_id. }
  pose proof (trapz_bounds (map (fun z => (z, dn z)) l) m mm (z0, dn z0)) as TB. change ((z0, dn z0) :: map (fun z => (z, dn z)) l) with (map (fun z => (z, dn z)) (z0 :: l)) in TB.
  rewrite XS, HL in TB. cbn [fst] in TB. rewrite H0 in TB at 3 6. apply TB; auto.
  apply Forall_forall. intros q Hq. apply in_map_iff in Hq. destruct Hq as (z & <- & Hin). cbn [snd]. specialize (HB z (RNG z Hin)). unfold dn_dz in HB. unfold dn.
  match goal with |- _ <= ?X <= _ => match type of HB with _ <= ?Y <= _ => replace X with Y by ring end end. exact HB.
Qed.
(** The rates are per h_70^3: the numbers do not depend on the Hubble constant. *)
Theorem C83_hubble : forall zmin zmax bins area h h' om, 0 < h -> 0 < h' -> snia_numbers zmin zmax bins area h om = snia_numbers zmin zmax bins area h' om.
Proof.
  intros zmin zmax bins area h h' om Hh Hh'. unfold snia_numbers. f_equal. apply map_ext. intros g. f_equal. apply map_ext. intros z. f_equal.
  unfold diff_volume, comoving, hubble_distance. 
  set (I := RInt (fun t : R => / efunc om t) 0 z). set (w := / efunc om z). set (v := volumetric_rate z). set (s := match area with Some a => a | None => 4 * PI end).
  assert (E : forall k, 0 < k -> v * (s * (light_km_s / k * (light_km_s / k * I * (light_km_s / k * I)) * w) * (k / 70) ^ 3) = v * s * (light_km_s / 70) ^ 3 * (I * I) * w).
  { intros k Hk. field. lra. }
  unfold Rdiv at 1 6. fold w. rewrite (E h Hh), (E h' Hh'). reflexivity.
Qed.
(** They are proportional to the solid angle, the default being the whole sky, and positive for positive redshifts. *)
Theorem C83_solid_angle : forall zmin zmax bins h om, 
  snia_numbers zmin zmax bins None h om = snia_numbers zmin zmax bins (Some (4 * PI)) h om /\
  forall k s, fst (snia_numbers zmin zmax bins (Some (k * s)) h om) = map (Rmult k) (fst (snia_numbers zmin zmax bins (Some s) h om)).
Proof.
  intros zmin zmax bins h om. split; [reflexivity|]. intros k s. unfold snia_numbers. cbn [fst]. set (G := map _ (pairs _)). rewrite map_map. apply map_ext. intros g. rewrite <- trapz_scale. f_equal.
  unfold yscale. rewrite map_map. apply map_ext. intros z. cbn [fst snd]. f_equal. ring.
Qed.
Theorem C83_positive : forall zmin zmax bins area h om num zm, 0 <= zmin < zmax -> 0 < h -> 0 <= om <= 1 -> match area with None => True | Some s => 0 < s end ->
  snia_numbers zmin zmax bins area h om = (num, zm) -> List.Forall (fun v => 0 < v) num.
Proof.
  intros zmin zmax bins area h om num zm Hz Hh Ho HA H. unfold snia_numbers in H. apply pair_equal_spec in H. destruct H as [<- _]. apply Forall_forall. intros v Hv. apply in_map_iff in Hv. destruct Hv as (g & <- & Hg).
  apply in_map_iff in Hg. destruct Hg as ([a b] & <- & Hab). cbn [fst snd].
  destruct (In_nth_error _ _ Hab) as [i Hi]. assert (IB : (i < bins)%nat). { assert (nth_error (pairs (linspace zmin zmax (S bins))) i <> None) by congruence. apply nth_error_Some in H. rewrite pairs_length, linspace_length in H. exact H. }
  rewrite bins_nth in Hi by auto. injection Hi as <- <-. set (a := edge _ _ _ _). set (b := edge _ _ _ _). assert (AB : a < b) by (apply edge_lt; auto; lra).
  assert (RA : 0 <= a). { pose proof (edge_range zmin zmax bins i ltac:(lra) ltac:(lia) ltac:(lia)) as Q. fold a in Q. lra. }
  set (s := match area with None => 4 * PI | Some s => s end). assert (SP : 0 < s). { unfold s. destruct area; auto. pose proof PI_RGT_0. lra. }
  assert (DP : forall z, 0 < z -> 0 < volumetric_rate z * (s * diff_volume h om z * (h / 70) ^ 3)).
  { intros z Hz0. destruct C83_rate as (_ & RP & _). apply Rmult_lt_0_compat; auto.
    assert (HD : 0 < hubble_distance h). { unfold hubble_distance, light_km_s. apply Rdiv_lt_0_compat; lra. }
    assert (CP : 0 < comoving h om z). { rewrite <- (comoving_0 h om). apply comoving_increasing; auto; lra. }
    assert (EP := efunc_pos om z Ho ltac:(lra)). assert (VP : 0 < diff_volume h om z). { unfold diff_volume. apply Rdiv_lt_0_compat; auto. apply Rmult_lt_0_compat; auto. apply Rmult_lt_0_compat; auto. }
    assert (0 < (h / 70) ^ 3) by (apply pow_lt; lra). apply Rmult_lt_0_compat; auto. apply Rmult_lt_0_compat; auto. }
  assert (DN : forall z, 0 <= z -> 0 <= volumetric_rate z * (s * diff_volume h om z * (h / 70) ^ 3)).
  { intros z [Hz0|<-]; [left; auto|]. unfold diff_volume. rewrite comoving_0. right. unfold Rdiv. ring. }
  pose proof (linspace_increasing a b 50 AB) as INC. pose proof (fun x => linspace_In a b 50 x (Rlt_le _ _ AB)) as RNG. pose proof (linspace_length a b 50) as LL.
  destruct (linspace a b 50) as [|z0 [|z1 l]] eqn:E; try discriminate. cbn [map]. rewrite trapz_cons. cbn [fst snd].
  assert (Z01 : z0 < z1) by (simpl in INC; tauto). assert (P0 := DN z0 ltac:(specialize (RNG z0 (or_introl eq_refl)); lra)). assert (P1 := DP z1 ltac:(specialize (RNG z0 (or_introl eq_refl)); lra)).
  assert (T : 0 <= trapz ((z1, volumetric_rate z1 * (s * diff_volume h om z1 * (h / 70) ^ 3)) :: map (fun z => (z, volumetric_rate z * (s * diff_volume h om z * (h / 70) ^ 3))) l)).
  { change ((z1, volumetric_rate z1 * (s * diff_volume h om z1 * (h / 70) ^ 3)) :: map (fun z => (z, volumetric_rate z * (s * diff_volume h om z * (h / 70) ^ 3))) l)
      with (map (fun z => (z, volumetric_rate z * (s * diff_volume h om z * (h / 70) ^ 3))) (z1 :: l)). apply trapz_nonneg.
    - unfold xs. rewrite map_map. cbn [fst]. rewrite map_id. simpl in INC. tauto.
    - apply Forall_forall. intros q Hq. apply in_map_iff in Hq. destruct Hq as (z & <- & Hin). cbn [snd]. apply DN. specialize (RNG z (or_intror Hin)). lra. }
  apply Rplus_lt_le_0_compat; [|exact T]. apply Rdiv_lt_0_compat; [|lra]. apply Rmult_lt_0_compat; lra.
Qed.
(** ** The Tripp relation *)
Theorem C83_tripp : forall mu x1 c alpha beta m_abs x0,
  (0 < x0 /\ mu = - (25 / 10) * log10 x0 + alpha * x1 - beta * c - m_abs + 10635 / 1000) <-> x0 = x0_from_distmod mu x1 c alpha beta m_abs.
Proof.
  intros. unfold x0_from_distmod. split.
  - intros [Hp ->]. rewrite <- (pow_log10 x0 Hp) at 1. f_equal. field.
  - intros ->. split; [apply exp_pos|]. rewrite log10_pow. field.
Qed.
(** The amplitude falls with the square of the luminosity distance. *)
Theorem C83_inverse_square : forall h om z z' x1 c alpha beta m_abs m m', 0 < h -> 0 <= om <= 1 -> 0 < z -> 0 < z' ->
  distmod h om z = Some m -> distmod h om z' = Some m' ->
  x0_from_distmod m x1 c alpha beta m_abs * (luminosity_distance h om z) ^ 2 = x0_from_distmod m' x1 c alpha beta m_abs * (luminosity_distance h om z') ^ 2.
Proof.
  intros h om z z' x1 c alpha beta m_abs m m' Hh Ho Hz Hz' E E'.
  destruct (C83_distances h om Hh Ho) as (Z0 & MON & _).
  assert (D : forall y, 0 < y -> 0 < luminosity_distance h om y). { intros y Hy. rewrite <- Z0. apply MON; lra. }
  destruct (C83_distmod h om z Hh Ho) as (_ & V & _). destruct (C83_distmod h om z' Hh Ho) as (_ & V' & _). rewrite (V Hz) in E. rewrite (V' Hz') in E'. injection E as <-. injection E' as <-.
  assert (K : forall d, 0 < d -> x0_from_distmod (5 * log10 d + 25) x1 c alpha beta m_abs * d ^ 2 = Rpower 10 (- (4 / 10) * (25 - alpha * x1 + beta * c + m_abs - 10635 / 1000))).
  { intros d Hd. unfold x0_from_distmod. rewrite <- (pow_log10 d Hd) at 2. simpl. rewrite Rmult_1_r, <- !Rpower_plus. f_equal. field. }
  rewrite !K by auto. reflexivity.
Qed.
(** ** The stretch given the host mass *)
(** "HostmassX1Distr can only take on two values": the density depends on the host mass only through whether it is below 10. *)
Theorem C83_x1_density : forall m x,
  x1_pdf m x = (if Rltb m 10 then x1_pdf 9 x else x1_pdf 11 x) /\
  x1_pdf 11 x = exp (- (x * x) / 2) / sqrt (2 * PI) /\
  (-5 < x -> x < 0 -> x1_pdf 9 x = exp (- (x * x)) * x1_pdf 11 x) /\ (0 <= x -> x < 5 -> x1_pdf 9 x = x1_pdf 11 x) /\ (x <= -5 \/ 5 <= x -> x1_pdf 9 x = 0) /\
  0 <= x1_pdf m x <= exp (- (x * x) / 2) / sqrt (2 * PI).
Proof.
  intros m x. assert (L9 : Rltb 9 10 = true) by (apply Rltb_true; lra). assert (L11 : Rltb 11 10 = false) by (apply Rltb_false; lra).
  assert (SP : 0 < sqrt (2 * PI)) by (apply sqrt_lt_R0; pose proof PI_RGT_0; lra).
  assert (NP : 0 < normal_pdf x) by (unfold normal_pdf; apply Rdiv_lt_0_compat; auto; apply exp_pos).
  assert (X9 : x1_pdf 9 x = (if (Rltb (-5) x && Rltb x 5)%bool then exp (- (Rmin 0 x * Rmin 0 x)) else 0) * normal_pdf x) by (unfold x1_pdf, x1_p; rewrite L9; reflexivity).
  assert (X11 : x1_pdf 11 x = normal_pdf x) by (unfold x1_pdf, x1_p; rewrite L11; ring).
  split. { unfold x1_pdf, x1_p. rewrite L9, L11. destruct (Rltb m 10); reflexivity. }
  split; [exact X11|]. repeat match goal with |- _ /\ _ => split end.
  - intros H1 H2. rewrite X9, X11. replace (Rltb (-5) x) with true by (symmetry; apply Rltb_true; lra). replace (Rltb x 5) with true by (symmetry; apply Rltb_true; lra). simpl. rewrite Rmin_right by lra. reflexivity.
  - intros H1 H2. rewrite X9, X11. replace (Rltb (-5) x) with true by (symmetry; apply Rltb_true; lra). replace (Rltb x 5) with true by (symmetry; apply Rltb_true; lra). simpl. rewrite Rmin_left by lra.
    replace (- (0 * 0)) with 0 by ring. rewrite exp_0. ring.
  - intros [H|H]; rewrite X9. { replace (Rltb (-5) x) with false by (symmetry; apply Rltb_false; lra). simpl. ring. }
    replace (Rltb x 5) with false by (symmetry; apply Rltb_false; lra). rewrite andb_false_r. ring.
  - unfold x1_pdf. apply Rmult_le_pos; [|lra]. unfold x1_p. repeat match goal with |- context[if ?b then _ else _] => destruct b end; try lra. left. apply exp_pos.
  - unfold x1_pdf. change (exp (- (x * x) / 2) / sqrt (2 * PI)) with (normal_pdf x). rewrite <- (Rmult_1_l (normal_pdf x)) at 2. apply Rmult_le_compat_r; [lra|].
    unfold x1_p. repeat match goal with |- context[if ?b then _ else _] => destruct b end; try lra.
    rewrite <- exp_0. assert (LE : - (Rmin 0 x * Rmin 0 x) <= 0). { pose proof (Rle_0_sqr (Rmin 0 x)) as Q. unfold Rsqr in Q. lra. } destruct LE as [LE|LE]; [left; now apply exp_increasing|rewrite LE; lra].
Qed.
(** ** Samples of the stretch *)
Lemma put_length : forall mask vals old, length (put mask vals old) = length old.
Proof.
  induction mask as [|b mask IH]; intros vals old; [reflexivity|]. destruct b, old as [|o old]; auto; simpl; [|now rewrite IH].
  destruct vals as [|v vals]; auto. simpl. now rewrite IH.
Qed.
Lemma put_nth : forall mask vals old i b, length vals = count mask -> length old = length mask -> nth_error mask i = Some b ->
  nth_error (put mask vals old) i = if b then nth_error vals (count (firstn i mask)) else nth_error old i.
Proof.
  induction mask as [|c mask IH]; intros vals old i b HV HO HI; [destruct i; discriminate|]. destruct old as [|o old]; [discriminate|]. injection HO as HO.
  destruct c; unfold count in HV; simpl in HV.
  - destruct vals as [|v vals]; [discriminate|]. injection HV as HV. destruct i as [|i]; simpl in *; [injection HI as <-; reflexivity|]. rewrite (IH vals old i b) by auto. reflexivity.
  - destruct i as [|i]; simpl in *; [injection HI as <-; reflexivity|]. rewrite (IH vals old i b) by auto. reflexivity.
Qed.
Lemma count_map : forall {A} (p : A -> bool) l, count (map p l) = length (filter p l).
Proof. intros A p l. unfold count. induction l as [|a l IH]; auto. simpl. destruct (p a); simpl; now rewrite IH. Qed.
Definition heavy (m : R) : bool := Rleb 10 m.
Definition light (m : R) : bool := negb (heavy m).
Lemma light_lt : forall m, Rltb m 10 = light m.
Proof. intros m. unfold light, heavy. destruct (Rleb 10 m) eqn:E; simpl; [apply Rltb_false; apply Rleb_true in E; lra|apply Rltb_true; apply Rleb_false in E; lra]. Qed.
Lemma heavy_light_length : forall l, (length (filter heavy l) + length (filter light l) = length l)%nat.
Proof. induction l as [|m l IH]; auto. unfold light in *. simpl. destruct (heavy m); simpl; lia. Qed.
Lemma filter_firstn_le : forall {A} (p : A -> bool) l i a, nth_error l i = Some a -> p a = true -> (length (filter p (firstn i l)) < length (filter p l))%nat.
Proof.
  intros A p l. induction l as [|x l IH]; intros i a H Hp; [destruct i; discriminate|]. destruct i as [|i]; simpl in *.
  - injection H as <-. rewrite Hp. simpl. lia.
  - specialize (IH i a H Hp). destruct (p x); simpl; lia.
Qed.
(** Sample i is drawn from the distribution for its own host mass: the heavy hosts (10 or more) take the first numbers of the generator, in order,
    the light ones the following.  As many numbers are taken as there are samples, no two samples sharing one. *)
Definition number_of (mass : list R) (i : nat) (m : R) : nat :=
  if heavy m then length (filter heavy (firstn i mass)) else (length (filter heavy mass) + length (filter light (firstn i mass)))%nat.
Theorem C83_x1_samples : forall nd mass g r g', x1_run nd mass g = (r, g') -> (1 <= length mass)%nat ->
  g' = mkGen (g_stream g) (g_pos g + length mass) /\
  (forall m, mass = [m] -> r = Num ((if heavy m then x1_ge nd else x1_lt nd) (g_stream g (g_pos g)))) /\
  ((2 <= length mass)%nat -> exists xs, r = Arr xs /\ length xs = length mass /\
    forall i m, nth_error mass i = Some m -> nth_error xs i = Some ((if heavy m then x1_ge nd else x1_lt nd) (g_stream g (g_pos g + number_of mass i m)))).
Proof.
  intros nd mass g r g' H HL. destruct mass as [|m1 [|m2 mass]]; [simpl in HL; lia| |].
  - cbn in H. injection H as <- <-. simpl length. split; [reflexivity|]. split; [|simpl; lia]. intros m E. injection E as <-. rewrite Nat.add_0_r. reflexivity.
  - set (ms := m1 :: m2 :: mass) in *. assert (E : x1_run nd ms g = let ge := map (Rleb 10) ms in
      let lt := map (fun m => Rltb m 10) ms in
      let (a, g1) := rvs (x1_ge nd) (count ge) g in
      let r := put ge a (repeat 0 (length ms)) in
      let (b, g2) := rvs (x1_lt nd) (count lt) g1 in
      (Arr (put lt b r), g2)) by reflexivity. rewrite E in H. clear E. cbv zeta in H. unfold rvs, take in H. cbn [g_stream g_pos] in H.
    change (Rleb 10) with heavy in H. rewrite (map_ext _ _ light_lt) in H. rewrite !count_map in H. apply pair_equal_spec in H. destruct H as [<- <-].
    split. { f_equal. pose proof (heavy_light_length ms). lia. }
    split. { intros m Em. discriminate. }
    intros _. eexists. split; [reflexivity|]. split. { rewrite !put_length. apply repeat_length. }
    intros i m Hm. set (nh := length (filter heavy ms)). set (nl := length (filter light ms)).
    assert (MH : nth_error (map heavy ms) i = Some (heavy m)) by now rewrite nth_error_map, Hm. assert (ML : nth_error (map light ms) i = Some (light m)) by now rewrite nth_error_map, Hm.
    assert (SQ : forall (q : R -> R) p k n, (k < n)%nat -> nth_error (map q (map (fun j => g_stream g (p + j)%nat) (seq 0 n))) k = Some (q (g_stream g (p + k)%nat))).
    { intros q p k n Hk. rewrite !nth_error_map. rewrite (nth_error_nth' _ 0%nat) by now rewrite seq_length. rewrite seq_nth by auto. reflexivity. }
    rewrite (put_nth _ _ _ i (light m)); [|rewrite !map_length, seq_length, count_map; reflexivity|rewrite put_length, repeat_length, map_length; reflexivity|exact ML].
    unfold light at 1. unfold number_of. destruct (heavy m) eqn:EH; cbn [negb].
    + rewrite (put_nth _ _ _ i true); [|rewrite !map_length, seq_length, count_map; reflexivity|rewrite repeat_length, map_length; reflexivity|exact MH].
      rewrite firstn_map, count_map. rewrite SQ; auto. now apply filter_firstn_le with m.
    + rewrite firstn_map, count_map. rewrite SQ. { do 3 f_equal. unfold nh. lia. } apply filter_firstn_le with m; auto. unfold light. now rewrite EH.
Qed.
Theorem C83_x1_distinct : forall mass i j m m', nth_error mass i = Some m -> nth_error mass j = Some m' -> i <> j -> number_of mass i m <> number_of mass j m' /\ (number_of mass i m < length mass)%nat.
Proof.
  intros mass. assert (K : forall i j m m', nth_error mass i = Some m -> nth_error mass j = Some m' -> (i < j)%nat -> number_of mass i m <> number_of mass j m').
  { intros i j m m' Hi Hj L. assert (Hi' : nth_error (firstn j mass) i = Some m).
    { rewrite <- (firstn_skipn j mass) in Hi. rewrite nth_error_app1 in Hi; auto. rewrite firstn_length. assert (j < length mass)%nat by (apply nth_error_Some; congruence). lia. }
    assert (FF : firstn i (firstn j mass) = firstn i mass) by (rewrite firstn_firstn; f_equal; lia).
    unfold number_of. destruct (heavy m) eqn:A, (heavy m') eqn:B.
    - pose proof (filter_firstn_le heavy _ i m Hi' A) as Q. rewrite FF in Q. lia.
    - pose proof (filter_firstn_le heavy _ i m Hi A). lia.
    - pose proof (filter_firstn_le heavy _ j m' Hj B). lia.
    - assert (A' : light m = true) by (unfold light; now rewrite A). pose proof (filter_firstn_le light _ i m Hi' A') as Q. rewrite FF in Q. lia. }
  intros i j m m' Hi Hj N. split.
  - destruct (lt_dec i j) as [L|L]; [now apply K|]. intros E. symmetry in E. revert E. apply K; auto. lia.
  - pose proof (heavy_light_length mass). unfold number_of. destruct (heavy m) eqn:A.
    + pose proof (filter_firstn_le heavy _ i m Hi A). lia.
    + assert (A' : light m = true) by (unfold light; now rewrite A). pose proof (filter_firstn_le light _ i m Hi A'). lia.
Qed.
(** The given generator, else the own one; and the inverses are those of the densities for host masses 11 and 9. *)
Theorem C83_x1_generators : forall pinv stream nd mass,
  (x1_make pinv stream = Ok nd <-> exists ge lt, pinv (x1_pdf 11) = Ok ge /\ pinv (x1_pdf 9) = Ok lt /\ nd = mkX1 ge lt (fresh stream)) /\
  (forall g r nd' og, x1_compute nd mass (Some g) = (r, nd', og) -> nd' = nd /\ exists g', og = Some g' /\ (r, g') = x1_run nd mass g) /\
  (forall r nd' og, x1_compute nd mass None = (r, nd', og) -> og = None /\ x1_ge nd' = x1_ge nd /\ x1_lt nd' = x1_lt nd /\ (r, x1_rng nd') = x1_run nd mass (x1_rng nd)).
Proof.
  intros pinv stream nd mass. unfold x1_make. repeat match goal with |- _ /\ _ => split end.
  - split.
    + intros H. destruct (pinv (x1_pdf 11)) as [a|] eqn:A; [|discriminate]. destruct (pinv (x1_pdf 9)) as [b|] eqn:B; [|discriminate]. injection H as <-. eauto 10.
    + intros (a & b & -> & -> & ->). reflexivity.
  - intros g r nd' og H. unfold x1_compute in H. destruct (x1_run nd mass g) as [a b]. injection H as <- <- <-. eauto.
  - intros r nd' og H. unfold x1_compute in H. destruct (x1_run nd mass (x1_rng nd)) as [a b]. injection H as <- <- <-. auto.
Qed.
(** A case: three hosts and a generator returning 0, 1, 2. *)
Example C83_case : fst (x1_run (mkX1 (fun u => 100 + u) (fun u => u) (fresh INR)) [9; 11; 8] (fresh INR)) = Arr [INR 1; 100 + INR 0; INR 2].
Proof.
  assert (L1 : Rleb 10 9 = false) by (apply Rleb_false; lra). assert (L2 : Rleb 10 11 = true) by (apply Rleb_true; lra). assert (L3 : Rleb 10 8 = false) by (apply Rleb_false; lra).
  assert (M1 : Rltb 9 10 = true) by (apply Rltb_true; lra). assert (M2 : Rltb 11 10 = false) by (apply Rltb_false; lra). assert (M3 : Rltb 8 10 = true) by (apply Rltb_true; lra).
  unfold x1_run. simpl map. rewrite L1, L2, L3, M1, M2, M3. reflexivity.
Qed.
