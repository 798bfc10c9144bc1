(** Lemmas for RadecProps.v: a step of (x, y) in right ascension and declination moves a direction by at most sqrt(x^2 + y^2). *)
From Coq Require Import Reals String List Bool Arith Lia Lra.
From Verif Require Import Base RealBase ObsTableModel ObsTableProps.
Import ListNotations.
Open Scope R_scope.

Lemma neg_pos : forall a b, a <= 0 -> 0 <= b -> a * b <= 0.
Proof. intros a b Ha Hb. assert (0 <= (- a) * b) by (apply Rmult_le_pos; lra). lra. Qed.
(** sin x / x decreases on (0, pi]. *)
Lemma xcos_le_sin : forall x, 0 <= x <= PI -> x * cos x <= sin x.
Proof.
  intros x H. destruct (Req_dec x 0) as [->|N]; [rewrite sin_0, Rmult_0_l; lra|].
  destruct (MVT_cor2 (fun t => sin t - t * cos t) (fun t => t * sin t) 0 x) as (c & E & Hc); [lra| |].
  - intros c Hc. replace (c * sin c) with (cos c - (1 * cos c + c * - sin c)) by ring.
    apply derivable_pt_lim_minus; [apply derivable_pt_lim_sin|]. apply derivable_pt_lim_mult; [apply derivable_pt_lim_id|apply derivable_pt_lim_cos].
  - rewrite sin_0, Rmult_0_l in E. assert (0 <= sin c) by (apply sin_ge_0; lra). assert (0 <= c * sin c * (x - 0)); [|lra].
    apply Rmult_le_pos; [apply Rmult_le_pos|]; lra.
Qed.
Lemma sinc_decreasing : forall x y, 0 < x -> x <= y -> y <= PI -> sin y * x <= sin x * y.
Proof.
  intros x y H0 H1 H2. destruct (Req_dec x y) as [->|N]; [lra|].
  destruct (MVT_cor2 (fun t => sin t / t) (fun t => (t * cos t - sin t) / (t * t)) x y) as (c & E & Hc); [lra| |].
  - intros c Hc. replace ((c * cos c - sin c) / (c * c)) with ((cos c * c - 1 * sin c) / (Rsqr c)) by (unfold Rsqr; f_equal; ring).
    apply derivable_pt_lim_div; [apply derivable_pt_lim_sin|apply derivable_pt_lim_id|lra].
  - assert (L : sin y / y - sin x / x <= 0).
    { rewrite E. assert (c * cos c <= sin c) by (apply xcos_le_sin; lra). assert (0 < c * c) by (apply Rmult_lt_0_compat; lra).
      apply neg_pos; [|lra]. unfold Rdiv. apply neg_pos; [lra|]. left. now apply Rinv_0_lt_compat. }
    assert (F : sin y * x - sin x * y = (sin y / y - sin x / x) * (x * y)) by (field; lra).
    assert (0 <= x * y) by (apply Rmult_le_pos; lra). assert ((sin y / y - sin x / x) * (x * y) <= 0); [|lra]. apply neg_pos; lra.
Qed.
(** The tangent parabola of the cosine at [c] stays below it. *)
Lemma cos_above : forall c x, 0 < c <= PI -> 0 <= x <= PI -> cos c - sin c / (2 * c) * (x * x - c * c) <= cos x.
Proof.
  intros c x Hc Hx. set (k := fun t => cos t + sin c / (2 * c) * (t * t)).
  assert (D : forall t, derivable_pt_lim k t (- sin t + sin c / c * t)).
  { intros t. replace (- sin t + sin c / c * t) with (- sin t + sin c / (2 * c) * (1 * t + t * 1)) by (field; lra). unfold k.
    apply derivable_pt_lim_plus; [apply derivable_pt_lim_cos|]. apply (derivable_pt_lim_scal (fun t => t * t)).
    apply derivable_pt_lim_mult; apply derivable_pt_lim_id. }
  assert (K : k c <= k x).
  { destruct (Rtotal_order x c) as [L|[->|L]]; [|lra|].
    - destruct (MVT_cor2 k (fun t => - sin t + sin c / c * t) x c L (fun t _ => D t)) as (t & E & Ht).
      assert (S : sin c * t <= sin t * c) by (apply sinc_decreasing; lra).
      assert (sin c / c * t <= sin t). { replace (sin c / c * t) with (sin c * t / c) by (field; lra). apply Rmult_le_reg_r with c; [lra|]. unfold Rdiv. rewrite Rmult_assoc, Rinv_l by lra. lra. }
      assert ((- sin t + sin c / c * t) * (c - x) <= 0) by (apply neg_pos; lra). lra.
    - destruct (MVT_cor2 k (fun t => - sin t + sin c / c * t) c x L (fun t _ => D t)) as (t & E & Ht).
      assert (S : sin t * c <= sin c * t) by (apply sinc_decreasing; lra).
      assert (sin t <= sin c / c * t). { replace (sin c / c * t) with (sin c * t / c) by (field; lra). apply Rmult_le_reg_r with c; [lra|]. unfold Rdiv. rewrite Rmult_assoc, Rinv_l by lra. lra. }
      assert (0 <= (- sin t + sin c / c * t) * (x - c)) by (apply Rmult_le_pos; lra). lra. }
  unfold k in K. lra.
Qed.
(** A right-angled triangle on the sphere: its hypotenuse is at most the plane one's. *)
Lemma cos_Rabs : forall x, cos (Rabs x) = cos x.
Proof. intros x. unfold Rabs. destruct (Rcase_abs x); [apply cos_neg|reflexivity]. Qed.
Lemma pythagoras : forall a b c, 0 < c <= PI / 2 -> a * a + b * b <= c * c -> cos c <= cos a * cos b.
Proof.
  intros a b c Hc H. pose proof PI_RGT_0. pose proof PI_4.
  assert (P : forall z, z * z <= 2 * (c * c) -> Rabs z <= PI).
  { intros z Hz. apply Rabs_le. assert (2 * (c * c) <= PI * PI). { assert (c * c <= PI / 2 * (PI / 2)) by (apply Rmult_le_compat; lra). assert (0 <= PI * PI) by (apply Rmult_le_pos; lra). lra. }
    split.
    - destruct (Rle_dec (- PI) z) as [|N]; auto. apply Rnot_le_lt in N. assert (PI * PI < (- z) * (- z)) by (apply Rmult_le_0_lt_compat; lra). lra.
    - destruct (Rle_dec z PI) as [|N]; auto. apply Rnot_le_lt in N. assert (PI * PI < z * z) by (apply Rmult_le_0_lt_compat; lra). lra. }
  assert (S1 : 0 <= (a - b) * (a - b)) by (apply Rle_0_sqr). assert (S2 : 0 <= (a + b) * (a + b)) by (apply Rle_0_sqr).
  assert (X1 : Rabs (a + b) <= PI) by (apply P; lra). assert (X2 : Rabs (a - b) <= PI) by (apply P; lra).
  pose proof (cos_above c (Rabs (a + b)) ltac:(lra) (conj (Rabs_pos _) X1)) as K1. pose proof (cos_above c (Rabs (a - b)) ltac:(lra) (conj (Rabs_pos _) X2)) as K2.
  rewrite cos_Rabs in K1, K2. rewrite <- Rabs_mult in K1, K2. rewrite Rabs_pos_eq in K1, K2 by auto.
  rewrite cos_plus in K1. rewrite cos_minus in K2.
  assert (Q : 0 <= sin c / (2 * c)). { apply Rmult_le_pos; [apply sin_ge_0; lra|]. left. apply Rinv_0_lt_compat. lra. }
  assert (0 <= sin c / (2 * c) * (2 * (c * c) - ((a + b) * (a + b) + (a - b) * (a - b)))) by (apply Rmult_le_pos; lra).
  lra.
Qed.
Lemma cos_half : forall x, cos x = 2 * (cos (x / 2) * cos (x / 2)) - 1.
Proof. intros x. replace x with (2 * (x / 2)) at 1 by field. rewrite cos_2a_cos. ring. Qed.
(** The step of [x] degrees in right ascension and [y] degrees in declination. *)
Lemma step_separation : forall ra dec x y r, 0 < r <= 180 -> x * x + y * y <= r * r -> separation ra dec (ra + x) (dec + y) <= r.
Proof.
  intros ra dec x y r Hr H. pose proof PI_RGT_0 as HPI.
  set (a := radians x / 2). set (b := radians y / 2). set (c := radians r / 2).
  assert (C1 : 0 < c <= PI / 2).
  { unfold c, radians. split; [apply Rmult_lt_0_compat; [|lra]; apply Rmult_lt_0_compat; [|lra]; apply Rmult_lt_0_compat; lra|].
    assert (r * PI <= 180 * PI) by (apply Rmult_le_compat_r; lra). lra. }
  assert (C2 : a * a + b * b <= c * c).
  { unfold a, b, c, radians. assert (E : forall z, z * PI / 180 / 2 * (z * PI / 180 / 2) = z * z * (PI * PI / 129600)) by (intros; field). rewrite !E, <- Rmult_plus_distr_r.
    apply Rmult_le_compat_r; auto. apply Rmult_le_pos; [|lra]. apply Rmult_le_pos; lra. }
  pose proof (pythagoras a b c C1 C2) as P.
  assert (CC : 0 <= cos c) by (apply cos_ge_0; lra).
  (* the cosine of the separation *)
  assert (K : cos (radians r) <= cos_sep ra dec (ra + x) (dec + y)).
  { unfold cos_sep. assert (RX : radians ra - radians (ra + x) = - radians x) by (unfold radians; field).
    assert (RY : radians (dec + y) = radians dec + radians y) by (unfold radians; field). rewrite RX, RY, cos_neg.
    set (d := radians dec). assert (D1 : cos (radians y) = cos d * cos (d + radians y) + sin d * sin (d + radians y)).
    { replace (radians y) with ((d + radians y) - d) at 1 by ring. rewrite cos_minus. ring. }
    assert (D2 : cos d * cos (d + radians y) = (cos (radians y) + cos (d + (d + radians y))) / 2).
    { rewrite (cos_plus d (d + radians y)). rewrite D1 at 1. field. }
    pose proof (COS_bound (d + (d + radians y))) as [_ B1]. pose proof (COS_bound (radians x)) as [_ B2].
    rewrite (cos_half (radians r)). fold c. assert (HX : cos (radians x) = 2 * (cos a * cos a) - 1) by (rewrite (cos_half (radians x)); reflexivity).
    assert (HY : cos (radians y) = 2 * (cos b * cos b) - 1) by (rewrite (cos_half (radians y)); reflexivity).
    set (p := cos d * cos (d + radians y)) in *. assert (Q : p <= cos b * cos b) by (rewrite D2, HY; lra).
    replace (sin d * sin (d + radians y)) with (cos (radians y) - p) by lra.
    replace (cos (radians y) - p + p * cos (radians x)) with (cos (radians y) - p * (1 - cos (radians x))) by ring.
    assert (M1 : p * (1 - cos (radians x)) <= cos b * cos b * (1 - cos (radians x))) by (apply Rmult_le_compat_r; lra).
    assert (M2 : cos c * cos c <= (cos a * cos b) * (cos a * cos b)) by (apply Rmult_le_compat; auto).
    assert (E : cos b * cos b * (1 - cos (radians x)) = 2 * (cos b * cos b) - 2 * ((cos a * cos b) * (cos a * cos b))) by (rewrite HX; ring).
    lra. }
  unfold separation. assert (R0 : 0 <= radians r <= PI) by (unfold c in C1; lra).
  assert (A : acos (cos_sep ra dec (ra + x) (dec + y)) <= radians r).
  { rewrite <- (acos_cos (radians r)) by auto. pose proof (cos_sep_bounds ra dec (ra + x) (dec + y)) as CB.
    destruct (Rle_dec (acos (cos_sep ra dec (ra + x) (dec + y))) (acos (cos (radians r)))) as [|N]; auto. apply Rnot_le_lt in N.
    assert (L : cos (acos (cos_sep ra dec (ra + x) (dec + y))) < cos (acos (cos (radians r)))).
    { apply cos_decreasing_1; auto; try apply acos_bound. }
    rewrite cos_acos in L by lra. rewrite cos_acos in L by (apply COS_bound). lra. }
  replace r with (radians r * 180 / PI) by (unfold radians; field; lra). apply Rmult_le_compat_r; [left; now apply Rinv_0_lt_compat|]. apply Rmult_le_compat_r; lra.
Qed.
