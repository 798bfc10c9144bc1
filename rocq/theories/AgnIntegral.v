(** The integral of the disc's spectrum (C76). *)
From Coq Require Import Reals Lra Lia Psatz.
From Coquelicot Require Import Coquelicot.
From Verif Require Import EclipseModel AgnModel AgnProps.
Open Scope R_scope.

(** The integrand of [compute_sed_standard_disk]. *)
Definition spectrum (x : R) : R := Rpower x (5 / 3) / (exp x - 1).
(** Its integral from [a] to infinity: what [scipy.integrate.quad] is asked for. *)
Definition spectrum_tail (a : R) : R := real (Lim (fun b => RInt spectrum a b) p_infty).

Lemma exp_m1_pos : forall x, 0 < x -> 0 < exp x - 1.
Proof. intros x H. pose proof (exp_increasing 0 x H) as E. rewrite exp_0 in E. lra. Qed.
Lemma spectrum_pos : forall x, 0 < x -> 0 < spectrum x.
Proof. intros x H. apply Rdiv_lt_0_compat; [apply exp_pos | apply exp_m1_pos; auto]. Qed.
Lemma spectrum_cont : forall x, 0 < x -> continuous spectrum x.
Proof.
  intros x H. apply (ex_derive_continuous spectrum). unfold spectrum, Rpower. auto_derive. repeat split; auto.
  pose proof (exp_m1_pos x H). lra.
Qed.
Lemma spectrum_int : forall a b, 0 < a -> 0 < b -> ex_RInt spectrum a b.
Proof.
  intros a b HA HB. apply (ex_RInt_continuous spectrum). intros z [Z _]. apply spectrum_cont.
  apply Rlt_le_trans with (2 := Z). apply Rmin_glb_lt; auto.
Qed.
(** exp x - 1 >= x^4/24, hence the integrand is below 24 x^(-7/3) and below 24 / x^2 from 1 on. *)
Lemma exp_ge4 : forall x, 0 <= x -> 1 + x ^ 4 / 24 <= exp x.
Proof.
  assert (G : forall (f f' : R -> R), (forall x, is_derive f x (f' x)) -> (forall x, 0 <= x -> 0 <= f' x) -> 0 <= f 0 ->
              forall x, 0 <= x -> 0 <= f x).
  { intros f f' D P Z x H. destruct (Rle_lt_or_eq_dec 0 x H) as [L | <-]; [| exact Z].
    destruct (MVT_gen f 0 x f') as [c [C E]].
    - intros y _. apply D.
    - intros y _. apply continuity_pt_filterlim. apply (ex_derive_continuous f). exists (f' y). apply D.
    - rewrite Rmin_left, Rmax_right in C by lra. assert (0 <= f' c) by (apply P; lra). nra. }
  intros x H.
  assert (E1 : forall x, 0 <= x -> 0 <= exp x - 1).
  { intros y Y. destruct (Rle_lt_or_eq_dec 0 y Y) as [L | <-]; [pose proof (exp_m1_pos y L); lra | rewrite exp_0; lra]. }
  assert (E2 : forall x, 0 <= x -> 0 <= exp x - 1 - x).
  { apply (G (fun x => exp x - 1 - x) (fun x => exp x - 1)); [intros; auto_derive; auto; ring | auto | rewrite exp_0; lra]. }
  assert (E3 : forall x, 0 <= x -> 0 <= exp x - 1 - x ^ 2 / 2).
  { apply (G (fun x => exp x - 1 - x ^ 2 / 2) (fun x => exp x - x)).
    - intros; auto_derive; auto; field.
    - intros y Y. specialize (E2 y Y). lra.
    - rewrite exp_0; lra. }
  assert (E4 : forall x, 0 <= x -> 0 <= exp x - 1 - x ^ 3 / 6).
  { apply (G (fun x => exp x - 1 - x ^ 3 / 6) (fun x => exp x - x ^ 2 / 2)).
    - intros; auto_derive; auto; field.
    - intros y Y. specialize (E3 y Y). lra.
    - rewrite exp_0; lra. }
  assert (E5 : forall x, 0 <= x -> 0 <= exp x - 1 - x ^ 4 / 24).
  { apply (G (fun x => exp x - 1 - x ^ 4 / 24) (fun x => exp x - x ^ 3 / 6)).
    - intros; auto_derive; auto; field.
    - intros y Y. specialize (E4 y Y). lra.
    - rewrite exp_0; lra. }
  specialize (E5 x H). lra.
Qed.
Lemma spectrum_le : forall x, 1 <= x -> spectrum x <= 24 / x ^ 2.
Proof.
  intros x H. assert (P : Rpower x (5 / 3) <= x ^ 2).
  { rewrite <- Rpower_pow by lra. apply Rle_Rpower; [auto | simpl; lra]. }
  pose proof (exp_ge4 x ltac:(lra)) as E. assert (X4 : 0 < x ^ 4) by (apply pow_lt; lra).
  unfold spectrum. apply Rle_trans with (x ^ 2 / (x ^ 4 / 24)).
  - unfold Rdiv at 1 2. apply Rmult_le_compat; [left; apply exp_pos | left; apply Rinv_0_lt_compat; lra | exact P |].
    apply Rinv_le_contravar; lra.
  - right. field. lra.
Qed.
Lemma tail_mono : forall a b c, 0 < a -> a <= b -> b <= c -> RInt spectrum a b <= RInt spectrum a c.
Proof.
  intros a b c HA H1 H2. rewrite <- (RInt_Chasles spectrum a b c) by (apply spectrum_int; lra).
  assert (0 <= RInt spectrum b c).
  { apply RInt_ge_0; [auto | apply spectrum_int; lra | intros; left; apply spectrum_pos; lra]. }
  unfold plus; simpl. lra.
Qed.
Lemma tail_bound : forall b, 1 <= b -> RInt spectrum 1 b <= 24.
Proof.
  intros b H.
  assert (I : is_RInt (fun x => 24 / x ^ 2) 1 b (24 - 24 / b)).
  { replace (24 - 24 / b) with (minus ((fun x => - 24 / x) b) ((fun x => - 24 / x) 1)) by (unfold minus, plus, opp; simpl; field; lra).
    apply (is_RInt_derive (fun x => - 24 / x)).
    - intros x [X _]. rewrite Rmin_left in X by lra. auto_derive; [lra | field; lra].
    - intros x [X _]. rewrite Rmin_left in X by lra. apply (ex_derive_continuous (fun x => 24 / x ^ 2)). auto_derive. nra. }
  apply Rle_trans with (RInt (fun x => 24 / x ^ 2) 1 b).
  - apply RInt_le; [auto | apply spectrum_int; lra | eexists; exact I | intros; apply spectrum_le; lra].
  - rewrite (is_RInt_unique _ _ _ _ I). assert (0 < 24 / b) by (apply Rdiv_lt_0_compat; lra). lra.
Qed.
(** The improper integral exists, for every positive lower bound. *)
Lemma tail_lim : forall a, 0 < a -> is_lim (fun b => RInt spectrum a b) p_infty (spectrum_tail a).
Proof.
  intros a HA.
  set (m := Rmax a 1). pose proof (Rmax_l a 1) as M1. pose proof (Rmax_r a 1) as M2. fold m in M1, M2.
  assert (B : forall b, m <= b -> RInt spectrum a b <= RInt spectrum a m + 24).
  { intros b Hb. rewrite <- (RInt_Chasles spectrum a m b) by (apply spectrum_int; lra).
    pose proof (tail_bound b ltac:(lra)) as T. rewrite <- (RInt_Chasles spectrum 1 m b) in T by (apply spectrum_int; lra).
    assert (0 <= RInt spectrum 1 m) by (apply RInt_ge_0; [lra | apply spectrum_int; lra | intros; left; apply spectrum_pos; lra]).
    unfold plus in *; simpl in *. lra. }
  (* supremum of the values *)
  destruct (completeness (fun v => exists b, m <= b /\ v = RInt spectrum a b)) as [l [U L]].
  { exists (RInt spectrum a m + 24). intros v [b [Hb ->]]. apply B; auto. }
  { exists (RInt spectrum a m), m. split; [lra | auto]. }
  assert (E : is_lim (fun b => RInt spectrum a b) p_infty l).
  { apply is_lim_spec. intros [e He]. simpl.
    assert (N : ~ is_upper_bound (fun v => exists b, m <= b /\ v = RInt spectrum a b) (l - e)).
    { intros X. specialize (L _ X). lra. }
    destruct (Classical_Pred_Type.not_all_ex_not _ _ N) as [v V].
    assert (V' : exists b, m <= b /\ l - e < RInt spectrum a b).
    { apply Classical_Prop.imply_to_and in V. destruct V as [[b [Hb ->]] V]. exists b. split; [auto | lra]. }
    destruct V' as [b [Hb V']]. exists b. intros y Hy.
    assert (RInt spectrum a y <= l) by (apply U; exists y; split; [lra | auto]).
    pose proof (tail_mono a b y HA ltac:(lra) ltac:(lra)). apply Rabs_def1; lra. }
  unfold spectrum_tail. rewrite (is_lim_unique _ _ _ E). exact E.
Qed.
Lemma tail_pos : forall a, 0 < a -> 0 < spectrum_tail a.
Proof.
  intros a HA. pose proof (tail_lim a HA) as L.
  assert (P : 0 < RInt spectrum a (a + 1)).
  { apply RInt_gt_0; [lra | intros; apply spectrum_pos; lra | intros; apply spectrum_cont; lra]. }
  apply Rlt_le_trans with (1 := P).
  apply (is_lim_le_loc (fun _ => RInt spectrum a (a + 1)) (fun b => RInt spectrum a b) p_infty (RInt spectrum a (a + 1)) (spectrum_tail a));
    [| apply is_lim_const | exact L].
  exists (a + 1). intros y Hy. apply tail_mono; lra.
Qed.

(** ** The light of the disc *)
(** The disc of the model: rings of Planck's law at temperature T0 (r / r0)^(-3/4), seen at inclination [i] from distance [d];
    frequency c / wave. *)
Definition ring_temp (t0 r0 r : R) : R := t0 * Rpower (r / r0) (- (3 / 4)).
Definition ring_light (t0 r0 wave i d r : R) : R := 2 * PI * cos i / d ^ 2 * black_body (ring_temp t0 r0 r) wave * r.
Definition inner_radius (m rin_to_rg : R) : R := rin_to_rg * (grav * m / (c_cgs * c_cgs)).

Lemma ring_change : forall t0 r0 wave i d r, 0 < t0 -> 0 < r0 -> 0 < wave -> 0 < d -> 0 < r ->
  let nu := c_cgs / wave in
  let x := fun r => planck_h * nu / (boltzmann * t0) * Rpower (r / r0) (3 / 4) in
  let x' := planck_h * nu / (boltzmann * t0) * (3 / 4 * Rpower (r / r0) (- (1 / 4)) / r0) in
  is_derive x r x' /\ 0 < x r /\
  ring_light t0 r0 wave i d r =
    16 * PI / (3 * d ^ 2) * cos i * Rpower (boltzmann * t0 / planck_h) (8 / 3) * planck_h * Rpower nu (1 / 3)
    / (c_cgs * c_cgs) * r0 ^ 2 * (x' * spectrum (x r)).
Proof.
  intros t0 r0 wave i d r HT H0 HW HD HR nu x x'.
  pose proof planck_pos as HP; pose proof boltz_pos as HB; pose proof c_pos as HC.
  assert (HN : 0 < nu) by (apply Rdiv_lt_0_compat; auto).
  assert (HQ : 0 < r / r0) by (apply Rdiv_lt_0_compat; auto).
  set (A := planck_h * nu / (boltzmann * t0)) in *.
  assert (HA : 0 < A) by (apply Rdiv_lt_0_compat; apply Rmult_lt_0_compat; auto).
  assert (X : 0 < x r) by (apply Rmult_lt_0_compat; [auto | apply exp_pos]).
  split; [| split; [exact X|]].
  - unfold x, x'. unfold Rpower. auto_derive; [exact HQ |].
    replace (exp (3 / 4 * ln (r * / r0))) with (exp (- (1 / 4) * ln (r / r0)) * (r / r0)).
    + field. split; lra.
    + rewrite <- (exp_ln (r / r0)) at 2 by auto. rewrite <- exp_plus. f_equal. unfold Rdiv. lra.
  - assert (EX : planck_h * nu / (boltzmann * ring_temp t0 r0 r) = x r).
    { unfold ring_temp, x, A. rewrite Rpower_Ropp. pose proof (exp_pos (3 / 4 * ln (r / r0))) as PP. fold (Rpower (r / r0) (3 / 4)) in PP.
      field. repeat split; lra. }
    unfold ring_light, black_body. fold nu. rewrite EX. unfold spectrum.
    pose proof (exp_m1_pos (x r) X) as HE.
    assert (K : Rpower (boltzmann * t0 / planck_h) (8 / 3) * Rpower nu (1 / 3) * (x' * Rpower (x r) (5 / 3)) * r0 ^ 2 = 3 / 4 * nu ^ 3 * r).
    { assert (P5 : Rpower (x r) (5 / 3) = Rpower A (5 / 3) * Rpower (r / r0) (5 / 4)).
      { unfold x. rewrite <- Rpower_mult_distr; [| auto | apply exp_pos]. rewrite Rpower_mult. do 2 f_equal. lra. }
      rewrite P5. unfold x'. fold A.
      assert (PA : A * Rpower A (5 / 3) = Rpower A (8 / 3)).
      { rewrite <- (Rpower_1 A) at 1 by auto. rewrite <- Rpower_plus. f_equal. lra. }
      assert (PR : Rpower (r / r0) (- (1 / 4)) * Rpower (r / r0) (5 / 4) = r / r0).
      { rewrite <- Rpower_plus. replace (- (1 / 4) + 5 / 4) with 1 by lra. apply Rpower_1; auto. }
      assert (PK : Rpower (boltzmann * t0 / planck_h) (8 / 3) * Rpower A (8 / 3) = Rpower nu (8 / 3)).
      { rewrite Rpower_mult_distr; [| apply Rdiv_lt_0_compat; [apply Rmult_lt_0_compat|]; auto | auto]. f_equal. unfold A. field. repeat split; lra. }
      assert (PN : Rpower nu (8 / 3) * Rpower nu (1 / 3) = nu ^ 3).
      { rewrite <- Rpower_plus. rewrite <- Rpower_pow by auto. f_equal. simpl. lra. }
      transitivity (Rpower (boltzmann * t0 / planck_h) (8 / 3) * (A * Rpower A (5 / 3)) * Rpower nu (1 / 3) * (3 / 4) *
        (Rpower (r / r0) (- (1 / 4)) * Rpower (r / r0) (5 / 4)) / r0 * r0 ^ 2); [field; lra|].
      rewrite PA, PK, PR, PN. field. lra. }
    transitivity (16 * PI / (3 * d ^ 2) * cos i * planck_h / (c_cgs * c_cgs) / (exp (x r) - 1) *
      (Rpower (boltzmann * t0 / planck_h) (8 / 3) * Rpower nu (1 / 3) * (x' * Rpower (x r) (5 / 3)) * r0 ^ 2)).
    + rewrite K. field. repeat split; lra.
    + field. repeat split; lra.
Qed.

(** The flux is the light of all the rings from the inner radius to infinity: planck light of one face of the disc. *)
Theorem C76_disc_flux : forall mdot wave k i d m, 0 < mdot -> 0 < wave -> 0 < k -> 0 < d -> 0 < m ->
  let rin := inner_radius m k in let r0 := r_0 rin in let t0 := temp_r_0 m mdot rin in
  1 / 10 ^ 6 <= planck_h * (c_cgs / wave) / (boltzmann * ring_temp t0 r0 rin) ->
  is_lim (fun r => RInt (fun s => cgs_njy * ring_light t0 r0 wave i d s) rin r) p_infty (standard_disk spectrum_tail mdot (c_cgs / wave) k i d m).
Proof.
  intros mdot wave k i d m HMD HW HK HD HM rin r0 t0 HX.
  pose proof planck_pos as HP; pose proof boltz_pos as HB; pose proof c_pos as HC; pose proof grav_pos as HG.
  assert (ER : grav * m / (c_cgs * c_cgs) * k = rin) by (unfold rin, inner_radius; ring).
  assert (HR : 0 < rin).
  { unfold rin, inner_radius. apply Rmult_lt_0_compat; auto. apply Rdiv_lt_0_compat; apply Rmult_lt_0_compat; auto. }
  assert (H0 : 0 < r0) by (unfold r0, r_0; lra).
  assert (HT : 0 < t0) by (unfold t0, temp_r_0; repeat apply Rmult_lt_0_compat; apply exp_pos).
  set (nu := c_cgs / wave) in *.
  assert (HN : 0 < nu) by (apply Rdiv_lt_0_compat; auto).
  set (x := fun r => planck_h * nu / (boltzmann * t0) * Rpower (r / r0) (3 / 4)).
  assert (XR : planck_h * nu / (boltzmann * ring_temp t0 r0 rin) = x rin).
  { unfold ring_temp, x. rewrite Rpower_Ropp. pose proof (exp_pos (3 / 4 * ln (rin / r0))) as PP. fold (Rpower (rin / r0) (3 / 4)) in PP.
    field. repeat split; lra. }
  rewrite XR in HX.
  unfold standard_disk. rewrite ER. fold r0 t0. fold (x rin). rewrite (Rmax_left (x rin)) by exact HX.
  set (pref := 16 * PI / (3 * d ^ 2) * cos i * Rpower (boltzmann * t0 / planck_h) (8 / 3) * planck_h * Rpower nu (1 / 3) / (c_cgs * c_cgs) * r0 ^ 2).
  set (x' := fun r => planck_h * nu / (boltzmann * t0) * (3 / 4 * Rpower (r / r0) (- (1 / 4)) / r0)).
  assert (D : forall r, 0 < r -> is_derive x r (x' r) /\ 0 < x r /\ ring_light t0 r0 wave i d r = pref * (x' r * spectrum (x r))).
  { intros r Hr. exact (ring_change t0 r0 wave i d r HT H0 HW HD Hr). }
  assert (I : forall r, rin <= r -> RInt (fun s => cgs_njy * ring_light t0 r0 wave i d s) rin r = cgs_njy * pref * RInt spectrum (x rin) (x r)).
  { intros r Hr. apply is_RInt_unique.
    apply is_RInt_ext with (f := fun s => scal (cgs_njy * pref) (scal (x' s) (spectrum (x s)))).
    - intros s [S1 _]. rewrite Rmin_left in S1 by lra. destruct (D s ltac:(lra)) as [_ [_ E]]. rewrite E. unfold scal; simpl; unfold mult; simpl. ring.
    - apply (is_RInt_scal (fun s => scal (x' s) (spectrum (x s))) rin r (cgs_njy * pref)). apply (is_RInt_comp spectrum x x').
      + intros s [S1 _]. rewrite Rmin_left in S1 by lra. apply spectrum_cont. apply (D s); lra.
      + intros s [S1 _]. rewrite Rmin_left in S1 by lra. split; [apply (D s); lra |].
        apply (ex_derive_continuous x'). unfold x', Rpower. auto_derive. apply Rdiv_lt_0_compat; lra. }
  (* the upper bound goes to infinity with r *)
  assert (XL : is_lim x p_infty p_infty).
  { apply is_lim_spec. intros M.
    set (A := planck_h * nu / (boltzmann * t0)). assert (HA : 0 < A) by (apply Rdiv_lt_0_compat; apply Rmult_lt_0_compat; auto).
    set (q := Rmax (M / A) 1). assert (Q1 : 1 <= q) by apply Rmax_r. assert (Q2 : M / A <= q) by apply Rmax_l.
    exists (r0 * Rpower q (4 / 3)). intros r Hr. unfold x. fold A.
    assert (Z : Rpower q (4 / 3) < r / r0).
    { apply Rmult_lt_reg_l with r0; auto. replace (r0 * (r / r0)) with r by (field; lra). exact Hr. }
    assert (Z2 : q < Rpower (r / r0) (3 / 4)).
    { replace q with (Rpower (Rpower q (4 / 3)) (3 / 4)) at 1.
      - apply Rlt_Rpower_l; [lra | split; [apply exp_pos | exact Z]].
      - rewrite Rpower_mult. replace (4 / 3 * (3 / 4)) with 1 by lra. apply Rpower_1; lra. }
    apply Rle_lt_trans with (A * q); [| apply Rmult_lt_compat_l; auto].
    replace M with (A * (M / A)) by (field; lra). apply Rmult_le_compat_l; lra. }
  assert (L := tail_lim (x rin) (proj1 (proj2 (D rin HR)))).
  replace (pref * spectrum_tail (x rin) * cgs_njy) with (cgs_njy * pref * spectrum_tail (x rin)) by ring.
  apply is_lim_ext_loc with (f := fun r => cgs_njy * pref * RInt spectrum (x rin) (x r)).
  { exists rin. intros r Hr. symmetry. apply I. lra. }
  apply (is_lim_scal_l (fun r => RInt spectrum (x rin) (x r)) (cgs_njy * pref) p_infty (spectrum_tail (x rin))).
  apply (is_lim_comp (fun b => RInt spectrum (x rin) b) x p_infty (spectrum_tail (x rin)) p_infty L XL).
  exists 0. intros r _. discriminate.
Qed.

(** The integral [quad] is asked for exists and is positive. *)
Theorem C76_integral : forall a, 0 < a -> is_lim (fun b => RInt spectrum a b) p_infty (spectrum_tail a) /\ 0 < spectrum_tail a.
Proof. intros a H. split; [apply tail_lim | apply tail_pos]; auto. Qed.
(** The condition of [C76_disc_flux] holds for all wavelengths up to a positive one. *)
Example C76_disc_flux_case : forall mdot m k, 0 < mdot -> 0 < m -> 0 < k ->
  let rin := inner_radius m k in let t := ring_temp (temp_r_0 m mdot rin) (r_0 rin) rin in
  exists wmax, 0 < wmax /\ forall wave, 0 < wave <= wmax -> 1 / 10 ^ 6 <= planck_h * (c_cgs / wave) / (boltzmann * t).
Proof.
  intros mdot m k H1 H2 H3 rin t.
  pose proof planck_pos as HP; pose proof boltz_pos as HB; pose proof c_pos as HC.
  assert (HT : 0 < t) by (unfold t, ring_temp, temp_r_0; repeat apply Rmult_lt_0_compat; apply exp_pos).
  assert (HBT : 0 < boltzmann * t) by (apply Rmult_lt_0_compat; auto).
  exists (10 ^ 6 * (planck_h * c_cgs / (boltzmann * t))). split.
  - apply Rmult_lt_0_compat; [apply pow_lt; lra|]. apply Rdiv_lt_0_compat; [apply Rmult_lt_0_compat|]; auto.
  - intros w [W1 W2]. replace (planck_h * (c_cgs / w) / (boltzmann * t)) with (planck_h * c_cgs / (boltzmann * t) / w) by (field; repeat split; lra).
    apply Rmult_le_reg_r with w; [auto|]. unfold Rdiv at 2. rewrite Rmult_assoc, Rinv_l, Rmult_1_r by lra.
    apply Rmult_le_reg_l with (10 ^ 6); [apply pow_lt; lra|]. replace (10 ^ 6 * (1 / 10 ^ 6 * w)) with w by field. exact W2.
Qed.
