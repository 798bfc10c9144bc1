(** AGN model (C76). *)
From Coq Require Import Reals String List Bool Lra Lia Psatz.
From Verif Require Import Base BaseFacts RealBase SedModel TemplateModel EclipseModel AgnModel.
Import ListNotations.
Open Scope R_scope.

(** ** Positivity of the constants *)
Lemma grav_pos : 0 < grav.
Proof. unfold grav. apply Rdiv_lt_0_compat; [lra | apply pow_lt; lra]. Qed.
Lemma sigma_pos : 0 < sigma_sb.
Proof. unfold sigma_sb. apply Rdiv_lt_0_compat; [lra | apply pow_lt; lra]. Qed.
Lemma m_sun_pos : 0 < m_sun_g.
Proof. unfold m_sun_g. apply Rdiv_lt_0_compat; [| exact grav_pos]. apply Rmult_lt_0_compat; [lra | apply pow_lt; lra]. Qed.
Lemma c_pos : 0 < c_cgs. Proof. unfold c_cgs; lra. Qed.
Lemma planck_pos : 0 < planck_h.
Proof. unfold planck_h. apply Rdiv_lt_0_compat; [lra | apply pow_lt; lra]. Qed.
Lemma boltz_pos : 0 < boltzmann.
Proof. unfold boltzmann. apply Rdiv_lt_0_compat; [lra | apply pow_lt; lra]. Qed.
Lemma Rpower_pos : forall x y, 0 < Rpower x y. Proof. intros. apply exp_pos. Qed.

(** ** The disc *)
(** The textbook profile of a standard accretion disc: the energy radiated per unit area and time at radius r is
    3 G M Mdot / (8 pi r^3) * (1 - sqrt (r_in / r)), and equals sigma T^4. *)
Definition disc_power (m mdot r_in r : R) : R := 3 * grav * m * mdot / (8 * PI * r ^ 3) * (1 - sqrt (r_in / r)).

Lemma pow4_Rpower : forall x y, (Rpower x y) ^ 4 = Rpower x (4 * y).
Proof. intros. rewrite <- Rpower_pow by apply Rpower_pos. rewrite Rpower_mult. f_equal. simpl. lra. Qed.

Lemma temp4 : forall m mdot r_in, 0 < m -> 0 < mdot -> 0 < r_in ->
  sigma_sb * temp_r_0 m mdot r_in ^ 4 = 8 * 3 ^ 7 / 7 ^ 7 * (grav * m * mdot / (PI * r_in ^ 3)).
Proof.
  intros m mdot r HM HD HR. unfold temp_r_0. rewrite !Rpow_mult_distr, !pow4_Rpower.
  assert (A : 0 < grav * m * mdot / (PI * sigma_sb * r ^ 3)).
  { pose proof grav_pos; pose proof sigma_pos; pose proof PI_RGT_0. assert (0 < r ^ 3) by (apply pow_lt; lra).
    apply Rdiv_lt_0_compat; repeat (apply Rmult_lt_0_compat; auto). }
  replace (4 * (3 / 4)) with (INR 3) by (simpl; lra). replace (4 * (7 / 4)) with (INR 7) by (simpl; lra).
  replace (4 * (1 / 4)) with 1 by lra. rewrite Rpower_1 by exact A. rewrite !Rpower_pow by lra.
  pose proof sigma_pos; pose proof PI_RGT_0. field. split; lra.
Qed.

(** The ring at [compute_r_0] is the hottest of the disc, and [compute_temp_at_r_0] is its temperature. *)
Theorem C76_hottest_ring : forall m mdot r_in r, 0 < m -> 0 < mdot -> 0 < r_in -> r_in <= r ->
  disc_power m mdot r_in (r_0 r_in) = sigma_sb * temp_r_0 m mdot r_in ^ 4 /\
  disc_power m mdot r_in r <= sigma_sb * temp_r_0 m mdot r_in ^ 4 /\
  (disc_power m mdot r_in r = sigma_sb * temp_r_0 m mdot r_in ^ 4 -> r = r_0 r_in).
Proof.
  intros m mdot a r HM HD HA HR. rewrite temp4 by auto. unfold disc_power, r_0.
  pose proof grav_pos as HG; pose proof PI_RGT_0 as HP.
  set (k := grav * m * mdot / PI). assert (HK : 0 < k) by (unfold k; apply Rdiv_lt_0_compat; [repeat (apply Rmult_lt_0_compat; auto) | auto]).
  (* s = sqrt (a / r) in (0, 1] *)
  assert (Q : 0 < a / r) by (apply Rdiv_lt_0_compat; lra).
  pose proof (sqrt_lt_R0 _ Q) as HS. set (s := sqrt (a / r)) in *.
  assert (SS : s * s = a / r) by (apply sqrt_sqrt; lra).
  assert (RA : r = a / (s * s)) by (rewrite SS; field; split; lra).
  assert (E : 3 * grav * m * mdot / (8 * PI * r ^ 3) * (1 - s) = k / a ^ 3 * (3 / 8 * (s ^ 6 - s ^ 7))).
  { unfold k. rewrite RA. field. repeat split; lra. }
  assert (K3 : 0 < k / a ^ 3) by (apply Rdiv_lt_0_compat; [lra | apply pow_lt; lra]).
  assert (M : 8 * 3 ^ 7 / 7 ^ 7 * (grav * m * mdot / (PI * a ^ 3)) = k / a ^ 3 * (8 * 3 ^ 7 / 7 ^ 7)).
  { unfold k. field. split; lra. }
  rewrite E, M.
  (* f(s) = s^6 - s^7 has max 6^6/7^7 at s = 6/7 *)
  assert (F : forall x, 8 * 3 ^ 7 / 7 ^ 7 - 3 / 8 * (x ^ 6 - x ^ 7) =
    3 / (8 * 7 ^ 7) * ((7 * x - 6) ^ 2 * ((7 * x) ^ 5 + 5 * (7 * x) ^ 4 + 24 * (7 * x) ^ 3 + 108 * (7 * x) ^ 2 + 432 * (7 * x) + 1296)))
    by (intros x; field).
  assert (GP : 0 < (7 * s) ^ 5 + 5 * (7 * s) ^ 4 + 24 * (7 * s) ^ 3 + 108 * (7 * s) ^ 2 + 432 * (7 * s) + 1296).
  { assert (0 < 7 * s) by lra. assert (forall n, 0 < (7 * s) ^ n) by (intros; apply pow_lt; auto).
    pose proof (H0 5%nat); pose proof (H0 4%nat); pose proof (H0 3%nat); pose proof (H0 2%nat). lra. }
  repeat split.
  - assert (X : sqrt (a / ((7 / 6) ^ 2 * a)) = 6 / 7).
    { replace (a / ((7 / 6) ^ 2 * a)) with ((6 / 7) * (6 / 7)) by (field; lra). apply sqrt_square; lra. }
    rewrite X. unfold k. field. split; lra.
  - apply Rmult_le_compat_l; [lra|]. specialize (F s). pose proof (pow2_ge_0 (7 * s - 6)). 
    assert (0 <= (7 * s - 6) ^ 2 * ((7 * s) ^ 5 + 5 * (7 * s) ^ 4 + 24 * (7 * s) ^ 3 + 108 * (7 * s) ^ 2 + 432 * (7 * s) + 1296)) by (apply Rmult_le_pos; lra).
    set (w := (7 * s - 6) ^ 2 * _) in *. clearbody w. simpl in *. lra.
  - intros X. apply Rmult_eq_reg_l in X; [|lra]. specialize (F s). rewrite X in F.
    replace (8 * 3 ^ 7 / 7 ^ 7 - 8 * 3 ^ 7 / 7 ^ 7) with 0 in F by lra.
    assert (Z : 7 * s - 6 = 0).
    { symmetry in F. apply Rmult_integral in F as [F | F]; [simpl in F; lra|].
      apply Rmult_integral in F as [F | F]; [| lra]. simpl in F. nra. }
    rewrite RA. replace s with (6 / 7) by lra. field.
Qed.

(** ** Luminosity and inclination *)
Theorem C76_disc_geometry : forall quad mdot nu k i d m, 0 < d ->
  (forall d', 0 < d' -> standard_disk quad mdot nu k i d' m * d' ^ 2 = standard_disk quad mdot nu k i d m * d ^ 2) /\
  standard_disk quad mdot nu k i d m = cos i * standard_disk quad mdot nu k 0 d m /\
  ((forall x, 0 < x -> 0 < quad x) -> 0 < mdot -> 0 < nu -> 0 < k -> 0 < m -> 0 <= i -> i < PI / 2 -> 0 < standard_disk quad mdot nu k i d m).
Proof.
  intros quad mdot nu k i d m HD. unfold standard_disk.
  set (rin := grav * m / (c_cgs * c_cgs) * k). set (r0 := r_0 rin). set (t0 := temp_r_0 m mdot rin).
  set (q := quad _). pose proof c_pos as HC.
  repeat split.
  - intros d' H. field. repeat split; lra.
  - rewrite cos_0. field. repeat split; lra.
  - intros Q H1 H2 H3 H4 H5 H6. pose proof PI_RGT_0 as PP. pose proof planck_pos as HP.
    assert (0 < cos i) by (apply cos_gt_0; lra).
    assert (0 < rin) by (unfold rin; pose proof grav_pos; apply Rmult_lt_0_compat; [apply Rdiv_lt_0_compat; apply Rmult_lt_0_compat |]; auto).
    assert (0 < r0) by (unfold r0, r_0; lra).
    assert (0 < r0 ^ 2) by (apply pow_lt; auto). assert (0 < d ^ 2) by (apply pow_lt; auto).
    assert (0 < q). { apply Q. apply Rlt_le_trans with (1 / 10 ^ 6); [| apply Rmax_r]. apply Rdiv_lt_0_compat; [lra | apply pow_lt; lra]. }
    assert (0 < cgs_njy) by (unfold cgs_njy; apply pow_lt; lra).
    assert (0 < 16 * PI / (3 * d ^ 2)) by (apply Rdiv_lt_0_compat; lra).
    assert (0 < / (c_cgs * c_cgs)) by (apply Rinv_0_lt_compat, Rmult_lt_0_compat; auto).
    unfold Rdiv at 1. repeat (apply Rmult_lt_0_compat; [| first [assumption | apply exp_pos]]); auto.
Qed.

Lemma log10_mult : forall a b, 0 < a -> 0 < b -> log10 (a * b) = log10 a + log10 b.
Proof. intros. unfold log10. rewrite ln_mult by auto. lra. Qed.
Lemma ln10_pos : 0 < ln 10.
Proof. rewrite <- ln_1. apply ln_increasing; lra. Qed.
(** The derived parameters: the accretion rate and the luminosity are proportional to the Eddington ratio and to the
    mass, and the efficiency L / (Mdot c^2) is a tenth (within 0.2 percent); the magnitude falls by 2.5 for each
    factor of ten in luminosity. *)
Theorem C76_derived : forall mass edd, 0 < mass -> 0 < edd -> let p := agn_derived mass edd in
  de_mass_g p = mass * m_sun_g /\
  de_rate p = edd * de_critical p /\ de_critical p = 14 * 10 ^ 17 * mass /\
  de_lum p = edd * (126 * 10 ^ 36) * mass /\
  (exists eff, de_lum p = eff * (de_rate p * c_cgs ^ 2) /\ Rabs (eff - 1 / 10) < 2 / 1000 * (1 / 10)) /\
  (forall mass' edd' n, 0 < mass' -> 0 < edd' -> edd' * mass' = edd * mass * 10 ^ n ->
     de_mag (agn_derived mass' edd') = de_mag p - 25 / 10 * INR n) /\
  0 < de_sf p /\ 0 < de_tau p.
Proof.
  intros mass edd HM HE p. pose proof m_sun_pos as HS.
  assert (C : de_critical p = 14 * 10 ^ 17 * mass) by (unfold p, agn_derived, critical_rate; cbv zeta; simpl de_critical; field; lra).
  assert (Rt : de_rate p = edd * de_critical p) by (unfold p, agn_derived, bh_rate; cbv zeta; simpl de_rate; simpl de_critical; ring).
  assert (Lm : forall m e, de_lum (agn_derived m e) = e * (126 * 10 ^ 36) * m) by (intros; unfold agn_derived, bolometric; cbv zeta; simpl de_lum; field; lra).
  split; [reflexivity|]. split; [exact Rt|]. split; [exact C|]. split; [apply Lm|]. split; [| split; [| split; apply exp_pos]].
  - exists (126 * 10 ^ 36 / (14 * 10 ^ 17 * c_cgs ^ 2)). unfold p. rewrite Lm. fold p. rewrite Rt, C. unfold c_cgs. split.
    + field.
    + apply Rabs_def1; simpl; lra.
  - intros m' e' n Hm' He' E. unfold p, agn_derived, mag_i; cbv zeta; simpl de_mag.
    assert (B : forall e m, bolometric e (m * m_sun_g) = e * m * (126 * 10 ^ 36)) by (intros; unfold bolometric; field; lra).
    rewrite !B, E.
    assert (P36 : 0 < 126 * 10 ^ 36) by (apply Rmult_lt_0_compat; [lra | apply pow_lt; lra]).
    assert (PN : 0 < 10 ^ n) by (apply pow_lt; lra). assert (EM : 0 < edd * mass) by (apply Rmult_lt_0_compat; auto).
    rewrite (log10_mult (edd * mass * 10 ^ n)) by (auto; apply Rmult_lt_0_compat; auto). rewrite (log10_mult (edd * mass) (10 ^ n)) by auto.
    rewrite (log10_mult (edd * mass) (126 * 10 ^ 36)) by auto.
    assert (LN : log10 (10 ^ n) = INR n). { unfold log10. rewrite ln_pow by lra. pose proof ln10_pos. field. lra. }
    rewrite LN. lra.
Qed.

(** The checks of the constructor. *)
Theorem C76_keywords : forall kw, agn_check kw = Ok tt <-> In "redshift"%string kw /\ (In "cosmology"%string kw \/ In "distance"%string kw).
Proof.
  intros kw. unfold agn_check.
  assert (X : forall s, existsb (String.eqb s) kw = true <-> In s kw).
  { intros s. rewrite existsb_exists. split; [intros [y [H E]]; apply String.eqb_eq in E; subst; auto | intros H; exists s; split; [auto | apply String.eqb_refl]]. }
  pose proof (X "redshift"%string) as X1; pose proof (X "cosmology"%string) as X2; pose proof (X "distance"%string) as X3.
  destruct (existsb (String.eqb "redshift") kw), (existsb (String.eqb "cosmology") kw), (existsb (String.eqb "distance") kw); simpl;
    split; intros H; try discriminate; try reflexivity; try tauto;
    destruct H as [A B]; try (apply X1 in A; discriminate); destruct B as [B | B]; try (apply X2 in B; discriminate); apply X3 in B; discriminate.
Qed.

(** ** The walk *)
(** When the walk is computed at all: the lengths agree and every time but the first is after t0. *)
Lemma loop_ok : forall u sf tau t0 times idx d, (exists rows, walk_loop u sf tau t0 (S idx) d times = Ok rows) <-> Forall (fun t => t0 < t) times.
Proof.
  induction times as [| t rest IH]; intros idx d; simpl.
  - split; [constructor | intros; eexists; reflexivity].
  - destruct (Rleb t t0) eqn:E; simpl.
    + apply Rleb_true in E. split; [intros [r H]; discriminate | intros H; inversion H; subst; lra].
    + apply Rleb_false in E. specialize (IH (S idx) (walk_row sf tau (t - t0) (u (S (S idx))) d)).
      split.
      * intros [r H]. match type of H with bind ?X _ = _ => destruct X as [rows|] eqn:Q; [|discriminate] end.
        constructor; [auto|]. apply IH. eexists; reflexivity.
      * intros H. inversion H as [| ? ? _ H']; subst. apply IH in H' as [rows Q]. rewrite Q. eexists; reflexivity.
Qed.
Lemma loop_err : forall u sf tau t0 times idx d e, walk_loop u sf tau t0 idx d times = Err e -> e = ValueError.
Proof.
  induction times as [| t rest IH]; intros idx d e; simpl; [discriminate|].
  destruct (Rleb t t0 && negb (Nat.eqb idx 0))%bool; [congruence|]. intros H.
  match type of H with bind ?X _ = _ => destruct X as [rows|e'] eqn:Q end; [discriminate|]. simpl in H. apply IH in Q. congruence.
Qed.
Theorem C76_walk_accepts : forall u times tau sf t0,
  ((exists rows, drw u times tau sf t0 = Ok rows) <-> length sf = length tau /\ Forall (fun t => t0 < t) (tl times)) /\
  (forall e, drw u times tau sf t0 = Err e -> e = ValueError).
Proof.
  intros u times tau sf t0. unfold drw. destruct (Nat.eqb (length sf) (length tau)) eqn:L.
  - apply PeanoNat.Nat.eqb_eq in L. split.
    + destruct times as [| t rest]; simpl.
      * split; [split; [auto | constructor] | intros; eexists; reflexivity].
      * rewrite andb_false_r. rewrite <- (loop_ok u sf tau t0 rest 0 (walk_row sf tau (t - t0) (u 1%nat) (map (fun s => Some (u 0%nat * s)) sf))). split.
        -- intros [r H]. split; [auto|]. match type of H with bind ?X _ = _ => destruct X as [rows|] eqn:Q; [|discriminate] end. eexists; reflexivity.
        -- intros [_ [rows Q]]. rewrite Q. eexists; reflexivity.
    + intros e. apply loop_err.
  - apply PeanoNat.Nat.eqb_neq in L. split.
    + split; [intros [r H]; discriminate | intros [H _]; congruence].
    + intros e H. congruence.
Qed.

Lemma walk_row_nth : forall sf tau dt draw d j s t x, nth_error sf j = Some s -> nth_error tau j = Some t -> nth_error d j = Some x ->
  nth_error (walk_row sf tau dt draw d) j = Some (walk_step s t dt draw x).
Proof.
  induction sf as [| s sf IH]; intros tau dt draw d j s0 t x H1 H2 H3; [destruct j; discriminate|].
  destruct tau as [| t1 tau]; [destruct j; discriminate|]. destruct d as [| x1 d]; [destruct j; discriminate|].
  destruct j; simpl in *; [congruence | eauto].
Qed.
Lemma walk_row_length : forall sf tau dt draw d, length sf = length tau -> length d = length sf -> length (walk_row sf tau dt draw d) = length sf.
Proof.
  induction sf as [| s sf IH]; intros [| t tau] dt draw [| x d] H1 H2; simpl in *; try discriminate; auto.
Qed.
(** The value at (time i, wavelength j) only depends on the j-th entries. *)
Fixpoint walk1 (u : nat -> R) (sf tau t0 : R) (idx : nat) (d : option R) (times : list R) : list (option R) :=
  match times with
  | [] => []
  | t :: rest => let d' := walk_step sf tau (t - t0) (u (S idx)) d in d' :: walk1 u sf tau t0 (S idx) d' rest
  end.
Lemma loop_walk1 : forall u sf tau t0 times idx d rows j s t x, walk_loop u sf tau t0 idx d times = Ok rows ->
  nth_error sf j = Some s -> nth_error tau j = Some t -> nth_error d j = Some x ->
  length rows = length times /\
  forall i v, nth_error (walk1 u s t t0 idx x times) i = Some v -> exists row, nth_error rows i = Some row /\ nth_error row j = Some v.
Proof.
  induction times as [| tm rest IH]; intros idx d rows j s t x H H1 H2 H3; simpl in H.
  - injection H as <-. split; [auto|]. intros i v V. destruct i; discriminate.
  - destruct (Rleb tm t0 && negb (Nat.eqb idx 0))%bool; [discriminate|].
    match type of H with bind ?X _ = _ => destruct X as [rows'|] eqn:Q; [|discriminate] end. injection H as <-.
    pose proof (walk_row_nth sf tau (tm - t0) (u (S idx)) d j s t x H1 H2 H3) as W.
    destruct (IH _ _ _ _ _ _ _ Q H1 H2 W) as [L V]. split; [simpl; congruence|].
    intros i v Hi. destruct i; simpl in *; [injection Hi as <-; eauto | eauto].
Qed.

Lemma walk1_length : forall u s t t0 times idx x, length (walk1 u s t t0 idx x times) = length times.
Proof. induction times; intros; simpl; auto. Qed.
Lemma step_some : forall s t dt draw v, 0 < t -> 0 <= dt -> walk_step s t dt draw (Some v) = Some (v * exp (- dt / t) + s * sqrt (1 - exp (- 2 * dt / t)) * draw).
Proof.
  intros s t dt draw v HT HD. unfold walk_step. rewrite (proj2 (Reqb_false t 0)) by lra.
  assert (E : exp (- 2 * dt / t) <= 1).
  { rewrite <- exp_0. destruct (Rle_lt_or_eq_dec 0 dt HD) as [L | <-].
    - left. apply exp_increasing. assert (0 < 2 * dt / t) by (apply Rdiv_lt_0_compat; lra). unfold Rdiv in *. lra.
    - right. f_equal. field. lra. }
  rewrite (proj2 (Rltb_false (1 - exp (- 2 * dt / t)) 0)) by lra. reflexivity.
Qed.
(** a v + sqrt (1 - a^2) u <= sqrt (v^2 + 1) for 0 <= a <= 1, 0 <= u <= 1. *)
Lemma step_bound : forall s t dt draw v n, 0 < t -> 0 <= dt -> 0 <= draw <= 1 -> 0 <= s -> 0 <= v <= s * sqrt n -> 0 <= n ->
  0 <= v * exp (- dt / t) + s * sqrt (1 - exp (- 2 * dt / t)) * draw <= s * sqrt (n + 1).
Proof.
  intros s t dt draw v n HT HD HU HS HV HN.
  set (a := exp (- dt / t)). assert (A0 : 0 < a) by apply exp_pos.
  assert (A1 : a <= 1).
  { unfold a. rewrite <- exp_0. destruct (Rle_lt_or_eq_dec 0 dt HD) as [L | <-].
    - left. apply exp_increasing. assert (0 < dt / t) by (apply Rdiv_lt_0_compat; lra). unfold Rdiv in *. lra.
    - right. f_equal. field. lra. }
  assert (A2 : exp (- 2 * dt / t) = a * a) by (unfold a; rewrite <- exp_plus; f_equal; field; lra).
  rewrite A2. set (b := sqrt (1 - a * a)). assert (B0 : 0 <= b) by apply sqrt_pos.
  assert (B2 : b * b = 1 - a * a) by (apply sqrt_sqrt; nra).
  split.
  - apply Rplus_le_le_0_compat; repeat apply Rmult_le_pos; lra.
  - assert (Q : a * sqrt n + b <= sqrt (n + 1)).
    { set (r := sqrt n). assert (R0 : 0 <= r) by apply sqrt_pos. assert (R2 : r * r = n) by (apply sqrt_sqrt; auto).
      rewrite <- (sqrt_square (a * r + b)) by (apply Rplus_le_le_0_compat; [apply Rmult_le_pos|]; lra).
      apply sqrt_le_1_alt. rewrite <- R2. pose proof (Rle_0_sqr (b * r - a)) as Z. unfold Rsqr in Z. nra. }
    apply Rle_trans with (s * (a * sqrt n + b)); [| apply Rmult_le_compat_l; auto].
    assert (v * a <= s * sqrt n * a) by (apply Rmult_le_compat_r; lra).
    assert (s * b * draw <= s * b) by (rewrite <- (Rmult_1_r (s * b)) at 2; apply Rmult_le_compat_l; [apply Rmult_le_pos; auto | lra]).
    lra.
Qed.
Lemma walk1_range : forall u s t t0 times idx v, (forall k, 0 <= u k <= 1) -> 0 < t -> 0 <= s -> Forall (fun x => t0 <= x) times ->
  0 <= v <= s * sqrt (INR (S idx)) ->
  forall i, (i < length times)%nat -> exists w, nth_error (walk1 u s t t0 idx (Some v) times) i = Some (Some w) /\ 0 <= w <= s * sqrt (INR (S (S idx) + i)).
Proof.
  induction times as [| tm rest IH]; intros idx v HU HT HS HF HV i Hi; [simpl in Hi; lia|].
  inversion HF as [| ? ? F1 F2]; subst.
  assert (B := step_bound s t (tm - t0) (u (S idx)) v (INR (S idx)) HT ltac:(lra) (HU _) HS HV (pos_INR _)).
  replace (INR (S idx) + 1) with (INR (S (S idx))) in B by (rewrite (S_INR (S idx)); reflexivity).
  cbn [walk1]. rewrite step_some by lra.
  destruct i as [| i]; cbn [nth_error].
  - eexists. split; [reflexivity|]. rewrite PeanoNat.Nat.add_0_r. exact B.
  - simpl in Hi. destruct (IH (S idx) _ HU HT HS F2 B i ltac:(lia)) as [w [W1 W2]]. exists w. split; [exact W1|].
    replace (S (S idx) + S i)%nat with (S (S (S idx)) + i)%nat by lia. exact W2.
Qed.
Definition walk_at (rows : list (list (option R))) (i j : nat) (v : option R) : Prop :=
  exists row, nth_error rows i = Some row /\ nth_error row j = Some v.
Lemma drw_walk1 : forall u times tau sf t0 rows j s t, drw u times tau sf t0 = Ok rows -> nth_error sf j = Some s -> nth_error tau j = Some t ->
  length rows = length times /\
  forall i v, nth_error (walk1 u s t t0 0 (Some (u 0%nat * s)) times) i = Some v -> walk_at rows i j v.
Proof.
  intros u times tau sf t0 rows j s t H H1 H2. unfold drw in H. destruct (Nat.eqb (length sf) (length tau)); [|discriminate].
  apply (loop_walk1 _ _ _ _ _ _ _ _ _ _ _ _ H H1 H2). rewrite nth_error_map, H1. reflexivity.
Qed.
(** Times from t0 on: every value is a number, at least 0 and at most the structure function times the square root
    of the number of draws so far. *)
Theorem C76_walk_range : forall u times tau sf t0 rows, (forall k, 0 <= u k <= 1) -> drw u times tau sf t0 = Ok rows ->
  Forall (fun x => t0 <= x) times -> Forall (fun t => 0 < t) tau -> Forall (fun s => 0 <= s) sf ->
  forall i j s, (i < length times)%nat -> nth_error sf j = Some s ->
  exists w, walk_at rows i j (Some w) /\ 0 <= w <= s * sqrt (INR (i + 2)).
Proof.
  intros u times tau sf t0 rows HU H HF HT HS i j s Hi Hs.
  assert (L : length sf = length tau) by (apply (proj1 (C76_walk_accepts u times tau sf t0)); eauto).
  destruct (nth_error tau j) as [t|] eqn:Ht; [| apply nth_error_None in Ht; assert (j < length sf)%nat by (apply nth_error_Some; congruence); lia].
  destruct (drw_walk1 _ _ _ _ _ _ _ _ _ H Hs Ht) as [_ W].
  assert (S0 : 0 <= s) by (eapply Forall_forall in HS; [exact HS | eapply nth_error_In; eauto]).
  assert (T0 : 0 < t) by (eapply Forall_forall in HT; [exact HT | eapply nth_error_In; eauto]).
  destruct (walk1_range u s t t0 times 0 (u 0%nat * s) HU T0 S0 HF) with (i := i) as [w [W1 W2]]; [| exact Hi |].
  { simpl INR. rewrite sqrt_1. specialize (HU 0%nat). split; [apply Rmult_le_pos; lra | nra]. }
  exists w. split; [apply W; exact W1|]. replace (i + 2)%nat with (2 + i)%nat by lia. exact W2.
Qed.
(** Shifting the times and t0 together changes nothing; the values are proportional to the structure function. *)
Lemma loop_shift : forall u sf tau t0 c times idx d, walk_loop u sf tau (t0 + c) idx d (map (fun t => t + c) times) = walk_loop u sf tau t0 idx d times.
Proof.
  induction times as [| t rest IH]; intros idx d; simpl; [reflexivity|].
  replace (Rleb (t + c) (t0 + c)) with (Rleb t t0)
    by (destruct (Rleb t t0) eqn:E; symmetry; [apply Rleb_true in E; apply Rleb_true | apply Rleb_false in E; apply Rleb_false]; lra).
  replace (t + c - (t0 + c)) with (t - t0) by lra. rewrite IH. reflexivity.
Qed.
Theorem C76_walk_shift : forall u times tau sf t0 c, drw u (map (fun t => t + c) times) tau sf (t0 + c) = drw u times tau sf t0.
Proof. intros. unfold drw. rewrite loop_shift. reflexivity. Qed.
Lemma step_scale : forall c s t dt draw x, walk_step (c * s) t dt draw (option_map (Rmult c) x) = option_map (Rmult c) (walk_step s t dt draw x).
Proof.
  intros. unfold walk_step. destruct x as [x|]; simpl; [|reflexivity]. destruct (Reqb t 0); [reflexivity|].
  destruct (Rltb _ 0); [reflexivity|]. simpl. f_equal. ring.
Qed.
Lemma row_scale : forall c sf tau dt draw d,
  walk_row (map (Rmult c) sf) tau dt draw (map (option_map (Rmult c)) d) = map (option_map (Rmult c)) (walk_row sf tau dt draw d).
Proof. induction sf as [| s sf IH]; intros [| t tau] dt draw [| x d]; simpl; try reflexivity. rewrite step_scale, IH. reflexivity. Qed.
Theorem C76_walk_scale : forall u times tau sf t0 rows c, drw u times tau sf t0 = Ok rows ->
  drw u times tau (map (Rmult c) sf) t0 = Ok (map (map (option_map (Rmult c))) rows).
Proof.
  intros u times tau sf t0 rows c. unfold drw. rewrite map_length. destruct (Nat.eqb (length sf) (length tau)); [|discriminate].
  assert (G : forall times idx d rows, walk_loop u sf tau t0 idx d times = Ok rows ->
    walk_loop u (map (Rmult c) sf) tau t0 idx (map (option_map (Rmult c)) d) times = Ok (map (map (option_map (Rmult c))) rows)).
  { clear. induction times as [| t rest IH]; intros idx d rows H; simpl in *; [injection H as <-; reflexivity|].
    destruct (Rleb t t0 && negb (Nat.eqb idx 0))%bool; [discriminate|].
    match type of H with bind ?X _ = _ => destruct X as [rows'|] eqn:Q; [|discriminate] end. injection H as <-.
    rewrite row_scale. erewrite IH by exact Q. reflexivity. }
  intros H. specialize (G _ _ _ _ H). rewrite <- G. f_equal. rewrite !map_map. apply map_ext. intros s. simpl. f_equal. ring.
Qed.

(** ** The flux *)
(** The parameters [compute_sed] reads. *)
Definition agn_params (ps : params) (m tau sf mdot i dist t0 : R) : Prop :=
  dget "blackhole_mass_gram" ps = Some (PNum m) /\ dget "tau_4000aa" ps = Some (PNum tau) /\
  dget "sf_inf_4000aa" ps = Some (PNum sf) /\ dget "blackhole_accretion_rate" ps = Some (PNum mdot) /\
  dget "inclination_rad" ps = Some (PNum i) /\ dget "distance" ps = Some (PNum dist) /\ dget "t0" ps = Some (PNum t0).
Lemma agn_sed_eq : forall quad u node times waves (st : gst) (ps : params) m tau sf mdot i dist t0,
  dget node st = Some ps -> agn_params ps m tau sf mdot i dist t0 ->
  agn_sed quad u node times waves st =
    bind (drw u times (map (fun w => tau_at tau (w * angstrom_cm)) waves) (map (fun w => sf_at sf (w * angstrom_cm)) waves) t0) (fun rows =>
    Ok (map (fun d => dimmed d (map (fun w => standard_disk quad mdot (c_cgs / (w * angstrom_cm)) 6 i (dist * parsec_cm) m) waves)) rows)).
Proof.
  intros quad u node times waves st ps m tau sf mdot i dist t0 H [P1 [P2 [P3 [P4 [P5 [P6 P7]]]]]].
  unfold agn_sed, local_params, need. rewrite H. simpl bind. rewrite P1, P2, P3, P4, P5, P6, P7. simpl bind. cbv zeta. rewrite !map_map. reflexivity.
Qed.
Lemma dimmed_nth : forall d f j x y, nth_error d j = Some (Some x) -> nth_error f j = Some y ->
  nth_error (dimmed d f) j = Some (Some (Rpower 10 (- (4 / 10) * x) * y)).
Proof.
  induction d as [| a d IH]; intros [| b f] j x y H1 H2; destruct j; simpl in *; try discriminate.
  - injection H1 as ->. injection H2 as ->. reflexivity.
  - eauto.
Qed.
(** From t0 on, the flux at every time and wavelength is the flux of the disc dimmed by [delta] magnitudes, where delta is the
    value of the walk. *)
Theorem C76_flux : forall quad u node times waves (st : gst) (ps : params) m tau sf mdot i dist t0,
  dget node st = Some ps -> agn_params ps m tau sf mdot i dist t0 -> (forall k, 0 <= u k <= 1) -> 0 < tau -> 0 <= sf ->
  Forall (fun w => 0 < w) waves -> Forall (fun t => t0 <= t) times -> Forall (fun t => t0 < t) (tl times) ->
  exists fl, agn_sed quad u node times waves st = Ok fl /\ length fl = length times /\
  forall k t j w, nth_error times k = Some t -> nth_error waves j = Some w ->
  exists delta, 0 <= delta <= sf_at sf (w * angstrom_cm) * sqrt (INR (k + 2)) /\
    walk_at fl k j (Some (Rpower 10 (- (4 / 10) * delta) * standard_disk quad mdot (c_cgs / (w * angstrom_cm)) 6 i (dist * parsec_cm) m)).
Proof.
  intros quad u node times waves st ps m tau sf mdot i dist t0 H P HU HT HS HW HF HN.
  rewrite (agn_sed_eq _ _ _ _ _ _ _ _ _ _ _ _ _ _ H P).
  set (taus := map _ waves). set (sfs := map (fun w => sf_at sf (w * angstrom_cm)) waves).
  destruct (proj2 (proj1 (C76_walk_accepts u times taus sfs t0))) as [rows E].
  { split; [unfold taus, sfs; rewrite !map_length; reflexivity | exact HN]. }
  rewrite E. simpl bind. eexists. split; [reflexivity|].
  assert (AP : 0 < angstrom_cm) by (unfold angstrom_cm; apply Rinv_0_lt_compat, pow_lt; lra).
  assert (D4 : 0 < 4000 / 10 ^ 8) by (apply Rdiv_lt_0_compat; [lra | apply pow_lt; lra]).
  assert (LR : length rows = length times).
  { unfold drw in E. destruct (Nat.eqb (length sfs) (length taus)); [|discriminate]. clear - E. revert E.
    generalize (map (fun s => Some (u 0%nat * s)) sfs). generalize 0%nat at 1. intros n l. revert rows n l.
    induction times as [| t rest IH]; intros rows n l E; simpl in E; [injection E as <-; reflexivity|].
    destruct (Rleb t t0 && negb (Nat.eqb n 0))%bool; [discriminate|].
    match type of E with bind ?X _ = _ => destruct X as [rows'|] eqn:Q; [|discriminate] end. injection E as <-. simpl. f_equal. eapply IH. exact Q. }
  split; [rewrite map_length; exact LR|].
  intros k t j w Hk Hj.
  assert (SJ : nth_error sfs j = Some (sf_at sf (w * angstrom_cm))) by (unfold sfs; rewrite nth_error_map, Hj; reflexivity).
  assert (Kl : (k < length times)%nat) by (apply nth_error_Some; congruence).
  destruct (C76_walk_range u times taus sfs t0 rows HU E HF) with (i := k) (j := j) (s := sf_at sf (w * angstrom_cm)) as [delta [[row [R1 R2]] R3]]; auto.
  { apply Forall_forall. intros x Hx. apply in_map_iff in Hx as [y [<- Y]]. eapply Forall_forall in HW; [|exact Y]. unfold tau_at.
    apply Rdiv_lt_0_compat; [|exact D4]. repeat apply Rmult_lt_0_compat; auto. apply exp_pos. }
  { apply Forall_forall. intros x Hx. apply in_map_iff in Hx as [y [<- Y]]. eapply Forall_forall in HW; [|exact Y]. unfold sf_at.
    apply Rmult_le_pos; [| left; apply Rinv_0_lt_compat; auto]. repeat apply Rmult_le_pos; auto; [left; apply exp_pos | left; auto | left; auto]. }
  exists delta. split; [exact R3|]. eexists. split; [rewrite nth_error_map, R1; reflexivity|].
  apply dimmed_nth; [exact R2|]. rewrite nth_error_map, Hj. reflexivity.
Qed.

(** ** What the documentation says and the code does not do *)
(** The flux never rises above the average: the noise of the walk is never negative. *)
Theorem C76_never_brighter_refuted : forall quad u node times waves (st : gst) (ps : params) m tau sf mdot i dist t0,
  dget node st = Some ps -> agn_params ps m tau sf mdot i dist t0 -> (forall k, 0 <= u k <= 1) -> 0 < tau -> 0 <= sf ->
  Forall (fun w => 0 < w) waves -> Forall (fun t => t0 <= t) times -> Forall (fun t => t0 < t) (tl times) ->
  forall k t j w, nth_error times k = Some t -> nth_error waves j = Some w ->
  let avg := standard_disk quad mdot (c_cgs / (w * angstrom_cm)) 6 i (dist * parsec_cm) m in 0 <= avg ->
  exists fl f, agn_sed quad u node times waves st = Ok fl /\ walk_at fl k j (Some f) /\ f <= avg.
Proof.
  intros quad u node times waves st ps m tau sf mdot i dist t0 H P HU HT HS HW HF HN k t j w Hk Hj avg HA.
  destruct (C76_flux quad u node times waves st ps m tau sf mdot i dist t0 H P HU HT HS HW HF HN) as [fl [E [_ F]]].
  destruct (F k t j w Hk Hj) as [delta [[D _] V]]. eexists. eexists. split; [exact E|]. split; [exact V|]. fold avg.
  rewrite <- (Rmult_1_l avg) at 2. apply Rmult_le_compat_r; [exact HA|].
  rewrite <- (Rpower_O 10) by lra. apply Rle_Rpower; lra.
Qed.
(** Not a walk: however close two times are, the second value can be far from the first. *)
Theorem C76_walk_continuity_refuted : forall s tau t0 t1, 0 < s -> 0 < tau -> t0 < t1 ->
  exists jump u, 0 < jump /\ (forall k, 0 <= u k < 1) /\
  forall t2, t1 < t2 -> exists v1 v2, drw u [t1; t2] [tau] [s] t0 = Ok [[Some v1]; [Some v2]] /\ jump <= v2 - v1.
Proof.
  intros s tau t0 t1 HS HT H1.
  set (jump := s * sqrt (1 - exp (- 2 * (t1 - t0) / tau)) * (1 / 2)).
  exists jump, (fun k => match k with 2%nat => 1 / 2 | _ => 0 end).
  assert (E1 : forall t, t0 < t -> exp (- 2 * (t - t0) / tau) < 1).
  { intros t L. rewrite <- exp_0. apply exp_increasing. assert (0 < 2 * (t - t0) / tau) by (apply Rdiv_lt_0_compat; lra). unfold Rdiv in *. lra. }
  split; [| split].
  - unfold jump. apply Rmult_lt_0_compat; [apply Rmult_lt_0_compat|]; [auto | apply sqrt_lt_R0; specialize (E1 t1 H1); lra | lra].
  - intros [| [| [| k]]]; lra.
  - intros t2 L. unfold drw. cbn [length Nat.eqb map walk_loop walk_row]. rewrite andb_false_r.
    rewrite (proj2 (Rleb_false t2 t0)) by lra. cbn [andb bind negb].
    rewrite !step_some by lra. cbn [bind]. eexists. eexists. split; [reflexivity|].
    replace (0 * s) with 0 by ring. rewrite !Rmult_0_l, !Rmult_0_r, !Rplus_0_l, Rmult_0_l, Rplus_0_l, Rminus_0_r. unfold jump.
    apply Rmult_le_compat_r; [lra|]. apply Rmult_le_compat_l; [lra|]. apply sqrt_le_1_alt.
    assert (exp (- 2 * (t2 - t0) / tau) < exp (- 2 * (t1 - t0) / tau)).
    { apply exp_increasing. unfold Rdiv. apply Rmult_lt_compat_r; [apply Rinv_0_lt_compat; auto | lra]. }
    lra.
Qed.
(** Times that go back are accepted; increasing times that start well before t0 are refused, and if only the first
    time is before t0 every value is not a number. *)
Theorem C76_monotone_refuted : forall u tau sf t0, length sf = length tau ->
  (exists rows, drw u [t0 + 2; t0 + 1] tau sf t0 = Ok rows) /\ drw u [t0 - 2; t0 - 1] tau sf t0 = Err ValueError /\
  (forall rest s t, 0 < t -> sf = [s] -> tau = [t] -> Forall (fun x => t0 < x) rest ->
     drw u (t0 - 1 :: rest) tau sf t0 = Ok (map (fun _ => [None]) (t0 - 1 :: rest))).
Proof.
  intros u tau sf t0 L. split; [| split].
  - apply (C76_walk_accepts u). split; [auto|]. simpl. constructor; [lra | constructor].
  - destruct (drw u [t0 - 2; t0 - 1] tau sf t0) as [rows | e] eqn:E.
    + exfalso. destruct (proj1 (proj1 (C76_walk_accepts u [t0 - 2; t0 - 1] tau sf t0))) as [_ F]; [eauto|]. simpl in F. inversion F; subst. lra.
    + rewrite (proj2 (C76_walk_accepts u [t0 - 2; t0 - 1] tau sf t0) e E). reflexivity.
  - intros rest s t HT -> -> HF. unfold drw. cbn [length Nat.eqb map walk_loop walk_row]. rewrite andb_false_r. cbn [negb].
    assert (N : walk_step s t (t0 - 1 - t0) (u 1%nat) (Some (u 0%nat * s)) = None).
    { unfold walk_step. rewrite (proj2 (Reqb_false t 0)) by lra. 
      assert (1 < exp (- 2 * (t0 - 1 - t0) / t)).
      { rewrite <- exp_0 at 1. apply exp_increasing. replace (- 2 * (t0 - 1 - t0) / t) with (2 / t) by (field; lra). apply Rdiv_lt_0_compat; lra. }
      rewrite (proj2 (Rltb_true (1 - exp (- 2 * (t0 - 1 - t0) / t)) 0)) by lra. reflexivity. }
    rewrite N.
    assert (G : forall rest n, Forall (fun x => t0 < x) rest -> walk_loop u [s] [t] t0 n [None] rest = Ok (map (fun _ => [None]) rest)).
    { clear. induction rest as [| x rest IH]; intros n F; simpl; [reflexivity|]. inversion F; subst.
      rewrite (proj2 (Rleb_false x t0)) by lra. simpl. rewrite IH by auto. reflexivity. }
    rewrite G by auto. reflexivity.
Qed.
(** At the reference wavelength of 4000 angstroms the adjusted values are not the reference values, and the structure
    function grows in proportion to the wavelength (Suberlak et al.: it falls as its -0.479th power). *)
Theorem C76_reference_wavelength_refuted : forall sf tau wave, 0 < sf -> 0 < tau -> 0 < wave ->
  let ref := 4000 * angstrom_cm in
  sf_at sf ref < sf / 2 /\ tau * (14 / 10) < tau_at tau ref /\
  sf_at sf (2 * wave) = 2 * sf_at sf wave /\ tau_at tau (2 * wave) = 2 * tau_at tau wave.
Proof.
  intros sf tau wave HS HT HW ref.
  assert (E1 : sf_at sf ref = sf * Rpower 10 (- (479 / 1000))) by (unfold sf_at, ref, angstrom_cm; field).
  assert (E2 : tau_at tau ref = tau * Rpower 10 (17 / 100)) by (unfold tau_at, ref, angstrom_cm; field).
  rewrite E1, E2. split; [| split; [| split]].
  - rewrite Rpower_Ropp. 
    assert (2 < Rpower 10 (479 / 1000)).
    { apply Rlt_le_trans with (Rpower 10 (4 / 10)); [| apply Rle_Rpower; lra].
      replace 2 with (Rpower (2 ^ 5) (2 / 10)).
      - replace (Rpower 10 (4 / 10)) with (Rpower (10 ^ 2) (2 / 10)).
        + apply Rlt_Rpower_l; lra.
        + rewrite <- Rpower_pow by lra. rewrite Rpower_mult. f_equal. simpl. lra.
      - rewrite <- Rpower_pow by lra. rewrite Rpower_mult. replace (INR 5 * (2 / 10)) with 1 by (simpl; lra). apply Rpower_1; lra. }
    apply Rmult_lt_compat_l; [auto|]. apply Rinv_lt_contravar; lra.
  - apply Rmult_lt_compat_l; [auto|].
    apply Rlt_le_trans with (Rpower 10 (16 / 100)); [| apply Rle_Rpower; lra].
    replace (14 / 10) with (Rpower ((14 / 10) ^ 25) (4 / 100)).
    + replace (Rpower 10 (16 / 100)) with (Rpower (10 ^ 4) (4 / 100)).
      * apply Rlt_Rpower_l; [lra|]. split; [apply pow_lt; lra|]. simpl. lra.
      * rewrite <- Rpower_pow by lra. rewrite Rpower_mult. f_equal. simpl. lra.
    + rewrite <- Rpower_pow by lra. rewrite Rpower_mult. replace (INR 25 * (4 / 100)) with 1 by (simpl; lra). apply Rpower_1; lra.
  - unfold sf_at. field.
  - unfold tau_at. field.
Qed.
(** A concrete source: 10^8 solar masses at a tenth of the Eddington rate, face on, at 10 Mpc, three epochs. *)
Definition case_agn : gst :=
  let p := agn_derived (10 ^ 8) (1 / 10) in
  [("agn"%string, [("blackhole_mass_gram"%string, PNum (de_mass_g p)); ("tau_4000aa"%string, PNum (de_tau p));
     ("sf_inf_4000aa"%string, PNum (de_sf p)); ("blackhole_accretion_rate"%string, PNum (de_rate p));
     ("inclination_rad"%string, PNum 0); ("distance"%string, PNum (10 ^ 7)); ("t0"%string, PNum 60000)])].
Example C76_case : forall u, (forall k, 0 <= u k <= 1) ->
  exists fl, agn_sed (fun _ => 1) u "agn" [60000; 60001; 60005] [4000; 5000] case_agn = Ok fl /\ length fl = 3%nat.
Proof.
  intros u HU. destruct (C76_derived (10 ^ 8) (1 / 10)) as (_ & _ & _ & _ & _ & _ & HS & HT); [apply pow_lt; lra | lra |].
  set (p := agn_derived (10 ^ 8) (1 / 10)) in *.
  destruct (C76_flux (fun _ => 1) u "agn" [60000; 60001; 60005] [4000; 5000] case_agn
    [("blackhole_mass_gram"%string, PNum (de_mass_g p)); ("tau_4000aa"%string, PNum (de_tau p));
     ("sf_inf_4000aa"%string, PNum (de_sf p)); ("blackhole_accretion_rate"%string, PNum (de_rate p));
     ("inclination_rad"%string, PNum 0); ("distance"%string, PNum (10 ^ 7)); ("t0"%string, PNum 60000)]
    (de_mass_g p) (de_tau p) (de_sf p) (de_rate p) 0 (10 ^ 7) 60000) as [fl [E [L _]]].
  - reflexivity.
  - repeat split; reflexivity.
  - exact HU.
  - exact HT.
  - left; exact HS.
  - repeat constructor; lra.
  - repeat constructor; lra.
  - simpl. repeat constructor; lra.
  - exists fl. split; [exact E | exact L].
Qed.
