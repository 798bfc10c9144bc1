(** The BayeSN model: natural splines (C91), the template surface (C92) and the flux density (C93). *)
From Coq Require Import Reals String List Bool Arith Lia Lra.
From Verif Require Import Base BaseFacts RealBase SedModel NoiseModel NoiseProps TemplateModel Salt2Model Salt2Props BayesnModel BayesnSpline.
Import ListNotations.
Open Scope R_scope.

(** ** C91: the basis matrix *)
(** The basis applied to the values at the knots is the natural cubic spline through them ... *)
Theorem C91_natural : forall x y, increasing x -> (2 <= length x)%nat -> natural_spline (length x) (at_ x) y (spline x y).
Proof. intros. now apply spline_natural. Qed.
(** ... and nothing else is, between the first and the last knot. *)
Theorem C91_only_one : forall x y s, increasing x -> (2 <= length x)%nat -> natural_spline (length x) (at_ x) y s ->
  forall q, at_ x 0 <= q <= at_ x (length x - 1) -> s q = spline x y q.
Proof. intros. now apply natural_unique. Qed.
(** [np.linalg.solve] has exactly one answer, the one used here. *)
Theorem C91_only_solution : forall x (X : nat -> nat -> R), increasing x -> (2 <= length x)%nat ->
  (forall i j, (i < length x - 2)%nat -> (j < length x)%nat -> sum_to (length x - 2) (fun k => Kmat x i k * X k j) = Dmat x i j) <->
  (forall i j, (i < length x - 2)%nat -> (j < length x)%nat -> X i j = invkd x (S i) j).
Proof.
  intros x X INC TWO. split.
  - intros H i j Hi Hj. set (v := fun k => match k with O => 0 | S k' => if (k' =? length x - 2)%nat then 0 else X k' j end).
    assert (E : X i j = v (S i)) by (cbn [v]; replace (i =? length x - 2)%nat with false; auto; symmetry; apply Nat.eqb_neq; lia).
    assert (VN : v (length x - 1)%nat = 0) by (replace (length x - 1)%nat with (S (length x - 2)) by lia; cbn [v]; now rewrite Nat.eqb_refl).
    rewrite E, invkd_up by (auto; lia). apply (tri_unique _ _ _ (fun k => Dmat x k j) (length x - 2)); [now apply K_dominant|reflexivity|replace (S (length x - 2)) with (length x - 1)%nat by lia; exact VN| |lia].
    intros k Hk. refine (proj2 (K_row x TWO _ v k eq_refl) _). rewrite <- Ksum by (auto; lia). rewrite <- (H k j Hk Hj). apply sum_ext. intros l Hl. cbn [v].
    replace (l =? length x - 2)%nat with false; auto. symmetry. apply Nat.eqb_neq. lia.
  - intros H i j Hi Hj. rewrite (sum_ext _ _ (fun k => Kmat x i k * invkd x (S k) j)).
    + rewrite (Ksum x TWO (fun k => invkd x k j)) by (auto; apply (invkd_ends x TWO)). now apply invkd_row.
    + intros k Hk. now rewrite H by auto.
Qed.
(** Straight lines are reproduced, also beyond the knots. *)
Theorem C91_straight : forall x p r q, increasing x -> (2 <= length x)%nat -> spline x (fun j => p * at_ x j + r) q = p * q + r.
Proof.
  intros x p r q INC TWO. rewrite spline_piece by auto. pose proof (interval_lt x TWO q) as L. set (i := interval x q) in *.
  assert (Z : forall k, (k < length x)%nat -> curv x (fun j => p * at_ x j + r) k = 0).
  { intros k Hk. apply (curvature_unique x INC TWO (fun j => p * at_ x j + r) (curv x (fun j => p * at_ x j + r)) (fun _ => 0)); auto; [now apply curv_solves|].
    split; [reflexivity|]. split; [reflexivity|]. intros j Hj. pose proof (step_pos x INC TWO j ltac:(lia)). pose proof (step_pos x INC TWO (S j) ltac:(lia)). unfold step_of in *. field. lra. }
  unfold piece. cbv zeta. rewrite !Z by lia. pose proof (step_pos x INC TWO i L). unfold step_of in *. field. lra.
Qed.
(** Beyond the knots the end pieces go on. *)
Theorem C91_beyond : forall x y, increasing x -> (2 <= length x)%nat ->
  (exists p, (forall q, q <= at_ x 1 -> spline x y q = val p q) /\ der2 p (at_ x 0) = 0) /\
  (exists p, (forall q, at_ x (length x - 2) <= q -> spline x y q = val p q) /\ der2 p (at_ x (length x - 1)) = 0).
Proof.
  intros x y INC TWO. destruct (curv_solves x INC TWO y) as (M0 & MN & _). split.
  - exists (poly x y (curv x y) 0). split.
    + intros q Hq. rewrite poly_val, spline_piece by (auto; lia). now rewrite interval_first.
    + destruct (poly_der x INC TWO y (curv x y) 0 ltac:(lia)) as (_ & _ & A & _). now rewrite A.
  - exists (poly x y (curv x y) (length x - 2)). split.
    + intros q Hq. rewrite poly_val by (auto; lia). destruct (Req_EM_T q (at_ x (length x - 2))) as [-> | N].
      * apply spline_on; auto; [lia|]. pose proof (knots_le x INC TWO (length x - 2) (S (length x - 2)) ltac:(lia) ltac:(lia)). lra.
      * rewrite spline_piece, interval_last by (auto; lra). reflexivity.
    + destruct (poly_der x INC TWO y (curv x y) (length x - 2) ltac:(lia)) as (_ & _ & _ & A). replace (S (length x - 2)) with (length x - 1)%nat in A by lia. now rewrite A.
Qed.
(** The value at a knot in full: the basis row of a knot picks the value there. *)
Theorem C91_at_knot : forall x y i, increasing x -> (2 <= length x)%nat -> (i < length x)%nat -> spline x y (at_ x i) = y i.
Proof. intros x y i INC TWO Hi. destruct (spline_natural x INC TWO y) as (P & _ & H & _). now apply H. Qed.

(** ** C92: second derivatives and the template surface *)
(** The second derivatives of the natural spline through (x, y): those of the pieces of any such spline. *)
Definition has_curvature (x : list R) (y M : nat -> R) : Prop :=
  exists s P, (forall i t, (S i < length x)%nat -> at_ x i <= t <= at_ x (S i) -> s t = val (P i) t) /\
    (forall i, (i < length x)%nat -> s (at_ x i) = y i) /\
    (forall i, (S (S i) < length x)%nat -> der (P i) (at_ x (S i)) = der (P (S i)) (at_ x (S i))) /\
    (forall i, (S i < length x)%nat -> der2 (P i) (at_ x i) = M i /\ der2 (P i) (at_ x (S i)) = M (S i)) /\
    M O = 0 /\ M (length x - 1)%nat = 0.
Lemma has_curvature_spec : forall x y M, increasing x -> (2 <= length x)%nat -> has_curvature x y M -> curvature x y M.
Proof.
  intros x y M INC TWO (s & P & HP & HY & HD & HM & M0 & MN). split; [auto|]. split; [auto|]. intros i Hi. apply slopes_meet.
  assert (V : forall i, (S i < length x)%nat -> val (P i) (at_ x i) = y i /\ val (P i) (at_ x (S i)) = y (S i)).
  { intros k Hk. pose proof (knots_lt x INC TWO k (S k) ltac:(lia) Hk). rewrite <- !(HP k) by (auto; lra). split; apply HY; lia. }
  destruct (V i ltac:(lia)) as [V1 V2]. destruct (V (S i) ltac:(lia)) as [V3 V4]. destruct (HM i ltac:(lia)) as [D1 D2]. destruct (HM (S i) ltac:(lia)) as [D3 D4].
  destruct (cubic_slopes x INC TWO (P i) i ltac:(lia)) as [_ S1]. destruct (cubic_slopes x INC TWO (P (S i)) (S i) ltac:(lia)) as [S2 _].
  rewrite V1, V2, D1, D2 in S1. rewrite V3, V4, D3, D4 in S2. rewrite <- S1, <- S2. apply HD. lia.
Qed.
Lemma curv_has : forall x y, increasing x -> (2 <= length x)%nat -> has_curvature x y (curv x y).
Proof.
  intros x y INC TWO. destruct (curv_solves x INC TWO y) as (M0 & MN & MR). exists (spline x y), (poly x y (curv x y)). split; [|split; [|split; [|split; [|auto]]]].
  - intros i t Hi Ht. rewrite poly_val by auto. now apply spline_on.
  - intros i Hi. now apply C91_at_knot.
  - intros i Hi. destruct (poly_der x INC TWO y (curv x y) i ltac:(lia)) as (_ & A & _ & _). destruct (poly_der x INC TWO y (curv x y) (S i) ltac:(lia)) as (C & _ & _ & _).
    rewrite A, C. apply slopes_meet. apply MR. lia.
  - intros i Hi. destruct (poly_der x INC TWO y (curv x y) i Hi) as (_ & _ & A & B). auto.
Qed.
(** The 1-d helper solves the right equations for half the second derivatives. *)
Lemma second_curvature : forall x y, increasing x -> (2 <= length x)%nat -> curvature x y (fun j => 2 * second_1d x y j).
Proof.
  intros x y INC TWO. set (sub := step_of x). set (diag := fun k => 2 * (at_ x (S (S k)) - at_ x k)). set (sup := fun k => step_of x (S k)).
  assert (DOM : dominant sub diag sup (length x - 2)).
  { intros i Hi. pose proof (step_pos x INC TWO i ltac:(lia)). pose proof (step_pos x INC TWO (S i) ltac:(lia)). unfold sub, diag, sup, step_of in *. lra. }
  assert (U : forall j, (j < length x)%nat -> second_1d x y j = tri_up sub diag sup (alpha x y) (S (length x - 2) - j) j).
  { intros j Hj. unfold second_1d. destruct j as [|j]; [rewrite Nat.sub_0_r; cbn [tri_up tri_z tri_mu]; lra|]. replace (length x - 1 - S j)%nat with (S (length x - 2) - S j)%nat by lia. reflexivity. }
  split; [cbn; lra|]. split.
  - rewrite U by lia. replace (S (length x - 2) - (length x - 1))%nat with O by lia. cbn. lra.
  - intros i Hi. pose proof (tri_solves sub diag sup (alpha x y) (length x - 2) DOM i ltac:(lia)) as SS. unfold row_ok in SS. rewrite <- !U in SS by lia.
    pose proof (step_pos x INC TWO i ltac:(lia)) as H1. pose proof (step_pos x INC TWO (S i) ltac:(lia)) as H2. unfold alpha in SS.
    replace (diag i) with (2 * (step_of x i + step_of x (S i))) in SS by (unfold diag, step_of; lra). unfold sub, sup in SS.
    apply Rmult_eq_reg_l with 3; [|lra]. replace (3 * ((y (S (S i)) - y (S i)) / step_of x (S i) - (y (S i) - y i) / step_of x i)) with (3 / step_of x (S i) * (y (S (S i)) - y (S i)) - 3 / step_of x i * (y (S i) - y i)) by (field; lra). rewrite <- SS. field.
Qed.
Theorem C92_half : forall x y M, increasing x -> (2 <= length x)%nat -> has_curvature x y M -> forall j, (j < length x)%nat -> second_1d x y j = M j / 2.
Proof.
  intros x y M INC TWO H j Hj. apply has_curvature_spec in H; auto. pose proof (curvature_unique x INC TWO y _ _ H (second_curvature x y INC TWO) j Hj) as E. cbn beta in E. lra.
Qed.
(** So it returns the second derivatives (what its documentation says) only where they are zero. *)
Theorem C92_second_refuted : forall x y M j, increasing x -> (2 <= length x)%nat -> has_curvature x y M -> (j < length x)%nat -> M j <> 0 -> second_1d x y j <> M j.
Proof. intros x y M j INC TWO H Hj N E. rewrite (C92_half x y M) in E by auto. lra. Qed.

Lemma blend_left : forall h z0 z1 m0 m1, blend 1 h z0 z1 m0 m1 = z0 + m0 * (h - h ^ 2) / 6. Proof. intros. unfold blend. cbv zeta. field. Qed.
Lemma blend_right : forall h z0 z1 m0 m1, blend 0 h z0 z1 m0 m1 = z1 + m1 * (h - h ^ 2) / 6. Proof. intros. unfold blend. cbv zeta. field. Qed.
Lemma interval_knot : forall x i, increasing x -> (2 <= length x)%nat -> (i < length x)%nat -> interval x (at_ x i) = Nat.pred i.
Proof.
  intros x i INC TWO Hi. destruct i as [|i]; [apply interval_first; auto; apply knots_le; auto; lia|]. apply interval_in; auto. pose proof (knots_lt x INC TWO i (S i) ltac:(lia) Hi). cbn [Nat.pred]. lra.
Qed.
(** The value at a point of the grid, for every grid: off by terms that vanish only for unit steps or zero curvature.  The second
    derivative along the wavelengths is that of the row before. *)
Definition left_step (x : list R) (i : nat) : R := step_of x (Nat.pred i).
Theorem C92_grid_value : forall x y z i j, increasing x -> increasing y -> (2 <= length x)%nat -> (2 <= length y)%nat -> (i < length x)%nat -> (j < length y)%nat ->
  surface x y z (at_ x i) (at_ y j) = cell z i j + second_x x z i j * (left_step x i - left_step x i ^ 2) / 6 + second_y y z (Nat.pred i) j * (left_step y j - left_step y j ^ 2) / 6.
Proof.
  intros x y z i j IX IY TX TY Hi Hj. unfold surface. cbv zeta. rewrite !interval_knot by auto. unfold left_step.
  assert (X : forall k, blend ((at_ x (S (Nat.pred i)) - at_ x i) / (at_ x (S (Nat.pred i)) - at_ x (Nat.pred i))) (at_ x (S (Nat.pred i)) - at_ x (Nat.pred i)) (cell z (Nat.pred i) k) (cell z (S (Nat.pred i)) k) (second_x x z (Nat.pred i) k) (second_x x z (S (Nat.pred i)) k) =
    cell z i k + second_x x z i k * (step_of x (Nat.pred i) - step_of x (Nat.pred i) ^ 2) / 6).
  { intros k. fold (step_of x (Nat.pred i)). destruct i as [|i]; cbn [Nat.pred].
    - pose proof (step_pos x IX TX 0 ltac:(lia)) as P. fold (step_of x 0). replace (step_of x 0 / step_of x 0) with 1 by (field; lra). apply blend_left.
    - pose proof (step_pos x IX TX i ltac:(lia)) as P. replace ((at_ x (S i) - at_ x (S i)) / step_of x i) with 0 by (field; lra). apply blend_right. }
  rewrite !X. clear X. fold (step_of y (Nat.pred j)). destruct j as [|j]; cbn [Nat.pred].
  - pose proof (step_pos y IY TY 0 ltac:(lia)) as P. fold (step_of y 0). replace (step_of y 0 / step_of y 0) with 1 by (field; lra). apply blend_left.
  - pose proof (step_pos y IY TY j ltac:(lia)) as P. replace ((at_ y (S j) - at_ y (S j)) / step_of y j) with 0 by (field; lra). apply blend_right.
Qed.
(** On a grid with unit steps the surface goes through the data. *)
Theorem C92_unit_grid : forall x y z i j, increasing x -> increasing y -> (2 <= length x)%nat -> (2 <= length y)%nat -> (i < length x)%nat -> (j < length y)%nat ->
  (forall k, (S k < length x)%nat -> at_ x (S k) = at_ x k + 1) -> (forall k, (S k < length y)%nat -> at_ y (S k) = at_ y k + 1) ->
  surface x y z (at_ x i) (at_ y j) = cell z i j.
Proof.
  intros x y z i j IX IY TX TY Hi Hj UX UY. rewrite C92_grid_value by auto. unfold left_step.
  assert (SX : step_of x (Nat.pred i) = 1) by (unfold step_of; rewrite UX by lia; lra). assert (SY : step_of y (Nat.pred j) = 1) by (unfold step_of; rewrite UY by lia; lra). rewrite SX, SY. lra.
Qed.
Lemma second_flat : forall x y, increasing x -> (2 <= length x)%nat -> (exists p r, forall k, (k < length x)%nat -> y k = p * at_ x k + r) -> forall j, (j < length x)%nat -> second_1d x y j = 0.
Proof.
  intros x y INC TWO (p & r & H) j Hj.
  assert (C : curvature x y (fun _ => 0)).
  { split; [auto|]. split; [auto|]. intros i Hi. rewrite !H by lia. pose proof (step_pos x INC TWO i ltac:(lia)). pose proof (step_pos x INC TWO (S i) ltac:(lia)). unfold step_of in *. field. lra. }
  pose proof (curvature_unique x INC TWO y _ _ C (second_curvature x y INC TWO) j Hj) as E. cbn beta in E. lra.
Qed.
(** Data that are straight along both axes are reproduced everywhere. *)
Theorem C92_bilinear : forall x y z p q r s xq yq, increasing x -> increasing y -> (2 <= length x)%nat -> (2 <= length y)%nat ->
  (forall i j, (i < length x)%nat -> (j < length y)%nat -> cell z i j = p + q * at_ x i + r * at_ y j + s * at_ x i * at_ y j) ->
  surface x y z xq yq = p + q * xq + r * yq + s * xq * yq.
Proof.
  intros x y z p q r s xq yq IX IY TX TY H. unfold surface. cbv zeta. pose proof (interval_lt x TX xq) as LX. pose proof (interval_lt y TY yq) as LY. set (i := interval x xq) in *. set (j := interval y yq) in *.
  assert (A : forall k l, (k < length x)%nat -> (l < length y)%nat -> second_x x z k l = 0).
  { intros k l Hk Hl. unfold second_x. apply second_flat; auto. exists (q + s * at_ y l), (p + r * at_ y l). intros m Hm. rewrite H by auto. lra. }
  assert (B : forall k l, (k < length x)%nat -> (l < length y)%nat -> second_y y z k l = 0).
  { intros k l Hk Hl. unfold second_y. apply second_flat; auto. exists (r + s * at_ x k), (p + q * at_ x k). intros m Hm. rewrite H by auto. lra. }
  rewrite !A, !B, !H by lia. pose proof (step_pos x IX TX i LX) as PX. pose proof (step_pos y IY TY j LY) as PY. unfold step_of in *. unfold blend. cbv zeta.
  set (u := at_ x i) in *. set (v := at_ x (S i)) in *. set (u' := at_ y j) in *. set (v' := at_ y (S j)) in *. field. lra.
Qed.
(** With wavelengths 10 apart (as in the Hsiao template) the surface misses the data at a grid point by 15 times the helper's second
    derivative. *)
Definition dome : list (list R) := [[0; 1; 0]; [0; 1; 0]; [0; 1; 0]].
Theorem C92_grid_refuted : surface [0; 1; 2] [0; 10; 20] dome 1 10 = 1 + 9 / 40 /\ cell dome 1 1 = 1.
Proof.
  split; [|reflexivity].
  assert (E : surface [0; 1; 2] [0; 10; 20] dome (at_ [0; 1; 2] 1) (at_ [0; 10; 20] 1) = 1 + 9 / 40).
  { rewrite C92_grid_value by (cbn; repeat split; try lia; lra).
    unfold second_x, second_y, second_1d, left_step, alpha, step_of, cell, dome, at_. cbn. field. }
  exact E.
Qed.
(** The surface jumps where the phase crosses a knot, also on a unit grid. *)
Definition ridge : list (list R) := [[0; 0; 0]; [0; 1; 0]; [0; 0; 0]].
Theorem C92_jump_refuted : surface [0; 1; 2] [0; 1; 2] ridge 1 (1 / 2) = 1 / 2 /\
  forall e, 0 < e -> e <= 1 / 8 -> surface [0; 1; 2] [0; 1; 2] ridge (1 + e) (1 / 2) >= 1 / 2 + 1 / 32.
Proof.
  assert (INC : increasing [0; 1; 2]) by (cbn; lra).
  assert (J : interval [0; 1; 2] (1 / 2) = O) by (apply interval_in; [exact INC|cbn; lia|cbn; lia|cbn; lra]).
  split.
  - assert (I : interval [0; 1; 2] 1 = O) by (apply interval_in; [exact INC|cbn; lia|cbn; lia|cbn; lra]).
    unfold surface. rewrite I, J. unfold second_x, second_y, second_1d, alpha, step_of, cell, ridge, at_, blend. cbn. field.
  - intros e E1 E2. assert (I : interval [0; 1; 2] (1 + e) = 1%nat) by (apply interval_in; [exact INC|cbn; lia|cbn; lia|cbn; lra]).
    unfold surface. rewrite I, J.
    assert (V : blend ((at_ [0; 1; 2] 1 - 1 / 2) / (at_ [0; 1; 2] 1 - at_ [0; 1; 2] 0)) (at_ [0; 1; 2] 1 - at_ [0; 1; 2] 0)
       (blend ((at_ [0; 1; 2] 2 - (1 + e)) / (at_ [0; 1; 2] 2 - at_ [0; 1; 2] 1)) (at_ [0; 1; 2] 2 - at_ [0; 1; 2] 1) (cell ridge 1 0) (cell ridge 2 0) (second_x [0; 1; 2] ridge 1 0) (second_x [0; 1; 2] ridge 2 0))
       (blend ((at_ [0; 1; 2] 2 - (1 + e)) / (at_ [0; 1; 2] 2 - at_ [0; 1; 2] 1)) (at_ [0; 1; 2] 2 - at_ [0; 1; 2] 1) (cell ridge 1 1) (cell ridge 2 1) (second_x [0; 1; 2] ridge 1 1) (second_x [0; 1; 2] ridge 2 1))
       (second_y [0; 1; 2] ridge 1 0) (second_y [0; 1; 2] ridge 1 1) = 3 / 32 + 1 / 2 * ((1 - e) * (5 / 4 - (1 - e) ^ 2 / 4))).
    { unfold second_x, second_y, second_1d, alpha, step_of, cell, ridge, at_, blend. cbn. field. }
    cbv zeta. rewrite V. assert (Q : (1 - e) ^ 2 <= 1) by (replace ((1 - e) ^ 2) with (1 - e * (2 - e)) by ring; assert (0 <= e * (2 - e)) by (apply Rmult_le_pos; lra); lra).
    assert (P : (1 - e) * 1 <= (1 - e) * (5 / 4 - (1 - e) ^ 2 / 4)) by (apply Rmult_le_compat_l; lra). lra.
Qed.
