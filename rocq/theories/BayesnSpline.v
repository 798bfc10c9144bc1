(** The natural cubic spline of the BayeSN model (C91). *)
From Coq Require Import Reals String List Bool Arith Lia Lra.
From Verif Require Import Base RealBase SedModel NoiseModel TemplateModel Salt2Model BayesnModel.
Import ListNotations.
Open Scope R_scope.

(** ** Specification *)
(** A cubic polynomial by its coefficients, its value and its first two derivatives. *)
Record poly3 := P3 { c0 : R; c1 : R; c2 : R; c3 : R }.
Definition val (p : poly3) (t : R) : R := c0 p + c1 p * t + c2 p * t ^ 2 + c3 p * t ^ 3.
Definition der (p : poly3) (t : R) : R := c1 p + 2 * c2 p * t + 3 * c3 p * t ^ 2.
Definition der2 (p : poly3) (t : R) : R := 2 * c2 p + 6 * c3 p * t.
(** The textbook's natural cubic spline through the points (x i, y i), i < n: a cubic on each interval, through the points, with
    continuous first and second derivative, and no curvature at the two ends. *)
Definition natural_spline (n : nat) (x y : nat -> R) (s : R -> R) : Prop :=
  exists P : nat -> poly3,
    (forall i t, (S i < n)%nat -> x i <= t <= x (S i) -> s t = val (P i) t) /\
    (forall i, (i < n)%nat -> s (x i) = y i) /\
    (forall i, (S (S i) < n)%nat -> der (P i) (x (S i)) = der (P (S i)) (x (S i)) /\ der2 (P i) (x (S i)) = der2 (P (S i)) (x (S i))) /\
    der2 (P O) (x O) = 0 /\ der2 (P (n - 2)%nat) (x (n - 1)%nat) = 0.
(** What the code's basis matrix makes of values at the knots. *)
Definition spline (x : list R) (y : nat -> R) (q : R) : R := sum_to (length x) (fun j => basis_row x (invkd x) q j * y j).

(** ** Sums *)
Lemma sum_ext : forall n f g, (forall i, (i < n)%nat -> f i = g i) -> sum_to n f = sum_to n g.
Proof. intros n f g H. unfold sum_to. f_equal. apply map_ext_in. intros i Hi. apply in_seq in Hi. apply H. lia. Qed.
Lemma sum_S : forall n f, sum_to (S n) f = sum_to n f + f n.
Proof. intros. unfold sum_to. rewrite seq_S, map_app, Rsum_app. cbn [map Rsum fold_right Nat.add]. lra. Qed.
Lemma sum_add : forall n f g, sum_to n (fun i => f i + g i) = sum_to n f + sum_to n g.
Proof. induction n as [|n IH]; intros; [unfold sum_to; simpl; lra|]. rewrite !sum_S, IH. lra. Qed.
Lemma sum_scale : forall n c f, sum_to n (fun i => c * f i) = c * sum_to n f.
Proof. induction n as [|n IH]; intros; [unfold sum_to; simpl; lra|]. rewrite !sum_S, IH. lra. Qed.
Lemma sum_zero : forall n f, (forall i, (i < n)%nat -> f i = 0) -> sum_to n f = 0.
Proof. induction n as [|n IH]; intros f H; [reflexivity|]. rewrite sum_S, IH by (intros; apply H; lia). rewrite H by lia. lra. Qed.
Lemma sum_one : forall n k f, (k < n)%nat -> (forall i, (i < n)%nat -> i <> k -> f i = 0) -> sum_to n f = f k.
Proof.
  induction n as [|n IH]; intros k f Hk H; [lia|]. rewrite sum_S. destruct (Nat.eq_dec k n) as [-> | N].
  - rewrite sum_zero by (intros i Hi; apply H; lia). lra.
  - rewrite (IH k) by (try lia; intros i Hi E; apply H; lia). rewrite (H n) by lia. lra.
Qed.

(** ** Elimination *)
Section ELIM.
Variables (sub diag sup rhs : nat -> R) (N : nat).
Definition dominant := forall i, (i < N)%nat -> 0 <= sub i /\ 0 < sup i /\ sub i + sup i < diag i.
Hypothesis DOM : dominant.
Lemma mu_bounds : forall i, (i <= N)%nat -> 0 <= tri_mu sub diag sup i < 1.
Proof.
  induction i as [|i IH]; intros Hi; cbn [tri_mu]; [lra|]. destruct (DOM i ltac:(lia)) as (A & B & C). specialize (IH ltac:(lia)). set (m := tri_mu sub diag sup i) in *.
  assert (X : sub i * m <= sub i) by (rewrite <- (Rmult_1_r (sub i)) at 2; apply Rmult_le_compat_l; lra).
  split.
  - apply Rlt_le, Rdiv_lt_0_compat; lra.
  - apply Rmult_lt_reg_r with (diag i - sub i * m); [lra|]. unfold Rdiv. rewrite Rmult_assoc, Rinv_l by lra. lra.
Qed.
Lemma pivot : forall i, (i < N)%nat -> 0 < diag i - sub i * tri_mu sub diag sup i.
Proof.
  intros i Hi. destruct (DOM i Hi) as (A & B & C). pose proof (mu_bounds i ltac:(lia)) as M. set (m := tri_mu sub diag sup i) in *.
  assert (X : sub i * m <= sub i) by (rewrite <- (Rmult_1_r (sub i)) at 2; apply Rmult_le_compat_l; lra). lra.
Qed.
Definition row_ok (v : nat -> R) (i : nat) := sub i * v i + diag i * v (S i) + sup i * v (S (S i)) = rhs i.
Lemma tri_solves : forall i, (i < N)%nat -> row_ok (fun j => tri_up sub diag sup rhs (S N - j) j) i.
Proof.
  intros i Hi. unfold row_ok. replace (S N - i)%nat with (S (S (N - S i)))%nat by lia. replace (S N - S i)%nat with (S (N - S i))%nat by lia.
  replace (S N - S (S i))%nat with (N - S i)%nat by lia. remember (N - S i)%nat as k. set (u := tri_up sub diag sup rhs k (S (S i))).
  assert (E : tri_up sub diag sup rhs (S k) (S i) = (rhs i - sub i * tri_z sub diag sup rhs i) / (diag i - sub i * tri_mu sub diag sup i) - sup i / (diag i - sub i * tri_mu sub diag sup i) * u) by reflexivity.
  assert (E2 : tri_up sub diag sup rhs (S (S k)) i = tri_z sub diag sup rhs i - tri_mu sub diag sup i * tri_up sub diag sup rhs (S k) (S i)) by reflexivity.
  rewrite E2, E. pose proof (pivot i Hi). field. lra.
Qed.
Lemma tri_unique : forall v, v O = 0 -> v (S N) = 0 -> (forall i, (i < N)%nat -> row_ok v i) -> forall j, (j <= S N)%nat -> v j = tri_up sub diag sup rhs (S N - j) j.
Proof.
  intros v V0 VN H.
  assert (F : forall j, (j <= N)%nat -> v j = tri_z sub diag sup rhs j - tri_mu sub diag sup j * v (S j)).
  { induction j as [|j IH]; intros Hj; [cbn; lra|]. specialize (IH ltac:(lia)). specialize (H j ltac:(lia)). unfold row_ok in H. rewrite IH in H.
    pose proof (pivot j ltac:(lia)). cbn [tri_z tri_mu]. set (w := diag j - sub j * tri_mu sub diag sup j) in *.
    assert (X : w * v (S j) = rhs j - sub j * tri_z sub diag sup rhs j - sup j * v (S (S j))) by (unfold w; lra).
    apply Rmult_eq_reg_l with w; [|lra]. rewrite X. field. lra. }
  assert (B : forall k j, (j + k = S N)%nat -> v j = tri_up sub diag sup rhs k j).
  { induction k as [|k IH]; intros j Hj; [replace j with (S N) by lia; exact VN|]. cbn [tri_up]. rewrite <- (IH (S j)) by lia. apply F. lia. }
  intros j Hj. apply B. lia.
Qed.
End ELIM.

(** ** Knots *)
Section KNOTS.
Variable x : list R.
Hypothesis INC : increasing x.
Notation n := (length x).
Hypothesis TWO : (2 <= n)%nat.
Lemma step_pos : forall i, (S i < n)%nat -> 0 < step_of x i.
Proof.
  intros i Hi. unfold step_of, at_. assert (nth i x 0 < nth (S i) x 0); [|lra].
  apply (increasing_nth x i (S i)); auto; apply nth_error_nth'; lia.
Qed.
Lemma knots_lt : forall i j, (i < j)%nat -> (j < n)%nat -> at_ x i < at_ x j.
Proof. intros i j H1 H2. apply (increasing_nth x i j); auto; apply nth_error_nth'; lia. Qed.
Lemma knots_le : forall i j, (i <= j)%nat -> (j < n)%nat -> at_ x i <= at_ x j.
Proof. intros i j H1 H2. destruct (Nat.eq_dec i j) as [-> | N]; [lra|]. apply Rlt_le, knots_lt; lia. Qed.

(** The equations of the spline: [M] are the second derivatives at the knots. *)
Definition curvature (y M : nat -> R) : Prop :=
  M O = 0 /\ M (n - 1)%nat = 0 /\
  forall i, (S (S i) < n)%nat ->
    step_of x i / 6 * M i + (step_of x i + step_of x (S i)) / 3 * M (S i) + step_of x (S i) / 6 * M (S (S i)) =
    (y (S (S i)) - y (S i)) / step_of x (S i) - (y (S i) - y i) / step_of x i.
Lemma K_dominant : dominant (fun k => match k with O => 0 | S k' => Kmat x k k' end) (fun k => Kmat x k k) (fun k => Kmat x k (S k)) (n - 2).
Proof.
  intros i Hi. pose proof (step_pos i ltac:(lia)). pose proof (step_pos (S i) ltac:(lia)). unfold Kmat.
  rewrite Nat.eqb_refl. replace (S i =? i)%nat with false by (symmetry; apply Nat.eqb_neq; lia). rewrite Nat.eqb_refl.
  destruct i as [|i]; [lra|]. replace (i =? S i)%nat with false by (symmetry; apply Nat.eqb_neq; lia). replace (i =? S (S i))%nat with false by (symmetry; apply Nat.eqb_neq; lia).
  rewrite Nat.eqb_refl. lra.
Qed.
Lemma invkd_up : forall i j, (i <= n - 1)%nat -> invkd x i j = tri_up (fun k => match k with O => 0 | S k' => Kmat x k k' end) (fun k => Kmat x k k) (fun k => Kmat x k (S k)) (fun k => Dmat x k j) (S (n - 2) - i) i.
Proof.
  intros i j Hi. destruct i as [|i]; cbn [invkd].
  - rewrite Nat.sub_0_r. cbn [tri_up tri_z tri_mu]. lra.
  - destruct (Nat.eqb_spec (S (S i)) n) as [E|E].
    + replace (S (n - 2) - S i)%nat with O by lia. reflexivity.
    + unfold solve. replace (n - 2 - i)%nat with (S (n - 2) - S i)%nat by lia. reflexivity.
Qed.
(** The rows of K X = D, for the unknowns between the two zero rows. *)
Lemma Ksum : forall (v : nat -> R) i, v O = 0 -> v (n - 1)%nat = 0 -> (i < n - 2)%nat ->
  sum_to (n - 2) (fun k => Kmat x i k * v (S k)) = step_of x i / 6 * v i + (step_of x i + step_of x (S i)) / 3 * v (S i) + step_of x (S i) / 6 * v (S (S i)).
Proof.
  intros v i V0 VN Hi.
  assert (D : forall k, Kmat x i k * v (S k) = (if (k =? i)%nat then (step_of x i + step_of x (S i)) / 3 * v (S i) else 0) + ((if (k =? S i)%nat then step_of x (S i) / 6 * v (S (S i)) else 0) + (if (S k =? i)%nat then step_of x i / 6 * v i else 0))).
  { intros k. unfold Kmat. destruct (Nat.eqb_spec k i) as [-> | N1].
    - replace (i =? S i)%nat with false by (symmetry; apply Nat.eqb_neq; lia). replace (S i =? i)%nat with false by (symmetry; apply Nat.eqb_neq; lia). lra.
    - destruct (Nat.eqb_spec k (S i)) as [-> | N2].
      + replace (S (S i) =? i)%nat with false by (symmetry; apply Nat.eqb_neq; lia). lra.
      + destruct (Nat.eqb_spec (S k) i) as [E|N3]; [rewrite E|]; lra. }
  rewrite (sum_ext _ _ _ (fun k _ => D k)), !sum_add.
  rewrite (sum_one _ i) by (try lia; intros k Hk N; apply Nat.eqb_neq in N; now rewrite N). rewrite Nat.eqb_refl.
  assert (A : sum_to (n - 2) (fun k => if (k =? S i)%nat then step_of x (S i) / 6 * v (S (S i)) else 0) = step_of x (S i) / 6 * v (S (S i))).
  { destruct (lt_dec (S i) (n - 2)) as [L|L].
    - rewrite (sum_one _ (S i)) by (auto; intros k Hk N; apply Nat.eqb_neq in N; now rewrite N). now rewrite Nat.eqb_refl.
    - rewrite sum_zero; [|intros k Hk; replace (k =? S i)%nat with false by (symmetry; apply Nat.eqb_neq; lia); reflexivity]. replace (S (S i)) with (n - 1)%nat by lia. rewrite VN. lra. }
  assert (B : sum_to (n - 2) (fun k => if (S k =? i)%nat then step_of x i / 6 * v i else 0) = step_of x i / 6 * v i).
  { destruct i as [|i].
    - rewrite sum_zero by reflexivity. rewrite V0. lra.
    - rewrite (sum_one _ i); [now rewrite Nat.eqb_refl|lia|]. intros k Hk N. replace (S k =? S i)%nat with false; auto. symmetry. apply Nat.eqb_neq. lia. }
  rewrite A, B. lra.
Qed.
Lemma Dsum : forall y i, (i < n - 2)%nat -> sum_to n (fun j => Dmat x i j * y j) = (y (S (S i)) - y (S i)) / step_of x (S i) - (y (S i) - y i) / step_of x i.
Proof.
  intros y i Hi. pose proof (step_pos i ltac:(lia)). pose proof (step_pos (S i) ltac:(lia)).
  assert (D : forall k, Dmat x i k * y k = (if (k =? i)%nat then 1 / step_of x i * y i else 0) + ((if (k =? S i)%nat then (- 1 / step_of x i - 1 / step_of x (S i)) * y (S i) else 0) + (if (k =? S (S i))%nat then 1 / step_of x (S i) * y (S (S i)) else 0))).
  { intros k. unfold Dmat. destruct (Nat.eqb_spec k i) as [-> | N1].
    - replace (i =? S i)%nat with false by (symmetry; apply Nat.eqb_neq; lia). replace (i =? S (S i))%nat with false by (symmetry; apply Nat.eqb_neq; lia). lra.
    - destruct (Nat.eqb_spec k (S i)) as [-> | N2].
      + replace (S i =? S (S i))%nat with false by (symmetry; apply Nat.eqb_neq; lia). lra.
      + destruct (Nat.eqb_spec k (S (S i))) as [E|N3]; [rewrite E|]; lra. }
  rewrite (sum_ext _ _ _ (fun k _ => D k)), !sum_add.
  rewrite (sum_one _ i) by (try lia; intros k Hk N; apply Nat.eqb_neq in N; now rewrite N).
  rewrite (sum_one _ (S i)) by (try lia; intros k Hk N; apply Nat.eqb_neq in N; now rewrite N).
  rewrite (sum_one _ (S (S i))) by (try lia; intros k Hk N; apply Nat.eqb_neq in N; now rewrite N). rewrite !Nat.eqb_refl. field. lra.
Qed.
Lemma K_row : forall rhs (v : nat -> R) i, v O = 0 -> (row_ok (fun k => match k with O => 0 | S k' => Kmat x k k' end) (fun k => Kmat x k k) (fun k => Kmat x k (S k)) rhs v i <->
  step_of x i / 6 * v i + (step_of x i + step_of x (S i)) / 3 * v (S i) + step_of x (S i) / 6 * v (S (S i)) = rhs i).
Proof.
  intros rhs v i V0. unfold row_ok, Kmat. rewrite Nat.eqb_refl. replace (S i =? i)%nat with false by (symmetry; apply Nat.eqb_neq; lia). rewrite Nat.eqb_refl.
  destruct i as [|i]; [rewrite V0; split; intros; lra|]. replace (i =? S i)%nat with false by (symmetry; apply Nat.eqb_neq; lia). replace (i =? S (S i))%nat with false by (symmetry; apply Nat.eqb_neq; lia).
  rewrite Nat.eqb_refl. tauto.
Qed.
Lemma invkd_ends : forall j, invkd x O j = 0 /\ invkd x (n - 1)%nat j = 0.
Proof. intros j. split; [reflexivity|]. rewrite invkd_up by lia. replace (S (n - 2) - (n - 1))%nat with O by lia. reflexivity. Qed.
Lemma invkd_row : forall i j, (i < n - 2)%nat -> step_of x i / 6 * invkd x i j + (step_of x i + step_of x (S i)) / 3 * invkd x (S i) j + step_of x (S i) / 6 * invkd x (S (S i)) j = Dmat x i j.
Proof.
  intros i j Hi. rewrite !invkd_up by lia. apply (K_row (fun k => Dmat x k j) (fun l => tri_up (fun k => match k with O => 0 | S k' => Kmat x k k' end) (fun k => Kmat x k k) (fun k => Kmat x k (S k)) (fun k => Dmat x k j) (S (n - 2) - l) l) i).
  - rewrite Nat.sub_0_r. cbn [tri_up tri_z tri_mu]. lra.
  - apply tri_solves; [apply K_dominant|lia].
Qed.
(** The second derivatives the basis works with solve the equations. *)
Definition curv (y : nat -> R) (i : nat) : R := sum_to n (fun j => invkd x i j * y j).
Lemma curv_solves : forall y, curvature y (curv y).
Proof.
  intros y. unfold curvature, curv. split; [|split].
  - apply sum_zero. intros i Hi. rewrite (proj1 (invkd_ends i)). lra.
  - apply sum_zero. intros i Hi. rewrite (proj2 (invkd_ends i)). lra.
  - intros i Hi. rewrite <- Dsum by lia. rewrite <- !sum_scale, <- !sum_add. apply sum_ext. intros j Hj. rewrite <- invkd_row by lia. lra.
Qed.
Lemma curvature_unique : forall y M1 M2, curvature y M1 -> curvature y M2 -> forall i, (i < n)%nat -> M1 i = M2 i.
Proof.
  intros y M1 M2 (A1 & B1 & C1) (A2 & B2 & C2) i Hi.
  set (rhs := fun i => (y (S (S i)) - y (S i)) / step_of x (S i) - (y (S i) - y i) / step_of x i).
  assert (U : forall M, M O = 0 -> M (n - 1)%nat = 0 -> (forall i, (S (S i) < n)%nat -> step_of x i / 6 * M i + (step_of x i + step_of x (S i)) / 3 * M (S i) + step_of x (S i) / 6 * M (S (S i)) = rhs i) ->
     M i = tri_up (fun k => match k with O => 0 | S k' => Kmat x k k' end) (fun k => Kmat x k k) (fun k => Kmat x k (S k)) rhs (S (n - 2) - i) i).
  { intros M A B C. apply tri_unique; auto; [apply K_dominant|replace (S (n - 2)) with (n - 1)%nat by lia; exact B| |lia]. intros k Hk. apply K_row; auto. apply C. lia. }
  rewrite (U M1 A1 B1 C1), (U M2 A2 B2 C2). reflexivity.
Qed.

(** ** The value of the spline *)
Lemma interval_lt : forall q, (S (interval x q) < n)%nat. Proof. intros. unfold interval. lia. Qed.
Definition piece (y M : nat -> R) (i : nat) (q : R) : R :=
  let h := step_of x i in let a := (at_ x (S i) - q) / h in let b := 1 - a in
  a * y i + b * y (S i) + (a ^ 3 - a) * h ^ 2 / 6 * M i + (b ^ 3 - b) * h ^ 2 / 6 * M (S i).
Lemma spline_piece : forall y q, spline x y q = piece y (curv y) (interval x q) q.
Proof.
  intros y q. unfold spline, basis_row. cbv zeta. pose proof (interval_lt q) as L. set (i := interval x q) in *. unfold piece. cbv zeta. fold (step_of x i). set (h := step_of x i). set (a := (at_ x (S i) - q) / h).
  rewrite (sum_ext _ _ (fun j => (if (j =? i)%nat then a * y i else 0) + ((if (j =? S i)%nat then (1 - a) * y (S i) else 0) + ((a ^ 3 - a) * h ^ 2 / 6 * (invkd x i j * y j) + ((1 - a) ^ 3 - (1 - a)) * h ^ 2 / 6 * (invkd x (S i) j * y j))))).
  - rewrite !sum_add, !sum_scale. rewrite (sum_one _ i) by (try lia; intros k Hk N; apply Nat.eqb_neq in N; now rewrite N).
    rewrite (sum_one _ (S i)) by (try lia; intros k Hk N; apply Nat.eqb_neq in N; now rewrite N). rewrite !Nat.eqb_refl. unfold curv. lra.
  - intros j Hj. destruct (Nat.eqb_spec j (S i)) as [-> | N1].
    + replace (S i =? i)%nat with false by (symmetry; apply Nat.eqb_neq; lia). lra.
    + destruct (Nat.eqb_spec j i) as [-> | N2]; lra.
Qed.
Lemma interval_in : forall i q, (S i < n)%nat -> at_ x i < q <= at_ x (S i) -> interval x q = i.
Proof.
  intros i q Hi Hq. unfold interval.
  assert (A : nth_error x i = Some (at_ x i)) by (apply nth_error_nth'; lia). assert (B : nth_error x (S i) = Some (at_ x (S i))) by (apply nth_error_nth'; lia).
  pose proof (ss_left_spec x q i _ (increasing_nondecreasing _ INC) A) as SA. pose proof (ss_left_spec x q (S i) _ (increasing_nondecreasing _ INC) B) as SB.
  assert ((i < ss_left x q)%nat) by (apply SA; lra). assert (~ (S i < ss_left x q)%nat) by (intros C; apply SB in C; lra). lia.
Qed.
Lemma interval_first : forall q, q <= at_ x 1 -> interval x q = O.
Proof.
  intros q Hq. unfold interval. assert (B : nth_error x 1 = Some (at_ x 1)) by (apply nth_error_nth'; lia).
  pose proof (ss_left_spec x q 1 _ (increasing_nondecreasing _ INC) B) as SB. assert (~ (1 < ss_left x q)%nat) by (intros C; apply SB in C; lra). lia.
Qed.
Lemma interval_last : forall q, at_ x (n - 2) < q -> interval x q = (n - 2)%nat.
Proof.
  intros q Hq. unfold interval. assert (B : nth_error x (n - 2) = Some (at_ x (n - 2))) by (apply nth_error_nth'; lia).
  pose proof (ss_left_spec x q (n - 2) _ (increasing_nondecreasing _ INC) B) as SB. assert ((n - 2 < ss_left x q)%nat) by (apply SB; lra). lia.
Qed.
Lemma piece_left : forall y M i, (S i < n)%nat -> piece y M i (at_ x i) = y i.
Proof. intros y M i Hi. pose proof (step_pos i Hi). unfold piece. cbv zeta. replace ((at_ x (S i) - at_ x i) / step_of x i) with 1 by (unfold step_of in *; field; lra). field. Qed.
Lemma piece_right : forall y M i, (S i < n)%nat -> piece y M i (at_ x (S i)) = y (S i).
Proof. intros y M i Hi. pose proof (step_pos i Hi). unfold piece. cbv zeta. replace ((at_ x (S i) - at_ x (S i)) / step_of x i) with 0 by (field; lra). field. Qed.
Lemma spline_on : forall y i q, (S i < n)%nat -> at_ x i <= q <= at_ x (S i) -> spline x y q = piece y (curv y) i q.
Proof.
  intros y i q Hi Hq. rewrite spline_piece. destruct (Req_EM_T q (at_ x i)) as [-> | N].
  - rewrite piece_left by auto. destruct i as [|i].
    + rewrite interval_first by (apply knots_le; lia). apply piece_left. lia.
    + rewrite (interval_in i); [apply piece_right; lia|lia|]. pose proof (knots_lt i (S i) ltac:(lia) ltac:(lia)). lra.
  - rewrite (interval_in i) by (try lia; lra). reflexivity.
Qed.
(** The same piece as a polynomial. *)
Definition poly (y M : nat -> R) (i : nat) : poly3 :=
  let h := step_of x i in let u := at_ x i in let v := at_ x (S i) in
  P3 ((v * y i - u * y (S i)) / h + (v ^ 3 * M i - u ^ 3 * M (S i)) / (6 * h) - h / 6 * (v * M i - u * M (S i)))
     ((y (S i) - y i) / h + (u ^ 2 * M (S i) - v ^ 2 * M i) / (2 * h) + h / 6 * (M i - M (S i)))
     ((v * M i - u * M (S i)) / (2 * h))
     ((M (S i) - M i) / (6 * h)).
Lemma poly_val : forall y M i q, (S i < n)%nat -> val (poly y M i) q = piece y M i q.
Proof.
  intros y M i q Hi. pose proof (step_pos i Hi) as H. unfold val, poly, piece. cbv zeta. cbn [c0 c1 c2 c3]. unfold step_of in *.
  set (u := at_ x i) in *. set (v := at_ x (S i)) in *. field. lra.
Qed.
Lemma poly_der : forall y M i, (S i < n)%nat ->
  der (poly y M i) (at_ x i) = (y (S i) - y i) / step_of x i - step_of x i / 6 * (2 * M i + M (S i)) /\
  der (poly y M i) (at_ x (S i)) = (y (S i) - y i) / step_of x i + step_of x i / 6 * (M i + 2 * M (S i)) /\
  der2 (poly y M i) (at_ x i) = M i /\ der2 (poly y M i) (at_ x (S i)) = M (S i).
Proof.
  intros y M i Hi. pose proof (step_pos i Hi) as H. unfold der, der2, poly. cbv zeta. cbn [c0 c1 c2 c3]. unfold step_of in *.
  set (u := at_ x i) in *. set (v := at_ x (S i)) in *. repeat split; field; lra.
Qed.
(** Any cubic is given by its values and second derivatives at two points. *)
Lemma cubic_form : forall (p : poly3) i q, (S i < n)%nat ->
  val p q = piece (fun k => val p (at_ x k)) (fun k => der2 p (at_ x k)) i q.
Proof.
  intros p i q Hi. pose proof (step_pos i Hi) as H. unfold val, der2, piece. cbv zeta. unfold step_of in *.
  set (u := at_ x i) in *. set (v := at_ x (S i)) in *. field. lra.
Qed.
Lemma cubic_slopes : forall (p : poly3) i, (S i < n)%nat ->
  der p (at_ x i) = (val p (at_ x (S i)) - val p (at_ x i)) / step_of x i - step_of x i / 6 * (2 * der2 p (at_ x i) + der2 p (at_ x (S i))) /\
  der p (at_ x (S i)) = (val p (at_ x (S i)) - val p (at_ x i)) / step_of x i + step_of x i / 6 * (der2 p (at_ x i) + 2 * der2 p (at_ x (S i))).
Proof.
  intros p i Hi. pose proof (step_pos i Hi) as H. unfold val, der, der2, step_of in *.
  set (u := at_ x i) in *. set (v := at_ x (S i)) in *. split; field; lra.
Qed.
Lemma slopes_meet : forall (h0 h1 m0 m1 m2 d0 d1 : R), h0 / 6 * m0 + (h0 + h1) / 3 * m1 + h1 / 6 * m2 = d1 - d0 <->
  d0 + h0 / 6 * (m0 + 2 * m1) = d1 - h1 / 6 * (2 * m1 + m2).
Proof. intros. split; intros; lra. Qed.
Lemma spline_natural : forall y, natural_spline n (at_ x) y (spline x y).
Proof.
  intros y. destruct (curv_solves y) as (M0 & MN & MR). exists (poly y (curv y)). split; [|split; [|split; [|split]]].
  - intros i t Hi Ht. rewrite poly_val by auto. apply spline_on; auto.
  - intros i Hi. destruct i as [|i].
    + rewrite (spline_on y O); [apply piece_left; lia|lia|]. pose proof (knots_le 0 1 ltac:(lia) ltac:(lia)). lra.
    + rewrite (spline_on y i); [apply piece_right; lia|lia|]. pose proof (knots_le i (S i) ltac:(lia) ltac:(lia)). lra.
  - intros i Hi. destruct (poly_der y (curv y) i ltac:(lia)) as (_ & A & _ & B). destruct (poly_der y (curv y) (S i) ltac:(lia)) as (C & _ & D & _).
    rewrite A, B, C, D. split; [|reflexivity]. apply slopes_meet. apply MR. lia.
  - destruct (poly_der y (curv y) 0 ltac:(lia)) as (_ & _ & A & _). rewrite A. exact M0.
  - destruct (poly_der y (curv y) (n - 2) ltac:(lia)) as (_ & _ & _ & A). replace (S (n - 2)) with (n - 1)%nat in A by lia. rewrite A. exact MN.
Qed.
Lemma locate : forall q, at_ x 0 <= q <= at_ x (n - 1) -> exists i, (S i < n)%nat /\ at_ x i <= q <= at_ x (S i).
Proof.
  intros q Hq. assert (H : forall k, (S k < n)%nat -> q <= at_ x (S k) -> exists i, (S i < n)%nat /\ at_ x i <= q <= at_ x (S i)).
  { induction k as [|k IH]; intros Hk Q; [exists O; split; auto; lra|]. destruct (Rle_dec q (at_ x (S k))); [apply IH; auto; lia|]. exists (S k). split; auto; lra. }
  apply (H (n - 2)%nat); [lia|]. replace (S (n - 2)) with (n - 1)%nat by lia. lra.
Qed.
Lemma natural_unique : forall y s, natural_spline n (at_ x) y s -> forall q, at_ x 0 <= q <= at_ x (n - 1) -> s q = spline x y q.
Proof.
  intros y s (P & HP & HY & HD & H0 & HN) q Hq.
  set (M := fun i => match i with O => 0 | S k => der2 (P k) (at_ x (S k)) end).
  assert (V : forall i, (S i < n)%nat -> val (P i) (at_ x i) = y i /\ val (P i) (at_ x (S i)) = y (S i)).
  { intros i Hi. pose proof (knots_lt i (S i) ltac:(lia) Hi). rewrite <- !(HP i) by (auto; lra). split; apply HY; lia. }
  assert (D : forall i, (S i < n)%nat -> der2 (P i) (at_ x i) = M i /\ der2 (P i) (at_ x (S i)) = M (S i)).
  { intros i Hi. split; [|reflexivity]. destruct i as [|i]; [exact H0|]. cbn [M]. symmetry. apply HD. lia. }
  assert (C : curvature y M).
  { split; [reflexivity|]. split.
    - replace (n - 1)%nat with (S (n - 2)) by lia. cbn [M]. replace (S (n - 2)) with (n - 1)%nat by lia. exact HN.
    - intros i Hi. apply slopes_meet. destruct (V i ltac:(lia)) as [V1 V2]. destruct (V (S i) ltac:(lia)) as [V3 V4]. destruct (D i ltac:(lia)) as [D1 D2]. destruct (D (S i) ltac:(lia)) as [D3 D4].
      destruct (cubic_slopes (P i) i ltac:(lia)) as [_ S1]. destruct (cubic_slopes (P (S i)) (S i) ltac:(lia)) as [S2 _].
      rewrite V1, V2, D1, D2 in S1. rewrite V3, V4, D3, D4 in S2. rewrite <- S1, <- S2. apply HD. lia. }
  destruct (locate q Hq) as (i & Hi & Qi). rewrite (HP i q Hi Qi), (spline_on y i q Hi Qi).
  rewrite (cubic_form (P i) i q Hi). destruct (V i Hi) as [V1 V2]. destruct (D i Hi) as [D1 D2]. unfold piece. cbv zeta. rewrite V1, V2, D1, D2.
  rewrite (curvature_unique y _ _ C (curv_solves y) i), (curvature_unique y _ _ C (curv_solves y) (S i)) by lia. reflexivity.
Qed.
End KNOTS.
