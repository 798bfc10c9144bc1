(** Real-number vocabulary shared by the numerical models: comparisons as booleans, sums,
    trapezoid rule, sorting, [searchsorted], linear interpolation. *)
From Coq Require Import Reals List Bool Arith Lia Lra Permutation Sorted.
Import ListNotations.
Open Scope R_scope.

Definition Rleb (a b : R) : bool := if Rle_dec a b then true else false.
Definition Rltb (a b : R) : bool := if Rlt_dec a b then true else false.
Definition Reqb (a b : R) : bool := if Req_EM_T a b then true else false.
Lemma Rleb_true : forall a b, Rleb a b = true <-> a <= b.
Proof. intros. unfold Rleb. destruct (Rle_dec a b); intuition discriminate. Qed.
Lemma Rleb_false : forall a b, Rleb a b = false <-> b < a.
Proof. intros. unfold Rleb. destruct (Rle_dec a b); split; intros; try discriminate; auto; lra. Qed.
Lemma Rltb_true : forall a b, Rltb a b = true <-> a < b.
Proof. intros. unfold Rltb. destruct (Rlt_dec a b); intuition discriminate. Qed.
Lemma Rltb_false : forall a b, Rltb a b = false <-> b <= a.
Proof. intros. unfold Rltb. destruct (Rlt_dec a b); split; intros; try discriminate; auto; lra. Qed.
Lemma Reqb_true : forall a b, Reqb a b = true <-> a = b.
Proof. intros. unfold Reqb. destruct (Req_EM_T a b); intuition discriminate. Qed.
Lemma Reqb_false : forall a b, Reqb a b = false <-> a <> b.
Proof. intros. unfold Reqb. destruct (Req_EM_T a b); intuition discriminate. Qed.
Lemma Rleb_refl : forall a, Rleb a a = true.
Proof. intros. apply Rleb_true. lra. Qed.

(** [np.sum] *)
Definition Rsum (l : list R) : R := fold_right Rplus 0 l.
Lemma Rsum_app : forall a b, Rsum (a ++ b) = Rsum a + Rsum b.
Proof. induction a; intros; simpl; [lra|rewrite IHa; lra]. Qed.
Lemma Rsum_scale : forall c l, Rsum (map (fun x => c * x) l) = c * Rsum l.
Proof. induction l; simpl; [lra|rewrite IHl; lra]. Qed.
Lemma Rsum_nonneg : forall l, Forall (fun x => 0 <= x) l -> 0 <= Rsum l.
Proof. induction 1; simpl; lra. Qed.

(** [np.diff] *)
Fixpoint diffs (l : list R) : list R :=
  match l with
  | a :: (b :: _) as t => (b - a) :: diffs t
  | _ => []
  end.

(** A sampled curve: points (x, y). *)
Definition curve := list (R * R).
Definition xs (t : curve) : list R := map fst t.
Definition ys (t : curve) : list R := map snd t.

(** Trapezoid rule ([scipy.integrate.trapezoid(y, x=x)]). *)
Fixpoint trapz (t : curve) : R :=
  match t with
  | (x1, y1) :: ((x2, y2) :: _) as t' => (x2 - x1) * (y1 + y2) / 2 + trapz t'
  | _ => 0
  end.
(** [scipy.integrate.cumulative_trapezoid(y, x=x)]: one entry less than the curve. *)
Fixpoint cumtrapz_from (acc : R) (t : curve) : list R :=
  match t with
  | (x1, y1) :: ((x2, y2) :: _) as t' =>
      let a := acc + (x2 - x1) * (y1 + y2) / 2 in a :: cumtrapz_from a t'
  | _ => []
  end.
Definition cumtrapz (t : curve) : list R := cumtrapz_from 0 t.

(** Strictly increasing. *)
Fixpoint increasing (l : list R) : Prop :=
  match l with
  | a :: (b :: _) as t => a < b /\ increasing t
  | _ => True
  end.
Lemma increasing_tail : forall a l, increasing (a :: l) -> increasing l.
Proof. intros a [|b l] H; simpl in *; tauto. Qed.
Lemma increasing_head : forall a l x, increasing (a :: l) -> In x l -> a < x.
Proof.
  intros a l. revert a. induction l as [|b l IH]; intros a x H HI; [destruct HI|].
  destruct H as [H1 H2]. destruct HI as [->|HI]; auto. specialize (IH b x H2 HI). lra.
Qed.
Lemma increasing_cons : forall a l, (forall x, In x l -> a < x) -> increasing l -> increasing (a :: l).
Proof. intros a [|b l] H1 H2; simpl; auto. split; auto. apply H1. left; auto. Qed.
Lemma increasing_nth : forall l i j a b, increasing l -> nth_error l i = Some a -> nth_error l j = Some b ->
  (i < j)%nat -> a < b.
Proof.
  induction l as [|x l IH]; intros i j a b H H1 H2 HL; [destruct i; discriminate|].
  destruct j as [|j]; [lia|]. destruct i as [|i]; simpl in *.
  - inversion H1; subst. eapply increasing_head; eauto. eapply nth_error_In; eauto.
  - eapply IH; eauto. eapply increasing_tail; eauto. lia.
Qed.
Lemma increasing_NoDup : forall l, increasing l -> NoDup l.
Proof.
  induction l as [|a l IH]; intros H; constructor.
  - intros HI. pose proof (increasing_head _ _ _ H HI). lra.
  - apply IH. eapply increasing_tail; eauto.
Qed.

(** Sorting ([np.sort]): insertion sort. *)
Fixpoint insertR (a : R) (l : list R) : list R :=
  match l with
  | [] => [a]
  | b :: l' => if Rleb a b then a :: l else b :: insertR a l'
  end.
Fixpoint sortR (l : list R) : list R := match l with [] => [] | a :: l' => insertR a (sortR l') end.
Fixpoint nondecreasing (l : list R) : Prop :=
  match l with
  | a :: (b :: _) as t => a <= b /\ nondecreasing t
  | _ => True
  end.
Lemma nondecreasing_tail : forall a l, nondecreasing (a :: l) -> nondecreasing l.
Proof. intros a [|b l] H; simpl in *; tauto. Qed.
Lemma nondecreasing_head : forall a l x, nondecreasing (a :: l) -> In x l -> a <= x.
Proof.
  intros a l. revert a. induction l as [|b l IH]; intros a x H HI; [destruct HI|].
  destruct H as [H1 H2]. destruct HI as [->|HI]; auto. specialize (IH b x H2 HI). lra.
Qed.
Lemma nondecreasing_cons : forall a l, (forall x, In x l -> a <= x) -> nondecreasing l -> nondecreasing (a :: l).
Proof. intros a [|b l] H1 H2; simpl; auto. split; auto. apply H1. left; auto. Qed.
Lemma nondecreasing_nth : forall l i j a b, nondecreasing l -> nth_error l i = Some a -> nth_error l j = Some b ->
  (i <= j)%nat -> a <= b.
Proof.
  induction l as [|x l IH]; intros i j a b H H1 H2 HL; [destruct i; discriminate|].
  destruct j as [|j]; destruct i as [|i]; simpl in *; try lia.
  - inversion H1; inversion H2; subst. lra.
  - inversion H1; subst. eapply nondecreasing_head; eauto. eapply nth_error_In; eauto.
  - eapply IH; eauto. eapply nondecreasing_tail; eauto. lia.
Qed.
Lemma increasing_nondecreasing : forall l, increasing l -> nondecreasing l.
Proof.
  induction l as [|a [|b l] IH]; intros H; try exact I. destruct H as [H1 H2]. split; [lra|]. apply IH, H2.
Qed.
Lemma insertR_perm : forall a l, Permutation (insertR a l) (a :: l).
Proof.
  induction l as [|b l IH]; simpl; auto. destruct (Rleb a b); auto.
  transitivity (b :: a :: l); [constructor; auto|constructor].
Qed.
Lemma sortR_perm : forall l, Permutation (sortR l) l.
Proof. induction l; simpl; auto. rewrite insertR_perm. constructor; auto. Qed.
Lemma insertR_sorted : forall a l, nondecreasing l -> nondecreasing (insertR a l).
Proof.
  induction l as [|b l IH]; intros H; simpl; auto.
  destruct (Rleb a b) eqn:E.
  - apply Rleb_true in E. split; auto.
  - apply Rleb_false in E. apply nondecreasing_cons; [|apply IH; eapply nondecreasing_tail; eauto].
    intros x Hx. apply (Permutation_in _ (insertR_perm a l)) in Hx. destruct Hx as [->|Hx]; [lra|].
    eapply nondecreasing_head; eauto.
Qed.
Lemma sortR_sorted : forall l, nondecreasing (sortR l).
Proof. induction l; simpl; auto. apply insertR_sorted; auto. Qed.
Lemma sortR_In : forall x l, In x (sortR l) <-> In x l.
Proof. intros; split; apply Permutation_in; [|apply Permutation_sym]; apply sortR_perm. Qed.

(** [np.searchsorted(l, v, side)] on a sorted array: the number of entries < v (left) or <= v
    (right). *)
Definition ss_left (l : list R) (v : R) : nat := length (filter (fun a => Rltb a v) l).
Definition ss_right (l : list R) (v : R) : nat := length (filter (fun a => Rleb a v) l).
Lemma ss_left_spec : forall l v i a, nondecreasing l -> nth_error l i = Some a ->
  (a < v <-> (i < ss_left l v)%nat).
Proof.
  unfold ss_left. induction l as [|x l IH]; intros v i a H HN; [destruct i; discriminate|].
  simpl. destruct (Rltb x v) eqn:E.
  - apply Rltb_true in E. destruct i as [|i]; simpl in HN.
    + inversion HN; subst. simpl. split; [lia|auto].
    + simpl. rewrite (IH v i a); [lia|eapply nondecreasing_tail; eauto|auto].
  - apply Rltb_false in E.
    assert (F : filter (fun a => Rltb a v) l = []).
    { assert (G : forall y, In y l -> v <= y).
      { intros y Hy. pose proof (nondecreasing_head _ _ _ H Hy). lra. }
      clear - G. induction l; simpl; auto. replace (Rltb a v) with false.
      - apply IHl. intros; apply G; right; auto.
      - symmetry. apply Rltb_false. apply G. left; auto. }
    rewrite F. simpl. split; [|lia]. intros Ha. exfalso. destruct i; simpl in HN.
    + inversion HN; subst. lra.
    + pose proof (nondecreasing_head _ _ _ H (nth_error_In _ _ HN)). lra.
Qed.
Lemma ss_right_spec : forall l v i a, nondecreasing l -> nth_error l i = Some a ->
  (a <= v <-> (i < ss_right l v)%nat).
Proof.
  unfold ss_right. induction l as [|x l IH]; intros v i a H HN; [destruct i; discriminate|].
  simpl. destruct (Rleb x v) eqn:E.
  - apply Rleb_true in E. destruct i as [|i]; simpl in HN.
    + inversion HN; subst. simpl. split; [lia|auto].
    + simpl. rewrite (IH v i a); [lia|eapply nondecreasing_tail; eauto|auto].
  - apply Rleb_false in E.
    assert (F : filter (fun a => Rleb a v) l = []).
    { assert (G : forall y, In y l -> v < y).
      { intros y Hy. pose proof (nondecreasing_head _ _ _ H Hy). lra. }
      clear - G. induction l; simpl; auto. replace (Rleb a v) with false.
      - apply IHl. intros; apply G; right; auto.
      - symmetry. apply Rleb_false. apply G. left; auto. }
    rewrite F. simpl. split; [|lia]. intros Ha. exfalso. destruct i; simpl in HN.
    + inversion HN; subst. lra.
    + pose proof (nondecreasing_head _ _ _ H (nth_error_In _ _ HN)). lra.
Qed.
Lemma filter_length_le : forall A (f : A -> bool) l, (length (filter f l) <= length l)%nat.
Proof. induction l; simpl; auto. destruct (f a); simpl; lia. Qed.
Lemma ss_left_le : forall l v, (ss_left l v <= length l)%nat.
Proof. intros. apply filter_length_le. Qed.
Lemma ss_right_le : forall l v, (ss_right l v <= length l)%nat.
Proof. intros. apply filter_length_le. Qed.
Lemma ss_left_nth : forall l i a, increasing l -> nth_error l i = Some a -> ss_left l a = i.
Proof.
  intros l i a H HN. assert (HL : (i < length l)%nat) by (apply nth_error_Some; congruence).
  assert (N := increasing_nondecreasing _ H).
  assert (A1 : ~ (i < ss_left l a)%nat) by (rewrite <- (ss_left_spec l a i a); auto; lra).
  destruct (Nat.eq_dec i (ss_left l a)) as [|NE]; auto. exfalso.
  assert (L : (ss_left l a < i)%nat) by lia.
  destruct (nth_error l (ss_left l a)) as [b|] eqn:E.
  - assert (b < a) by (eapply increasing_nth; eauto). apply (ss_left_spec l a _ b N E) in H0. lia.
  - apply nth_error_None in E. lia.
Qed.

(** Linear interpolation of a curve with increasing abscissas: the segment containing [q];
    beyond the ends the caller decides. *)
Definition lerp (p1 p2 : R * R) (q : R) : R :=
  snd p1 + (snd p2 - snd p1) * (q - fst p1) / (fst p2 - fst p1).
Fixpoint interp_seg (p : R * R) (t : curve) (q : R) : R :=
  match t with
  | [] => snd p
  | p2 :: t' => if Rleb q (fst p2) then lerp p p2 q else interp_seg p2 t' q
  end.
(** [np.interp(q, x, y, left=.., right=..)] on increasing [x]. *)
Definition last_x (t : curve) : R := fst (last t (0, 0)).
Definition interp (t : curve) (left right : R) (q : R) : R :=
  match t with
  | [] => left
  | p :: t' => if Rltb q (fst p) then left
               else if Rltb (last_x t) q then right
               else interp_seg p t' q
  end.

Lemma lerp_left : forall p1 p2, fst p1 < fst p2 -> lerp p1 p2 (fst p1) = snd p1.
Proof. intros. unfold lerp. field. lra. Qed.
Lemma lerp_right : forall p1 p2, fst p1 < fst p2 -> lerp p1 p2 (fst p2) = snd p2.
Proof. intros. unfold lerp. field. lra. Qed.
Lemma lerp_between : forall p1 p2 q, fst p1 < fst p2 -> fst p1 <= q <= fst p2 ->
  Rmin (snd p1) (snd p2) <= lerp p1 p2 q <= Rmax (snd p1) (snd p2).
Proof.
  intros [x1 y1] [x2 y2] q H Hq. unfold lerp; simpl in *.
  set (w := (q - x1) / (x2 - x1)).
  assert (W : 0 <= w <= 1).
  { unfold w. split.
    - apply Rmult_le_pos; [lra|]. left. apply Rinv_0_lt_compat. lra.
    - apply Rmult_le_reg_r with (x2 - x1); [lra|]. unfold Rdiv. rewrite Rmult_assoc, Rinv_l by lra. lra. }
  replace (y1 + (y2 - y1) * (q - x1) / (x2 - x1)) with (y1 + (y2 - y1) * w) by (unfold w; field; lra).
  clearbody w. unfold Rmin, Rmax. destruct (Rle_dec y1 y2); nra.
Qed.
Lemma xs_cons : forall p t, xs (p :: t) = fst p :: xs t.
Proof. reflexivity. Qed.
Lemma interp_seg_knot : forall t p i q, increasing (xs (p :: t)) -> nth_error (p :: t) i = Some q ->
  interp_seg p t (fst q) = snd q.
Proof.
  induction t as [|p2 t IH]; intros p i q H HN.
  - destruct i as [|[|i]]; simpl in HN; inversion HN; subst. reflexivity.
  - rewrite !xs_cons in H. assert (H12 : fst p < fst p2) by (destruct H; auto).
    assert (HT : increasing (xs (p2 :: t))) by (rewrite xs_cons; eapply increasing_tail; eauto).
    destruct i as [|i]; simpl in HN.
    + inversion HN; subst. simpl. replace (Rleb (fst q) (fst p2)) with true.
      * apply lerp_left; auto.
      * symmetry. apply Rleb_true. lra.
    + simpl. destruct (Rleb (fst q) (fst p2)) eqn:E.
      * apply Rleb_true in E. destruct i as [|i]; simpl in HN.
        -- inversion HN; subst. apply lerp_right; auto.
        -- exfalso. apply nth_error_In in HN. apply (in_map fst) in HN.
           assert (fst p2 < fst q) by (eapply increasing_head; eauto). lra.
      * eapply IH; eauto.
Qed.
Lemma last_x_In : forall p t, exists q, last (p :: t) (0, 0) = q /\ In q (p :: t).
Proof.
  intros p t. eexists; split; [reflexivity|]. revert p. induction t as [|b t IH]; intros p; [left; reflexivity|].
  change (last (p :: b :: t) (0, 0)) with (last (b :: t) (0, 0)). right. apply IH.
Qed.
Lemma last_x_max : forall t p q, increasing (xs (p :: t)) -> In q (p :: t) -> fst q <= last_x (p :: t).
Proof.
  induction t as [|b t IH]; intros p q H HI.
  - destruct HI as [->|[]]. unfold last_x; simpl. lra.
  - unfold last_x in *. change (last (p :: b :: t) (0, 0)) with (last (b :: t) (0, 0)).
    assert (HT : increasing (xs (b :: t))) by (eapply increasing_tail; eauto).
    destruct HI as [->|HI]; [|apply IH; auto].
    specialize (IH b b HT (or_introl eq_refl)). destruct H. lra.
Qed.
(** At a tabulated abscissa the interpolation returns the tabulated value. *)
Lemma interp_knot : forall t lf rt q, increasing (xs t) -> In q t -> interp t lf rt (fst q) = snd q.
Proof.
  intros [|p t] lf rt q H HI; [destruct HI|]. destruct (In_nth_error _ _ HI) as (i & HN). unfold interp.
  assert (L : fst p <= fst q).
  { destruct i; simpl in HN; [inversion HN; lra|]. apply nth_error_In in HN. apply (in_map fst) in HN.
    left. eapply increasing_head; eauto. }
  apply Rltb_false in L. rewrite L. pose proof (last_x_max _ _ _ H HI) as M. apply Rltb_false in M. rewrite M.
  eapply interp_seg_knot; eauto.
Qed.
Lemma interp_left : forall t lf rt q, t <> [] -> q < fst (hd (0, 0) t) -> interp t lf rt q = lf.
Proof. intros [|p t] lf rt q HT H; [congruence|]. simpl in *. apply Rltb_true in H. now rewrite H. Qed.
Lemma interp_right : forall t lf rt q, increasing (xs t) -> t <> [] -> last_x t < q -> interp t lf rt q = rt.
Proof.
  intros [|p t] lf rt q HI HT H; [congruence|]. unfold interp.
  pose proof (last_x_max t p p HI (or_introl eq_refl)) as M.
  replace (Rltb q (fst p)) with false by (symmetry; apply Rltb_false; lra).
  apply Rltb_true in H. now rewrite H.
Qed.
(** Between two neighbouring points it stays between their values. *)
Lemma interp_seg_between : forall t p i p1 p2 q, increasing (xs (p :: t)) ->
  nth_error (p :: t) i = Some p1 -> nth_error (p :: t) (S i) = Some p2 -> fst p1 <= q <= fst p2 ->
  Rmin (snd p1) (snd p2) <= interp_seg p t q <= Rmax (snd p1) (snd p2).
Proof.
  induction t as [|b t IH]; intros p i p1 p2 q H H1 H2 Hq; [destruct i; discriminate|].
  assert (H12 : fst p < fst b) by (destruct H; auto).
  assert (HT : increasing (xs (b :: t))) by (rewrite xs_cons; eapply increasing_tail; eauto).
  destruct i as [|i].
  - simpl in H1, H2. inversion H1; inversion H2; subst. simpl. destruct Hq as [Q1 Q2]. 
    assert (E := Q2). apply Rleb_true in E. rewrite E. apply lerp_between; auto.
  - assert (H1' : nth_error (b :: t) i = Some p1) by exact H1. assert (H2' : nth_error (b :: t) (S i) = Some p2) by exact H2.
    simpl. destruct (Rleb q (fst b)) eqn:E.
    + apply Rleb_true in E. assert (fst b <= fst p1).
      { destruct i as [|i]; simpl in H1'; [inversion H1'; lra|].
        apply nth_error_In in H1'. apply (in_map fst) in H1'. left. eapply increasing_head; eauto. }
      assert (EQ : q = fst b) by lra. subst q. rewrite lerp_right by auto.
      rewrite <- (interp_seg_knot t b 0 b HT eq_refl). eapply IH; eauto.
    + eapply IH; eauto.
Qed.
Lemma interp_between : forall t lf rt i p1 p2 q, increasing (xs t) ->
  nth_error t i = Some p1 -> nth_error t (S i) = Some p2 -> fst p1 <= q <= fst p2 ->
  Rmin (snd p1) (snd p2) <= interp t lf rt q <= Rmax (snd p1) (snd p2).
Proof.
  intros [|p t] lf rt i p1 p2 q H H1 H2 Hq; [destruct i; discriminate|]. unfold interp.
  assert (L : fst p <= fst p1).
  { destruct i; simpl in H1; [inversion H1; lra|]. apply nth_error_In in H1. apply (in_map fst) in H1.
    left. eapply increasing_head; eauto. }
  pose proof (last_x_max _ _ _ H (nth_error_In _ _ H2)) as M.
  replace (Rltb q (fst p)) with false by (symmetry; apply Rltb_false; lra).
  replace (Rltb (last_x (p :: t)) q) with false by (symmetry; apply Rltb_false; lra).
  eapply interp_seg_between; eauto.
Qed.
(** Multiplying all ordinates multiplies the result. *)
Definition yscale (c : R) (t : curve) : curve := map (fun p => (fst p, c * snd p)) t.
Lemma xs_yscale : forall c t, xs (yscale c t) = xs t.
Proof. intros. unfold xs, yscale. rewrite map_map. apply map_ext. auto. Qed.
Lemma interp_seg_scale : forall c t p q, interp_seg (fst p, c * snd p) (yscale c t) q = c * interp_seg p t q.
Proof.
  induction t as [|b t IH]; intros p q; simpl; auto. destruct (Rleb q (fst b)).
  - unfold lerp; simpl. unfold Rdiv. ring.
  - apply IH.
Qed.
Lemma last_x_scale : forall c t, last_x (yscale c t) = last_x t.
Proof.
  intros. unfold last_x. induction t as [|a [|b t] IH]; simpl in *; auto.
Qed.
Lemma interp_scale : forall c t lf rt q, interp (yscale c t) (c * lf) (c * rt) q = c * interp t lf rt q.
Proof.
  intros c [|p t] lf rt q; simpl; auto. change ((fst p, c * snd p) :: yscale c t) with (yscale c (p :: t)).
  rewrite last_x_scale. destruct (Rltb q (fst p)); auto. destruct (Rltb (last_x (p :: t)) q); auto.
  apply interp_seg_scale.
Qed.
Lemma interp_seg_bounds : forall t p q lo hi, increasing (xs (p :: t)) -> fst p <= q ->
  (forall a, In a (p :: t) -> lo <= snd a <= hi) -> lo <= interp_seg p t q <= hi.
Proof.
  induction t as [|b t IH]; intros p q lo hi H Hq HB; simpl.
  - apply HB. left; auto.
  - assert (H12 : fst p < fst b) by (destruct H; auto).
    assert (HT : increasing (xs (b :: t))) by (rewrite xs_cons; eapply increasing_tail; eauto).
    destruct (Rleb q (fst b)) eqn:E.
    + apply Rleb_true in E. pose proof (lerp_between p b q H12 (conj Hq E)) as B.
      pose proof (HB p (or_introl eq_refl)). pose proof (HB b (or_intror (or_introl eq_refl))).
      unfold Rmin, Rmax in B. destruct (Rle_dec (snd p) (snd b)); lra.
    + apply Rleb_false in E. apply IH; auto; [lra|]. intros a Ha. apply HB. right; auto.
Qed.
(** Trapezoid rule: algebra. *)
Lemma trapz_cons : forall p1 p2 t, trapz (p1 :: p2 :: t) = (fst p2 - fst p1) * (snd p1 + snd p2) / 2 + trapz (p2 :: t).
Proof. intros [x1 y1] [x2 y2] t. reflexivity. Qed.
Lemma trapz_scale : forall c t, trapz (yscale c t) = c * trapz t.
Proof.
  induction t as [|[x1 y1] [|[x2 y2] t] IH]; simpl in *; try lra.
Qed.
Lemma trapz_nonneg : forall t, increasing (xs t) -> Forall (fun p => 0 <= snd p) t -> 0 <= trapz t.
Proof.
  induction t as [|[x1 y1] [|[x2 y2] t] IH]; intros H HF; try (simpl; lra).
  rewrite trapz_cons. simpl fst; simpl snd. inversion HF as [|? ? F1 F2]; subst. inversion F2 as [|? ? F3 F4]; subst.
  simpl in F1, F3. assert (0 <= trapz ((x2, y2) :: t)) by (apply IH; auto; eapply increasing_tail; eauto).
  assert (x1 < x2) by (destruct H; auto). nra.
Qed.
Lemma trapz_const : forall c t p, increasing (xs (p :: t)) -> Forall (fun q => snd q = c) (p :: t) ->
  trapz (p :: t) = c * (last_x (p :: t) - fst p).
Proof.
  induction t as [|b t IH]; intros p H HF.
  - unfold last_x; simpl. destruct p; simpl; lra.
  - rewrite trapz_cons. rewrite IH; [|eapply increasing_tail; eauto|inversion HF; auto].
    inversion HF as [|? ? F1 F2]; subst. inversion F2; subst.
    unfold last_x. change (last (p :: b :: t) (0, 0)) with (last (b :: t) (0, 0)). rewrite H2. lra.
Qed.
