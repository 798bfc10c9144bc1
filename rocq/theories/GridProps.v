(** Property C59: the grid file reader (src/lightcurvelynx/utils/io_utils.py). *)
From Coq Require Import List Bool Arith Reals Lra Lia.
From Verif Require Import Base BaseFacts RealBase BicubicModel BicubicProps GridModel.
Import ListNotations.
Open Scope R_scope.

(** ** Vocabulary *)
(** The rows enumerate the grid: first axis slowest. *)
Definition row_major (x0 x1 : list R) (rows : list (R * R)) : Prop :=
  rows = flat_map (fun a => map (fun b => (a, b)) x1) x0.
(** The distinct numbers of a column, in increasing order. *)
Definition axis_of (col x : list R) : Prop := increasing x /\ forall q, In q x <-> In q col.

Lemma ins_new_In : forall a l q, In q (ins_new a l) <-> q = a \/ In q l.
Proof.
  induction l as [|b l IH]; intros q; simpl; [intuition|]. destruct (Rltb a b); [simpl; intuition|].
  destruct (Reqb a b) eqn:E; [apply Reqb_true in E; subst; simpl; intuition|]. simpl. rewrite IH. tauto.
Qed.
Lemma ins_new_inc : forall a l, increasing l -> increasing (ins_new a l).
Proof.
  induction l as [|b l IH]; intros H; [exact I|]. cbn [ins_new]. destruct (Rltb a b) eqn:E.
  - apply Rltb_true in E. split; auto.
  - apply Rltb_false in E. destruct (Reqb a b) eqn:E2; auto. apply Reqb_false in E2.
    apply increasing_cons; [|apply IH; eapply increasing_tail; eauto]. intros q Hq. apply ins_new_In in Hq.
    destruct Hq as [->|Hq]; [lra|]. eapply increasing_head; eauto.
Qed.
Lemma unique_axis : forall l, axis_of l (unique l).
Proof.
  induction l as [|a l IH]; [split; [exact I|tauto]|]. destruct IH as [I1 I2]. split.
  - apply ins_new_inc, I1.
  - intros q. unfold unique in *. cbn [fold_right]. rewrite ins_new_In, I2. simpl. intuition.
Qed.
Lemma increasing_ext : forall x y, increasing x -> increasing y -> (forall q, In q x <-> In q y) -> x = y.
Proof.
  induction x as [|a x IH]; intros [|b y] H1 H2 E; auto.
  - exfalso. apply (proj2 (E b)). now left.
  - exfalso. apply (proj1 (E a)). now left.
  - assert (a = b).
    { assert (A := proj1 (E a) (or_introl eq_refl)). assert (B := proj2 (E b) (or_introl eq_refl)).
      destruct A as [A|A]; auto. destruct B as [B|B]; auto.
      pose proof (increasing_head _ _ _ H2 A). pose proof (increasing_head _ _ _ H1 B). lra. }
    subst b. f_equal. apply IH; try (eapply increasing_tail; eauto; fail). intros q. split; intros Hq.
    + assert (X := proj1 (E q) (or_intror Hq)). destruct X as [<-|X]; auto. pose proof (increasing_head _ _ _ H1 Hq). lra.
    + assert (X := proj2 (E q) (or_intror Hq)). destruct X as [<-|X]; auto. pose proof (increasing_head _ _ _ H2 Hq). lra.
Qed.
Lemma axis_unique : forall l x, axis_of l x -> x = unique l.
Proof.
  intros l x [H1 H2]. destruct (unique_axis l) as [U1 U2]. apply increasing_ext; auto. intros q. rewrite H2, U2. tauto.
Qed.

Lemma check_inner_spec : forall a x1 rows rest, check_inner a x1 rows = Ok rest <-> rows = map (fun b => (a, b)) x1 ++ rest.
Proof.
  induction x1 as [|b x1 IH]; intros rows rest; simpl.
  - split; congruence.
  - destruct rows as [|[u w] rows]; [split; discriminate|].
    destruct (Reqb u a) eqn:E1; cbn [negb].
    + apply Reqb_true in E1. subst u. destruct (Reqb w b) eqn:E2; cbn [negb].
      * apply Reqb_true in E2. subst w. rewrite IH. split; [congruence|]. intros H. inversion H; auto.
      * apply Reqb_false in E2. split; [discriminate|]. intros H. inversion H; congruence.
    + apply Reqb_false in E1. split; [discriminate|]. intros H. inversion H; congruence.
Qed.
Lemma check_order_spec : forall x0 x1 rows rest, check_order x0 x1 rows = Ok rest <-> rows = cross x0 x1 ++ rest.
Proof.
  induction x0 as [|a x0 IH]; intros x1 rows rest; simpl.
  - split; congruence.
  - unfold cross in *. cbn [flat_map]. destruct (check_inner a x1 rows) as [r|e] eqn:E; cbn [bind].
    + apply check_inner_spec in E. subst rows. rewrite IH, <- app_assoc. split; [congruence|]. apply app_inv_head.
    + split; [discriminate|]. intros H. rewrite <- app_assoc in H. apply check_inner_spec in H. congruence.
Qed.
Lemma cross_length : forall A B (x : list A) (y : list B), length (cross x y) = (length x * length y)%nat.
Proof. intros. unfold cross. induction x as [|a x IH]; auto. cbn [flat_map length]. rewrite app_length, map_length, IH. reflexivity. Qed.
Lemma cross_In : forall A B (x : list A) (y : list B) a b, In (a, b) (cross x y) <-> In a x /\ In b y.
Proof.
  intros. unfold cross. rewrite in_flat_map. split.
  - intros [c [H1 H2]]. apply in_map_iff in H2. destruct H2 as [d [E H2]]. inversion E; subst. auto.
  - intros [H1 H2]. exists a. split; auto. apply in_map. auto.
Qed.
Lemma combine_split_l : forall A B (a : list A) (b : list B), length a = length b -> map fst (combine a b) = a /\ map snd (combine a b) = b.
Proof.
  induction a as [|x a IH]; intros [|y b] H; simpl in *; try lia; auto. destruct (IH b) as [-> ->]; auto.
Qed.
(** The axes of a row-major table are its distinct values. *)
Lemma cross_axes : forall a b x0 x1, length a = length b -> combine a b = cross x0 x1 -> x0 <> [] -> x1 <> [] ->
  increasing x0 -> increasing x1 -> unique a = x0 /\ unique b = x1.
Proof.
  intros a b x0 x1 HL HC N0 N1 I0 I1. destruct (combine_split_l _ _ a b HL) as [EA EB]. rewrite HC in EA, EB.
  split; symmetry; apply axis_unique; split; auto; intros q.
  - rewrite <- EA. rewrite in_map_iff. split.
    + intros H. destruct x1 as [|y x1]; [congruence|]. exists (q, y). split; auto. apply cross_In. split; auto. now left.
    + intros [[u w] [E H]]. apply cross_In in H. cbn in E. subst. tauto.
  - rewrite <- EB. rewrite in_map_iff. split.
    + intros H. destruct x0 as [|y x0]; [congruence|]. exists (y, q). split; auto. apply cross_In. split; auto. now left.
    + intros [[u w] [E H]]. apply cross_In in H. cbn in E. subst. tauto.
Qed.

(** ** C59 *)
(** Three columns are needed. *)
Theorem C59_columns : forall validate cols, length cols <> 3%nat -> read_grid validate cols = Err ValueError.
Proof. intros v [|a [|b [|c [|d l]]]] H; simpl in *; auto. congruence. Qed.

(** With validation a table is accepted exactly if its rows enumerate a grid of two increasing
    axes in row-major order; otherwise ValueError. *)
Theorem C59_validated : forall a b v, length a = length b ->
  ((exists g, read_grid true [a; b; v] = Ok g) <->
   exists x0 x1, increasing x0 /\ increasing x1 /\ row_major x0 x1 (combine a b)) /\
  (forall e, read_grid true [a; b; v] = Err e -> e = ValueError).
Proof.
  intros a b v HL. unfold row_major. fold (@cross R R). split.
  - split.
    + intros [g H]. unfold read_grid in H. destruct (_ =? _)%nat eqn:EN; [|discriminate]. cbn [negb] in H.
      destruct (check_order _ _ _) as [rest|] eqn:EC; [|discriminate]. apply check_order_spec in EC. apply Nat.eqb_eq in EN.
      exists (unique a), (unique b). destruct (unique_axis a), (unique_axis b). split; auto. split; auto.
      assert (L : length (combine a b) = length (cross (unique a) (unique b) ++ rest)) by congruence.
      rewrite app_length, cross_length, combine_length in L. destruct rest; [now rewrite app_nil_r in EC|simpl in L; lia].
    + intros (x0 & x1 & I0 & I1 & HC).
      assert (G : unique a = x0 /\ unique b = x1 \/ a = [] /\ b = []).
      { destruct a as [|a0 a'], b as [|b0 b']; simpl in HL; try lia; auto. left. apply cross_axes; auto; intros ->.
        - discriminate. 
        - clear - HC. assert (X : length (combine (a0 :: a') (b0 :: b')) = O); [|discriminate].
          rewrite HC. change (length (cross x0 (@nil R)) = O). rewrite cross_length. simpl. lia. }
      destruct G as [[U0 U1]|[-> ->]].
      * unfold read_grid. rewrite U0, U1.
        assert (L : length a = (length x0 * length x1)%nat).
        { rewrite <- (cross_length R R x0 x1). unfold cross. rewrite <- HC, combine_length. lia. }
        rewrite (proj2 (Nat.eqb_eq _ _) L). cbn [negb].
        rewrite (proj2 (check_order_spec x0 x1 (combine a b) [])) by (rewrite app_nil_r; exact HC). cbn. eauto.
      * cbn. eauto.
  - intros e H. unfold read_grid in H. destruct (_ =? _)%nat eqn:EN; cbn [negb] in H; [|congruence]. apply Nat.eqb_eq in EN.
    destruct (check_order _ _ _) as [rest|e'] eqn:EC; [discriminate|]. cbn [bind] in H. inversion H; subst e'.
    assert (IN : forall u x1 rows, check_inner u x1 rows = Err e -> e = ValueError \/ (length rows < length x1)%nat).
    { clear. intros u. induction x1 as [|b x1 IH]; intros [|[w z] rows] H; simpl in *; try discriminate.
      - right. lia.
      - destruct (Reqb w u); cbn [negb] in H; [|left; congruence]. destruct (Reqb z b); cbn [negb] in H; [|left; congruence].
        destruct (IH rows H); auto. right. lia. }
    assert (OU : forall x1 x0 rows, check_order x0 x1 rows = Err e -> e = ValueError \/ (length rows < length x0 * length x1)%nat).
    { clear - IN. intros x1. induction x0 as [|u x0 IH]; intros rows H; simpl in *; [discriminate|].
      destruct (check_inner u x1 rows) as [r|e'] eqn:E; cbn [bind] in H.
      - apply check_inner_spec in E. subst rows. rewrite app_length, map_length. destruct (IH r H); auto. right. lia.
      - inversion H; subst. destruct (IN _ _ _ E); auto. right. nia. }
    destruct (OU _ _ _ EC) as [|X]; auto. rewrite combine_length in X. lia.
Qed.

Lemma nth_cross : forall A B (x : list A) (y : list B) i j a b, nth_error x i = Some a -> nth_error y j = Some b ->
  nth_error (cross x y) (i * length y + j) = Some (a, b).
Proof.
  induction x as [|c x IH]; intros y i j a b H1 H2; [destruct i; discriminate|]. unfold cross. cbn [flat_map]. fold (cross x y).
  assert (J : (j < length y)%nat) by (apply nth_error_Some; congruence). destruct i as [|i]; simpl in H1.
  - inversion H1; subst. simpl. rewrite nth_error_app1 by (rewrite map_length; auto). rewrite nth_error_map, H2. reflexivity.
  - rewrite nth_error_app2 by (rewrite map_length; simpl; lia). rewrite map_length.
    replace (S i * length y + j - length y)%nat with (i * length y + j)%nat by (simpl; lia). apply IH; auto.
Qed.
Lemma nth_error_skipn_add : forall A (l : list A) n k, nth_error (skipn n l) k = nth_error l (n + k).
Proof. induction l as [|a l IH]; intros [|n] k; simpl; auto. destruct k; reflexivity. Qed.
Lemma nth_error_firstn_lt : forall A (l : list A) n k, (k < n)%nat -> nth_error (firstn n l) k = nth_error l k.
Proof. induction l as [|a l IH]; intros [|n] [|k] H; simpl; auto; try lia. apply IH. lia. Qed.
Lemma reshape_spec : forall A n m (l : list A), length l = (n * m)%nat ->
  length (reshape n m l) = n /\ (forall row, In row (reshape n m l) -> length row = m) /\
  forall i j, (i < n)%nat -> (j < m)%nat -> exists row, nth_error (reshape n m l) i = Some row /\ nth_error row j = nth_error l (i * m + j).
Proof.
  induction n as [|n IH]; intros m l H; simpl in *.
  - split; auto. split; [tauto|]. intros; lia.
  - destruct (IH m (skipn m l)) as (I1 & I2 & I3); [rewrite skipn_length; lia|]. split; [lia|]. split.
    + intros row [<-|HR]; auto. rewrite firstn_length. lia.
    + intros i j Hi Hj. destruct i as [|i].
      * exists (firstn m l). split; auto. simpl. now apply nth_error_firstn_lt.
      * destruct (I3 i j) as (row & R1 & R2); try lia. exists row. split; auto. rewrite R2, nth_error_skipn_add. f_equal. lia.
Qed.

(** A table that enumerates a grid in row-major order is accepted, with or without validation;
    the axes are those of the grid and the entry for (x0[i], x1[j]) is the value of that row. *)
Theorem C59_values : forall validate a b v x0 x1, length a = length b -> length a = length v ->
  x0 <> [] -> x1 <> [] -> increasing x0 -> increasing x1 -> row_major x0 x1 (combine a b) ->
  exists values, read_grid validate [a; b; v] = Ok (x0, x1, values) /\
    length values = length x0 /\ (forall row, In row values -> length row = length x1) /\
    forall i j r p q w, nth_error x0 i = Some p -> nth_error x1 j = Some q ->
      nth_error a r = Some p -> nth_error b r = Some q -> nth_error v r = Some w ->
      exists row, nth_error values i = Some row /\ nth_error row j = Some w.
Proof.
  intros validate a b v x0 x1 HL HV N0 N1 I0 I1 HC. unfold row_major in HC. fold (cross x0 x1) in HC.
  destruct (cross_axes a b x0 x1) as [U0 U1]; auto.
  assert (L : length a = (length x0 * length x1)%nat).
  { rewrite <- (cross_length R R x0 x1), <- HC, combine_length. lia. }
  exists (reshape (length x0) (length x1) v). split.
  - unfold read_grid. rewrite U0, U1, (proj2 (Nat.eqb_eq _ _) L). cbn [negb]. destruct validate; [|reflexivity].
    rewrite (proj2 (check_order_spec x0 x1 (combine a b) [])) by (rewrite app_nil_r; exact HC). reflexivity.
  - destruct (reshape_spec R (length x0) (length x1) v ltac:(lia)) as (R1 & R2 & R3). split; auto. split; auto.
    intros i j r p q w Hp Hq Ha Hb Hv.
    assert (Hi : (i < length x0)%nat) by (apply nth_error_Some; congruence).
    assert (Hj : (j < length x1)%nat) by (apply nth_error_Some; congruence).
    destruct (R3 i j Hi Hj) as (row & Q1 & Q2). exists row. split; auto. rewrite Q2.
    replace (i * length x1 + j)%nat with r; auto.
    assert (NC := nth_cross R R x0 x1 i j p q Hp Hq). rewrite <- HC in NC.
    assert (NR : nth_error (combine a b) r = Some (p, q)).
    { clear - Ha Hb. revert a b Ha Hb. induction r as [|r IH]; intros [|y a] [|z b] Ha Hb; simpl in *; try discriminate; [congruence|]. auto. }
    assert (ND : NoDup (combine a b)).
    { rewrite HC. clear - I0 I1. apply increasing_NoDup in I0, I1. unfold cross. induction x0 as [|c x0 IH]; [constructor|].
      inversion I0; subst. cbn [flat_map]. 
      assert (M : NoDup (map (fun y => (c, y)) x1)).
      { clear - I1. induction I1; simpl; constructor; auto. intros H0. apply in_map_iff in H0. destruct H0 as [z [E Hz]]. inversion E; subst. tauto. }
      assert (D : forall z, In z (map (fun y => (c, y)) x1) -> ~ In z (flat_map (fun x => map (fun y => (x, y)) x1) x0)).
      { intros z Hz Hz2. apply in_map_iff in Hz. destruct Hz as [y [<- _]]. apply (cross_In R R x0 x1 c y) in Hz2. tauto. }
      specialize (IH H2). clear - M D IH. induction M as [|z l NI M IHM]; simpl; auto. constructor.
      - rewrite in_app_iff. intros [X|X]; [tauto|]. apply (D z); [now left|auto].
      - apply IHM. intros y Hy. apply D. now right. }
    eapply NoDup_nth_error; [exact ND|apply nth_error_Some; congruence|]. congruence.
Qed.

(** Without validation only the number of rows is checked. *)
Theorem C59_unvalidated : forall a b v x0 x1, axis_of a x0 -> axis_of b x1 ->
  ((exists g, read_grid false [a; b; v] = Ok g) <-> length a = (length x0 * length x1)%nat) /\
  (forall e, read_grid false [a; b; v] = Err e -> e = ValueError).
Proof.
  intros a b v x0 x1 HA HB. apply axis_unique in HA, HB. subst x0 x1. unfold read_grid.
  destruct (_ =? _)%nat eqn:EN; cbn [negb bind].
  - apply Nat.eqb_eq in EN. split; [split; eauto|discriminate].
  - apply Nat.eqb_neq in EN. split; [|congruence]. split; [intros [g H]; discriminate|tauto].
Qed.
(** So a complete grid in another order (here second axis slowest) is read without complaint and
    its values land at the wrong points, and a grid with a missing and a repeated point is
    accepted as well. *)
Theorem C59_order_unchecked_refuted :
  (exists a b v x0 x1 values, read_grid false [a; b; v] = Ok (x0, x1, values) /\
     row_major x0 x1 (combine b a) /\
     nth_error a 1 = nth_error x0 1 /\ nth_error b 1 = nth_error x1 0 /\
     nth_error v 1 = Some 6 /\ entry values 1 0 7) /\
  (exists a b v g, read_grid false [a; b; v] = Ok g /\ ~ In (2, 2) (combine a b) /\ In 2 a /\ In 2 b).
Proof.
  assert (U : unique [1; 2; 1; 2] = [1; 2]).
  { symmetry. apply axis_unique. split; [simpl; lra|]. intros q. simpl. tauto. }
  assert (U2 : unique [1; 1; 2; 2] = [1; 2]).
  { symmetry. apply axis_unique. split; [simpl; lra|]. intros q. simpl. tauto. }
  assert (U3 : unique [1; 1; 2; 2] = [1; 2]) by exact U2.
  assert (U4 : unique [1; 2; 1; 1] = [1; 2]).
  { symmetry. apply axis_unique. split; [simpl; lra|]. intros q. simpl. tauto. }
  split.
  - exists [1; 2; 1; 2], [1; 1; 2; 2], [5; 6; 7; 8], [1; 2], [1; 2], [[5; 6]; [7; 8]].
    split; [unfold read_grid; rewrite U, U2; reflexivity|]. split; [reflexivity|]. repeat split; try reflexivity. exists [7; 8]; auto.
  - exists [1; 1; 2; 2], [1; 2; 1; 1], [5; 6; 7; 8], ([1; 2], [1; 2], [[5; 6]; [7; 8]]).
    split; [unfold read_grid; rewrite U2, U4; reflexivity|]. split; [|simpl; tauto].
    simpl. intros H. repeat (destruct H as [H|H]; [inversion H; lra|]). exact H.
Qed.

(** A grid file gives an interpolator that returns, at each row's point, the row's value times the
    scale factor. *)
Theorem C59_interpolator : forall a b v x0 x1 c, length a = length b -> length a = length v ->
  (3 <= length x0)%nat -> (3 <= length x1)%nat -> increasing x0 -> increasing x1 -> row_major x0 x1 (combine a b) ->
  (irregular x0 \/ forall k u w, nth_error x0 k = Some u -> nth_error x0 (S k) = Some w -> INR (length x0) / 2000000 < w - u) ->
  (irregular x1 \/ forall k u w, nth_error x1 k = Some u -> nth_error x1 (S k) = Some w -> INR (length x1) / 2000000 < w - u) ->
  exists g, from_grid_file [a; b; v] c = Ok g /\
    forall r p q w, nth_error a r = Some p -> nth_error b r = Some q -> nth_error v r = Some w ->
      bic_point g p q = Some (w * c).
Proof.
  intros a b v x0 x1 c HL HV N0 N1 I0 I1 HC G0 G1.
  destruct (C59_values false a b v x0 x1 HL HV) as (values & HR & L1 & L2 & HE); auto;
    try (intros ->; simpl in *; lia).
  unfold from_grid_file. rewrite HR. cbn [bind]. unfold bic_from_grid.
  destruct (proj2 (C52_accepts x0 x1 (map (map (fun u => u * c)) values))) as [g Hg].
  { split; [auto|]. split; [auto|]. split; [auto|]. split; [auto|]. split; [now rewrite map_length|].
    intros row H. apply in_map_iff in H. destruct H as [r0 [<- H]]. rewrite map_length. auto. }
  exists g. split; auto. intros r p q w Ha Hb Hw.
  assert (IC : In (p, q) (combine a b)).
  { clear - Ha Hb. revert a b Ha Hb. induction r as [|r IH]; intros [|y a] [|z b] Ha Hb; simpl in *; try discriminate.
    - inversion Ha; inversion Hb; subst; now left.
    - right; auto. }
  unfold row_major in HC. fold (cross x0 x1) in HC. rewrite HC in IC. apply cross_In in IC. destruct IC as [IP IQ].
  apply In_nth_error in IP, IQ. destruct IP as [i Hi], IQ as [j Hj].
  destruct (HE i j r p q w Hi Hj Ha Hb Hw) as (row & R1 & R2).
  eapply C52_grid_points; eauto. exists (map (fun u => u * c) row). rewrite !nth_error_map, R1, R2. auto.
Qed.
Example grid_meets : exists x0 x1 rows, x0 <> [] /\ x1 <> [] /\ increasing x0 /\ increasing x1 /\ row_major x0 x1 rows /\
  rows = combine [1; 1; 2; 2] [3; 4; 3; 4].
Proof.
  exists [1; 2], [3; 4], [(1, 3); (1, 4); (2, 3); (2, 4)]. repeat split; simpl; try lra; try discriminate.
Qed.
