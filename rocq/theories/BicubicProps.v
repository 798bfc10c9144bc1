(** Property C52: bicubic interpolation (src/lightcurvelynx/utils/bicubic_interp.py). *)
From Coq Require Import List Bool Arith ZArith Reals Lra Lia.
From Verif Require Import Base RealBase SedModel SedProps BicubicModel.
Import ListNotations.
Open Scope R_scope.

(** ** Vocabulary *)
(** [x] lies between the first and the last value of the axis. *)
Definition spans (l : list R) (q : R) : Prop := exists a b, nth_error l 0 = Some a /\
  nth_error l (length l - 1) = Some b /\ a <= q <= b.
(** The entry of the grid in row [i] and column [j]. *)
Definition entry (z : list (list R)) (i j : nat) (v : R) : Prop :=
  exists row, nth_error z i = Some row /\ nth_error row j = Some v.
(** All neighbouring values are [h] apart. *)
Definition evenly (l : list R) (h : R) : Prop :=
  forall i a b, nth_error l i = Some a -> nth_error l (S i) = Some b -> b - a = h.
(** [q] is in cell [i]: between values [i] and [i+1]. *)
Definition in_cell (l : list R) (i : nat) (q : R) : Prop :=
  exists a b, nth_error l i = Some a /\ nth_error l (S i) = Some b /\ a <= q <= b.
(** Two of the steps differ by more than 1e-6. *)
Definition irregular (l : list R) : Prop :=
  exists i j a b c d, nth_error l i = Some a /\ nth_error l (S i) = Some b /\
    nth_error l j = Some c /\ nth_error l (S j) = Some d /\ 1 / 1000000 < (b - a) - (d - c).

Definition zv (z : list (list R)) (i j : Z) : R := nth (Z.to_nat j) (nth (Z.to_nat i) z []) 0.
Definition xv (l : list R) (i : Z) : R := nth (Z.to_nat i) l 0.

(** ** The axis *)
Lemma check_increasing : forall l,
  existsb (fun p => Rleb (snd p) (fst p)) (combine l (tl l)) = false <-> increasing l.
Proof.
  induction l as [|a [|b l] IH]; simpl; try tauto.
  simpl in IH. rewrite orb_false_iff, IH, Rleb_false. tauto.
Qed.

Lemma diffs_In : forall l x, In x (diffs l) <->
  exists i a b, nth_error l i = Some a /\ nth_error l (S i) = Some b /\ x = b - a.
Proof.
  induction l as [|a [|b l] IH]; intros x.
  - simpl. split; [tauto|]. intros (i & p & q & H & _). destruct i; discriminate.
  - simpl. split; [tauto|]. intros (i & p & q & _ & H & _). destruct i; discriminate.
  - cbn [diffs]. split.
    + intros [H|H]; [exists 0%nat, a, b; auto|]. apply IH in H. destruct H as (i & p & q & H). exists (S i), p, q. exact H.
    + intros (i & p & q & H1 & H2 & H3). destruct i as [|i].
      * simpl in H1, H2. inversion H1; inversion H2; subst. now left.
      * right. apply IH. exists i, p, q. auto.
Qed.

Definition made_axis (l : list R) (a : axis) : Prop :=
  ax_vals a = l /\ (3 <= length l)%nat /\ increasing l /\
  ((ax_step a = None /\ irregular l) \/
   (exists s mn mx, ax_step a = Some s /\ s = (mn + mx) / 2 /\ mx - mn <= 1 / 1000000 /\ 0 < mn /\
      (forall i u v, nth_error l i = Some u -> nth_error l (S i) = Some v -> mn <= v - u <= mx) /\
      (exists i u v, nth_error l i = Some u /\ nth_error l (S i) = Some v /\ v - u = mn) /\
      (exists i u v, nth_error l i = Some u /\ nth_error l (S i) = Some v /\ v - u = mx))).

Lemma ax_make_spec : forall l,
  ((exists a, ax_make l = Ok a) <-> (3 <= length l)%nat /\ increasing l) /\
  (forall a, ax_make l = Ok a -> made_axis l a).
Proof.
  intros l. unfold ax_make.
  destruct (length l <? 3)%nat eqn:E1.
  { apply Nat.ltb_lt in E1. split; [|discriminate]. split; [intros [a H]; discriminate|lia]. }
  apply Nat.ltb_ge in E1.
  destruct (existsb _ _) eqn:E2.
  { split; [|discriminate]. split; [intros [a H]; discriminate|]. intros [_ H].
    apply check_increasing in H. congruence. }
  apply check_increasing in E2.
  assert (NE : diffs l <> []) by (destruct l as [|a [|b l]]; simpl in *; try lia; discriminate).
  destruct (list_min (diffs l)) as [mn|] eqn:M1; [|destruct (diffs l); [congruence|discriminate]].
  destruct (list_max (diffs l)) as [mx|] eqn:M2; [|destruct (diffs l); [congruence|discriminate]].
  cbn [bind]. split; [split; eauto|]. intros a H. inversion H; subst. clear H.
  apply list_min_spec in M1. apply list_max_spec in M2. destruct M1 as [M1 M1']. destruct M2 as [M2 M2'].
  split; auto. split; auto. split; auto. simpl.
  apply diffs_In in M1. destruct M1 as (i & p & q & H1 & H2 & H3).
  apply diffs_In in M2. destruct M2 as (i' & p' & q' & H1' & H2' & H3').
  destruct (Rltb (1 / 1000000) (mx - mn)) eqn:EC.
  - apply Rltb_true in EC. left. split; auto. exists i', i, p', q', p, q. subst. repeat split; auto.
  - apply Rltb_false in EC. right. exists (1 / 2 * mn + 1 / 2 * mx), mn, mx.
    split; auto. split; [lra|]. split; auto. split.
    { subst. assert (p < q) by (apply (increasing_nth l i (S i) p q E2 H1 H2); lia). lra. }
    split.
    + intros k u v Hu Hv. assert (In (v - u) (diffs l)) by (apply diffs_In; exists k, u, v; auto). split; auto.
    + split; [exists i, p, q; auto|exists i', p', q'; auto].
Qed.

Lemma xv_nth : forall l i a, nth_error l i = Some a -> xv l (Z.of_nat i) = a.
Proof. intros l i a H. unfold xv. rewrite Nat2Z.id. now apply nth_error_nth. Qed.
Lemma nth_xv : forall l i, (0 <= i < Z.of_nat (length l))%Z -> nth_error l (Z.to_nat i) = Some (xv l i).
Proof. intros l i H. unfold xv. apply nth_error_nth'. lia. Qed.

Lemma index_range : forall a q, (3 <= length (ax_vals a))%nat ->
  (0 <= find_index a q <= Z.of_nat (length (ax_vals a)) - 2)%Z.
Proof.
  intros a q H. unfold find_index, ax_num.
  destruct (initial_search a q <? 0)%Z eqn:E1.
  - destruct (_ <=? 0)%Z eqn:E2; lia.
  - apply Z.ltb_ge in E1. destruct (_ <=? initial_search a q)%Z eqn:E2; [lia|]. apply Z.leb_gt in E2. lia.
Qed.

Lemma bounds_spec : forall l a q, made_axis l a -> (out_of_bounds a q = false <-> spans l q).
Proof.
  intros l a q (E & L & I & _). unfold out_of_bounds, ax_min, ax_max. rewrite E. rewrite orb_false_iff, !Rltb_false.
  unfold spans. destruct l as [|x l]; [simpl in L; lia|].
  assert (HL : nth_error (x :: l) (length (x :: l) - 1) = Some (last (x :: l) 0)).
  { clear. assert (G : forall (l : list R) x, nth_error (x :: l) (length l) = Some (last (x :: l) 0)).
    { induction l0 as [|y l0 IH]; intros; [reflexivity|]. cbn [length nth_error]. rewrite IH. reflexivity. }
    replace (length (x :: l) - 1)%nat with (length l) by (simpl; lia). apply G. }
  simpl hd. split.
  - intros [H1 H2]. exists x, (last (x :: l) 0). repeat split; auto.
  - intros (p & q' & H1 & H2 & H3). assert (p = x) by (simpl in H1; congruence). assert (q' = last (x :: l) 0) by congruence. subst p q'. lra.
Qed.

(** Regular steps: how far value [i] is from the first. *)
Lemma drift : forall l mn mx, (forall i u v, nth_error l i = Some u -> nth_error l (S i) = Some v -> mn <= v - u <= mx) ->
  forall i u0 u, nth_error l 0 = Some u0 -> nth_error l i = Some u -> INR i * mn <= u - u0 <= INR i * mx.
Proof.
  intros l mn mx H. induction i as [|i IH]; intros u0 u H0 HU.
  - rewrite H0 in HU. inversion HU; subst. simpl. lra.
  - destruct (nth_error l i) as [w|] eqn:EW.
    + specialize (IH u0 w H0 eq_refl). specialize (H i w u EW HU). rewrite S_INR. lra.
    + exfalso. apply nth_error_None in EW. assert (S i < length l)%nat by (apply nth_error_Some; congruence). lia.
Qed.

(** ** The cell found *)
Lemma cell_irregular : forall l a q, made_axis l a -> ax_step a = None -> spans l q ->
  let i := find_index a q in
  xv l i <= q <= xv l (i + 1) /\ (q < xv l (i + 1) \/ i = (Z.of_nat (length l) - 2)%Z).
Proof.
  intros l a q M S (p0 & p1 & H0 & H1 & HQ). assert (R := index_range a q). destruct M as (E & L & I & _). rewrite E in R. specialize (R L).
  cbv zeta. set (i := find_index a q) in *.
  assert (N := increasing_nondecreasing _ I).
  assert (I0 : initial_search a q = (Z.of_nat (ss_right l q) - 1)%Z) by (unfold initial_search; now rewrite S, E).
  assert (P : (0 < ss_right l q)%nat) by (apply (ss_right_spec l q 0 p0 N H0); lra).
  assert (Q := ss_right_le l q).
  assert (D : (i = Z.of_nat (ss_right l q) - 1 /\ (ss_right l q < length l)%nat \/
               i = Z.of_nat (length l) - 2 /\ ss_right l q = length l)%Z).
  { unfold i, find_index. rewrite I0. unfold ax_num. rewrite E.
    destruct (_ <? 0)%Z eqn:E1; [apply Z.ltb_lt in E1; lia|].
    destruct (_ <=? _)%Z eqn:E2; [apply Z.leb_le in E2|apply Z.leb_gt in E2]; lia. }
  assert (A1 := nth_xv l i ltac:(lia)). assert (A2 := nth_xv l (i + 1) ltac:(lia)).
  assert (B1 := ss_right_spec l q _ _ N A1). assert (B2 := ss_right_spec l q _ _ N A2).
  destruct D as [[D1 D2]|[D1 D2]].
  - assert (xv l i <= q) by (apply B1; lia).
    assert (~ xv l (i + 1) <= q) by (rewrite B2; lia). split; [lra|left; lra].
  - assert (xv l i <= q) by (apply B1; lia). split; [|auto].
    split; auto. replace (Z.to_nat (i + 1)) with (length l - 1)%nat in A2 by lia. rewrite A2 in H1. inversion H1; lra.
Qed.

Lemma cell_even : forall l h a q, made_axis l a -> evenly l h -> spans l q ->
  let i := find_index a q in
  xv l i <= q <= xv l (i + 1) /\ (q < xv l (i + 1) \/ i = (Z.of_nat (length l) - 2)%Z).
Proof.
  intros l h a q M EV (p0 & p1 & H0 & H1 & HQ). assert (R := index_range a q).
  destruct M as (E & L & I & [[_ (k1 & k2 & u1 & u2 & u3 & u4 & G1 & G2 & G3 & G4 & G5)]|(s & mn & mx & S & ES & _ & MN & HB & (k & u & v & K1 & K2 & K3) & (k' & u' & v' & K1' & K2' & K3'))]).
  { rewrite (EV _ _ _ G1 G2), (EV _ _ _ G3 G4) in G5. lra. }
  rewrite E in R. specialize (R L). cbv zeta.
  assert (EH := EV _ _ _ K1 K2). assert (EH' := EV _ _ _ K1' K2'). assert (HM : s = h) by lra. assert (HP : 0 < h) by lra.
  clear ES K3 K3' MN. subst s.
  assert (X : forall j : Z, (0 <= j < Z.of_nat (length l))%Z -> xv l j = p0 + IZR j * h).
  { intros j Hj. assert (B : forall i u v, nth_error l i = Some u -> nth_error l (Datatypes.S i) = Some v -> h <= v - u <= h).
    { intros i a0 b0 X Y. rewrite (EV _ _ _ X Y). lra. }
    assert (D := drift l h h B (Z.to_nat j) p0 (xv l j) H0 (nth_xv l j Hj)).
    rewrite INR_IZR_INZ, Z2Nat.id in D by lia. lra. }
  set (i := find_index a q) in *.
  assert (I0 : initial_search a q = Int_part ((q - p0) / h)).
  { unfold initial_search. rewrite S. unfold ax_min. rewrite E. destruct l; [discriminate|]. simpl in *. inversion H0; auto. }
  destruct (base_Int_part ((q - p0) / h)) as [B1 B2]. rewrite <- I0 in B1, B2.
  assert (QD : q - p0 = (q - p0) / h * h) by (field; lra). set (r := (q - p0) / h) in *.
  assert (R0 : 0 <= r). { apply Rmult_le_reg_r with h; auto. lra. }
  assert (N0 : (0 <= initial_search a q)%Z). { apply Z.lt_succ_r. unfold Z.succ. apply lt_IZR. rewrite plus_IZR. lra. }
  assert (F1 : forall z, z <= r -> z * h <= q - p0) by (intros; rewrite QD; apply Rmult_le_compat_r; lra).
  assert (F2 : forall z, r < z -> q - p0 < z * h) by (intros; rewrite QD; apply Rmult_lt_compat_r; lra).
  rewrite !X by lia.
  assert (D : (i = initial_search a q \/ (i = Z.of_nat (length l) - 2 /\ Z.of_nat (length l) - 1 <= initial_search a q))%Z).
  { unfold i, find_index. unfold ax_num. rewrite E.
    destruct (_ <? 0)%Z eqn:E1; [apply Z.ltb_lt in E1; lia|].
    destruct (_ <=? _)%Z eqn:E2; [apply Z.leb_le in E2; lia|auto]. }
  destruct D as [D|[D1 D2]].
  - assert (IZR i <= r) by (rewrite D; lra). assert (r < IZR (i + 1)) by (rewrite D, plus_IZR; lra).
    specialize (F1 _ H). specialize (F2 _ H2). split; [lra|left; lra].
  - split; [|auto]. assert (IZR i <= r).
    { apply Rle_trans with (IZR (initial_search a q)); auto. apply IZR_le. lia. }
    specialize (F1 _ H). split; [lra|].
    assert (Y := X (Z.of_nat (length l) - 1)%Z ltac:(lia)). unfold xv in Y.
    replace (Z.to_nat (Z.of_nat (length l) - 1)) with (length l - 1)%nat in Y by lia.
    rewrite (nth_error_nth _ _ _ H1) in Y. replace (i + 1)%Z with (Z.of_nat (length l) - 1)%Z by lia. lra.
Qed.

(** Where a grid value lands. *)
Lemma lands : forall l a i x, made_axis l a ->
  (irregular l \/ forall k u v, nth_error l k = Some u -> nth_error l (S k) = Some v -> INR (length l) / 2000000 < v - u) ->
  nth_error l i = Some x ->
  (find_index a x = Z.of_nat i \/ find_index a x = Z.of_nat i - 1)%Z /\ spans l x.
Proof.
  intros l a i x M G HX.
  assert (LI : (i < length l)%nat) by (apply nth_error_Some; congruence).
  assert (I := proj1 (proj2 (proj2 M))). assert (L := proj1 (proj2 M)).
  assert (SP : spans l x).
  { destruct (nth_error l 0) as [p0|] eqn:E0; [|apply nth_error_None in E0; lia].
    destruct (nth_error l (length l - 1)) as [p1|] eqn:E1; [|apply nth_error_None in E1; lia].
    exists p0, p1. split; auto. split; auto. split.
    - destruct i; [rewrite E0 in HX; inversion HX; lra|]. left. eapply (increasing_nth l 0 (S i)); eauto. lia.
    - destruct (Nat.eq_dec i (length l - 1)); [subst; rewrite E1 in HX; inversion HX; lra|].
      left. eapply (increasing_nth l i (length l - 1)); eauto. lia. }
  split; auto.
  destruct M as (E & _ & _ & [[S IR]|(s & mn & mx & S & ES & DM & MN & HB & (k & u & v & K1 & K2 & K3) & _)]).
  - assert (C := cell_irregular l a x (conj E (conj L (conj I (or_introl (conj S IR))))) S SP). cbv zeta in C.
    assert (R := index_range a x). rewrite E in R. specialize (R L). set (j := find_index a x) in *.
    destruct C as [[C1 C2] C3].
    assert (J0 := nth_xv l j ltac:(lia)). assert (J1 := nth_xv l (j + 1) ltac:(lia)).
    destruct (Z.lt_trichotomy (Z.of_nat i) j) as [X|[X|X]]; [|auto|].
    + assert (x < xv l j) by (eapply (increasing_nth l i (Z.to_nat j)); eauto; lia). lra.
    + destruct (Z.eq_dec (Z.of_nat i) (j + 1)); [right; lia|].
      assert (xv l (j + 1) < x) by (eapply (increasing_nth l (Z.to_nat (j + 1)) i); eauto; lia). lra.
  - assert (SM : forall k u v, nth_error l k = Some u -> nth_error l (Datatypes.S k) = Some v -> INR (length l) / 2000000 < v - u \/ irregular l).
    { intros. destruct G as [G|G]; [auto|left; eapply G; eauto]. }
    assert (NI : ~ irregular l).
    { intros (k1 & k2 & u1 & u2 & u3 & u4 & G1 & G2 & G3 & G4 & G5).
      assert (A1 := HB _ _ _ G1 G2). assert (A2 := HB _ _ _ G3 G4). lra. }
    assert (GM : INR (length l) / 2000000 < mn). { rewrite <- K3. destruct (SM _ _ _ K1 K2); [auto|tauto]. }
    destruct (nth_error l 0) as [p0|] eqn:E0; [|apply nth_error_None in E0; lia].
    assert (D := drift l mn mx HB i p0 x E0 HX).
    assert (I0 : initial_search a x = Int_part ((x - p0) / s)).
    { unfold initial_search. rewrite S. unfold ax_min. rewrite E. destruct l; [discriminate|]. simpl in *. inversion E0; auto. }
    assert (PI : 0 <= INR i) by apply pos_INR.
    assert (LN : INR i <= INR (length l)) by (apply le_INR; lia).
    assert (MM := HB _ _ _ K1 K2). assert (PS : 0 < s) by lra.
    assert (T1 : INR i * (mx - mn) / 2 < s).
    { apply Rle_lt_trans with (INR i * (1 / 1000000) / 2).
      - apply Rmult_le_compat_r; [lra|]. apply Rmult_le_compat_l; lra.
      - lra. }
    assert (QD : x - p0 = (x - p0) / s * s) by (field; lra). set (r := (x - p0) / s) in *.
    assert (T2 : INR i - 1 < r). { apply Rmult_lt_reg_r with s; auto. rewrite <- QD. subst s. nra. }
    assert (T3 : r < INR i + 1). { apply Rmult_lt_reg_r with s; auto. rewrite <- QD. subst s. nra. }
    destruct (base_Int_part r) as [B1 B2]. rewrite <- I0 in B1, B2. rewrite INR_IZR_INZ in T2, T3.
    assert (U1 : (initial_search a x < Z.of_nat i + 1)%Z) by (apply lt_IZR; rewrite plus_IZR; lra).
    assert (U2 : (Z.of_nat i - 2 < initial_search a x)%Z) by (apply lt_IZR; rewrite minus_IZR; lra).
    assert (U3 : i = 0%nat -> (0 <= initial_search a x)%Z).
    { intros ->. assert (x = p0) by congruence. subst x. assert (r = 0) by (unfold r; field; lra).
      assert (-1 < initial_search a p0)%Z by (apply lt_IZR; lra). lia. }
    unfold find_index. unfold ax_num. rewrite E.
    destruct (initial_search a x <? 0)%Z eqn:E1.
    + apply Z.ltb_lt in E1. destruct (_ <=? 0)%Z eqn:E2; [apply Z.leb_le in E2; lia|]. 
      destruct i as [|[|i]]; [exfalso; lia|right; lia|lia].
    + apply Z.ltb_ge in E1. destruct (_ <=? _)%Z eqn:E2; [apply Z.leb_le in E2|apply Z.leb_gt in E2]; lia.
Qed.

(** ** The kernel *)
Lemma kernel_inner : forall v x, Rabs v = x -> x <= 1 -> kernel_value v = 1 - 5 / 2 * x ^ 2 + 3 / 2 * x ^ 3.
Proof.
  intros v x <- H. unfold kernel_value. cbv zeta. set (x := Rabs v) in *.
  destruct (Rltb 2 x) eqn:E1; [apply Rltb_true in E1; lra|].
  destruct (Rltb x 1) eqn:E2; [field|]. apply Rltb_false in E2. replace x with 1 by lra. field.
Qed.
Lemma kernel_outer : forall v x, Rabs v = x -> 1 <= x <= 2 -> kernel_value v = 2 - 4 * x + 5 / 2 * x ^ 2 - 1 / 2 * x ^ 3.
Proof.
  intros v x <- H. unfold kernel_value. cbv zeta. set (x := Rabs v) in *.
  destruct (Rltb 2 x) eqn:E1; [apply Rltb_true in E1; lra|].
  destruct (Rltb x 1) eqn:E2; [apply Rltb_true in E2; lra|]. field.
Qed.
Lemma kernel_weights : forall t, 0 <= t <= 1 ->
  kernel_value (- t - 1) = - t / 2 + t ^ 2 - t ^ 3 / 2 /\
  kernel_value (- t) = 1 - 5 / 2 * t ^ 2 + 3 / 2 * t ^ 3 /\
  kernel_value (- t + 1) = t / 2 + 2 * t ^ 2 - 3 / 2 * t ^ 3 /\
  kernel_value (- t + 2) = - t ^ 2 / 2 + t ^ 3 / 2.
Proof.
  intros t H. split; [|split; [|split]].
  - rewrite (kernel_outer _ (t + 1)); [field|rewrite Rabs_left1; lra|lra].
  - rewrite (kernel_inner _ t); [field|rewrite Rabs_left1; lra|lra].
  - rewrite (kernel_inner _ (1 - t)); [field|rewrite Rabs_pos_eq; lra|lra].
  - rewrite (kernel_outer _ (2 - t)); [field|rewrite Rabs_pos_eq; lra|lra].
Qed.

(** ** The grid values used *)
Lemma zat_ok : forall z nx ny i j, length z = nx -> Forall (fun row => length row = ny) z ->
  (0 <= i < Z.of_nat nx)%Z -> (0 <= j < Z.of_nat ny)%Z ->
  zat z i j = Some (zv z i j) /\ entry z (Z.to_nat i) (Z.to_nat j) (zv z i j).
Proof.
  intros z nx ny i j L F HI HJ. unfold zat, zv.
  assert ((i <? 0)%Z = false) as -> by (apply Z.ltb_ge; lia).
  assert ((j <? 0)%Z = false) as -> by (apply Z.ltb_ge; lia). simpl.
  assert (E : nth_error z (Z.to_nat i) = Some (nth (Z.to_nat i) z [])) by (apply nth_error_nth'; lia).
  rewrite E. rewrite Forall_forall in F. assert (LR := F _ (nth_error_In _ _ E)).
  assert (E2 : nth_error (nth (Z.to_nat i) z []) (Z.to_nat j) = Some (nth (Z.to_nat j) (nth (Z.to_nat i) z []) 0)) by (apply nth_error_nth'; lia).
  split; auto. exists (nth (Z.to_nat i) z []). auto.
Qed.
Lemma entry_zv : forall z i j v, entry z i j v -> zv z (Z.of_nat i) (Z.of_nat j) = v.
Proof.
  intros z i j v (row & H1 & H2). unfold zv. rewrite !Nat2Z.id. rewrite (nth_error_nth _ _ _ H1). now apply nth_error_nth.
Qed.

Lemma linear_ok : forall z nx ny ix iy ax ay, length z = nx -> Forall (fun row => length row = ny) z ->
  (0 <= ix <= Z.of_nat nx - 2)%Z -> (0 <= iy <= Z.of_nat ny - 2)%Z ->
  compute_linear ix iy ax ay z = Some
    ((1 - ax) * ((1 - ay) * zv z ix iy + ay * zv z ix (iy + 1)) +
     ax * ((1 - ay) * zv z (ix + 1) iy + ay * zv z (ix + 1) (iy + 1))).
Proof.
  intros z nx ny ix iy ax ay L F HX HY. unfold compute_linear.
  rewrite !(fun i j hi hj => proj1 (zat_ok z nx ny i j L F hi hj)) by lia.
  cbn [wsum]. f_equal. lra.
Qed.
Definition cubic_sum (d : R) (f : Z -> R) (i : Z) : R :=
  kernel_value (d - 1) * f (i - 1)%Z + kernel_value d * f i + kernel_value (d + 1) * f (i + 1)%Z + kernel_value (d + 2) * f (i + 2)%Z.
Lemma cubic_ok : forall z nx ny ix iy dx dy, length z = nx -> Forall (fun row => length row = ny) z ->
  (1 <= ix <= Z.of_nat nx - 3)%Z -> (1 <= iy <= Z.of_nat ny - 3)%Z ->
  compute_cubic ix iy dx dy z = Some (cubic_sum dx (fun r => cubic_sum dy (zv z r) iy) ix).
Proof.
  intros z nx ny ix iy dx dy L F HX HY. unfold compute_cubic. cbv zeta.
  rewrite !(fun i j hi hj => proj1 (zat_ok z nx ny i j L F hi hj)) by lia.
  cbn [wsum]. f_equal. unfold cubic_sum. lra.
Qed.

Lemma cubic_ext : forall d f g i, (forall k, (i - 1 <= k <= i + 2)%Z -> f k = g k) -> cubic_sum d f i = cubic_sum d g i.
Proof. intros d f g i H. unfold cubic_sum. rewrite !H by lia. auto. Qed.

(** Quadratics are reproduced on equally spaced points. *)
Lemma cubic_quadratic : forall a b c x0 h q i (x : Z -> R), 0 < h ->
  x (i - 1)%Z = x0 - h -> x i = x0 -> x (i + 1)%Z = x0 + h -> x (i + 2)%Z = x0 + 2 * h ->
  x0 <= q <= x0 + h ->
  cubic_sum ((x0 - q) / h) (fun k => a + b * x k + c * (x k) ^ 2) i = a + b * q + c * q ^ 2.
Proof.
  intros a b c x0 h q i x HH X0 X1 X2 X3 HQ. unfold cubic_sum. rewrite X0, X1, X2, X3.
  set (t := (q - x0) / h).
  assert (Q : q = x0 + t * h) by (unfold t; field; lra).
  assert (T : 0 <= t <= 1).
  { split; apply Rmult_le_reg_r with h; auto; lra. }
  replace ((x0 - q) / h) with (- t) by (unfold t; field; lra).
  destruct (kernel_weights t T) as (-> & -> & -> & ->). rewrite Q. field.
Qed.
(** On a knot. *)
Lemma cubic_at_0 : forall f i, cubic_sum 0 f i = f i.
Proof.
  intros f i. unfold cubic_sum. replace (0 - 1) with (-0 - 1) by lra. 
  assert (T : 0 <= 0 <= 1) by lra. destruct (kernel_weights 0 T) as (E1 & E2 & E3 & E4).
  replace (-0) with 0 in * by lra. rewrite E1, E2, E3, E4. field.
Qed.
Lemma cubic_at_1 : forall f i, cubic_sum (Ropp 1) f i = f (i + 1)%Z.
Proof.
  intros f i. unfold cubic_sum. assert (T : 0 <= 1 <= 1) by lra. destruct (kernel_weights 1 T) as (E1 & E2 & E3 & E4).
  rewrite E1, E2, E3, E4. field.
Qed.

(** ** Interpolators *)
Lemma bic_make_spec : forall x y z b, bic_make x y z = Ok b ->
  made_axis x (bc_x b) /\ made_axis y (bc_y b) /\ bc_z b = z /\
  length z = length x /\ Forall (fun row => length row = length y) z.
Proof.
  intros x y z b H. unfold bic_make in H.
  destruct (ax_make x) as [ax|] eqn:EX; [|discriminate]. destruct (ax_make y) as [ay|] eqn:EY; [|discriminate]. cbn [bind] in H.
  destruct (length z =? length x)%nat eqn:E1; [|discriminate]. destruct (forallb _ z) eqn:E2; [|discriminate].
  inversion H; subst; simpl. apply Nat.eqb_eq in E1. split; [now apply (proj2 (ax_make_spec _))|]. split; [now apply (proj2 (ax_make_spec _))|].
  split; auto. split; auto.
  apply Forall_forall. intros row HR. rewrite forallb_forall in E2. apply Nat.eqb_eq. auto.
Qed.

Definition edge_cell (l : list R) (i : Z) : Prop := (i = 0 \/ Z.of_nat (length l) - 3 < i)%Z.
Definition step_x (l : list R) (i : Z) : R := xv l (i + 1) - xv l i.

Lemma point_inside : forall x y z b xq yq, bic_make x y z = Ok b -> spans x xq -> spans y yq ->
  let ix := find_index (bc_x b) xq in let iy := find_index (bc_y b) yq in
  (0 <= ix <= Z.of_nat (length x) - 2)%Z /\ (0 <= iy <= Z.of_nat (length y) - 2)%Z /\
  (((edge_cell x ix \/ edge_cell y iy) /\
    let ax := (xq - xv x ix) / step_x x ix in let ay := (yq - xv y iy) / step_x y iy in
    bic_point b xq yq = Some ((1 - ax) * ((1 - ay) * zv z ix iy + ay * zv z ix (iy + 1)) +
                              ax * ((1 - ay) * zv z (ix + 1) iy + ay * zv z (ix + 1) (iy + 1)))) \/
   (~ edge_cell x ix /\ ~ edge_cell y iy /\
    bic_point b xq yq = Some (cubic_sum ((xv x ix - xq) / step_x x ix)
                                (fun r => cubic_sum ((xv y iy - yq) / step_x y iy) (zv z r) iy) ix))).
Proof.
  intros x y z b xq yq H SX SY ix iy. destruct (bic_make_spec _ _ _ _ H) as (MX & MY & EZ & LZ & FZ).
  assert (RX := index_range (bc_x b) xq). assert (RY := index_range (bc_y b) yq).
  rewrite (proj1 MX) in RX. rewrite (proj1 MY) in RY.
  specialize (RX (proj1 (proj2 MX))). specialize (RY (proj1 (proj2 MY))). fold ix in RX. fold iy in RY.
  split; auto. split; auto.
  unfold bic_point. cbv zeta. fold ix iy.
  rewrite (proj2 (bounds_spec _ _ _ MX) SX), (proj2 (bounds_spec _ _ _ MY) SY). cbn [orb].
  unfold ax_num, ax_at. rewrite (proj1 MX), (proj1 MY), EZ.
  destruct ((ix =? 0)%Z || (Z.of_nat (length x) - 3 <? ix)%Z || ((iy =? 0)%Z || (Z.of_nat (length y) - 3 <? iy)%Z)) eqn:EE.
  - left. split.
    + apply orb_true_iff in EE. rewrite !orb_true_iff, !Z.eqb_eq, !Z.ltb_lt in EE. unfold edge_cell. tauto.
    + rewrite (linear_ok z (length x) (length y)) by (auto; lia). reflexivity.
  - rewrite !orb_false_iff, !Z.eqb_neq, !Z.ltb_ge in EE. right. unfold edge_cell. split; [lia|]. split; [lia|].
    rewrite (cubic_ok z (length x) (length y)) by (auto; lia). reflexivity.
Qed.

(** ** C52 *)
(** Which grids are accepted. *)
Theorem C52_accepts : forall x y z, (exists b, bic_make x y z = Ok b) <->
  (3 <= length x)%nat /\ increasing x /\ (3 <= length y)%nat /\ increasing y /\
  length z = length x /\ (forall row, In row z -> length row = length y).
Proof.
  intros x y z. split.
  - intros [b H]. destruct (bic_make_spec _ _ _ _ H) as ((_ & A1 & A2 & _) & (_ & B1 & B2 & _) & _ & L & F).
    rewrite Forall_forall in F. tauto.
  - intros (A1 & A2 & B1 & B2 & L & F). unfold bic_make.
    destruct (proj2 (proj1 (ax_make_spec x)) (conj A1 A2)) as [ax ->].
    destruct (proj2 (proj1 (ax_make_spec y)) (conj B1 B2)) as [ay ->]. cbn [bind].
    rewrite L, Nat.eqb_refl. cbn [andb]. replace (forallb _ z) with true; [eauto|].
    symmetry. apply forallb_forall. intros row HR. apply Nat.eqb_eq. auto.
Qed.

(** The call returns one row per x query and one column per y query, each the value at its point. *)
Lemma reshape_cross : forall A (f : R -> R -> A) xq yq,
  reshape (length xq) (length yq) (map (fun p => f (fst p) (snd p)) (cross xq yq)) = map (fun x => map (f x) yq) xq.
Proof.
  induction xq as [|x xq IH]; intros yq; [reflexivity|].
  unfold cross in *. cbn [flat_map length reshape map]. rewrite map_app.
  assert (L : length yq = length (map (fun p => f (fst p) (snd p)) (map (fun y => (x, y)) yq))) by (rewrite !map_length; auto).
  rewrite L. rewrite firstn_app, Nat.sub_diag, firstn_all, firstn_O, app_nil_r.
  rewrite skipn_app, Nat.sub_diag, skipn_all. cbn [app skipn]. rewrite <- L, IH.
  f_equal. rewrite map_map. reflexivity.
Qed.
Theorem C52_shape : forall b xq yq,
  length (bic_call b xq yq) = length xq /\
  forall i x, nth_error xq i = Some x -> exists row, nth_error (bic_call b xq yq) i = Some row /\
    length row = length yq /\
    forall j y, nth_error yq j = Some y -> nth_error row j = Some (bic_point b x y).
Proof.
  intros b xq yq. unfold bic_call. rewrite reshape_cross. split; [apply map_length|].
  intros i x Hi. exists (map (bic_point b x) yq). split; [rewrite nth_error_map, Hi; reflexivity|].
  split; [apply map_length|]. intros j y Hj. now rewrite nth_error_map, Hj.
Qed.

(** No read outside of the grid: every call gives a number. *)
Theorem C52_defined : forall x y z b xq yq, bic_make x y z = Ok b -> exists v, bic_point b xq yq = Some v.
Proof.
  intros x y z b xq yq H. destruct (bic_make_spec _ _ _ _ H) as (MX & MY & EZ & LZ & FZ).
  destruct (out_of_bounds (bc_x b) xq) eqn:EX; [unfold bic_point; rewrite EX; eexists; reflexivity|].
  destruct (out_of_bounds (bc_y b) yq) eqn:EY; [unfold bic_point; rewrite EX, EY; eexists; reflexivity|].
  destruct (point_inside x y z b xq yq H) as (_ & _ & [[_ P]|(_ & _ & P)]).
  - now apply (bounds_spec _ _ _ MX).
  - now apply (bounds_spec _ _ _ MY).
  - eexists. exact P.
  - eexists. exact P.
Qed.

(** Outside of the grid the result is 0. *)
Theorem C52_outside : forall x y z b xq yq, bic_make x y z = Ok b -> ~ (spans x xq /\ spans y yq) ->
  bic_point b xq yq = Some 0.
Proof.
  intros x y z b xq yq H N. destruct (bic_make_spec _ _ _ _ H) as (MX & MY & _).
  rewrite <- (bounds_spec _ _ _ MX), <- (bounds_spec _ _ _ MY) in N. unfold bic_point.
  destruct (out_of_bounds (bc_x b) xq); [reflexivity|]. destruct (out_of_bounds (bc_y b) yq); [reflexivity|]. tauto.
Qed.

(** The four weights add up to 1 for every offset inside a cell. *)
Theorem C52_weights : forall d, -1 <= d <= 0 ->
  kernel_value (d - 1) + kernel_value d + kernel_value (d + 1) + kernel_value (d + 2) = 1 /\
  kernel_value 0 = 1 /\ forall k, (k <> 0)%Z -> kernel_value (IZR k) = 0.
Proof.
  intros d H. split; [|split].
  - assert (T : 0 <= - d <= 1) by lra. destruct (kernel_weights _ T) as (E1 & E2 & E3 & E4).
    rewrite Ropp_involutive in *. rewrite E1, E2, E3, E4. field.
  - assert (E := kernel_inner 0 0 Rabs_R0 ltac:(lra)). rewrite E. field.
  - intros k Hk.
    assert (A : Rabs (IZR k) = IZR (Z.abs k)) by apply Rabs_Zabs.
    destruct (Z.eq_dec (Z.abs k) 1) as [E|E].
    { rewrite (kernel_inner _ 1); [field|rewrite A, E; reflexivity|lra]. }
    destruct (Z.eq_dec (Z.abs k) 2) as [E'|E'].
    { rewrite (kernel_outer _ 2); [field|rewrite A, E'; reflexivity|lra]. }
    unfold kernel_value. cbv zeta. rewrite A.
    assert (2 < IZR (Z.abs k)) by (apply IZR_lt; lia). apply Rltb_true in H0. now rewrite H0.
Qed.

(** The index found is one of the cells and, for irregular and for evenly spaced axes, the cell of
    the query. *)
Theorem C52_cell : forall l a q, ax_make l = Ok a ->
  (0 <= find_index a q <= Z.of_nat (length l) - 2)%Z /\
  (irregular l \/ (exists h, evenly l h) -> spans l q -> in_cell l (Z.to_nat (find_index a q)) q).
Proof.
  intros l a q H. apply (proj2 (ax_make_spec l)) in H. assert (R := index_range a q).
  rewrite (proj1 H) in R. specialize (R (proj1 (proj2 H))). split; auto. intros HR SP.
  assert (C : xv l (find_index a q) <= q <= xv l (find_index a q + 1)).
  { destruct HR as [HR|[h HR]].
    - apply cell_irregular; auto. destruct H as (_ & _ & _ & [[H _]|(s & mn & mx & _ & _ & DM & _ & HB & _)]); auto.
      exfalso. destruct HR as (k1 & k2 & u1 & u2 & u3 & u4 & G1 & G2 & G3 & G4 & G5).
      assert (A1 := HB _ _ _ G1 G2). assert (A2 := HB _ _ _ G3 G4). lra.
    - now apply (cell_even l h). }
  exists (xv l (find_index a q)), (xv l (find_index a q + 1)). split; [apply nth_xv; lia|]. split; auto.
  replace (S (Z.to_nat (find_index a q))) with (Z.to_nat (find_index a q + 1)) by lia. apply nth_xv. lia.
Qed.

(** At a grid point the stored value is returned, as long as the axes are irregular (two steps
    differ by more than 1e-6) or their steps are not tiny. *)
Theorem C52_grid_points : forall x y z b i j xi yj v, bic_make x y z = Ok b ->
  (irregular x \/ forall k u w, nth_error x k = Some u -> nth_error x (S k) = Some w -> INR (length x) / 2000000 < w - u) ->
  (irregular y \/ forall k u w, nth_error y k = Some u -> nth_error y (S k) = Some w -> INR (length y) / 2000000 < w - u) ->
  nth_error x i = Some xi -> nth_error y j = Some yj -> entry z i j v ->
  bic_point b xi yj = Some v.
Proof.
  intros x y z b i j xi yj v H GX GY HX HY HE.
  destruct (bic_make_spec _ _ _ _ H) as (MX & MY & EZ & LZ & FZ).
  destruct (lands _ _ _ _ MX GX HX) as [LX SX]. destruct (lands _ _ _ _ MY GY HY) as [LY SY].
  assert (EV := entry_zv _ _ _ _ HE). assert (XI := xv_nth _ _ _ HX). assert (YJ := xv_nth _ _ _ HY).
  destruct (point_inside x y z b xi yj H SX SY) as (RX & RY & P). cbv zeta in RX, RY, P.
  set (ix := find_index (bc_x b) xi) in *. set (iy := find_index (bc_y b) yj) in *.
  assert (PX : 0 < step_x x ix).
  { unfold step_x. assert (xv x ix < xv x (ix + 1)); [|lra].
    apply (increasing_nth x (Z.to_nat ix) (Z.to_nat (ix + 1))); [apply MX|apply nth_xv; lia|apply nth_xv; lia|lia]. }
  assert (PY : 0 < step_x y iy).
  { unfold step_x. assert (xv y iy < xv y (iy + 1)); [|lra].
    apply (increasing_nth y (Z.to_nat iy) (Z.to_nat (iy + 1))); [apply MY|apply nth_xv; lia|apply nth_xv; lia|lia]. }
  assert (AX : (zv z ix = zv z (Z.of_nat i) /\ (xi - xv x ix) / step_x x ix = 0) \/
               (zv z (ix + 1) = zv z (Z.of_nat i) /\ (xi - xv x ix) / step_x x ix = 1)).
  { destruct LX as [LX|LX]; [left|right].
    - rewrite LX. split; auto. rewrite XI. unfold Rdiv. rewrite Rminus_eq_0. lra.
    - assert (E : (ix + 1)%Z = Z.of_nat i) by lia. rewrite E. split; auto. unfold step_x in *. rewrite E, XI in *. field. lra. }
  assert (AY : (iy = Z.of_nat j /\ (yj - xv y iy) / step_x y iy = 0) \/
               ((iy + 1)%Z = Z.of_nat j /\ (yj - xv y iy) / step_x y iy = 1)).
  { destruct LY as [LY|LY]; [left|right].
    - rewrite LY. split; auto. rewrite YJ. unfold Rdiv. rewrite Rminus_eq_0. lra.
    - assert (E : (iy + 1)%Z = Z.of_nat j) by lia. split; auto. unfold step_x in *. rewrite E, YJ in *. field. lra. }
  assert (NX : (xv x ix - xi) / step_x x ix = - ((xi - xv x ix) / step_x x ix)) by (field; lra).
  assert (NY : (xv y iy - yj) / step_x y iy = - ((yj - xv y iy) / step_x y iy)) by (field; lra).
  destruct P as [[_ P]|(_ & _ & P)]; rewrite P; f_equal; clear P; rewrite ?NX, ?NY; clear NX NY.
  - destruct AX as [[AX ->]|[AX ->]]; destruct AY as [[AY ->]|[AY ->]]; rewrite ?AX, ?AY, EV in *; lra.
  - destruct AX as [[AX ->]|[AX ->]]; destruct AY as [[AY ->]|[AY ->]]; rewrite ?Ropp_0; repeat (rewrite cubic_at_0 || rewrite cubic_at_1).
    + now rewrite AX, AY.
    + now rewrite AX, AY.
    + now rewrite AX, AY.
    + now rewrite AX, AY.
Qed.

(** *** Exactness *)
Lemma even_xv : forall l h p0, evenly l h -> nth_error l 0 = Some p0 ->
  forall j, (0 <= j < Z.of_nat (length l))%Z -> xv l j = p0 + IZR j * h.
Proof.
  intros l h p0 EV H0 j Hj.
  assert (B : forall i u v, nth_error l i = Some u -> nth_error l (S i) = Some v -> h <= v - u <= h).
  { intros i a0 b0 X Y. rewrite (EV _ _ _ X Y). lra. }
  assert (D := drift l h h B (Z.to_nat j) p0 (xv l j) H0 (nth_xv l j Hj)).
  rewrite INR_IZR_INZ, Z2Nat.id in D by lia. lra.
Qed.
Lemma step_pos : forall l i, increasing l -> (0 <= i <= Z.of_nat (length l) - 2)%Z -> 0 < step_x l i.
Proof.
  intros l i I R. unfold step_x. assert (xv l i < xv l (i + 1)); [|lra].
  apply (increasing_nth l (Z.to_nat i) (Z.to_nat (i + 1))); [auto|apply nth_xv; lia|apply nth_xv; lia|lia].
Qed.
(** The cell of a query is the one found. *)
Lemma cell_unique : forall l a i q u v, made_axis l a -> (irregular l \/ exists h, evenly l h) ->
  nth_error l i = Some u -> nth_error l (S i) = Some v -> u <= q < v -> find_index a q = Z.of_nat i /\ spans l q.
Proof.
  intros l a i q u v M HR HU HV HQ. assert (L := proj1 (proj2 M)). assert (I := proj1 (proj2 (proj2 M))).
  assert (LV : (S i < length l)%nat) by (apply nth_error_Some; congruence).
  assert (SP : spans l q).
  { destruct (nth_error l 0) as [p0|] eqn:E0; [|apply nth_error_None in E0; lia].
    destruct (nth_error l (length l - 1)) as [p1|] eqn:E1; [|apply nth_error_None in E1; lia].
    exists p0, p1. split; auto. split; auto. split.
    - destruct i; [rewrite E0 in HU; inversion HU; lra|].
      assert (p0 < u) by (eapply (increasing_nth l 0 (S i)); eauto; lia). lra.
    - destruct (Nat.eq_dec (S i) (length l - 1)) as [E|E]; [rewrite <- E, HV in E1; inversion E1; lra|].
      assert (v < p1) by (eapply (increasing_nth l (S i) (length l - 1)); eauto; lia). lra. }
  split; auto.
  assert (C : xv l (find_index a q) <= q <= xv l (find_index a q + 1) /\
              (q < xv l (find_index a q + 1) \/ find_index a q = (Z.of_nat (length l) - 2)%Z)).
  { destruct HR as [HR|[h HR]].
    - apply cell_irregular; auto. destruct M as (_ & _ & _ & [[H _]|(s & mn & mx & _ & _ & DM & _ & HB & _)]); auto.
      exfalso. destruct HR as (k1 & k2 & u1 & u2 & u3 & u4 & G1 & G2 & G3 & G4 & G5).
      assert (A1 := HB _ _ _ G1 G2). assert (A2 := HB _ _ _ G3 G4). lra.
    - now apply (cell_even l h). }
  assert (R := index_range a q). rewrite (proj1 M) in R. specialize (R L).
  set (k := find_index a q) in *. destruct C as [[C1 C2] C3].
  assert (J0 := nth_xv l k ltac:(lia)). assert (J1 := nth_xv l (k + 1) ltac:(lia)).
  destruct (Z.lt_trichotomy (Z.of_nat i) k) as [X|[X|X]]; [|auto|].
  - exfalso. assert (v <= xv l k).
    { destruct (Nat.eq_dec (S i) (Z.to_nat k)) as [E|E]; [rewrite <- E, HV in J0; inversion J0; lra|].
      left. eapply (increasing_nth l (S i) (Z.to_nat k)); eauto; lia. }
    lra.
  - exfalso. assert (xv l (k + 1) <= u).
    { destruct (Nat.eq_dec i (Z.to_nat (k + 1))) as [E|E]; [rewrite <- E, HU in J1; inversion J1; lra|].
      left. eapply (increasing_nth l (Z.to_nat (k + 1)) i); eauto; lia. }
    destruct C3 as [C3|C3]; [lra|]. lia.
Qed.

(** Polynomials of degree at most 2 in each variable. *)
Definition biquadratic (c : nat -> nat -> R) (x y : R) : R :=
  c 0%nat 0%nat + c 0%nat 1%nat * y + c 0%nat 2%nat * y ^ 2 +
  (c 1%nat 0%nat + c 1%nat 1%nat * y + c 1%nat 2%nat * y ^ 2) * x +
  (c 2%nat 0%nat + c 2%nat 1%nat * y + c 2%nat 2%nat * y ^ 2) * x ^ 2.
(** [q] lies at least one cell away from both ends. *)
Definition interior (l : list R) (q : R) : Prop := exists a b, nth_error l 1 = Some a /\
  nth_error l (length l - 2) = Some b /\ a <= q < b.
(** The grid holds the values of [f]. *)
Definition sampled (x y : list R) (z : list (list R)) (f : R -> R -> R) : Prop :=
  forall i j xi yj v, nth_error x i = Some xi -> nth_error y j = Some yj -> entry z i j v -> v = f xi yj.

Lemma interior_spans : forall l q, (3 <= length l)%nat -> increasing l -> interior l q -> spans l q.
Proof.
  intros l q L I (a & b & HA & HB & HQ).
  destruct (nth_error l 0) as [p0|] eqn:E0; [|apply nth_error_None in E0; lia].
  destruct (nth_error l (length l - 1)) as [p1|] eqn:E1; [|apply nth_error_None in E1; lia].
  exists p0, p1. split; auto. split; auto.
  assert (p0 < a) by (eapply (increasing_nth l 0 1); eauto).
  assert (b < p1) by (eapply (increasing_nth l (length l - 2) (length l - 1)); eauto; lia). lra.
Qed.
Lemma interior_not_edge : forall l q i, (3 <= length l)%nat -> increasing l -> interior l q ->
  (0 <= i <= Z.of_nat (length l) - 2)%Z -> xv l i <= q <= xv l (i + 1) ->
  (q < xv l (i + 1) \/ i = (Z.of_nat (length l) - 2)%Z) -> ~ edge_cell l i.
Proof.
  intros l q i L I (a & b & HA & HB & HQ) R C C3 [E|E].
  - subst i. assert (xv l 1 = a) by (apply (xv_nth l 1 a HA)). simpl in C, C3. destruct C3; [lra|lia].
  - assert (i = Z.of_nat (length l - 2)) by lia. rewrite H in C. rewrite (xv_nth _ _ _ HB) in C. lra.
Qed.

Lemma sampled_zv : forall x y z f, length z = length x -> Forall (fun row => length row = length y) z -> sampled x y z f ->
  forall i j, (0 <= i < Z.of_nat (length x))%Z -> (0 <= j < Z.of_nat (length y))%Z -> zv z i j = f (xv x i) (xv y j).
Proof.
  intros x y z f L F S i j HI HJ. destruct (zat_ok z _ _ i j L F HI HJ) as [_ E].
  eapply S; eauto using nth_xv.
Qed.

Theorem C52_exact_quadratic : forall x y z b c hx hy xq yq, bic_make x y z = Ok b ->
  evenly x hx -> evenly y hy -> sampled x y z (biquadratic c) -> interior x xq -> interior y yq ->
  bic_point b xq yq = Some (biquadratic c xq yq).
Proof.
  intros x y z b c hx hy xq yq H EX EY S IX IY.
  destruct (bic_make_spec _ _ _ _ H) as (MX & MY & EZ & LZ & FZ).
  assert (LX := proj1 (proj2 MX)). assert (LY := proj1 (proj2 MY)).
  assert (NX := proj1 (proj2 (proj2 MX))). assert (NY := proj1 (proj2 (proj2 MY))).
  assert (SX := interior_spans _ _ LX NX IX). assert (SY := interior_spans _ _ LY NY IY).
  destruct (point_inside x y z b xq yq H SX SY) as (RX & RY & P). cbv zeta in RX, RY, P.
  destruct (cell_even x hx _ xq MX EX SX) as [CX DX]. destruct (cell_even y hy _ yq MY EY SY) as [CY DY]. 
  set (ix := find_index (bc_x b) xq) in *. set (iy := find_index (bc_y b) yq) in *.
  assert (QX := interior_not_edge x xq ix LX NX IX RX CX DX). assert (QY := interior_not_edge y yq iy LY NY IY RY CY DY).
  destruct P as [[[P|P] _]|(_ & _ & P)]; [tauto|tauto|]. rewrite P. f_equal. clear P.
  assert (PX := step_pos x ix NX RX). assert (PY := step_pos y iy NY RY).
  destruct (nth_error x 0) as [x0|] eqn:E0; [|apply nth_error_None in E0; lia].
  destruct (nth_error y 0) as [y0|] eqn:F0; [|apply nth_error_None in F0; lia].
  assert (UX := even_xv x hx x0 EX E0). assert (UY := even_xv y hy y0 EY F0).
  unfold edge_cell in QX, QY.
  assert (VX : step_x x ix = hx) by (unfold step_x; rewrite !UX, plus_IZR by lia; ring).
  assert (VY : step_x y iy = hy) by (unfold step_x; rewrite !UY, plus_IZR by lia; ring).
  rewrite VX, VY in *.
  assert (CX2 : xv x ix <= xq <= xv x ix + hx) by (rewrite <- VX; unfold step_x; lra).
  assert (CY2 : xv y iy <= yq <= xv y iy + hy) by (rewrite <- VY; unfold step_x; lra).
  assert (ROW : forall r, (0 <= r < Z.of_nat (length x))%Z ->
     cubic_sum ((xv y iy - yq) / hy) (zv z r) iy =
     (c 0%nat 0%nat + c 0%nat 1%nat * yq + c 0%nat 2%nat * yq ^ 2) +
     (c 1%nat 0%nat + c 1%nat 1%nat * yq + c 1%nat 2%nat * yq ^ 2) * xv x r +
     (c 2%nat 0%nat + c 2%nat 1%nat * yq + c 2%nat 2%nat * yq ^ 2) * (xv x r) ^ 2).
  { intros r Hr. set (X := xv x r).
    transitivity (cubic_sum ((xv y iy - yq) / hy) (fun k =>
      (c 0%nat 0%nat + c 1%nat 0%nat * X + c 2%nat 0%nat * X ^ 2) +
      (c 0%nat 1%nat + c 1%nat 1%nat * X + c 2%nat 1%nat * X ^ 2) * xv y k +
      (c 0%nat 2%nat + c 1%nat 2%nat * X + c 2%nat 2%nat * X ^ 2) * (xv y k) ^ 2) iy).
    - apply cubic_ext. intros k Hk. rewrite (sampled_zv x y z _ LZ FZ S r k) by lia. unfold biquadratic, X. ring.
    - rewrite (cubic_quadratic _ _ _ (xv y iy) hy yq iy (xv y)); auto; try ring;
        rewrite !UY by lia; rewrite ?plus_IZR, ?minus_IZR; ring. }
  transitivity (cubic_sum ((xv x ix - xq) / hx) (fun r =>
     (c 0%nat 0%nat + c 0%nat 1%nat * yq + c 0%nat 2%nat * yq ^ 2) +
     (c 1%nat 0%nat + c 1%nat 1%nat * yq + c 1%nat 2%nat * yq ^ 2) * xv x r +
     (c 2%nat 0%nat + c 2%nat 1%nat * yq + c 2%nat 2%nat * yq ^ 2) * (xv x r) ^ 2) ix).
  - apply cubic_ext. intros k Hk. apply ROW. lia.
  - rewrite (cubic_quadratic _ _ _ (xv x ix) hx xq ix (xv x)); auto; try (unfold biquadratic; ring);
      rewrite !UX by lia; rewrite ?plus_IZR, ?minus_IZR; ring.
Qed.

(** Bilinear functions are reproduced everywhere on evenly spaced grids. *)
Theorem C52_exact_bilinear : forall x y z b c00 c10 c01 c11 hx hy xq yq, bic_make x y z = Ok b ->
  evenly x hx -> evenly y hy ->
  sampled x y z (fun u v => c00 + c10 * u + c01 * v + c11 * u * v) -> spans x xq -> spans y yq ->
  bic_point b xq yq = Some (c00 + c10 * xq + c01 * yq + c11 * xq * yq).
Proof.
  intros x y z b c00 c10 c01 c11 hx hy xq yq H EX EY S SX SY.
  destruct (bic_make_spec _ _ _ _ H) as (MX & MY & EZ & LZ & FZ).
  assert (LX := proj1 (proj2 MX)). assert (LY := proj1 (proj2 MY)).
  assert (NX := proj1 (proj2 (proj2 MX))). assert (NY := proj1 (proj2 (proj2 MY))).
  destruct (point_inside x y z b xq yq H SX SY) as (RX & RY & P). cbv zeta in RX, RY, P.
  destruct (cell_even x hx _ xq MX EX SX) as [CX DX]. destruct (cell_even y hy _ yq MY EY SY) as [CY DY]. 
  set (ix := find_index (bc_x b) xq) in *. set (iy := find_index (bc_y b) yq) in *.
  assert (PX := step_pos x ix NX RX). assert (PY := step_pos y iy NY RY).
  destruct P as [[_ P]|(QX & QY & P)]; rewrite P; f_equal; clear P.
  - rewrite !(sampled_zv x y z _ LZ FZ S) by lia. unfold step_x in *. field. lra.
  - destruct (nth_error x 0) as [x0|] eqn:E0; [|apply nth_error_None in E0; lia].
    destruct (nth_error y 0) as [y0|] eqn:F0; [|apply nth_error_None in F0; lia].
    assert (UX := even_xv x hx x0 EX E0). assert (UY := even_xv y hy y0 EY F0).
    unfold edge_cell in QX, QY.
    assert (VX : step_x x ix = hx) by (unfold step_x; rewrite !UX, plus_IZR by lia; ring).
    assert (VY : step_x y iy = hy) by (unfold step_x; rewrite !UY, plus_IZR by lia; ring).
    rewrite VX, VY in *.
    assert (CX2 : xv x ix <= xq <= xv x ix + hx) by (rewrite <- VX; unfold step_x; lra).
    assert (CY2 : xv y iy <= yq <= xv y iy + hy) by (rewrite <- VY; unfold step_x; lra).
    transitivity (cubic_sum ((xv x ix - xq) / hx) (fun r => (c00 + c01 * yq) + (c10 + c11 * yq) * xv x r + 0 * (xv x r) ^ 2) ix).
    + apply cubic_ext. intros r Hr.
      transitivity (cubic_sum ((xv y iy - yq) / hy) (fun k => (c00 + c10 * xv x r) + (c01 + c11 * xv x r) * xv y k + 0 * (xv y k) ^ 2) iy).
      * apply cubic_ext. intros k Hk. rewrite (sampled_zv x y z _ LZ FZ S r k) by lia. ring.
      * rewrite (cubic_quadratic _ _ _ (xv y iy) hy yq iy (xv y)); auto; try ring;
          rewrite !UY by lia; rewrite ?plus_IZR, ?minus_IZR; ring.
    + rewrite (cubic_quadratic _ _ _ (xv x ix) hx xq ix (xv x)); auto; try ring;
        rewrite !UX by lia; rewrite ?plus_IZR, ?minus_IZR; ring.
Qed.

(** The value depends only on the sixteen grid points around the query. *)
Theorem C52_local : forall x y z z' b b' i j u v s t xq yq,
  bic_make x y z = Ok b -> bic_make x y z' = Ok b' ->
  (irregular x \/ exists h, evenly x h) -> (irregular y \/ exists h, evenly y h) ->
  nth_error x i = Some u -> nth_error x (S i) = Some v -> u <= xq < v ->
  nth_error y j = Some s -> nth_error y (S j) = Some t -> s <= yq < t ->
  (forall k m a, (k <= i + 2 /\ i <= k + 1 /\ m <= j + 2 /\ j <= m + 1)%nat -> entry z k m a -> entry z' k m a) ->
  bic_point b xq yq = bic_point b' xq yq.
Proof.
  intros x y z z' b b' i j u v s t xq yq H H' GX GY HU HV HQ HS HT HR AG.
  destruct (bic_make_spec _ _ _ _ H) as (MX & MY & EZ & LZ & FZ).
  destruct (bic_make_spec _ _ _ _ H') as (MX' & MY' & EZ' & LZ' & FZ').
  destruct (cell_unique _ _ _ _ _ _ MX GX HU HV HQ) as [IX SX]. destruct (cell_unique _ _ _ _ _ _ MY GY HS HT HR) as [IY SY].
  destruct (cell_unique _ _ _ _ _ _ MX' GX HU HV HQ) as [IX' _]. destruct (cell_unique _ _ _ _ _ _ MY' GY HS HT HR) as [IY' _].
  destruct (point_inside x y z b xq yq H SX SY) as (RX & RY & P). destruct (point_inside x y z' b' xq yq H' SX SY) as (_ & _ & P').
  cbv zeta in *. rewrite IX, IY, IX', IY' in *.
  assert (ZE : forall k m, (0 <= k < Z.of_nat (length x))%Z -> (0 <= m < Z.of_nat (length y))%Z ->
     (Z.of_nat i - 1 <= k <= Z.of_nat i + 2)%Z -> (Z.of_nat j - 1 <= m <= Z.of_nat j + 2)%Z -> zv z k m = zv z' k m).
  { intros k m Hk Hm Bk Bm. destruct (zat_ok z _ _ k m LZ FZ Hk Hm) as [_ E].
    apply AG in E; [|lia]. apply entry_zv in E. rewrite !Z2Nat.id in E by lia. auto. }
  destruct P as [[QE P]|(QX & QY & P)]; destruct P' as [[QE' P']|(QX' & QY' & P')]; try tauto; rewrite P, P'; f_equal.
  - rewrite !ZE by lia. reflexivity.
  - unfold edge_cell in *. apply cubic_ext. intros r Hr. apply cubic_ext. intros k Hk. apply ZE; lia.
Qed.

(** Scaling the grid scales the result. *)
Theorem C52_scale : forall x y z b c b', bic_make x y z = Ok b -> bic_from_grid x y z c = Ok b' ->
  forall xq yq v, bic_point b xq yq = Some v -> bic_point b' xq yq = Some (c * v).
Proof.
  intros x y z b c b' H H' xq yq v HV. unfold bic_from_grid in H'.
  destruct (bic_make_spec _ _ _ _ H) as (MX & MY & EZ & LZ & FZ).
  destruct (bic_make_spec _ _ _ _ H') as (MX' & MY' & EZ' & LZ' & FZ').
  assert (AX : bc_x b' = bc_x b /\ bc_y b' = bc_y b).
  { unfold bic_make in H, H'. destruct (ax_make x) as [ax|]; [|discriminate]. destruct (ax_make y) as [ay|]; [|discriminate].
    cbn [bind] in *. destruct (_ && _) in H; [|discriminate]. destruct (_ && _) in H'; [|discriminate]. inversion H; inversion H'; auto. }
  destruct AX as [AX AY].
  assert (ZS : forall k m, (0 <= k < Z.of_nat (length x))%Z -> (0 <= m < Z.of_nat (length y))%Z ->
     zv (map (map (fun v => v * c)) z) k m = c * zv z k m).
  { intros k m Hk Hm. destruct (zat_ok z _ _ k m LZ FZ Hk Hm) as [_ (row & E1 & E2)].
    assert (E : entry (map (map (fun v => v * c)) z) (Z.to_nat k) (Z.to_nat m) (zv z k m * c)).
    { exists (map (fun v => v * c) row). rewrite !nth_error_map, E1, E2. auto. }
    apply entry_zv in E. rewrite !Z2Nat.id in E by lia. rewrite E. ring. }
  destruct (out_of_bounds (bc_x b) xq) eqn:OX.
  { unfold bic_point in *. rewrite AX, AY, OX in *. cbn [orb] in *. inversion HV; subst. f_equal. ring. }
  destruct (out_of_bounds (bc_y b) yq) eqn:OY.
  { unfold bic_point in *. rewrite AX, AY, OX, OY in *. cbn [orb] in *. inversion HV; subst. f_equal. ring. }
  apply (bounds_spec _ _ _ MX) in OX. apply (bounds_spec _ _ _ MY) in OY.
  destruct (point_inside x y z b xq yq H OX OY) as (RX & RY & P). destruct (point_inside x y _ b' xq yq H' OX OY) as (_ & _ & P').
  cbv zeta in *. rewrite AX, AY in *.
  set (ix := find_index (bc_x b) xq) in *. set (iy := find_index (bc_y b) yq) in *.
  destruct P as [[QE P]|(QX & QY & P)]; destruct P' as [[QE' P']|(QX' & QY' & P')]; try tauto;
    rewrite P in HV; inversion HV; subst v; rewrite P'; f_equal.
  - rewrite !ZS by lia. ring.
  - unfold edge_cell in *.
    transitivity (cubic_sum ((xv x ix - xq) / step_x x ix) (fun r => c * cubic_sum ((xv y iy - yq) / step_x y iy) (zv z r) iy) ix).
    + apply cubic_ext. intros r Hr. transitivity (cubic_sum ((xv y iy - yq) / step_x y iy) (fun k => c * zv z r k) iy).
      * apply cubic_ext. intros k Hk. apply ZS; lia.
      * unfold cubic_sum. ring.
    + unfold cubic_sum. ring.
Qed.

(** *** Concrete cases *)

Definition ex_axis : list R := [0; 1; 2; 3].
Lemma ex_even : evenly ex_axis 1.
Proof.
  intros i a b HA HB. unfold ex_axis in *. destruct i as [|[|[|[|i]]]]; simpl in HA, HB; inversion HA; inversion HB; subst; lra.
Qed.
Definition ex_grid (f : R -> R -> R) (x y : list R) : list (list R) := map (fun u => map (fun v => f u v) y) x.
Lemma ex_sampled : forall f x y, sampled x y (ex_grid f x y) f.
Proof.
  intros f x y i j xi yj v HX HY (row & H1 & H2). unfold ex_grid in H1. rewrite nth_error_map, HX in H1. inversion H1; subst.
  rewrite nth_error_map, HY in H2. now inversion H2.
Qed.
Lemma ex_made : forall f x y, (3 <= length x)%nat -> increasing x -> (3 <= length y)%nat -> increasing y ->
  exists b, bic_make x y (ex_grid f x y) = Ok b.
Proof.
  intros f x y A1 A2 B1 B2. apply C52_accepts. unfold ex_grid. rewrite map_length.
  repeat split; auto. intros row HR. apply in_map_iff in HR. destruct HR as [u [<- _]]. apply map_length.
Qed.
Example C52_applies : exists b, bic_make ex_axis ex_axis (ex_grid (fun u v => u * u * v) ex_axis ex_axis) = Ok b /\
  bic_point b (3 / 2) (5 / 4) = Some (45 / 16) /\ bic_point b 3 2 = Some 18 /\ bic_point b 4 2 = Some 0.
Proof.
  destruct (ex_made (fun u v => u * u * v) ex_axis ex_axis) as [b Hb]; try (simpl; lia || lra).
  exists b. split; auto. split; [|split].
  - rewrite (C52_exact_quadratic _ _ _ b (fun i j => if (i =? 2)%nat && (j =? 1)%nat then 1 else 0) 1 1 _ _ Hb ex_even ex_even).
    + unfold biquadratic. simpl. f_equal. field.
    + intros i j xi yj v H1 H2 H3. rewrite (ex_sampled _ _ _ i j xi yj v H1 H2 H3). unfold biquadratic. simpl. ring.
    + exists 1, 2. simpl. repeat split; auto; lra.
    + exists 1, 2. simpl. repeat split; auto; lra.
  - apply (C52_grid_points _ _ _ _ 3 2 3 2 18 Hb); try reflexivity.
    + right. intros k u w H1 H2. rewrite (ex_even _ _ _ H1 H2). simpl. lra.
    + right. intros k u w H1 H2. rewrite (ex_even _ _ _ H1 H2). simpl. lra.
    + eexists. split; [reflexivity|]. simpl. f_equal. lra.
  - apply (C52_outside _ _ _ _ _ _ Hb). intros [(p & q & H1 & H2 & H3) _]. simpl in H1, H2. inversion H1; inversion H2; subst. lra.
Qed.

(** A finding: the kernel assumes equal steps, so that on an irregular axis not even a linear
    function is reproduced. *)
Theorem C52_irregular_linear_refuted : exists x y z b, bic_make x y z = Ok b /\
  sampled x y z (fun u _ => u) /\ interior x (5 / 2) /\ interior y (3 / 2) /\
  bic_point b (5 / 2) (3 / 2) = Some (157 / 64).
Proof.
  set (x := [0; 1; 2; 4; 5; 6]).
  destruct (ex_made (fun u _ => u) x ex_axis) as [b Hb]; try (simpl; lia || lra).
  exists x, ex_axis, (ex_grid (fun u _ => u) x ex_axis), b. split; auto.
  split; [apply ex_sampled|]. split; [exists 1, 5; simpl; repeat split; auto; lra|]. split; [exists 1, 2; simpl; repeat split; auto; lra|].
  destruct (bic_make_spec _ _ _ _ Hb) as (MX & MY & _).
  assert (IR : irregular x).
  { exists 2%nat, 0%nat, 2, 4, 0, 1. simpl. repeat split; auto. lra. }
  destruct (cell_unique x _ 2 (5 / 2) 2 4 MX (or_introl IR) eq_refl eq_refl ltac:(lra)) as [IX SX].
  destruct (cell_unique ex_axis _ 1 (3 / 2) 1 2 MY (or_intror (ex_intro _ 1 ex_even)) eq_refl eq_refl ltac:(lra)) as [IY SY].
  destruct (point_inside _ _ _ b _ _ Hb SX SY) as (_ & _ & P). cbv zeta in P. rewrite IX, IY in P.
  destruct P as [[[P|P] _]|(_ & _ & ->)]; [unfold edge_cell in P; simpl in P; lia|unfold edge_cell in P; simpl in P; lia|].
  f_equal.
  replace ((xv x (Z.of_nat 2) - 5 / 2) / step_x x (Z.of_nat 2)) with (- (1 / 4)) by (unfold step_x, xv, x; simpl; field).
  replace ((xv ex_axis (Z.of_nat 1) - 3 / 2) / step_x ex_axis (Z.of_nat 1)) with (- (1 / 2)) by (unfold step_x, xv, ex_axis; simpl; field).
  unfold cubic_sum. 
  destruct (kernel_weights (1 / 4) ltac:(lra)) as (-> & -> & -> & ->). destruct (kernel_weights (1 / 2) ltac:(lra)) as (-> & -> & -> & ->).
  unfold zv. simpl. field.
Qed.

(** A finding: steps that differ by at most 1e-6 count as regular, whatever their size.  On an axis
    with small steps (e.g. wavelengths in metres) the cell found does not contain the query and not
    even the stored values are returned. *)
Theorem C52_small_steps_refuted : exists x y z b, bic_make x y z = Ok b /\
  nth_error x 4 = Some (13 / 10000000) /\ nth_error y 0 = Some 0 /\ entry z 4 0 1 /\
  bic_point b (13 / 10000000) 0 = Some 0 /\ ~ in_cell x (Z.to_nat (find_index (bc_x b) (13 / 10000000))) (13 / 10000000).
Proof.
  set (x := [0; 10 / 10000000; 11 / 10000000; 12 / 10000000; 13 / 10000000]).
  set (z := [[0; 0; 0; 0]; [0; 0; 0; 0]; [0; 0; 0; 0]; [0; 0; 0; 0]; [1; 1; 1; 1]]).
  destruct (proj2 (C52_accepts x ex_axis z)) as [b Hb].
  { repeat split; try (simpl; lia || lra). intros row HR. simpl in HR. intuition (subst; reflexivity). }
  exists x, ex_axis, z, b. split; auto. split; [reflexivity|]. split; [reflexivity|].
  split; [eexists; split; reflexivity|].
  destruct (bic_make_spec _ _ _ _ Hb) as (MX & MY & _).
  assert (IX : find_index (bc_x b) (13 / 10000000) = 2%Z).
  { destruct MX as (E & _ & _ & [[_ (k1 & k2 & u1 & u2 & u3 & u4 & G1 & G2 & G3 & G4 & G5)]|(s & mn & mx & S & ES & DM & MN & HB & (k & u & v & K1 & K2 & K3) & (k' & u' & v' & K1' & K2' & K3'))]).
    - exfalso. unfold x in *. destruct k1 as [|[|[|[|[|k1]]]]]; simpl in G1, G2; try discriminate;
        destruct k2 as [|[|[|[|[|k2]]]]]; simpl in G3, G4; try discriminate; try (destruct k1; discriminate); try (destruct k2; discriminate);
        inversion G1; inversion G2; inversion G3; inversion G4; subst; lra.
    - assert (B0 := HB 0%nat _ _ eq_refl eq_refl). assert (B1 := HB 1%nat _ _ eq_refl eq_refl). simpl in B0, B1.
      assert (V : mn = 1 / 10000000 /\ mx = 10 / 10000000).
      { unfold x in *. split.
        - destruct k as [|[|[|[|[|k]]]]]; simpl in K1, K2; try discriminate; try (destruct k; discriminate); inversion K1; inversion K2; subst; lra.
        - destruct k' as [|[|[|[|[|k']]]]]; simpl in K1', K2'; try discriminate; try (destruct k'; discriminate); inversion K1'; inversion K2'; subst; lra. }
      destruct V as [-> ->]. unfold find_index, initial_search, ax_num, ax_min. rewrite E, S.
      replace (Int_part ((13 / 10000000 - hd 0 x) / s)) with 2%Z; [reflexivity|].
      destruct (base_Int_part ((13 / 10000000 - hd 0 x) / s)) as [Q1 Q2].
      assert (Q3 : (13 / 10000000 - hd 0 x) / s = 26 / 11) by (subst s; simpl; field). rewrite Q3 in *.
      assert (A1 : (1 < Int_part (26 / 11))%Z) by (apply lt_IZR; lra).
      assert (A2 : (Int_part (26 / 11) < 3)%Z) by (apply lt_IZR; lra). lia. }
  rewrite IX. split.
  - destruct (cell_unique ex_axis _ 0 0 0 1 MY (or_intror (ex_intro _ 1 ex_even)) eq_refl eq_refl ltac:(lra)) as [IY SY].
    assert (SX : spans x (13 / 10000000)) by (exists 0, (13 / 10000000); simpl; repeat split; auto; lra).
    destruct (point_inside _ _ _ b _ _ Hb SX SY) as (_ & _ & P). cbv zeta in P. rewrite IX, IY in P.
    destruct P as [[_ ->]|(_ & P & _)]; [|unfold edge_cell in P; simpl in P; lia].
    f_equal. unfold zv, xv, step_x, xv. simpl. field.
  - intros (p & q & H1 & H2 & H3). simpl in H1, H2. inversion H1; inversion H2; subst. lra.
Qed.
Print Assumptions C52_accepts.
Print Assumptions C52_shape.
Print Assumptions C52_defined.
Print Assumptions C52_outside.
Print Assumptions C52_weights.
Print Assumptions C52_cell.
Print Assumptions C52_grid_points.
Print Assumptions C52_exact_quadratic.
Print Assumptions C52_exact_bilinear.
Print Assumptions C52_local.
Print Assumptions C52_scale.
Print Assumptions C52_irregular_linear_refuted.
Print Assumptions C52_small_steps_refuted.
