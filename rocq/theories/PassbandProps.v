(** Properties C29-C31 and C65: passband validation, normalisation, band flux and trimming. *)
From Coq Require Import Reals String List Bool Arith ZArith Lia Lra.
From Verif Require Import Base BaseFacts RealBase PassbandModel PassbandProofs.
Import ListNotations.
Open Scope R_scope.

(** A physical transmission table: wavelengths positive, transmissions not negative. *)
Definition physical (t : table) : Prop := Forall (fun p => 0 < fst p /\ 0 <= snd p) t.

Lemma increasing_diffs : forall l, increasing l ->
  existsb (fun d => Rltb d 0) (diffs l) = false /\ existsb (fun d => Reqb d 0) (diffs l) = false.
Proof.
  induction l as [|a [|b l] IH]; intros H; [split; reflexivity|split; reflexivity|]. destruct H as [H1 H2].
  change (diffs (a :: b :: l)) with (b - a :: diffs (b :: l)). destruct (IH H2) as [E1 E2]. cbn [existsb].
  rewrite E1, E2, !orb_false_r. split; [apply Rltb_false|apply Reqb_false]; lra.
Qed.

(** ** C29 *)
Theorem C29_unit_integral : forall t s f d q u p, pb_make t s f d q u = Ok p -> trapz (pb_table p) = 1.
Proof.
  intros t s f d q u p H. destruct (make_inv _ _ _ _ _ _ _ H) as (t0 & _ & P & _).
  destruct (process_inv _ _ _ _ P) as (t1 & t2 & _ & _ & E3). eapply normalize_integral; eauto.
Qed.
Theorem C29_nonnegative : forall t s f d q u p, physical t -> pb_make t s f d q u = Ok p ->
  Forall (fun r => 0 <= snd r) (pb_table p).
Proof.
  intros t s f d q u p HP H. destruct (make_inv _ _ _ _ _ _ _ H) as (t0 & V & P & _).
  destruct (validate_inv _ _ _ V) as (_ & HI & HT).
  assert (HP0 : physical t0).
  { destruct HT as [-> | ->]; auto. unfold physical in *. rewrite Forall_map. eapply Forall_impl; [|exact HP].
    intros [x y] [A B]; simpl in *. split; lra. }
  destruct (process_inv _ _ _ _ P) as (t1 & t2 & E1 & E2 & E3).
  assert (I1 : increasing (xs t1)) by (apply (interpolate_increasing t0 d); auto).
  assert (N1 : physical t1) by (apply (interpolate_nonneg t0 d); auto).
  apply (normalize_nonneg t2); auto.
  - apply (trim_increasing t1 q); auto.
  - apply (trim_Forall _ t1 q); auto.
Qed.
(** Reprocessing the loaded table again gives unit integral, and rescaling all transmissions by a
    common factor does not change the processed table. *)
Theorem C29_scale_invariant : forall t s f d q u p c, 0 < c -> pb_make t s f d q u = Ok p ->
  exists p', pb_make (yscale c t) s f d q u = Ok p' /\ pb_table p' = pb_table p.
Proof.
  intros t s f d q u p c Hc H. unfold pb_make in *.
  assert (EV : validate (yscale c t) u = map_ok (yscale c) (validate t u)).
  { unfold validate. rewrite xs_yscale. destruct (existsb _ _); auto. destruct (existsb _ _); auto.
    destruct u; simpl; auto. f_equal. unfold yscale. rewrite !map_map. apply map_ext. auto. }
  rewrite EV. destruct (validate t u) as [t0|]; [|discriminate]. simpl in *. rewrite process_scale by auto.
  destruct (process_table t0 d q) as [t1|]; [|discriminate]. simpl in *. inversion H; subst. eexists. split; reflexivity.
Qed.
Theorem C29_reprocess : forall p d q p', pb_process p d q = Ok p' ->
  trapz (pb_table p') = 1 /\ pb_delta p' = d /\ pb_loaded p' = pb_loaded p.
Proof.
  intros p d q p' H. unfold pb_process in H. destruct (process_table (pb_loaded p) d q) eqn:E; [|discriminate].
  simpl in H. inversion H; subst; simpl. destruct (process_inv _ _ _ _ E) as (t1 & t2 & _ & _ & E3).
  split; auto. eapply normalize_integral; eauto.
Qed.
(** Construction succeeds for every physical table with two rows and some transmission (no regridding,
    no trimming). *)
Theorem C29_defined : forall t s f, physical t -> increasing (xs t) -> (2 <= length t)%nat ->
  Exists (fun p => 0 < snd p) t -> exists p, pb_make t s f None None Angstrom = Ok p.
Proof.
  intros t s f HP HI HL HE. unfold pb_make, validate.
  assert (E : existsb (fun d => Rltb d 0) (diffs (xs t)) = false /\ existsb (fun d => Reqb d 0) (diffs (xs t)) = false).
  { now apply increasing_diffs. }
  destruct E as [-> ->]. simpl. unfold process_table. simpl.
  destruct (normalize_defined t HI HP HL HE) as (t' & ->). simpl. eauto.
Qed.
Example C29_applies : exists p, pb_make [(100, 1); (200, 3); (400, 0)] "LSST" "r" None None Angstrom = Ok p /\
  trapz (pb_table p) = 1 /\ Forall (fun r => 0 <= snd r) (pb_table p).
Proof.
  assert (HP : physical [(100, 1); (200, 3); (400, 0)]) by (repeat constructor; simpl; lra).
  destruct (C29_defined [(100, 1); (200, 3); (400, 0)] "LSST" "r") as (p & E); auto.
  - simpl. lra.
  - simpl. lia.
  - left. simpl. lra.
  - exists p. split; auto. split; [eapply C29_unit_integral; eauto|eapply C29_nonnegative; eauto].
Qed.

(** ** C65: validation of the input table *)
Theorem C65_accepted_tables_increase : forall t s f d q u p, pb_make t s f d q u = Ok p ->
  increasing (xs t) /\ increasing (pb_waves p) /\ (2 <= length (pb_table p))%nat.
Proof.
  intros t s f d q u p H. destruct (make_inv _ _ _ _ _ _ _ H) as (t0 & V & P & _).
  destruct (validate_inv _ _ _ V) as (HI & HI0 & _). split; auto. apply (process_increasing t0 d q); auto.
Qed.
Theorem C65_unsorted_rejected : forall t s f d q u i a b, nth_error (xs t) i = Some a -> nth_error (xs t) (S i) = Some b ->
  b < a -> pb_make t s f d q u = Err ValueError.
Proof.
  intros t s f d q u i a b H1 H2 HL. unfold pb_make, validate.
  assert (E : existsb (fun d => Rltb d 0) (diffs (xs t)) = true).
  { revert i H1 H2. induction (xs t) as [|x [|y l] IH]; intros i H1 H2; [destruct i; discriminate| |].
    { destruct i as [|[|i]]; simpl in H2; discriminate. }
    change (diffs (x :: y :: l)) with (y - x :: diffs (y :: l)). simpl existsb. apply orb_true_iff.
    destruct i as [|i].
    - left. simpl in H1, H2. inversion H1; inversion H2; subst. apply Rltb_true. lra.
    - right. eapply IH; eauto. }
  now rewrite E.
Qed.
(** The nanometre option multiplies the wavelengths by ten. *)
Theorem C65_nanometres : forall t s f q p, pb_make t s f None q Nm = Ok p ->
  exists p', pb_make (map (fun r => (fst r * 10, snd r)) t) s f None q Angstrom = Ok p' /\ pb_table p' = pb_table p.
Proof.
  intros t s f q p H. unfold pb_make in *. destruct (validate t Nm) as [t0|] eqn:V; [|discriminate].
  destruct (validate_inv _ _ _ V) as (HI & HI0 & _). unfold validate in V.
  destruct (existsb _ _); [discriminate|]. destruct (existsb _ _); [discriminate|]. inversion V as [V']. rewrite V'.
  assert (EV : validate t0 Angstrom = Ok t0).
  { unfold validate. assert (E : existsb (fun d => Rltb d 0) (diffs (xs t0)) = false /\ existsb (fun d => Reqb d 0) (diffs (xs t0)) = false).
    { now apply increasing_diffs. }
    now destruct E as [-> ->]. }
  rewrite EV. simpl in *. destruct (process_table t0 None q); [|discriminate]. simpl in *. inversion H; subst.
  eexists; split; reflexivity.
Qed.
(** Finding: duplicate wavelengths, which the code announces to average, raise TypeError. *)
Theorem C65_duplicates_averaged_refuted : exists t,
  (forall s f d q u, u <> BadUnits -> pb_make t s f d q u = Err TypeError) /\
  nondecreasing (xs t) /\ physical t.
Proof.
  exists [(100, 1); (200, 1); (200, 3); (300, 1)]. split; [|split].
  - intros s f d q u _. unfold pb_make, validate. simpl.
    replace (Rltb (200 - 100) 0) with false by (symmetry; apply Rltb_false; lra).
    replace (Rltb (200 - 200) 0) with false by (symmetry; apply Rltb_false; lra).
    replace (Rltb (300 - 200) 0) with false by (symmetry; apply Rltb_false; lra). simpl.
    replace (Reqb (200 - 200) 0) with true by (symmetry; apply Reqb_true; lra). rewrite orb_true_r. reflexivity.
  - simpl. lra.
  - repeat constructor; simpl; lra.
Qed.

(** ** C30 *)
Lemma combine_map_prod : forall c (t : curve), map (fun a => fst a * snd a) (combine (repeat c (length t)) (ys t)) = map (fun y => c * y) (ys t).
Proof. induction t as [|[x y] t IH]; simpl; auto. f_equal. exact IH. Qed.
Lemma combine_xs_scale : forall c (t : curve), combine (xs t) (map (fun y => c * y) (ys t)) = yscale c t.
Proof. induction t as [|[x y] t IH]; simpl; auto. f_equal. exact IH. Qed.
(** The sum formula for equally spaced grids. *)
Definition halves (l : list R) : R := Rsum l - 1 / 2 * (hd 0 l + last l 0).
Lemma halves_cons : forall a b l, halves (a :: b :: l) = (a + b) / 2 + halves (b :: l).
Proof.
  intros. unfold halves. change (last (a :: b :: l) 0) with (last (b :: l) 0). simpl Rsum. simpl hd. lra.
Qed.
Lemma trapz_uniform : forall t st, Forall (fun d => d = st) (diffs (xs t)) -> trapz t = halves (ys t) * st.
Proof.
  induction t as [|[x1 y1] [|[x2 y2] t] IH]; intros st H.
  - unfold halves; simpl. lra.
  - unfold halves; simpl. lra.
  - rewrite trapz_cons. change (ys ((x1, y1) :: (x2, y2) :: t)) with (y1 :: y2 :: ys t). rewrite halves_cons.
    change (diffs (xs ((x1, y1) :: (x2, y2) :: t))) with (x2 - x1 :: diffs (xs ((x2, y2) :: t))) in H.
    inversion H as [|? ? H1 H2]; subst. rewrite (IH _ H2). simpl fst; simpl snd.
    change (ys ((x2, y2) :: t)) with (y2 :: ys t). lra.
Qed.
Lemma halves_scale : forall c l, halves (map (fun y => c * y) l) = c * halves l.
Proof.
  intros. unfold halves. rewrite Rsum_scale.
  assert (E : last (map (fun y => c * y) l) 0 = c * last l 0).
  { destruct l as [|a l]; [simpl; lra|]. apply last_map. congruence. }
  rewrite E. destruct l; simpl; lra.
Qed.
Lemma flat_row : forall (phi : table) d c,
  row_bandflux phi d (repeat c (length phi)) =
  match d with Some d => c * halves (ys phi) * d | None => c * trapz phi end.
Proof.
  intros phi [d|] c; unfold row_bandflux; rewrite combine_map_prod; cbv zeta.
  - fold (halves (map (fun y => c * y) (ys phi))). rewrite halves_scale. lra.
  - rewrite combine_xs_scale. apply trapz_scale.
Qed.
(** A matrix of equal rows [repeat c]: one band flux per time. *)
Definition flat_matrix (p : passband) (c : R) (times : nat) : list (list R) := repeat (repeat c (length (pb_waves p))) times.

Lemma bandflux_flat_ok : forall p c n, (1 <= n)%nat -> (1 <= length (pb_table p))%nat ->
  fluxes_to_bandflux p (flat_matrix p c n) = Ok (repeat (row_bandflux (pb_table p) (pb_delta p) (repeat c (length (pb_table p)))) n).
Proof.
  intros p c n Hn HL. unfold fluxes_to_bandflux, flat_matrix.
  assert (EW : length (pb_waves p) = length (pb_table p)) by (unfold pb_waves, xs; apply map_length). rewrite EW.
  destruct n; [lia|]. cbn [repeat]. rewrite repeat_length.
  replace (length (pb_table p) =? 0)%nat with false by (symmetry; apply Nat.eqb_neq; lia).
  rewrite Nat.eqb_refl. cbn [negb]. f_equal. cbn [map]. f_equal. clear. induction n; simpl; congruence.
Qed.

(** On the passband's own (non-uniform) grid, or on a grid whose steps are exactly [delta_wave], a
    flat spectrum has its own value as band flux. *)
Theorem C30_flat_partial : forall t s f d q u p c n, pb_make t s f d q u = Ok p -> (1 <= n)%nat ->
  (d = None \/ exists st, d = Some st /\ Forall (fun x => x = st) (diffs (pb_waves p))) ->
  fluxes_to_bandflux p (flat_matrix p c n) = Ok (repeat c n).
Proof.
  intros t s f d q u p c n H Hn HD. pose proof (C29_unit_integral _ _ _ _ _ _ _ H) as HU.
  destruct (C65_accepted_tables_increase _ _ _ _ _ _ _ H) as (_ & _ & HL).
  destruct (make_inv _ _ _ _ _ _ _ H) as (t0 & _ & _ & ED & _).
  rewrite bandflux_flat_ok by lia. rewrite flat_row, ED. destruct HD as [-> | (st & -> & HD)].
  - rewrite HU. now rewrite Rmult_1_r.
  - pose proof (trapz_uniform _ _ HD) as Q. rewrite Rmult_assoc, <- Q, HU. now rewrite Rmult_1_r.
Qed.
(** In general, on a uniform grid of step [st] the result is off by the factor
    [delta_wave / st]. *)
Theorem C30_flat_uniform : forall t s f dw q u p c n st, pb_make t s f (Some dw) q u = Ok p -> (1 <= n)%nat ->
  0 < st -> Forall (fun x => x = st) (diffs (pb_waves p)) ->
  fluxes_to_bandflux p (flat_matrix p c n) = Ok (repeat (c * (dw / st)) n).
Proof.
  intros t s f dw q u p c n st H Hn Hst HD. pose proof (C29_unit_integral _ _ _ _ _ _ _ H) as HU.
  destruct (C65_accepted_tables_increase _ _ _ _ _ _ _ H) as (_ & _ & HL).
  destruct (make_inv _ _ _ _ _ _ _ H) as (t0 & _ & _ & ED & _).
  rewrite bandflux_flat_ok by lia. rewrite flat_row, ED. do 2 f_equal.
  pose proof (trapz_uniform _ _ HD) as Q. rewrite HU in Q.
  replace (halves (ys (pb_table p))) with (/ st); [field; lra|]. apply Rmult_eq_reg_r with st; [|lra].
  rewrite Rinv_l by lra. exact Q.
Qed.
(** Grids that numpy takes as already being on the step ([np.allclose]): if every step is within [e]
    of [delta_wave], the relative error of the flat band flux is at most [e / delta_wave]. *)
Lemma halves_dev : forall t dw e, Forall (fun d => Rabs (d - dw) <= e) (diffs (xs t)) ->
  Forall (fun p => 0 <= snd p) t -> Rabs (trapz t - halves (ys t) * dw) <= halves (ys t) * e /\ 0 <= halves (ys t).
Proof.
  induction t as [|[x1 y1] [|[x2 y2] t] IH]; intros dw e H HF.
  - unfold halves; simpl. replace (0 - _) with 0 by lra. rewrite Rabs_R0. lra.
  - unfold halves; simpl. match goal with |- Rabs ?x <= _ /\ _ => replace x with 0 by lra end. rewrite Rabs_R0. lra.
  - rewrite trapz_cons. change (ys ((x1, y1) :: (x2, y2) :: t)) with (y1 :: y2 :: ys t). rewrite halves_cons.
    change (diffs (xs ((x1, y1) :: (x2, y2) :: t))) with (x2 - x1 :: diffs (xs ((x2, y2) :: t))) in H.
    inversion H as [|? ? H1 H2]; subst. inversion HF as [|? ? F1 F2]; subst. destruct (IH dw e H2 F2) as [A B].
    inversion F2 as [|? ? F3 F4]; subst. simpl in F1, F3. simpl fst; simpl snd.
    change (ys ((x2, y2) :: t)) with (y2 :: ys t) in *. split; [|lra].
    set (h := halves (y2 :: ys t)) in *. set (tz := trapz ((x2, y2) :: t)) in *.
    replace ((x2 - x1) * (y1 + y2) / 2 + tz - ((y1 + y2) / 2 + h) * dw)
      with ((y1 + y2) / 2 * (x2 - x1 - dw) + (tz - h * dw)) by field.
    eapply Rle_trans; [apply Rabs_triang|]. rewrite Rabs_mult, (Rabs_right ((y1 + y2) / 2)) by lra.
    assert ((y1 + y2) / 2 * Rabs (x2 - x1 - dw) <= (y1 + y2) / 2 * e) by (apply Rmult_le_compat_l; lra). lra.
Qed.
Theorem C30_flat_close : forall t s f dw q u p n e F, physical t -> pb_make t s f (Some dw) q u = Ok p -> 0 < dw ->
  Forall (fun x => Rabs (x - dw) <= e) (diffs (pb_waves p)) -> (1 <= n)%nat ->
  fluxes_to_bandflux p (flat_matrix p 1 n) = Ok (repeat F n) -> Rabs (F - 1) <= e / dw * F.
Proof.
  intros t s f dw q u p n e F HP H Hd HD Hn HB. pose proof (C29_unit_integral _ _ _ _ _ _ _ H) as HU.
  pose proof (C29_nonnegative _ _ _ _ _ _ _ HP H) as HNN.
  destruct (C65_accepted_tables_increase _ _ _ _ _ _ _ H) as (_ & _ & HL).
  destruct (make_inv _ _ _ _ _ _ _ H) as (t0 & _ & _ & ED & _).
  rewrite bandflux_flat_ok in HB by lia. rewrite flat_row, ED in HB. injection HB as HB.
  destruct n; [lia|]. cbn [repeat] in HB. injection HB as HB _.
  destruct (halves_dev _ _ _ HD HNN) as [A _]. rewrite HU in A. rewrite Rabs_minus_sym.
  replace (halves (ys (pb_table p)) * dw) with F in A by (rewrite <- HB; ring).
  replace (e / dw * F) with (halves (ys (pb_table p)) * e); auto.
  rewrite <- HB. field. lra.
Qed.
(** After regridding, the steps are [range / int(range / delta_wave)], in general larger than
    [delta_wave]: the flat band flux is then too small. *)
Lemma linspace_S : forall lo hi k, linspace lo hi (S (S k)) = map (fun i => lo + INR i * ((hi - lo) / INR (S k))) (seq 0 (S (S k))).
Proof. reflexivity. Qed.
Lemma diffs_linear : forall (a st : R) n s, Forall (fun d => d = st) (diffs (map (fun i => a + INR i * st) (seq s n))).
Proof.
  induction n as [|[|n] IH]; intros s; try constructor.
  - simpl seq in *. cbn [map]. change (INR (S s)) with (INR (S s)). rewrite S_INR. ring.
  - apply (IH (S s)).
Qed.
Lemma linspace_diffs : forall lo hi k, Forall (fun d => d = (hi - lo) / INR (S k)) (diffs (linspace lo hi (S (S k)))).
Proof. intros. rewrite linspace_S. apply diffs_linear. Qed.

Lemma floor_12_5 : floor_nat ((112 - 100) / 5) = 2%nat.
Proof.
  unfold floor_nat. replace (Int_part ((112 - 100) / 5)) with 2%Z; [reflexivity|].
  unfold Int_part. assert (E : up ((112 - 100) / 5) = 3%Z) by (symmetry; apply tech_up; simpl; lra). rewrite E. reflexivity.
Qed.
Definition coarse : table := [(100, 1); (107, 1); (112, 1)].
Lemma coarse_interp : interpolate_table coarse (Some 5) = Ok [(100, 1); (106, 1); (112, 1)].
Proof.
  unfold interpolate_table. simpl forallb.
  assert (E : isclose (107 - 100) 5 = false).
  { unfold isclose. apply Rleb_false. rewrite (Rabs_right (107 - 100 - 5)) by lra. rewrite (Rabs_right 5) by lra. simpl. lra. }
  rewrite E. cbn [andb]. replace (Rleb 5 0) with false by (symmetry; apply Rleb_false; lra).
  unfold last_x, coarse. simpl last. simpl fst. rewrite floor_12_5. simpl Nat.leb.
  assert (L : linspace 100 112 (2 + 1) = [100; 106; 112]).
  { unfold linspace. simpl. f_equal; [lra|]. f_equal; [lra|]. f_equal. lra. }
  rewrite L. simpl map. f_equal.
  assert (I1 : forall x, 100 <= x <= 112 -> interp [(100, 1); (107, 1); (112, 1)] 0 0 x = 1).
  { intros x Hx. unfold interp, last_x. simpl.
    replace (Rltb x 100) with false by (symmetry; apply Rltb_false; lra).
    replace (Rltb 112 x) with false by (symmetry; apply Rltb_false; lra).
    unfold lerp; simpl. destruct (Rleb x 107); [lra|]. destruct (Rleb x 112); lra. }
  repeat (f_equal; try (apply I1; lra)).
Qed.
Theorem C30_flat_refuted : exists t p,
  physical t /\ pb_make t "LSST" "r" (Some 5) None Angstrom = Ok p /\
  fluxes_to_bandflux p (flat_matrix p 1 1) = Ok [5 / 6].
Proof.
  exists coarse.
  assert (V : validate coarse Angstrom = Ok coarse).
  { unfold validate, coarse. simpl. repeat match goal with |- context[Rltb ?a 0] => replace (Rltb a 0) with false by (symmetry; apply Rltb_false; lra) end.
    repeat match goal with |- context[Reqb ?a 0] => replace (Reqb a 0) with false by (symmetry; apply Reqb_false; lra) end. reflexivity. }
  assert (HP : physical coarse) by (repeat constructor; simpl; lra).
  destruct (normalize_defined [(100, 1); (106, 1); (112, 1)]) as (t' & E).
  - simpl. lra.
  - repeat constructor; simpl; lra.
  - simpl; lia.
  - left. simpl. lra.
  - assert (M : pb_make coarse "LSST" "r" (Some 5) None Angstrom = Ok (mkPB "LSST" "r" coarse t' (Some 5))).
    { unfold pb_make. rewrite V. cbn [bind]. unfold process_table. rewrite coarse_interp. cbn [trim_table bind].
      rewrite E. reflexivity. }
    eexists. split; auto. split; [exact M|].
    rewrite (C30_flat_uniform _ _ _ _ _ _ _ 1 1 6 M); [|lia|lra|].
    + simpl repeat. do 2 f_equal. lra.
    + unfold pb_waves. simpl pb_table. rewrite (normalize_xs _ _ E). simpl. repeat constructor; lra.
Qed.

(** Band flux is linear in the flux densities. *)
Definition rows_comb (a b : R) (r1 r2 : list R) : list R := map (fun p => a * fst p + b * snd p) (combine r1 r2).
Theorem C30_linear : forall (phi : table) d a b r1 r2, length r1 = length phi -> length r2 = length phi ->
  row_bandflux phi d (rows_comb a b r1 r2) = a * row_bandflux phi d r1 + b * row_bandflux phi d r2.
Proof.
  intros phi d a b r1 r2 H1 H2. unfold row_bandflux.
  assert (M : forall f1 f2 : list R, length f1 = length f2 ->
     halves (rows_comb a b f1 f2) = a * halves f1 + b * halves f2).
  { induction f1 as [|x1 f1 IH]; intros [|x2 f2] HL; try discriminate; [unfold halves; simpl; lra|].
    destruct f1 as [|x1' f1], f2 as [|x2' f2]; try discriminate; [unfold halves; simpl; lra|].
    change (rows_comb a b (x1 :: x1' :: f1) (x2 :: x2' :: f2))
      with (a * x1 + b * x2 :: a * x1' + b * x2' :: rows_comb a b f1 f2).
    rewrite !halves_cons. change (a * x1' + b * x2' :: rows_comb a b f1 f2) with (rows_comb a b (x1' :: f1) (x2' :: f2)).
    rewrite IH by (simpl in *; lia). lra. }
  assert (P : map (fun q => fst q * snd q) (combine (rows_comb a b r1 r2) (ys phi))
     = rows_comb a b (map (fun q => fst q * snd q) (combine r1 (ys phi))) (map (fun q => fst q * snd q) (combine r2 (ys phi)))).
  { revert r1 r2 H1 H2. induction phi as [|[x y] phi IH]; intros [|u r1] [|v r2] H1 H2; try discriminate; auto.
    unfold rows_comb in *. simpl. f_equal; [ring|]. apply IH; simpl in *; lia. }
  assert (LEN : forall r : list R, length r = length phi -> length (map (fun q => fst q * snd q) (combine r (ys phi))) = length phi).
  { intros r Hr. rewrite map_length, combine_length. unfold ys. rewrite map_length. lia. }
  rewrite P. destruct d as [d|]; cbv zeta.
  - fold (halves (rows_comb a b (map (fun q => fst q * snd q) (combine r1 (ys phi))) (map (fun q => fst q * snd q) (combine r2 (ys phi))))).
    rewrite M by (rewrite !LEN; auto). unfold halves; ring.
  - set (i1 := map (fun q => fst q * snd q) (combine r1 (ys phi))) in *.
    set (i2 := map (fun q => fst q * snd q) (combine r2 (ys phi))) in *.
    assert (L1 : length i1 = length phi) by (apply LEN; auto). assert (L2 : length i2 = length phi) by (apply LEN; auto).
    clearbody i1 i2. clear - L1 L2. revert i1 i2 L1 L2. induction phi as [|[x y] phi IH]; intros [|u i1] [|v i2] L1 L2; try discriminate; simpl; try lra.
    destruct phi as [|[x' y'] phi], i1 as [|u' i1], i2 as [|v' i2]; try discriminate; simpl; try lra.
    specialize (IH (u' :: i1) (v' :: i2)). simpl in IH. simpl in L1, L2. rewrite IH by lia. lra.
Qed.
(** ... and monotone, for a physical passband. *)
Theorem C30_monotone : forall t s f d q u p r1 r2, physical t -> pb_make t s f d q u = Ok p ->
  (forall dw, d = Some dw -> 0 < dw) ->
  length r1 = length (pb_table p) -> Forall2 Rle r1 r2 ->
  row_bandflux (pb_table p) d r1 <= row_bandflux (pb_table p) d r2.
Proof.
  intros t s f d q u p r1 r2 HP H Hd HL HF. pose proof (C29_nonnegative _ _ _ _ _ _ _ HP H) as HNN.
  destruct (C65_accepted_tables_increase _ _ _ _ _ _ _ H) as (_ & HI & _). unfold pb_waves in HI.
  set (phi := pb_table p) in *. clearbody phi. clear H. unfold row_bandflux.
  assert (FI : Forall2 Rle (map (fun q => fst q * snd q) (combine r1 (ys phi))) (map (fun q => fst q * snd q) (combine r2 (ys phi)))).
  { clear HI. revert phi HL HNN. induction HF as [|a b r1 r2 Hab HF IH]; intros [|[x y] phi] HL HNN; try discriminate; simpl; constructor.
    - inversion HNN; subst. simpl in H1. apply Rmult_le_compat_r; auto.
    - inversion HNN; subst. apply IH; auto. }
  assert (LI : length (map (fun q => fst q * snd q) (combine r1 (ys phi))) = length phi).
  { rewrite map_length, combine_length. unfold ys. rewrite map_length. lia. }
  set (i1 := map _ (combine r1 _)) in *. set (i2 := map _ (combine r2 _)) in *. clearbody i1 i2.
  destruct d as [dw|]; cbv zeta.
  - fold (halves i1). fold (halves i2). apply Rmult_le_compat_r; [left; apply Hd; auto|].
    clear - FI. induction FI as [|a b l1 l2 Hab FI IH]; [lra|]. inversion FI as [|a' b' l1' l2' Hab' FI']; subst.
    + unfold halves; simpl. lra.
    + rewrite !halves_cons. lra.
  - clear - FI LI HI. revert phi HI LI. induction FI as [|a b l1 l2 Hab FI IH]; intros [|[x y] phi] HI LI; try discriminate; [simpl; lra|].
    inversion FI as [|a' b' l1' l2' Hab' FI']; subst; destruct phi as [|[x' y'] phi]; try discriminate; [simpl; lra|].
    change (xs ((x, y) :: (x', y') :: phi)) with (x :: x' :: xs phi).
    cbn [combine]. rewrite !trapz_cons. cbn [fst snd].
    destruct HI as [H1 H2]. simpl in H1. specialize (IH ((x', y') :: phi) H2). 
    change (xs ((x', y') :: phi)) with (x' :: xs phi) in IH. cbn [combine] in IH.
    assert (trapz ((x', a') :: combine (xs phi) l1') <= trapz ((x', b') :: combine (xs phi) l2')) by (apply IH; simpl in *; lia).
    assert (0 <= (x' - x) * ((b + b') - (a + a'))) by (apply Rmult_le_pos; lra). lra.
Qed.
(** Wrong matrix sizes are refused. *)
Theorem C30_sizes_checked : forall p m,
  (m = [] \/ exists r m', m = r :: m' /\ length r <> length (pb_waves p)) ->
  fluxes_to_bandflux p m = Err ValueError.
Proof.
  intros p m [-> | (r & m' & -> & H)]; auto. unfold fluxes_to_bandflux. destruct (length r =? 0)%nat; auto.
  replace (length (pb_waves p) =? length r)%nat with false; auto. symmetry. apply Nat.eqb_neq. auto.
Qed.

(** ** C31 *)
Lemma firstn_one_more : forall A n (t : list A), firstn n t ++ firstn 1 (skipn n t) = firstn (n + 1) t.
Proof.
  induction n as [|n IH]; intros [|x t]; auto.
  change (S n + 1)%nat with (S (n + 1)). cbn [firstn skipn app]. f_equal. apply IH.
Qed.
Lemma skipn_add : forall A (l : list A) a b, skipn a (skipn b l) = skipn (b + a) l.
Proof. intros A l a b. revert l. induction b as [|b IH]; intros [|x l]; auto. - now rewrite !skipn_nil. - simpl. apply IH. Qed.
Theorem C31_no_trim : forall t, trim_table t None = Ok t /\ trim_table t (Some 0) = Ok t.
Proof. intros. split; auto. simpl. replace (Reqb 0 0) with true; auto. symmetry. now apply Reqb_true. Qed.
Theorem C31_bad_quantile : forall t q, q < 0 \/ 1 / 2 <= q -> trim_table t (Some q) = Err ValueError.
Proof.
  intros t q H. simpl. replace (Reqb q 0) with false by (symmetry; apply Reqb_false; lra).
  destruct (Rltb q 0) eqn:E; auto. apply Rltb_false in E. replace (Rleb (1 / 2) q) with true; auto.
  symmetry. apply Rleb_true. lra.
Qed.
(** The kept rows are consecutive rows of the table; the area removed at the lower end is at most
    the quantile, and so is the area from the first removed row at the upper end on. *)
Theorem C31_contiguous_partial : forall t q, increasing (xs t) -> Forall (fun p => 0 <= snd p) t -> 0 < trapz t ->
  0 < q < 1 / 2 ->
  exists a kept b, trim_table t (Some q) = Ok kept /\ t = a ++ kept ++ b /\ (1 <= length kept)%nat /\
    trapz (a ++ firstn 1 kept) <= q * trapz t /\ trapz b <= q * trapz t.
Proof.
  intros t q HI HF HT Hq.
  assert (HL : (2 <= length t)%nat).
  { destruct t as [|[x y] [|p2 t]]; simpl in *; try lra; lia. }
  unfold trim_table. replace (Reqb q 0) with false by (symmetry; apply Reqb_false; lra).
  replace (Rltb q 0) with false by (symmetry; apply Rltb_false; lra).
  replace (Rleb (1 / 2) q) with false by (symmetry; apply Rleb_false; lra). cbn [orb].
  pose proof (cumtrapz_length t) as CL. pose proof (cumtrapz_last t HL) as CE.
  destruct (cumtrapz t) as [|a0 cum0] eqn:EC; [simpl in CL; lia|]. rewrite <- EC in *.
  rewrite CE. replace (Reqb (trapz t) 0) with false by (symmetry; apply Reqb_false; lra). cbv zeta.
  pose proof (cum_sorted t HI HF HT) as SO. rewrite CE in SO.
  set (cum := map (fun a => a / trapz t) (cumtrapz t)) in *.
  assert (LC : length cum = (length t - 1)%nat) by (unfold cum; now rewrite map_length).
  assert (NC : forall i, (i + 1 < length t)%nat -> nth_error cum i = Some (trapz (firstn (i + 2) t) / trapz t)).
  { intros i Hi. unfold cum. rewrite nth_error_map, cumtrapz_nth by auto. reflexivity. }
  set (k := ss_right cum q). set (m := ss_left cum (1 - q)).
  assert (KM : (k <= m)%nat).
  { destruct (Nat.le_gt_cases k m) as [|G]; auto. exfalso. pose proof (ss_right_le cum q) as KL. fold k in KL.
    destruct (nth_error cum m) as [v|] eqn:E; [|apply nth_error_None in E; lia].
    assert (v <= q) by (apply (ss_right_spec cum q m v SO E); exact G).
    assert (~ v < 1 - q) by (intros X; apply (ss_left_spec cum (1 - q) m v SO E) in X; fold m in X; lia). lra. }
  assert (ML : (m < length cum)%nat).
  { destruct (nth_error cum (length cum - 1)) as [v|] eqn:E; [|apply nth_error_None in E; lia].
    assert (EV := E). rewrite NC in EV by lia. inversion EV as [EV']. rewrite firstn_all2 in EV' by lia.
    assert (v = 1) by (rewrite <- EV'; field; lra).
    destruct (Nat.le_gt_cases (length cum) m) as [G|]; [|lia]. exfalso.
    assert (v < 1 - q) by (apply (ss_left_spec cum (1 - q) _ v SO E); fold m; lia). lra. }
  set (lo := Nat.max (k - 1) 0). assert (LO : (lo = k - 1)%nat) by (unfold lo; lia).
  exists (firstn lo t), (firstn (m + 1 - lo) (skipn lo t)), (skipn (m + 1) t).
  split; auto. split; [|split; [|split]].
  - rewrite <- (firstn_skipn lo t) at 1. f_equal. rewrite <- (firstn_skipn (m + 1 - lo) (skipn lo t)) at 1. f_equal.
    rewrite skipn_add. f_equal. lia.
  - rewrite firstn_length, skipn_length. lia.
  - rewrite firstn_firstn. replace (Nat.min 1 (m + 1 - lo)) with 1%nat by lia.
    assert (EA : firstn lo t ++ firstn 1 (skipn lo t) = firstn (lo + 1) t).
    { apply firstn_one_more. }
    rewrite EA. destruct lo as [|l] eqn:ELO.
    + destruct t as [|[x y] [|]]; simpl; try lra; simpl in HT; nra.
    + assert (HK : (l < k)%nat) by lia. pose proof (ss_right_le cum q) as KL. fold k in KL.
      pose proof (NC l ltac:(lia)) as E. apply (ss_right_spec cum q l _ SO E) in HK.
      replace (S l + 1)%nat with (l + 2)%nat by lia.
      apply Rmult_le_reg_r with (/ trapz t); [now apply Rinv_0_lt_compat|]. unfold Rdiv in HK. rewrite (Rmult_assoc q), Rinv_r by lra. lra.
  - destruct (Nat.le_gt_cases (length t) (m + 1)) as [G|G].
    + rewrite skipn_all2 by auto. simpl. nra.
    + pose proof (NC m G) as E.
      assert (B : ~ (trapz (firstn (m + 2) t) / trapz t < 1 - q)).
      { intros X. apply (ss_left_spec cum (1 - q) m _ SO E) in X. fold m in X. lia. }
      pose proof (trapz_split t (m + 1)) as Q. replace (m + 1 + 1)%nat with (m + 2)%nat in Q by lia.
      assert (B2 : 1 - q <= trapz (firstn (m + 2) t) / trapz t) by lra.
      apply Rmult_le_compat_r with (r := trapz t) in B2; [|lra].
      unfold Rdiv in B2. rewrite Rmult_assoc, Rinv_l in B2 by lra. lra.
Qed.
(** The claim that at most the quantile is removed fails at the upper end: the interval between the last
    kept and the first removed row is lost too. *)
Theorem C31_upper_tail_refuted : exists t q kept b last_kept,
  increasing (xs t) /\ Forall (fun p => 0 <= snd p) t /\ 0 < q < 1 / 2 /\
  trim_table t (Some q) = Ok kept /\ t = kept ++ b /\ nth_error kept (length kept - 1) = Some last_kept /\
  trapz (last_kept :: b) = 1 / 2 * trapz t /\ q * trapz t < trapz (last_kept :: b).
Proof.
  exists [(1, 1); (2, 1); (3, 1)], (1 / 1000), [(1, 1); (2, 1)], [(3, 1)], (2, 1).
  split; [simpl; lra|]. split; [repeat constructor; simpl; lra|]. split; [lra|]. split; [|repeat split; simpl; lra].
  unfold trim_table. replace (Reqb (1 / 1000) 0) with false by (symmetry; apply Reqb_false; lra).
  replace (Rltb (1 / 1000) 0) with false by (symmetry; apply Rltb_false; lra).
  replace (Rleb (1 / 2) (1 / 1000)) with false by (symmetry; apply Rleb_false; lra). cbn [orb].
  simpl cumtrapz. simpl last. unfold ss_right, ss_left. cbv zeta. cbn [cumtrapz cumtrapz_from map last filter].
  replace (Reqb (0 + (2 - 1) * (1 + 1) / 2 + (3 - 2) * (1 + 1) / 2) 0) with false by (symmetry; apply Reqb_false; lra).
  set (e1 := (0 + (2 - 1) * (1 + 1) / 2) / _). set (e2 := (0 + (2 - 1) * (1 + 1) / 2 + (3 - 2) * (1 + 1) / 2) / _).
  assert (E1 : e1 = 1 / 2) by (unfold e1; field). assert (E2 : e2 = 1) by (unfold e2; field). rewrite E1, E2.
  replace (Rleb (1 / 2) (1 / 1000)) with false by (symmetry; apply Rleb_false; lra).
  replace (Rleb 1 (1 / 1000)) with false by (symmetry; apply Rleb_false; lra).
  replace (Rltb (1 / 2) (1 - 1 / 1000)) with true by (symmetry; apply Rltb_true; lra).
  replace (Rltb 1 (1 - 1 / 1000)) with false by (symmetry; apply Rltb_false; lra). reflexivity.
Qed.
(** As a consequence every two-row table is cut down to one row and refused by the constructor's
    default arguments. *)
Theorem C31_two_rows_refuted : forall x1 y1 x2 y2 s f, 0 < x1 < x2 -> 0 <= y1 -> 0 <= y2 -> 0 < y1 + y2 ->
  pb_make [(x1, y1); (x2, y2)] s f None (Some (1 / 1000)) Angstrom = Err ValueError.
Proof.
  intros x1 y1 x2 y2 s f Hx H1 H2 H12. unfold pb_make, validate. simpl xs. simpl diffs. simpl existsb.
  replace (Rltb (x2 - x1) 0) with false by (symmetry; apply Rltb_false; lra).
  replace (Reqb (x2 - x1) 0) with false by (symmetry; apply Reqb_false; lra). cbn [orb bind].
  unfold process_table. cbn [interpolate_table bind].
  assert (T : trim_table [(x1, y1); (x2, y2)] (Some (1 / 1000)) = Ok [(x1, y1)]).
  { unfold trim_table. replace (Reqb (1 / 1000) 0) with false by (symmetry; apply Reqb_false; lra).
    replace (Rltb (1 / 1000) 0) with false by (symmetry; apply Rltb_false; lra).
    replace (Rleb (1 / 2) (1 / 1000)) with false by (symmetry; apply Rleb_false; lra). cbn [orb].
    cbn [cumtrapz cumtrapz_from last map]. cbv zeta.
    assert (P : 0 < (x2 - x1) * (y1 + y2)) by (apply Rmult_lt_0_compat; lra).
    set (v := 0 + (x2 - x1) * (y1 + y2) / 2). assert (V : 0 < v) by (unfold v; lra).
    replace (Reqb v 0) with false by (symmetry; apply Reqb_false; lra).
    replace (v / v) with 1 by (field; lra). unfold ss_right, ss_left. cbn [filter].
    replace (Rleb 1 (1 / 1000)) with false by (symmetry; apply Rleb_false; lra).
    replace (Rltb 1 (1 - 1 / 1000)) with false by (symmetry; apply Rltb_false; lra). reflexivity. }
  rewrite T. reflexivity.
Qed.
Example C31_applies : exists a kept b, trim_table [(1, 0); (2, 4); (3, 4); (4, 0)] (Some (1 / 4)) = Ok kept /\
  [(1, 0); (2, 4); (3, 4); (4, 0)] = a ++ kept ++ b /\ (1 <= length kept)%nat.
Proof.
  destruct (C31_contiguous_partial [(1, 0); (2, 4); (3, 4); (4, 0)] (1 / 4)) as (a & kept & b & H1 & H2 & H3 & _).
  - simpl; lra.
  - repeat constructor; simpl; lra.
  - simpl; lra.
  - lra.
  - eauto 10.
Qed.
