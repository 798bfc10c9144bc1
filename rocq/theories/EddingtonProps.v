(** C112: the Eddington ratio distribution (src/lightcurvelynx/astro_utils/agn_utils.py 11-63). *)
From Coq Require Import Reals String Ascii List Bool Arith ZArith Lia Lra.
From Verif Require Import Base BaseFacts RealBase DownloadModel PassbandFileModel EddingtonModel.
Import ListNotations.
Open Scope string_scope.
Open Scope list_scope.
Open Scope nat_scope.

(** ** Specification *)
(** The word in any capitalisation. *)
Definition capital (c : ascii) : ascii := ascii_of_nat (nat_of_ascii c - 32).
Fixpoint spelled (s w : string) : Prop :=
  match s, w with
  | EmptyString, EmptyString => True
  | String c s', String d w' => (c = d \/ c = capital d) /\ spelled s' w'
  | _, _ => False
  end.
(** xi ((x / br)^d1 + (x / br)^d2) *)
Definition double_power_law (xi br d1 d2 x : R) : R := (xi * (Rpower (x / br) d1 + Rpower (x / br) d2))%R.
Inductive type := Red | Blue.
Definition word (t : type) : string := match t with Red => "red" | Blue => "blue" end.
Definition law (t : type) (z1 z2 z3 x : R) : R :=
  match t with
  | Red => double_power_law (Rpower 10 (-2.13)) (Rpower 10 (-2.81 + 0.18 * z1)) (-0.29 + 0.02 * z2) (1.22 + 0.16 * z3) x
  | Blue => double_power_law (Rpower 10 (-1.65)) (Rpower 10 (-1.84 + 0.335 * z1)) (-0.229 + 0.02 * z2) (2.53 + 0.53 * z3) x
  end.
Definition norm_spec {G} (norm_draws : nat -> G -> list R * G) : Prop := forall n g, length (fst (norm_draws n g)) = n.

(** ** Proofs *)
Definition lower_letter (c : ascii) : bool := ((97 <=? nat_of_ascii c) && (nat_of_ascii c <=? 122))%bool.
Lemma lower_char : forall c d, lower_letter d = true -> (lower_ascii c = d <-> c = d \/ c = capital d).
Proof.
  intros c d HD. apply andb_prop in HD. destruct HD as [D1 D2]. apply Nat.leb_le in D1, D2. unfold lower_ascii, capital.
  assert (BC := nat_ascii_bounded c). assert (BD := nat_ascii_bounded d).
  assert (EC := ascii_nat_embedding c). assert (ED := ascii_nat_embedding d).
  assert (INJ : forall n m, n < 256 -> m < 256 -> ascii_of_nat n = ascii_of_nat m -> n = m).
  { intros n m Hn Hm E. rewrite <- (nat_ascii_embedding n), <- (nat_ascii_embedding m) by auto. now rewrite E. }
  cbv zeta. destruct ((65 <=? nat_of_ascii c) && (nat_of_ascii c <=? 90))%bool eqn:E.
  - apply andb_prop in E. destruct E as [E1 E2]. apply Nat.leb_le in E1, E2. split.
    + intros H. right. rewrite <- H, nat_ascii_embedding by lia. replace (nat_of_ascii c + 32 - 32) with (nat_of_ascii c) by lia. auto.
    + intros [->| ->]; [lia|]. rewrite nat_ascii_embedding by lia. replace (nat_of_ascii d - 32 + 32) with (nat_of_ascii d) by lia. auto.
  - split; [auto|]. intros [H|H]; auto. exfalso. rewrite H in E. rewrite nat_ascii_embedding in E by lia. apply andb_false_iff in E. destruct E as [E|E]; apply Nat.leb_gt in E; lia.
Qed.
Fixpoint all_lower (w : string) : bool := match w with EmptyString => true | String c w' => (lower_letter c && all_lower w')%bool end.
Lemma lower_word : forall w s, all_lower w = true -> (lower s = w <-> spelled s w).
Proof.
  induction w as [|d w IH]; intros [|c s] HW; cbn [lower spelled]; try (split; [discriminate|intros []]); [tauto|].
  cbn [all_lower] in HW. apply andb_prop in HW. destruct HW as [H1 H2]. rewrite <- (lower_char c d H1), <- (IH s H2). split; [intros X; injection X; auto|intros [-> ->]; auto].
Qed.
Lemma power_pos : forall x y, (0 < x)%R -> np_power x y = Some (Rpower x y).
Proof. intros. unfold np_power. now replace (Rltb 0 x) with true by (symmetry; now apply Rltb_true). Qed.
Lemma Rpower_pos : forall x y, (0 < Rpower x y)%R.
Proof. intros. apply exp_pos. Qed.
Definition erdf_for (t : type) : erdf :=
  match t with
  | Red => mkErdf (Rpower 10 (- (213 / 100))) (- (281 / 100), 18 / 100) (41 / 100 - 7 / 10, 2 / 100) (122 / 100, 16 / 100)
  | Blue => mkErdf (Rpower 10 (- (165 / 100))) (- (184 / 100), 335 / 1000) (471 / 1000 - 7 / 10, 2 / 100) (253 / 100, 53 / 100)
  end%R.
Lemma erdf_known : forall s t, spelled s (word t) -> erdf_of s = Some (erdf_for t).
Proof.
  intros s t H. apply lower_word in H; [|destruct t; reflexivity]. unfold erdf_of. rewrite H. destruct t; reflexivity.
Qed.
Lemma erdf_unknown : forall s, ~ spelled s "red" -> ~ spelled s "blue" -> erdf_of s = None.
Proof.
  intros s H1 H2. unfold erdf_of. destruct (String.eqb_spec (lower s) "red") as [E|_]; [destruct H1; now apply lower_word|].
  destruct (String.eqb_spec (lower s) "blue") as [E|_]; [destruct H2; now apply lower_word|]. reflexivity.
Qed.
Lemma value_law : forall t edd z1 z2 z3, (0 < edd)%R -> erdf_value (erdf_for t) edd z1 z2 z3 = Some (law t z1 z2 z3 edd).
Proof.
  intros t edd z1 z2 z3 HE. unfold erdf_value. cbv zeta. assert (P : forall y, (0 < edd / Rpower 10 y)%R) by (intros; apply Rdiv_lt_0_compat; auto; apply Rpower_pos).
  rewrite !power_pos by apply P. unfold law, double_power_law. destruct t; cbn [erdf_for e_xi e_br e_d1 e_d2 fst snd]; repeat f_equal; lra.
Qed.
Lemma law_pos : forall t z1 z2 z3 x, (0 < law t z1 z2 z3 x)%R.
Proof.
  intros. unfold law, double_power_law. destruct t; (apply Rmult_lt_0_compat; [apply Rpower_pos|]; apply Rplus_lt_0_compat; apply Rpower_pos).
Qed.
Lemma zip3_at : forall e edd a b c, length a = length b -> length b = length c ->
  length (zip3 e edd a b c) = length a /\
  forall i x y z, nth_error a i = Some x -> nth_error b i = Some y -> nth_error c i = Some z -> nth_error (zip3 e edd a b c) i = Some (erdf_value e edd x y z).
Proof.
  intros e edd. induction a as [|p a IH]; intros [|q b] [|r c] L1 L2; cbn in L1, L2; try lia; cbn [zip3].
  - split; auto. intros [|i]; discriminate.
  - destruct (IH b c) as [I1 I2]; try lia. split; [cbn; lia|]. intros [|i] x y z; cbn; [intros H1 H2 H3; injection H1 as <-; injection H2 as <-; injection H3 as <-; auto|apply I2].
Qed.

(** ** C112 *)
Section C112.
Context {G : Type}.
Variable norm_draws : nat -> G -> list R * G.
Variable entropy : G.
Definition listed (s : samples) : list (option R) := match s with One x => [x] | Many l => l end.
(** As many values as asked for, of the double power law whose break and slopes were drawn; finite and positive. *)
Theorem C112_values : forall edd s t rng num, norm_spec norm_draws -> spelled s (word t) -> (0 < edd)%R -> (0 <= num)%Z ->
  let n := Z.to_nat num in let g := match rng with Some g => g | None => entropy end in
  let d1 := norm_draws n g in let d2 := norm_draws n (snd d1) in let d3 := norm_draws n (snd d2) in
  exists out, eddington norm_draws entropy edd s rng num = (Ok out, snd d3) /\ length (listed out) = n /\ ((exists x, out = One x) <-> num = 1%Z) /\
    forall i, i < n -> exists z1 z2 z3, nth_error (fst d1) i = Some z1 /\ nth_error (fst d2) i = Some z2 /\ nth_error (fst d3) i = Some z3 /\
      nth_error (listed out) i = Some (Some (law t z1 z2 z3 edd)) /\ (0 < law t z1 z2 z3 edd)%R.
Proof.
  intros edd s t rng num NS SP HE HN n g d1 d2 d3. unfold eddington. rewrite (erdf_known s t SP). replace (num <? 0)%Z with false by (symmetry; apply Z.ltb_ge; lia). cbv zeta. fold n. fold g.
  pose proof (NS n g) as L1. pose proof (NS n (snd d1)) as L2. pose proof (NS n (snd d2)) as L3. fold d1 in L1. fold d2 in L2. fold d3 in L3.
  change (norm_draws n g) with d1. destruct d1 as [a g1] eqn:E1. cbn [fst snd] in *. change (norm_draws n g1) with d2. destruct d2 as [b g2] eqn:E2. cbn [fst snd] in *.
  change (norm_draws n g2) with d3. destruct d3 as [c g3] eqn:E3. cbn [fst snd] in *.
  destruct (zip3_at (erdf_for t) edd a b c ltac:(lia) ltac:(lia)) as [Z1 Z2].
  set (out := if (num =? 1)%Z then match zip3 (erdf_for t) edd a b c with x :: _ => One x | [] => Many [] end else Many (zip3 (erdf_for t) edd a b c)).
  assert (LO : listed out = zip3 (erdf_for t) edd a b c).
  { unfold out. destruct (Z.eqb_spec num 1) as [->|]; [|reflexivity]. destruct (zip3 (erdf_for t) edd a b c) as [|x [|]]; cbn in *; auto. unfold n in L1. cbn in L1. lia. }
  exists out. split; [|split; [|split]].
  - f_equal. unfold out. destruct (Z.eqb_spec num 1) as [->|]; [|reflexivity]. destruct (zip3 (erdf_for t) edd a b c) as [|x l]; [unfold n in *; cbn in *; lia|reflexivity].
  - rewrite LO. lia.
  - unfold out. destruct (Z.eqb_spec num 1) as [->|NE].
    + split; auto. intros _. destruct (zip3 (erdf_for t) edd a b c) as [|x l]; [unfold n in *; cbn in *; lia|eauto].
    + split; [intros [x X]; discriminate|intros; contradiction].
  - intros i Hi. destruct (nth_error a i) as [z1|] eqn:A1; [|apply nth_error_None in A1; lia]. destruct (nth_error b i) as [z2|] eqn:A2; [|apply nth_error_None in A2; lia].
    destruct (nth_error c i) as [z3|] eqn:A3; [|apply nth_error_None in A3; lia]. exists z1, z2, z3. split; auto. split; auto. split; auto. split; [|apply law_pos].
    rewrite LO, (Z2 i z1 z2 z3 A1 A2 A3), value_law by auto. reflexivity.
Qed.
(** Any other galaxy type, and a negative number of samples: ValueError, and no number is taken from the generator. *)
Theorem C112_refused : forall edd s rng num, (~ spelled s "red" /\ ~ spelled s "blue") \/ (num < 0)%Z ->
  eddington norm_draws entropy edd s rng num = (Err ValueError, match rng with Some g => g | None => entropy end).
Proof.
  intros edd s rng num H. unfold eddington. destruct H as [[H1 H2]|H]; [now rewrite erdf_unknown|]. destruct (erdf_of s); auto.
  replace (num <? 0)%Z with true by (symmetry; now apply Z.ltb_lt). reflexivity.
Qed.
End C112.
(** At the break both terms are one. *)
Theorem C112_break : forall t z1 z2 z3, exists br xi, (0 < br)%R /\ law t z1 z2 z3 br = (2 * xi)%R /\
  (t = Red -> xi = Rpower 10 (-2.13) /\ br = Rpower 10 (-2.81 + 0.18 * z1))%R /\ (t = Blue -> xi = Rpower 10 (-1.65) /\ br = Rpower 10 (-1.84 + 0.335 * z1))%R.
Proof.
  assert (Q : forall xi br d1 d2, (0 < br)%R -> double_power_law xi br d1 d2 br = (2 * xi)%R).
  { intros. unfold double_power_law. replace (br / br)%R with 1%R by (field; lra). unfold Rpower. rewrite ln_1, !Rmult_0_r, exp_0. lra. }
  intros [|] z1 z2 z3; do 2 eexists; (split; [|split; [apply Q|split; [intros X; try discriminate X; auto|intros X; try discriminate X; auto]]]); apply Rpower_pos.
Qed.
(** The distribution of the cited papers falls off above the break; the code's values grow beyond every bound (the exponent -1 of the sum is missing). *)
Theorem C112_falls_off_refuted : forall t z1 z2 z3, (-4 < z3)%R -> forall bound, exists x0, (0 < x0)%R /\ forall x, (x0 <= x)%R -> (bound < law t z1 z2 z3 x)%R.
Proof.
  assert (Q : forall xi br d1 d2 bound, (0 < xi)%R -> (0 < br)%R -> (0 < d2)%R -> exists x0, (0 < x0)%R /\ forall x, (x0 <= x)%R -> (bound < double_power_law xi br d1 d2 x)%R).
  { intros xi br d1 d2 bound HX HB HD. set (m := (Rabs bound / xi + 1)%R).
    assert (HM : (0 < m)%R). { unfold m. assert (0 <= Rabs bound / xi)%R by (apply Rmult_le_pos; [apply Rabs_pos|left; now apply Rinv_0_lt_compat]). lra. }
    exists (br * Rpower m (/ d2))%R. pose proof (Rpower_pos m (/ d2)) as PM. split; [apply Rmult_lt_0_compat; auto|]. intros x Hx. unfold double_power_law.
    assert (LE : (Rpower m (/ d2) <= x / br)%R). { apply Rmult_le_reg_r with br; auto. replace (x / br * br)%R with x by (field; lra). lra. }
    assert (GE : (m <= Rpower (x / br) d2)%R).
    { rewrite <- (Rpower_1 m HM) at 1. replace 1%R with (/ d2 * d2)%R by (field; lra). rewrite <- Rpower_mult. apply Rle_Rpower_l; [lra|]. split; auto. }
    pose proof (Rpower_pos (x / br) d1) as P1. assert (BX : (bound <= Rabs bound)%R) by apply Rle_abs.
    assert (EQ : (xi * m = Rabs bound + xi)%R) by (unfold m; field; lra). assert (xi * m < xi * (Rpower (x / br) d1 + Rpower (x / br) d2))%R by (apply Rmult_lt_compat_l; lra). lra. }
  intros [|] z1 z2 z3 HZ bound; apply Q; try apply Rpower_pos; lra.
Qed.
Example C112_case : exists x, eddington (fun n (g : nat) => (repeat 0%R n, S g)) 0 (Rpower 10 (-1.84)) "BLue" None 1 = (Ok (One (Some x)), 3) /\ x = (2 * Rpower 10 (-1.65))%R.
Proof.
  assert (NS : norm_spec (fun n (g : nat) => (repeat 0%R n, S g))) by (intros n g; apply repeat_length).
  assert (SP : spelled "BLue" (word Blue)) by (cbn; repeat split; auto).
  destruct (C112_values (fun n (g : nat) => (repeat 0%R n, S g)) 0 (Rpower 10 (-1.84)) "BLue" Blue None 1 NS SP (Rpower_pos _ _) ltac:(lia)) as (out & E & _ & O & V).
  destruct (proj2 O eq_refl) as [x ->]. destruct (V 0 ltac:(cbn; lia)) as (z1 & z2 & z3 & A1 & A2 & A3 & A4 & _). cbn in A1, A2, A3, A4. injection A1 as <-. injection A2 as <-. injection A3 as <-. injection A4 as ->.
  eexists. split; [exact E|]. destruct (C112_break Blue 0 0 0) as (br & xi & _ & B1 & _ & B2). destruct (B2 eq_refl) as [-> ->].
  replace (-1.84 + 0.335 * 0)%R with (-1.84)%R in B1 by lra. exact B1.
Qed.
