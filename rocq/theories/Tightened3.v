(** Theorems added after seeded bugs survived: survey tables (C72), Roman (C74), oversampling (C75), DistributionSampler (C78). *)
From Coq Require Import Reals String List Bool Arith Lia Lra.
From Verif Require Import Base BaseFacts RealBase ObsTableModel ObsTableProps SurveyModel SurveyProps RomanModel RomanProps OversampleModel OversampleProps DistModel DistProps.
Import ListNotations.
Open Scope R_scope.

(** ** C72: what an OpSim table assumes when nothing is said *)
Theorem C72_opsim_values : forall k, In k [("radius", 175 / 100); ("pixel_scale", 2 / 10); ("read_noise", 88 / 10); ("dark_current", 2 / 10)]%string ->
  value_given opsim_defaults [] [] (fst k) = Some (SNum (snd k)).
Proof. intros k H. simpl in H. destruct H as [<- | [<- | [<- | [<- | []]]]]; reflexivity. Qed.
(** A table without zero points and without the extinction coefficients or the zero points per second to compute them is refused
    with a ValueError. *)
Theorem C72_opsim_no_coefficients : forall f colmap meta kw fp o0 c, NoDup (dkeys meta) -> NoDup (dkeys kw) ->
  ob_make f (Some (opsim_map colmap)) meta [] fp = Ok o0 -> ob_contains o0 "zp" = false ->
  c = "ext_coeff"%string \/ c = "zp_per_sec"%string /\ (exists m, value_given opsim_defaults meta kw "ext_coeff" = Some (SMap m)) ->
  value_given opsim_defaults meta kw c = Some SNone -> opsim_make f colmap meta kw fp = Err ValueError.
Proof.
  intros f colmap meta kw fp o0 c NM NK E0 HZ HC HV. unfold opsim_make, survey_make. fold (opsim_map colmap). unfold ob_make in E0.
  destruct (remap (Some (opsim_map colmap)) f) as [[f' inv]|]; [|discriminate]. cbn [bind] in *. destruct (forallb _ required); [|discriminate]. cbn [negb]. injection E0 as <-. cbv zeta.
  change (ob_contains (mkObs f' inv (survey_values opsim_defaults meta kw) (unique_filters f') [] fp) "zp" = false) in HZ. rewrite HZ.
  unfold opsim_zero_points. cbv zeta. destruct (negb _); [reflexivity|]. unfold safe_map. cbn [ob_values]. rewrite !survey_value_get by auto.
  destruct HC as [-> | [-> [m HM]]]; [rewrite HV; reflexivity|]. rewrite HM, HV. reflexivity.
Qed.
(** An index beyond the table raises IndexError, in the OpSim and in the Roman noise. *)
Lemma in_rows_false : forall o index i, In i index -> (nrows (ob_frame o) <= i)%nat -> in_rows o index = false.
Proof.
  intros o index i H L. unfold in_rows. apply not_true_is_false. intros T. rewrite forallb_forall in T. apply T in H. apply Nat.ltb_lt in H. lia.
Qed.
Theorem C72_opsim_errors_index : forall o flux index i, In i index -> (nrows (ob_frame o) <= i)%nat -> opsim_errors o flux index = Err IndexError.
Proof. intros o flux index i H L. unfold opsim_errors. now rewrite (in_rows_false o index i H L). Qed.
Theorem C74_errors_index : forall o flux index i, In i index -> (nrows (ob_frame o) <= i)%nat -> roman_errors o flux index = Err IndexError.
Proof. intros o flux index i H L. unfold roman_errors. now rewrite (in_rows_false o index i H L). Qed.

(** ** C75: no observation covers the pointing *)
Theorem C75_nothing_seen : forall ball pick o cm ra dec radius dt t0 t1 bands strategy, ball_spec ball -> tinv o -> 0 <= radius <= 180 ->
  (forall i, ~ sees o ra dec radius i) -> oversample ball pick o cm ra dec radius dt t0 t1 bands strategy = Err ValueError.
Proof.
  intros ball pick o cm ra dec radius dt t0 t1 bands strategy HB T HR HN.
  assert (ES : exists res, range_search ball o (QScalar ra) (QScalar dec) (Some radius) TNone TNone = Ok res) by (unfold range_search; cbn; eauto). destruct ES as (res & ES).
  destruct (exact_scalar_inv _ _ _ _ _ _ _ _ _ HB T (eq_refl : radius_of o (Some radius) = Some radius) HR ES) as (rows & -> & ND & SP). cbn [bound_of] in SP. fold (sees o ra dec radius) in SP.
  unfold oversample. cbv zeta. rewrite ES. cbn [bind]. destruct rows as [|i rows]; [reflexivity|]. exfalso. apply (HN i), SP. now left.
Qed.

(** ** C78: between two points the value is on the straight line *)
Lemma seg_at : forall t p q i a b, nondecreasing (map fst (p :: t)) -> fst p <= q -> nth_error (p :: t) i = Some a -> nth_error (p :: t) (S i) = Some b ->
  fst a <= q < fst b -> np_seg p t q = lerp a b q.
Proof.
  induction t as [|p2 t IH]; intros p q i a b HC Hp HA HB Hq; [destruct i; discriminate|].
  assert (HC' : nondecreasing (map fst (p2 :: t))) by (eapply nondecreasing_tail; exact HC).
  assert (C12 : fst p <= fst p2) by (destruct HC; auto). cbn [np_seg]. destruct i as [|i].
  - simpl in HA, HB. injection HA as <-. injection HB as <-. now rewrite (proj2 (Rltb_true q (fst p2))) by lra.
  - assert (L : fst p2 <= fst a).
    { simpl in HA. destruct i as [|i]; simpl in HA; [injection HA as <-; lra|]. apply (nd_head (fst p2) (map fst t)); [exact HC'|]. apply in_map. apply nth_error_In in HA. exact HA. }
    rewrite (proj2 (Rltb_false q (fst p2))) by lra. apply (IH p2 q i a b HC'); auto. lra.
Qed.
Theorem C78_line : forall xs ys rng d i x1 x2 u, length xs = length ys -> Forall (fun y => 0 <= y) ys -> 0 < Rsum ys -> increasing xs -> dist_make YFloat xs ys rng = Ok d ->
  nth_error xs i = Some x1 -> nth_error xs (S i) = Some x2 -> share ys i <= u < share ys (S i) ->
  inv_cdf (di_curve d) u = Ok (x1 + (x2 - x1) * (u - share ys i) / (share ys (S i) - share ys i)).
Proof.
  intros xs ys rng d i x1 x2 u HL HF HS HX HD H1 H2 HU.
  destruct (curve_facts xs ys rng d HL HF HS HX HD) as [p [t [C [K1 [K2 [K3 [K4 [K5 K6]]]]]]]].
  destruct (proj2 (proj2 (C78_make xs ys rng)) HL HF HS) as [d' [E [_ [_ [_ N]]]]]. rewrite E in HD. injection HD as ->.
  pose proof (N _ _ H1) as N1. pose proof (N _ _ H2) as N2. rewrite C in *.
  assert (B0 : fst p <= share ys i).
  { destruct i as [|i]; [lra|]. apply (nd_head (fst p) (map fst t)); [exact K1|]. apply (in_map fst) with (x := (share ys (S i), x1)). simpl in N1. apply nth_error_In in N1. exact N1. }
  pose proof (share_bounds ys (S i) HF HS) as B1.
  cbn [inv_cdf]. rewrite K4. rewrite (proj2 (Rltb_false u (fst p))) by lra. rewrite (proj2 (Rltb_false 1 u)) by lra. cbn [orb].
  rewrite (seg_at t p u i _ _ K1 ltac:(lra) N1 N2) by exact HU. reflexivity.
Qed.
