(** The bounds of a passband group (C33) and the list of a model's effects (C42). *)
From Coq Require Import Reals String List Bool Arith Lia Lra.
From Verif Require Import Base BaseFacts RealBase PassbandModel PassbandProps PassbandGroupProps SedModel SedProps SedPipeline.
Import ListNotations.
Open Scope list_scope.
Open Scope R_scope.

(** src/lightcurvelynx/astro_utils/passbands.py 501-513 [wave_bounds]. *)
Definition wave_bounds (g : pgroup) : result (R * R) :=
  bind (SedModel.list_min (pg_waves g)) (fun lo => bind (SedModel.list_max (pg_waves g)) (fun hi => Ok (lo, hi))).
(** src/lightcurvelynx/models/physical_model.py 306-308 and 617-619 [list_effects] (the additive and the random model inherit the first, with the observer-frame effects of their own only). *)
Definition sd_list_effects (s : sed) : list effect := sd_rest s ++ sd_obs s.
Definition bm_list_effects (b : bandm) : list effect := bm_effects b.

Lemma keep_in : forall l a x, In x (keep_gaps a l) -> In x l.
Proof. induction l as [|b l IH]; intros a x H; cbn in H; [tauto|]. destruct (Rleb threshold (b - a)); [destruct H as [->|H]; cbn; auto|]; right; eauto. Qed.
Lemma keep_close : forall l a y0 k, nondecreasing (a :: l) -> y0 <= a <= y0 + INR k * threshold ->
  forall x, In x l -> exists y, In y (y0 :: keep_gaps a l) /\ y <= x <= y + INR (k + length l) * threshold.
Proof.
  pose proof threshold_pos as TP. assert (M : forall i j, (i <= j)%nat -> INR i * threshold <= INR j * threshold) by (intros i j L; apply Rmult_le_compat_r; [lra|]; now apply le_INR).
  induction l as [|b l IH]; intros a y0 k HND HY x Hx; [destruct Hx|]. destruct HND as [HAB HN]. cbn [keep_gaps]. destruct (Rleb threshold (b - a)) eqn:E.
  - destruct (Req_dec b x) as [->|NE].
    + exists x. split; [right; left; reflexivity|]. split; [lra|]. pose proof (M 0%nat (k + length (x :: l))%nat ltac:(lia)) as Q. cbn [INR] in Q. lra.
    + destruct Hx as [Hx|Hx]; [congruence|]. destruct (IH b b 0%nat HN ltac:(cbn [INR]; lra) x Hx) as (y & I & L1 & L2). exists y. split; [right; exact I|]. split; auto.
      pose proof (M (0 + length l)%nat (k + length (b :: l))%nat ltac:(cbn; lia)). lra.
  - apply Rleb_false in E. assert (Y : y0 <= b <= y0 + INR (S k) * threshold) by (rewrite S_INR; lra).
    destruct Hx as [<-|Hx].
    + exists y0. split; [now left|]. split; [lra|]. pose proof (M (S k) (k + length (b :: l))%nat ltac:(cbn; lia)). lra.
    + destruct (IH b y0 (S k) HN Y x Hx) as (y & I & L1 & L2). exists y. split; auto. split; auto. replace (k + length (b :: l))%nat with (S k + length l)%nat by (cbn; lia). exact L2.
Qed.
Lemma sort_nil : forall l, sortR l = [] -> l = [].
Proof. intros l H. pose proof (Permutation.Permutation_length (sortR_perm l)) as P. rewrite H in P. destruct l; [auto|discriminate]. Qed.

(** The bounds of every group that can be built: an empty group has none (ValueError).  The lower bound is the smallest wavelength of all members, the upper bound is one of their
    wavelengths, and no wavelength of a member exceeds it by more than 1e-5 per wavelength; with wavelengths at least 1e-5 apart (or equal) it is the largest one. *)
Theorem C33_bounds : forall g, built g ->
  (members g = [] -> wave_bounds g = Err ValueError) /\
  (members g <> [] -> exists lo hi, wave_bounds g = Ok (lo, hi) /\ In lo (all_waves g) /\ In hi (all_waves g) /\
     (forall p x, In p (members g) -> In x (pb_waves p) -> lo <= x <= hi + INR (length (all_waves g)) * (1 / 10 ^ 5)) /\
     (separated (all_waves g) -> forall p x, In p (members g) -> In x (pb_waves p) -> x <= hi)).
Proof.
  intros g B. destruct (built_inv g B) as (_ & HG & HU). destruct (update_inv _ _ HU) as (_ & EW & _). unfold wave_bounds.
  assert (GR := C33_grid g B). rewrite EW in *. unfold merge_waves in *. rewrite <- all_waves_bands in *.
  pose proof (sortR_sorted (all_waves g)) as SO. pose proof (fun x => sortR_In x (all_waves g)) as SI. pose proof (Permutation.Permutation_length (sortR_perm (all_waves g))) as SL.
  split.
  - intros E. assert (AW : all_waves g = []) by (unfold all_waves; now rewrite E). rewrite AW. reflexivity.
  - intros NE. destruct (sortR (all_waves g)) as [|a l] eqn:ES.
    + exfalso. apply sort_nil in ES. destruct (members g) as [|p ms] eqn:EM; [auto|]. unfold all_waves in ES. rewrite EM in ES. cbn [flat_map] in ES. apply app_eq_nil in ES. destruct ES as [ES _].
      unfold members in EM. destruct (pg_bands g) as [|[k q] bs]; [discriminate|]. cbn in EM. injection EM as -> _. apply Forall_inv in HG. cbn [snd] in HG. destruct HG as [_ [_ L]]. unfold pb_waves, xs in ES. apply map_eq_nil in ES. rewrite ES in L. cbn in L. lia.
    + destruct (SedModel.list_min (a :: keep_gaps a l)) as [lo|] eqn:E1; [|discriminate]. destruct (SedModel.list_max (a :: keep_gaps a l)) as [hi|] eqn:E2; [|discriminate].
      apply SedProps.list_min_spec in E1. apply SedProps.list_max_spec in E2. destruct E1 as [L1 L2], E2 as [H1 H2].
      assert (IN : forall x, In x (a :: keep_gaps a l) -> In x (all_waves g)) by (intros x [Hx|Hx]; apply SI; [now left|right; eapply keep_in; eauto]).
      assert (LO : lo = a). { assert (lo <= a) by (apply L2; now left). assert (a <= lo); [|lra]. apply IN, SI in L1. destruct L1 as [->|L1]; [lra|]. clear - SO L1. revert a SO. induction l as [|b l IH]; intros a SO; [destruct L1|]. destruct SO as [S1 S2]. destruct L1 as [->|L1]; [exact S1|]. specialize (IH L1 b S2). lra. }
      exists lo, hi. split; [reflexivity|]. split; [auto|]. split; [auto|].
      assert (AW : forall p x, In p (members g) -> In x (pb_waves p) -> In x (a :: l)) by (intros p x P X; apply SI; unfold all_waves; apply in_flat_map; eauto).
      split.
      * intros p x P X. pose proof (AW p x P X) as HX. pose proof threshold_pos as TP. fold threshold.
        assert (Q : forall n, 0 <= INR n * threshold) by (intros; apply Rmult_le_pos; [apply pos_INR|lra]).
        destruct HX as [<-|HX]; [specialize (Q (length (all_waves g))); specialize (H2 a (or_introl eq_refl)); lra|].
        destruct (keep_close l a a 0%nat SO ltac:(cbn [INR]; lra) x HX) as (y & Iy & Y1 & Y2). specialize (H2 y Iy). specialize (L2 y Iy). split; [lra|]. rewrite <- SL. cbn [length].
        assert (INR (0 + length l) * threshold <= INR (S (length l)) * threshold) by (apply Rmult_le_compat_r; [lra|]; apply le_INR; lia). lra.
      * intros SEP p x P X. destruct (GR SEP) as [_ GI]. apply H2. apply GI. eauto.
Qed.
(** The exact claim fails without the hypothesis: the largest wavelength is dropped from the grid. *)
Theorem C33_bounds_refuted : exists g p x, built g /\ In p (members g) /\ In x (pb_waves p) /\ exists lo hi, wave_bounds g = Ok (lo, hi) /\ hi < x.
Proof.
  destruct (two_rows_ok "LSST" "r" 100 200) as (p1 & E1 & S1 & F1 & W1); [lra|].
  destruct (two_rows_ok "ZTF" "r" 150 (200 + 1 / 1000000)) as (p2 & E2 & S2 & F2 & W2); [lra|].
  assert (N1 : pb_full p1 = "LSST_r"%string) by (unfold pb_full; rewrite S1, F1; reflexivity).
  assert (N2 : pb_full p2 = "ZTF_r"%string) by (unfold pb_full; rewrite S2, F2; reflexivity).
  destruct (pair_group p1 p2) as (g & B & EB & EM); try (eapply two_rows_built; eauto); [congruence|].
  destruct (built_inv g B) as (K & _ & HU). destruct (update_inv _ _ HU) as (_ & EW & _).
  assert (GR : pg_waves g = [100; 150; 200]).
  { rewrite EW, EB. unfold merge_waves. cbn [flat_map snd app]. rewrite W1, W2. cbn [app sortR]. do 6 (cbn [insertR keep_gaps]; rewrite ?threshold_val; rdec). reflexivity. }
  exists g, p2, (200 + 1 / 1000000). split; auto. split; [rewrite EM; right; now left|]. split; [rewrite W2; right; now left|].
  exists 100, 200. split; [|lra]. unfold wave_bounds. rewrite GR. cbn [SedModel.list_min SedModel.list_max fold_left bind].
  rewrite (Rmin_left 100 150), (Rmin_left 100 200), (Rmax_right 100 150), (Rmax_right 150 200) by lra. reflexivity.
Qed.
Example C33_bounds_applies : exists g, built g /\ members g <> [] /\ separated (all_waves g) /\ wave_bounds g = Ok (100, 300) .
Proof.
  destruct (two_rows_ok "LSST" "r" 100 300) as (p1 & E1 & S1 & F1 & W1); [lra|].
  destruct (two_rows_ok "ZTF" "r" 200 250) as (p2 & E2 & S2 & F2 & W2); [lra|].
  assert (N1 : pb_full p1 = "LSST_r"%string) by (unfold pb_full; rewrite S1, F1; reflexivity).
  assert (N2 : pb_full p2 = "ZTF_r"%string) by (unfold pb_full; rewrite S2, F2; reflexivity).
  destruct (pair_group p1 p2) as (g & B & EB & EM); try (eapply two_rows_built; eauto); [congruence|].
  destruct (built_inv g B) as (K & _ & HU). destruct (update_inv _ _ HU) as (_ & EW & _).
  assert (GR : pg_waves g = [100; 200; 250; 300]).
  { rewrite EW, EB. unfold merge_waves. cbn [flat_map snd app]. rewrite W1, W2. cbn [app sortR]. do 6 (cbn [insertR keep_gaps]; rewrite ?threshold_val; rdec). reflexivity. }
  exists g. split; auto. split; [rewrite EM; discriminate|]. split.
  - unfold all_waves. rewrite EM. cbn [flat_map]. rewrite W1, W2. intros x y Hx Hy L. rewrite threshold_val. cbn in Hx, Hy. intuition; subst; lra.
  - unfold wave_bounds. rewrite GR. cbn [SedModel.list_min SedModel.list_max fold_left bind].
    rewrite (Rmin_left 100 200), (Rmin_left 100 250), (Rmin_left 100 300), (Rmax_right 100 200), (Rmax_right 200 250), (Rmax_right 250 300) by lra. reflexivity.
Qed.

(** The effects listed after any sequence of additions: those of the rest frame first, each kind in the order of addition; for a model of band fluxes all in that order.  [apply_effects] of the
    two parts in this order is what evaluating the model does (C42). *)
Theorem C42_list_effects : forall s b effs,
  sd_list_effects (fold_left sd_add_effect effs s) = (sd_rest s ++ filter ef_rest effs) ++ sd_obs s ++ filter (fun e => negb (ef_rest e)) effs /\
  bm_list_effects (fold_left bm_add_effect effs b) = bm_effects b ++ effs.
Proof.
  intros s b effs. split.
  - unfold sd_list_effects. destruct (add_all effs s) as (_ & _ & _ & _ & _ & _ & A & C). now rewrite A, C.
  - unfold bm_list_effects. revert b. induction effs as [|e effs IH]; intros b; cbn [fold_left]; [now rewrite app_nil_r|]. rewrite IH. unfold bm_add_effect. cbn [bm_effects]. now rewrite <- app_assoc.
Qed.
