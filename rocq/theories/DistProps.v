(** DistributionSampler (C78). *)
From Coq Require Import Reals List Bool Lra Lia Arith.
From Verif Require Import Base BaseFacts RealBase DistModel.
Import ListNotations.
Open Scope R_scope.

(** The share of the values up to and including number i. *)
Definition share (ys : list R) (i : nat) : R := Rsum (firstn (S i) ys) / Rsum ys.

Lemma cumsum_from_nth : forall l acc i, (i < length l)%nat -> nth_error (cumsum_from acc l) i = Some (acc + Rsum (firstn (S i) l)).
Proof.
  induction l as [| y l IH]; intros acc i H; simpl in H; [lia|]. destruct i as [| i]; simpl.
  - f_equal. lra.
  - rewrite IH by lia. f_equal. simpl. lra.
Qed.
Lemma cumsum_from_length : forall l acc, length (cumsum_from acc l) = length l.
Proof. induction l; intros; simpl; auto. Qed.
Lemma last_nth : forall A (l : list A) d, l <> [] -> nth_error l (length l - 1) = Some (last l d).
Proof.
  induction l as [| a l IH]; intros d H; [congruence|]. destruct l as [| b l]; [reflexivity|].
  replace (length (a :: b :: l) - 1)%nat with (S (length (b :: l) - 1)) by (simpl; lia).
  change (nth_error (a :: b :: l) (S (length (b :: l) - 1))) with (nth_error (b :: l) (length (b :: l) - 1)).
  rewrite (IH d) by congruence. reflexivity.
Qed.
Lemma cumsum_last : forall l, l <> [] -> last (cumsum l) 0 = Rsum l.
Proof.
  intros l H. assert (L : length l <> 0%nat) by (destruct l; simpl; congruence).
  assert (E : Some (last (cumsum l) 0) = Some (Rsum l)).
  { rewrite <- last_nth by (unfold cumsum; destruct l; simpl; congruence). unfold cumsum. rewrite cumsum_from_length.
    rewrite cumsum_from_nth by lia. replace (S (length l - 1)) with (length l) by lia. rewrite firstn_all. f_equal. lra. }
  congruence.
Qed.
Lemma cumsum_nondec : forall l acc, Forall (fun y => 0 <= y) l -> nondecreasing (cumsum_from acc l).
Proof.
  induction l as [| y l IH]; intros acc H; simpl; [exact I|]. inversion H; subst.
  apply nondecreasing_cons; [| apply IH; auto].
  intros x Hx. clear IH. assert (G : forall l acc x, Forall (fun y => 0 <= y) l -> In x (cumsum_from acc l) -> acc <= x).
  { clear. induction l as [| y l IH]; intros acc x H I; simpl in I; [contradiction|]. inversion H; subst. destruct I as [<- | I]; [lra|].
    apply IH in I; auto. lra. }
  apply (G l); auto.
Qed.

(** ** The constructor *)
Theorem C78_make : forall xs ys rng,
  (length xs <> length ys -> forall k, dist_make k xs ys rng = Err ValueError) /\
  (length xs = length ys -> (exists y, In y ys /\ y < 0) -> dist_make YFloat xs ys rng = Err ValueError) /\
  (length xs = length ys -> Forall (fun y => 0 <= y) ys -> 0 < Rsum ys ->
     exists d, dist_make YFloat xs ys rng = Ok d /\ di_rng d = rng /\ di_pos d = 0%nat /\ length (di_curve d) = length xs /\
     forall i x, nth_error xs i = Some x -> nth_error (di_curve d) i = Some (share ys i, x)).
Proof.
  intros xs ys rng. unfold dist_make. split; [| split].
  - intros H k. apply Nat.eqb_neq in H. rewrite H. reflexivity.
  - intros H [y [I Y]]. apply Nat.eqb_eq in H. rewrite H. simpl.
    assert (E : existsb (fun y => Rltb y 0) ys = true) by (apply existsb_exists; exists y; split; [auto | apply Rltb_true; auto]). rewrite E. reflexivity.
  - intros H F S0. pose proof H as H'. apply Nat.eqb_eq in H'. rewrite H'. simpl.
    assert (E : existsb (fun y => Rltb y 0) ys = false).
    { apply not_true_is_false. intros X. apply existsb_exists in X as [y [I Y]]. apply Rltb_true in Y. eapply Forall_forall in F; [|exact I]. simpl in F. lra. }
    rewrite E. assert (NE : ys <> []) by (intros ->; simpl in S0; lra).
    assert (M : forall X (a b : X), match ys with [] => a | _ :: _ => b end = b) by (intros; destruct ys; [congruence | reflexivity]).
    rewrite M. rewrite cumsum_last by auto. rewrite (proj2 (Reqb_false (Rsum ys) 0)) by lra.
    eexists. split; [reflexivity|]. simpl. split; [auto|]. split; [auto|].
    assert (L : length (map (fun c => c / Rsum ys) (cumsum ys)) = length xs) by (rewrite map_length; unfold cumsum; rewrite cumsum_from_length; auto).
    split; [rewrite combine_length, L; apply Nat.min_id|].
    intros i x Hx. assert (Li : (i < length ys)%nat) by (rewrite <- H; apply nth_error_Some; congruence).
    assert (C : nth_error (map (fun c => c / Rsum ys) (cumsum ys)) i = Some (share ys i)).
    { rewrite nth_error_map. unfold cumsum. rewrite cumsum_from_nth by auto. unfold share. simpl. do 2 f_equal. lra. }
    clear - C Hx. revert C Hx. generalize (share ys i). intros sh. revert i. generalize (map (fun c => c / Rsum ys) (cumsum ys)). induction xs as [| a xs IH]; intros l i C Hx; [destruct i; discriminate|].
    destruct l as [| b l]; [destruct i; discriminate|]. destruct i; simpl in *; [congruence | eauto].
Qed.
(** Counts (an integer array) and plain lists are refused, with a TypeError. *)
Theorem C78_integers_refuted : forall xs ys rng, length xs = length ys -> ys <> [] -> Forall (fun y => 0 <= y) ys ->
  dist_make YInt xs ys rng = Err TypeError /\ dist_make YList xs ys rng = Err TypeError.
Proof.
  intros xs ys rng H NE F. unfold dist_make. apply Nat.eqb_eq in H. rewrite H. simpl. split; [| reflexivity].
  destruct (existsb (fun y => Rltb y 0) ys) eqn:E; [| destruct ys; [congruence | reflexivity]].
  apply existsb_exists in E as [y [I Y]]. apply Rltb_true in Y. eapply Forall_forall in F; [|exact I]. simpl in F. lra.
Qed.

(** ** One value *)
Lemma nd_head : forall a l x, nondecreasing (a :: l) -> In x l -> a <= x. Proof. exact nondecreasing_head. Qed.
Lemma seg_cdf : forall t p q, nondecreasing (map fst (p :: t)) -> increasing (map snd (p :: t)) -> fst p <= q ->
  (forall i c x, nth_error (p :: t) i = Some (c, x) -> (np_seg p t q < x <-> q < c)) /\
  snd p <= np_seg p t q <= snd (last (p :: t) (0, 0)).
Proof.
  induction t as [| p2 t IH]; intros p q HC HX Hq.
  - split; [| simpl; lra]. intros i c x H. destruct i as [| i]; [| destruct i; discriminate]. simpl in H. injection H as ->. simpl in *. lra.
  - assert (X12 : snd p < snd p2) by (destruct HX; auto). assert (C12 : fst p <= fst p2) by (destruct HC; auto).
    assert (HC' : nondecreasing (map fst (p2 :: t))) by (eapply nondecreasing_tail; exact HC).
    assert (HX' : increasing (map snd (p2 :: t))) by (eapply increasing_tail; exact HX).
    cbn [np_seg]. destruct (Rltb q (fst p2)) eqn:E.
    + apply Rltb_true in E.
      assert (B : snd p <= lerp p p2 q < snd p2).
      { unfold lerp. assert (D : 0 < fst p2 - fst p) by lra.
        assert (Q : 0 <= (q - fst p) / (fst p2 - fst p) < 1).
        { split; [apply Rmult_le_pos; [lra | left; apply Rinv_0_lt_compat; auto] |].
          apply Rmult_lt_reg_r with (fst p2 - fst p); auto. unfold Rdiv. rewrite Rmult_assoc, Rinv_l by lra. lra. }
        replace ((snd p2 - snd p) * (q - fst p) / (fst p2 - fst p)) with ((snd p2 - snd p) * ((q - fst p) / (fst p2 - fst p))) by (field; lra).
        set (w := (q - fst p) / (fst p2 - fst p)) in *. clearbody w. nra. }
      assert (TL : forall x, In x (p2 :: t) -> snd p2 <= snd x /\ fst p2 <= fst x).
      { intros x [<- | I]; [lra|]. split; [left; eapply increasing_head; [exact HX' | apply in_map; auto] | eapply nd_head; [exact HC' | apply in_map; auto]]. }
      split.
      * intros i c x H. destruct i as [| i]; simpl in H; [injection H as ->; simpl in *; lra|].
        apply nth_error_In in H. destruct (TL _ H) as [T1 T2]. simpl in *. lra.
      * split; [lra|]. assert (I : In (last (p :: p2 :: t) (0, 0)) (p2 :: t)).
        { replace (last (p :: p2 :: t) (0, 0)) with (last (p2 :: t) (0, 0)) by reflexivity. 
          destruct (last_x_In p2 t) as [z [E1 E2]]. rewrite E1. exact E2. }
        destruct (TL _ I). lra.
    + apply Rltb_false in E. destruct (IH p2 q HC' HX' E) as [I1 I2]. split.
      * intros i c x H. destruct i as [| i]; simpl in H; [injection H as ->; simpl in *; lra | exact (I1 i c x H)].
      * replace (last (p :: p2 :: t) (0, 0)) with (last (p2 :: t) (0, 0)) by reflexivity. lra.
Qed.
Lemma share_bounds : forall ys i, Forall (fun y => 0 <= y) ys -> 0 < Rsum ys -> 0 <= share ys i <= 1.
Proof.
  intros ys i F S0. unfold share.
  assert (Q1 : 0 <= Rsum (firstn (S i) ys)).
  { apply Rsum_nonneg. apply Forall_forall. intros x Hx. eapply Forall_forall in F; [exact F|]. rewrite <- (firstn_skipn (S i) ys). apply in_or_app. auto. }
  assert (Q2 : 0 <= Rsum (skipn (S i) ys)).
  { apply Rsum_nonneg. apply Forall_forall. intros x Hx. eapply Forall_forall in F; [exact F|]. rewrite <- (firstn_skipn (S i) ys). apply in_or_app. auto. }
  assert (Q3 : Rsum ys = Rsum (firstn (S i) ys) + Rsum (skipn (S i) ys)) by (rewrite <- Rsum_app, firstn_skipn; reflexivity).
  split; [apply Rmult_le_pos; [auto | left; apply Rinv_0_lt_compat; auto]|].
  apply Rmult_le_reg_r with (Rsum ys); auto. unfold Rdiv. rewrite Rmult_assoc, Rinv_l by lra. lra.
Qed.

Section Sampler.
  Variables (xs ys : list R) (rng : nat -> R) (d : dist).
  Hypothesis (HL : length xs = length ys) (HF : Forall (fun y => 0 <= y) ys) (HS : 0 < Rsum ys) (HX : increasing xs) (HD : dist_make YFloat xs ys rng = Ok d).

  Lemma curve_facts : exists p t, di_curve d = p :: t /\ nondecreasing (map fst (p :: t)) /\ increasing (map snd (p :: t)) /\
    fst p = share ys 0 /\ fst (last (p :: t) (0, 0)) = 1 /\ snd p = hd 0 xs /\ snd (last (p :: t) (0, 0)) = last xs 0.
  Proof.
    destruct (proj2 (proj2 (C78_make xs ys rng)) HL HF HS) as [d' [E [_ [_ [L N]]]]]. rewrite E in HD. injection HD as ->.
    assert (NE : ys <> []) by (intros ->; simpl in HS; lra).
    assert (LX : (0 < length xs)%nat) by (rewrite HL; destruct ys; simpl; [congruence | lia]).
    assert (MS : map snd (di_curve d) = xs).
    { apply (nth_ext _ _ 0 0); [rewrite map_length; auto|]. intros n Hn. rewrite map_length in Hn.
      destruct (nth_error xs n) as [x|] eqn:X; [| apply nth_error_None in X; lia].
      rewrite (nth_error_nth xs n 0 X). apply nth_error_nth. rewrite nth_error_map, (N n x X). reflexivity. }
    assert (MF : map fst (di_curve d) = map (fun c => c / Rsum ys) (cumsum ys)).
    { apply (nth_ext _ _ 0 0); [rewrite !map_length; unfold cumsum; rewrite cumsum_from_length; congruence|]. intros n Hn. rewrite map_length in Hn.
      destruct (nth_error xs n) as [x|] eqn:X; [| apply nth_error_None in X; lia].
      transitivity (share ys n); [apply nth_error_nth; rewrite nth_error_map, (N n x X); reflexivity|].
      symmetry. apply nth_error_nth. rewrite nth_error_map. unfold cumsum. rewrite cumsum_from_nth by lia. unfold share. simpl. do 2 f_equal. lra. }
    destruct (di_curve d) as [| p t] eqn:C; [simpl in L; lia|]. exists p, t. split; [reflexivity|].
    split; [| split; [rewrite MS; exact HX|]].
    - rewrite MF. clear - HF HS. assert (G := cumsum_nondec ys 0 HF). unfold cumsum. revert G. generalize (cumsum_from 0 ys).
      induction l as [| a l IH]; intros G; [exact I|]. destruct l as [| b l]; [exact I|]. destruct G as [G1 G2]. split; [| apply IH; exact G2].
      apply Rmult_le_compat_r; [left; apply Rinv_0_lt_compat; auto | exact G1].
    - destruct xs as [| x0 xs']; [simpl in LX; lia|]. pose proof (N 0%nat x0 eq_refl) as N0. simpl in N0. injection N0 as N0.
      assert (LL : last (p :: t) (0, 0) = (share ys (length ys - 1), last (x0 :: xs') 0)).
      { assert (Q : nth_error (p :: t) (length (p :: t) - 1) = Some (last (p :: t) (0, 0))) by (apply last_nth; congruence).
        rewrite L, HL in Q. rewrite (N (length ys - 1)%nat (last (x0 :: xs') 0)) in Q; [congruence|].
        rewrite <- HL. apply last_nth. congruence. }
      rewrite LL, N0. cbn [fst snd hd]. repeat split.
      unfold share. replace (S (length ys - 1)) with (length ys) by (rewrite <- HL; simpl; lia). rewrite firstn_all. field. lra.
  Qed.
  (** A draw from the share of the first value on gives a number between the first and the last x, below x_i exactly when the draw is
      below the share of the values up to y_i. *)
  Theorem C78_cdf : forall u, share ys 0 <= u -> u < 1 -> exists r, inv_cdf (di_curve d) u = Ok r /\ hd 0 xs <= r <= last xs 0 /\
    forall i x, nth_error xs i = Some x -> (r < x <-> u < share ys i).
  Proof.
    intros u U1 U2. destruct curve_facts as [p [t [C [K1 [K2 [K3 [K4 [K5 K6]]]]]]]].
    destruct (proj2 (proj2 (C78_make xs ys rng)) HL HF HS) as [d' [E [_ [_ [_ N]]]]]. rewrite E in HD. injection HD as ->.
    rewrite C in *. cbn [inv_cdf]. rewrite K3, K4. rewrite (proj2 (Rltb_false u (share ys 0))) by lra. rewrite (proj2 (Rltb_false 1 u)) by lra. cbn [orb].
    eexists. split; [reflexivity|]. destruct (seg_cdf t p u K1 K2 ltac:(lra)) as [S1 S2]. rewrite K5, K6 in S2. split; [exact S2|].
    intros i x H. apply (S1 i). apply N. exact H.
  Qed.
  (** A draw below the share of the first value is out of the interpolation's range: sampling raises. *)
  Theorem C78_first_value_refuted : forall u, u < share ys 0 -> inv_cdf (di_curve d) u = Err ValueError.
  Proof.
    intros u U. destruct curve_facts as [p [t [C [_ [_ [K3 _]]]]]]. rewrite C. cbn [inv_cdf]. rewrite K3.
    rewrite (proj2 (Rltb_true u (share ys 0))) by lra. reflexivity.
  Qed.
  (** With y_0 = 0, every draw gives a number, and a value falls between two neighbouring points exactly for draws in an interval
      whose length is the right point's share. *)
  Theorem C78_samples : hd 0 ys = 0 -> (forall k, 0 <= rng k < 1) -> forall n given, exists l d', dist_compute d n given = (Ok l, d') /\ length l = n /\
    di_pos d' = (di_pos d + n)%nat /\
    forall k r, nth_error l k = Some r -> hd 0 xs <= r <= last xs 0 /\
      forall i x1 x2, nth_error xs i = Some x1 -> nth_error xs (S i) = Some x2 ->
      (x1 <= r < x2 <-> share ys i <= di_rng d (di_pos d + k)%nat < share ys i + nth (S i) ys 0 / Rsum ys).
  Proof.
    intros Y0 HU n given.
    destruct (proj2 (proj2 (C78_make xs ys rng)) HL HF HS) as [d' [E [R0 [P0 [_ N]]]]]. assert (EQ : d' = d) by congruence. subst d'.
    assert (S0 : share ys 0 = 0).
    { unfold share. destruct ys as [| y ys']; simpl in *; [lra|]. rewrite Y0. unfold Rdiv. lra. }
    unfold dist_compute. rewrite R0, P0.
    assert (G : forall us, Forall (fun u => 0 <= u < 1) us -> exists l, inv_cdfs (di_curve d) us = Ok l /\ length l = length us /\
      forall k r, nth_error l k = Some r -> exists u, nth_error us k = Some u /\ inv_cdf (di_curve d) u = Ok r /\ 0 <= u < 1).
    { induction us as [| u us IH]; intros F; [exists []; repeat split; intros k r H; destruct k; discriminate|].
      pose proof (Forall_inv F) as F1; pose proof (Forall_inv_tail F) as F2; simpl in F1. destruct (IH F2) as [l [L1 [L2 L3]]].
      destruct (C78_cdf u) as [r [Q _]]; [lra | lra |]. simpl. rewrite Q. simpl. rewrite L1. simpl. exists (r :: l). split; [reflexivity|]. split; [simpl; congruence|].
      intros k r' H. destruct k; simpl in *; [injection H as <-; exists u; auto | apply L3; auto]. }
    destruct (G (map (fun i => rng (0 + i)%nat) (seq 0 n))) as [l [L1 [L2 L3]]].
    { apply Forall_forall. intros u Hu. apply in_map_iff in Hu as [i [<- _]]. apply HU. }
    rewrite L1. exists l. eexists. split; [reflexivity|]. split; [rewrite L2, map_length, seq_length; reflexivity|]. split; [reflexivity|].
    intros k r H. destruct (L3 k r H) as [u [U1 [U2 U3]]].
    assert (UK : u = rng k).
    { rewrite nth_error_map in U1. assert (Kn : (k < n)%nat) by (rewrite <- (seq_length n 0), <- (map_length (fun i => rng (0 + i)%nat)), <- L2; apply nth_error_Some; congruence).
      rewrite (nth_error_nth' (seq 0 n) 0%nat) in U1 by (rewrite seq_length; auto). rewrite seq_nth in U1 by auto. simpl in U1. congruence. }
    destruct (C78_cdf u) as [r' [Q1 [Q2 Q3]]]; [lra | lra |]. rewrite U2 in Q1. injection Q1 as <-. split; [exact Q2|].
    intros i x1 x2 X1 X2. simpl. rewrite <- UK. pose proof (Q3 i x1 X1) as A1. pose proof (Q3 (S i) x2 X2) as A2.
    assert (SS : share ys (S i) = share ys i + nth (S i) ys 0 / Rsum ys).
    { assert (Ly : (S i < length ys)%nat) by (rewrite <- HL; apply nth_error_Some; congruence).
      unfold share. assert (B : firstn (S (S i)) ys = firstn (S i) ys ++ [nth (S i) ys 0]).
      { clear - Ly. revert i Ly. induction ys as [| y l IH]; intros i H; simpl in H; [lia|]. destruct i; simpl.
        - destruct l; simpl in *; [lia | reflexivity].
        - f_equal. specialize (IH i ltac:(lia)). simpl in IH. exact IH. }
      rewrite B, Rsum_app. simpl. field. lra. }
    rewrite <- SS. split; intros [B1 B2].
    - split; [| apply A2; auto]. destruct (Rle_lt_dec (share ys i) u) as [|L]; [auto|]. apply A1 in L. lra.
    - split; [| apply A2; auto]. destruct (Rle_lt_dec x1 r) as [|L]; [auto|]. apply A1 in L. lra.
  Qed.
End Sampler.

(** A generator given by the caller is not used: the node's own stream decides. *)
Theorem C78_generator_refuted : forall d n g1 g2, dist_compute d n g1 = dist_compute d n g2.
Proof. reflexivity. Qed.
(** After [set_seed] the values are those of a new node with that generator. *)
Theorem C78_seed : forall xs ys rng rng' d fresh, dist_make YFloat xs ys rng = Ok d -> dist_make YFloat xs ys rng' = Ok fresh ->
  dist_set_seed d rng' = fresh /\ forall n, dist_set_seed (snd (dist_compute d n None)) rng' = fresh.
Proof.
  intros xs ys rng rng' d fresh. unfold dist_make. destruct (negb _); [discriminate|]. destruct (existsb _ ys); [discriminate|].
  destruct ys as [| y ys]; [discriminate|]. destruct (Reqb _ 0); [discriminate|]. intros H1 H2. injection H1 as <-. injection H2 as <-. split; reflexivity.
Qed.
(** Unequal spacing: the density given is 1 on both intervals (0, 1, 11), so that less than a twentieth of the
    probability lies below 1; half of the draws fall there. *)
Theorem C78_spacing_refuted : exists xs ys d, dist_make YFloat xs ys (fun _ => 0) = Ok d /\ increasing xs /\
  trapz (combine (firstn 2 xs) (firstn 2 ys)) < 1 / 20 * trapz (combine xs ys) /\
  forall u, 0 <= u < 1 / 2 -> exists r, inv_cdf (di_curve d) u = Ok r /\ r < 1.
Proof.
  exists [0; 1; 11], [0; 1; 1].
  assert (F : Forall (fun y => 0 <= y) [0; 1; 1]) by (repeat constructor; lra). assert (S0 : 0 < Rsum [0; 1; 1]) by (simpl; lra).
  destruct (proj2 (proj2 (C78_make [0; 1; 11] [0; 1; 1] (fun _ => 0))) eq_refl F S0) as [d [E _]]. exists d. split; [exact E|].
  assert (X : increasing [0; 1; 11]) by (simpl; lra). split; [exact X|]. split; [simpl; lra|].
  intros u U. destruct (C78_cdf [0; 1; 11] [0; 1; 1] (fun _ => 0) d eq_refl F S0 X E u) as [r [R1 [_ R2]]]; [unfold share; simpl; lra | lra |].
  exists r. split; [exact R1|]. apply (R2 1%nat 1 eq_refl). unfold share. simpl. lra.
Qed.
(** A concrete distribution. *)
Example C78_case : exists d, dist_make YFloat [0; 1; 2; 3] [0; 1; 0; 3] (fun k => 1 / (INR k + 2)) = Ok d /\ increasing [0; 1; 2; 3] /\
  (forall k, 0 <= 1 / (INR k + 2) < 1) /\ exists l d', dist_compute d 5 None = (Ok l, d') /\ length l = 5%nat.
Proof.
  assert (F : Forall (fun y => 0 <= y) [0; 1; 0; 3]) by (repeat constructor; lra). assert (S0 : 0 < Rsum [0; 1; 0; 3]) by (simpl; lra).
  destruct (proj2 (proj2 (C78_make [0; 1; 2; 3] [0; 1; 0; 3] (fun k => 1 / (INR k + 2)))) eq_refl F S0) as [d [E _]].
  assert (X : increasing [0; 1; 2; 3]) by (simpl; lra).
  assert (U : forall k, 0 <= 1 / (INR k + 2) < 1).
  { intros k. pose proof (pos_INR k). assert (0 < / (INR k + 2)) by (apply Rinv_0_lt_compat; lra). split; [lra|].
    unfold Rdiv. rewrite Rmult_1_l. rewrite <- Rinv_1. apply Rinv_lt_contravar; lra. }
  exists d. split; [exact E|]. split; [exact X|]. split; [exact U|].
  destruct (C78_samples [0; 1; 2; 3] [0; 1; 0; 3] (fun k => 1 / (INR k + 2)) d eq_refl F S0 X E eq_refl U 5%nat None) as [l [d' [H [L _]]]].
  exists l, d'. split; [exact H | exact L].
Qed.
