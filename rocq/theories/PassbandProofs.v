(** Lemmas about the passband model. *)
From Coq Require Import Reals String List Bool Arith ZArith Lia Lra.
From Verif Require Import Base BaseFacts RealBase PassbandModel.
Import ListNotations.
Open Scope R_scope.

(** ** Normalisation *)
Lemma div_map_yscale : forall den (t : curve), map (fun p => (fst p, snd p / den)) t = yscale (/ den) t.
Proof. intros. unfold yscale. apply map_ext. intros [x y]. simpl. f_equal. unfold Rdiv. ring. Qed.
Lemma xs_numerators : forall t, xs (numerators t) = xs t.
Proof. intros. unfold xs, numerators. rewrite map_map. apply map_ext. auto. Qed.
Lemma normalize_inv : forall t t', normalize_table t = Ok t' ->
  (2 <= length t)%nat /\ trapz (numerators t) <> 0 /\ t' = yscale (/ trapz (numerators t)) (numerators t).
Proof.
  intros t t' H. unfold normalize_table in H. destruct t as [|p1 [|p2 t]]; try discriminate.
  set (den := trapz (numerators (p1 :: p2 :: t))) in *. destruct (Reqb den 0) eqn:E; [discriminate|].
  apply Reqb_false in E. split; [simpl; lia|]. split; auto.
  assert (H' : Ok (map (fun p => (fst p, snd p / den)) (numerators (p1 :: p2 :: t))) = Ok t') by exact H.
  rewrite div_map_yscale in H'. now inversion H'.
Qed.
Lemma normalize_integral : forall t t', normalize_table t = Ok t' -> trapz t' = 1.
Proof.
  intros t t' H. destruct (normalize_inv _ _ H) as (_ & D & ->). rewrite trapz_scale. now apply Rinv_l.
Qed.
Lemma normalize_xs : forall t t', normalize_table t = Ok t' -> xs t' = xs t.
Proof. intros t t' H. destruct (normalize_inv _ _ H) as (_ & D & ->). now rewrite xs_yscale, xs_numerators. Qed.

Lemma trapz_pos : forall t, increasing (xs t) -> Forall (fun p => 0 <= snd p) t -> (2 <= length t)%nat ->
  Exists (fun p => 0 < snd p) t -> 0 < trapz t.
Proof.
  induction t as [|[x1 y1] [|[x2 y2] t] IH]; intros H HF HL HE; try (simpl in HL; lia).
  rewrite trapz_cons. simpl fst; simpl snd. inversion HF as [|? ? F1 F2]; subst. inversion F2 as [|? ? F3 F4]; subst.
  simpl in F1, F3. assert (x1 < x2) by (destruct H; auto).
  assert (HT : increasing (xs ((x2, y2) :: t))) by (eapply increasing_tail; eauto).
  pose proof (trapz_nonneg _ HT F2) as T0. inversion HE as [? ? E|? ? E]; subst; simpl in E.
  - nra.
  - inversion E as [? ? E'|? ? E']; subst; simpl in E'; [nra|].
    destruct t as [|p t]; [inversion E'|]. assert (0 < trapz ((x2, y2) :: p :: t)) by (apply IH; auto; simpl; lia). nra.
Qed.
Lemma numerators_nonneg : forall t, Forall (fun p => 0 < fst p /\ 0 <= snd p) t -> Forall (fun p => 0 <= snd p) (numerators t).
Proof.
  intros t H. unfold numerators. rewrite Forall_map. eapply Forall_impl; [|exact H]. intros [x y] [A B]; simpl in *.
  apply Rmult_le_pos; auto. left. now apply Rinv_0_lt_compat.
Qed.
Lemma numerators_pos : forall t, Forall (fun p => 0 < fst p /\ 0 <= snd p) t -> Exists (fun p => 0 < snd p) t ->
  Exists (fun p => 0 < snd p) (numerators t).
Proof.
  intros t H HE. apply Exists_exists in HE. destruct HE as ([x y] & I1 & I2). apply Exists_exists.
  exists (x, y / x). split; [unfold numerators; apply (in_map (fun p => (fst p, snd p / fst p)) _ _ I1)|].
  rewrite Forall_forall in H. apply H in I1. simpl in *. apply Rmult_lt_0_compat; auto. now apply Rinv_0_lt_compat.
Qed.
Lemma normalize_nonneg : forall t t', increasing (xs t) -> Forall (fun p => 0 < fst p /\ 0 <= snd p) t ->
  normalize_table t = Ok t' -> Forall (fun p => 0 <= snd p) t'.
Proof.
  intros t t' HI HF H. destruct (normalize_inv _ _ H) as (_ & D & ->).
  pose proof (numerators_nonneg _ HF) as NN. assert (P : 0 <= trapz (numerators t)).
  { apply trapz_nonneg; auto. now rewrite xs_numerators. }
  unfold yscale. rewrite Forall_map. eapply Forall_impl; [|exact NN]. intros [x y] Hy; simpl in *.
  apply Rmult_le_pos; auto. left. apply Rinv_0_lt_compat. lra.
Qed.
Lemma normalize_defined : forall t, increasing (xs t) -> Forall (fun p => 0 < fst p /\ 0 <= snd p) t ->
  (2 <= length t)%nat -> Exists (fun p => 0 < snd p) t -> exists t', normalize_table t = Ok t'.
Proof.
  intros t HI HF HL HE. assert (P : 0 < trapz (numerators t)).
  { apply trapz_pos; [now rewrite xs_numerators|now apply numerators_nonneg| |now apply numerators_pos].
    unfold numerators. now rewrite map_length. }
  unfold normalize_table. destruct t as [|p1 [|p2 t]]; try (simpl in HL; lia).
  replace (Reqb (trapz (numerators (p1 :: p2 :: t))) 0) with false; [eauto|].
  symmetry. apply Reqb_false. lra.
Qed.

(** ** Interpolation *)
Lemma In_le_Rsum : forall l y, Forall (fun x => 0 <= x) l -> In y l -> y <= Rsum l.
Proof.
  induction l; intros y HF HI; [destruct HI|]. inversion HF; subst. simpl. pose proof (Rsum_nonneg _ H2).
  destruct HI as [->|HI]; [lra|]. specialize (IHl y H2 HI). lra.
Qed.
Lemma interp_nonneg : forall t q, increasing (xs t) -> Forall (fun p => 0 <= snd p) t -> 0 <= interp t 0 0 q.
Proof.
  intros [|p t] q HI HF; simpl; [lra|]. destruct (Rltb q (fst p)) eqn:E1; [lra|].
  apply Rltb_false in E1. destruct (Rltb (last_x (p :: t)) q); [lra|].
  apply (interp_seg_bounds t p q 0 (Rsum (ys (p :: t))) HI E1). intros a Ha. rewrite Forall_forall in HF. split; auto.
  apply In_le_Rsum; [unfold ys; apply Forall_forall; intros y Hy; apply in_map_iff in Hy; destruct Hy as (z & <- & Hz); auto|].
  unfold ys. now apply in_map.
Qed.
Definition map_ok {A B} (f : A -> B) (r : result A) : result B := match r with Ok a => Ok (f a) | Err e => Err e end.
Lemma interpolate_scale : forall c t d,
  interpolate_table (yscale c t) d = map_ok (yscale c) (interpolate_table t d).
Proof.
  intros c t [d|]; simpl; auto. rewrite xs_yscale, last_x_scale.
  destruct (forallb (fun x => isclose x d) (diffs (xs t))); simpl; auto.
  assert (EL : length (yscale c t) = length t) by (unfold yscale; apply map_length). rewrite EL.
  assert (EH : fst (hd (0, 0) (yscale c t)) = fst (hd (0, 0) t)) by (destruct t; reflexivity). rewrite EH.
  destruct (Rleb d 0); auto. destruct (length t <=? 1)%nat; auto. simpl. f_equal.
  unfold yscale at 2. rewrite map_map. apply map_ext. intros x. simpl. f_equal.
  rewrite <- (Rmult_0_r c) at 1 2. apply interp_scale.
Qed.
Lemma linspace_In : forall lo hi n x, lo <= hi -> In x (linspace lo hi n) -> lo <= x <= hi.
Proof.
  intros lo hi [|[|k]] x H HI; simpl in HI.
  - destruct HI.
  - destruct HI as [<-|[]]; lra.
  - change (In x (linspace lo hi (S (S k)))) in HI. unfold linspace in HI.
    apply in_map_iff in HI. destruct HI as (i & <- & Hi). apply in_seq in Hi.
    assert (K : 0 < INR (S k)) by (apply lt_0_INR; lia).
    assert (I0 : 0 <= INR i) by apply pos_INR. assert (I1 : INR i <= INR (S k)) by (apply le_INR; lia).
    assert (S0 : 0 <= (hi - lo) / INR (S k)) by (apply Rmult_le_pos; [lra|left; now apply Rinv_0_lt_compat]).
    split; [nra|]. assert (INR (S k) * ((hi - lo) / INR (S k)) = hi - lo) by (field; lra). nra.
Qed.
Lemma map_seq_increasing : forall (f : nat -> R) n s, (forall i, f i < f (S i)) -> increasing (map f (seq s n)).
Proof.
  induction n as [|n IH]; intros s H; [exact I|]. destruct n as [|n]; [exact I|].
  change (increasing (f s :: map f (seq (S s) (S n)))). specialize (IH (S s) H).
  change (map f (seq (S s) (S n))) with (f (S s) :: map f (seq (S (S s)) n)) in *. split; auto.
Qed.
Lemma linspace_increasing : forall lo hi n, lo < hi -> increasing (linspace lo hi n).
Proof.
  intros lo hi [|[|k]] H; try exact I. unfold linspace. apply map_seq_increasing. intros i. rewrite (S_INR i).
  assert (K : 0 < INR (S k)) by (apply lt_0_INR; lia).
  assert (S0 : 0 < (hi - lo) / INR (S k)) by (apply Rmult_lt_0_compat; [lra|now apply Rinv_0_lt_compat]). nra.
Qed.
Lemma xs_map_pair : forall (f : R -> R) l, xs (map (fun x => (x, f x)) l) = l.
Proof. intros. unfold xs. rewrite map_map. simpl. apply map_id. Qed.
Lemma hd_last_lt : forall p1 p2 t, increasing (xs (p1 :: p2 :: t)) -> fst p1 < last_x (p1 :: p2 :: t).
Proof.
  intros p1 p2 t H. pose proof (last_x_max (p2 :: t) p1 p2 H (or_intror (or_introl eq_refl))). destruct H. lra.
Qed.
Lemma interpolate_inv : forall t d t', increasing (xs t) -> interpolate_table t d = Ok t' ->
  t' = t \/ exists p1 p2 r dd, t = p1 :: p2 :: r /\ d = Some dd /\ 0 < dd /\
    t' = map (fun x => (x, interp t 0 0 x)) (linspace (fst p1) (last_x t) (floor_nat ((last_x t - fst p1) / dd) + 1)).
Proof.
  intros t [d|] t' HI H; simpl in H; [|inversion H; auto].
  destruct (forallb (fun x => isclose x d) (diffs (xs t))); [inversion H; auto|].
  destruct (Rleb d 0) eqn:ED; [discriminate|]. apply Rleb_false in ED.
  destruct t as [|p1 [|p2 t]]; try discriminate. simpl in H. inversion H; subst. right. exists p1, p2, t, d. auto.
Qed.
Lemma interpolate_increasing : forall t d t', increasing (xs t) -> interpolate_table t d = Ok t' -> increasing (xs t').
Proof.
  intros t d t' HI H. destruct (interpolate_inv _ _ _ HI H) as [->|(p1 & p2 & r & dd & -> & -> & D & ->)]; auto.
  rewrite xs_map_pair. apply linspace_increasing. now apply hd_last_lt.
Qed.
Lemma interpolate_nonneg : forall t d t', increasing (xs t) -> Forall (fun p => 0 < fst p /\ 0 <= snd p) t ->
  interpolate_table t d = Ok t' -> Forall (fun p => 0 < fst p /\ 0 <= snd p) t'.
Proof.
  intros t d t' HI HF H. destruct (interpolate_inv _ _ _ HI H) as [->|(p1 & p2 & r & dd & ET & -> & D & ->)]; auto.
  rewrite Forall_map. apply Forall_forall. intros x Hx. simpl. subst t. split.
  - apply linspace_In in Hx; [|left; now apply hd_last_lt]. inversion HF as [|? ? F1 _]; subst. lra.
  - apply interp_nonneg; auto. eapply Forall_impl; [|exact HF]. intros a Ha. exact (proj2 Ha).
Qed.

(** ** Trimming *)
Lemma cumtrapz_from_nth : forall t acc i, (i + 1 < length t)%nat ->
  nth_error (cumtrapz_from acc t) i = Some (acc + trapz (firstn (i + 2) t)).
Proof.
  induction t as [|[x1 y1] [|[x2 y2] t] IH]; intros acc i HL; try (simpl in HL; lia).
  destruct i as [|i].
  - simpl. f_equal. lra.
  - change (cumtrapz_from acc ((x1, y1) :: (x2, y2) :: t))
      with (acc + (x2 - x1) * (y1 + y2) / 2 :: cumtrapz_from (acc + (x2 - x1) * (y1 + y2) / 2) ((x2, y2) :: t)).
    cbn [nth_error]. rewrite IH by (simpl in *; lia). f_equal.
    replace (S i + 2)%nat with (S (S (S i))) by lia. replace (i + 2)%nat with (S (S i)) by lia.
    cbn [firstn]. rewrite trapz_cons. cbn [fst snd]. lra.
Qed.
Lemma cumtrapz_nth : forall t i, (i + 1 < length t)%nat -> nth_error (cumtrapz t) i = Some (trapz (firstn (i + 2) t)).
Proof. intros. unfold cumtrapz. rewrite cumtrapz_from_nth by auto. f_equal. lra. Qed.
Lemma cumtrapz_from_length : forall t acc, length (cumtrapz_from acc t) = (length t - 1)%nat.
Proof.
  induction t as [|[x1 y1] [|[x2 y2] t] IH]; intros acc; auto. simpl in *. rewrite IH. simpl. lia.
Qed.
Lemma cumtrapz_length : forall t, length (cumtrapz t) = (length t - 1)%nat.
Proof. intros. apply cumtrapz_from_length. Qed.
Lemma nth_last : forall A (l : list A) d, l <> [] -> nth_error l (length l - 1) = Some (last l d).
Proof.
  intros A l d. induction l as [|a [|b l] IH]; intros H; [congruence|reflexivity|].
  simpl in *. rewrite Nat.sub_0_r in *. apply IH. congruence.
Qed.
Lemma cumtrapz_last : forall t, (2 <= length t)%nat -> last (cumtrapz t) 0 = trapz t.
Proof.
  intros t HL. assert (N : cumtrapz t <> []).
  { intros E. pose proof (cumtrapz_length t). rewrite E in H. simpl in H. lia. }
  pose proof (nth_last _ _ 0 N) as Q. rewrite cumtrapz_length in Q.
  rewrite cumtrapz_nth in Q by lia. inversion Q as [Q']. f_equal. rewrite firstn_all2; auto. lia.
Qed.
Lemma trapz_split : forall t k, trapz (firstn (k + 1) t) + trapz (skipn k t) = trapz t.
Proof.
  intros t k. revert t. induction k as [|k IH]; intros t.
  - destruct t as [|p t]; simpl; try lra. destruct p; lra.
  - destruct t as [|p [|p2 t]]; [simpl; lra| |].
    + simpl. destruct p. rewrite firstn_nil, skipn_nil. simpl. lra.
    + specialize (IH (p2 :: t)). change (skipn (S k) (p :: p2 :: t)) with (skipn k (p2 :: t)).
      change (S k + 1)%nat with (S (k + 1)). cbn [firstn]. replace (k + 1)%nat with (S k) in * by lia.
      cbn [firstn] in *. rewrite !trapz_cons. lra.
Qed.
Lemma trapz_sub_nonneg : forall t k, increasing (xs t) -> Forall (fun p => 0 <= snd p) t ->
  0 <= trapz (skipn k t) /\ 0 <= trapz (firstn k t).
Proof.
  assert (A : forall k t, increasing (xs t) -> increasing (xs (skipn k t))).
  { induction k; intros [|p t] H; simpl; auto. apply IHk. rewrite xs_cons in H. eapply increasing_tail; eauto. }
  assert (B : forall k t, increasing (xs t) -> increasing (xs (firstn k t))).
  { induction k; intros [|p t] H; try exact I. cbn [firstn]. rewrite xs_cons in *. apply increasing_cons.
    - intros x Hx. eapply increasing_head; [exact H|]. unfold xs in *. apply in_map_iff in Hx.
      destruct Hx as (y & <- & Hy). apply in_map. rewrite <- (firstn_skipn k t). apply in_or_app. auto.
    - apply IHk. eapply increasing_tail; eauto. }
  intros t k H HF. rewrite <- (firstn_skipn k t) in HF. apply Forall_app in HF.
  split; apply trapz_nonneg; try tauto; auto.
Qed.
Lemma sub_increasing : forall k l t, increasing (xs t) -> increasing (xs (firstn k (skipn l t))).
Proof.
  assert (A : forall k t, increasing (xs t) -> increasing (xs (skipn k t))).
  { induction k; intros [|p t] H; simpl; auto. apply IHk. rewrite xs_cons in H. eapply increasing_tail; eauto. }
  assert (B : forall k t, increasing (xs t) -> increasing (xs (firstn k t))).
  { induction k; intros [|p t] H; try exact I. cbn [firstn]. rewrite xs_cons in *. apply increasing_cons.
    - intros x Hx. eapply increasing_head; [exact H|]. unfold xs in *. apply in_map_iff in Hx.
      destruct Hx as (y & <- & Hy). apply in_map. rewrite <- (firstn_skipn k t). apply in_or_app. auto.
    - apply IHk. eapply increasing_tail; eauto. }
  intros. auto.
Qed.
Lemma nondecreasing_of_nth : forall l, (forall i a b, nth_error l i = Some a -> nth_error l (S i) = Some b -> a <= b) ->
  nondecreasing l.
Proof.
  induction l as [|a [|b l] IH]; intros H; try exact I. split.
  - apply (H 0%nat); reflexivity.
  - apply IH. intros i. apply (H (S i)).
Qed.
Lemma cum_sorted : forall t, increasing (xs t) -> Forall (fun p => 0 <= snd p) t -> 0 < trapz t ->
  nondecreasing (map (fun a => a / last (cumtrapz t) 0) (cumtrapz t)).
Proof.
  intros t HI HF HT. apply nondecreasing_of_nth. intros i a b Ha Hb.
  assert (HL : (S i < length (cumtrapz t))%nat).
  { assert (nth_error (map (fun a => a / last (cumtrapz t) 0) (cumtrapz t)) (S i) <> None) by congruence.
    apply nth_error_Some in H. now rewrite map_length in H. }
  rewrite cumtrapz_length in HL.
  rewrite nth_error_map, cumtrapz_nth in Ha by lia. rewrite nth_error_map, cumtrapz_nth in Hb by lia.
  cbn [option_map] in Ha, Hb. injection Ha as <-. injection Hb as <-.
  rewrite cumtrapz_last by lia. unfold Rdiv. apply Rmult_le_compat_r; [left; now apply Rinv_0_lt_compat|].
  pose proof (trapz_split (firstn (S i + 2) t) (i + 1)) as Q.
  rewrite firstn_firstn in Q. replace (Nat.min (i + 1 + 1) (S i + 2)) with (i + 2)%nat in Q by lia.
  assert (0 <= trapz (skipn (i + 1) (firstn (S i + 2) t))).
  { apply trapz_sub_nonneg.
    - apply (sub_increasing (S i + 2) 0 t). auto.
    - rewrite <- (firstn_skipn (S i + 2) t) in HF. apply Forall_app in HF. tauto. }
  match goal with |- _ <= trapz ?x => change x with (firstn (S i + 2) t) end. lra.
Qed.
Lemma cumtrapz_scale : forall c t acc, cumtrapz_from (c * acc) (yscale c t) = map (fun a => c * a) (cumtrapz_from acc t).
Proof.
  intros c. induction t as [|[x1 y1] [|[x2 y2] t] IH]; intros acc; auto. 
  change (yscale c ((x1, y1) :: (x2, y2) :: t)) with ((x1, c * y1) :: (x2, c * y2) :: yscale c t).
  cbn [cumtrapz_from]. cbv zeta. cbn [map].
  replace (c * acc + (x2 - x1) * (c * y1 + c * y2) / 2) with (c * (acc + (x2 - x1) * (y1 + y2) / 2)) by field.
  f_equal. apply (IH (acc + (x2 - x1) * (y1 + y2) / 2)).
Qed.
Lemma last_map : forall (f : R -> R) l, l <> [] -> last (map f l) 0 = f (last l 0).
Proof. induction l as [|a [|b l] IH]; intros H; [congruence|reflexivity|]. simpl in *. apply IH. congruence. Qed.
Lemma firstn_yscale : forall c k t, firstn k (yscale c t) = yscale c (firstn k t).
Proof. intros. unfold yscale. apply firstn_map. Qed.
Lemma skipn_yscale : forall c k t, skipn k (yscale c t) = yscale c (skipn k t).
Proof. intros. unfold yscale. apply skipn_map. Qed.
Lemma trim_scale : forall c t q, 0 < c -> trim_table (yscale c t) q = map_ok (yscale c) (trim_table t q).
Proof.
  intros c t [q|] Hc; simpl; auto. destruct (Reqb q 0); auto. destruct (_ || _)%bool; auto.
  assert (E : cumtrapz (yscale c t) = map (fun a => c * a) (cumtrapz t)).
  { unfold cumtrapz. rewrite <- cumtrapz_scale. f_equal. lra. }
  rewrite E. destruct (cumtrapz t) as [|a0 cum] eqn:EC; simpl; auto.
  change (match map (fun a => c * a) cum with [] => c * a0 | _ :: _ => last (map (fun a => c * a) cum) 0 end)
    with (last (map (fun a => c * a) (a0 :: cum)) 0).
  rewrite last_map by congruence. change (match cum with [] => a0 | _ :: _ => last cum 0 end) with (last (a0 :: cum) 0).
  set (L := last (a0 :: cum) 0).
  assert (ER : Reqb (c * L) 0 = Reqb L 0).
  { destruct (Reqb L 0) eqn:X.
    - apply Reqb_true in X. apply Reqb_true. rewrite X. lra.
    - apply Reqb_false in X. apply Reqb_false. intros Y. apply X. apply Rmult_integral in Y. lra. }
  rewrite ER. destruct (Reqb L 0) eqn:EL; simpl.
  - f_equal. destruct t; reflexivity.
  - apply Reqb_false in EL.
    assert (EM : c * a0 / (c * L) :: map (fun a => a / (c * L)) (map (fun a => c * a) cum)
                 = a0 / L :: map (fun a => a / L) cum).
    { f_equal; [field; lra|]. rewrite map_map. apply map_ext. intros a. field. lra. }
    rewrite EM, skipn_yscale, firstn_yscale. reflexivity.
Qed.
Lemma normalize_scale : forall c t, 0 < c -> normalize_table (yscale c t) = normalize_table t.
Proof.
  intros c t Hc. assert (EN : numerators (yscale c t) = yscale c (numerators t)).
  { unfold numerators, yscale. rewrite !map_map. apply map_ext. intros [x y]. simpl. f_equal. unfold Rdiv. ring. }
  unfold normalize_table. destruct t as [|p1 [|p2 t]]; auto.
  change (match yscale c (p1 :: p2 :: t) with
    | [] => Err ValueError | [_] => Err ValueError | _ :: _ :: _ =>
      if Reqb (trapz (numerators (yscale c (p1 :: p2 :: t)))) 0 then Err ValueError
      else Ok (map (fun p => (fst p, snd p / trapz (numerators (yscale c (p1 :: p2 :: t))))) (numerators (yscale c (p1 :: p2 :: t)))) end
   = (if Reqb (trapz (numerators (p1 :: p2 :: t))) 0 then Err ValueError
      else Ok (map (fun p => (fst p, snd p / trapz (numerators (p1 :: p2 :: t)))) (numerators (p1 :: p2 :: t))))).
  rewrite EN, trapz_scale. set (D := trapz (numerators (p1 :: p2 :: t))). simpl.
  assert (ER : Reqb (c * D) 0 = Reqb D 0).
  { destruct (Reqb D 0) eqn:X.
    - apply Reqb_true in X. apply Reqb_true. rewrite X. lra.
    - apply Reqb_false in X. apply Reqb_false. intros Y. apply X. apply Rmult_integral in Y. lra. }
  rewrite ER. destruct (Reqb D 0) eqn:EL; auto. apply Reqb_false in EL. f_equal.
  assert (F : forall y, c * y / (c * D) = y / D) by (intros; field; lra).
  f_equal; [f_equal; apply F|]. f_equal; [f_equal; apply F|]. unfold yscale. rewrite map_map. apply map_ext.
  intros [x y]. simpl. f_equal. apply F.
Qed.
Lemma process_scale : forall c t d q, 0 < c -> process_table (yscale c t) d q = process_table t d q.
Proof.
  intros c t d q Hc. unfold process_table. rewrite interpolate_scale.
  destruct (interpolate_table t d) as [t1|]; simpl; auto. rewrite trim_scale by auto.
  destruct (trim_table t1 q) as [t2|]; simpl; auto. now apply normalize_scale.
Qed.

(** The trimmed table is a block of rows. *)
Lemma trim_block : forall t q t', trim_table t q = Ok t' -> exists k l, t' = firstn k (skipn l t).
Proof.
  intros t [q|] t' H; simpl in H.
  - assert (ID : exists k l, t = firstn k (skipn l t)).
    { exists (length t), 0%nat. simpl. now rewrite firstn_all. }
    destruct (Reqb q 0); [inversion H; subst; auto|]. destruct (_ || _)%bool; [discriminate|].
    destruct (cumtrapz t) as [|a0 cum]; [discriminate|].
    match type of H with (if ?b then _ else _) = _ => destruct b end.
    + inversion H. exists 1%nat, 0%nat. reflexivity.
    + inversion H. eauto.
  - inversion H; subst. exists (length t'), 0%nat. simpl. now rewrite firstn_all.
Qed.
Lemma trim_increasing : forall t q t', increasing (xs t) -> trim_table t q = Ok t' -> increasing (xs t').
Proof. intros t q t' HI H. destruct (trim_block _ _ _ H) as (k & l & ->). now apply sub_increasing. Qed.
Lemma Forall_block : forall A (P : A -> Prop) k l t, Forall P t -> Forall P (firstn k (skipn l t)).
Proof.
  intros A P k l t H. apply Forall_forall. intros x Hx. rewrite Forall_forall in H. apply H.
  rewrite <- (firstn_skipn l t). apply in_or_app. right. rewrite <- (firstn_skipn k (skipn l t)). apply in_or_app. auto.
Qed.
Lemma trim_Forall : forall P t q t', Forall P t -> trim_table t q = Ok t' -> Forall P t'.
Proof. intros P t q t' HF H. destruct (trim_block _ _ _ H) as (k & l & ->). now apply Forall_block. Qed.

(** ** Construction *)
Lemma diffs_increasing : forall l, existsb (fun d => Rltb d 0) (diffs l) = false ->
  existsb (fun d => Reqb d 0) (diffs l) = false -> increasing l.
Proof.
  induction l as [|a [|b l] IH]; intros H1 H2; try exact I.
  change (diffs (a :: b :: l)) with ((b - a) :: diffs (b :: l)) in *. simpl existsb in H1, H2.
  apply orb_false_iff in H1. apply orb_false_iff in H2. destruct H1 as [H1 H1'], H2 as [H2 H2'].
  apply Rltb_false in H1. apply Reqb_false in H2. split; [lra|]. apply IH; auto.
Qed.
Lemma validate_inv : forall t u t', validate t u = Ok t' ->
  increasing (xs t) /\ increasing (xs t') /\
  (t' = t \/ t' = map (fun p => (fst p * 10, snd p)) t).
Proof.
  intros t u t' H. unfold validate in H.
  destruct (existsb (fun d => Rltb d 0) (diffs (xs t))) eqn:E1; [discriminate|].
  destruct (existsb (fun d => Reqb d 0) (diffs (xs t))) eqn:E2; [discriminate|].
  pose proof (diffs_increasing _ E1 E2) as HI. split; auto. destruct u; inversion H; subst; auto. split; auto.
  clear - HI. induction t as [|p [|p2 t] IH]; try exact I.
  change (xs (map (fun p => (fst p * 10, snd p)) (p :: p2 :: t)))
    with (fst p * 10 :: fst p2 * 10 :: xs (map (fun p => (fst p * 10, snd p)) t)).
  destruct HI as [H1 H2]. split; [simpl in H1; lra|]. apply IH. exact H2.
Qed.
Lemma process_inv : forall t d q t', process_table t d q = Ok t' ->
  exists t1 t2, interpolate_table t d = Ok t1 /\ trim_table t1 q = Ok t2 /\ normalize_table t2 = Ok t'.
Proof.
  intros t d q t' H. unfold process_table in H. destruct (interpolate_table t d) as [t1|] eqn:E1; [|discriminate].
  simpl in H. destruct (trim_table t1 q) as [t2|] eqn:E2; [|discriminate]. eauto.
Qed.
Lemma process_increasing : forall t d q t', increasing (xs t) -> process_table t d q = Ok t' ->
  increasing (xs t') /\ (2 <= length t')%nat.
Proof.
  intros t d q t' HI H. destruct (process_inv _ _ _ _ H) as (t1 & t2 & E1 & E2 & E3).
  pose proof (normalize_xs _ _ E3) as EX. rewrite EX. split.
  - apply (trim_increasing t1 q); auto. apply (interpolate_increasing t d); auto.
  - destruct (normalize_inv _ _ E3) as (L & _). apply (f_equal (@length R)) in EX. unfold xs in EX. rewrite !map_length in EX. lia.
Qed.
Lemma make_inv : forall t s f d q u p, pb_make t s f d q u = Ok p ->
  exists t0, validate t u = Ok t0 /\ process_table t0 d q = Ok (pb_table p) /\ pb_delta p = d /\
    pb_loaded p = t0 /\ pb_survey p = s /\ pb_filter p = f.
Proof.
  intros t s f d q u p H. unfold pb_make in H. destruct (validate t u) as [t0|]; [|discriminate].
  simpl in H. destruct (process_table t0 d q) eqn:E; [|discriminate]. simpl in H. inversion H; subst. simpl. exists t0. auto 10.
Qed.
