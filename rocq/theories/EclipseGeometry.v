(** Property C70, geometry: the overlap area of two discs. *)
From Coq Require Import Reals List Bool Lia Lra.
From Verif Require Import Base BaseFacts RealBase EclipseModel.
Import ListNotations.
Open Scope R_scope.

Ltac dec1 := match goal with
  | |- context [Rltb ?u ?v] => let E := fresh "E" in destruct (Rltb u v) eqn:E; [apply Rltb_true in E | apply Rltb_false in E]
  | |- context [Rleb ?u ?v] => let E := fresh "E" in destruct (Rleb u v) eqn:E; [apply Rleb_true in E | apply Rleb_false in E]
  end.

Lemma quot_mul : forall a c, 0 < c -> a / c * c = a.
Proof. intros. field. lra. Qed.
Lemma lt_quot : forall a b c, 0 < c -> b * c < a -> b < a / c.
Proof. intros a b c H L. assert (Q := quot_mul a c H). nra. Qed.
Lemma quot_lt : forall a b c, 0 < c -> a < b * c -> a / c < b.
Proof. intros a b c H L. assert (Q := quot_mul a c H). nra. Qed.
Lemma le_quot : forall a b c, 0 < c -> b * c <= a -> b <= a / c.
Proof. intros a b c H L. assert (Q := quot_mul a c H). nra. Qed.
Lemma quot_le : forall a b c, 0 < c -> a <= b * c -> a / c <= b.
Proof. intros a b c H L. assert (Q := quot_mul a c H). nra. Qed.

(** ** The overlapping case in coordinates *)
(** First centre at 0, second at [d] on the x axis; the circles meet at (x, h) and (x, -h). *)
Definition meet (d r1 r2 x h : R) : Prop := 0 < h /\ x * x + h * h = r1 * r1 /\ (d - x) * (d - x) + h * h = r2 * r2.
Definition u1 (r1 r2 d : R) : R := (d * d + r1 * r1 - r2 * r2) / (2 * r1 * d).
Lemma u1_range : forall r1 r2 d, 0 < r1 -> 0 < r2 -> 0 < d -> Rabs (r1 - r2) < d < r1 + r2 -> -1 < u1 r1 r2 d < 1.
Proof.
  intros r1 r2 d H1 H2 Hd [A B]. apply Rabs_def2 in A. unfold u1.
  assert (P : 0 < 2 * r1 * d) by nra. split; [apply lt_quot|apply quot_lt]; auto; nra.
Qed.
Lemma u1_range_closed : forall r1 r2 d, 0 < r1 -> 0 < r2 -> 0 < d -> Rabs (r1 - r2) <= d <= r1 + r2 -> -1 <= u1 r1 r2 d <= 1.
Proof.
  intros r1 r2 d H1 H2 Hd [A B]. assert (A' := Rle_abs (r1 - r2)). assert (A'' := Rle_abs (- (r1 - r2))). rewrite Rabs_Ropp in A''. unfold u1.
  assert (P : 0 < 2 * r1 * d) by nra. split; [apply le_quot|apply quot_le]; auto; nra.
Qed.
(** The formula without the case distinctions. *)
Definition lens (r1 r2 d : R) : R := r1 * r1 * acos (u1 r1 r2 d) + r2 * r2 * acos (u1 r2 r1 d) - r1 * d * sin (acos (u1 r1 r2 d)).
Lemma meet_exists : forall r1 r2 d, 0 < r1 -> 0 < r2 -> 0 < d -> Rabs (r1 - r2) < d < r1 + r2 ->
  exists x h, meet d r1 r2 x h /\ x = r1 * u1 r1 r2 d /\ d - x = r2 * u1 r2 r1 d /\ h = r1 * sin (acos (u1 r1 r2 d)) /\ h = r2 * sin (acos (u1 r2 r1 d)).
Proof.
  intros r1 r2 d H1 H2 Hd H. assert (U1 := u1_range r1 r2 d H1 H2 Hd H).
  assert (H' : Rabs (r2 - r1) < d < r2 + r1) by (rewrite Rabs_minus_sym; lra). assert (U2 := u1_range r2 r1 d H2 H1 Hd H').
  assert (S1 : 0 < sin (acos (u1 r1 r2 d))) by (apply sin_gt_0; apply acos_bound_lt; lra).
  assert (S2 : 0 < sin (acos (u1 r2 r1 d))) by (apply sin_gt_0; apply acos_bound_lt; lra).
  assert (Q1 := sin2_cos2 (acos (u1 r1 r2 d))). assert (Q2 := sin2_cos2 (acos (u1 r2 r1 d))). unfold Rsqr in *.
  rewrite cos_acos in Q1, Q2 by lra. set (s1 := sin (acos (u1 r1 r2 d))) in *. set (s2 := sin (acos (u1 r2 r1 d))) in *.
  assert (X : r1 * u1 r1 r2 d + r2 * u1 r2 r1 d = d) by (unfold u1; field; lra).
  assert (Y : (r1 * u1 r1 r2 d) * (r1 * u1 r1 r2 d) - (r2 * u1 r2 r1 d) * (r2 * u1 r2 r1 d) = r1 * r1 - r2 * r2) by (unfold u1; field; lra).
  set (a := u1 r1 r2 d) in *. set (b := u1 r2 r1 d) in *.
  assert (E : r1 * s1 = r2 * s2).
  { assert (SQ : (r1 * s1) * (r1 * s1) = (r2 * s2) * (r2 * s2)) by nra.
    assert (P1 : 0 < r1 * s1) by nra. assert (P2 : 0 < r2 * s2) by nra.
    assert (Z : (r1 * s1 - r2 * s2) * (r1 * s1 + r2 * s2) = 0) by nra. apply Rmult_integral in Z. destruct Z; lra. }
  exists (r1 * a), (r1 * s1). split; [|split; [|split; [|split]]]; auto; try lra. split; [nra|]. split; nra.
Qed.
Lemma meet_unique : forall d r1 r2 x h x' h', 0 < d -> meet d r1 r2 x h -> meet d r1 r2 x' h' -> x = x' /\ h = h'.
Proof.
  intros d r1 r2 x h x' h' Hd (P & A & B) (P' & A' & B'). assert (X : d * (x - x') = 0) by nra. apply Rmult_integral in X.
  assert (x = x') by (destruct X; lra). subst x'. split; auto. assert (Z : (h - h') * (h + h') = 0) by nra. apply Rmult_integral in Z. destruct Z; lra.
Qed.
Lemma u1_deriv : forall r1 r2 d, 0 < r1 -> 0 < d -> derivable_pt_lim (u1 r1 r2) d ((d * d - r1 * r1 + r2 * r2) / (2 * r1 * d * d)).
Proof.
  intros r1 r2 d H1 Hd.
  assert (N : derivable_pt_lim (fun d => d * d + (r1 * r1 - r2 * r2)) d (1 * d + d * 1 + 0)).
  { apply (derivable_pt_lim_plus (fun d => d * d) (fun _ => r1 * r1 - r2 * r2)); [|apply derivable_pt_lim_const].
    apply (derivable_pt_lim_mult (fun d => d) (fun d => d)); apply derivable_pt_lim_id. }
  assert (D : derivable_pt_lim (fun d => 2 * r1 * d) d (2 * r1 * 1)) by (apply (derivable_pt_lim_scal (fun d => d)); apply derivable_pt_lim_id).
  assert (NZ : 2 * r1 * d <> 0) by nra.
  assert (X := derivable_pt_lim_div _ _ _ _ _ N D NZ). cbv beta in X.
  replace ((d * d - r1 * r1 + r2 * r2) / (2 * r1 * d * d)) with (((1 * d + d * 1 + 0) * (2 * r1 * d) - 2 * r1 * 1 * (d * d + (r1 * r1 - r2 * r2))) / Rsqr (2 * r1 * d)).
  - intros eps He. destruct (X eps He) as [del Hdel]. exists del. intros h N1 A. specialize (Hdel h N1 A). unfold div_fct in Hdel. unfold u1.
    replace ((d + h) * (d + h) + r1 * r1 - r2 * r2) with ((d + h) * (d + h) + (r1 * r1 - r2 * r2)) by ring.
    replace (d * d + r1 * r1 - r2 * r2) with (d * d + (r1 * r1 - r2 * r2)) by ring. exact Hdel.
  - unfold Rsqr. field. lra.
Qed.
Lemma acos_deriv : forall x, -1 < x < 1 -> derivable_pt_lim acos x (- / sin (acos x)).
Proof.
  intros x H. assert (E := derive_pt_acos x H). set (pr := derivable_pt_acos x H) in *.
  assert (D : derivable_pt_lim acos x (derive_pt acos x pr)) by (destruct pr as [l L]; exact L).
  rewrite E in D. rewrite sin_acos by lra. replace (- / sqrt (1 - x²)) with (-1 / sqrt (1 - x²)) by (unfold Rdiv; ring). exact D.
Qed.
Lemma lens_deriv : forall r1 r2 d x h, 0 < r1 -> 0 < r2 -> 0 < d -> Rabs (r1 - r2) < d < r1 + r2 -> meet d r1 r2 x h ->
  derivable_pt_lim (lens r1 r2) d (- (2 * h)).
Proof.
  intros r1 r2 d x h H1 H2 Hd H M. destruct (meet_exists r1 r2 d H1 H2 Hd H) as (x' & h' & M' & EX & EY & EH1 & EH2).
  destruct (meet_unique _ _ _ _ _ _ _ Hd M M') as [-> ->]. clear M.
  assert (U1 := u1_range r1 r2 d H1 H2 Hd H). assert (H' : Rabs (r2 - r1) < d < r2 + r1) by (rewrite Rabs_minus_sym; lra).
  assert (U2 := u1_range r2 r1 d H2 H1 Hd H').
  assert (D1 := derivable_pt_lim_comp _ _ _ _ _ (u1_deriv r1 r2 d H1 Hd) (acos_deriv _ U1)).
  assert (D2 := derivable_pt_lim_comp _ _ _ _ _ (u1_deriv r2 r1 d H2 Hd) (acos_deriv _ U2)).
  assert (D3 := derivable_pt_lim_comp _ _ _ _ _ D1 (derivable_pt_lim_sin (comp acos (u1 r1 r2) d))).
  set (l1 := - / sin (acos (u1 r1 r2 d)) * ((d * d - r1 * r1 + r2 * r2) / (2 * r1 * d * d))) in *.
  set (l2 := - / sin (acos (u1 r2 r1 d)) * ((d * d - r2 * r2 + r1 * r1) / (2 * r2 * d * d))) in *.
  assert (D4 := derivable_pt_lim_mult (fun d => r1 * d) _ d _ _ (derivable_pt_lim_scal (fun d => d) r1 d 1 (derivable_pt_lim_id d)) D3).
  assert (DD := derivable_pt_lim_minus _ _ _ _ _ (derivable_pt_lim_plus _ _ _ _ _ (derivable_pt_lim_scal _ (r1 * r1) _ _ D1) (derivable_pt_lim_scal _ (r2 * r2) _ _ D2)) D4).
  replace (- (2 * h')) with (r1 * r1 * l1 + r2 * r2 * l2 - (r1 * 1 * comp sin (comp acos (u1 r1 r2)) d + r1 * d * (cos (comp acos (u1 r1 r2) d) * l1))).
  - intros eps He. destruct (DD eps He) as [del Hdel]. exists del. intros k N A. exact (Hdel k N A).
  - unfold comp, l1, l2. rewrite cos_acos by lra. destruct M' as (P & A & B).
    set (s1 := sin (acos (u1 r1 r2 d))) in *. set (s2 := sin (acos (u1 r2 r1 d))) in *.
    replace ((d * d - r1 * r1 + r2 * r2) / (2 * r1 * d * d)) with ((d - x') / (r1 * d)) by (rewrite EY; unfold u1; field; lra).
    replace ((d * d - r2 * r2 + r1 * r1) / (2 * r2 * d * d)) with (x' / (r2 * d)) by (rewrite EX; unfold u1; field; lra).
    replace (u1 r1 r2 d) with (x' / r1) by (rewrite EX; field; lra).
    assert (S1 : s1 = h' / r1) by (rewrite EH1; field; lra). assert (S2 : s2 = h' / r2) by (rewrite EH2; field; lra). rewrite S1, S2.
    transitivity (- (r1 * r1 * (d - x') + r2 * r2 * x') / (d * h') - h' + x' * (d - x') / h'); [field; lra|].
    rewrite <- A, <- B. field. lra.
Qed.
Lemma lens_deriv' : forall r1 r2 d, 0 < r1 -> 0 < r2 -> 0 < d -> Rabs (r1 - r2) < d < r1 + r2 ->
  derivable_pt_lim (lens r1 r2) d (- (2 * (r1 * sin (acos (u1 r1 r2 d))))).
Proof.
  intros r1 r2 d H1 H2 Hd H. destruct (meet_exists r1 r2 d H1 H2 Hd H) as (x & h & M & _ & _ & E & _). rewrite <- E. eapply lens_deriv; eauto.
Qed.

(** ** Continuity *)
Lemma acos_low : forall x, x <= -1 -> acos x = PI.
Proof. intros x H. unfold acos. destruct (Rle_dec x (-1)); [auto|lra]. Qed.
Lemma acos_high : forall x, 1 <= x -> acos x = 0.
Proof. intros x H. unfold acos. destruct (Rle_dec x (-1)); [lra|]. destruct (Rle_dec 1 x); [auto|lra]. Qed.
Lemma acos_decr : forall x y, x <= y -> acos y <= acos x.
Proof.
  intros x y H. destruct (Rle_or_lt x (-1)); [rewrite (acos_low x) by auto; apply acos_bound|].
  destruct (Rle_or_lt 1 y); [rewrite (acos_high y) by auto; apply acos_bound|].
  destruct (Rle_or_lt (acos y) (acos x)) as [|N]; auto. exfalso.
  assert (B1 := acos_bound x). assert (B2 := acos_bound y). assert (C := cos_decreasing_1 (acos x) (acos y) ltac:(tauto) ltac:(tauto) ltac:(tauto) ltac:(tauto) N).
  rewrite !cos_acos in C by lra. lra.
Qed.
Lemma acos_above : forall x e, 0 < e -> exists del, 0 < del /\ forall y, x - del < y -> acos y < acos x + e.
Proof.
  intros x e He. assert (B := acos_bound x). destruct (Rle_or_lt (acos x + e) PI) as [L|L].
  - destruct (Rlt_or_le x 1) as [X|X].
    + destruct (Rlt_or_le (-1) x) as [X'|X'].
      * assert (C : cos (acos x + e) < cos (acos x)) by (apply cos_decreasing_1; lra). rewrite cos_acos in C by lra.
        exists (x - cos (acos x + e)). split; [lra|]. intros y Hy. destruct (Rlt_or_le (acos y) (acos x + e)) as [|N]; auto. exfalso.
        assert (BY := acos_bound y). assert (Y1 : -1 < y) by (pose proof (COS_bound (acos x + e)); lra).
        destruct (Rle_or_lt 1 y) as [Y2|Y2]; [rewrite (acos_high y) in N by auto; lra|].
        assert (D : cos (acos y) <= cos (acos x + e)) by (destruct N as [N|N]; [left; apply cos_decreasing_1; lra|rewrite N; lra]).
        rewrite cos_acos in D by lra. lra.
      * rewrite acos_low in L by auto. lra.
    + rewrite (acos_high x) in * by auto. assert (C : cos e < cos 0) by (apply cos_decreasing_1; lra). rewrite cos_0 in C.
      exists (1 - cos e). split; [lra|]. intros y Hy. destruct (Rlt_or_le (acos y) (0 + e)) as [|N]; auto. exfalso.
      assert (BY := acos_bound y). assert (Y1 : -1 < y) by (pose proof (COS_bound e); lra).
      destruct (Rle_or_lt 1 y) as [Y2|Y2]; [rewrite (acos_high y) in N by auto; lra|].
      assert (D : cos (acos y) <= cos e) by (destruct N as [N|N]; [left; apply cos_decreasing_1; lra|rewrite <- N, Rplus_0_l; lra]).
      rewrite cos_acos in D by lra. lra.
  - exists 1. split; [lra|]. intros y _. pose proof (acos_bound y). lra.
Qed.
Lemma acos_opp_all : forall x, acos (- x) = PI - acos x.
Proof. exact acos_opp. Qed.
Lemma acos_cont : continuity acos.
Proof.
  intros x e He. destruct (acos_above x e He) as (d1 & P1 & H1). destruct (acos_above (- x) e He) as (d2 & P2 & H2).
  exists (Rmin d1 d2). split; [now apply Rmin_pos|]. intros y [_ Hy]. simpl in *. unfold R_dist in *. apply Rabs_def2 in Hy.
  assert (M1 := Rmin_l d1 d2). assert (M2 := Rmin_r d1 d2).
  assert (A := H1 y ltac:(lra)). assert (B := H2 (- y) ltac:(lra)). rewrite !acos_opp_all in B. apply Rabs_def1; lra.
Qed.
Lemma u1_cont : forall r1 r2 d, 0 < r1 -> 0 < d -> continuity_pt (u1 r1 r2) d.
Proof. intros. apply derivable_continuous_pt. eexists. apply u1_deriv; auto. Qed.
Lemma lens_cont : forall r1 r2 d, 0 < r1 -> 0 < r2 -> 0 < d -> continuity_pt (lens r1 r2) d.
Proof.
  intros r1 r2 d H1 H2 Hd. assert (C1 : continuity_pt (comp acos (u1 r1 r2)) d) by (apply continuity_pt_comp; [apply u1_cont; auto|apply acos_cont]).
  assert (C2 : continuity_pt (comp acos (u1 r2 r1)) d) by (apply continuity_pt_comp; [apply u1_cont; auto|apply acos_cont]).
  assert (C3 : continuity_pt (comp sin (comp acos (u1 r1 r2))) d) by (apply continuity_pt_comp; [auto|apply continuity_sin]).
  assert (ID : continuity_pt (fun d => r1 * d) d) by (apply (continuity_pt_scal (fun d => d)); apply derivable_continuous_pt; apply derivable_pt_id).
  exact (continuity_pt_minus _ _ _ (continuity_pt_plus _ _ _ (continuity_pt_scal _ (r1 * r1) _ C1) (continuity_pt_scal _ (r2 * r2) _ C2)) (continuity_pt_mult _ _ _ ID C3)).
Qed.
(** For positive distances the function is the formula. *)
Lemma u1_far : forall r1 r2 d, 0 < r1 -> 0 < r2 -> r1 + r2 <= d -> 1 <= u1 r1 r2 d.
Proof. intros. unfold u1. apply le_quot; nra. Qed.
Lemma u1_in : forall r1 r2 d, 0 < r1 -> 0 < r2 -> 0 < d -> d <= r1 - r2 -> 1 <= u1 r1 r2 d /\ u1 r2 r1 d <= -1.
Proof. intros. unfold u1. split; [apply le_quot|apply quot_le]; nra. Qed.
Lemma lens_far : forall r1 r2 d, 0 < r1 -> 0 < r2 -> r1 + r2 <= d -> lens r1 r2 d = 0.
Proof. intros r1 r2 d H1 H2 H. unfold lens. rewrite !acos_high by (apply u1_far; lra). rewrite sin_0. ring. Qed.
Lemma lens_in : forall r1 r2 d, 0 < r1 -> 0 < r2 -> 0 < d -> d <= Rabs (r1 - r2) -> lens r1 r2 d = PI * (Rmin r1 r2 * Rmin r1 r2).
Proof.
  intros r1 r2 d H1 H2 Hd H. unfold lens, Rabs in *. destruct (Rcase_abs (r1 - r2)).
  - destruct (u1_in r2 r1 d H2 H1 Hd ltac:(lra)) as [A B]. rewrite (acos_high _ A), (acos_low _ B), sin_PI. rewrite Rmin_left by lra. ring.
  - destruct (u1_in r1 r2 d H1 H2 Hd ltac:(lra)) as [A B]. rewrite (acos_high _ A), (acos_low _ B), sin_0. rewrite Rmin_right by lra. ring.
Qed.
(** Strictly decreasing while the discs overlap. *)
Lemma lens_decr : forall r1 r2 d d', 0 < r1 -> 0 < r2 -> 0 < d -> Rabs (r1 - r2) <= d -> d < d' -> d' <= r1 + r2 -> lens r1 r2 d' < lens r1 r2 d.
Proof.
  intros r1 r2 d d' H1 H2 Hd HA HL HB.
  assert (D : forall c, d < c < d' -> derivable_pt (lens r1 r2) c).
  { intros c Hc. exists (- (2 * (r1 * sin (acos (u1 r1 r2 c))))). apply lens_deriv'; lra. }
  assert (D2 : forall c, d < c < d' -> derivable_pt id c) by (intros; apply derivable_pt_id).
  destruct (MVT (lens r1 r2) id d d' D D2 HL) as (c & P & E).
  - intros c Hc. apply lens_cont; lra.
  - intros c _. apply derivable_continuous_pt, derivable_pt_id.
  - destruct (meet_exists r1 r2 c H1 H2 ltac:(lra) ltac:(lra)) as (x & h & M & _).
    assert (V : derive_pt (lens r1 r2) c (D c P) = - (2 * h)) by (apply derive_pt_eq; eapply lens_deriv; eauto; lra).
    assert (V2 : derive_pt id c (D2 c P) = 1) by (apply derive_pt_eq; apply derivable_pt_lim_id).
    rewrite V, V2 in E. unfold id in E. destruct M as (PH & _). nra.
Qed.
Lemma lens_nonneg : forall r1 r2 d, 0 < r1 -> 0 < r2 -> 0 < d -> Rabs (r1 - r2) <= d -> 0 <= lens r1 r2 d.
Proof.
  intros r1 r2 d H1 H2 Hd H. destruct (Rle_or_lt (r1 + r2) d) as [L|L]; [rewrite lens_far by auto; lra|].
  rewrite <- (lens_far r1 r2 (r1 + r2)) by lra. left. apply lens_decr; lra.
Qed.
Lemma np_div_some : forall a b, b <> 0 -> np_div a b = Some (a / b).
Proof. intros. unfold np_div. destruct (Reqb b 0) eqn:E; auto. apply Reqb_true in E. contradiction. Qed.
Lemma area_lens : forall d r1 r2, 0 < r1 -> 0 < r2 -> 0 < d -> overlap_area d r1 r2 = lens r1 r2 d.
Proof.
  intros d r1 r2 H1 H2 Hd. unfold overlap_area. cbv zeta. rewrite !np_div_some by nra.
  destruct (Rleb (r1 + r2) d) eqn:E; [apply Rleb_true in E; now rewrite lens_far by auto|apply Rleb_false in E].
  destruct (Rleb d (Rabs (r1 - r2))) eqn:E2; [apply Rleb_true in E2; now rewrite lens_in by auto|apply Rleb_false in E2].
  assert (U1 := u1_range r1 r2 d H1 H2 Hd ltac:(lra)). assert (U2 := u1_range r2 r1 d H2 H1 Hd ltac:(rewrite Rabs_minus_sym; lra)).
  fold (u1 r1 r2 d) (u1 r2 r1 d). cbn [arccos].
  assert (Q : forall v, -1 < v < 1 -> (Rleb (-1) v && Rleb v 1)%bool = true) by (intros v Hv; apply andb_true_iff; split; apply Rleb_true; lra).
  rewrite !Q by auto. fold (lens r1 r2 d). assert (N := lens_nonneg r1 r2 d H1 H2 Hd ltac:(lra)). destruct (Rleb 0 (lens r1 r2 d)) eqn:E3; auto. apply Rleb_false in E3. lra.
Qed.

(** ** Theorems *)
(** Discs that do not overlap. *)
Theorem C70_apart : forall d r1 r2, 0 < r1 -> 0 < r2 -> r1 + r2 <= d -> overlap_area d r1 r2 = 0.
Proof. intros. rewrite area_lens by lra. apply lens_far; auto. Qed.
(** One disc inside the other: the area of the smaller one. *)
Theorem C70_inside : forall d r1 r2, 0 < r1 -> 0 < r2 -> 0 <= d -> d <= Rabs (r1 - r2) ->
  overlap_area d r1 r2 = PI * (Rmin r1 r2 * Rmin r1 r2).
Proof.
  intros d r1 r2 H1 H2 Hd H. unfold overlap_area. cbv zeta.
  assert (A := Rabs_def2 (r1 - r2) (r1 + r2)). assert (LT : d < r1 + r2).
  { eapply Rle_lt_trans; [apply H|]. apply Rabs_def1; lra. }
  destruct (Rleb (r1 + r2) d) eqn:E; [apply Rleb_true in E; lra|]. destruct (Rleb d (Rabs (r1 - r2))) eqn:E2; auto. apply Rleb_false in E2. lra.
Qed.
Theorem C70_symmetric : forall d r1 r2, 0 < r1 -> 0 < r2 -> 0 <= d -> overlap_area d r1 r2 = overlap_area d r2 r1.
Proof.
  intros d r1 r2 H1 H2 [Hd|<-].
  - rewrite !area_lens by auto. destruct (Rle_or_lt d (Rabs (r1 - r2))) as [L|L].
    + rewrite !lens_in; auto; [now rewrite Rmin_comm|now rewrite Rabs_minus_sym].
    + destruct (Rle_or_lt (r1 + r2) d) as [L2|L2]; [rewrite !lens_far by lra; auto|].
      unfold lens. destruct (meet_exists r1 r2 d H1 H2 Hd ltac:(lra)) as (x & h & _ & _ & _ & E1 & E2).
      replace (r1 * d * sin (acos (u1 r1 r2 d))) with (d * h) by (rewrite E1; ring).
      replace (r2 * d * sin (acos (u1 r2 r1 d))) with (d * h) by (rewrite E2; ring). ring.
  - rewrite !C70_inside; auto; try lra; try apply Rabs_pos. now rewrite Rmin_comm.
Qed.
(** While the circles meet, at (x, h) and (x, -h), moving the discs apart takes away the common chord: the slope of the
    area is minus its length 2h. *)
Theorem C70_chord : forall d r1 r2, 0 < r1 -> 0 < r2 -> 0 < d -> Rabs (r1 - r2) < d < r1 + r2 ->
  exists x h, 0 < h /\ x * x + h * h = r1 * r1 /\ (d - x) * (d - x) + h * h = r2 * r2 /\
    derivable_pt_lim (fun d => overlap_area d r1 r2) d (- (2 * h)).
Proof.
  intros d r1 r2 H1 H2 Hd H. destruct (meet_exists r1 r2 d H1 H2 Hd H) as (x & h & M & _). exists x, h.
  assert (D := lens_deriv r1 r2 d x h H1 H2 Hd H M). destruct M as (A & B & C). repeat split; auto.
  intros e He. destruct (D e He) as [del Hdel]. assert (P : 0 < Rmin del (d / 2)) by (apply Rmin_pos; [apply del|lra]).
  exists (mkposreal _ P). intros k N Hk. cbn [pos] in Hk. assert (M1 := Rmin_l del (d / 2)). assert (M2 := Rmin_r del (d / 2)).
  assert (K : Rabs k < d / 2) by lra. apply Rabs_def2 in K. rewrite !area_lens by lra. apply Hdel; auto. lra.
Qed.
(** The area changes continuously with the distance, including the first and last contact and distance 0. *)
Theorem C70_continuous : forall d r1 r2 e, 0 < r1 -> 0 < r2 -> 0 <= d -> 0 < e ->
  exists del, 0 < del /\ forall d', 0 <= d' -> Rabs (d' - d) < del -> Rabs (overlap_area d' r1 r2 - overlap_area d r1 r2) < e.
Proof.
  intros d r1 r2 e H1 H2 [Hd|<-] He.
  - destruct (lens_cont r1 r2 d H1 H2 Hd e He) as (del & P & H). exists (Rmin del d). split; [apply Rmin_pos; auto|].
    intros d' _ A. assert (M1 := Rmin_l del d). assert (M2 := Rmin_r del d). assert (A' := Rabs_def2 _ _ A).
    rewrite !area_lens by lra. destruct (Req_dec d' d) as [->|N]; [rewrite Rminus_diag_eq, Rabs_R0; auto|].
    apply (H d'). split; [split; [exact I|auto]|]. simpl. unfold R_dist. lra.
  - destruct (Req_dec r1 r2) as [->|N].
    + set (g := fun d => 2 * (r2 * r2) * acos (d / (2 * r2)) - r2 * d * sin (acos (d / (2 * r2)))).
      assert (CU : continuity_pt (fun d => d / (2 * r2)) 0).
      { apply (continuity_pt_mult (fun d => d) (fun _ => / (2 * r2))); [apply derivable_continuous_pt, derivable_pt_id|apply continuity_pt_const; intros ? ?; reflexivity]. }
      assert (C1 : continuity_pt (comp acos (fun d => d / (2 * r2))) 0) by (apply continuity_pt_comp; [auto|apply acos_cont]).
      assert (C3 : continuity_pt (comp sin (comp acos (fun d => d / (2 * r2)))) 0) by (apply continuity_pt_comp; [auto|apply continuity_sin]).
      assert (ID : continuity_pt (fun d => r2 * d) 0) by (apply (continuity_pt_scal (fun d => d)); apply derivable_continuous_pt; apply derivable_pt_id).
      assert (CG : continuity_pt g 0) by exact (continuity_pt_minus _ _ _ (continuity_pt_scal _ (2 * (r2 * r2)) _ C1) (continuity_pt_mult _ _ _ ID C3)).
      assert (AG : forall x, 0 <= x -> overlap_area x r2 r2 = g x).
      { intros x [Hx|<-].
        - rewrite area_lens by auto. unfold lens, g. assert (U : u1 r2 r2 x = x / (2 * r2)) by (unfold u1; field; lra). rewrite U. ring.
        - rewrite C70_inside; auto; try lra; [|rewrite Rminus_diag_eq, Rabs_R0 by auto; lra]. unfold g. replace (0 / (2 * r2)) with 0 by (field; lra).
          rewrite acos_0, Rmin_left by lra. field. }
      destruct (CG e He) as (del & P & H). exists del. split; auto. intros d' Hd' A. rewrite !AG by lra.
      destruct (Req_dec d' 0) as [->|N]; [rewrite Rminus_diag_eq, Rabs_R0; auto|]. apply (H d'). split; [split; [exact I|auto]|exact A].
    + assert (P : 0 < Rabs (r1 - r2)) by (apply Rabs_pos_lt; lra). exists (Rabs (r1 - r2)). split; auto. intros d' Hd' A.
      rewrite Rminus_0_r, (Rabs_right d') in A by lra. rewrite !C70_inside by lra. now rewrite Rminus_diag_eq, Rabs_R0.
Qed.
(** The closer the discs, the larger the overlap; strictly so while the circles meet. *)
Theorem C70_decreasing : forall d d' r1 r2, 0 < r1 -> 0 < r2 -> 0 <= d -> d <= d' ->
  overlap_area d' r1 r2 <= overlap_area d r1 r2 /\
  (d < d' -> d < r1 + r2 -> Rabs (r1 - r2) < d' -> overlap_area d' r1 r2 < overlap_area d r1 r2).
Proof.
  intros d d' r1 r2 H1 H2 Hd HL. assert (AB : Rabs (r1 - r2) < r1 + r2) by (apply Rabs_def1; lra).
  assert (STRICT : d < d' -> d < r1 + r2 -> Rabs (r1 - r2) < d' -> overlap_area d' r1 r2 < overlap_area d r1 r2).
  { intros L1 L2 L3. rewrite (area_lens d') by lra.
    set (b := Rmin d' (r1 + r2)). assert (EB : lens r1 r2 d' = lens r1 r2 b).
    { unfold b, Rmin. destruct (Rle_dec d' (r1 + r2)); auto. rewrite !lens_far by lra. auto. }
    assert (BB : Rabs (r1 - r2) < b <= r1 + r2 /\ d < b) by (unfold b, Rmin; destruct (Rle_dec d' (r1 + r2)); lra).
    rewrite EB. destruct (Rle_or_lt d (Rabs (r1 - r2))) as [L|L].
    - rewrite C70_inside by auto. destruct (Rlt_or_le 0 (Rabs (r1 - r2))) as [P|P].
      + rewrite <- (lens_in r1 r2 (Rabs (r1 - r2))) by lra. apply lens_decr; lra.
      + assert (Z : Rabs (r1 - r2) = 0) by (pose proof (Rabs_pos (r1 - r2)); lra). assert (E : r1 = r2).
        { destruct (Req_dec r1 r2); auto. exfalso. apply (Rabs_pos_lt (r1 - r2)) in P || idtac. assert (0 < Rabs (r1 - r2)) by (apply Rabs_pos_lt; lra). lra. }
        subst r2. rewrite Rmin_left by lra.
        (* equal discs, distance 0: the limit of the areas at small distances *)
        assert (M := lens_decr r1 r1 (b / 2) b H1 H1 ltac:(lra) ltac:(lra) ltac:(lra) ltac:(lra)).
        apply Rnot_le_lt. intros CON.
        destruct (C70_continuous 0 r1 r1 (lens r1 r1 (b / 2) - lens r1 r1 b) H1 H1 ltac:(lra) ltac:(lra)) as (del & PD & HD).
        set (x := Rmin (del / 2) (b / 4)). assert (PX : 0 < x) by (unfold x; apply Rmin_pos; lra). assert (X1 := Rmin_l (del / 2) (b / 4)). assert (X2 := Rmin_r (del / 2) (b / 4)). fold x in X1, X2.
        assert (Q := HD x ltac:(lra) ltac:(rewrite Rminus_0_r, Rabs_right; lra)). rewrite (area_lens x) in Q by auto.
        rewrite (C70_inside 0) in Q by (auto; try lra). rewrite Rmin_left in Q by lra. apply Rabs_def2 in Q.
        assert (M2 := lens_decr r1 r1 x (b / 2) H1 H1 PX ltac:(lra) ltac:(lra) ltac:(lra)). lra.
    - rewrite area_lens by (pose proof (Rabs_pos (r1 - r2)); lra). apply lens_decr; pose proof (Rabs_pos (r1 - r2)); lra. }
  split; auto. destruct HL as [HL|<-]; [|lra].
  destruct (Rlt_or_le d (r1 + r2)) as [L|L]; [|rewrite !C70_apart by lra; lra].
  destruct (Rlt_or_le (Rabs (r1 - r2)) d') as [L2|L2]; [left; auto|]. rewrite !C70_inside by lra. lra.
Qed.
(** Between 0 and the smaller disc; 0 exactly for discs that are apart. *)
Theorem C70_bounds : forall d r1 r2, 0 < r1 -> 0 < r2 -> 0 <= d ->
  0 <= overlap_area d r1 r2 <= PI * (Rmin r1 r2 * Rmin r1 r2) /\
  (overlap_area d r1 r2 = 0 <-> r1 + r2 <= d) /\
  (overlap_area d r1 r2 = PI * (Rmin r1 r2 * Rmin r1 r2) <-> d <= Rabs (r1 - r2)).
Proof.
  intros d r1 r2 H1 H2 Hd. assert (AB : Rabs (r1 - r2) < r1 + r2) by (apply Rabs_def1; lra). assert (AP := Rabs_pos (r1 - r2)).
  assert (PM : 0 < PI * (Rmin r1 r2 * Rmin r1 r2)) by (assert (0 < Rmin r1 r2) by (apply Rmin_pos; auto); apply Rmult_lt_0_compat; [exact PI_RGT_0|now apply Rmult_lt_0_compat]).
  assert (Z : overlap_area 0 r1 r2 = PI * (Rmin r1 r2 * Rmin r1 r2)) by (apply C70_inside; lra).
  destruct (Rle_or_lt (r1 + r2) d) as [L|L].
  - rewrite C70_apart by auto. repeat split; intros; try lra.
  - destruct (Rle_or_lt d (Rabs (r1 - r2))) as [L2|L2].
    + rewrite C70_inside by auto. repeat split; intros; try lra.
    + assert (A1 := proj2 (C70_decreasing 0 d r1 r2 H1 H2 ltac:(lra) Hd) ltac:(lra) ltac:(lra) L2).
      assert (A2 := proj2 (C70_decreasing d (r1 + r2) r1 r2 H1 H2 Hd ltac:(lra)) L L ltac:(lra)). rewrite (C70_apart (r1 + r2)) in A2 by lra.
      rewrite Z in A1. repeat split; intros; lra.
Qed.
(** These facts determine the area: any function of the distance that vanishes at the last contact, is continuous
    there and loses the chord agrees with it while the circles meet. *)
Theorem C70_determined : forall r1 r2 f, 0 < r1 -> 0 < r2 -> f (r1 + r2) = 0 ->
  (forall d, Rabs (r1 - r2) < d <= r1 + r2 -> continuity_pt f d) ->
  (forall d x h, Rabs (r1 - r2) < d < r1 + r2 -> 0 < h -> x * x + h * h = r1 * r1 -> (d - x) * (d - x) + h * h = r2 * r2 -> derivable_pt_lim f d (- (2 * h))) ->
  forall d, Rabs (r1 - r2) < d <= r1 + r2 -> f d = overlap_area d r1 r2.
Proof.
  intros r1 r2 f H1 H2 F0 FC FD d H. assert (AP := Rabs_pos (r1 - r2)). rewrite area_lens by lra.
  destruct (Req_dec d (r1 + r2)) as [->|N]; [rewrite F0, lens_far by lra; auto|].
  set (g := fun y => f y - lens r1 r2 y).
  assert (G : forall c, Rabs (r1 - r2) < c < r1 + r2 -> derivable_pt_lim g c 0).
  { intros c Hc. destruct (meet_exists r1 r2 c H1 H2 ltac:(lra) Hc) as (x & h & M & _). replace 0 with (- (2 * h) - - (2 * h)) by ring.
    apply (derivable_pt_lim_minus f (lens r1 r2)); [|eapply lens_deriv; eauto; lra]. destruct M as (A & B & C). eapply FD; eauto. }
  assert (D : forall c, d < c < r1 + r2 -> derivable_pt g c) by (intros c Hc; exists 0; apply G; lra).
  assert (D2 : forall c, d < c < r1 + r2 -> derivable_pt id c) by (intros; apply derivable_pt_id).
  destruct (MVT g id d (r1 + r2) D D2 ltac:(lra)) as (c & P & E).
  - intros c Hc. apply (continuity_pt_minus f (lens r1 r2)); [apply FC; lra|apply lens_cont; lra].
  - intros c _. apply derivable_continuous_pt, derivable_pt_id.
  - assert (V : derive_pt g c (D c P) = 0) by (apply derive_pt_eq; apply G; lra).
    assert (V2 : derive_pt id c (D2 c P) = 1) by (apply derive_pt_eq; apply derivable_pt_lim_id).
    rewrite V, V2 in E. unfold g, id in E. rewrite F0, (lens_far r1 r2 (r1 + r2)) in E by lra. lra.
Qed.
