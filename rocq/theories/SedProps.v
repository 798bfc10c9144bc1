(** Properties C41 (redshift), C44 (extrapolation models), C43 (extrapolation in wavelength). *)
From Coq Require Import Reals String List Bool Arith ZArith Lia Lra.
From Verif Require Import Base BaseFacts RealBase PassbandModel ObsTableModel SedModel.
Import ListNotations.
Open Scope R_scope.

(** Entry (i, j) of a matrix. *)
Definition entry (m : matrix) (i j : nat) : option R :=
  match nth_error m i with None => None | Some r => nth_error r j end.

(** ** C41 *)
(** The stretch about t0 that the observer sees. *)
Definition stretch (z t0 t : R) : R := t0 + (1 + z) * (t - t0).
Theorem C41_round_trip : forall ts ws z t0 rt rw, 1 + z <> 0 -> obs_to_rest ts ws z t0 = (rt, rw) ->
  map (stretch z t0) rt = ts /\ map (fun w => (1 + z) * w) rw = ws.
Proof.
  intros ts ws z t0 rt rw H E. inversion E; subst. rewrite !map_map. split.
  - rewrite <- (map_id ts) at 2. apply map_ext. intros t. unfold stretch. field; auto.
  - rewrite <- (map_id ws) at 2. apply map_ext. intros w. field; auto.
Qed.
Theorem C41_round_trip_rest : forall ts ws z t0, 1 + z <> 0 ->
  obs_to_rest (map (stretch z t0) ts) (map (fun w => (1 + z) * w) ws) z t0 = (ts, ws).
Proof.
  intros ts ws z t0 H. unfold obs_to_rest. rewrite !map_map. f_equal.
  - rewrite <- (map_id ts) at 2. apply map_ext. intros t. unfold stretch. field; auto.
  - rewrite <- (map_id ws) at 2. apply map_ext. intros w. field; auto.
Qed.
Theorem C41_identity : forall ts ws t0, obs_to_rest ts ws 0 t0 = (ts, ws).
Proof.
  intros. unfold obs_to_rest. f_equal.
  - rewrite <- (map_id ts) at 2. apply map_ext. intros t. field.
  - rewrite <- (map_id ws) at 2. apply map_ext. intros w. field.
Qed.
Theorem C41_order : forall ts ws z t0 rt rw i j ti tj ri rj, -1 < z -> obs_to_rest ts ws z t0 = (rt, rw) ->
  nth_error ts i = Some ti -> nth_error ts j = Some tj -> nth_error rt i = Some ri -> nth_error rt j = Some rj ->
  (ti < tj <-> ri < rj) /\ rj - ri = (tj - ti) / (1 + z) /\ (ti = t0 -> ri = t0).
Proof.
  intros ts ws z t0 rt rw i j ti tj ri rj Hz E H1 H2 H3 H4. inversion E; subst.
  rewrite nth_error_map, H1 in H3. rewrite nth_error_map, H2 in H4. simpl in *. inversion H3; inversion H4; subst.
  assert (D : (tj - t0) / (1 + z) + t0 - ((ti - t0) / (1 + z) + t0) = (tj - ti) / (1 + z)) by (field; lra).
  split; [|split; auto].
  - assert (P : 0 < / (1 + z)) by (apply Rinv_0_lt_compat; lra). unfold Rdiv in *. split; intros L.
    + assert (0 < (tj - ti) * / (1 + z)) by (apply Rmult_lt_0_compat; lra). lra.
    + assert (0 < (tj - ti) * / (1 + z)) as X by lra. destruct (Rlt_or_le ti tj); auto.
      assert ((tj - ti) * / (1 + z) <= 0); [|lra]. rewrite <- (Rmult_0_l (/ (1 + z))). apply Rmult_le_compat_r; lra.
  - intros ->. field. lra.
Qed.
(** Two successive redshifts about the same t0 compose to (1+z1)(1+z2) - 1. *)
Theorem C41_compose : forall ts ws z1 z2 t0 rt rw, 1 + z1 <> 0 -> 1 + z2 <> 0 -> obs_to_rest ts ws z1 t0 = (rt, rw) ->
  obs_to_rest rt rw z2 t0 = obs_to_rest ts ws ((1 + z1) * (1 + z2) - 1) t0.
Proof.
  intros ts ws z1 z2 t0 rt rw H1 H2 E. inversion E; subst. unfold obs_to_rest. rewrite !map_map. f_equal.
  - apply map_ext. intros t. field. split; auto. replace (1 + ((1 + z1) * (1 + z2) - 1)) with ((1 + z1) * (1 + z2)) by ring.
    auto using Rmult_integral_contrapositive_currified.
  - apply map_ext. intros w. field. split; auto. replace (1 + ((1 + z1) * (1 + z2) - 1)) with ((1 + z1) * (1 + z2)) by ring.
    auto using Rmult_integral_contrapositive_currified.
Qed.
Theorem C41_flux : forall m z i j, entry (rest_to_obs_flux m z) i j = option_map (fun x => (1 + z) * x) (entry m i j).
Proof.
  intros. unfold entry, rest_to_obs_flux. rewrite nth_error_map. destruct (nth_error m i) as [r|]; simpl; auto.
  rewrite nth_error_map. destruct (nth_error r j); simpl; auto. f_equal. ring.
Qed.
(** Bolometric flux: the trapezoid integral of a row over frequency c / wavelength is preserved. *)
Lemma trapz_stretch : forall k t, k <> 0 -> trapz (map (fun p => (fst p / k, snd p * k)) t) = trapz t.
Proof.
  intros k t H. induction t as [|[x1 y1] [|[x2 y2] t] IH]; auto.
  change (trapz ((x1, y1) :: (x2, y2) :: t)) with ((x2 - x1) * (y1 + y2) / 2 + trapz ((x2, y2) :: t)).
  rewrite <- IH. cbn [map fst snd trapz]. field. auto.
Qed.
Theorem C41_bolometric : forall c ts ws z t0 rt rw row, 1 + z <> 0 -> Forall (fun w => w <> 0) ws ->
  obs_to_rest ts ws z t0 = (rt, rw) ->
  forall orow, rest_to_obs_flux [row] z = [orow] ->
  trapz (combine (map (fun w => c / w) ws) orow) = trapz (combine (map (fun w => c / w) rw) row).
Proof.
  intros c ts ws z t0 rt rw row Hz HW E orow EO. inversion E; subst. inversion EO; subst. clear E EO.
  rewrite <- (trapz_stretch (1 + z) (combine _ row)) by auto. f_equal.
  revert row. induction HW as [|w ws Hw HW IH]; intros row; simpl; auto. destruct row as [|x row]; simpl; auto.
  rewrite IH. f_equal. f_equal. field. auto.
Qed.
Example C41_case : obs_to_rest [50; 60; 80] [4000; 8000] 1 60 = ([55; 60; 70], [2000; 4000]).
Proof. unfold obs_to_rest. simpl. repeat f_equal; field. Qed.

(** ** C44 *)
(** The extrapolated value at one wavelength, from the edge wavelength and the edge flux. *)
Definition extrap_value (e : extrap) (edge flux w : R) : R :=
  match e with
  | XBase => 0
  | XConst v => v
  | XLast => flux
  | XLinear width => flux * Rmax 0 (1 - Rabs (w - edge) / width)
  | XExp rate => flux * exp (- (rate * Rabs (w - edge)))
  end.
Lemma clip01_dist : forall d w, 0 <= d -> 0 < w -> clip01 (1 - d / w) = Rmax 0 (1 - d / w).
Proof.
  intros d w H1 H2. unfold clip01. rewrite Rmax_comm. apply Rmin_left. apply Rmax_lub; [lra|].
  assert (0 <= d / w) by (apply Rmult_le_pos; [lra|left; apply Rinv_0_lt_compat; lra]). lra.
Qed.
(** A valid object: one of the constructors accepted its argument. *)
Definition extrap_made (e : extrap) : Prop :=
  e = XBase \/ e = XLast \/ (exists v, make_const v = Ok e) \/ (exists w, make_linear w = Ok e) \/ (exists r, make_exp r = Ok e).
Lemma made_linear : forall w, extrap_made (XLinear w) -> 0 < w.
Proof.
  intros w [H|[H|[[v H]|[[v H]|[v H]]]]]; try discriminate.
  - unfold make_const in H. destruct (Rltb v 0); discriminate.
  - unfold make_linear in H. destruct (Rleb v 0) eqn:E; inversion H; subst. now apply Rleb_false in E.
  - unfold make_exp in H. destruct (Rltb v 0); discriminate.
Qed.
Lemma made_exp : forall r, extrap_made (XExp r) -> 0 <= r.
Proof.
  intros w [H|[H|[[v H]|[[v H]|[v H]]]]]; try discriminate.
  - unfold make_const in H. destruct (Rltb v 0); discriminate.
  - unfold make_linear in H. destruct (Rleb v 0) eqn:E; inversion H; subst.
  - unfold make_exp in H. destruct (Rltb v 0) eqn:E; inversion H; subst. now apply Rltb_false in E.
Qed.
Lemma made_const : forall r, extrap_made (XConst r) -> 0 <= r.
Proof.
  intros w [H|[H|[[v H]|[[v H]|[v H]]]]]; try discriminate.
  - unfold make_const in H. destruct (Rltb v 0) eqn:E; inversion H; subst. now apply Rltb_false in E.
  - unfold make_linear in H. destruct (Rleb v 0) eqn:E; inversion H; subst.
  - unfold make_exp in H. destruct (Rltb v 0) eqn:E; inversion H; subst.
Qed.
Lemma map_const_map : forall A B (c : B) (l : list A), map (fun _ => c) l = repeat c (length l).
Proof. induction l; simpl; f_equal; auto. Qed.
Theorem C44_shape_and_values : forall e edge fl qw, extrap_made e ->
  length (extrap_call e edge fl qw) = length fl /\
  forall i j f w, nth_error fl i = Some f -> nth_error qw j = Some w ->
    entry (extrap_call e edge fl qw) i j = Some (extrap_value e edge f w).
Proof.
  intros e edge fl qw HM. split; [destruct e; simpl; unfold outer; now rewrite map_length|].
  intros i j f w Hf Hw. unfold entry, extrap_call.
  destruct e as [|v| |wd|r]; unfold outer; rewrite nth_error_map, Hf; cbn [option_map];
    rewrite ?map_map, nth_error_map, Hw; cbn [option_map extrap_value]; auto.
  - rewrite clip01_dist; auto; [apply Rabs_pos|now apply made_linear].
  - do 3 f_equal. ring.
Qed.
(** Every row has one value per queried wavelength. *)
Theorem C44_rows : forall e edge fl qw r, In r (extrap_call e edge fl qw) -> length r = length qw.
Proof.
  intros e edge fl qw r H. destruct e as [|v| |wd|rt]; unfold extrap_call, outer in H; apply in_map_iff in H;
    destruct H as (f & <- & _); now rewrite ?map_map, map_length.
Qed.
Theorem C44_at_edge : forall e edge f, extrap_made e -> e <> XBase -> (forall v, e <> XConst v) -> extrap_value e edge f edge = f.
Proof.
  intros e edge f HM H1 H2. destruct e as [|v| |wd|r]; simpl; try congruence.
  - replace (edge - edge) with 0 by ring. rewrite Rabs_R0. unfold Rdiv. rewrite Rmult_0_l, Rminus_0_r, Rmax_right; lra.
  - replace (edge - edge) with 0 by ring. rewrite Rabs_R0, Rmult_0_r, Ropp_0, exp_0. lra.
Qed.
Theorem C44_bounded : forall e edge f w, extrap_made e -> 0 <= f -> (forall v, e <> XConst v) -> 0 <= extrap_value e edge f w <= f.
Proof.
  intros e edge f w HM Hf HC. destruct e as [|v| |wd|r]; simpl; try lra.
  - now destruct (HC v).
  - apply made_linear in HM. assert (0 <= Rabs (w - edge) / wd).
    { apply Rmult_le_pos; [apply Rabs_pos|left; apply Rinv_0_lt_compat; lra]. }
    assert (0 <= Rmax 0 (1 - Rabs (w - edge) / wd) <= 1) by (split; [apply Rmax_l|apply Rmax_lub; lra]).
    split; [apply Rmult_le_pos; lra|]. rewrite <- (Rmult_1_r f) at 2. apply Rmult_le_compat_l; lra.
  - apply made_exp in HM. assert (0 <= r * Rabs (w - edge)) by (apply Rmult_le_pos; [lra|apply Rabs_pos]).
    assert (0 < exp (- (r * Rabs (w - edge)))) by apply exp_pos.
    assert (exp (- (r * Rabs (w - edge))) <= 1).
    { rewrite <- exp_0. destruct (Rle_lt_or_eq_dec 0 (r * Rabs (w - edge))) as [L|L]; auto.
      - left. apply exp_increasing. lra.
      - rewrite <- L. rewrite Ropp_0. lra. }
    split; [apply Rmult_le_pos; lra|]. rewrite <- (Rmult_1_r f) at 2. apply Rmult_le_compat_l; lra.
Qed.
Theorem C44_nonnegative : forall e edge f w, extrap_made e -> 0 <= f -> 0 <= extrap_value e edge f w.
Proof.
  intros e edge f w HM Hf. destruct e as [|v| |wd|r]; try (apply C44_bounded; auto; congruence). simpl. now apply made_const.
Qed.
(** Farther from the edge, the flux is never larger. *)
Theorem C44_decreasing : forall e edge f w1 w2, extrap_made e -> 0 <= f -> Rabs (w1 - edge) <= Rabs (w2 - edge) ->
  extrap_value e edge f w2 <= extrap_value e edge f w1.
Proof.
  intros e edge f w1 w2 HM Hf HL. destruct e as [|v| |wd|r]; simpl; try lra.
  - apply made_linear in HM. apply Rmult_le_compat_l; auto. apply Rle_max_compat_l.
    assert (Rabs (w1 - edge) / wd <= Rabs (w2 - edge) / wd); [|lra].
    apply Rmult_le_compat_r; auto. left. apply Rinv_0_lt_compat; lra.
  - apply made_exp in HM. apply Rmult_le_compat_l; auto.
    assert (r * Rabs (w1 - edge) <= r * Rabs (w2 - edge)) as X by (apply Rmult_le_compat_l; auto).
    destruct X as [X|X]; [left; apply exp_increasing; lra|rewrite X; lra].
Qed.
(** Continuity at the edge, with an explicit rate: at distance d the value differs from the edge flux by at
    most K * d * |flux| (K = 0, 1/width, rate). *)
Theorem C44_continuous : forall e edge f w, extrap_made e -> e <> XBase -> (forall v, e <> XConst v) ->
  Rabs (extrap_value e edge f w - f) <=
  Rabs f * (match e with XLinear width => / width | XExp rate => rate | _ => 0 end * Rabs (w - edge)).
Proof.
  intros e edge f w HM H1 H2. pose proof (Rabs_pos (w - edge)) as PD. pose proof (Rabs_pos f) as PF.
  destruct e as [|v| |wd|r]; simpl; try congruence.
  - replace (f - f) with 0 by ring. rewrite Rabs_R0. nra.
  - apply made_linear in HM. set (d := Rabs (w - edge)) in *.
    assert (P : 0 <= d / wd) by (apply Rmult_le_pos; auto; left; apply Rinv_0_lt_compat; auto).
    replace (f * Rmax 0 (1 - d / wd) - f) with (f * (Rmax 0 (1 - d / wd) - 1)) by ring.
    rewrite Rabs_mult. apply Rmult_le_compat_l; auto. replace (/ wd * d) with (d / wd) by (unfold Rdiv; ring).
    unfold Rmax. destruct (Rle_dec 0 (1 - d / wd)); rewrite Rabs_left1; lra.
  - apply made_exp in HM. set (d := Rabs (w - edge)) in *.
    assert (P : 0 <= r * d) by (apply Rmult_le_pos; auto).
    replace (f * exp (- (r * d)) - f) with (f * (exp (- (r * d)) - 1)) by ring.
    rewrite Rabs_mult. apply Rmult_le_compat_l; auto.
    pose proof (exp_ineq1_le (- (r * d))) as L.
    assert (exp (- (r * d)) <= 1).
    { rewrite <- exp_0. destruct (Rle_lt_or_eq_dec 0 (r * d)) as [L'|L']; auto.
      - left. apply exp_increasing. lra.
      - rewrite <- L'. rewrite Ropp_0. lra. }
    rewrite Rabs_left1; lra.
Qed.
Theorem C44_linear_vanishes : forall width edge f w, extrap_made (XLinear width) ->
  (width <= Rabs (w - edge) -> extrap_value (XLinear width) edge f w = 0) /\
  (Rabs (w - edge) < width -> 0 < f -> 0 < extrap_value (XLinear width) edge f w).
Proof.
  intros width edge f w HM. apply made_linear in HM. simpl. split; intros H.
  - rewrite Rmax_left; [ring|]. assert (1 <= Rabs (w - edge) / width); [|lra].
    apply Rmult_le_reg_r with width; auto. unfold Rdiv. rewrite Rmult_assoc, Rinv_l; lra.
  - intros Hf. apply Rmult_lt_0_compat; auto. apply Rlt_le_trans with (1 - Rabs (w - edge) / width); [|apply Rmax_r].
    assert (Rabs (w - edge) / width < 1); [|lra]. apply Rmult_lt_reg_r with width; auto. unfold Rdiv. rewrite Rmult_assoc, Rinv_l; lra.
Qed.
Theorem C44_invalid : forall x, (x < 0 -> make_const x = Err ValueError /\ make_exp x = Err ValueError) /\
  (x <= 0 -> make_linear x = Err ValueError) /\
  (0 <= x -> make_const x = Ok (XConst x) /\ make_exp x = Ok (XExp x)) /\ (0 < x -> make_linear x = Ok (XLinear x)).
Proof.
  intros x. unfold make_const, make_exp, make_linear. split; [|split; [|split]]; intros H.
  - apply Rltb_true in H. now rewrite H.
  - apply Rleb_true in H. now rewrite H.
  - apply Rltb_false in H. now rewrite H.
  - apply Rleb_false in H. now rewrite H.
Qed.
Example C44_case : exists e, make_linear 100 = Ok e /\ extrap_value e 2000 8 2050 = 4 /\ extrap_value e 2000 8 1000 = 0.
Proof.
  exists (XLinear 100). split; [apply (C44_invalid 100); lra|]. assert (M : extrap_made (XLinear 100)).
  { right; right; right; left. exists 100. apply (C44_invalid 100); lra. }
  split.
  - simpl. rewrite Rabs_right by lra. rewrite Rmax_right; lra.
  - apply C44_linear_vanishes; auto. rewrite Rabs_left; lra.
Qed.

(** ** C43 *)
(** [compute_sed], called with the user's keyword arguments [kw] or without any, evaluates the flux [f] at every time and
    wavelength (no other dependence on the query). *)
Definition computes (s : sed) (st : gst) (kw : params) (f : R -> R -> R) : Prop :=
  forall ts ws kw', kw' = kw \/ kw' = [] -> sd_compute s ts ws st kw' = Ok (map (fun t => map (f t) ws) ts).
(** The value the user is promised at rest-frame time t and wavelength w. *)
Definition extended (s : sed) (st : gst) (f : R -> R -> R) (t w : R) : R :=
  let outside edge := match sd_extrap s with None => 0 | Some e => extrap_value e edge (f t edge) w end in
  match sd_min s st, sd_max s st with
  | Some lo, Some hi => if Rltb w lo then outside lo else if Rltb hi w then outside hi else f t w
  | Some lo, None => if Rltb w lo then outside lo else f t w
  | None, Some hi => if Rltb hi w then outside hi else f t w
  | None, None => f t w
  end.
Lemma fold_min_le : forall l a, fold_left Rmin l a <= a /\ forall x, In x l -> fold_left Rmin l a <= x.
Proof.
  induction l as [|b l IH]; intros a; simpl; [split; [lra|tauto]|]. destruct (IH (Rmin a b)) as [H1 H2].
  pose proof (Rmin_l a b). pose proof (Rmin_r a b). split; [lra|]. intros x [->|H3]; [lra|auto].
Qed.
Lemma fold_min_in : forall l a, fold_left Rmin l a = a \/ In (fold_left Rmin l a) l.
Proof.
  induction l as [|b l IH]; intros a; simpl; auto. destruct (IH (Rmin a b)) as [H|H]; auto.
  rewrite H. destruct (Rle_dec a b) as [L|L]; [rewrite Rmin_left by lra; auto|rewrite Rmin_right by lra; auto].
Qed.
Lemma fold_max_ge : forall l a, a <= fold_left Rmax l a /\ forall x, In x l -> x <= fold_left Rmax l a.
Proof.
  induction l as [|b l IH]; intros a; simpl; [split; [lra|tauto]|]. destruct (IH (Rmax a b)) as [H1 H2].
  pose proof (Rmax_l a b). pose proof (Rmax_r a b). split; [lra|]. intros x [->|H3]; [lra|auto].
Qed.
Lemma fold_max_in : forall l a, fold_left Rmax l a = a \/ In (fold_left Rmax l a) l.
Proof.
  induction l as [|b l IH]; intros a; simpl; auto. destruct (IH (Rmax a b)) as [H|H]; auto.
  rewrite H. destruct (Rle_dec a b) as [L|L]; [rewrite Rmax_right by lra; auto|rewrite Rmax_left by lra; auto].
Qed.
Lemma list_min_spec : forall l m, list_min l = Ok m -> In m l /\ forall x, In x l -> m <= x.
Proof.
  intros [|a l] m H; [discriminate|]. inversion H; subst. split.
  - destruct (fold_min_in l a) as [E|E]; [rewrite E; left; auto|right; auto].
  - intros x [<-|HI]; [apply (proj1 (fold_min_le l a))|apply (proj2 (fold_min_le l a)); auto].
Qed.
Lemma list_max_spec : forall l m, list_max l = Ok m -> In m l /\ forall x, In x l -> x <= m.
Proof.
  intros [|a l] m H; [discriminate|]. inversion H; subst. split.
  - destruct (fold_max_in l a) as [E|E]; [rewrite E; left; auto|right; auto].
  - intros x [<-|HI]; [apply (proj1 (fold_max_ge l a))|apply (proj2 (fold_max_ge l a)); auto].
Qed.
(** [row[mask] = g(ws[mask])] *)
Lemma put_masked : forall A B (p : A -> bool) (g : A -> B) ws (row : list B), length row = length ws ->
  put (map p ws) (map g (mask_list (map p ws) ws)) row = map (fun wx => if p (fst wx) then g (fst wx) else snd wx) (combine ws row).
Proof.
  induction ws as [|w ws IH]; intros row H; destruct row as [|x row]; simpl in *; try discriminate; auto.
  destruct (p w); simpl; rewrite IH by lia; auto.
Qed.
Lemma put_length : forall A mask (vals row : list A), length (put mask vals row) = length row.
Proof.
  induction mask as [|b mask IH]; intros vals [|x row]; simpl; auto.
  - destruct b; auto.
  - destruct b; simpl; auto. destruct vals; simpl; auto.
Qed.
Lemma removelast_app1 : forall A (l : list A) x, removelast (l ++ [x]) = l.
Proof. intros. rewrite removelast_app by discriminate. simpl. now rewrite app_nil_r. Qed.
Lemma last_app1 : forall A (l : list A) x d, last (l ++ [x]) d = x.
Proof. intros. apply last_last. Qed.
Lemma combine_map2 : forall A B C (f : A -> B) (g : A -> C) l, combine (map f l) (map g l) = map (fun x => (f x, g x)) l.
Proof. induction l; simpl; f_equal; auto. Qed.
Lemma combine_map_r : forall A C (g : A -> C) l, combine l (map g l) = map (fun x => (x, g x)) l.
Proof. induction l; simpl; f_equal; auto. Qed.
Lemma map_ext_In : forall A B (f g : A -> B) l, (forall x, In x l -> f x = g x) -> map f l = map g l.
Proof. intros. now apply map_ext_in. Qed.
Lemma extrap_rows : forall e edge fl qw, extrap_made e ->
  extrap_call e edge fl qw = map (fun f => map (extrap_value e edge f) qw) fl.
Proof.
  intros e edge fl qw HM. unfold extrap_call, outer. destruct e as [|v| |wd|r]; auto; rewrite map_map; apply map_ext; intros f;
    rewrite map_map; apply map_ext; intros w; simpl; auto.
  - rewrite clip01_dist; auto; [apply Rabs_pos|now apply made_linear].
  - do 2 f_equal. ring.
Qed.
(** Without anything queried there is nothing to take the minimum of. *)
Theorem C43_empty_query : forall s ts st kw, sed_extrapolated s ts [] st kw = Err ValueError.
Proof. reflexivity. Qed.
Theorem C43_values : forall s ts ws st kw f, computes s st kw f -> ws <> [] ->
  (forall e, sd_extrap s = Some e -> extrap_made e) ->
  (forall lo hi, sd_min s st = Some lo -> sd_max s st = Some hi -> lo <= hi) ->
  sed_extrapolated s ts ws st kw = Ok (map (fun t => map (extended s st f t) ws) ts).
Proof.
  intros s ts ws st kw f HC HN HE HB. unfold sed_extrapolated.
  destruct (list_min ws) as [qmin|] eqn:E1; [|destruct ws; [congruence|discriminate]].
  destruct (list_max ws) as [qmax|] eqn:E2; [|destruct ws; [congruence|discriminate]].
  apply list_min_spec in E1. apply list_max_spec in E2. destruct E1 as [M1 M2]. destruct E2 as [X1 X2]. cbn [bind].
  set (vmin := match sd_min s st with Some v => v | None => qmin end).
  set (vmax := match sd_max s st with Some v => v | None => qmax end). cbv zeta.
  destruct (Rleb vmin qmin && Rleb qmax vmax)%bool eqn:EB.
  - apply andb_true_iff in EB. destruct EB as [B1 B2]. apply Rleb_true in B1. apply Rleb_true in B2. rewrite HC by auto. f_equal.
    apply map_ext. intros t. apply map_ext_In. intros w Hw. specialize (M2 w Hw). specialize (X2 w Hw).
    unfold extended, vmin, vmax in *. destruct (sd_min s st) as [lo|]; destruct (sd_max s st) as [hi|]; auto;
      rewrite ?(proj2 (Rltb_false w lo)), ?(proj2 (Rltb_false hi w)) by lra; auto.
  - rewrite HC by auto. cbn [bind].
    set (inr := map (fun w => (negb (Rltb w vmin) && negb (Rltb vmax w))%bool) ws).
    assert (SH : shape_ok (length ts) (length ([vmin] ++ mask_list inr ws ++ [vmax])) (map (fun t => map (f t) ([vmin] ++ mask_list inr ws ++ [vmax])) ts) = true).
    { unfold shape_ok. rewrite map_length, Nat.eqb_refl. apply forallb_forall. intros r Hr. apply in_map_iff in Hr.
      destruct Hr as (t & <- & _). rewrite map_length. apply Nat.eqb_refl. }
    rewrite SH. cbn [negb].
    assert (F0 : put_rows inr (map (fun r => removelast (tl r)) (map (fun t => map (f t) ([vmin] ++ mask_list inr ws ++ [vmax])) ts))
                  (map (fun _ => map (fun _ => 0) ws) ts)
                = map (fun t => map (fun w => if (negb (Rltb w vmin) && negb (Rltb vmax w))%bool then f t w else 0) ws) ts).
    { unfold put_rows. rewrite map_map, combine_map2, map_map. apply map_ext. intros t. cbn [fst snd].
      cbn [app map tl]. rewrite map_app. cbn [map]. rewrite removelast_app1. unfold inr. rewrite put_masked by now rewrite map_length.
      rewrite combine_map_r, map_map. reflexivity. }
    rewrite F0.
    assert (CASES : forall t w, In w ws -> extended s st f t w =
       match sd_extrap s with
       | None => if (negb (Rltb w vmin) && negb (Rltb vmax w))%bool then f t w else 0
       | Some e => if Rltb vmax w then extrap_value e vmax (f t vmax) w
                   else if Rltb w vmin then extrap_value e vmin (f t vmin) w
                   else if (negb (Rltb w vmin) && negb (Rltb vmax w))%bool then f t w else 0
       end).
    { intros t w Hw. specialize (M2 w Hw). specialize (X2 w Hw). unfold extended, vmin, vmax in *.
      destruct (sd_min s st) as [lo|]; destruct (sd_max s st) as [hi|]; try (specialize (HB lo hi eq_refl eq_refl)).
      - destruct (Rltb w lo) eqn:A; destruct (Rltb hi w) eqn:B; destruct (sd_extrap s); auto.
        + apply Rltb_true in A. apply Rltb_true in B. lra.
      - rewrite (proj2 (Rltb_false qmax w)) by lra. destruct (Rltb w lo) eqn:A; destruct (sd_extrap s); auto.
      - rewrite (proj2 (Rltb_false w qmin)) by lra. destruct (Rltb hi w) eqn:B; destruct (sd_extrap s); auto.
      - rewrite (proj2 (Rltb_false w qmin)) by lra. rewrite (proj2 (Rltb_false qmax w)) by lra. destruct (sd_extrap s); auto. }
    destruct (sd_extrap s) as [e|] eqn:EX.
    + specialize (HE e eq_refl). f_equal. rewrite !extrap_rows by auto. unfold put_rows.
      rewrite !map_map. rewrite combine_map2, map_map, combine_map2, map_map. apply map_ext. intros t. cbn [fst snd].
      cbn [app map hd]. rewrite put_masked by (rewrite put_length, map_length; lia).
      change (f t vmin :: map (f t) (mask_list inr ws ++ [vmax])) with (map (f t) ((vmin :: mask_list inr ws) ++ [vmax])).
      rewrite map_app. cbn [map]. rewrite last_app1. rewrite put_masked by (rewrite map_length; lia).
      rewrite combine_map_r, map_map. cbn [fst snd]. rewrite combine_map_r, map_map. cbn [fst snd]. symmetry. apply map_ext_In. intros w Hw. now apply CASES.
    + f_equal. apply map_ext. intros t. symmetry. apply map_ext_In. intros w Hw. now apply CASES.
Qed.
(** Inside the valid range: the model's own value; outside: the extrapolation from the nearest valid edge;
    one column per query wavelength, in query order, also for unsorted or repeated wavelengths. *)
Theorem C43_columns : forall s ts ws st kw f i j t w, computes s st kw f -> (forall e, sd_extrap s = Some e -> extrap_made e) ->
  (forall lo hi, sd_min s st = Some lo -> sd_max s st = Some hi -> lo <= hi) ->
  nth_error ts i = Some t -> nth_error ws j = Some w ->
  exists m x, sed_extrapolated s ts ws st kw = Ok m /\ entry m i j = Some x /\
    ((forall lo, sd_min s st = Some lo -> lo <= w) -> (forall hi, sd_max s st = Some hi -> w <= hi) -> x = f t w) /\
    (forall lo, sd_min s st = Some lo -> w < lo -> x = match sd_extrap s with None => 0 | Some e => extrap_value e lo (f t lo) w end) /\
    (forall hi, sd_max s st = Some hi -> hi < w -> x = match sd_extrap s with None => 0 | Some e => extrap_value e hi (f t hi) w end).
Proof.
  intros s ts ws st kw f i j t w HC HE HB Ht Hw. eexists. exists (extended s st f t w).
  split; [apply C43_values; eauto; intros ->; destruct j; discriminate|].
  split; [unfold entry; rewrite nth_error_map, Ht; cbn [option_map]; rewrite nth_error_map, Hw; reflexivity|].
  unfold extended. split; [|split].
  - intros H1 H2. destruct (sd_min s st) as [lo|]; destruct (sd_max s st) as [hi|]; auto;
      try (specialize (H1 lo eq_refl); rewrite (proj2 (Rltb_false w lo)) by lra);
      try (specialize (H2 hi eq_refl); rewrite (proj2 (Rltb_false hi w)) by lra); auto.
  - intros lo E L. rewrite E. rewrite (proj2 (Rltb_true w lo)) by lra. destruct (sd_max s st); auto.
  - intros hi E L. rewrite E. rewrite (proj2 (Rltb_true hi w)) by lra. destruct (sd_min s st) as [lo|] eqn:EL; auto.
    specialize (HB lo hi eq_refl E). rewrite (proj2 (Rltb_false w lo)) by lra. auto.
Qed.
(** A model with both bounds is only ever asked for wavelengths within them: two models that agree there
    (and otherwise may do anything, also raise) give the same answer. *)
Definition with_compute (s : sed) (c : list R -> list R -> gst -> params -> result matrix) : sed :=
  mkSed (sd_node s) (sd_setters s) (sd_redshift s) (sd_min s) (sd_max s) (sd_extrap s) c (sd_rest s) (sd_obs s).
Lemma mask_list_In : forall A (p : A -> bool) l x, In x (mask_list (map p l) l) -> In x l /\ p x = true.
Proof.
  induction l as [|a l IH]; simpl; [tauto|]. intros x. destruct (p a) eqn:E; simpl.
  - intros [->|H]; auto. destruct (IH x H). auto.
  - intros H. destruct (IH x H). auto.
Qed.
Theorem C43_queries_in_range : forall s c ts ws st kw lo hi, sd_min s st = Some lo -> sd_max s st = Some hi -> lo <= hi ->
  (forall q kw, Forall (fun w => lo <= w <= hi) q -> c ts q st kw = sd_compute s ts q st kw) ->
  sed_extrapolated (with_compute s c) ts ws st kw = sed_extrapolated s ts ws st kw.
Proof.
  intros s c ts ws st kw lo hi E1 E2 HL HA. unfold sed_extrapolated. simpl. rewrite E1, E2.
  destruct (list_min ws) as [qmin|] eqn:M1; auto. destruct (list_max ws) as [qmax|] eqn:M2; auto. cbn [bind].
  apply list_min_spec in M1. apply list_max_spec in M2.
  destruct (Rleb lo qmin && Rleb qmax hi)%bool eqn:EB.
  - apply andb_true_iff in EB. destruct EB as [B1 B2]. apply Rleb_true in B1. apply Rleb_true in B2. apply HA.
    apply Forall_forall. intros w Hw. destruct M1 as [_ M1]. destruct M2 as [_ M2]. specialize (M1 w Hw). specialize (M2 w Hw). lra.
  - rewrite HA; auto. constructor; [lra|]. apply Forall_app. split; [|constructor; [lra|constructor]].
    apply Forall_forall. intros w Hw. apply mask_list_In in Hw. destruct Hw as [_ Hw]. apply andb_true_iff in Hw. destruct Hw as [A B].
    apply negb_true_iff in A. apply negb_true_iff in B. apply Rltb_false in A. apply Rltb_false in B. lra.
Qed.
(** Not so for a model with a single bound: it is evaluated at a wavelength beyond that bound. *)
Theorem C43_one_bound_query_refuted : exists s c,
  sd_min s [] = None /\ sd_max s [] = Some 1000 /\
  (forall ts q kw, Forall (fun w => w <= 1000) q -> c ts q ([] : gst) kw = sd_compute s ts q [] kw) /\
  (exists m, sed_extrapolated s [0] [2000] [] [] = Ok m) /\
  sed_extrapolated (with_compute s c) [0] [2000] [] [] = Err ValueError.
Proof.
  exists (mkSed "m" [] false (fun _ => None) (fun _ => Some 1000) None
            (fun ts ws _ _ => Ok (map (fun _ => map (fun _ => 1) ws) ts)) [] []).
  exists (fun ts ws _ _ => if forallb (fun w => Rleb w 1000) ws then Ok (map (fun _ => map (fun _ => 1) ws) ts) else Err ValueError).
  split; auto. split; auto. split.
  - intros ts q kw HF. simpl. replace (forallb (fun w => Rleb w 1000) q) with true; auto. symmetry. apply forallb_forall.
    intros w Hw. apply Rleb_true. rewrite Forall_forall in HF. auto.
  - unfold sed_extrapolated, with_compute. cbn [list_min list_max fold_left bind sd_min sd_max sd_compute sd_extrap].
    rewrite (proj2 (Rleb_true 2000 2000)) by lra. rewrite (proj2 (Rleb_false 2000 1000)) by lra. cbn [andb map mask_list app negb].
    rewrite (proj2 (Rltb_false 2000 2000)) by lra. rewrite (proj2 (Rltb_true 1000 2000)) by lra. cbn [andb negb mask_list app forallb].
    rewrite (proj2 (Rleb_false 2000 1000)) by lra. cbn [andb bind]. split; [eexists; reflexivity|reflexivity].
Qed.
(** Keyword arguments reach the model's [compute_sed] only when no extrapolation is needed. *)
Theorem C43_kwargs_dropped_refuted : exists s m0,
  sed_extrapolated s [0] [1500] [] [("scale"%string, PNum 3)] = Ok [[3]] /\
  sed_extrapolated s [0] [1500; 2500] [] [("scale"%string, PNum 3)] = Ok m0 /\ entry m0 0 0 = Some 1.
Proof.
  exists (mkSed "m" [] false (fun _ => Some 1000) (fun _ => Some 2000) None
            (fun ts ws _ kw => let k := match num_param "scale" kw with Some k => k | None => 1 end in
                               Ok (map (fun _ => map (fun _ => k) ws) ts)) [] []).
  eexists. unfold sed_extrapolated. cbn [list_min list_max fold_left bind sd_min sd_max sd_compute sd_extrap].
  rewrite (proj2 (Rleb_true 1000 1500)) by lra. rewrite (proj2 (Rleb_true 1500 2000)) by lra. cbn [andb].
  split; [reflexivity|]. rewrite Rmin_left by lra. rewrite Rmax_right by lra.
  rewrite (proj2 (Rleb_true 1000 1500)) by lra. rewrite (proj2 (Rleb_false 2500 2000)) by lra. cbn [andb map mask_list app negb].
  rewrite (proj2 (Rltb_false 1500 1000)) by lra. rewrite (proj2 (Rltb_false 2000 1500)) by lra.
  rewrite (proj2 (Rltb_false 2500 1000)) by lra. rewrite (proj2 (Rltb_true 2000 2500)) by lra. cbn [andb negb mask_list app bind num_param dget].
  split; reflexivity.
Qed.
Example C43_case : exists s m, sd_extrap s = Some (XLinear 100) /\ computes s [] [] (fun t w => t + w) /\
  sed_extrapolated s [0; 10] [1950; 1000; 2000; 3000] [] [] = Ok m /\ entry m 1 2 = Some 2010 /\ entry m 0 1 = Some 0 /\ entry m 1 0 = Some (2010 * Rmax 0 (1 - Rabs (1950 - 2000) / 100)).
Proof.
  set (s := mkSed "m" [] false (fun _ => Some 2000) (fun _ => Some 2500) (Some (XLinear 100))
            (fun ts ws _ _ => Ok (map (fun t => map (fun w => t + w) ws) ts)) [] []).
  assert (C : computes s [] [] (fun t w => t + w)) by (intros ts ws kw _; reflexivity).
  assert (V : forall e, sd_extrap s = Some e -> extrap_made e).
  { intros e E. inversion E. right; right; right; left. exists 100. apply (C44_invalid 100). lra. }
  assert (B : forall lo hi, sd_min s [] = Some lo -> sd_max s [] = Some hi -> lo <= hi) by (intros lo hi E1 E2; inversion E1; inversion E2; lra).
  exists s. eexists. split; auto. split; auto. split; [apply C43_values; eauto; discriminate|].
  unfold entry, extended. cbn [nth_error map s sd_min sd_max sd_extrap].
  rewrite (proj2 (Rltb_false 2000 2000)) by lra. rewrite (proj2 (Rltb_false 2500 2000)) by lra.
  rewrite (proj2 (Rltb_true 1000 2000)) by lra. rewrite (proj2 (Rltb_true 1950 2000)) by lra.
  split; [f_equal; lra|]. split; [|simpl; do 2 f_equal; lra]. f_equal. apply (C44_linear_vanishes 100 2000 (0 + 2000) 1000).
  - apply V. reflexivity.
  - rewrite Rabs_left; lra.
Qed.
