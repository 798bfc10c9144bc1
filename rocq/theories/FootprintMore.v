(** Property C81, continued: the direction of the rotation, circles inside and around a footprint, arrays, searches of an
    observation table, and counterexamples. *)
From Coq Require Import Reals String List Bool Arith ZArith Lia Lra.
From Verif Require Import Base BaseFacts RealBase FootprintModel FootprintProps ObsTableModel ObsTableProps.
Import ListNotations.
Open Scope R_scope.

Definition vadd (a b : vec) : vec := let '(x, y, z) := a in let '(x', y', z') := b in (x + x', y + y', z + z').
Definition vmul (k : R) (a : vec) : vec := let '(x, y, z) := a in (k * x, k * y, k * z).
(** The position at distance [d] (degrees) from the pointing in the direction of position angle [p] (from north through east). *)
Definition at_angle (cra cdec d p : R) : vec :=
  vadd (vmul (cos (rad d)) (unit_vec cra cdec)) (vmul (sin (rad d)) (vadd (vmul (cos (rad p)) (north cra cdec)) (vmul (sin (rad p)) (east cra cdec)))).

Lemma frame_orthonormal : forall a b, dot (unit_vec a b) (unit_vec a b) = 1 /\ dot (east a b) (east a b) = 1 /\ dot (north a b) (north a b) = 1 /\
  dot (unit_vec a b) (east a b) = 0 /\ dot (unit_vec a b) (north a b) = 0 /\ dot (east a b) (north a b) = 0.
Proof.
  intros a b. destruct (ahead_centre a b) as (A & B & C). repeat match goal with |- _ /\ _ => split end; auto.
  - unfold dot, east. pose proof (sin2cos2 (rad a)). lra.
  - unfold dot, north. pose proof (sin2cos2 (rad a)) as P. pose proof (sin2cos2 (rad b)) as Q.
    transitivity (sin (rad b) * sin (rad b) * (sin (rad a) * sin (rad a) + cos (rad a) * cos (rad a)) + cos (rad b) * cos (rad b)); [ring|]. rewrite P. lra.
  - unfold dot, east, north. ring.
Qed.
Lemma dot_lin : forall k a l b v, dot (vadd (vmul k a) (vmul l b)) v = k * dot a v + l * dot b v.
Proof. intros k [[a1 a2] a3] l [[b1 b2] b3] [[v1 v2] v3]. unfold dot, vadd, vmul. ring. Qed.
Lemma dot_comm : forall a b, dot a b = dot b a.
Proof. intros [[a1 a2] a3] [[b1 b2] b3]. unfold dot. ring. Qed.
(** Rotation [r] turns the detector's upward axis to position angle [r] (from north towards east; clockwise with east to the right):
    a position at distance d and position angle p has detector coordinates tan d (sin (p - r), cos (p - r)). *)
Theorem C81_rotation : forall cra cdec d p r ra dec, unit_vec ra dec = at_angle cra cdec d p -> 0 <= d < 90 ->
  ahead ra dec cra cdec = cos (rad d) /\
  plane_x ra dec cra cdec r = deg (tan (rad d) * sin (rad (p - r))) /\ plane_y ra dec cra cdec r = deg (tan (rad d) * cos (rad (p - r))).
Proof.
  intros cra cdec d p r ra dec E Hd. unfold plane_x, plane_y, ahead. rewrite E. unfold at_angle.
  destruct (frame_orthonormal cra cdec) as (A & B & C & D & F & G).
  assert (X : dot (at_angle cra cdec d p) (unit_vec cra cdec) = cos (rad d)).
  { unfold at_angle. rewrite !dot_lin. rewrite A, (dot_comm (north cra cdec)), (dot_comm (east cra cdec)), D, F. ring. }
  assert (Y : dot (at_angle cra cdec d p) (east cra cdec) = sin (rad d) * sin (rad p)).
  { unfold at_angle. rewrite !dot_lin. rewrite D, B, (dot_comm (north cra cdec)), G. ring. }
  assert (Z : dot (at_angle cra cdec d p) (north cra cdec) = sin (rad d) * cos (rad p)).
  { unfold at_angle. rewrite !dot_lin. rewrite F, C, G. ring. }
  unfold at_angle in X, Y, Z. rewrite X, Y, Z. split; auto. assert (PP := PI_RGT_0).
  assert (CD : 0 < cos (rad d)). { apply cos_gt_0; unfold rad; [|apply Rmult_lt_reg_r with 180; [lra|]; field_simplify; nra]. assert (0 <= d * PI / 180); [|lra]. unfold Rdiv. apply Rmult_le_pos; [nra|lra]. }
  replace (rad (p - r)) with (rad p - rad r) by (unfold rad; field). rewrite cos_minus, sin_minus. unfold tan. split; f_equal; field; lra.
Qed.

(** ** Circles *)
Lemma ahead_cos : forall ra dec cra cdec, ahead ra dec cra cdec = cos_sep cra cdec ra dec.
Proof. intros. unfold ahead, cos_sep, dot, unit_vec. change (radians) with rad. rewrite cos_minus. ring. Qed.
Lemma separation_cos : forall ra dec cra cdec, let s := rad (separation cra cdec ra dec) in 0 <= s <= PI /\ cos s = ahead ra dec cra cdec.
Proof.
  intros. unfold s, separation. change (acos (cos_sep cra cdec ra dec) * 180 / PI) with (deg (acos (cos_sep cra cdec ra dec))). rewrite rad_deg.
  split; [apply acos_bound|]. rewrite cos_acos by apply cos_sep_bounds. now rewrite ahead_cos.
Qed.
Lemma components_norm : forall ra dec cra cdec,
  ahead ra dec cra cdec * ahead ra dec cra cdec + dot (unit_vec ra dec) (east cra cdec) * dot (unit_vec ra dec) (east cra cdec) +
  dot (unit_vec ra dec) (north cra cdec) * dot (unit_vec ra dec) (north cra cdec) = 1.
Proof.
  intros. pose proof (offset_norm (rad cra) (rad cdec) (rad 0) (unit_vec ra dec)) as N. rewrite unit_norm, offset_components in N. unfold dot in N at 1. rewrite rad_0, cos_0, sin_0 in N.
  rewrite <- N. ring.
Qed.
Lemma plane_norm : forall ra dec cra cdec r, 0 < ahead ra dec cra cdec ->
  let X := ahead ra dec cra cdec in
  rad (plane_x ra dec cra cdec r) * rad (plane_x ra dec cra cdec r) + rad (plane_y ra dec cra cdec r) * rad (plane_y ra dec cra cdec r) = (1 - X * X) / (X * X).
Proof.
  intros ra dec cra cdec r H X. pose proof (components_norm ra dec cra cdec) as N. unfold plane_x, plane_y. rewrite !rad_deg. fold X in N, H |- *.
  set (e := dot _ (east cra cdec)) in *. set (n := dot _ (north cra cdec)) in *. pose proof (sin2cos2 (rad r)) as SC. set (c := cos (rad r)) in *. set (s := sin (rad r)) in *.
  transitivity ((s * s + c * c) * (e * e + n * n) / (X * X)); [field; lra|]. rewrite SC. replace (e * e + n * n) with (1 - X * X) by lra. field. lra.
Qed.
Lemma cos_atan_lt : forall s t, 0 <= s <= PI -> 0 <= t -> (s < atan t <-> 0 < cos s /\ (1 - cos s * cos s) / (cos s * cos s) < t * t).
Proof.
  intros s t Hs Ht. pose proof (atan_bound t) as [B1 B2]. assert (A0 : 0 <= atan t). { rewrite <- atan_0. destruct Ht as [Ht| <-]; [left; now apply atan_increasing|right; auto]. }
  assert (PP := PI_RGT_0). set (C := cos s). assert (CT : cos (atan t) * cos (atan t) * (1 + t * t) = 1 /\ 0 < cos (atan t)).
  { rewrite cos_atan. unfold Rsqr. assert (P : 0 < 1 + t * t) by nra. assert (Q : 0 < sqrt (1 + t * t)) by now apply sqrt_lt_R0.
    split; [|now apply Rdiv_lt_0_compat; [lra|]]. transitivity (1 / (sqrt (1 + t * t) * sqrt (1 + t * t)) * (1 + t * t)); [field; lra|]. rewrite sqrt_sqrt by lra. field. lra. }
  destruct CT as [CT CP]. set (K := cos (atan t)) in *. split.
  - intros L. assert (KC : K < C). { unfold K, C. apply cos_decreasing_1; lra. } split; [lra|].
    apply Rmult_lt_reg_r with (C * C); [nra|]. unfold Rdiv. rewrite Rmult_assoc, Rinv_l by nra.
    assert (KK : K * K < C * C) by nra. assert (MM : K * K * (1 + t * t) < C * C * (1 + t * t)) by (apply Rmult_lt_compat_r; nra). lra.
  - intros [C0 L]. destruct (Rlt_or_le s (atan t)) as [|G]; auto. exfalso.
    assert (CK : C <= K). { destruct G as [G|G]; [left; apply cos_decreasing_1; lra|right; unfold C, K; now rewrite G]. }
    apply (Rmult_lt_compat_r (C * C)) in L; [|nra]. unfold Rdiv in L. rewrite Rmult_assoc, Rinv_l in L by nra.
    assert (KK : C * C <= K * K) by nra. assert (MM : C * C * (1 + t * t) <= K * K * (1 + t * t)) by (apply Rmult_le_compat_r; nra). lra.
Qed.
(** Everything inside a rectangular footprint is nearer to the pointing than the corner, whatever the rotation ... *)
Theorem C81_inside_circle : forall w h ps f ra dec cra cdec rot, from_rect w h None (Some ps) = Ok f -> foot_test f ra dec cra cdec rot = true ->
  separation cra cdec ra dec < deg (atan (stretch * rad (sqrt (w * w + h * h) / 2))).
Proof.
  intros w h ps f ra dec cra cdec rot HF H. apply (C81_contains _ _ _ _ _ _ _ _ _ HF) in H. destruct H as (H0 & H1 & H2).
  pose proof (separation_cos ra dec cra cdec) as [S1 S2]. set (s := rad (separation cra cdec ra dec)) in *. set (T := stretch * rad _).
  assert (PP := PI_RGT_0). assert (SP := stretch_pos). assert (WH : 0 <= w * w + h * h) by nra.
  assert (T0 : 0 <= T). { unfold T, rad. pose proof (sqrt_pos (w * w + h * h)). apply Rmult_le_pos; [lra|]. assert (0 <= sqrt (w * w + h * h) / 2 * PI) by (apply Rmult_le_pos; lra). lra. }
  assert (L : s < atan T).
  { apply cos_atan_lt; auto. rewrite S2. split; auto. pose proof (plane_norm ra dec cra cdec (turn_of rot) H0) as PN. cbv zeta in PN. rewrite <- PN.
    set (a := plane_x _ _ _ _ _) in *. set (b := plane_y _ _ _ _ _) in *. 
    assert (TT : T * T = (stretch * w / 2) * (stretch * w / 2) * (PI / 180 * (PI / 180)) + (stretch * h / 2) * (stretch * h / 2) * (PI / 180 * (PI / 180))).
    { unfold T, rad. transitivity (stretch * stretch * (PI * PI) / (4 * 180 * 180) * (sqrt (w * w + h * h) * sqrt (w * w + h * h))); [field|]. rewrite sqrt_sqrt by auto. field. }
    rewrite TT. assert (A2 : a * a < (stretch * w / 2) * (stretch * w / 2)). { rewrite <- (Rabs_pos_eq (stretch * w / 2)) by (pose proof (Rabs_pos a); lra). apply Rsqr_lt_abs_1. rewrite Rabs_Rabsolu. rewrite (Rabs_pos_eq (stretch * w / 2)) by (pose proof (Rabs_pos a); lra). auto. }
    assert (B2 : b * b < (stretch * h / 2) * (stretch * h / 2)). { rewrite <- (Rabs_pos_eq (stretch * h / 2)) by (pose proof (Rabs_pos b); lra). apply Rsqr_lt_abs_1. rewrite Rabs_Rabsolu. rewrite (Rabs_pos_eq (stretch * h / 2)) by (pose proof (Rabs_pos b); lra). auto. }
    assert (QP : 0 < PI / 180 * (PI / 180)) by nra. unfold rad. replace (a * PI / 180 * (a * PI / 180) + b * PI / 180 * (b * PI / 180)) with (a * a * (PI / 180 * (PI / 180)) + b * b * (PI / 180 * (PI / 180))) by field. nra. }
  rewrite <- (deg_rad (separation cra cdec ra dec)). fold s. unfold deg. unfold Rdiv. apply Rmult_lt_compat_r; [now apply Rinv_0_lt_compat|]. lra.
Qed.
(** ... and everything nearer than the middle of the shorter side is inside. *)
Theorem C81_circle_inside : forall w h ps f ra dec cra cdec rot, from_rect w h None (Some ps) = Ok f ->
  separation cra cdec ra dec < deg (atan (rad (Rmin w h / 2))) -> foot_test f ra dec cra cdec rot = true.
Proof.
  intros w h ps f ra dec cra cdec rot HF H. apply (C81_contains _ _ _ _ _ _ _ _ _ HF).
  assert (W : 0 < w /\ 0 < h). { unfold from_rect in HF. destruct (Rleb w 0) eqn:E1; [discriminate|]. destruct (Rleb h 0) eqn:E2; [discriminate|]. apply Rleb_false in E1, E2. auto. }
  destruct W as [W0 H0]. pose proof (separation_cos ra dec cra cdec) as [S1 S2]. set (s := rad (separation cra cdec ra dec)) in *. set (T := rad (Rmin w h / 2)) in *.
  assert (PP := PI_RGT_0). destruct C81_stretch as [ST _]. assert (M0 : 0 < Rmin w h) by (apply Rmin_pos; auto).
  assert (T0 : 0 < T). { unfold T, rad. apply Rdiv_lt_0_compat; [|lra]. apply Rmult_lt_0_compat; lra. }
  assert (L : s < atan T). { unfold s. rewrite <- (rad_deg (atan T)). unfold rad, Rdiv. apply Rmult_lt_compat_r; [lra|]. apply Rmult_lt_compat_r; auto. }
  apply cos_atan_lt in L; [|auto|lra]. rewrite S2 in L. destruct L as [A L]. split; auto.
  pose proof (plane_norm ra dec cra cdec (turn_of rot) A) as PN. cbv zeta in PN. rewrite <- PN in L.
  set (a := plane_x _ _ _ _ _) in *. set (b := plane_y _ _ _ _ _) in *.
  assert (AB : Rabs (rad a) < Rabs T /\ Rabs (rad b) < Rabs T). { split; apply Rsqr_lt_abs_0; unfold Rsqr; pose proof (Rle_0_sqr (rad a)); pose proof (Rle_0_sqr (rad b)); unfold Rsqr in *; lra. }
  assert (K : forall x, Rabs (rad x) < Rabs T -> Rabs x < Rmin w h / 2).
  { intros x Hx. rewrite (Rabs_pos_eq T) in Hx by lra. unfold T, rad in Hx. replace (x * PI / 180) with (x * (PI / 180)) in Hx by field. rewrite Rabs_mult, (Rabs_pos_eq (PI / 180)) in Hx by lra.
    replace (Rmin w h / 2 * PI / 180) with (Rmin w h / 2 * (PI / 180)) in Hx by field. apply Rmult_lt_reg_r in Hx; [auto|lra]. }
  destruct AB as [KA KB]. apply K in KA, KB. pose proof (Rmin_l w h). pose proof (Rmin_r w h). split; nra.
Qed.

(** ** Arrays *)
(** The [k]-th value of an argument that goes with [n] positions. *)
Definition value_at (a : arg) (k : nat) : option R :=
  match a with Num r => Some r | Arr [x] => Some x | Arr l => nth_error l k end.
Definition fits (n : nat) (a : arg) : Prop := match a with Num _ => True | Arr l => length l = n \/ length l = 1%nat end.
Lemma fit_ok : forall n a, fits n a -> exists l, fit n (atleast_1d a) = Ok l /\ length l = n /\ forall k, (k < n)%nat -> nth_error l k = value_at a k.
Proof.
  intros n [r|l] H; unfold fit, atleast_1d.
  - destruct n as [|[|n]]; simpl length.
    + exists []. repeat split; auto. intros k Hk. lia.
    + exists [r]. repeat split; auto. intros k Hk. assert (k = 0%nat) by lia. subst. reflexivity.
    + exists (repeat r (S (S n))). split; auto. split; [apply repeat_length|]. intros k Hk. cbn [value_at]. now apply nth_error_repeat.
  - simpl in H. destruct (length l =? n)%nat eqn:E.
    + apply Nat.eqb_eq in E. exists l. split; auto. split; auto. intros k Hk. destruct l as [|x [|y l]]; auto. simpl in E. assert (k = 0%nat) by lia. subst. reflexivity.
    + apply Nat.eqb_neq in E. destruct H as [H|H]; [congruence|]. destruct l as [|x [|y l]]; try discriminate. exists (repeat x n). split; auto. split; [apply repeat_length|].
      intros k Hk. cbn [value_at]. now apply nth_error_repeat.
Qed.
Lemma fit_bad : forall n a, ~ fits n a -> fit n (atleast_1d a) = Err ValueError.
Proof.
  intros n [r|l] H; [simpl in H; tauto|]. unfold fit, atleast_1d. simpl in H. destruct (length l =? n)%nat eqn:E; [apply Nat.eqb_eq in E; tauto|].
  destruct l as [|x [|y l]]; auto. simpl in H. tauto.
Qed.
Lemma zip_test_spec : forall f ra dec cra cdec rot, length dec = length ra -> length cra = length ra -> length cdec = length ra -> (forall l, rot = Some l -> length l = length ra) ->
  length (zip_test f ra dec cra cdec rot) = length ra /\
  forall k a b c d, nth_error ra k = Some a -> nth_error dec k = Some b -> nth_error cra k = Some c -> nth_error cdec k = Some d ->
    exists r, match rot with None => r = None | Some l => r = nth_error l k /\ r <> None end /\ nth_error (zip_test f ra dec cra cdec rot) k = Some (foot_test f a b c d r).
Proof.
  intros f. induction ra as [|a0 ra IH]; intros [|b0 dec] [|c0 cra] [|d0 cdec] rot H1 H2 H3 H4; try discriminate.
  - split; auto. intros [|k] a b c d H; discriminate.
  - simpl in H1, H2, H3. cbn [zip_test]. destruct (IH dec cra cdec (option_map (fun l => tl l) rot)) as [L E]; try lia.
    { intros l Hl. destruct rot as [[|r0 l0]|]; try discriminate; simpl in Hl; inversion Hl; subst; specialize (H4 _ eq_refl); simpl in H4; [lia|]. simpl. lia. }
    split; [simpl; lia|]. intros [|k] a b c d A B C D; simpl in A, B, C, D.
    + inversion A; inversion B; inversion C; inversion D; subst. destruct rot as [[|r0 l0]|]; simpl.
      * specialize (H4 _ eq_refl). discriminate.
      * exists (Some r0). split; [split; [auto|discriminate]|reflexivity].
      * exists None. auto.
    + destruct (E k a b c d A B C D) as (r & R1 & R2). exists r. split; auto. destruct rot as [[|r0 l0]|]; auto. specialize (H4 _ eq_refl). discriminate.
Qed.
(** For arrays of positions each answer is the one for its own position, pointing and rotation; a single pointing or rotation goes with
    all positions; other sizes are refused. *)
Theorem C81_arrays : forall f ras decs cra cdec rot, length decs = length ras -> let n := length ras in
  (fits n cra -> fits n cdec -> (forall r, rot = Some r -> fits n r) ->
   exists out, foot_contains f (Arr ras) (Arr decs) cra cdec rot = Ok (AList out) /\ length out = n /\
     forall k ra dec, nth_error ras k = Some ra -> nth_error decs k = Some dec ->
       exists c d, value_at cra k = Some c /\ value_at cdec k = Some d /\
         nth_error out k = Some (foot_test f ra dec c d (match rot with None => None | Some r => value_at r k end))) /\
  (~ (fits n cra /\ fits n cdec /\ (forall r, rot = Some r -> fits n r)) -> foot_contains f (Arr ras) (Arr decs) cra cdec rot = Err ValueError).
Proof.
  intros f ras decs cra cdec rot HL n. unfold foot_contains. cbn [atleast_1d]. rewrite HL, Nat.eqb_refl. cbn [negb]. split.
  - intros HC HD HR. destruct (fit_ok _ _ HC) as (lc & E1 & L1 & N1). destruct (fit_ok _ _ HD) as (ld & E2 & L2 & N2). fold n. rewrite E1, E2. cbn [bind].
    assert (RR : exists lr, (match rot with None => Ok None | Some r => bind (fit n (atleast_1d r)) (fun l => Ok (Some l)) end) = Ok lr /\
      match rot, lr with None, None => True | Some r, Some l => length l = n /\ (forall k, (k < n)%nat -> nth_error l k = value_at r k) | _, _ => False end).
    { destruct rot as [r|]; [|exists None; auto]. destruct (fit_ok _ _ (HR r eq_refl)) as (l & E & L & N). rewrite E. exists (Some l). auto. }
    destruct RR as (lr & ER & SR). rewrite ER. cbn [bind]. eexists. split; [reflexivity|].
    destruct (zip_test_spec f ras decs lc ld lr) as [LZ Z]; auto. { intros l ->. destruct rot; [tauto|destruct SR]. }
    split; auto. intros k ra dec Hr Hd. assert (K : (k < n)%nat) by (apply nth_error_Some; congruence).
    destruct (nth_error lc k) as [c|] eqn:Ec; [|apply nth_error_None in Ec; lia]. destruct (nth_error ld k) as [d|] eqn:Ed; [|apply nth_error_None in Ed; lia].
    exists c, d. rewrite <- N1, <- N2 by auto. split; auto. split; auto. destruct (Z k ra dec c d Hr Hd Ec Ed) as (r & R1 & R2). rewrite R2. f_equal. f_equal.
    destruct lr as [l|], rot as [r'|]; try (destruct SR; fail); auto. destruct SR as [_ SR]. rewrite <- SR by auto. tauto.
  - intros H. fold n.
    assert (F : forall a, (exists l, fit n (atleast_1d a) = Ok l) /\ fits n a \/ fit n (atleast_1d a) = Err ValueError).
    { intros a. destruct a as [r|l] eqn:EA; [left; split; [|exact I]; destruct (fit_ok n (Num r) I) as (l & E & _); eauto|].
      destruct (Nat.eq_dec (length l) n) as [E|NE]; [left; split; [destruct (fit_ok n (Arr l) (or_introl E)) as (l' & E' & _); eauto|simpl; auto]|].
      destruct (Nat.eq_dec (length l) 1) as [E|NE1]; [left; split; [destruct (fit_ok n (Arr l) (or_intror E)) as (l' & E' & _); eauto|simpl; auto]|].
      right. apply fit_bad. simpl. tauto. }
    destruct (F cra) as [[[l E] P1]|E]; rewrite E; [cbn [bind]|reflexivity]. destruct (F cdec) as [[[l2 E2] P2]|E2]; rewrite E2; [cbn [bind]|reflexivity].
    destruct rot as [r|]; [|exfalso; apply H; repeat split; auto; discriminate]. destruct (F r) as [[[l3 E3] P3]|E3]; rewrite E3; [|reflexivity].
    exfalso. apply H. repeat split; auto. intros r' R'. inversion R'; subst; auto.
Qed.
Theorem C81_scalar : forall f ra dec cra cdec r,
  foot_contains f (Num ra) (Num dec) (Num cra) (Num cdec) None = Ok (ABool (foot_test f ra dec cra cdec None)) /\
  foot_contains f (Num ra) (Num dec) (Num cra) (Num cdec) (Some (Num r)) = Ok (ABool (foot_test f ra dec cra cdec (Some r))) /\
  (forall ras decs, length ras <> length decs -> foot_contains f (Arr ras) (Arr decs) (Num cra) (Num cdec) None = Err ValueError).
Proof.
  intros. split; [reflexivity|split; [reflexivity|]]. intros ras decs H. unfold foot_contains. cbn [atleast_1d]. apply Nat.eqb_neq in H. now rewrite H.
Qed.

(** ** In an observation table *)
(** The footprint as an observation table applies it: position, pointing, rotation. *)
Definition as_footprint (f : dfoot) : footprint := fun q c r => foot_test f (fst q) (snd q) (fst c) (snd c) r.
(** With a search radius that covers the detector's corners, a search of a table with a rectangular footprint returns exactly the rows
    (in the time range) whose detector covers the position. *)
Theorem C81_search : forall ball o f w h ps ra dec r tmin tmax l, ball_spec ball -> tbl o ->
  from_rect w h None (Some ps) = Ok f -> ob_footprint o = Some (as_footprint f) ->
  deg (atan (stretch * rad (sqrt (w * w + h * h) / 2))) <= r <= 180 ->
  range_search ball o (QScalar ra) (QScalar dec) (Some r) tmin tmax = Ok (One l) ->
  NoDup l /\ forall i, In i l <-> exists ra' dec' t, num_at o "ra" i = Some ra' /\ num_at o "dec" i = Some dec' /\ num_at o "time" i = Some t /\
    (forall a, bound_of tmin 0 = Some a -> a <= t) /\ (forall b, bound_of tmax 0 = Some b -> t <= b) /\
    foot_test f ra dec ra' dec' (num_at o "rotation" i) = true.
Proof.
  intros ball o f w h ps ra dec r tmin tmax l HB HT HF HO HR H.
  assert (R0 : 0 <= r).
  { eapply Rle_trans; [|apply HR]. unfold deg. assert (0 <= atan (stretch * rad (sqrt (w * w + h * h) / 2))).
    { rewrite <- atan_0. assert (PP := PI_RGT_0). assert (0 <= stretch * rad (sqrt (w * w + h * h) / 2)).
      { apply Rmult_le_pos; [apply Rlt_le, stretch_pos|]. unfold rad. pose proof (sqrt_pos (w * w + h * h)). assert (0 <= sqrt (w * w + h * h) / 2 * PI) by (apply Rmult_le_pos; lra). lra. }
      destruct H0 as [H0| <-]; [left; now apply atan_increasing|right; auto]. }
    assert (PP := PI_RGT_0). unfold Rdiv. apply Rmult_le_pos; [lra|]. apply Rlt_le, Rinv_0_lt_compat. auto. }
  destruct (C34_exact_scalar ball o ra dec (Some r) tmin tmax (One l) r HB HT eq_refl (conj R0 (proj2 HR)) H) as (l' & E & ND & S). inversion E; subst l'. split; auto.
  intros i. rewrite S. unfold matches. split.
  - intros (ra' & dec' & t & A & B & C & D & T1 & T2 & F). exists ra', dec', t. repeat match goal with |- _ /\ _ => split end; auto. apply (F _ HO).
  - intros (ra' & dec' & t & A & B & C & T1 & T2 & F). exists ra', dec', t. repeat match goal with |- _ /\ _ => split end; auto.
    + pose proof (C81_inside_circle _ _ _ _ _ _ _ _ _ HF F). lra.
    + intros fp Hfp. rewrite HO in Hfp. inversion Hfp; subst fp. exact F.
Qed.
(** obs_table.py lines 141-146: a region given to an observation table becomes a footprint with the survey's pixel_scale (a survey
    value that is neither a number nor missing is outside the model: TypeError here). *)
Definition table_footprint (r : region) (w : option wcs) (o : obstable) : result dfoot :=
  match dget "pixel_scale" (ob_values o) with
  | Some (SNum ps) => foot_make r w (Some ps)
  | Some SNone | None => foot_make r w None
  | Some _ => Err TypeError
  end.

(** ** Pixel regions *)
Lemma pix_rect_built : forall cx cy w h ps, 0 < ps -> Rabs cx < 1 -> Rabs cy < 1 -> 1 <= w -> 1 <= h ->
  foot_make (Pix (PixRect cx cy w h 0)) None (Some ps) = Ok (mkFoot (PixRect cx cy w h 0) (tan_pixel ps)).
Proof.
  intros cx cy w h ps Hp HX HY Hw Hh. unfold foot_make. replace (Rleb ps 0) with false by (symmetry; apply Rleb_false; lra). cbn [bind bounding_box]. rewrite cos_0, sin_0.
  assert (DX : Rmax (Rabs (w / 2 * 1 - h / 2 * 0)) (Rabs (w / 2 * 1 + h / 2 * 0)) = w / 2).
  { replace (w / 2 * 1 - h / 2 * 0) with (w / 2) by ring. replace (w / 2 * 1 + h / 2 * 0) with (w / 2) by ring. rewrite Rabs_pos_eq by lra. apply Rmax_left. lra. }
  assert (DY : Rmax (Rabs (w / 2 * 0 + h / 2 * 1)) (Rabs (w / 2 * 0 - h / 2 * 1)) = h / 2).
  { replace (w / 2 * 0 + h / 2 * 1) with (h / 2) by ring. replace (w / 2 * 0 - h / 2 * 1) with (- (h / 2)) by ring. rewrite Rabs_Ropp, Rabs_pos_eq by lra. apply Rmax_left. lra. }
  rewrite DX, DY. apply Rabs_def2 in HX, HY.
  assert (FL : forall x, x < 1 -> (floor x <= 0)%Z). { intros x Hx. unfold floor. pose proof (base_Int_part x) as [A _]. assert (IZR (Int_part x) < 1) by lra. apply lt_IZR in H. lia. }
  assert (CE : forall x, -1 < x -> (0 <= ceil x)%Z). { intros x Hx. unfold ceil. pose proof (FL (- x) ltac:(lra)) as Q. unfold floor in Q. lia. }
  repeat match goal with |- context[(floor ?x <=? 0)%Z] => replace (floor x <=? 0)%Z with true by (symmetry; apply Z.leb_le, FL; lra) end.
  repeat match goal with |- context[(0 <=? ceil ?x)%Z] => replace (0 <=? ceil x)%Z with true by (symmetry; apply Z.leb_le, CE; lra) end.
  reflexivity.
Qed.
(** An upright pixel rectangle with the default WCS: the pointing is at pixel position (-1/2, -1/2), one pixel is [ps] degrees of the
    tangent plane. *)
Theorem C81_pixel_region : forall cx cy w h ps f ra dec cra cdec rot, 0 < ps -> Rabs cx < 1 -> Rabs cy < 1 -> 1 <= w -> 1 <= h ->
  foot_make (Pix (PixRect cx cy w h 0)) None (Some ps) = Ok f ->
  (foot_test f ra dec cra cdec rot = true <-> 0 < ahead ra dec cra cdec /\
   Rabs (plane_x ra dec cra cdec (turn_of rot) - ps * (cx + 1 / 2)) < ps * w / 2 /\ Rabs (plane_y ra dec cra cdec (turn_of rot) - ps * (cy + 1 / 2)) < ps * h / 2).
Proof.
  intros cx cy w h ps f ra dec cra cdec rot Hp HX HY Hw Hh HF. rewrite pix_rect_built in HF by auto. injection HF as <-.
  unfold foot_test. destruct (rotate_to_center ra dec cra cdec rot) as [lon lat] eqn:E. apply rotate_spec in E. cbn [df_region df_wcs]. unfold tan_pixel. rewrite E, offset_components.
  fold (plane_x ra dec cra cdec (turn_of rot)). fold (plane_y ra dec cra cdec (turn_of rot)).
  destruct (Rltb 0 (ahead ra dec cra cdec)) eqn:EX; [apply Rltb_true in EX|apply Rltb_false in EX].
  2:{ split; [discriminate|intros [H _]; lra]. }
  cbn [pix_contains]. rewrite andb_true_iff, !Rltb_true, cos_0, sin_0. set (a := plane_x _ _ _ _ _). set (b := plane_y _ _ _ _ _).
  replace (1 * (a / ps + (1 / 2 - 1) - cx) + 0 * (b / ps + (1 / 2 - 1) - cy)) with ((a - ps * (cx + 1 / 2)) / ps) by (field; lra).
  replace (0 * (a / ps + (1 / 2 - 1) - cx) - 1 * (b / ps + (1 / 2 - 1) - cy)) with (- ((b - ps * (cy + 1 / 2)) / ps)) by (field; lra).
  rewrite Rabs_Ropp. assert (M : forall u q, Rabs (u / ps) < q * (1 / 2) <-> Rabs u < ps * q / 2).
  { intros u q. unfold Rdiv at 1. rewrite Rabs_mult, (Rabs_right (/ ps)) by (apply Rle_ge, Rlt_le, Rinv_0_lt_compat; auto).
    assert (IP : 0 < / ps) by now apply Rinv_0_lt_compat. replace (q * (1 / 2)) with (ps * q / 2 * / ps) by (field; lra).
    split; intros H; [eapply Rmult_lt_reg_r; eauto|now apply Rmult_lt_compat_r]. }
  rewrite !M. tauto.
Qed.
(** Finding: the reference pixel is written as (0.5, 0.5), the centre of the first pixel counted from 1 being 1: the pointing is half a
    pixel off the origin, on which (lines 48-52) footprints are to be defined.  A detector of one pixel at the origin does not see the
    pointing, and turning a detector centred on the origin by 180 degrees changes what it sees. *)
Theorem C81_pixel_origin_refuted : forall ps cra cdec rot, 0 < ps -> exists f,
  foot_make (Pix (PixRect 0 0 1 1 0)) None (Some ps) = Ok f /\ foot_test f cra cdec cra cdec rot = false.
Proof.
  intros ps cra cdec rot Hp. assert (E := pix_rect_built 0 0 1 1 ps Hp). rewrite Rabs_R0 in E. specialize (E ltac:(lra) ltac:(lra) ltac:(lra) ltac:(lra)).
  eexists. split; [exact E|]. apply not_true_iff_false. intros H. apply (C81_pixel_region 0 0 1 1 ps _ _ _ _ _ _ Hp) in H; auto; try (rewrite Rabs_R0; lra); try lra.
  destruct H as (_ & H & _). destruct (ahead_centre cra cdec) as (A & B & C). unfold plane_x in H. rewrite A, B, C in H.
  match type of H with context[deg ?x] => replace x with 0 in H by field end. replace (deg 0) with 0 in H by (unfold deg; field; apply PI_neq0).
  rewrite Rabs_minus_sym, Rabs_pos_eq in H by lra. lra.
Qed.
(** Finding: surveys give pixel_scale in arc seconds per pixel (consts of opsim.py and others), the footprint expects degrees.  A
    detector of 1000 x 1000 pixels of 0.2 arc seconds (200 arc seconds wide) covers, in the table, a position 10 degrees away. *)
Theorem C81_table_scale_refuted : forall o, dget "pixel_scale" (ob_values o) = Some (SNum (2 / 10)) -> exists f,
  table_footprint (Pix (PixRect (-1 / 2) (-1 / 2) 1000 1000 0)) None o = Ok f /\ foot_test f 0 10 0 0 None = true.
Proof.
  intros o HO. unfold table_footprint. rewrite HO. assert (P : 0 < 2 / 10) by lra.
  assert (AB : Rabs (-1 / 2) < 1) by (rewrite Rabs_left; lra).
  eexists. split; [apply pix_rect_built; auto; lra|]. apply (C81_pixel_region (-1 / 2) (-1 / 2) 1000 1000 (2 / 10) _ _ _ _ _ _ P); auto; try lra; [apply pix_rect_built; auto; lra|].
  assert (PP := PI_RGT_0). assert (P2 := PI2_1).
  assert (U : unit_vec 0 10 = at_angle 0 0 10 0).
  { unfold at_angle, unit_vec, north, east, vadd, vmul. rewrite rad_0, cos_0, sin_0. f_equal; [f_equal|]; ring. }
  destruct (C81_rotation 0 0 10 0 0 0 10 U ltac:(lra)) as (A & B & C). cbn [turn_of]. rewrite A, B, C. replace (0 - 0) with 0 by ring. rewrite rad_0, cos_0, sin_0.
  assert (R10 : 0 < rad 10 < PI / 4) by (unfold rad; lra).
  assert (T1 : 0 < tan (rad 10) < 1). { split; [apply tan_gt_0; lra|]. rewrite <- tan_PI4. apply tan_increasing; lra. }
  split; [apply cos_gt_0; lra|]. replace (deg (tan (rad 10) * 0)) with 0 by (unfold deg; field; lra). replace (2 / 10 * (-1 / 2 + 1 / 2)) with 0 by lra. rewrite !Rminus_0_r, Rabs_R0. split; [lra|].
  rewrite Rmult_1_r. assert (D : 0 < deg (tan (rad 10)) < 100).
  { unfold deg. split; [apply Rdiv_lt_0_compat; lra|]. apply Rmult_lt_reg_r with PI; auto. unfold Rdiv. rewrite Rmult_assoc, Rinv_l by lra. nra. }
  rewrite Rabs_pos_eq by lra. lra.
Qed.
(** A case: a square of 2 degrees, pointing at (10, 20): a position half a degree to the north is inside, for every rotation. *)
Example C81_case : exists f, from_rect 2 2 None (Some (1 / 1000)) = Ok f /\ foot_test f 10 (20 + 1 / 2) 10 20 (Some 30) = true.
Proof.
  destruct (C81_from_rect 2 2 (1 / 1000)) as (H & _). destruct H as (f & HF); try lra. exists f. split; auto.
  apply (C81_contains _ _ _ _ _ _ _ _ _ HF). cbn [turn_of].
  assert (PP := PI_RGT_0). assert (P2 := PI2_1).
  assert (U : unit_vec 10 (20 + 1 / 2) = at_angle 10 20 (1 / 2) 0).
  { unfold at_angle, unit_vec, north, east, vadd, vmul. rewrite rad_0, cos_0, sin_0, rad_plus, cos_plus, sin_plus. f_equal; [f_equal|]; ring. }
  destruct (C81_rotation 10 20 (1 / 2) 0 30 10 (20 + 1 / 2) U ltac:(lra)) as (A & B & C). rewrite A, B, C.
  assert (R1 : 0 < rad (1 / 2) < PI / 4) by (unfold rad; lra). split; [apply cos_gt_0; lra|].
  assert (P4 := PI_4). assert (TB : 0 < tan (rad (1 / 2)) < rad 1).
  { split; [apply tan_gt_0; lra|]. set (t := rad (1 / 2)) in *. assert (E1 : rad 1 = 2 * t) by (unfold t, rad; field). rewrite E1.
    assert (TS : t < 1 / 50) by (unfold t, rad; lra). assert (CB : 1 / 2 < cos t).
    { pose proof (cos_bound t 0 ltac:(lra) ltac:(lra)) as [L _]. unfold cos_approx, cos_term in L. simpl in L. nra. }
    unfold tan. apply Rmult_lt_reg_r with (cos t); [lra|]. unfold Rdiv. rewrite Rmult_assoc, Rinv_l by lra. pose proof (sin_lt_x t ltac:(lra)). nra. }
  assert (DB : forall x, Rabs x <= 1 -> Rabs (deg (tan (rad (1 / 2)) * x)) < stretch * 2 / 2).
  { intros x Hx. destruct C81_stretch as [S1 _]. apply Rlt_le_trans with 1; [|lra]. unfold deg. replace (tan (rad (1 / 2)) * x * 180 / PI) with (tan (rad (1 / 2)) * x * (180 / PI)) by (field; lra).
    assert (QP : 0 < 180 / PI) by (apply Rdiv_lt_0_compat; lra). rewrite !Rabs_mult, (Rabs_pos_eq (180 / PI)), (Rabs_pos_eq (tan (rad (1 / 2)))) by lra.
    apply Rmult_lt_reg_r with (PI / 180); [lra|]. rewrite Rmult_assoc. replace (180 / PI * (PI / 180)) with 1 by (field; lra). assert (E1 : rad 1 = 1 * (PI / 180)) by (unfold rad; field). rewrite E1 in TB. pose proof (Rabs_pos x). set (T := tan (rad (1 / 2))) in *. assert (T * Rabs x <= T * 1) by (apply Rmult_le_compat_l; lra). lra. }
  split; apply DB; apply Rabs_le; [apply SIN_bound|apply COS_bound].
Qed.
