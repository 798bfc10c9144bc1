(** Property C69: the SALT2 colour law and model. *)
From Coq Require Import Reals String Ascii List Bool Arith ZArith Lia Lra.
From Verif Require Import Base BaseFacts RealBase PassbandModel PassbandProofs PassbandProps ObsTableModel SedModel SedProps SedPipeline NoiseModel NoiseProps TemplateModel TemplateProps SimpleModels.
From Verif Require Import BicubicModel BicubicProps GridModel GridProps Salt2Model.
Import ListNotations.
Open Scope R_scope.

(** ** The colour law *)
(** The documented polynomial: at most six coefficients, for the powers 2, 3, ...; the coefficient of the first
    power is chosen so that all of them add up to 1. *)
Definition reduced (w : R) : R := (w - 4302.57) / (5428.55 - 4302.57).
Definition salt_poly (coeffs : list R) (x : R) : R :=
  let a := firstn 6 coeffs in
  (1 - Rsum a) * x + Rsum (map (fun p => fst p * x ^ snd p) (combine a (seq 2 (length a)))).

Lemma scaled : forall w, (w - cl_b) * wavescale = reduced w.
Proof. intros w. unfold wavescale, cl_b, cl_v, reduced. lra. Qed.
Lemma scale_pos : 0 < wavescale.
Proof. unfold wavescale, cl_b, cl_v. lra. Qed.
Lemma reduced_le : forall a b, reduced a <= reduced b <-> a <= b.
Proof. intros. unfold reduced. lra. Qed.
Lemma reduced_lt : forall a b, reduced a < reduced b <-> a < b.
Proof. intros. unfold reduced. lra. Qed.
Lemma combine_zeros : forall n k x, Rsum (map (fun p => fst p * x ^ snd p) (combine (repeat 0 n) (seq k n))) = 0.
Proof. induction n as [|n IH]; intros k x; simpl; auto. rewrite IH. lra. Qed.
Lemma sum_zeros : forall n, Rsum (repeat 0 n) = 0.
Proof. induction n as [|n IH]; simpl; auto. rewrite IH. lra. Qed.
Lemma combine_app2 : forall A B (a1 : list A) (b1 : list B) a2 b2, length a1 = length b1 -> combine (a1 ++ a2) (b1 ++ b2) = combine a1 b1 ++ combine a2 b2.
Proof. induction a1 as [|x a1 IH]; intros [|y b1] a2 b2 H; simpl in *; try discriminate; auto. f_equal. apply IH. lia. Qed.
Lemma Rsum_cons : forall a l, Rsum (a :: l) = a + Rsum l.
Proof. reflexivity. Qed.
Lemma pad_poly : forall cs x, powers (pad_coeffs cs) (seq 1 7) x = salt_poly cs x.
Proof.
  intros cs x. unfold powers, pad_coeffs, salt_poly. cbv zeta.
  set (n := Nat.min (length cs) 6). assert (F : firstn n cs = firstn 6 cs).
  { unfold n. destruct (Nat.le_gt_cases (length cs) 6).
    - rewrite Nat.min_l by auto. now rewrite !firstn_all2 by lia.
    - now rewrite Nat.min_r by lia. }
  rewrite F. assert (L : length (firstn 6 cs) = n) by (rewrite firstn_length; unfold n; lia).
  set (a := firstn 6 cs) in *. assert (N : (n <= 6)%nat) by (unfold n; lia).
  change (seq 1 7) with (1%nat :: seq 2 6). cbn [combine map]. 
  assert (SQ : seq 2 6 = (seq 2 n ++ seq (2 + n) (6 - n))%list).
  { rewrite <- seq_app. f_equal. lia. }
  rewrite SQ. rewrite combine_app2 by (rewrite seq_length; auto). rewrite map_app.
  rewrite !Rsum_cons, !Rsum_app, combine_zeros, sum_zeros, L. cbn [fst snd]. ring.
Qed.
Lemma pad_length : forall cs, length (pad_coeffs cs) = 7%nat.
Proof. intros. unfold pad_coeffs. cbv zeta. cbn [length]. rewrite app_length, firstn_length, repeat_length. lia. Qed.
Lemma pad_sum : forall cs, Rsum (pad_coeffs cs) = 1.
Proof. intros. unfold pad_coeffs. cbv zeta. cbn [Rsum fold_right]. lra. Qed.
Lemma seven : forall l : list R, length l = 7%nat -> exists a b c d e f g, l = [a; b; c; d; e; f; g].
Proof.
  intros l H. destruct l as [|a [|b [|c [|d [|e [|f [|g [|h l]]]]]]]]; try discriminate H. now exists a, b, c, d, e, f, g.
Qed.
Lemma powers_deriv : forall l x, derivable_pt_lim (fun x => Rsum (map (fun p => fst p * x ^ snd p) l)) x
  (Rsum (map (fun p : R * nat => fst p * (INR (snd p) * x ^ pred (snd p))) l)).
Proof.
  induction l as [|[c k] l IH]; intros x.
  - simpl. apply derivable_pt_lim_const.
  - cbn [map Rsum fold_right]. apply (derivable_pt_lim_plus (fun x => c * x ^ k) (fun x => Rsum (map (fun p => fst p * x ^ snd p) l))); [|apply IH].
    apply (derivable_pt_lim_scal (fun x => x ^ k)). apply derivable_pt_lim_pow.
Qed.
Lemma cl_deriv_spec : forall cs x, length cs = 7%nat -> derivable_pt_lim (powers cs (seq 1 7)) x (cl_deriv cs x).
Proof.
  intros cs x H. destruct (seven cs H) as (a & b & c & d & e & f & g & ->).
  assert (X := powers_deriv (combine [a; b; c; d; e; f; g] (seq 1 7)) x).
  assert (E : cl_deriv [a; b; c; d; e; f; g] x = Rsum (map (fun p : R * nat => fst p * (INR (snd p) * x ^ pred (snd p))) (combine [a; b; c; d; e; f; g] (seq 1 7)))).
  { unfold cl_deriv, powers, Rsum. simpl. ring. }
  rewrite E. exact X.
Qed.
Lemma powers_cont : forall cs es, continuity (powers cs es).
Proof. intros cs es x. apply derivable_continuous_pt. eexists. apply (powers_deriv (combine cs es)). Qed.
Lemma cl_deriv_cont : forall cs, continuity (cl_deriv cs).
Proof.
  intros cs. unfold cl_deriv. apply (continuity_plus (powers _ _) (fun _ => nth 0 cs 0)); [apply powers_cont|]. apply continuity_const. intros ? ?; reflexivity.
Qed.

(** A function that locally follows one of two differentiable functions with the same slope. *)
Lemma glue : forall (f g h : R -> R) x d del, 0 < del -> f x = g x -> f x = h x ->
  (forall y, Rabs (y - x) < del -> f y = g y \/ f y = h y) -> derivable_pt_lim g x d -> derivable_pt_lim h x d -> derivable_pt_lim f x d.
Proof.
  intros f g h x d del Hd EG EH L DG DH eps He. destruct (DG eps He) as [d1 H1]. destruct (DH eps He) as [d2 H2].
  assert (P : 0 < Rmin del (Rmin d1 d2)). { apply Rmin_pos; auto. apply Rmin_pos; [apply d1|apply d2]. }
  exists (mkposreal _ P). intros k N A. cbn [pos] in A.
  assert (A1 : Rabs k < del) by (eapply Rlt_le_trans; [apply A|apply Rmin_l]).
  assert (A2 : Rabs k < d1) by (eapply Rlt_le_trans; [apply A|eapply Rle_trans; [apply Rmin_r|apply Rmin_l]]).
  assert (A3 : Rabs k < d2) by (eapply Rlt_le_trans; [apply A|eapply Rle_trans; [apply Rmin_r|apply Rmin_r]]).
  destruct (L (x + k)) as [-> | ->]; [replace (x + k - x) with k by ring; auto|rewrite EG; auto|rewrite EH; auto].
Qed.
Lemma line_deriv : forall v s a x, derivable_pt_lim (fun x => v + s * (x - a)) x s.
Proof.
  intros v s a x. replace s with (0 + s * (1 - 0)) at 1 by ring.
  apply (derivable_pt_lim_plus (fun _ => v) (fun x => s * (x - a))); [apply derivable_pt_lim_const|].
  apply (derivable_pt_lim_scal (fun x => x - a)). apply (derivable_pt_lim_minus (fun x => x) (fun _ => a)); [apply derivable_pt_lim_id|apply derivable_pt_lim_const].
Qed.
Definition piece (P P' : R -> R) (a b x : R) : R :=
  if Rltb x a then P a + P' a * (x - a) else if Rltb b x then P b + P' b * (x - b) else P x.
Definition clip (a b x : R) : R := Rmin (Rmax x a) b.
Ltac cmp := repeat match goal with |- context [Rltb ?u ?v] => let E := fresh in destruct (Rltb u v) eqn:E;
   [apply Rltb_true in E | apply Rltb_false in E] end.
Lemma piece_deriv : forall P P' a b x, a <= b -> (forall x, derivable_pt_lim P x (P' x)) -> derivable_pt_lim (piece P P' a b) x (P' (clip a b x)).
Proof.
  intros P P' a b x AB D. set (lo := fun x => P a + P' a * (x - a)). set (hi := fun x => P b + P' b * (x - b)).
  assert (LA : lo a = P a) by (unfold lo; ring). assert (HB : hi b = P b) by (unfold hi; ring).
  assert (C1 : x <= a -> clip a b x = a). { intros. unfold clip. rewrite Rmax_right by auto. apply Rmin_left. auto. }
  assert (C2 : b <= x -> clip a b x = b). { intros. unfold clip. apply Rmin_right. eapply Rle_trans; [|apply Rmax_l]. auto. }
  assert (C3 : a <= x <= b -> clip a b x = x). { intros. unfold clip. rewrite Rmax_left by tauto. apply Rmin_left. tauto. }
  assert (PX : forall y, piece P P' a b y = if Rltb y a then lo y else if Rltb b y then hi y else P y) by reflexivity.
  assert (DL : forall x, derivable_pt_lim lo x (P' a)) by (intros; apply line_deriv).
  assert (DH : forall x, derivable_pt_lim hi x (P' b)) by (intros; apply line_deriv).
  assert (AB' := Rabs_def2).
  destruct (Rtotal_order x a) as [H|[H|H]].
  - rewrite C1 by lra. apply (glue _ lo lo x _ (a - x)); auto; try lra.
    1, 2: rewrite PX; cmp; auto; lra.
    intros y Hy. apply Rabs_def2 in Hy. left. rewrite PX. cmp; auto; lra.
  - subst x. rewrite C1 by lra. destruct (Req_dec a b) as [E|E].
    + subst b. apply (glue _ lo hi a _ 1); auto; try lra; try (rewrite PX; cmp; try lra; congruence).
      intros y _. rewrite PX. cmp; auto. left. replace y with a by lra. auto.
    + apply (glue _ lo P a _ (b - a)); auto; try lra; try (rewrite PX; cmp; try lra; congruence).
      intros y Hy. apply Rabs_def2 in Hy. rewrite PX. cmp; auto; lra.
  - destruct (Rtotal_order x b) as [K|[K|K]].
    + rewrite C3 by lra. apply (glue _ P P x _ (Rmin (x - a) (b - x))); auto; try (rewrite PX; cmp; auto; lra).
      * apply Rmin_pos; lra.
      * intros y Hy. assert (H1 := Rmin_l (x - a) (b - x)). assert (H2 := Rmin_r (x - a) (b - x)). apply Rabs_def2 in Hy.
        left. rewrite PX. cmp; auto; lra.
    + subst x. rewrite C2 by lra. apply (glue _ hi P b _ (b - a)); auto; try lra; try (rewrite PX; cmp; try lra; congruence).
      intros y Hy. apply Rabs_def2 in Hy. rewrite PX. cmp; auto; lra.
    + rewrite C2 by lra. apply (glue _ hi hi x _ (x - b)); auto; try lra.
      1, 2: rewrite PX; cmp; auto; lra.
      intros y Hy. apply Rabs_def2 in Hy. left. rewrite PX. cmp; auto; lra.
Qed.
Lemma clip_near : forall a b x y, a <= b -> Rabs (clip a b x - clip a b y) <= Rabs (x - y).
Proof.
  intros a b x y H. unfold clip, Rmin, Rmax.
  destruct (Rle_dec x a); destruct (Rle_dec y a); repeat match goal with |- context [Rle_dec ?u ?v] => destruct (Rle_dec u v) end;
    unfold Rabs; repeat match goal with |- context [Rcase_abs ?u] => destruct (Rcase_abs u) end; lra.
Qed.
Lemma clip_cont : forall a b, a <= b -> continuity (clip a b).
Proof.
  intros a b H x eps He. exists eps. split; auto. intros y [_ Hy]. simpl in *. unfold R_dist in *.
  eapply Rle_lt_trans; [apply clip_near; auto|auto].
Qed.
Lemma cl_point_piece : forall lo hi cs w, cl_point (cl_make lo hi cs) w =
  - piece (powers (pad_coeffs cs) (seq 1 7)) (cl_deriv (pad_coeffs cs)) (reduced lo) (reduced hi) (reduced w).
Proof. intros. unfold cl_point, cl_make, piece. cbn. rewrite !scaled. reflexivity. Qed.

(** Between the two bounds the law is minus the polynomial. *)
Theorem C69_polynomial : forall lo hi coeffs ws i w, nth_error ws i = Some w -> lo <= w <= hi ->
  nth_error (cl_apply (cl_make lo hi coeffs) ws) i = Some (- salt_poly coeffs (reduced w)).
Proof.
  intros lo hi cs ws i w Hi H. unfold cl_apply. rewrite nth_error_map, Hi. cbn [option_map]. f_equal.
  rewrite cl_point_piece. unfold piece. assert (A := proj2 (reduced_le lo w) (proj1 H)). assert (B := proj2 (reduced_le w hi) (proj2 H)).
  cmp; try lra. now rewrite pad_poly.
Qed.
(** It is 0 in the B band and -1 in the V band, whatever the coefficients. *)
Theorem C69_normalised : forall lo hi coeffs, lo <= 4302.57 -> 5428.55 <= hi ->
  cl_apply (cl_make lo hi coeffs) [4302.57; 5428.55] = [0; -1].
Proof.
  intros lo hi cs H1 H2. cbn. rewrite !cl_point_piece. unfold piece.
  assert (E0 : reduced 4302.57 = 0) by (unfold reduced; lra). assert (E1 : reduced 5428.55 = 1) by (unfold reduced; lra).
  assert (A : reduced lo <= 0) by (unfold reduced; lra). assert (B : 1 <= reduced hi) by (unfold reduced; lra).
  rewrite E0, E1. cmp; try lra. destruct (seven (pad_coeffs cs) (pad_length cs)) as (a & b & c & d & e & f & g & E).
  assert (S := pad_sum cs). rewrite E in *. unfold powers, Rsum in *. simpl in *. repeat f_equal; lra.
Qed.
(** The law is continuously differentiable at all wavelengths and continues on its tangents outside the bounds. *)
Theorem C69_smooth : forall lo hi coeffs, lo <= hi -> exists L D,
  (forall ws, cl_apply (cl_make lo hi coeffs) ws = map L ws) /\
  (forall w, derivable_pt_lim L w (D w)) /\ continuity D /\
  (forall w, w <= lo -> L w = L lo + D lo * (w - lo)) /\
  (forall w, hi <= w -> L w = L hi + D hi * (w - hi)).
Proof.
  intros lo hi cs LH. set (cl := cl_make lo hi cs). set (P := powers (pad_coeffs cs) (seq 1 7)). set (P' := cl_deriv (pad_coeffs cs)).
  assert (RL : reduced lo <= reduced hi) by now apply reduced_le.
  set (k := / (5428.55 - 4302.57)). set (D := fun w => - (P' (clip (reduced lo) (reduced hi) (reduced w)) * k)).
  assert (DP : forall x, derivable_pt_lim P x (P' x)) by (intros; apply cl_deriv_spec, pad_length).
  assert (DR : forall w, derivable_pt_lim reduced w k).
  { intros w. replace k with (k * (1 - 0)) by ring.
    assert (X : derivable_pt_lim (mult_real_fct k (fun w => w - 4302.57)) w (k * (1 - 0))).
    { apply derivable_pt_lim_scal. apply (derivable_pt_lim_minus (fun w => w) (fun _ => 4302.57)); [apply derivable_pt_lim_id|apply derivable_pt_lim_const]. }
    intros eps He. destruct (X eps He) as [d H]. exists d. intros h N A. specialize (H h N A). unfold mult_real_fct in H.
    unfold reduced, Rdiv. fold k. rewrite !(Rmult_comm _ k). exact H. }
  exists (cl_point cl), D. split; [reflexivity|]. split; [|split; [|split]].
  - intros w. assert (X : derivable_pt_lim (comp (piece P P' (reduced lo) (reduced hi)) reduced) w (P' (clip (reduced lo) (reduced hi) (reduced w)) * k)).
    { apply derivable_pt_lim_comp; auto. apply piece_deriv; auto. }
    apply derivable_pt_lim_opp in X. unfold D. intros eps He. destruct (X eps He) as [d H]. exists d. intros h N A. specialize (H h N A).
    unfold cl. rewrite !cl_point_piece. exact H.
  - unfold D. apply (continuity_opp (fun w => P' (clip (reduced lo) (reduced hi) (reduced w)) * k)).
    apply (continuity_mult (fun w => P' (clip (reduced lo) (reduced hi) (reduced w))) (fun _ => k)); [|apply continuity_const; intros ? ?; reflexivity].
    apply (continuity_comp reduced (fun x => P' (clip (reduced lo) (reduced hi) x))).
    + intros w. apply derivable_continuous_pt. exists k. apply DR.
    + apply (continuity_comp (clip (reduced lo) (reduced hi)) P'); [now apply clip_cont|apply cl_deriv_cont].
  - intros w H. unfold cl, D. rewrite !cl_point_piece. unfold piece. fold P P'. unfold clip.
    assert (A := proj2 (reduced_le w lo) H). rewrite (Rmax_right (reduced lo)) by lra. rewrite (Rmin_left (reduced lo)) by lra.
    assert (E : reduced w - reduced lo = k * (w - lo)) by (unfold reduced, k; lra).
    cmp; try lra.
    + rewrite E. ring.
    + assert (Q : reduced w = reduced lo) by lra. assert (w = lo) by (unfold reduced in Q; lra). subst w. ring.
  - intros w H. unfold cl, D. rewrite !cl_point_piece. unfold piece. fold P P'. unfold clip.
    assert (A := proj2 (reduced_le hi w) H). rewrite (Rmax_left (reduced hi)) by lra. rewrite (Rmin_left (reduced hi)) by lra.
    assert (E : reduced w - reduced hi = k * (w - hi)) by (unfold reduced, k; lra).
    cmp; try lra.
    + rewrite E. ring.
    + assert (Q : reduced w = reduced hi) by lra. assert (w = hi) by (unfold reduced in Q; lra). subst w. ring.
Qed.

(** ** The colour law file *)
(** [label] mentions [word]. *)
Definition mentions (word label : string) : Prop := exists a b, label = (a ++ word ++ b)%string.
Lemma prefix_spec : forall p s, String.prefix p s = true <-> exists b, s = (p ++ b)%string.
Proof.
  induction p as [|c p IH]; intros s; simpl.
  - split; [intros _; exists s|]; auto. destruct s; auto.
  - destruct s as [|d s]; [split; [discriminate|intros [b H]; discriminate]|]. cbn [String.prefix]. destruct (ascii_dec c d) as [->|N].
    + rewrite (IH s). split; intros [b H]; exists b; [now rewrite H|now inversion H].
    + split; [discriminate|]. intros [b H]. inversion H. congruence.
Qed.
Lemma contains_spec : forall p s, contains p s = true <-> mentions p s.
Proof.
  intros p. induction s as [|c s IH].
  - cbn [contains]. rewrite orb_false_r, prefix_spec. split.
    + intros [b H]. exists ""%string, b. auto.
    + intros (a & b & H). destruct a; [exists b; auto|discriminate].
  - cbn [contains]. rewrite orb_true_iff, prefix_spec, IH. split.
    + intros [[b H]|(a & b & H)]; [exists ""%string, b; auto|]. exists (String c a), b. simpl. now rewrite H.
    + intros (a & b & H). destruct a as [|d a]; [left; exists b; auto|]. right. inversion H. exists a, b. auto.
Qed.
Lemma contains_not : forall p s, contains p s = false <-> ~ mentions p s.
Proof. intros. rewrite <- contains_spec. destruct (contains p s); split; congruence. Qed.

(** What a label stands for. *)
Definition min_label (l : string) : Prop := mentions "min_lambda" l.
Definition max_label (l : string) : Prop := mentions "max_lambda" l /\ ~ mentions "min_lambda" l.
Definition version_label (l : string) : Prop := mentions "version" l /\ ~ mentions "min_lambda" l /\ ~ mentions "max_lambda" l.
(** [v] is the value of the last pair of this kind, or the default if there is none. *)
Definition bound_of (kind : string -> Prop) (pf : string -> option R) (pairs : list (string * string)) (default v : R) : Prop :=
  (exists p l s q, pairs = (p ++ (l, s) :: q)%list /\ kind l /\ pf s = Some v /\ forall l' s', In (l', s') q -> ~ kind l') \/
  ((forall l s, In (l, s) pairs -> ~ kind l) /\ v = default).
(** The pair can be read. *)
Definition readable (pf : string -> option R) (pz : string -> option Z) (ls : string * string) : Prop :=
  (min_label (fst ls) \/ max_label (fst ls) -> pf (snd ls) <> None) /\ (version_label (fst ls) -> pz (snd ls) = Some 1%Z).
Definition flat (pairs : list (string * string)) : list string := flat_map (fun p => [fst p; snd p]) pairs.

Definition meta_pair (pf : string -> option R) (pz : string -> option Z) (lohi : R * R) (p : string * string) : result (R * R) :=
  if contains "min_lambda" (fst p)
  then match pf (snd p) with None => Err ValueError | Some v => Ok (v, snd lohi) end
  else if contains "max_lambda" (fst p)
  then match pf (snd p) with None => Err ValueError | Some v => Ok (fst lohi, v) end
  else if contains "version" (fst p)
  then match pz (snd p) with None => Err ValueError | Some v => if negb (v =? 1)%Z then Err RuntimeError else Ok lohi end
  else Ok lohi.
Lemma pyget_nth : forall A (d : list A) k x, nth_error d k = Some x -> pyget d (Z.of_nat k) = Ok x.
Proof.
  intros A d k x H. unfold pyget. cbv zeta. destruct (Z.of_nat k <? 0)%Z eqn:E; [apply Z.ltb_lt in E; lia|]. rewrite E, Nat2Z.id, H. reflexivity.
Qed.
Lemma nth_app_len : forall A (a b : list A) k, nth_error (a ++ b) (length a + k) = nth_error b k.
Proof. intros. rewrite nth_error_app2 by lia. f_equal. lia. Qed.
Lemma range2_end : forall i n, (n <= i)%Z -> range2 i n = [].
Proof. intros i n H. unfold range2. replace (Z.to_nat (n - i)) with O by lia. reflexivity. Qed.
Lemma steps2_fuel : forall f g i n, (Z.to_nat (n - i) <= f)%nat -> (Z.to_nat (n - i) <= g)%nat -> steps2 f i n = steps2 g i n.
Proof.
  induction f as [|f IH]; intros [|g] i n H1 H2; simpl; auto.
  - destruct (i <? n)%Z eqn:E; auto. apply Z.ltb_lt in E. lia.
  - destruct (i <? n)%Z eqn:E; auto. apply Z.ltb_lt in E. lia.
  - destruct (i <? n)%Z eqn:E; auto. apply Z.ltb_lt in E. f_equal. apply IH; lia.
Qed.
Lemma range2_step : forall i n, (i < n)%Z -> range2 i n = i :: range2 (i + 2) n.
Proof.
  intros i n H. unfold range2. destruct (Z.to_nat (n - i)) as [|f] eqn:E; [lia|]. cbn [steps2].
  destruct (i <? n)%Z eqn:E2; [|apply Z.ltb_ge in E2; lia]. f_equal. apply steps2_fuel; lia.
Qed.
Lemma meta_loop : forall pf pz pairs pre acc tail,
  fold_res (cl_meta pf pz (pre ++ flat pairs ++ tail)) acc (range2 (Z.of_nat (length pre)) (Z.of_nat (length (pre ++ flat pairs ++ tail)))) =
  match fold_res (meta_pair pf pz) acc pairs with
  | Ok acc' => fold_res (cl_meta pf pz (pre ++ flat pairs ++ tail)) acc' (range2 (Z.of_nat (length (pre ++ flat pairs))) (Z.of_nat (length (pre ++ flat pairs ++ tail))))
  | Err e => Err e
  end.
Proof.
  intros pf pz. induction pairs as [|[l s] pairs IH]; intros pre acc tail.
  - cbn [flat flat_map fold_res]. rewrite app_nil_r. reflexivity.
  - set (D := (pre ++ flat ((l, s) :: pairs) ++ tail)%list).
    assert (ED : D = ((pre ++ [l; s]) ++ flat pairs ++ tail)%list) by (unfold D, flat; simpl; now rewrite <- app_assoc).
    assert (EP : (pre ++ flat ((l, s) :: pairs))%list = ((pre ++ [l; s]) ++ flat pairs)%list) by (unfold flat; simpl; now rewrite <- app_assoc).
    rewrite range2_step by (rewrite ED, !app_length; cbn [length]; lia). cbn [fold_res].
    assert (X : cl_meta pf pz D acc (Z.of_nat (length pre)) = meta_pair pf pz acc (l, s)).
    { unfold cl_meta, meta_pair. cbn [fst snd].
      assert (G0 : nth_error D (length pre) = Some l). { unfold D. rewrite <- (Nat.add_0_r (length pre)), nth_app_len. reflexivity. }
      assert (G1 : nth_error D (length pre + 1) = Some s). { unfold D. rewrite nth_app_len. reflexivity. }
      rewrite (pyget_nth _ _ _ _ G0). cbn [bind]. replace (Z.of_nat (length pre) + 1)%Z with (Z.of_nat (length pre + 1)) by lia.
      rewrite (pyget_nth _ _ _ _ G1). cbn [bind]. reflexivity. }
    rewrite X. destruct (meta_pair pf pz acc (l, s)) as [acc'|e] eqn:E; [|reflexivity].
    replace (Z.of_nat (length pre) + 2)%Z with (Z.of_nat (length (pre ++ [l; s]))) by (rewrite app_length; cbn [length]; lia).
    rewrite EP, ED. apply IH.
Qed.
Lemma meta_pairs_ok : forall pf pz pairs lo0 hi0, Forall (readable pf pz) pairs ->
  exists lo hi, fold_res (meta_pair pf pz) (lo0, hi0) pairs = Ok (lo, hi) /\ bound_of min_label pf pairs lo0 lo /\ bound_of max_label pf pairs hi0 hi.
Proof.
  intros pf pz. induction pairs as [|[l s] pairs IH] using rev_ind; intros lo0 hi0 F.
  - exists lo0, hi0. split; [reflexivity|]. split; right; split; auto.
  - apply Forall_app in F. destruct F as [F1 F2]. inversion F2 as [|? ? [RN RV] _]; subst. cbn [fst snd] in *.
    destruct (IH lo0 hi0 F1) as (lo & hi & E & BL & BH).
    assert (FR : fold_res (meta_pair pf pz) (lo0, hi0) (pairs ++ [(l, s)]) = meta_pair pf pz (lo, hi) (l, s)).
    { clear - E. revert E. generalize (lo0, hi0). induction pairs as [|p pairs IH]; intros a E; cbn [fold_res app] in *.
      - inversion E; subst. destruct (meta_pair pf pz (lo, hi) (l, s)); auto.
      - destruct (meta_pair pf pz a p); [auto|discriminate]. }
    rewrite FR. unfold meta_pair. cbn [fst snd].
    assert (KEEP : forall kind d v, bound_of kind pf pairs d v -> ~ kind l -> bound_of kind pf (pairs ++ [(l, s)]) d v).
    { intros kind d v B N. destruct B as [(p & l1 & s1 & q & E1 & K & V & Q)|[N1 V]].
      - left. exists p, l1, s1, (q ++ [(l, s)])%list. subst pairs. split; [now rewrite <- app_assoc|]. split; auto. split; auto.
        intros l' s' I. apply in_app_or in I. destruct I as [I|[I|[]]]; [now apply (Q l' s')|]. inversion I; subst; auto.
      - right. split; auto. intros l' s' I. apply in_app_or in I. destruct I as [I|[I|[]]]; [now apply (N1 l' s')|]. inversion I; subst; auto. }
    assert (SETS : forall (kind : string -> Prop) d v, kind l -> pf s = Some v -> bound_of kind pf (pairs ++ [(l, s)]) d v).
    { intros kind d v K V. left. exists pairs, l, s, []. split; auto. }
    destruct (contains "min_lambda" l) eqn:EM; [apply contains_spec in EM|apply contains_not in EM].
    { destruct (pf s) as [v|] eqn:V; [|exfalso; apply RN; auto]. exists v, hi. split; [reflexivity|]. split; [apply SETS; auto|].
      apply KEEP; auto. intros [_ N]. auto. }
    destruct (contains "max_lambda" l) eqn:EX; [apply contains_spec in EX|apply contains_not in EX].
    { destruct (pf s) as [v|] eqn:V; [|exfalso; apply RN; auto; right; split; auto]. exists lo, v. split; [reflexivity|].
      split; [apply KEEP; auto|]. apply SETS; auto. split; auto. }
    exists lo, hi. split; [|split; apply KEEP; auto; intros [? ?]; auto].
    destruct (contains "version" l) eqn:EV; [apply contains_spec in EV|reflexivity]. rewrite RV by (repeat split; auto). reflexivity.
Qed.
Lemma parse_all_ok : forall pf ss cs, Forall2 (fun s c => pf s = Some c) ss cs -> parse_all pf ss = Ok cs.
Proof. induction 1 as [|s c ss cs H _ IH]; simpl; auto. now rewrite H, IH. Qed.
Lemma slice_head : forall (first : string) ss rest, pyslice1 (first :: ss ++ rest) (1 + Z.of_nat (length ss)) = ss.
Proof.
  intros. unfold pyslice1. cbv zeta. destruct (1 + Z.of_nat (length ss) <? 0)%Z eqn:E; [apply Z.ltb_lt in E; lia|].
  replace (Z.to_nat (1 + Z.of_nat (length ss))) with (S (length ss)) by lia. cbn [firstn skipn].
  rewrite firstn_app, Nat.sub_diag, firstn_all. simpl. apply app_nil_r.
Qed.
Lemma from_file_unfold : forall pf pz first ss cs rest, pz first = Some (Z.of_nat (length ss)) -> Forall2 (fun s c => pf s = Some c) ss cs ->
  cl_from_file pf pz (first :: ss ++ rest) =
  bind (fold_res (cl_meta pf pz ((first :: ss) ++ rest)) (3000, 7000) (range2 (Z.of_nat (length (first :: ss))) (Z.of_nat (length ((first :: ss) ++ rest)))))
       (fun lohi => Ok (cl_make (fst lohi) (snd lohi) cs)).
Proof.
  intros pf pz first ss cs rest HN HC. unfold cl_from_file. cbn [pyget]. unfold pyget at 1. cbn [Z.ltb Z.compare]. cbv zeta. cbn [Z.to_nat nth_error bind].
  rewrite HN, slice_head, (parse_all_ok _ _ _ HC). cbn [bind]. replace (1 + Z.of_nat (length ss))%Z with (Z.of_nat (length (first :: ss))) by (cbn [length]; lia).
  reflexivity.
Qed.
(** A file with the number of coefficients, the coefficients and readable label/value pairs gives the colour law with
    these coefficients and the last bounds named in the file (3000 and 7000 Angstrom by default). *)
Theorem C69_file : forall pf pz first ss cs pairs, pz first = Some (Z.of_nat (length ss)) ->
  Forall2 (fun s c => pf s = Some c) ss cs -> Forall (readable pf pz) pairs ->
  exists lo hi, cl_from_file pf pz (first :: ss ++ flat pairs) = Ok (cl_make lo hi cs) /\
    bound_of min_label pf pairs 3000 lo /\ bound_of max_label pf pairs 7000 hi.
Proof.
  intros pf pz first ss cs pairs HN HC HR. destruct (meta_pairs_ok pf pz pairs 3000 7000 HR) as (lo & hi & E & B1 & B2).
  exists lo, hi. split; auto. rewrite (from_file_unfold pf pz first ss cs) by auto.
  assert (X := meta_loop pf pz pairs (first :: ss) (3000, 7000) []). rewrite app_nil_r in X. rewrite X, E.
  rewrite range2_end by lia. reflexivity.
Qed.
(** An unsupported version is refused; a bound that is not a number as well. *)
Theorem C69_file_refused : forall pf pz first ss cs pairs l s rest, pz first = Some (Z.of_nat (length ss)) ->
  Forall2 (fun s c => pf s = Some c) ss cs -> Forall (readable pf pz) pairs ->
  (forall v, version_label l -> pz s = Some v -> v <> 1%Z -> cl_from_file pf pz (first :: ss ++ flat (pairs ++ [(l, s)]) ++ rest) = Err RuntimeError) /\
  (min_label l \/ max_label l -> pf s = None -> cl_from_file pf pz (first :: ss ++ flat (pairs ++ [(l, s)]) ++ rest) = Err ValueError).
Proof.
  intros pf pz first ss cs pairs l s rest HN HC HR. destruct (meta_pairs_ok pf pz pairs 3000 7000 HR) as (lo & hi & E & _).
  assert (FR : fold_res (meta_pair pf pz) (3000, 7000) (pairs ++ [(l, s)]) = match meta_pair pf pz (lo, hi) (l, s) with Ok a => Ok a | Err e => Err e end).
  { clear - E. revert E. generalize (3000, 7000). induction pairs as [|p pairs IH]; intros a E; cbn [fold_res app] in *.
    - inversion E; subst. reflexivity.
    - destruct (meta_pair pf pz a p); [auto|discriminate]. }
  assert (X : forall e, meta_pair pf pz (lo, hi) (l, s) = Err e -> cl_from_file pf pz (first :: ss ++ flat (pairs ++ [(l, s)]) ++ rest) = Err e).
  { intros e H. rewrite (from_file_unfold pf pz first ss cs) by auto.
    rewrite (meta_loop pf pz (pairs ++ [(l, s)]) (first :: ss)), FR, H. reflexivity. }
  unfold meta_pair in X. cbn [fst snd] in X. split.
  - intros v (A & B & C) V N. apply X. apply contains_not in B, C. apply contains_spec in A. rewrite A, B, C, V.
    destruct (v =? 1)%Z eqn:Q; [apply Z.eqb_eq in Q; congruence|]. reflexivity.
  - intros [A|[A B]] V; apply X; [apply contains_spec in A; now rewrite A, V|]. apply contains_spec in A. apply contains_not in B. now rewrite B, A, V.
Qed.
(** A file that ends after a label: a bound or version label without value raises IndexError, another one is ignored. *)
Theorem C69_file_truncated : forall pf pz first ss cs pairs l, pz first = Some (Z.of_nat (length ss)) ->
  Forall2 (fun s c => pf s = Some c) ss cs -> Forall (readable pf pz) pairs ->
  (min_label l \/ max_label l \/ version_label l -> cl_from_file pf pz (first :: ss ++ flat pairs ++ [l]) = Err IndexError) /\
  (~ (min_label l \/ max_label l \/ version_label l) -> cl_from_file pf pz (first :: ss ++ flat pairs ++ [l]) = cl_from_file pf pz (first :: ss ++ flat pairs)).
Proof.
  intros pf pz first ss cs pairs l HN HC HR. destruct (meta_pairs_ok pf pz pairs 3000 7000 HR) as (lo & hi & E & _).
  rewrite (from_file_unfold pf pz first ss cs (flat pairs ++ [l])) by auto. rewrite (from_file_unfold pf pz first ss cs (flat pairs)) by auto.
  rewrite (meta_loop pf pz pairs (first :: ss)), E.
  assert (X := meta_loop pf pz pairs (first :: ss) (3000, 7000) []). rewrite app_nil_r in X. rewrite X, E. clear X.
  rewrite (range2_end (Z.of_nat (length ((first :: ss) ++ flat pairs))) (Z.of_nat (length ((first :: ss) ++ flat pairs)))) by lia.
  set (D := ((first :: ss) ++ flat pairs ++ [l])%list). set (k := length ((first :: ss) ++ flat pairs)).
  assert (LD : length D = (k + 1)%nat) by (unfold D, k; rewrite !app_length; cbn [length]; lia).
  rewrite range2_step by (rewrite LD; lia). rewrite range2_end by (rewrite LD; lia). cbn [fold_res].
  assert (G0 : nth_error D k = Some l). { unfold D, k. rewrite app_assoc, <- (Nat.add_0_r (length ((first :: ss) ++ flat pairs))), nth_app_len. reflexivity. }
  assert (G1 : pyget D (Z.of_nat k + 1)%Z = Err IndexError).
  { unfold pyget. cbv zeta. destruct (Z.of_nat k + 1 <? 0)%Z eqn:Q; [apply Z.ltb_lt in Q; lia|]. rewrite Q.
    replace (Z.to_nat (Z.of_nat k + 1)) with (k + 1)%nat by lia. destruct (nth_error D (k + 1)) eqn:Z; auto.
    assert (k + 1 < length D)%nat by (apply nth_error_Some; congruence). lia. }
  unfold cl_meta. rewrite (pyget_nth _ _ _ _ G0), G1. cbn [bind]. split; intros H.
  - destruct (contains "min_lambda" l) eqn:E1; [reflexivity|]. destruct (contains "max_lambda" l) eqn:E2; [reflexivity|].
    destruct (contains "version" l) eqn:E3; [reflexivity|]. apply contains_not in E1, E2, E3. unfold min_label, max_label, version_label in H. tauto.
  - destruct (contains "min_lambda" l) eqn:E1; [exfalso; apply H; left; now apply contains_spec|].
    destruct (contains "max_lambda" l) eqn:E2; [exfalso; apply H; right; left; split; [now apply contains_spec|now apply contains_not]|].
    destruct (contains "version" l) eqn:E3; [exfalso; apply H; right; right; repeat split; [now apply contains_spec|now apply contains_not|now apply contains_not]|]. reflexivity.
Qed.

(** ** The model *)
Lemma zip2_map : forall f A (l : list A) (ws : list R) (g h : A -> R -> R),
  zip2 f (map (fun t => map (g t) ws) l) (map (fun t => map (h t) ws) l) = map (fun t => map (fun w => f (g t w) (h t w)) ws) l.
Proof.
  intros f A l ws g h. unfold zip2. induction l as [|t l IH]; cbn [map combine fst snd]; auto. rewrite IH. f_equal.
  clear IH. induction ws as [|w ws IHw]; simpl; auto. now rewrite IHw.
Qed.
Lemma row_map2 : forall (ws : list R) (g h : R -> R), map (fun p => fst p * snd p) (combine (map g ws) (map h ws)) = map (fun w => g w * h w) ws.
Proof. induction ws as [|w ws IH]; intros; simpl; auto. now rewrite IH. Qed.
Lemma bic_call_map : forall b xs ys, bic_call b xs ys = map (fun x => map (bic_point b x) ys) xs.
Proof.
  intros. unfold bic_call. induction xs as [|x xs IH]; auto. unfold cross. cbn [flat_map length reshape]. fold (cross xs ys). rewrite map_app.
  assert (L : length (map (fun p => bic_point b (fst p) (snd p)) (map (fun y => (x, y)) ys)) = length ys) by now rewrite !map_length.
  rewrite firstn_app, skipn_app, L, Nat.sub_diag. rewrite <- L at 1. rewrite firstn_all. rewrite <- L at 2. rewrite skipn_all. cbn [firstn skipn app].
  rewrite app_nil_r, IH. cbn [map]. f_equal. rewrite map_map. reflexivity.
Qed.
Lemma flam_map : forall (ts ws : list R) (F : R -> R -> R) wu fl fn, flam_to_fnu (map (fun t => map (F t) ws) ts) ws wu fl fn =
  Ok (map (fun t => map (fun w => fl * (wu * wu) / fn * (F t w * (w * w) / light_speed)) ws) ts).
Proof.
  intros. unfold flam_to_fnu. rewrite bc_same.
  - cbn [bind]. f_equal. unfold bulk_convert. rewrite !map_map. apply map_ext. intros t.
    assert (C : forall g : R -> R, map (fun p => fst p * (snd p * snd p) / light_speed) (combine (map g ws) ws) = map (fun w => g w * (w * w) / light_speed) ws).
    { intros g. induction ws as [|w l IH]; simpl; auto. now rewrite IH. }
    rewrite C, map_map. apply map_ext. intros w. unfold light_speed. unfold Rdiv. rewrite Rinv_1. ring.
  - apply Forall_forall. intros r H. apply in_map_iff in H. destruct H as (t & <- & _). apply map_length.
Qed.
(** The documented flux density at rest-frame phase [ph] and wavelength [w], in nJy: the SALT2 formula in
    erg/s/cm2/Angstrom times w^2/c. *)
Definition salt2_flux (x0 x1 c v0 v1 l w : R) : R :=
  x0 * (v0 + x1 * v1) * Rpower 10 (- 0.4 * c * l) * (w * w) * (10 ^ 22 / 299792458).
(** The model evaluates to the documented formula of observer time and wavelength. *)
Theorem C69_flux : forall pf pz node setters rs t0file t1file law m (st : gst) (ps : params) z t0 x0 x1 c,
  salt2_make pf pz node setters rs t0file t1file law = Ok m -> dget node st = Some ps ->
  dget "t0" ps = Some (PNum t0) -> dget "x0" ps = Some (PNum x0) -> dget "x1" ps = Some (PNum x1) -> dget "c" ps = Some (PNum c) ->
  redshifted rs ps z ->
  exists g0 g1 cl F, from_grid_file t0file (/ 10 ^ 12) = Ok g0 /\ from_grid_file t1file (/ 10 ^ 12) = Ok g1 /\ cl_from_file pf pz law = Ok cl /\
    shines m st F /\
    forall t w v0 v1 l, bic_point g0 ((t - t0) / (1 + z)) (w / (1 + z)) = Some v0 -> bic_point g1 ((t - t0) / (1 + z)) (w / (1 + z)) = Some v1 ->
      cl_apply cl [w / (1 + z)] = [l] -> F t w = (1 + z) * salt2_flux x0 x1 c v0 v1 l (w / (1 + z)).
Proof.
  intros pf pz node setters rs f0 f1 law m st ps z t0 x0 x1 c HM HP H0 HX0 HX1 HC [Hz HR]. unfold salt2_make in HM.
  destruct (from_grid_file f0 _) as [g0|] eqn:E0; [|discriminate]. destruct (from_grid_file f1 _) as [g1|] eqn:E1; [|discriminate].
  destruct (cl_from_file pf pz law) as [cl|] eqn:EC; [|discriminate]. cbn [bind] in HM. inversion HM; subst m. clear HM.
  set (f := fun t w => salt2_flux x0 x1 c (bic_value (bic_point g0 (t - t0) w)) (bic_value (bic_point g1 (t - t0) w)) (cl_point cl w) w).
  exists g0, g1, cl, (fun t w => (1 + z) * f (t0 + (t - t0) / (1 + z)) (w / (1 + z))). split; auto. split; auto. split; auto. split.
  - eapply shines_ext.
    + apply (bare_shines _ st ps z t0 f); auto; try plain.
      * unfold in_force. simpl. destruct HR as [[A B]|[A B]]; auto.
      * intros ts ws kw _. simpl. unfold salt2_sed, local_params. rewrite HP. cbn [bind]. unfold need. rewrite H0. cbn [bind]. cbv zeta. rewrite HX0. cbn [bind].
        rewrite HX1. cbn [bind]. rewrite HC. cbn [bind]. rewrite !bic_call_map, !map_map.
        rewrite (map_ext _ (fun t => map (fun w => bic_value (bic_point g0 (t - t0) w)) ws)) by (intros; apply map_map).
        rewrite (map_ext (fun x => map (fun v => x1 * v) (map bic_value (map (bic_point g1 (x - t0)) ws))) (fun t => map (fun w => x1 * bic_value (bic_point g1 (t - t0) w)) ws)) by (intros; now rewrite !map_map).
        rewrite zip2_map, !map_map. unfold cl_apply. rewrite map_map.
        rewrite (map_ext _ (fun t => map (fun w => x0 * (bic_value (bic_point g0 (t - t0) w) + x1 * bic_value (bic_point g1 (t - t0) w)) * Rpower 10 (- (4 / 10) * cl_point cl w * c)) ws))
          by (intros t; rewrite map_map, row_map2; reflexivity).
        rewrite flam_map. f_equal. apply map_ext. intros t. apply map_ext. intros w. unfold f, salt2_flux.
        replace (- 0.4 * c * cl_point cl w) with (- (4 / 10) * cl_point cl w * c) by lra. unfold u_flam, u_aa, u_njy, light_speed. field.
    + intros t w. reflexivity.
  - intros t w v0 v1 l V0 V1 HL. cbn beta. f_equal. unfold f. replace (t0 + (t - t0) / (1 + z) - t0) with ((t - t0) / (1 + z)) by ring.
    rewrite V0, V1. cbn [bic_value]. unfold cl_apply in HL. cbn [map] in HL. inversion HL. reflexivity.
Qed.
(** Outside both template grids (in phase or in wavelength) the flux is 0. *)
Theorem C69_outside : forall pf pz node setters rs t0file t1file law m (st : gst) (ps : params) z t0 x0 x1 c p0 w0 v0 p1 w1 v1,
  salt2_make pf pz node setters rs t0file t1file law = Ok m -> dget node st = Some ps ->
  dget "t0" ps = Some (PNum t0) -> dget "x0" ps = Some (PNum x0) -> dget "x1" ps = Some (PNum x1) -> dget "c" ps = Some (PNum c) ->
  redshifted rs ps z -> read_grid false t0file = Ok (p0, w0, v0) -> read_grid false t1file = Ok (p1, w1, v1) ->
  exists F, shines m st F /\ forall t w,
    ~ (spans p0 ((t - t0) / (1 + z)) /\ spans w0 (w / (1 + z))) -> ~ (spans p1 ((t - t0) / (1 + z)) /\ spans w1 (w / (1 + z))) -> F t w = 0.
Proof.
  intros pf pz node setters rs f0 f1 law m st ps z t0 x0 x1 c p0 w0 v0 p1 w1 v1 HM HP H0 HX0 HX1 HC HR R0 R1.
  destruct (C69_flux _ _ _ _ _ _ _ _ _ _ _ _ _ _ _ _ HM HP H0 HX0 HX1 HC HR) as (g0 & g1 & cl & F & G0 & G1 & GC & SH & V).
  exists F. split; auto. intros t w N0 N1. unfold from_grid_file in G0, G1. rewrite R0 in G0. rewrite R1 in G1. cbn [bind] in *.
  unfold bic_from_grid in *. rewrite (V t w 0 0 (cl_point cl (w / (1 + z)))); auto.
  - unfold salt2_flux. ring.
  - eapply C52_outside; eauto.
  - eapply C52_outside; eauto.
Qed.
(** The parameter c changes the colour only: nothing at the B wavelength, a factor 10^(0.4 c) at the V wavelength. *)
Theorem C69_colour : forall pf pz node setters rs t0file t1file law m (st st' : gst) (ps ps' : params) z t0 x0 x1 c lo hi coeffs,
  salt2_make pf pz node setters rs t0file t1file law = Ok m -> cl_from_file pf pz law = Ok (cl_make lo hi coeffs) -> lo <= 4302.57 -> 5428.55 <= hi ->
  dget node st = Some ps -> dget "t0" ps = Some (PNum t0) -> dget "x0" ps = Some (PNum x0) -> dget "x1" ps = Some (PNum x1) -> dget "c" ps = Some (PNum c) ->
  dget node st' = Some ps' -> dget "t0" ps' = Some (PNum t0) -> dget "x0" ps' = Some (PNum x0) -> dget "x1" ps' = Some (PNum x1) -> dget "c" ps' = Some (PNum 0) ->
  redshifted rs ps z -> redshifted rs ps' z ->
  exists F F', shines m st F /\ shines m st' F' /\
    forall t, F t ((1 + z) * 4302.57) = F' t ((1 + z) * 4302.57) /\ F t ((1 + z) * 5428.55) = Rpower 10 (0.4 * c) * F' t ((1 + z) * 5428.55).
Proof.
  intros pf pz node setters rs f0 f1 law m st st' ps ps' z t0 x0 x1 c lo hi coeffs HM HL LO HI HP H0 HX0 HX1 HC HP' H0' HX0' HX1' HC' HR HR'.
  destruct (C69_flux _ _ _ _ _ _ _ _ _ _ _ _ _ _ _ _ HM HP H0 HX0 HX1 HC HR) as (g0 & g1 & cl & F & G0 & G1 & GC & SH & V).
  destruct (C69_flux _ _ _ _ _ _ _ _ _ _ _ _ _ _ _ _ HM HP' H0' HX0' HX1' HC' HR') as (g0' & g1' & cl' & F' & G0' & G1' & GC' & SH' & V').
  exists F, F'. split; auto. split; auto. assert (g0' = g0) by congruence. assert (g1' = g1) by congruence. subst g0' g1'.
  assert (cl = cl_make lo hi coeffs) by congruence. assert (cl' = cl_make lo hi coeffs) by congruence. subst cl cl'.
  assert (N := C69_normalised lo hi coeffs LO HI). unfold cl_apply in N. cbn [map] in N. inversion N as [[NB NV]]. clear N.
  assert (T : forall f g, from_grid_file f (/ 10 ^ 12) = Ok g -> forall a b, exists v, bic_point g a b = Some v).
  { intros f g E a b. unfold from_grid_file in E. destruct (read_grid false f) as [[[a1 b1] v]|]; [|discriminate]. cbn [bind] in E. eapply C52_defined. exact E. }
  assert (Hz : 1 + z <> 0) by (destruct HR; lra).
  intros t. split.
  - assert (Q : (1 + z) * 4302.57 / (1 + z) = 4302.57) by (field; auto).
    destruct (T _ _ G0 ((t - t0) / (1 + z)) ((1 + z) * 4302.57 / (1 + z))) as [v0 E0]. destruct (T _ _ G1 ((t - t0) / (1 + z)) ((1 + z) * 4302.57 / (1 + z))) as [v1 E1].
    assert (L : cl_apply (cl_make lo hi coeffs) [(1 + z) * 4302.57 / (1 + z)] = [0]) by (unfold cl_apply; cbn [map]; now rewrite Q, NB).
    rewrite (V _ _ _ _ _ E0 E1 L), (V' _ _ _ _ _ E0 E1 L). unfold salt2_flux. now rewrite !Rmult_0_r.
  - assert (Q : (1 + z) * 5428.55 / (1 + z) = 5428.55) by (field; auto).
    destruct (T _ _ G0 ((t - t0) / (1 + z)) ((1 + z) * 5428.55 / (1 + z))) as [v0 E0]. destruct (T _ _ G1 ((t - t0) / (1 + z)) ((1 + z) * 5428.55 / (1 + z))) as [v1 E1].
    assert (L : cl_apply (cl_make lo hi coeffs) [(1 + z) * 5428.55 / (1 + z)] = [-1]) by (unfold cl_apply; cbn [map]; now rewrite Q, NV).
    rewrite (V _ _ _ _ _ E0 E1 L), (V' _ _ _ _ _ E0 E1 L). unfold salt2_flux. replace (-0.4 * c * -1) with (0.4 * c) by lra.
    replace (-0.4 * 0 * -1) with 0 by lra. rewrite Rpower_O by lra. ring.
Qed.
(** The x0 parameter scales the flux. *)
Theorem C69_scale : forall pf pz node setters rs t0file t1file law m (st st' : gst) (ps ps' : params) z t0 x0 x0' x1 c,
  salt2_make pf pz node setters rs t0file t1file law = Ok m ->
  dget node st = Some ps -> dget "t0" ps = Some (PNum t0) -> dget "x0" ps = Some (PNum x0) -> dget "x1" ps = Some (PNum x1) -> dget "c" ps = Some (PNum c) ->
  dget node st' = Some ps' -> dget "t0" ps' = Some (PNum t0) -> dget "x0" ps' = Some (PNum x0') -> dget "x1" ps' = Some (PNum x1) -> dget "c" ps' = Some (PNum c) ->
  redshifted rs ps z -> redshifted rs ps' z ->
  exists F F', shines m st F /\ shines m st' F' /\ forall t w, x0' * F t w = x0 * F' t w.
Proof.
  intros pf pz node setters rs f0 f1 law m st st' ps ps' z t0 x0 x0' x1 c HM HP H0 HX0 HX1 HC HP' H0' HX0' HX1' HC' HR HR'.
  destruct (C69_flux _ _ _ _ _ _ _ _ _ _ _ _ _ _ _ _ HM HP H0 HX0 HX1 HC HR) as (g0 & g1 & cl & F & G0 & G1 & GC & SH & V).
  destruct (C69_flux _ _ _ _ _ _ _ _ _ _ _ _ _ _ _ _ HM HP' H0' HX0' HX1' HC' HR') as (g0' & g1' & cl' & F' & G0' & G1' & GC' & SH' & V').
  exists F, F'. split; auto. split; auto. assert (g0' = g0) by congruence. assert (g1' = g1) by congruence. assert (cl' = cl) by congruence. subst g0' g1' cl'.
  assert (T : forall f g, from_grid_file f (/ 10 ^ 12) = Ok g -> forall a b, exists v, bic_point g a b = Some v).
  { intros f g E a b. unfold from_grid_file in E. destruct (read_grid false f) as [[[a1 b1] v]|]; [|discriminate]. cbn [bind] in E. eapply C52_defined. exact E. }
  intros t w. destruct (T _ _ G0 ((t - t0) / (1 + z)) (w / (1 + z))) as [v0 E0]. destruct (T _ _ G1 ((t - t0) / (1 + z)) (w / (1 + z))) as [v1 E1].
  rewrite (V _ _ _ _ _ E0 E1 eq_refl), (V' _ _ _ _ _ E0 E1 eq_refl). unfold salt2_flux. ring.
Qed.

(** ** mask_by_time *)
(** The value of a parameter, 0 when it is missing or None. *)
Definition value_or_0 (node : string) (st : gst) (name : string) (v : R) : Prop :=
  (exists ps, dget node st = Some ps /\ dget name ps = Some (PNum v)) \/
  ((forall ps, dget node st = Some ps -> dget name ps = None \/ dget name ps = Some PNone) /\ v = 0).
Lemma param_or_0_spec : forall node st name v, value_or_0 node st name v -> param_or_0 node st name = Ok v.
Proof.
  intros node st name v [(ps & E & V)|[N ->]]; unfold param_or_0, get_param.
  - now rewrite E, V.
  - destruct (dget node st) as [ps|]; auto. destruct (N ps eq_refl) as [-> | ->]; auto.
Qed.
(** The mask selects the observer times whose rest-frame phase lies strictly between -20 and 50 days. *)
Theorem C69_mask : forall node ts (st : gst) z t0, value_or_0 node st "redshift" z -> value_or_0 node st "t0" t0 -> -1 < z ->
  exists mask, salt2_mask node ts (Some st) = Ok mask /\ length mask = length ts /\
    forall i t, nth_error ts i = Some t -> nth_error mask i = Some true /\ -20 < (t - t0) / (1 + z) < 50 \/
                                          nth_error mask i = Some false /\ ~ -20 < (t - t0) / (1 + z) < 50.
Proof.
  intros node ts st z t0 HZ HT Hz. unfold salt2_mask. rewrite (param_or_0_spec _ _ _ _ HZ). cbn [bind]. rewrite (param_or_0_spec _ _ _ _ HT). cbn [bind].
  eexists. split; [reflexivity|]. split; [apply map_length|]. intros i t Hi. rewrite nth_error_map, Hi. cbn [option_map].
  set (q := (t - t0) / (1 + z)). assert (E : t = t0 + q * (1 + z)) by (unfold q; field; lra).
  destruct (_ && _)%bool eqn:B.
  - left. split; auto. apply andb_true_iff in B. destruct B as [B1 B2]. apply Rltb_true in B1, B2. split; nra.
  - right. split; auto. intros [A1 A2]. apply andb_false_iff in B. destruct B as [B|B]; apply Rltb_false in B; nra.
Qed.
Theorem C69_mask_no_state : forall node ts, salt2_mask node ts None = Err ValueError.
Proof. reflexivity. Qed.
(** With templates inside the phases from -20 to 50 days, a masked time gives no flux, unless its phase is exactly -20
    or 50. *)
Theorem C69_mask_covers : forall pf pz node setters t0file t1file law m (st : gst) (ps : params) z t0 x0 x1 c p0 w0 v0 p1 w1 v1,
  salt2_make pf pz node setters true t0file t1file law = Ok m -> dget node st = Some ps ->
  dget "t0" ps = Some (PNum t0) -> dget "x0" ps = Some (PNum x0) -> dget "x1" ps = Some (PNum x1) -> dget "c" ps = Some (PNum c) ->
  dget "redshift" ps = Some (PNum z) -> -1 < z -> read_grid false t0file = Ok (p0, w0, v0) -> read_grid false t1file = Ok (p1, w1, v1) ->
  (forall q, In q (p0 ++ p1) -> -20 <= q <= 50) ->
  exists F, shines m st F /\ forall ts i t w mask, salt2_mask node ts (Some st) = Ok mask -> nth_error ts i = Some t -> nth_error mask i = Some false ->
    t <> t0 - 20 * (1 + z) -> t <> t0 + 50 * (1 + z) -> F t w = 0.
Proof.
  intros pf pz node setters f0 f1 law m st ps z t0 x0 x1 c p0 w0 v0 p1 w1 v1 HM HP H0 HX0 HX1 HC HZ Hz R0 R1 HG.
  assert (HR : redshifted true ps z) by (split; auto).
  destruct (C69_outside _ _ _ _ _ _ _ _ _ _ _ _ _ _ _ _ _ _ _ _ _ _ HM HP H0 HX0 HX1 HC HR R0 R1) as (F & SH & V).
  exists F. split; auto. intros ts i t w mask EM Hi HF N1 N2.
  destruct (C69_mask node ts st z t0) as (mask' & EM' & _ & M); auto; try (left; exists ps; auto).
  assert (mask' = mask) by congruence. subst mask'. destruct (M i t Hi) as [[A _]|[_ A]]; [congruence|].
  set (q := (t - t0) / (1 + z)) in *. assert (E : t = t0 + q * (1 + z)) by (unfold q; field; lra).
  assert (NS : forall p, (forall x, In x p -> -20 <= x <= 50) -> ~ spans p q).
  { intros p HI (a & b & HA & HB & Q). apply nth_error_In in HA, HB. apply HI in HA, HB. destruct (Req_dec q (-20)); [apply N1; subst q; nra|].
    destruct (Req_dec q 50); [apply N2; nra|]. apply A. lra. }
  apply V; intros [S _]; [apply (NS p0)|apply (NS p1)]; auto; intros x Hx; apply HG, in_or_app; auto.
Qed.

(** A case: a law file with two coefficients, a version and bounds 2800 and 7000 (default), and its values. *)
Example C69_case :
  let pf := fun s => if String.eqb s "c0" then Some (-0.5) else if String.eqb s "c1" then Some 0.25 else if String.eqb s "lo" then Some 2800 else None in
  let pz := fun s => if String.eqb s "2" then Some 2%Z else if String.eqb s "1" then Some 1%Z else None in
  cl_from_file pf pz ["2"; "c0"; "c1"; "Salt2ExtinctionLaw.version"; "1"; "Salt2ExtinctionLaw.min_lambda"; "lo"]%string = Ok (cl_make 2800 7000 [-0.5; 0.25]) /\
  cl_from_file pf pz ["2"; "c0"; "c1"; "version"; "2"]%string = Err RuntimeError /\
  salt_poly [-0.5; 0.25] 2 = 2.5 /\
  cl_apply (cl_make 2800 7000 [-0.5; 0.25]) [6554.53] = [-2.5].
Proof.
  cbv zeta. split; [reflexivity|]. split; [reflexivity|]. assert (E : salt_poly [-0.5; 0.25] 2 = 2.5) by (unfold salt_poly, Rsum; simpl; lra). split; auto.
  assert (X := C69_polynomial 2800 7000 [-0.5; 0.25] [6554.53] 0 6554.53 eq_refl ltac:(lra)).
  replace (reduced 6554.53) with 2 in X by (unfold reduced; lra). rewrite E in X. cbn [cl_apply map nth_error] in *. inversion X as [Y]. rewrite Y. f_equal. lra.
Qed.
(** A case of the model: 3 x 3 templates with values 2 and 1 (1e-12 erg/s/cm2/Angstrom), x0 = 3, x1 = 4, one day after
    t0 = 10, at the B wavelength. *)
Example C69_flux_case :
  let pf := fun s => if String.eqb s "c0" then Some (-0.5) else None in
  let pz := fun s => if String.eqb s "1" then Some 1%Z else None in
  let days := [0; 0; 0; 1; 1; 1; 2; 2; 2] in
  let waves := [4000; 4302.57; 5000; 4000; 4302.57; 5000; 4000; 4302.57; 5000] in
  let st : gst := [("m"%string, [("t0"%string, PNum 10); ("x0"%string, PNum 3); ("x1"%string, PNum 4); ("c"%string, PNum 0.7); ("redshift"%string, PNum 0)])] in
  exists m F, salt2_make pf pz "m" [] true [days; waves; [2; 2; 2; 2; 2; 2; 2; 2; 2]] [days; waves; [1; 1; 1; 1; 1; 1; 1; 1; 1]] ["1"; "c0"]%string = Ok m /\
    shines m st F /\ F 11 4302.57 = 18 / 10 ^ 12 * (4302.57 * 4302.57) * (10 ^ 22 / 299792458).
Proof.
  cbv zeta. set (days := [0; 0; 0; 1; 1; 1; 2; 2; 2]). set (waves := [4000; 4302.57; 5000; 4000; 4302.57; 5000; 4000; 4302.57; 5000]).
  set (pf := fun s => if String.eqb s "c0" then Some (-0.5) else None). set (pz := fun s => if String.eqb s "1" then Some 1%Z else None).
  assert (G : forall v, length v = 9%nat -> exists g, from_grid_file [days; waves; v] (/ 10 ^ 12) = Ok g /\
     forall r p q w, nth_error days r = Some p -> nth_error waves r = Some q -> nth_error v r = Some w -> bic_point g p q = Some (w * / 10 ^ 12)).
  { intros v L. apply (C59_interpolator days waves v [0; 1; 2] [4000; 4302.57; 5000]); auto; try (simpl; lia); try (simpl; lra).
    - reflexivity.
    - right. intros [|[|[|k]]] u w H1 H2; simpl in *; inversion H1; inversion H2; subst; simpl; lra.
    - right. intros [|[|[|k]]] u w H1 H2; simpl in *; inversion H1; inversion H2; subst; simpl; lra. }
  destruct (G [2; 2; 2; 2; 2; 2; 2; 2; 2] eq_refl) as (g0 & E0 & V0). destruct (G [1; 1; 1; 1; 1; 1; 1; 1; 1] eq_refl) as (g1 & E1 & V1).
  assert (EC : cl_from_file pf pz ["1"; "c0"]%string = Ok (cl_make 3000 7000 [-0.5])) by reflexivity.
  destruct (salt2_make pf pz "m" [] true [days; waves; [2; 2; 2; 2; 2; 2; 2; 2; 2]] [days; waves; [1; 1; 1; 1; 1; 1; 1; 1; 1]] ["1"; "c0"]%string) as [m|e] eqn:EM.
  2: { unfold salt2_make in EM. rewrite E0, E1, EC in EM. discriminate. }
  set (ps := [("t0"%string, PNum 10); ("x0"%string, PNum 3); ("x1"%string, PNum 4); ("c"%string, PNum 0.7); ("redshift"%string, PNum 0)] : params).
  exists m. edestruct (C69_flux pf pz "m" [] true) with (st := [("m"%string, ps)]) (ps := ps) (z := 0) (t0 := 10) (x0 := 3) (x1 := 4) (c := 0.7) as (g0' & g1' & cl & F & A0 & A1 & AC & SH & V);
    [exact EM|reflexivity|reflexivity|reflexivity|reflexivity|reflexivity|split; [lra|left; split; reflexivity]|].
  exists F. split; auto. split; [exact SH|]. assert (g0' = g0) by congruence. assert (g1' = g1) by congruence. subst g0' g1'.
  assert (cl = cl_make 3000 7000 [-0.5]) by congruence. subst cl.
  rewrite (V 11 4302.57 (2 * / 10 ^ 12) (1 * / 10 ^ 12) 0).
  - unfold salt2_flux. rewrite Rmult_0_r, Rpower_O by lra. field.
  - replace ((11 - 10) / (1 + 0)) with 1 by lra. replace (4302.57 / (1 + 0)) with 4302.57 by lra. now apply (V0 4%nat).
  - replace ((11 - 10) / (1 + 0)) with 1 by lra. replace (4302.57 / (1 + 0)) with 4302.57 by lra. now apply (V1 4%nat).
  - replace (4302.57 / (1 + 0)) with 4302.57 by lra. assert (N := C69_normalised 3000 7000 [-0.5] ltac:(lra) ltac:(lra)). unfold cl_apply in *. cbn [map] in *. now inversion N.
Qed.
