(** Property C86: models given by a spline through a grid of fluxes. *)
From Coq Require Import Reals String List Bool Arith ZArith Lia Lra.
From Verif Require Import Base BaseFacts RealBase PassbandModel PassbandProofs PassbandProps ObsTableModel SedModel SedProps SedPipeline SedBands TemplateModel SimpleModels GridModel GridProps SplineModel.
Import ListNotations.
Open Scope R_scope.

Lemma sorted_up_spec : forall l, sorted_up l = true <-> nondecreasing l.
Proof.
  unfold sorted_up. induction l as [|a l IH]; [simpl; tauto|]. destruct l as [|b l]; [simpl; tauto|].
  change (diffs (a :: b :: l)) with ((b - a) :: diffs (b :: l)). cbn [forallb]. rewrite andb_true_iff, IH.
  change (nondecreasing (a :: b :: l)) with (a <= b /\ nondecreasing (b :: l)). rewrite Rleb_true. split; intros [H1 H2]; split; auto; lra.
Qed.
Lemma strictly_up_spec : forall l, strictly_up l = true <-> increasing l.
Proof.
  unfold strictly_up. induction l as [|a l IH]; [simpl; tauto|]. destruct l as [|b l]; [simpl; tauto|].
  change (diffs (a :: b :: l)) with ((b - a) :: diffs (b :: l)). cbn [forallb]. rewrite andb_true_iff, IH.
  change (increasing (a :: b :: l)) with (a < b /\ increasing (b :: l)). rewrite Rltb_true. split; intros [H1 H2]; split; auto; lra.
Qed.
Lemma sorted_up_false : forall l, ~ nondecreasing l -> sorted_up l = false.
Proof. intros l H. apply not_true_iff_false. now rewrite sorted_up_spec. Qed.

(** ** Construction *)
(** A grid is accepted exactly if both axes are strictly increasing, there is one flux per time and wavelength, and more points than
    the degree (1 to 5) in each direction. *)
Theorem C86_make : forall fit times waves flux kt kw,
  ((exists s, spline_make fit times waves flux kt kw = Ok s) <->
   increasing times /\ increasing waves /\ length flux = length times /\ (forall r, In r flux -> length r = length waves) /\
   (1 <= kt <= 5)%nat /\ (1 <= kw <= 5)%nat /\ (kt < length times)%nat /\ (kw < length waves)%nat) /\
  (forall e, spline_make fit times waves flux kt kw = Err e -> e = ValueError).
Proof.
  intros fit times waves flux kt kw. unfold spline_make.
  pose proof (strictly_up_spec times) as A. destruct (strictly_up times); cbn [negb]; [|split; [split; [intros [s H]; discriminate|intros (H & _); apply A in H; discriminate]|congruence]].
  pose proof (strictly_up_spec waves) as B. destruct (strictly_up waves); cbn [negb]; [|split; [split; [intros [s H]; discriminate|intros (_ & H & _); apply B in H; discriminate]|congruence]].
  destruct (Nat.eqb_spec (length times) (length flux)) as [C|C]; cbn [negb]; [|split; [split; [intros [s H]; discriminate|intros (_ & _ & H & _); congruence]|congruence]].
  destruct (forallb _ flux) eqn:D; cbn [negb].
  2:{ split; [split; [intros [s H]; discriminate|]|congruence]. intros (_ & _ & _ & H & _). exfalso. apply not_true_iff_false in D. apply D, forallb_forall. intros r Hr. apply Nat.eqb_eq. now apply H. }
  assert (D' : forall r, In r flux -> length r = length waves). { intros r Hr. rewrite forallb_forall in D. apply Nat.eqb_eq. now apply D. }
  destruct (_ && _)%bool eqn:E; cbn [negb].
  2:{ split; [split; [intros [s H]; discriminate|]|congruence]. intros (_ & _ & _ & _ & H1 & H2 & _). exfalso. apply not_true_iff_false in E. apply E. rewrite !andb_true_iff, !Nat.leb_le. lia. }
  rewrite !andb_true_iff, !Nat.leb_le in E. destruct (_ && _)%bool eqn:F; cbn [negb].
  - rewrite andb_true_iff, !Nat.ltb_lt in F. split; [|discriminate]. split; [intros _|eauto]. repeat match goal with |- _ /\ _ => split end; auto; try tauto; lia.
  - split; [split; [intros [s H]; discriminate|]|congruence]. intros (_ & _ & _ & _ & _ & _ & H1 & H2). exfalso. apply not_true_iff_false in F. apply F. rewrite andb_true_iff, !Nat.ltb_lt. lia.
Qed.
Lemma made_spline : forall fit times waves flux kt kw s, spline_make fit times waves flux kt kw = Ok s ->
  s = mkSpline times waves (fit times waves flux kt kw).
Proof. intros fit times waves flux kt kw s H. unfold spline_make in H. repeat (destruct (negb _); [discriminate|]). congruence. Qed.

(** ** Fluxes *)
(** What is promised at rest-frame time [t] after t0 and wavelength [w]: the amplitude times the surface; the surface is
    continued in time by its first and last values; outside its wavelengths 0 or what the extrapolation gives. *)
Definition surface (s : spline) (a t w : R) : R := a * sp_fn s (clamp (hd 0 (sp_times s)) (last (sp_times s) 0) t) w.
Definition promised (s : spline) (x : option extrap) (a t w : R) : R :=
  let lo := hd 0 (sp_waves s) in
  let hi := last (sp_waves s) 0 in
  let outside edge := match x with None => 0 | Some e => extrap_value e edge (surface s a t edge) w end in
  if Rltb w lo then outside lo else if Rltb hi w then outside hi else surface s a t w.
Lemma clamp_in : forall lo hi x, lo <= x <= hi -> clamp lo hi x = x.
Proof. intros lo hi x [H1 H2]. unfold clamp. rewrite Rmax_left by lra. now rewrite Rmin_left by lra. Qed.
Lemma nondecreasing_map : forall (g : R -> R) l, (forall a b, a <= b -> g a <= g b) -> nondecreasing l -> nondecreasing (map g l).
Proof.
  intros g l HG. induction l as [|a l IH]; auto. destruct l as [|b l]; auto. intros [H1 H2]. split; [now apply HG|]. now apply IH.
Qed.
Lemma nondecreasing_mask : forall (p : R -> bool) l, nondecreasing l -> nondecreasing (mask_list (map p l) l).
Proof.
  intros p l H. assert (G : forall l a, nondecreasing (a :: l) -> nondecreasing (a :: mask_list (map p l) l)).
  { clear. induction l as [|b l IH]; intros a H; [exact I|]. destruct H as [H1 H2]. cbn [map mask_list]. destruct (p b).
    - split; auto.
    - apply IH. destruct l as [|c l]; [exact I|]. destruct H2 as [H2 H3]. split; [lra|auto]. }
  induction l as [|a l IH]; [exact I|]. cbn [map mask_list]. destruct (p a); [now apply G|]. apply IH. now apply nondecreasing_tail in H.
Qed.

(** The t0 in use: that of the state, or 0 if it is None. *)
Definition epoch (ps : params) (t0 : R) : Prop := dget "t0" ps = Some (PNum t0) \/ dget "t0" ps = Some PNone /\ t0 = 0.
Definition sheet (s : spline) (a t0 : R) (t w : R) : R :=
  surface s a (t - t0) (clamp (hd 0 (sp_waves s)) (last (sp_waves s) 0) w).
Definition leaf (s : spline) (t w : R) : R :=
  sp_fn s (clamp (hd 0 (sp_times s)) (last (sp_times s) 0) t) (clamp (hd 0 (sp_waves s)) (last (sp_waves s) 0) w).
Lemma spline_call_sorted : forall s x y, nondecreasing x -> nondecreasing y -> spline_call s x y = Ok (mat x y (leaf s)).
Proof.
  intros s x y HX HY. apply sorted_up_spec in HX, HY. unfold spline_call. rewrite HX, HY. destruct x; auto. destruct y; reflexivity.
Qed.
Lemma spline_sed_sorted : forall node s ts ws (st : gst) kw (ps : params) a t0, dget node st = Some ps -> dget "amplitude" ps = Some (PNum a) -> epoch ps t0 ->
  nondecreasing ts -> nondecreasing ws -> spline_sed node s ts ws st kw = Ok (mat ts ws (sheet s a t0)).
Proof.
  intros node s ts ws st kw ps a t0 HP HA HE HT HW. unfold spline_sed, local_params. rewrite HP. cbn [bind].
  assert (E : match dget "t0" ps with None => Err KeyError | Some PNone => Ok 0 | Some (PNum t0) => Ok t0 | Some (PStr _) => Err TypeError end = Ok t0).
  { destruct HE as [-> | [-> ->]]; reflexivity. }
  rewrite E. cbn [bind]. rewrite HA. rewrite spline_call_sorted; auto; [|apply nondecreasing_map; auto; intros; lra].
  cbn [bind]. unfold mscale, mat. f_equal. rewrite !map_map. apply map_ext. intros u. rewrite map_map. reflexivity.
Qed.
Definition sheet_sed (m : sed) (s : spline) (a t0 : R) : sed :=
  mkSed (sd_node m) (sd_setters m) (sd_redshift m) (sd_min m) (sd_max m) (sd_extrap m) (fun ts ws _ _ => Ok (mat ts ws (sheet s a t0))) [] [].
Lemma edges : forall l : list R, increasing l -> l <> [] -> hd 0 l <= last l 0.
Proof.
  intros [|a l] H N; [congruence|]. cbn [hd]. clear N. revert a H. induction l as [|b l IH]; intros a H; [simpl; lra|]. destruct H as [H1 H2].
  specialize (IH b H2). change (last (a :: b :: l) 0) with (last (b :: l) 0). lra.
Qed.
Lemma nondecreasing_snoc : forall l h, nondecreasing l -> (forall x, In x l -> x <= h) -> nondecreasing (l ++ [h]).
Proof.
  induction l as [|a l IH]; intros h H HB; [exact I|]. destruct l as [|b l]; [split; [apply HB; simpl; auto|exact I]|]. destruct H as [H1 H2].
  split; auto. apply IH; auto. intros x Hx. apply HB. now right.
Qed.
Lemma nondecreasing_cons : forall l a, nondecreasing l -> (forall x, In x l -> a <= x) -> nondecreasing (a :: l).
Proof. intros [|b l] a H HB; [exact I|]. split; auto. apply HB. now left. Qed.
Lemma query_sorted : forall lo hi ws, lo <= hi -> nondecreasing ws ->
  nondecreasing ([lo] ++ mask_list (map (fun w => (negb (Rltb w lo) && negb (Rltb hi w))%bool) ws) ws ++ [hi]).
Proof.
  intros lo hi ws HL HW. assert (B : forall x, In x (mask_list (map (fun w => (negb (Rltb w lo) && negb (Rltb hi w))%bool) ws) ws) -> lo <= x <= hi).
  { clear. induction ws as [|w ws IH]; intros x Hx; [destruct Hx|]. cbn [map mask_list] in Hx. destruct (_ && _)%bool eqn:E; auto.
    destruct Hx as [<- | Hx]; auto. apply andb_true_iff in E. destruct E as [E1 E2]. apply negb_true_iff in E1, E2. apply Rltb_false in E1, E2. lra. }
  cbn [app]. apply nondecreasing_cons.
  - apply nondecreasing_snoc; [now apply nondecreasing_mask|]. intros x Hx. now apply B.
  - intros x Hx. apply in_app_or in Hx. destruct Hx as [Hx|[<-|[]]]; auto. now apply B.
Qed.
Lemma spline_extrapolated : forall node setters rs x s ts ws (st : gst) kw (ps : params) a t0, dget node st = Some ps -> dget "amplitude" ps = Some (PNum a) -> epoch ps t0 ->
  hd 0 (sp_waves s) <= last (sp_waves s) 0 -> nondecreasing ts -> nondecreasing ws ->
  sed_extrapolated (spline_model node setters rs x s) ts ws st kw = sed_extrapolated (sheet_sed (spline_model node setters rs x s) s a t0) ts ws st kw.
Proof.
  intros node setters rs x s ts ws st kw ps a t0 HP HA HE HL HT HW. unfold sed_extrapolated, spline_model, sheet_sed.
  cbn [sd_min sd_max sd_compute sd_extrap]. destruct (list_min ws) as [qmin|]; auto. cbn [bind]. destruct (list_max ws) as [qmax|]; auto. cbn [bind]. cbv zeta.
  rewrite (spline_sed_sorted node s ts ws st kw ps a t0) by auto. destruct (_ && _)%bool; auto.
  rewrite (spline_sed_sorted node s ts _ st [] ps a t0); auto. now apply query_sorted.
Qed.
(** The flux of the model at times in order. *)
Theorem C86_flux : forall node setters rs x s (st : gst) (ps : params) kw a t0 z ts ws,
  dget node st = Some ps -> dget "amplitude" ps = Some (PNum a) -> epoch ps t0 -> redshifted rs ps z ->
  (z <> 0 -> dget "t0" ps = Some (PNum t0)) -> (forall e, x = Some e -> extrap_made e) ->
  increasing (sp_waves s) -> sp_waves s <> [] -> nondecreasing ts -> nondecreasing ws -> ws <> [] ->
  evaluate_sed (PSed (spline_model node setters rs x s)) ts ws [st] kw =
  Ok (SOne (mat ts ws (fun t w => (1 + z) * promised s x a ((t - t0) / (1 + z)) (w / (1 + z))))).
Proof.
  intros node setters rs x s st ps kw a t0 z ts ws HP HA HE [Hz HR] HZ HX HI HN HT HW NW.
  set (m := spline_model node setters rs x s). pose proof (edges _ HI HN) as HL.
  assert (IF : in_force m ps z t0). { unfold in_force, m. simpl. destruct HR as [[A B]|[A B]]; [left|right]; auto. repeat split; auto. destruct (Req_dec z 0); auto. }
  assert (EQ : evaluate_sed (PSed m) ts ws [st] kw = evaluate_sed (PSed (sheet_sed m s a t0)) ts ws [st] kw).
  { unfold evaluate_sed, eval_single, sed_single. f_equal. change (sd_node (sheet_sed m s a t0)) with node. change (sd_node m) with node. unfold local_params. rewrite HP. cbn [bind].
    change (rest_frame (sheet_sed m s a t0) ps ts ws) with (rest_frame m ps ts ws). destruct (rest_frame_force m ps ts ws z t0 IF Hz) as (oz & R1 & O1). rewrite R1. cbn [bind].
    unfold m. rewrite (spline_extrapolated node setters rs x s _ _ st kw ps a t0); auto.
    - apply nondecreasing_map; auto. intros p q Hpq. apply Rplus_le_compat_l. apply Rmult_le_compat_r; [|lra]. apply Rlt_le, Rinv_0_lt_compat. lra.
    - apply nondecreasing_map; auto. intros p q Hpq. apply Rmult_le_compat_r; [|lra]. apply Rlt_le, Rinv_0_lt_compat. lra. }
  rewrite EQ. pose proof (C42_pipeline (sheet_sed m s a t0) [] ts ws st kw ps z t0 (sheet s a t0) (fun _ _ _ v => v)) as P. cbn [fold_left] in P. rewrite P; auto.
  - do 2 f_equal. apply mat_ext. intros t w _ _. unfold expected_flux. cbn [filter fold_left]. f_equal. unfold extended, promised, sheet_sed, m, sheet. cbn [sd_min sd_max sd_extrap spline_model].
    replace (t0 + (t - t0) / (1 + z) - t0) with ((t - t0) / (1 + z)) by ring. set (w' := w / (1 + z)). set (lo := hd 0 (sp_waves s)) in *. set (hi := last (sp_waves s) 0) in *.
    rewrite !(clamp_in lo hi lo), !(clamp_in lo hi hi) by lra. destruct (Rltb w' lo) eqn:E1; auto. destruct (Rltb hi w') eqn:E2; auto.
    apply Rltb_false in E1, E2. now rewrite clamp_in by lra.
  - intros t' w' kw' _. reflexivity.
  - intros lo hi H1 H2. cbn in H1, H2. congruence.
  - intros e [].
Qed.

(** ** The data are reproduced *)
(** An interpolating fit: on a valid grid it takes the given value at every grid point. *)
Definition interpolates (fit : fitter) (kt kw : nat) : Prop := forall times waves flux,
  increasing times -> increasing waves -> length flux = length times -> (forall r, In r flux -> length r = length waves) ->
  (kt < length times)%nat -> (kw < length waves)%nat ->
  forall i j t w r v, nth_error times i = Some t -> nth_error waves j = Some w -> nth_error flux i = Some r -> nth_error r j = Some v ->
  fit times waves flux kt kw t w = v.
Lemma increasing_bounds : forall l x, increasing l -> In x l -> hd 0 l <= x <= last l 0.
Proof.
  intros [|a l] x H Hx; [destruct Hx|]. cbn [hd]. split.
  - destruct Hx as [<- | Hx]; [lra|]. revert a H. induction l as [|b l IH]; intros a H; [destruct Hx|]. destruct H as [H1 H2]. destruct Hx as [<- | Hx]; [lra|]. specialize (IH Hx b H2). lra.
  - revert x a H Hx. induction l as [|b l IH]; intros x a H Hx; [destruct Hx as [<- | []]; simpl; lra|]. destruct H as [H1 H2].
    change (last (a :: b :: l) 0) with (last (b :: l) 0). pose proof (IH b b H2 (or_introl eq_refl)). destruct Hx as [<- | Hx]; [lra|auto].
Qed.
(** The surface goes through every data point. *)
Lemma promised_node : forall fit times waves flux kt kw s x a i j t w r v, interpolates fit kt kw -> spline_make fit times waves flux kt kw = Ok s ->
  nth_error times i = Some t -> nth_error waves j = Some w -> nth_error flux i = Some r -> nth_error r j = Some v ->
  promised s x a t w = a * v.
Proof.
  intros fit times waves flux kt kw s x a i j t w r v HF HM Ht Hw Hr Hv.
  destruct (proj1 (proj1 (C86_make fit times waves flux kt kw)) (ex_intro _ s HM)) as (A & B & C & D & _ & _ & E & F).
  apply made_spline in HM. subst s. pose proof (increasing_bounds _ _ A (nth_error_In _ _ Ht)) as BT. pose proof (increasing_bounds _ _ B (nth_error_In _ _ Hw)) as BW.
  unfold promised, surface. cbn [sp_times sp_waves sp_fn]. rewrite clamp_in by auto.
  replace (Rltb w (hd 0 waves)) with false by (symmetry; apply Rltb_false; lra). replace (Rltb (last waves 0) w) with false by (symmetry; apply Rltb_false; lra).
  f_equal. eapply HF; eauto.
Qed.
(** Observing the model when and where a point of the grid arrives gives that point's flux times the amplitude and 1 + z. *)
Theorem C86_nodes : forall fit times waves flux kt kw' s node setters rs x (st : gst) (ps : params) kw a t0 z i j t w r v,
  interpolates fit kt kw' -> spline_make fit times waves flux kt kw' = Ok s ->
  dget node st = Some ps -> dget "amplitude" ps = Some (PNum a) -> epoch ps t0 -> redshifted rs ps z ->
  (z <> 0 -> dget "t0" ps = Some (PNum t0)) -> (forall e, x = Some e -> extrap_made e) ->
  nth_error times i = Some t -> nth_error waves j = Some w -> nth_error flux i = Some r -> nth_error r j = Some v ->
  evaluate_sed (PSed (spline_model node setters rs x s)) [t0 + (1 + z) * t] [(1 + z) * w] [st] kw = Ok (SOne [[(1 + z) * (a * v)]]).
Proof.
  intros fit times waves flux kt kw' s node setters rs x st ps kw a t0 z i j t w r v HF HM HP HA HE HR HZ HX Ht Hw Hr Hv.
  destruct (proj1 (proj1 (C86_make fit times waves flux kt kw')) (ex_intro _ s HM)) as (A & B & C & D & _).
  assert (SW : sp_waves s = waves) by (apply made_spline in HM; now subst s).
  rewrite (C86_flux node setters rs x s st ps kw a t0 z); auto; try exact I; try discriminate.
  - unfold mat. cbn [map]. destruct HR as [Hz _]. replace ((t0 + (1 + z) * t - t0) / (1 + z)) with t by (field; lra). replace ((1 + z) * w / (1 + z)) with w by (field; lra).
    now rewrite (promised_node fit times waves flux kt kw' s x a i j t w r v).
  - now rewrite SW.
  - rewrite SW. intros ->. destruct j; discriminate.
Qed.
(** From a file: a table whose rows enumerate a grid in order is accepted and every row (time, wavelength, flux) is reproduced. *)
Theorem C86_file : forall fit kt kw' ta wa fa times waves node setters rs x (st : gst) (ps : params) kw a t0 z,
  interpolates fit kt kw' -> (1 <= kt <= 5)%nat -> (1 <= kw' <= 5)%nat -> (kt < length times)%nat -> (kw' < length waves)%nat ->
  length ta = length wa -> length ta = length fa -> increasing times -> increasing waves -> row_major times waves (combine ta wa) ->
  dget node st = Some ps -> dget "amplitude" ps = Some (PNum a) -> epoch ps t0 -> redshifted rs ps z ->
  (z <> 0 -> dget "t0" ps = Some (PNum t0)) -> (forall e, x = Some e -> extrap_made e) ->
  exists s, spline_from_file fit [ta; wa; fa] kt kw' = Ok s /\
    forall k t w v, nth_error ta k = Some t -> nth_error wa k = Some w -> nth_error fa k = Some v ->
    evaluate_sed (PSed (spline_model node setters rs x s)) [t0 + (1 + z) * t] [(1 + z) * w] [st] kw = Ok (SOne [[(1 + z) * (a * v)]]).
Proof.
  intros fit kt kw' ta wa fa times waves node setters rs x st ps kw a t0 z HF K1 K2 L1 L2 H1 H2 IT IW RM HP HA HE HR HZ HX.
  destruct (C59_values true ta wa fa times waves) as (values & RG & LV & LR & V); auto; try (intros ->; simpl in *; lia).
  destruct (proj2 (proj1 (C86_make fit times waves values kt kw'))) as (s & HM). { repeat match goal with |- _ /\ _ => split end; auto; lia. }
  exists s. split. { unfold spline_from_file. rewrite RG. exact HM. }
  intros k t w v Ht Hw Hv.
  assert (IN : In (t, w) (combine ta wa)).
  { assert (N : nth_error (combine ta wa) k = Some (t, w)); [|now apply nth_error_In in N].
    clear - Ht Hw. revert wa k Ht Hw. induction ta as [|t' ta IH]; intros [|w' wa] [|k] Ht Hw; simpl in *; try discriminate; try congruence. now apply IH. }
  unfold row_major in RM. rewrite RM in IN. apply in_flat_map in IN. destruct IN as (p & Hp & Hq). apply in_map_iff in Hq. destruct Hq as (q & EQ & Hq).
  apply pair_equal_spec in EQ. destruct EQ as [-> ->]. destruct (In_nth_error _ _ Hp) as (i & Hi). destruct (In_nth_error _ _ Hq) as (j & Hj).
  destruct (V i j k t w v Hi Hj Ht Hw Hv) as (row & R1 & R2). eapply C86_nodes; eauto.
Qed.

(** ** Degree 1 *)
Lemma xs_combine : forall x y : list R, length y = length x -> xs (combine x y) = x.
Proof. induction x as [|a x IH]; intros [|b y] H; simpl in *; try discriminate; auto. f_equal. apply IH. lia. Qed.
Lemma combine_nth_pair : forall (x y : list R) i a b, nth_error x i = Some a -> nth_error y i = Some b -> In (a, b) (combine x y).
Proof. induction x as [|c x IH]; intros [|d y] [|i] a b H1 H2; simpl in *; try discriminate. { left. congruence. } right. eapply IH; eauto. Qed.
Lemma line_knot : forall x y i a b, increasing x -> length y = length x -> nth_error x i = Some a -> nth_error y i = Some b -> line x y a = b.
Proof.
  intros x y i a b HI HL H1 H2. unfold line. apply (interp_knot (combine x y) _ _ (a, b)); [now rewrite xs_combine|]. eapply combine_nth_pair; eauto.
Qed.
Lemma last_in : forall (l : list R) d, l <> [] -> In (last l d) l.
Proof. induction l as [|a l IH]; intros d H; [congruence|]. destruct l as [|b l]; [now left|]. right. apply IH. discriminate. Qed.
Lemma line_bounds : forall x y lo hi q, increasing x -> length y = length x -> y <> [] -> (forall v, In v y -> lo <= v <= hi) -> lo <= line x y q <= hi.
Proof.
  intros x y lo hi q HI HL HN HB. unfold line.
  assert (HD : lo <= hd 0 y <= hi) by (apply HB; destruct y; [congruence|now left]). assert (HT : lo <= last y 0 <= hi) by (apply HB; now apply last_in).
  assert (IX : increasing (xs (combine x y))) by now rewrite xs_combine. unfold interp. destruct (combine x y) as [|p t] eqn:E; auto.
  destruct (Rltb q (fst p)) eqn:E1; auto. destruct (Rltb (last_x (p :: t)) q); auto. apply Rltb_false in E1.
  apply interp_seg_bounds; auto. intros c Hc. apply HB. rewrite <- E in Hc. destruct c as [u v]. now apply in_combine_r in Hc.
Qed.
Theorem C86_linear_interpolates : forall kt kw, interpolates bilinear kt kw.
Proof.
  intros kt kw times waves flux IT IW LF LR LT LW i j t w r v Ht Hw Hr Hv. unfold bilinear. apply (line_knot times _ i); auto; [now rewrite map_length|].
  rewrite nth_error_map, Hr. cbn [option_map]. f_equal. apply (line_knot waves r j); auto. apply LR. now apply nth_error_In in Hr.
Qed.
(** With degree 1 the model never exceeds the data: a promised flux inside the wavelengths lies between the least and the greatest
    flux of the grid (times the amplitude); in particular it is never negative if the data are not. *)
Theorem C86_linear_bounds : forall times waves flux kt kw s x a t w lo hi, spline_make bilinear times waves flux kt kw = Ok s -> 0 <= a ->
  (forall r v, In r flux -> In v r -> lo <= v <= hi) -> hd 0 waves <= w <= last waves 0 ->
  a * lo <= promised s x a t w <= a * hi.
Proof.
  intros times waves flux kt kw s x a t w lo hi HM HA HB HW.
  destruct (proj1 (proj1 (C86_make bilinear times waves flux kt kw)) (ex_intro _ s HM)) as (A & B & C & D & K1 & K2 & E & F). apply made_spline in HM. subst s.
  unfold promised, surface. cbn [sp_times sp_waves sp_fn]. replace (Rltb w (hd 0 waves)) with false by (symmetry; apply Rltb_false; lra).
  replace (Rltb (last waves 0) w) with false by (symmetry; apply Rltb_false; lra).
  assert (X : lo <= bilinear times waves flux kt kw (clamp (hd 0 times) (last times 0) t) w <= hi).
  { unfold bilinear. apply line_bounds; auto; [now rewrite map_length|destruct flux; [simpl in *; lia|discriminate]|].
    intros v Hv. apply in_map_iff in Hv. destruct Hv as (r & <- & Hr). apply line_bounds; auto; [destruct r; [|discriminate]; specialize (D _ Hr); simpl in D; lia|].
    intros u Hu. eapply HB; eauto. }
  split; apply Rmult_le_compat_l; tauto.
Qed.

(** ** Before and after *)
(** The model neither rises from nothing nor fades: before the first time it has the first time's spectrum, after the last
    the last one's. *)
Theorem C86_outside_times : forall s x a t w, hd 0 (sp_times s) <= last (sp_times s) 0 ->
  (t <= hd 0 (sp_times s) -> promised s x a t w = promised s x a (hd 0 (sp_times s)) w) /\
  (last (sp_times s) 0 <= t -> promised s x a t w = promised s x a (last (sp_times s) 0) w).
Proof.
  intros s x a t w HL. unfold promised, surface. set (lo := hd 0 (sp_times s)) in *. set (hi := last (sp_times s) 0) in *. split; intros H.
  - replace (clamp lo hi t) with (clamp lo hi lo); auto. unfold clamp. rewrite (Rmax_right t lo), (Rmax_left lo lo); auto; lra.
  - replace (clamp lo hi t) with (clamp lo hi hi); auto. unfold clamp. rewrite (Rmax_left t lo), (Rmax_left hi lo) by lra. rewrite (Rmin_right t hi), (Rmin_left hi hi); auto; lra.
Qed.
(** Fluxes scale with the amplitude, inside the wavelengths or with an extrapolation that scales (all but the constant one). *)
Theorem C86_amplitude : forall s x a t w c, (forall v, x <> Some (XConst v)) -> promised s x (c * a) t w = c * promised s x a t w.
Proof.
  intros s x a t w c HX. unfold promised, surface. destruct (Rltb w _).
  - destruct x as [[|v| |u|u]|]; simpl; try ring. now contradiction (HX v).
  - destruct (Rltb _ w); [|ring]. destruct x as [[|v| |u|u]|]; simpl; try ring. now contradiction (HX v).
Qed.

(** ** Order of the observations *)
(** Finding: times that are not in increasing order are refused, in evaluations of spectra and of band fluxes, although every other
    model accepts them in any order. *)
Lemma nondecreasing_unmap : forall (g : R -> R) l, (forall a b, g a <= g b -> a <= b) -> nondecreasing (map g l) -> nondecreasing l.
Proof.
  intros g l HG. induction l as [|a l IH]; auto. destruct l as [|b l]; auto. intros [H1 H2]. split; [now apply HG|]. now apply IH.
Qed.
Lemma spline_sed_unsorted : forall node s ts ws (st : gst) kw (ps : params) a t0, dget node st = Some ps -> dget "amplitude" ps = Some (PNum a) -> epoch ps t0 ->
  ~ nondecreasing ts -> ws <> [] -> spline_sed node s ts ws st kw = Err ValueError.
Proof.
  intros node s ts ws st kw ps a t0 HP HA HE HT HW. unfold spline_sed, local_params. rewrite HP. cbn [bind].
  assert (E : match dget "t0" ps with None => Err KeyError | Some PNone => Ok 0 | Some (PNum t0) => Ok t0 | Some (PStr _) => Err TypeError end = Ok t0).
  { destruct HE as [-> | [-> ->]]; reflexivity. }
  rewrite E. cbn [bind]. rewrite HA. unfold spline_call. destruct ts as [|t ts]; [elim HT; exact I|]. cbn [map]. destruct ws as [|w ws]; [congruence|].
  change (t - t0 :: map (fun t1 => t1 - t0) ts) with (map (fun t1 => t1 - t0) (t :: ts)). rewrite sorted_up_false; [reflexivity|].
  intros X. apply HT. apply (nondecreasing_unmap (fun t1 => t1 - t0)); auto. intros; lra.
Qed.
Theorem C86_unsorted_refuted : forall node setters rs x s (st : gst) (ps : params) kw a t0 z ts ws,
  dget node st = Some ps -> dget "amplitude" ps = Some (PNum a) -> epoch ps t0 -> redshifted rs ps z ->
  (z <> 0 -> dget "t0" ps = Some (PNum t0)) -> ~ nondecreasing ts -> ws <> [] ->
  evaluate_sed (PSed (spline_model node setters rs x s)) ts ws [st] kw = Err ValueError.
Proof.
  intros node setters rs x s st ps kw a t0 z ts ws HP HA HE [Hz HR] HZ HT NW. set (m := spline_model node setters rs x s).
  assert (IF : in_force m ps z t0). { unfold in_force, m. simpl. destruct HR as [[A B]|[A B]]; [left|right]; auto. repeat split; auto. destruct (Req_dec z 0); auto. }
  unfold evaluate_sed, eval_single, sed_single, local_params. change (sd_node m) with node. rewrite HP. cbn [bind].
  destruct (rest_frame_force m ps ts ws z t0 IF Hz) as (oz & R1 & O1). rewrite R1. cbn [bind].
  set (rt := map _ ts). set (rw := map _ ws). assert (NT : ~ nondecreasing rt).
  { intros X. apply HT. revert X. apply nondecreasing_unmap. intros p q H. apply Rplus_le_reg_l in H. assert (P : 0 < / (1 + z)) by (apply Rinv_0_lt_compat; lra). apply Rmult_le_reg_r in H; lra. }
  assert (NR : rw <> []). { unfold rw. destruct ws; [congruence|discriminate]. }
  unfold sed_extrapolated. destruct rw as [|w rw'] eqn:E; [congruence|]. cbn [list_min list_max bind]. cbv zeta. unfold m. cbn [spline_model sd_compute sd_min sd_max].
  rewrite !(spline_sed_unsorted node s rt _ st _ ps a t0); auto; try discriminate. destruct (_ && _)%bool; reflexivity.
Qed.
Lemma unique_same : forall f n, unique_names (repeat f (S n)) = [f].
Proof.
  intros f. induction n as [|n IH]; [reflexivity|]. change (unique_names (repeat f (S (S n)))) with (ins_name f (unique_names (repeat f (S n)))). rewrite IH. simpl.
  assert (C : String.compare f f = Eq). { destruct (String.compare f f) eqn:E; auto. - pose proof (String.compare_antisym f f) as A. rewrite E in A. discriminate. - pose proof (String.compare_antisym f f) as A. rewrite E in A. discriminate. }
  now rewrite C.
Qed.
Lemma mask_same : forall A (f : string) (l : list A), mask_list (map (fun x => String.eqb x f) (repeat f (length l))) l = l.
Proof. intros A f. induction l as [|a l IH]; auto. cbn [length repeat map mask_list]. rewrite String.eqb_refl. now f_equal. Qed.
Theorem C86_unsorted_bands_refuted : forall node setters rs x s (st : gst) (ps : params) a t0 z ts f g p,
  dget node st = Some ps -> dget "amplitude" ps = Some (PNum a) -> epoch ps t0 -> redshifted rs ps z ->
  (z <> 0 -> dget "t0" ps = Some (PNum t0)) -> ~ nondecreasing ts -> pg_getitem g f = Ok p -> pb_waves p <> [] ->
  evaluate_bandfluxes (PSed (spline_model node setters rs x s)) (PGroup g) ts (Some (repeat f (length ts))) [st] = Err ValueError.
Proof.
  intros node setters rs x s st ps a t0 z ts f g p HP HA HE HR HZ HT HG HW. pose proof (C86_unsorted_refuted node setters rs x s st ps [] a t0 z ts (pb_waves p) HP HA HE HR HZ HT HW) as E.
  unfold evaluate_sed, eval_single in E. set (m := spline_model node setters rs x s) in *. destruct (sed_single m ts (pb_waves p) st []) as [v|e] eqn:ES; [discriminate|]. cbn [bind] in E.
  unfold evaluate_bandfluxes. cbn [bind fst snd]. rewrite repeat_length, Nat.eqb_refl. cbn [negb]. unfold band_eval, sed_bandfluxes. destruct ts as [|t ts]; [elim HT; exact I|].
  cbn [length]. rewrite unique_same. cbn [fold_res]. rewrite HG. cbn [bind]. change (repeat f (S (length ts))) with (repeat f (length (t :: ts))). rewrite mask_same, ES. cbn [bind]. congruence.
Qed.
(** A case: two times, two wavelengths, degree 1; at redshift 1 the middle of the grid. *)
Definition small_grid : result spline := spline_make bilinear [0; 10] [1000; 3000] [[1; 3]; [5; 7]] 1 1.
Example C86_case : exists s, small_grid = Ok s /\
  evaluate_sed (PSed (spline_model "m" [] true None s)) [110] [4000; 8000] [[("m"%string, [("t0", PNum 100); ("redshift", PNum 1); ("amplitude", PNum 3)]%string)]] [] = Ok (SOne [[2 * (3 * 4); 0]]).
Proof.
  destruct (proj2 (proj1 (C86_make bilinear [0; 10] [1000; 3000] [[1; 3]; [5; 7]] 1 1))) as (s & HM).
  { repeat match goal with |- _ /\ _ => split end; simpl; try lra; try lia; auto. intros r [<- | [<- | []]]; reflexivity. }
  exists s. split; [exact HM|]. pose proof (made_spline _ _ _ _ _ _ _ HM) as MS.
  rewrite (C86_flux "m" [] true None s _ [("t0", PNum 100); ("redshift", PNum 1); ("amplitude", PNum 3)]%string [] 3 100 1); try reflexivity; try discriminate.
  - subst s. unfold mat. cbn [map]. replace ((110 - 100) / (1 + 1)) with 5 by lra. replace (4000 / (1 + 1)) with 2000 by lra. replace (8000 / (1 + 1)) with 4000 by lra.
    unfold promised, surface. cbn [sp_waves sp_times sp_fn hd last].
    replace (Rltb 2000 1000) with false by (symmetry; apply Rltb_false; lra). replace (Rltb 3000 2000) with false by (symmetry; apply Rltb_false; lra).
    replace (Rltb 4000 1000) with false by (symmetry; apply Rltb_false; lra). replace (Rltb 3000 4000) with true by (symmetry; apply Rltb_true; lra).
    rewrite clamp_in by lra. unfold bilinear, line, interp, last_x. cbn [map combine hd last fst snd interp_seg].
    replace (Rltb 5 0) with false by (symmetry; apply Rltb_false; lra). replace (Rltb 10 5) with false by (symmetry; apply Rltb_false; lra).
    replace (Rltb 2000 1000) with false by (symmetry; apply Rltb_false; lra). replace (Rltb 3000 2000) with false by (symmetry; apply Rltb_false; lra).
    replace (Rleb 5 10) with true by (symmetry; apply Rleb_true; lra). replace (Rleb 2000 3000) with true by (symmetry; apply Rleb_true; lra). unfold lerp. cbn [fst snd]. repeat f_equal; lra.
  - left. reflexivity.
  - split; [lra|]. left. split; reflexivity.
  - subst s. simpl. lra.
  - subst s. discriminate.
  - split; [lra|exact I].
Qed.
