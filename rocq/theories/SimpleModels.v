(** Properties C50 (periodic models) and C51 (constant, step, sine, linear and tabulated models). *)
From Coq Require Import Reals String List Bool Arith ZArith Lia Lra.
From Verif Require Import Base BaseFacts RealBase PassbandModel PassbandProofs PassbandProps ObsTableModel SedModel SedProps SedPipeline SedBands NoiseModel TemplateModel TemplateProps TemplateBands.
Import ListNotations.
Open Scope R_scope.

(** ** C50 *)
(** Phases lie in [0, 1) and tell the time up to whole periods. *)
Theorem C50_phases : forall ts t0 p, 0 < p -> length (phases ts t0 p) = length ts /\
  forall i t, nth_error ts i = Some t -> exists x (k : Z), nth_error (phases ts t0 p) i = Some x /\ 0 <= x < 1 /\ t = t0 + (x + IZR k) * p.
Proof.
  intros ts t0 p Hp. split; [apply map_length|]. intros i t Hi. unfold phases. exists (Rmod (t - t0) p / p), (Int_part ((t - t0) / p)).
  rewrite nth_error_map, Hi. split; [reflexivity|]. pose proof (Rmod_range (t - t0) p Hp) as [A B]. split.
  - split; [apply Rmult_le_pos; auto; apply Rlt_le, Rinv_0_lt_compat; auto|]. apply (Rmult_lt_reg_r p); auto. unfold Rdiv.
    rewrite Rmult_assoc, Rinv_l by lra. lra.
  - unfold Rmod. field. lra.
Qed.
(** ... and are determined by that. *)
Theorem C50_phase_unique : forall t t0 p x (k : Z), 0 < p -> 0 <= x < 1 -> t = t0 + (x + IZR k) * p -> phases [t] t0 p = [x].
Proof.
  intros t t0 p x k Hp Hx ->. unfold phases. cbn [map]. f_equal. rewrite (Rmod_unique _ p (x * p) k); auto.
  - field. lra.
  - split; [apply Rmult_le_pos; lra|]. rewrite <- (Rmult_1_l p) at 2. apply Rmult_lt_compat_r; lra.
  - ring.
Qed.
Theorem C50_epoch : forall t0 p, 0 < p -> phases [t0] t0 p = [0].
Proof. intros. apply (C50_phase_unique _ _ _ 0 0%Z); auto; lra. Qed.
(** Times that differ from those of [ts] by whole periods [p] (a different number for each). *)
Definition whole_periods (p : R) (ts ts' : list R) : Prop := Forall2 (fun t t' => exists k : Z, t' = t + IZR k * p) ts ts'.
Lemma whole_length : forall p ts ts', whole_periods p ts ts' -> length ts' = length ts.
Proof. induction 1; simpl; auto. Qed.
Theorem C50_same_phases : forall ts ts' t0 p, 0 < p -> whole_periods p ts ts' -> phases ts' t0 p = phases ts t0 p.
Proof.
  intros ts ts' t0 p Hp H. unfold phases. induction H as [|t t' ts ts' [k ->] H IH]; auto. cbn [map]. f_equal; auto.
  replace (t + IZR k * p - t0) with ((t - t0) + IZR k * p) by ring. now rewrite Rmod_shift.
Qed.
(** An effect that does not look at the times (dimming, extinction). *)
Definition steady (e : effect) (ps : params) : Prop := forall ts ts' ws m, length ts' = length ts -> ef_apply e ts' ws ps m = ef_apply e ts ws ps m.
Lemma steady_effects : forall es ps ts ts' ws m, (forall e, In e es -> steady e ps) -> length ts' = length ts ->
  apply_effects es ts' ws ps m = apply_effects es ts ws ps m.
Proof.
  induction es as [|e es IH]; intros ps ts ts' ws m H HL; auto. unfold apply_effects in *. cbn [fold_res].
  rewrite (H e (or_introl eq_refl) ts ts') by auto. destruct (ef_apply e ts ws ps m); auto. apply IH; auto. intros; apply H; right; auto.
Qed.
Theorem C50_steady_effects : forall rest ps x ext, steady (dimming rest x) ps /\ steady (extinction rest ext x) ps.
Proof. intros. split; intros ts ts' ws m H; reflexivity. Qed.
(** The model sees whole periods: the evaluated flux is the same at times that differ by whole observed periods
    (1 + z) p, at any wavelengths, with or without wavelength bounds, extrapolation and steady effects. *)
Theorem C50_periodic : forall node setters rs mn mx x phi rest obs (st : gst) (ps : params) kw p t0 z ts ts' ws,
  let m := PSed (mkSed node setters rs mn mx x (periodic_sed node phi) rest obs) in
  dget node st = Some ps -> dget "period" ps = Some (PNum p) -> dget "t0" ps = Some (PNum t0) -> 0 < p ->
  (rs = true /\ dget "redshift" ps = Some (PNum z) \/ rs = false /\ z = 0) -> -1 < z ->
  (forall e, In e (rest ++ obs) -> steady e ps) ->
  whole_periods ((1 + z) * p) ts ts' ->
  evaluate_sed m ts' ws [st] kw = evaluate_sed m ts ws [st] kw.
Proof.
  intros node setters rs mn mx x phi rest obs st ps kw p t0 z ts ts' ws m HP HPer HT Hp HZ Hz HE HW.
  unfold m. unfold evaluate_sed, eval_single. f_equal. clear m. set (s := mkSed node setters rs mn mx x (periodic_sed node phi) rest obs).
  unfold sed_single, local_params. change (sd_node s) with node. rewrite HP. cbn [bind].
  assert (IF : in_force s ps z t0) by (unfold in_force; simpl; destruct HZ as [[A B]|[A B]]; auto).
  destruct (rest_frame_force s ps ts ws z t0 IF Hz) as (oz & R1 & O1). destruct (rest_frame_force s ps ts' ws z t0 IF Hz) as (oz' & R2 & O2).
  rewrite R1, R2. cbn [bind].
  assert (OZ : oz' = oz).
  { unfold rest_frame in R1, R2. simpl in R1, R2.
    destruct rs; [|congruence]. destruct (dget "redshift" ps) as [[| |]|]; try discriminate.
    destruct (Reqb r 0); [congruence|]. rewrite HT in R1, R2. simpl in R1, R2. congruence. }
  subst oz'. set (rt := map _ ts). set (rt' := map _ ts'). set (rw := map _ ws).
  assert (WP : whole_periods p rt rt').
  { unfold rt, rt'. clear - HW Hz. induction HW as [|t t' ts ts' [k ->] H IH]; constructor; auto. exists k. field. lra. }
  assert (LR : length rt' = length rt) by now apply (whole_length p).
  assert (LT : length ts' = length ts) by now apply (whole_length _ _ _ HW).
  assert (CS : forall w k, sd_compute s rt' w st k = sd_compute s rt w st k).
  { intros w k. simpl. unfold periodic_sed, local_params. rewrite HP. cbn [bind]. unfold need. rewrite HPer. cbn [bind]. rewrite HT. cbn [bind].
    now rewrite (C50_same_phases rt rt'). }
  assert (EX : sed_extrapolated s rt' rw st kw = sed_extrapolated s rt rw st kw).
  { unfold sed_extrapolated. destruct (list_min rw); auto. cbn [bind]. destruct (list_max rw); auto. cbn [bind]. cbv zeta. rewrite !CS.
    rewrite LR. assert (Z : forall A (c : A), map (fun _ => c) rt' = map (fun _ => c) rt).
    { intros A c. rewrite <- !repeat_map. now rewrite LR. }
    rewrite !Z. reflexivity. }
  rewrite EX. destruct (sed_extrapolated s rt rw st kw) as [m|]; auto. cbn [bind].
  rewrite (steady_effects rest ps rt rt') by (auto; intros; apply HE, in_or_app; auto).
  change (sd_rest s) with rest. destruct (apply_effects rest rt rw ps m) as [m'|]; auto. cbn [bind].
  apply (steady_effects obs ps ts ts'); auto. intros; apply HE, in_or_app; auto.
Qed.
(** A case: redshift 1, rest-frame period 3, observed period 6. *)
Example C50_case :
  let st : gst := [("m"%string, [("period"%string, PNum 3); ("t0"%string, PNum 1); ("redshift"%string, PNum 1)])] in
  let phi := fun ph ws (_ : gst) (_ : params) => Ok (map (fun x => map (fun w => x * w) ws) ph) in
  let m := PSed (mkSed "m" [] true (fun _ => None) (fun _ => None) None (periodic_sed "m" phi) [] []) in
  evaluate_sed m [5 + 6; 2 - 12] [100; 200] [st] [] = evaluate_sed m [5; 2] [100; 200] [st] [] /\
  evaluate_sed m [4] [100] [st] [] = Ok (SOne [[50]]).
Proof.
  cbv zeta. split.
  - eapply (C50_periodic "m" [] true) with (p := 3) (t0 := 1) (z := 1); try reflexivity; try lra; auto.
    + intros e [].
    + constructor; [exists 1%Z; lra|]. constructor; [exists (-2)%Z; lra|constructor].
  - unfold evaluate_sed, eval_single, sed_single, local_params, rest_frame. simpl. destruct (Reqb 1 0) eqn:E; [apply Reqb_true in E; lra|].
    unfold sed_extrapolated. simpl. assert (X : Rleb (100 / (1 + 1)) (100 / (1 + 1)) = true) by (apply Rleb_true; lra). rewrite X. simpl.
    unfold periodic_sed. simpl.
    assert (PH : phases [(4 - 1) / (1 + 1) + 1] 1 3 = [/ 2]) by (apply (C50_phase_unique _ _ _ (/ 2) 0%Z); lra).
    unfold phases in PH. simpl in PH. injection PH as PH. rewrite PH. do 4 f_equal. field.
Qed.

(** ** C51 *)
(** [m] evaluates, at every query, to the flux [F] of observer time and wavelength. *)
Definition shines (m : phys) (st : gst) (F : R -> R -> R) : Prop :=
  forall ts ws, ws <> [] -> evaluate_sed m ts ws [st] [] = Ok (SOne (mat ts ws F)).
(** A model without effects. *)
Lemma bare_shines : forall s (st : gst) (ps : params) z t0 f, sd_rest s = [] -> sd_obs s = [] -> dget (sd_node s) st = Some ps ->
  in_force s ps z t0 -> -1 < z -> computes s st [] f -> (forall e, sd_extrap s = Some e -> extrap_made e) ->
  (forall lo hi, sd_min s st = Some lo -> sd_max s st = Some hi -> lo <= hi) ->
  shines (PSed s) st (fun t w => (1 + z) * extended s st f (t0 + (t - t0) / (1 + z)) (w / (1 + z))).
Proof.
  intros s st ps z t0 f H1 H2 H3 H4 H5 H6 H7 H8 ts ws HW.
  pose proof (C42_pipeline s [] ts ws st [] ps z t0 f (fun _ _ _ x => x) H1 H2 H3 H4 H5 H6 HW H7 H8) as X. simpl in X. apply X.
  intros e [].
Qed.
Lemma shines_ext : forall m st F G, shines m st F -> (forall t w, F t w = G t w) -> shines m st G.
Proof. intros m st F G H E ts ws HW. rewrite H by auto. do 2 f_equal. apply mat_ext. auto. Qed.
Lemma plain_extended : forall node setters rs c st f t w, extended (plain_sed node setters rs c [] []) st f t w = f t w.
Proof. reflexivity. Qed.
Ltac plain := intros; discriminate.
(** The redshift in force for the parameters [ps]. *)
Definition redshifted (rs : bool) (ps : params) (z : R) : Prop := -1 < z /\ (rs = true /\ dget "redshift" ps = Some (PNum z) \/ rs = false /\ z = 0).

(** ConstantSEDModel: one flux value at all times and wavelengths. *)
Theorem C51_constant : forall node setters rs (st : gst) (ps : params) z b t0, dget node st = Some ps -> dget "brightness" ps = Some (PNum b) ->
  redshifted rs ps z -> (z <> 0 -> dget "t0" ps = Some (PNum t0)) ->
  shines (PSed (plain_sed node setters rs (constant_sed node) [] [])) st (fun _ _ => (1 + z) * b).
Proof.
  intros node setters rs st ps z b t0 HP HB [Hz HR] HT. eapply shines_ext.
  - apply (bare_shines _ st ps z t0 (fun _ _ => b)); auto; try plain.
    + unfold in_force. simpl. destruct HR as [[A B]|[A B]]; auto. left. repeat split; auto. destruct (Req_dec z 0); auto.
    + intros ts ws kw _. simpl. unfold constant_sed, local_params. rewrite HP. cbn [bind]. unfold need. rewrite HB. reflexivity.
  - intros t w. reflexivity.
Qed.
(** StepModel: (1 + z) times the brightness exactly while the source is on, 0 otherwise; for z = 0 that is t0 <= t <= t1. *)
Theorem C51_step : forall node setters rs (st : gst) (ps : params) z b t0 t1, dget node st = Some ps -> dget "brightness" ps = Some (PNum b) ->
  dget "t0" ps = Some (PNum t0) -> dget "t1" ps = Some (PNum t1) -> redshifted rs ps z ->
  exists F, shines (PSed (plain_sed node setters rs (step_sed node) [] [])) st F /\
    forall t w, (t0 <= t <= t0 + (1 + z) * (t1 - t0) -> F t w = (1 + z) * b) /\ (t < t0 \/ t0 + (1 + z) * (t1 - t0) < t -> F t w = 0).
Proof.
  intros node setters rs st ps z b t0 t1 HP HB H0 H1 [Hz HR].
  exists (fun t w => (1 + z) * (if (Rleb t0 (t0 + (t - t0) / (1 + z)) && Rleb (t0 + (t - t0) / (1 + z)) t1)%bool then b else 0)). split.
  - eapply shines_ext.
    + apply (bare_shines _ st ps z t0 (fun t _ => if (Rleb t0 t && Rleb t t1)%bool then b else 0)); auto; try plain.
      * unfold in_force. simpl. destruct HR as [[A B]|[A B]]; auto.
      * intros ts ws kw _. simpl. unfold step_sed, local_params. rewrite HP. cbn [bind]. unfold need. rewrite H0. cbn [bind]. rewrite H1. cbn [bind].
        rewrite HB. cbn [bind]. cbv zeta. f_equal. unfold zeros. rewrite repeat_map.
        rewrite (put_masked _ _ (fun t => (Rleb t0 t && Rleb t t1)%bool) (fun _ => map (fun _ => b) ws)) by now rewrite map_length.
        rewrite combine_map_r, map_map. apply map_ext. intros t. cbn [fst snd]. rewrite repeat_map.
        destruct (Rleb t0 t && Rleb t t1)%bool; reflexivity.
    + intros t w. reflexivity.
  - intros t w. assert (D : forall a, a = (1 + z) * (a / (1 + z))) by (intros; field; lra).
    specialize (D (t - t0)). set (q := (t - t0) / (1 + z)) in *. split; intros H.
    + assert (A : Rleb t0 (t0 + q) = true) by (apply Rleb_true; nra). assert (B : Rleb (t0 + q) t1 = true) by (apply Rleb_true; nra).
      now rewrite A, B.
    + assert (A : (Rleb t0 (t0 + q) && Rleb (t0 + q) t1)%bool = false).
      { apply andb_false_iff. destruct H; [left|right]; apply Rleb_false; nra. }
      rewrite A. ring.
Qed.
(** SinWaveModel: the documented formula. *)
Theorem C51_sine : forall node setters rs (st : gst) (ps : params) z b a fr t0, dget node st = Some ps -> dget "brightness" ps = Some (PNum b) ->
  dget "amplitude" ps = Some (PNum a) -> dget "frequency" ps = Some (PNum fr) -> dget "t0" ps = Some (PNum t0) -> redshifted rs ps z ->
  shines (PSed (plain_sed node setters rs (sin_sed node) [] [])) st (fun t _ => (1 + z) * (b + a * sin (2 * PI * fr * ((t - t0) / (1 + z))))).
Proof.
  intros node setters rs st ps z b a fr t0 HP HB HA HF H0 [Hz HR]. eapply shines_ext.
  - apply (bare_shines _ st ps z t0 (fun t _ => b + a * sin (2 * PI * fr * (t - t0)))); auto; try plain.
    + unfold in_force. simpl. destruct HR as [[A B]|[A B]]; auto.
    + intros ts ws kw _. simpl. unfold sin_sed, local_params. rewrite HP. cbn [bind]. unfold need. rewrite HF. cbn [bind]. rewrite H0. cbn [bind].
      rewrite HB. cbn [bind]. rewrite HA. cbn [bind]. f_equal. apply map_ext. intros t. apply repeat_map.
  - intros t w. cbn. do 4 f_equal. ring.
Qed.
(** ... hence it repeats after 1 / frequency (stretched by the redshift) and stays within brightness +- amplitude. *)
Theorem C51_sine_shape : forall b a fr t0 z t (k : Z), -1 < z -> fr <> 0 ->
  let F t := (1 + z) * (b + a * sin (2 * PI * fr * ((t - t0) / (1 + z)))) in
  F (t + IZR k * ((1 + z) / fr)) = F t /\ F t0 = (1 + z) * b /\ (1 + z) * (b - Rabs a) <= F t <= (1 + z) * (b + Rabs a).
Proof.
  intros b a fr t0 z t k Hz Hf F. unfold F. split; [|split].
  - do 3 f_equal. replace (2 * PI * fr * ((t + IZR k * ((1 + z) / fr) - t0) / (1 + z))) with (2 * PI * fr * ((t - t0) / (1 + z)) + 2 * IZR k * PI) by (field; lra).
    set (x := 2 * PI * fr * ((t - t0) / (1 + z))). destruct k as [|q|q].
    + f_equal. ring.
    + rewrite <- (sin_period x (Pos.to_nat q)). f_equal. rewrite INR_IZR_INZ, positive_nat_Z. reflexivity.
    + rewrite <- (sin_period (x + 2 * IZR (Z.neg q) * PI) (Pos.to_nat q)). f_equal. rewrite INR_IZR_INZ, positive_nat_Z.
      change (Z.neg q) with (- Z.pos q)%Z. rewrite opp_IZR. ring.
  - replace (2 * PI * fr * ((t0 - t0) / (1 + z))) with 0 by (field; lra). rewrite sin_0. ring.
  - pose proof (SIN_bound (2 * PI * fr * ((t - t0) / (1 + z)))) as B. set (s := sin _) in *.
    assert (- Rabs a <= a * s <= Rabs a) by (unfold Rabs; destruct (Rcase_abs a); nra). nra.
Qed.
(** LinearWavelengthModel: linear in the rest-frame wavelength between its bounds, extended outside as C43 says; the
    same at all times. *)
Theorem C51_linear : forall node setters rs lo hi x (st : gst) (ps : params) z b sc t0, dget node st = Some ps -> dget "linear_base" ps = Some (PNum b) ->
  dget "linear_scale" ps = Some (PNum sc) -> redshifted rs ps z -> (z <> 0 -> dget "t0" ps = Some (PNum t0)) ->
  (forall e, x = Some e -> extrap_made e) -> (forall l h, lo = Some l -> hi = Some h -> l <= h) ->
  exists F, shines (PSed (linear_model node setters rs lo hi x [] [])) st F /\
    forall t w, (forall l, lo = Some l -> (1 + z) * l <= w) -> (forall h, hi = Some h -> w <= (1 + z) * h) -> F t w = (1 + z) * b + sc * w.
Proof.
  intros node setters rs lo hi x st ps z b sc t0 HP HB HS [Hz HR] HT HX HO. eexists. split.
  - apply (bare_shines _ st ps z t0 (fun _ w => b + sc * w)); auto.
    + unfold in_force. simpl. destruct HR as [[A B]|[A B]]; auto. left. repeat split; auto. destruct (Req_dec z 0); auto.
    + intros ts ws kw _. simpl. unfold linear_sed, local_params. rewrite HP. cbn [bind]. unfold need. rewrite HB. cbn [bind]. rewrite HS. cbn [bind].
      f_equal. apply repeat_map.
  - intros t w HL HH. cbn beta. assert (D : w = (1 + z) * (w / (1 + z))) by (field; lra). set (q := w / (1 + z)) in *.
    assert (V : (1 + z) * b + sc * w = (1 + z) * (b + sc * q)) by (rewrite D; ring). rewrite V. f_equal. unfold extended, linear_model. cbn [sd_min sd_max sd_extrap].
    assert (A : forall l, lo = Some l -> Rltb q l = false) by (intros l E; specialize (HL l E); apply Rltb_false; nra).
    assert (B : forall h, hi = Some h -> Rltb h q = false) by (intros h E; specialize (HH h E); apply Rltb_false; nra).
    destruct lo as [l|]; destruct hi as [h|]; rewrite ?(A _ eq_refl), ?(B _ eq_refl); reflexivity.
Qed.

(** ** StaticSEDModel *)
(** A valid SED table: two rows, at least two wavelengths, strictly increasing. *)
Definition valid_sed (a : sedarr) : Prop := ar_rows a = 2%nat /\ (2 <= length (ar_data a))%nat /\ increasing (xs (ar_data a)).
Lemma check_sed_spec : forall a, (valid_sed a -> check_sed a = Ok (ar_data a)) /\ (~ valid_sed a -> check_sed a = Err ValueError).
Proof.
  intros a. unfold check_sed, valid_sed. destruct (ar_rows a =? 2)%nat eqn:E1; cbn [negb].
  2:{ apply Nat.eqb_neq in E1. split; [tauto|auto]. }
  apply Nat.eqb_eq in E1. destruct (length (ar_data a) <? 2)%nat eqn:E2.
  { apply Nat.ltb_lt in E2. split; [lia|auto]. }
  apply Nat.ltb_ge in E2. destruct (forallb (fun d => Rltb 0 d) (diffs (xs (ar_data a)))) eqn:E3; cbn [negb].
  - apply positive_diffs in E3. tauto.
  - split; auto. intros (_ & _ & X). apply positive_diffs in X. congruence.
Qed.
Lemma make_static_spec : forall l, (Forall valid_sed l -> make_static l = Ok (map ar_data l)) /\ (~ Forall valid_sed l -> make_static l = Err ValueError).
Proof.
  assert (G : forall (l : list sedarr) (acc : list curve), (Forall valid_sed l -> fold_res (fun (acc : list curve) a => bind (check_sed a) (fun c => Ok (acc ++ [c])%list)) acc l = Ok (acc ++ map ar_data l)%list) /\
    (~ Forall valid_sed l -> fold_res (fun (acc : list curve) a => bind (check_sed a) (fun c => Ok (acc ++ [c])%list)) acc l = Err ValueError)).
  { induction l as [|a l IH]; intros acc.
    - split; [intros _; simpl; now rewrite app_nil_r|]. intros H. destruct H. constructor.
    - cbn [fold_res map]. destruct (check_sed_spec a) as [C1 C2]. split.
      + intros H. inversion H; subst. rewrite C1 by auto. cbn [bind]. rewrite (proj1 (IH _)) by auto. now rewrite <- app_assoc.
      + intros H. assert (D : valid_sed a \/ ~ valid_sed a).
        { destruct (check_sed a) as [c|e] eqn:E; [left|right].
          - unfold check_sed in E. destruct (ar_rows a =? 2)%nat eqn:E1; [|discriminate]. destruct (length (ar_data a) <? 2)%nat eqn:E2; [discriminate|].
            cbn [negb] in E. destruct (forallb (fun d => Rltb 0 d) (diffs (xs (ar_data a)))) eqn:E3; [|discriminate]. unfold valid_sed. repeat apply conj.
            + now apply Nat.eqb_eq. + now apply Nat.ltb_ge in E2. + now apply positive_diffs.
          - intros V. specialize (C1 V). discriminate. }
        destruct D as [D|D].
        * rewrite C1 by auto. cbn [bind]. apply IH. intros X. apply H. constructor; auto.
        * rewrite C2 by auto. reflexivity. }
  intros l. unfold make_static. apply G.
Qed.
(** The tables a user passes: one two-row array, or a list (or array) of them. *)
Definition passed (i : static_in) : list sedarr := match i with SMat a => [a] | SList l => l | SCube l => l end.
(** Accepted exactly when there is at least one table and all are valid - except that an array of exactly two SEDs is
    always refused (below); everything refused is refused with a ValueError. *)
Theorem C51_static_input : forall i, (forall l, i = SCube l -> length l <> 2%nat) ->
  (passed i <> [] /\ Forall valid_sed (passed i) -> make_static_model i = Ok (map ar_data (passed i))) /\
  (~ (passed i <> [] /\ Forall valid_sed (passed i)) -> make_static_model i = Err ValueError).
Proof.
  intros i HC. unfold make_static_model. 
  assert (G : forall l, (l <> [] /\ Forall valid_sed l -> bind (make_static l) (fun seds => match seds with [] => Err ValueError | _ => Ok seds end) = Ok (map ar_data l)) /\
    (~ (l <> [] /\ Forall valid_sed l) -> bind (make_static l) (fun seds => match seds with [] => Err ValueError | _ => Ok seds end) = Err ValueError)).
  { intros l. destruct (make_static_spec l) as [A B]. split.
    - intros [H1 H2]. rewrite A by auto. cbn [bind]. destruct l; [congruence|reflexivity].
    - intros H. destruct l as [|a l]; [reflexivity|]. rewrite B; [reflexivity|]. intros X. apply H. split; [discriminate|auto]. }
  destruct i as [a|l|l]; cbn [passed] in *.
  - destruct (ar_rows a =? 2)%nat eqn:E; [apply G|]. apply Nat.eqb_neq in E. split; [|reflexivity]. intros [_ H]. inversion H as [|? ? [V _]]. congruence.
  - apply G.
  - specialize (HC l eq_refl). apply Nat.eqb_neq in HC. rewrite HC. apply G.
Qed.
(** The documented input "a list of SEDs" given as one 2 x 2 x N array of two valid SEDs is refused: the array has
    length 2 and is taken for a single SED. *)
Theorem C51_static_two_refuted : exists l, Forall valid_sed l /\ length l = 2%nat /\
  make_static_model (SList l) = Ok (map ar_data l) /\ make_static_model (SCube l) = Err ValueError.
Proof.
  set (a := mkArr 2 [(100, 1); (200, 3)]). assert (V : valid_sed a) by (unfold valid_sed, a; simpl; split; [auto|split; [lia|lra]]).
  exists [a; a]. assert (VV : Forall valid_sed [a; a]) by auto. split; [auto|]. split; [reflexivity|]. split; [|reflexivity].
  apply (C51_static_input (SList [a; a])); [intros; discriminate|]. split; [discriminate|auto].
Qed.
Lemma index_of_INR : forall n k, (k < n)%nat -> index_of (INR k) n = Some k.
Proof.
  induction n as [|n IH]; intros k H; [lia|]. cbn [index_of]. destruct (Reqb (INR k) (INR n)) eqn:E.
  - apply Reqb_true, INR_eq in E. now subst.
  - apply IH. destruct (Nat.eq_dec k n); [subst|lia]. apply Reqb_false in E. congruence.
Qed.
Lemma selected_ok : forall A node (st : gst) (ps : params) (l : list A) k a, dget node st = Some ps -> dget "selected_idx" ps = Some (PNum (INR k)) ->
  nth_error l k = Some a -> selected node st l = Ok a.
Proof.
  intros A node st ps l k a HP HK HN. unfold selected, get_param, pick. rewrite HP, HK, index_of_INR by (apply nth_error_Some; congruence). now rewrite HN.
Qed.
(** The evaluated flux of the selected SED: the same at all times; at a tabulated wavelength (seen redshifted) the tabulated
    flux, on the straight line between neighbouring wavelengths, and beyond the table 0 or the extrapolation from its edge. *)
Theorem C51_static : forall node setters rs i seds x (st : gst) (ps : params) z t0 k c, make_static_model i = Ok seds ->
  dget node st = Some ps -> dget "selected_idx" ps = Some (PNum (INR k)) -> nth_error seds k = Some c ->
  redshifted rs ps z -> (z <> 0 -> dget "t0" ps = Some (PNum t0)) -> (forall e, x = Some e -> extrap_made e) ->
  exists G : R -> R, shines (PSed (static_model node setters rs seds x [] [])) st (fun _ w => G w) /\
    (forall w f, In (w, f) c -> G ((1 + z) * w) = (1 + z) * f) /\
    (forall j w1 f1 w2 f2 w, nth_error c j = Some (w1, f1) -> nth_error c (S j) = Some (w2, f2) -> w1 <= w <= w2 ->
       G ((1 + z) * w) = (1 + z) * (f1 + (f2 - f1) * ((w - w1) / (w2 - w1)))) /\
    (forall w1 f1 wn fn w, hd_error c = Some (w1, f1) -> last c (0, 0) = (wn, fn) ->
       (w < w1 -> G ((1 + z) * w) = (1 + z) * match x with None => 0 | Some e => extrap_value e w1 f1 w end) /\
       (wn < w -> G ((1 + z) * w) = (1 + z) * match x with None => 0 | Some e => extrap_value e wn fn w end)).
Proof.
  intros node setters rs i seds x st ps z t0 k c HM HP HK HN [Hz HR] HT HX.
  assert (VC : (2 <= length c)%nat /\ increasing (xs c)).
  { assert (E : (forall l, i = SCube l -> length l <> 2%nat)).
    { intros l -> E. unfold make_static_model in HM. rewrite E in HM. discriminate. }
    destruct (C51_static_input i E) as [A B].
    assert (D : passed i <> [] /\ Forall valid_sed (passed i)).
    { destruct (Classical_Prop.classic (passed i <> [] /\ Forall valid_sed (passed i))) as [D|D]; auto. rewrite (B D) in HM. discriminate. }
    rewrite (A D) in HM. inversion HM; subst seds. rewrite nth_error_map in HN. destruct (nth_error (passed i) k) as [a|] eqn:EA; [|discriminate].
    inversion HN; subst c. destruct D as [_ D]. rewrite Forall_forall in D. destruct (D a (nth_error_In _ _ EA)) as (_ & V1 & V2). auto. }
  destruct VC as [V1 V2]. assert (NE : c <> []) by (intros ->; simpl in V1; lia).
  assert (SEL : selected node st seds = Ok c) by (apply (selected_ok _ node st ps seds k); auto).
  assert (FL : first_x c <= last_x c).
  { destruct c as [|p c']; [congruence|]. unfold first_x. apply (last_x_max c' p p V2). left; auto. }
  set (s := static_model node setters rs seds x [] []).
  assert (MN : sd_min s st = Some (first_x c)) by (simpl; unfold static_min; now rewrite SEL).
  assert (MX : sd_max s st = Some (last_x c)) by (simpl; unfold static_max; now rewrite SEL).
  exists (fun w => (1 + z) * extended s st (fun _ => interp c 0 0) 0 (w / (1 + z))). split.
  { eapply shines_ext.
    - apply (bare_shines s st ps z t0 (fun _ => interp c 0 0)); auto.
      + unfold in_force. simpl. destruct HR as [[A B]|[A B]]; auto. left. repeat split; auto. destruct (Req_dec z 0); auto.
      + intros ts ws kw [-> | ->]; simpl; unfold static_sed; rewrite SEL; cbn [bind]; f_equal; apply repeat_map.
      + intros lo hi E1 E2. rewrite MN in E1. rewrite MX in E2. inversion E1; inversion E2; subst. auto.
    - intros t w. unfold extended. rewrite MN, MX. reflexivity. }
  assert (D : forall w, (1 + z) * w / (1 + z) = w) by (intros; field; lra).
  assert (INS : forall w, first_x c <= w <= last_x c -> extended s st (fun _ => interp c 0 0) 0 w = interp c 0 0 w).
  { intros w H. unfold extended. rewrite MN, MX, (proj2 (Rltb_false w (first_x c))), (proj2 (Rltb_false (last_x c) w)) by lra. reflexivity. }
  assert (RANGE : forall w f, In (w, f) c -> first_x c <= w <= last_x c).
  { intros w f HI. destruct c as [|p c']; [congruence|]. split.
    - unfold first_x. simpl. destruct HI as [->|HI]; [simpl; lra|]. simpl in V2. apply Rlt_le. apply (increasing_head _ (xs c')); auto.
      apply (in_map fst) in HI. exact HI.
    - apply (last_x_max c' p (w, f) V2 HI). }
  assert (EF : first_y c = interp c 0 0 (first_x c) /\ last_y c = interp c 0 0 (last_x c)).
  { destruct c as [|p c']; [congruence|]. unfold first_y, first_x, last_y, last_x. split; symmetry; [apply interp_knot; simpl; auto|].
    destruct (last_x_In p c') as (q & Q1 & Q2). rewrite Q1. apply interp_knot; auto. }
  destruct EF as [EF EL].
  split; [|split].
  - intros w f HI. rewrite D, INS by eauto. f_equal. apply (interp_knot c 0 0 (w, f)); auto.
  - intros j w1 f1 w2 f2 w N1 N2 H. pose proof (RANGE _ _ (nth_error_In _ _ N1)). pose proof (RANGE _ _ (nth_error_In _ _ N2)).
    rewrite D, INS by lra. f_equal. rewrite (interp_line c 0 0 j _ _ w V2 N1 N2 H). unfold lerp; simpl.
    assert (w1 < w2). { apply (increasing_nth (xs c) j (S j)); auto; unfold xs; rewrite nth_error_map; [now rewrite N1|now rewrite N2]. }
    field. lra.
  - intros w1 f1 wn fn w H1 H2.
    assert (X1 : first_x c = w1 /\ first_y c = f1) by (destruct c; [congruence|]; simpl in H1; inversion H1; subst; auto).
    assert (X2 : last_x c = wn /\ last_y c = fn) by (unfold last_x, last_y; rewrite H2; auto).
    destruct X1 as [X1 Y1]. destruct X2 as [X2 Y2].
    split; intros H; rewrite D; f_equal; unfold extended; rewrite MN, MX.
    + rewrite (proj2 (Rltb_true w (first_x c))) by lra. simpl. destruct x; auto. now rewrite <- EF, X1, Y1.
    + rewrite (proj2 (Rltb_false w (first_x c))) by lra. rewrite (proj2 (Rltb_true (last_x c) w)) by lra. simpl. destruct x; auto. now rewrite <- EL, X2, Y2.
Qed.

(** ** StaticBandfluxModel *)
(** Every observation gets the stored value of its filter (then the effects); a filter that is not stored is a KeyError. *)
Theorem C51_static_bands : forall node setters maps (st : gst) (ps : params) k m ts fs, dget node st = Some ps ->
  dget "selected_idx" ps = Some (PNum (INR k)) -> nth_error maps k = Some m -> length fs = length ts ->
  (forall f, In f fs -> dget f m <> None) ->
  exists b, evaluate_bandfluxes (PBand (mkBand node setters (static_bands node maps) [])) PNoGroup ts (Some fs) [st] = Ok (BOne b) /\
    length b = length ts /\ forall j f, nth_error fs j = Some f -> nth_error b j = dget f m.
Proof.
  intros node setters maps st ps k m ts fs HP HK HN HL HF.
  set (v := fun f => match dget f m with Some x => x | None => 0 end).
  assert (LOOP : forall L (h : R * string -> R), (forall f, In f L -> In f fs) ->
    fold_res (fun out f => match dget f m with None => Err KeyError | Some v => let mask := map (fun x => String.eqb x f) fs in
                Ok (put mask (map (fun _ => v) (mask_list mask ts)) out) end) (map h (combine ts fs)) L =
    Ok (map (fun tf => if smem (snd tf) L then v (snd tf) else h tf) (combine ts fs))).
  { induction L as [|f L IH]; intros h HI; [reflexivity|]. cbn [fold_res]. assert (D : dget f m <> None) by (apply HF, HI; left; auto).
    destruct (dget f m) as [x|] eqn:E; [|congruence]. cbv zeta. rewrite (put_by_filter f (fun _ => x)) by auto.
    rewrite IH by (intros; apply HI; right; auto). f_equal. apply map_ext. intros [t g]. cbn [fst snd].
    unfold smem. cbn [existsb]. destruct (String.eqb_spec g f) as [-> |N]; cbn [orb].
    - destruct (existsb (String.eqb f) L); auto. unfold v. now rewrite E.
    - destruct (String.eqb_spec f g); [congruence|]. reflexivity. }
  exists (map (fun tf => v (snd tf)) (combine ts fs)). split; [|split].
  - unfold evaluate_bandfluxes. cbn [bind snd fst]. rewrite HL, Nat.eqb_refl. cbn [negb band_eval]. unfold band_single, local_params. cbn [bm_node bm_compute bm_effects].
    rewrite HP. cbn [bind]. unfold static_bands. rewrite (selected_ok _ node st ps maps k m) by auto. cbn [bind].
    assert (R0 : repeat 0 (length ts) = map (fun _ : R * string => 0) (combine ts fs)).
    { rewrite <- repeat_map. f_equal. rewrite combine_length. lia. }
    rewrite R0, LOOP by (intros f; apply unique_names_In). cbn [bind]. unfold apply_bands. simpl. do 2 f_equal.
    apply map_ext_in. intros [t f] HI. cbn [fst snd]. assert (S : smem f (unique_names fs) = true).
    { apply smem_In, unique_names_In. now apply in_combine_r in HI. }
    now rewrite S.
  - rewrite map_length, combine_length. lia.
  - intros j f Hj. rewrite nth_error_map. assert (E : exists t, nth_error (combine ts fs) j = Some (t, f)).
    { clear - HL Hj. revert fs j HL Hj. induction ts as [|t ts IH]; intros [|g fs] [|j] HL Hj; simpl in *; try discriminate.
      - inversion Hj; eauto. - apply (IH fs j); auto. }
    destruct E as [t E]. rewrite E. cbn [option_map snd]. unfold v. apply nth_error_In in Hj. specialize (HF f Hj). destruct (dget f m); congruence.
Qed.
Theorem C51_static_bands_missing : forall node setters maps (st : gst) (ps : params) k m ts fs f, dget node st = Some ps ->
  dget "selected_idx" ps = Some (PNum (INR k)) -> nth_error maps k = Some m -> length fs = length ts ->
  In f fs -> dget f m = None ->
  evaluate_bandfluxes (PBand (mkBand node setters (static_bands node maps) [])) PNoGroup ts (Some fs) [st] = Err KeyError.
Proof.
  intros node setters maps st ps k m ts fs f HP HK HN HL HI HF.
  unfold evaluate_bandfluxes. cbn [bind snd fst]. rewrite HL, Nat.eqb_refl. cbn [negb band_eval]. unfold band_single, local_params. cbn [bm_node bm_compute bm_effects].
  rewrite HP. cbn [bind]. unfold static_bands. rewrite (selected_ok _ node st ps maps k m) by auto. cbn [bind].
  assert (G : forall L out, In f L -> fold_res (fun out f => match dget f m with None => Err KeyError | Some v => let mask := map (fun x => String.eqb x f) fs in
                Ok (put mask (map (fun _ => v) (mask_list mask ts)) out) end) out L = Err KeyError).
  { induction L as [|g L IH]; intros out H; [destruct H|]. cbn [fold_res]. destruct H as [-> |H]; [now rewrite HF|].
    destruct (dget g m); auto. }
  rewrite G; [reflexivity|]. now apply unique_names_In.
Qed.
(** Cases. *)
Example C51_step_case : let st : gst := [("m"%string, [("brightness"%string, PNum 5); ("t0"%string, PNum 10); ("t1"%string, PNum 20); ("redshift"%string, PNum 1)])] in
  exists F, shines (PSed (plain_sed "m" [] true (step_sed "m") [] [])) st F /\ F 30 5000 = 10 /\ F 31 5000 = 0 /\ F 9 5000 = 0.
Proof.
  cbv zeta. destruct (C51_step "m" [] true [("m"%string, [("brightness"%string, PNum 5); ("t0"%string, PNum 10); ("t1"%string, PNum 20); ("redshift"%string, PNum 1)])]
    _ 1 5 10 20 eq_refl eq_refl eq_refl eq_refl) as (F & H1 & H2).
  - split; [lra|]. left. auto.
  - exists F. split; auto. split; [|split].
    + rewrite (proj1 (H2 30 5000)) by lra. lra.
    + apply H2. right. lra.
    + apply H2. left. lra.
Qed.
Example C51_static_case : let c := [(100, 1); (200, 3)] in
  let st : gst := [("m"%string, [("selected_idx"%string, PNum (INR 0)); ("redshift"%string, PNum 1); ("t0"%string, PNum 0)])] in
  make_static_model (SMat (mkArr 2 c)) = Ok [c] /\
  exists G, shines (PSed (static_model "m" [] true [c] None [] [])) st (fun _ w => G w) /\ G 200 = 2 /\ G 300 = 4 /\ G 100 = 0.
Proof.
  cbv zeta. assert (M : make_static_model (SMat (mkArr 2 [(100, 1); (200, 3)])) = Ok [[(100, 1); (200, 3)]]).
  { apply (C51_static_input (SMat (mkArr 2 [(100, 1); (200, 3)]))); [intros; discriminate|]. split; [discriminate|]. constructor; auto.
    unfold valid_sed; simpl; split; [auto|split; [lia|lra]]. }
  split; [exact M|].
  destruct (C51_static "m" [] true _ _ None [("m"%string, [("selected_idx"%string, PNum (INR 0)); ("redshift"%string, PNum 1); ("t0"%string, PNum 0)])] _ 1 0 0
    [(100, 1); (200, 3)] M eq_refl eq_refl eq_refl) as (G & H1 & H2 & H3 & H4).
  - split; [lra|]. left; auto.
  - reflexivity.
  - intros; discriminate.
  - exists G. split; auto. split; [|split].
    + replace 200 with ((1 + 1) * 100) by lra. rewrite (H2 100 1); [lra|left; auto].
    + replace 300 with ((1 + 1) * 150) by lra. rewrite (H3 0%nat 100 1 200 3); auto; lra.
    + replace 100 with ((1 + 1) * 50) by lra. destruct (H4 100 1 200 3 50 eq_refl eq_refl) as [A _]. rewrite A; lra.
Qed.
