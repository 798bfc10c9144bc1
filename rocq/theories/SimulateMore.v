(** Errors, object-level columns, name clashes and a worked run of [simulate_lightcurves] (C38, C39);
    noise-free light curves (C67). *)
From Coq Require Import Reals String Ascii List Bool Arith ZArith Lia Lra.
From Verif Require Import Base BaseFacts RealBase ObsTableModel ObsTableProps SimulateModel SimulateProps SimulateDefined.
Import ListNotations.
Open Scope R_scope.

Section More.
Context {St PV : Type}.
Variable ball : list vec3 -> vec3 -> R -> list nat.
Notation physical := (@physical St).
Notation samples := (@samples St PV).

Theorem C38_bad_request : forall (m : physical) draws num (sm : samples) surveys npass save params um off,
  (num <= 0)%Z \/ length surveys <> npass \/ ((1 < length surveys)%nat /\ ph_bandflux m = true) ->
  simulate ball m draws num sm surveys npass save params um off = Err ValueError.
Proof.
  intros m draws num sm surveys npass save params um off H. unfold simulate.
  destruct (num <=? 0)%Z eqn:EZ; auto. apply Z.leb_gt in EZ.
  destruct (length surveys =? npass)%nat eqn:EL; auto. apply Nat.eqb_eq in EL. cbn [negb].
  destruct H as [H|[H|[H1 H2]]]; [lia|tauto|]. apply Nat.ltb_lt in H1. now rewrite H1, H2.
Qed.
(** A parameter column that the model does not have. *)
Theorem C38_missing_param : forall (m : physical) draws num (sm : samples) surveys npass save params um off c,
  In c params -> sm_param sm c = None -> (0 < num)%Z -> length surveys = npass -> (ph_bandflux m = true -> length surveys = 1%nat) ->
  simulate ball m draws num sm surveys npass save params um off = Err KeyError.
Proof.
  intros m draws num sm surveys npass save params um off c HI HC HN HL HB. unfold simulate.
  assert (EZ : (num <=? 0)%Z = false) by (apply Z.leb_gt; lia). rewrite EZ, HL, Nat.eqb_refl. cbn [negb].
  assert (EB : (1 <? npass)%nat && ph_bandflux m = false).
  { destruct (ph_bandflux m); [|apply andb_false_r]. rewrite <- HL, HB; auto. }
  rewrite EB. cbv zeta.
  assert (G : forall ps d, In c ps -> add_params sm ps d = Err KeyError).
  { induction ps as [|x ps IH]; intros d H; [destruct H|]. unfold add_params in *. cbn [fold_res]. destruct H as [->|H]; [now rewrite HC|].
    destruct (sm_param sm x); auto. }
  now rewrite G.
Qed.

Lemma add_params_get : forall (sm : samples) params d d' k, add_params sm params d = Ok d' ->
  (forall c, In c params -> undot c <> k) -> dget k d' = dget k d.
Proof.
  intros sm. induction params as [|c ps IH]; intros d d' k H HN; unfold add_params in *; cbn [fold_res] in H; [now injection H as <-|].
  destruct (sm_param sm c); [|discriminate]. rewrite (IH _ _ k H); [|intros x Hx; apply HN; simpl; auto].
  apply dget_dset_other. intros E. apply (HN c); simpl; auto.
Qed.
Lemma add_params_new : forall (sm : samples) params d d' c v, add_params sm params d = Ok d' -> In c params -> sm_param sm c = Some v ->
  (forall c', In c' params -> undot c' = undot c -> c' = c) -> dget (undot c) d' = Some (map OVal v).
Proof.
  intros sm. induction params as [|x ps IH]; intros d d' c v H HI HV HJ; [destruct HI|]. unfold add_params in *; cbn [fold_res] in H.
  destruct (sm_param sm x) as [w|] eqn:EX; [|discriminate].
  destruct (in_dec string_dec c ps) as [I|I].
  - eapply (IH _ _ c v H); auto. intros c' Hc'. apply HJ. simpl; auto.
  - destruct HI as [->|HI]; [|tauto]. rewrite (add_params_get sm ps _ _ _ H).
    + assert (w = v) as -> by congruence. apply dget_dset_same.
    + intros c' Hc' E. apply I. rewrite <- (HJ c'); simpl; auto.
Qed.
Lemma simulate_cols : forall (m : physical) draws num (sm : samples) surveys npass save params um off r,
  simulate ball m draws num sm surveys npass save params um off = Ok r ->
  exists res0, add_params sm params (object_dict (Z.to_nat num) sm) = Ok res0 /\ forall k, k <> "nobs"%string -> dget k (sr_cols r) = dget k res0.
Proof.
  intros m draws num sm surveys npass save params um off r H. unfold simulate in H.
  destruct (num <=? 0)%Z; [discriminate|]. destruct (negb (length surveys =? npass)%nat); [discriminate|].
  destruct ((1 <? length surveys)%nat && ph_bandflux m); [discriminate|]. cbv zeta in H.
  destruct (add_params sm params (object_dict (Z.to_nat num) sm)) as [res0|] eqn:EP; [|discriminate]. cbn [bind] in H.
  destruct (get_time_windows (sm_t0 sm) off) as [[lo hi]|]; [|discriminate]. cbn [bind fst snd] in H.
  destruct (all_matches ball surveys sm lo hi) as [mat|]; [|discriminate]. cbn [bind] in H.
  match type of H with bind ?X _ = _ => destruct X as [[a res]|] eqn:EO end; [|discriminate]. cbn [bind] in H.
  destruct (all_len (Z.to_nat num) res && all_len (length (ac_index a)) (ac_nested a)); [|discriminate]. injection H as <-. cbn [sr_cols].
  exists res0. split; auto. intros k HK. revert EO. unfold all_objects. generalize (combine (seq 0 (length (sm_states sm))) (sm_states sm)) as l.
  generalize (mkAcc (nested_init save) [] 0) as a0. intros a0 l. revert a0. clear EP. revert res0.
  induction l as [|[i st] l IH]; intros res0 a0 EO; cbn [fold_res] in EO; [injection EO as _ <-; auto|].
  destruct (one_object ball m draws um save surveys mat sm i st a0) as [[b t]|]; [|discriminate]. cbn [bind] in EO.
  destruct (dget "nobs" res0) as [l1|]; [|discriminate]. destruct (i <? length l1)%nat; [|discriminate].
  rewrite (IH _ _ EO). now apply dget_dset_other.
Qed.
(** The object-level columns: ids in order, the positions, and each requested parameter under its name with the dot
    replaced, provided no other requested parameter has the same replaced name. *)
Theorem C38_object_columns : forall (m : physical) draws num (sm : samples) surveys npass save params um off r,
  simulate ball m draws num sm surveys npass save params um off = Ok r ->
  ((forall c, In c params -> undot c <> "id"%string) -> dget "id" (sr_cols r) = Some (map ONat (seq 0 (Z.to_nat num)))) /\
  ((forall c, In c params -> undot c <> "ra"%string) -> dget "ra" (sr_cols r) = Some (map ONum (sm_ra sm))) /\
  ((forall c, In c params -> undot c <> "dec"%string) -> dget "dec" (sr_cols r) = Some (map ONum (sm_dec sm))) /\
  ((forall c, In c params -> undot c <> "t0"%string) -> dget "t0" (sr_cols r) = Some (map OVal (sm_t0col sm))) /\
  ((forall c, In c params -> undot c <> "z"%string) -> dget "z" (sr_cols r) = Some (map OVal (sm_z sm))) /\
  ((forall c, In c params -> undot c <> "params"%string) -> dget "params" (sr_cols r) = Some (map OVal (sm_params sm))) /\
  (forall c v, In c params -> sm_param sm c = Some v -> undot c <> "nobs"%string ->
     (forall c', In c' params -> undot c' = undot c -> c' = c) -> dget (undot c) (sr_cols r) = Some (map OVal v)).
Proof.
  intros m draws num sm surveys npass save params um off r H. destruct (simulate_cols _ _ _ _ _ _ _ _ _ _ _ H) as (res0 & EP & EK).
  repeat split; try (intros HN; rewrite EK by discriminate; rewrite (add_params_get _ _ _ _ _ EP HN); reflexivity).
  intros c v HI HV HNO HJ. rewrite EK by auto. eapply add_params_new; eauto.
Qed.
(** Two different parameters may have the same replaced name; the later one then replaces the earlier one. *)
Theorem C38_param_clash_refuted : exists c1 c2, c1 <> c2 /\ length (split_dot c1) = 2%nat /\ length (split_dot c2) = 2%nat /\
  forall (m : physical) draws num (sm : samples) surveys npass save um off r v2, sm_param sm c2 = Some v2 ->
    simulate ball m draws num sm surveys npass save [c1; c2] um off = Ok r ->
    undot c1 = undot c2 /\ dget (undot c1) (sr_cols r) = Some (map OVal v2).
Proof.
  exists "a.b_c"%string, "a_b.c"%string. split; [discriminate|]. split; [reflexivity|]. split; [reflexivity|].
  intros m draws num sm surveys npass save um off r v2 HV H. split; [reflexivity|].
  destruct (simulate_cols _ _ _ _ _ _ _ _ _ _ _ H) as (res0 & EP & EK). rewrite EK by discriminate.
  unfold add_params in EP. cbn [fold_res] in EP. destruct (sm_param sm "a.b_c"); [|discriminate]. rewrite HV in EP. injection EP as <-.
  reflexivity.
Qed.
End More.

(** ** A worked run and two surprising failures *)
Definition sky_frame : frame := mkFrame [0%nat]
  [("ra", [CNum 0]); ("dec", [CNum 0]); ("time", [CNum 5]); ("filter", [CStr "g"]); ("seeing", [CNum 2])]%string.
Definition sky : obstable :=
  mkObs sky_frame [] (merge_values [] [("radius", SNum 1)]%string) ["g"%string] [cart 0 0] None.
Lemma sky_tbl : tbl sky.
Proof.
  apply (tbl_make sky_frame None [] [("radius", SNum 1)]%string None).
  - split; [|repeat constructor]. unfold columns, sky_frame. simpl. repeat constructor; simpl; intuition discriminate.
  - discriminate.
  - reflexivity.
Qed.
(** A source of brightness 3, with error one tenth of the flux. *)
Definition lamp : @physical unit :=
  mkPhys false (fun ts _ => map (fun _ => true) ts)
    (fun _ ts fs _ => Ok (zip_with (fun _ _ => 3) ts fs))
    (fun _ fl idx => Ok (zip_with (fun f _ => f / 10) fl idx)).
Lemma lamp_pointwise : pointwise lamp (fun _ _ _ _ => 3) (fun _ f _ => f / 10) (fun _ _ => true).
Proof. constructor; simpl; intros; congruence. Qed.
Lemma lamp_total : forall surveys sts, total_model lamp surveys sts.
Proof. intros surveys sts s o st idx _ _ _. cbn [ph_eval ph_error lamp]. eauto. Qed.
Definition lamp_at (ra : R) : @samples unit unit :=
  mkSamples [tt] [ra] [0] (T0Scalar 4) [tt] [tt] [tt] (fun _ => None).
Lemma sky_ball : forall ball ra, ball_spec ball ->
  ball (ob_tree sky) (cart ra 0) (2 * sin (1 / 2 * radians 1)) = if Rleb (separation 0 0 ra 0) 1 then [0%nat] else [].
Proof.
  intros ball ra HB. destruct (HB (ob_tree sky) (cart ra 0) (2 * sin (1 / 2 * radians 1))) as [ND HI].
  set (b := ball _ _ _) in *.
  assert (A : forall j, In j b <-> j = 0%nat /\ separation 0 0 ra 0 <= 1).
  { intros j. rewrite HI. split.
    - intros (p & E & D). destruct j as [|[|j]]; try discriminate. split; auto. injection E as <-. apply C34_chord_is_angle; auto. lra.
    - intros [-> D]. exists (cart 0 0). split; auto. apply C34_chord_is_angle; auto. lra. }
  destruct (Rleb (separation 0 0 ra 0) 1) eqn:E.
  - apply Rleb_true in E. assert (I0 : In 0%nat b) by (apply A; auto). destruct b as [|x b']; [destruct I0|].
    assert (x = 0%nat) as -> by (apply (A x); simpl; auto). destruct b' as [|y b']; auto. exfalso.
    assert (y = 0%nat) as -> by (apply (A y); simpl; auto). inversion ND as [|? ? N _]. apply N. simpl; auto.
  - apply Rleb_false in E. destruct b as [|x b']; auto. exfalso. destruct (proj1 (A x)) as [_ L]; [simpl; auto|lra].
Qed.
Lemma sep_same : separation 0 0 0 0 = 0.
Proof.
  unfold separation, cos_sep. replace (radians 0 - radians 0) with 0 by ring. unfold radians. replace (0 * PI / 180) with 0 by field.
  rewrite sin_0, cos_0. replace (0 * 0 + 1 * 1 * 1) with 1 by ring. rewrite acos_1. field. apply PI_neq0.
Qed.
Lemma sky_range' : forall ball ra, ball_spec ball ->
  range_search ball sky (QArray [ra]) (QArray [0]) None TNone TNone = Ok (Many [if Rleb (separation 0 0 ra 0) 1 then [0%nat] else []]).
Proof.
  intros ball ra HB. unfold range_search.
  replace (preset_radius sky) with (Ok 1 : result R) by reflexivity. cbn [bind qlist length combine negb Nat.eqb tlist repeat is_scalar andb map fst snd]. cbv zeta.
  cbn [Nat.eqb negb bind tlist repeat combine map fst snd]. unfold search_one. rewrite (sky_ball ball ra HB).
  destruct (Rleb (separation 0 0 ra 0) 1); reflexivity.
Qed.

(** The inputs of this run meet the hypotheses of C38_defined, C38_bookkeeping and C39_rows; its single observation is as expected. *)
Example C39_worked_run : forall ball draws, ball_spec ball ->
  run_ok 1 (lamp_at 0) [sky] /\
  exists r, simulate ball lamp draws 1 (lamp_at 0) [sky] 1 ["seeing"; "absent"]%string [] true None = Ok r /\
    sr_index r = [0%nat] /\ dget "mjd" (sr_nested r) = Some [NNum 5] /\ dget "flux" (sr_nested r) = Some [NNum (3 + 3 / 10 * draws 0%nat)] /\
    dget "seeing" (sr_nested r) = Some [NNum 2] /\ dget "absent" (sr_nested r) = Some [NNone].
Proof.
  intros ball draws HB. split.
  { constructor; auto. constructor; auto. apply tbl_inv, sky_tbl. intros o [<-|[]]. exists 1. split; auto. lra. }
  assert (EB : Rleb (separation 0 0 0 0) 1 = true) by (apply Rleb_true; rewrite sep_same; lra).
  eexists. split.
  - unfold simulate. cbn [Z.leb Z.compare length Nat.eqb negb Nat.ltb Nat.leb ph_bandflux lamp andb]. cbv zeta.
    cbn [add_params fold_res bind get_time_windows sm_t0 lamp_at fst snd all_matches targ_of sm_ra sm_dec].
    rewrite (sky_range' ball 0 HB), EB. cbn [bind app]. unfold all_objects. cbn [sm_states lamp_at length seq combine fold_res].
    unfold one_object. cbn [length seq combine fold_res nth_error sm_ra sm_dec lamp_at nth].
    replace (raw_empty ball sky 0 0) with false.
    2:{ unfold raw_empty. replace (preset_radius sky) with (Ok 1 : result R) by reflexivity. rewrite (sky_ball ball 0 HB), EB. reflexivity. }
    cbv -[Rplus Rmult Rdiv IZR]. reflexivity.
  - cbn. auto.
Qed.
(** Documented: [obstable_save_cols] saves any column of the table.  But if an object has no pointing nearby, saving an
    existing column raises IndexError (an empty list becomes a float array and is used as an index). *)
Theorem C39_save_without_match_refuted : forall ball draws, ball_spec ball ->
  run_ok 1 (lamp_at 90) [sky] /\
  (exists r, simulate ball lamp draws 1 (lamp_at 90) [sky] 1 [] [] false None = Ok r /\ sr_index r = []) /\
  simulate ball lamp draws 1 (lamp_at 90) [sky] 1 ["seeing"%string] [] false None = Err IndexError.
Proof.
  intros ball draws HB. split.
  { constructor; auto. constructor; auto. apply tbl_inv, sky_tbl. intros o [<-|[]]. exists 1. split; auto. lra. }
  assert (EB : Rleb (separation 0 0 90 0) 1 = false) by (apply Rleb_false; rewrite sep_0_90; lra).
  assert (RE : raw_empty ball sky 90 0 = true).
  { unfold raw_empty. replace (preset_radius sky) with (Ok 1 : result R) by reflexivity. rewrite (sky_ball ball 90 HB), EB. reflexivity. }
  split; [eexists; split|]; unfold simulate; cbn [Z.leb Z.compare length Nat.eqb negb Nat.ltb Nat.leb ph_bandflux lamp andb]; cbv zeta;
    cbn [add_params fold_res bind get_time_windows sm_t0 lamp_at fst snd all_matches targ_of sm_ra sm_dec];
    try (rewrite (sky_range' ball 90 HB), EB; cbn [bind app]; unfold all_objects; cbn [sm_states lamp_at length seq combine fold_res];
    unfold one_object; cbn [length seq combine fold_res nth_error sm_ra sm_dec lamp_at nth];
    rewrite RE; cbv -[Rplus Rmult Rdiv IZR]; reflexivity).
  reflexivity.
Qed.
(** Saving the table's "filter" column (a column of the table, and also a column of the result) doubles that column, and the
    result cannot be built. *)
Theorem C39_save_filter_refuted : forall ball draws, ball_spec ball ->
  run_ok 1 (lamp_at 0) [sky] /\ ob_contains sky "filter" = true /\
  simulate ball lamp draws 1 (lamp_at 0) [sky] 1 ["filter"%string] [] false None = Err ValueError.
Proof.
  intros ball draws HB. split.
  { constructor; auto. constructor; auto. apply tbl_inv, sky_tbl. intros o [<-|[]]. exists 1. split; auto. lra. }
  split; [reflexivity|].
  assert (EB : Rleb (separation 0 0 0 0) 1 = true) by (apply Rleb_true; rewrite sep_same; lra).
  unfold simulate. cbn [Z.leb Z.compare length Nat.eqb negb Nat.ltb Nat.leb ph_bandflux lamp andb]. cbv zeta.
  cbn [add_params fold_res bind get_time_windows sm_t0 lamp_at fst snd all_matches targ_of sm_ra sm_dec].
  rewrite (sky_range' ball 0 HB), EB. cbn [bind app]. unfold all_objects. cbn [sm_states lamp_at length seq combine fold_res].
  unfold one_object. cbn [length seq combine fold_res nth_error sm_ra sm_dec lamp_at nth].
  replace (raw_empty ball sky 0 0) with false.
  2:{ unfold raw_empty. replace (preset_radius sky) with (Ok 1 : result R) by reflexivity. rewrite (sky_ball ball 0 HB), EB. reflexivity. }
  cbv -[Rplus Rmult Rdiv IZR]. reflexivity.
Qed.

(** ** C67: noise-free light curves *)
(** [Int_part] is the floor. *)
Lemma ceil_spec : forall x k, (0 <= k)%nat -> (k < Z.to_nat (- Int_part (- x)))%nat <-> INR k < x.
Proof.
  intros x k _. pose proof (base_Int_part (- x)) as [B1 B2]. set (c := Int_part (- x)) in *. split.
  - intros H. assert (Hz : (Z.of_nat k + 1 <= - c)%Z) by lia.
    apply IZR_le in Hz. rewrite plus_IZR, opp_IZR, <- INR_IZR_INZ in Hz. lra.
  - intros H. assert (Hz : (Z.of_nat k < - c)%Z).
    { apply lt_IZR. rewrite opp_IZR, <- INR_IZR_INZ. lra. }
    lia.
Qed.
(** The phases: lo, lo+step, lo+2*step, ... as long as they are below hi; never hi itself. *)
Theorem C67_phases : forall lo hi step, 0 < step ->
  (forall k p, nth_error (arange lo hi step) k = Some p -> p = lo + INR k * step /\ p < hi) /\
  (forall k, lo + INR k * step < hi -> nth_error (arange lo hi step) k = Some (lo + INR k * step)) /\
  (forall p, In p (arange lo hi step) -> lo <= p < hi).
Proof.
  intros lo hi step HS.
  assert (LT : forall k, (k < arange_len lo hi step)%nat <-> lo + INR k * step < hi).
  { intros k. unfold arange_len. rewrite ceil_spec by lia. split; intros H.
    - apply Rmult_lt_compat_r with (r := step) in H; auto. unfold Rdiv in H. rewrite Rmult_assoc, Rinv_l in H by lra. lra.
    - apply Rmult_lt_reg_r with step; auto. unfold Rdiv. rewrite Rmult_assoc, Rinv_l by lra. lra. }
  assert (A : forall k p, nth_error (arange lo hi step) k = Some p -> p = lo + INR k * step /\ p < hi).
  { intros k p H. unfold arange in H. rewrite nth_error_map in H. destruct (nth_error (seq 0 (arange_len lo hi step)) k) as [x|] eqn:E; [|discriminate].
    assert (HK : (k < arange_len lo hi step)%nat). { apply nth_error_Some_lt in E || (assert (k < length (seq 0 (arange_len lo hi step)))%nat by (apply nth_error_Some; congruence); rewrite seq_length in *; auto). }
    rewrite (nth_error_nth' _ 0%nat) in E by now rewrite seq_length. rewrite seq_nth in E by auto. injection E as <-. injection H as <-.
    simpl. split; auto. now apply LT. }
  split; [exact A|]. split.
  - intros k H. apply LT in H. unfold arange. rewrite nth_error_map, (nth_error_nth' _ 0%nat) by now rewrite seq_length.
    rewrite seq_nth by auto. reflexivity.
  - intros p H. apply In_nth_error in H. destruct H as (k & H). apply A in H. destruct H as [-> H]. split; auto.
    pose proof (pos_INR k). assert (0 <= INR k * step) by (apply Rmult_le_pos; lra). lra.
Qed.
(** Observer times: the phases stretched by 1+z about t0. *)
Theorem C67_times : forall z t0 lo hi step,
  snd (noise_free_times z t0 lo hi step) =
  map (fun p => p * (1 + match z with Some z => Rmax 0 z | None => 0 end) + match t0 with Some t => t | None => 0 end)
      (fst (noise_free_times z t0 lo hi step)).
Proof.
  intros z t0 lo hi step. unfold noise_free_times. cbn [fst snd].
  assert (Z : match z with Some z => if Rltb 0 z then map (fun p => p * (1 + z)) (arange lo hi step) else arange lo hi step | None => arange lo hi step end
     = map (fun p => p * (1 + match z with Some z => Rmax 0 z | None => 0 end)) (arange lo hi step)).
  { destruct z as [z|].
    - destruct (Rltb 0 z) eqn:E.
      + apply Rltb_true in E. rewrite Rmax_right by lra. auto.
      + apply Rltb_false in E. rewrite Rmax_left by lra. rewrite <- (map_id (arange lo hi step)) at 1. apply map_ext. intros; lra.
    - rewrite <- (map_id (arange lo hi step)) at 1. apply map_ext. intros; lra. }
  rewrite Z. destruct t0 as [t|]; [rewrite map_map; auto|]. apply map_ext. intros; lra.
Qed.

Section NoiseFree.
Context {St : Type}.
Variables (eval : list R -> list string -> St -> result (list R)) (flux : St -> R -> string -> R).
(** The model, pointwise. *)
Hypothesis EV : forall ts fs st, length fs = length ts -> eval ts fs st = Ok (zip_with (flux st) ts fs).
Variable filters : list string.
Hypothesis FN : NoDup filters.
Hypothesis FT : ~ In "times"%string filters.
Hypothesis FR : ~ In "rest_phase"%string filters.
Lemma zip_repeat : forall A B C (f : A -> B -> C) l b, zip_with f l (repeat b (length l)) = map (fun x => f x b) l.
Proof. induction l; intros; simpl; auto. now rewrite IHl. Qed.
Theorem C67_single : forall st z t0 lo hi step, exists d,
  single_noise_free eval filters st z t0 lo hi step = Ok d /\
  dget "times" d = Some (snd (noise_free_times z t0 lo hi step)) /\
  dget "rest_phase" d = Some (fst (noise_free_times z t0 lo hi step)) /\
  forall f, In f filters -> dget f d = Some (map (fun t => flux st t f) (snd (noise_free_times z t0 lo hi step))).
Proof.
  intros st z t0 lo hi step. unfold single_noise_free. destruct (noise_free_times z t0 lo hi step) as [phase times]. cbn [fst snd].
  set (d0 := [("times", times); ("rest_phase", phase)]%string).
  assert (G : forall fs d, NoDup fs -> exists d', fold_res (fun d f => bind (eval times (repeat f (length times)) st) (fun b => Ok (dset f b d))) d fs = Ok d' /\
     (forall k, ~ In k fs -> dget k d' = dget k d) /\ forall f, In f fs -> dget f d' = Some (map (fun t => flux st t f) times)).
  { induction fs as [|f fs IH]; intros d ND; cbn [fold_res].
    - exists d. split; auto. split; auto. intros f [].
    - rewrite EV by now rewrite repeat_length. cbn [bind]. rewrite zip_repeat. inversion ND as [|? ? N1 N2]; subst.
      destruct (IH (dset f (map (fun x => flux st x f) times) d) N2) as (d' & E & K & F). exists d'. split; auto. split.
      + intros k HK. simpl in HK. rewrite K by tauto. apply dget_dset_other. intros ->. tauto.
      + intros g [<-|HG]; auto. rewrite K by auto. apply dget_dset_same. }
  destruct (G filters d0 FN) as (d & E & K & F). exists d. split; auto. split; [rewrite K; auto|]. split; [rewrite K; auto|]. auto.
Qed.

Definition nf_get (d : dict (list R)) (k : string) : list R := match dget k d with Some l => l | None => [] end.
Notation sample := (St * (option R * option R) * (R * R * R))%type.
Definition sample_times (x : sample) : list R := let '(st, (z, t0), (lo, hi, step)) := x in snd (noise_free_times z t0 lo hi step).
Definition sample_phase (x : sample) : list R := let '(st, (z, t0), (lo, hi, step)) := x in fst (noise_free_times z t0 lo hi step).
Definition sample_flux (f : string) (x : sample) : list R := map (fun t => flux (fst (fst x)) t f) (sample_times x).
(** The table over all samples: the curves one after the other, each row labelled with its sample. *)
Theorem C67_table : forall samples, exists d index, noise_free eval filters samples = Ok (d, index) /\
  dget "times" d = Some (flat_map sample_times samples) /\ dget "rest_phase" d = Some (flat_map sample_phase samples) /\
  (forall f, In f filters -> dget f d = Some (flat_map (sample_flux f) samples)) /\
  index = flat_map (fun ix => repeat (fst ix) (length (sample_times (snd ix)))) (combine (seq 0 (length samples)) samples).
Proof.
  intros samples. unfold noise_free. set (init := fold_left _ filters _).
  set (keys := ("times" :: "rest_phase" :: filters)%string).
  assert (KI : NoDup (dkeys init) /\ (forall k, In k (dkeys init) <-> In k keys) /\ forall k, nf_get init k = []).
  { unfold init, keys.
    assert (G : forall fs (d : dict (list R)) (P : string -> Prop), NoDup (dkeys d) -> (forall k, In k (dkeys d) <-> P k) -> (forall k, nf_get d k = []) ->
      let d' := fold_left (fun d c => dset c ([] : list R) d) fs d in NoDup (dkeys d') /\ (forall k, In k (dkeys d') <-> P k \/ In k fs) /\ forall k, nf_get d' k = []).
    { induction fs as [|c fs IH]; intros d P N I E; simpl; [split; auto; split; auto; intros k; rewrite I; tauto|].
      destruct (IH (dset c [] d) (fun k => k = c \/ P k)) as (N' & I' & E').
      - now apply NoDup_dset.
      - intros k. now rewrite In_dkeys_dset, I.
      - intros k. unfold nf_get in *. rewrite dget_dset. destruct (String.eqb k c); auto.
      - split; auto. split; auto. intros k. rewrite I'. intuition. }
    destruct (G filters [("times", []); ("rest_phase", [])]%string (fun k => k = "times" \/ k = "rest_phase")%string) as (N & I & E).
    - simpl. repeat constructor; simpl; intuition discriminate.
    - intros k. simpl. intuition.
    - intros k. unfold nf_get. simpl. destruct (String.eqb k "times"); auto. destruct (String.eqb k "rest_phase"); auto.
    - split; [exact N|]. split; [|exact E]. intros k. rewrite I. simpl. intuition. }
  assert (EXT : forall (lc : dict (list R)) ks d, NoDup ks -> forall k,
     nf_get (fold_left (fun d k => dext k (match dget k lc with Some l => l | None => [] end) d) ks d) k =
     (nf_get d k ++ if smem k ks then nf_get lc k else [])%list).
  { intros lc. induction ks as [|c ks IH]; intros d N k; simpl; [now rewrite app_nil_r|]. inversion N as [|? ? N1 N2]; subst.
    rewrite IH by auto. unfold smem. simpl. fold (smem k ks). unfold dext. unfold nf_get at 1. rewrite dget_dset.
    destruct (String.eqb k c) eqn:E; simpl.
    - apply String.eqb_eq in E. subst c. apply smem_false in N1. rewrite N1. rewrite app_nil_r. reflexivity.
    - reflexivity. }
  assert (KEYS : forall (lc : dict (list R)) ks d, (forall k, In k ks -> In k (dkeys d)) -> NoDup (dkeys d) ->
     let d' := fold_left (fun d k => dext k (match dget k lc with Some l => l | None => [] end) d) ks d in
     NoDup (dkeys d') /\ forall k, In k (dkeys d') <-> In k (dkeys d)).
  { intros lc. induction ks as [|c ks IH]; intros d S N; simpl; [tauto|].
    assert (E : forall k, In k (dkeys (dext c (match dget c lc with Some l => l | None => [] end) d)) <-> In k (dkeys d)).
    { intros k. unfold dext. rewrite In_dkeys_dset. split; [|tauto]. intros [->|H]; auto. apply S. simpl; auto. }
    destruct (IH (dext c (match dget c lc with Some l => l | None => [] end) d)) as [N' I'].
    - intros k Hk. apply E, S. simpl; auto.
    - now apply NoDup_dset.
    - split; auto. intros k. rewrite I'. apply E. }
  assert (G : forall ss b d index, NoDup (dkeys d) -> (forall k, In k (dkeys d) <-> In k keys) -> exists d' index',
    fold_res (fun di ist =>
      let '(d, index) := di in
      let '(i, (st, (z, t0), (lo, hi, step))) := ist in
      bind (single_noise_free eval filters st z t0 lo hi step) (fun lc =>
        let times := match dget "times" lc with Some l => l | None => [] end in
        Ok (fold_left (fun d k => dext k (match dget k lc with Some l => l | None => [] end) d) (dkeys d) d,
            index ++ repeat i (length times)))%list) (d, index) (combine (seq b (length ss)) ss) = Ok (d', index') /\
    (forall k, In k (dkeys d') <-> In k keys) /\
    nf_get d' "times" = (nf_get d "times" ++ flat_map sample_times ss)%list /\
    nf_get d' "rest_phase" = (nf_get d "rest_phase" ++ flat_map sample_phase ss)%list /\
    (forall f, In f filters -> nf_get d' f = (nf_get d f ++ flat_map (sample_flux f) ss)%list) /\
    index' = (index ++ flat_map (fun ix => repeat (fst ix) (length (sample_times (snd ix)))) (combine (seq b (length ss)) ss))%list).
  { induction ss as [|[[st [z t0]] [[lo hi] step]] ss IH]; intros b d index N I; cbn [length seq combine fold_res].
    - exists d, index. simpl. rewrite !app_nil_r. split; auto. split; auto. split; auto. split; auto. split; auto. intros; now rewrite app_nil_r.
    - destruct (C67_single st z t0 lo hi step) as (lc & ELC & T & P & F). rewrite ELC. cbn [bind]. cbv zeta. rewrite T.
      destruct (KEYS lc (dkeys d) d) as [N' I']; auto.
      destruct (IH (S b) (fold_left (fun d k => dext k (match dget k lc with Some l => l | None => [] end) d) (dkeys d) d)
                  (index ++ repeat b (length (snd (noise_free_times z t0 lo hi step))))%list N') as (d' & index' & E & K & T' & P' & F' & X').
      { intros k. rewrite I'. apply I. }
      exists d', index'. split; [exact E|]. split; auto.
      assert (MEM : forall k, In k keys -> smem k (dkeys d) = true) by (intros k Hk; apply smem_In, I; auto).
      split; [|split; [|split]].
      + rewrite T', (EXT lc (dkeys d) d N), MEM by (unfold keys; simpl; auto). unfold nf_get at 2. rewrite T. simpl. now rewrite app_assoc.
      + rewrite P', (EXT lc (dkeys d) d N), MEM by (unfold keys; simpl; auto). unfold nf_get at 2. rewrite P. simpl. now rewrite app_assoc.
      + intros f Hf. rewrite (F' f Hf), (EXT lc (dkeys d) d N), MEM by (unfold keys; simpl; auto). unfold nf_get at 2. rewrite (F f Hf). simpl. now rewrite app_assoc.
      + rewrite X'. simpl. now rewrite app_assoc. }
  destruct KI as (KN & KK & KE). destruct (G samples 0%nat init [] KN KK) as (d & index & E & K & T & P & F & X). exists d, index. split; [exact E|].
  assert (GET : forall k l, In k keys -> nf_get d k = l -> dget k d = Some l).
  { intros k l Hk HG. apply K in Hk. apply dget_keys in Hk. unfold nf_get in HG. destruct (dget k d); [congruence|tauto]. }
  split; [apply GET; [unfold keys; simpl; auto|rewrite T, KE; auto]|].
  split; [apply GET; [unfold keys; simpl; auto|rewrite P, KE; auto]|]. split; auto.
  intros f Hf. apply GET; [unfold keys; simpl; auto|]. rewrite (F f Hf), KE. auto.
Qed.
End NoiseFree.
(** A negative redshift (blueshift) is not applied to the times. *)
Theorem C67_negative_redshift_refuted : exists z lo hi step, 0 < step /\ -1 < z /\
  snd (noise_free_times (Some z) None lo hi step) <> map (fun p => p * (1 + z)) (fst (noise_free_times (Some z) None lo hi step)).
Proof.
  exists (-1 / 2), 1, 2, 1. split; [lra|]. split; [lra|]. rewrite C67_times. cbn [noise_free_times fst].
  destruct (C67_phases 1 2 1 ltac:(lra)) as (_ & A & _). specialize (A 0%nat). simpl INR in A. intros H.
  apply (f_equal (fun l => nth_error l 0)) in H. rewrite !nth_error_map in H. rewrite A in H by lra. cbn [option_map] in H.
  injection H as H. rewrite Rmax_left in H by lra. lra.
Qed.
Example C67_example : nth_error (snd (noise_free_times (Some 1) (Some 100) (-50) 50 2)) 3 = Some (100 + 2 * (-44)).
Proof.
  rewrite C67_times, nth_error_map. cbn [noise_free_times fst]. destruct (C67_phases (-50) 50 2 ltac:(lra)) as (_ & A & _).
  specialize (A 3%nat). simpl INR in A. rewrite A by lra. simpl. f_equal. rewrite Rmax_right by lra. lra.
Qed.
