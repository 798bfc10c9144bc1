(** C72: vectorised zero points and the OpSim table. *)
From Coq Require Import Reals String List Bool Arith ZArith Lia Lra.
From Verif Require Import Base BaseFacts RealBase ObsTableModel ObsTableProps ObsTableMore NoiseModel NoiseProps FakeModel FakeProps SurveyModel.
Import ListNotations.
Open Scope R_scope.

Lemma zip4_nth : forall A B C D E (f : A -> B -> C -> D -> E) a b c d i,
  nth_error (zip4 f a b c d) i = match nth_error a i, nth_error b i, nth_error c i, nth_error d i with
    | Some x, Some y, Some z, Some w => Some (f x y z w) | _, _, _, _ => None end.
Proof.
  induction a as [|x a IH]; intros [|y b] [|z c] [|w d] [|i]; simpl; auto; try (destruct (nth_error a i); auto; destruct (nth_error b i); auto; destruct (nth_error c i); auto).
Qed.
Lemma zip4_length : forall A B C D E (f : A -> B -> C -> D -> E) n a b c d, length a = n -> length b = n -> length c = n -> length d = n ->
  length (zip4 f a b c d) = n.
Proof.
  induction n as [|n IH]; intros [|x a] [|y b] [|z c] [|w d] H1 H2 H3 H4; simpl in *; try discriminate; auto.
Qed.
Definition band_value (d : dict R) (c : cell) : option R := match c with CStr s => dget s d | _ => None end.
Lemma key_floats : forall d c, key_get (floats d) c = option_map PFloat (band_value d c).
Proof. intros d [r|s|]; simpl; auto. unfold floats. apply dget_map. Qed.
Lemma vget_floats : forall d bands l, vget (floats d) bands = Ok l -> l = map (band_value d) bands /\ exists b bs, bands = b :: bs /\ band_value d b <> None.
Proof.
  intros d bands l H. unfold vget in H. destruct bands as [|b bs]; [discriminate|]. rewrite key_floats in H.
  destruct (band_value d b) as [r|] eqn:E; cbn [option_map] in H; [|discriminate]. injection H as <-. split.
  - refine (map_ext _ _ _ (b :: bs)). intros c. rewrite key_floats. now destruct (band_value d c).
  - exists b, bs. split; auto. congruence.
Qed.
Lemma vget_floats_ok : forall d b bs, band_value d b <> None -> vget (floats d) (b :: bs) = Ok (map (band_value d) (b :: bs)).
Proof.
  intros d b bs H. unfold vget. rewrite key_floats. destruct (band_value d b) as [r|] eqn:E; [|congruence]. cbn [option_map]. f_equal.
  refine (map_ext _ _ _ (b :: bs)). intros c. rewrite key_floats. now destruct (band_value d c).
Qed.
(** ** The array functions *)
(** Float dictionaries, known bands: entry by entry the value of the scalar formula. *)
Theorem C72_vector : forall zps exs bands airmass exptime,
  bands <> [] -> length airmass = length bands -> length exptime = length bands ->
  (forall b, In b bands -> dget b zps <> None /\ dget b exs <> None) ->
  exists out, vec_flux_zeropoint (floats zps) (floats exs) (map CStr bands) (map CNum airmass) (map CNum exptime) = Ok out /\ length out = length bands /\
  forall i b a t, nth_error bands i = Some b -> nth_error airmass i = Some a -> nth_error exptime i = Some t ->
    exists v, flux_zeropoint (Some zps) (Some exs) b a t = Ok v /\ nth_error out i = Some v.
Proof.
  intros zps exs bands airmass exptime HB LA LT HK. destruct bands as [|b0 bs]; [congruence|].
  destruct (HK b0 (or_introl eq_refl)) as [K1 K2]. unfold vec_flux_zeropoint, vec_mag_zeropoint. cbn [map].
  rewrite vget_floats_ok by exact K1. cbn [bind]. rewrite vget_floats_ok by exact K2. cbn [bind]. eexists. split; [reflexivity|]. split.
  - rewrite map_length. apply zip4_length; cbn [map]; simpl; rewrite ?map_length; simpl; auto; rewrite ?map_length; auto.
  - intros i b a t Hb Ha Ht. change (CStr b0 :: map CStr bs) with (map CStr (b0 :: bs)). set (bands := b0 :: bs) in *.
    destruct (HK b (nth_error_In _ _ Hb)) as [Z K]. unfold flux_zeropoint, magnitude_zeropoint.
    destruct (dget b zps) as [z|] eqn:EZ; [|congruence]. destruct (dget b exs) as [k|] eqn:EK; [|congruence]. cbn [bind].
    eexists. split; [reflexivity|]. rewrite nth_error_map, zip4_nth, !map_map, !nth_error_map, Hb, Ha, Ht. cbn [option_map band_value num_opt].
    rewrite EZ, EK. reflexivity.
Qed.
(** Finding: integers in the dictionary make numpy truncate the other values: with zero points 26 and 27.5 the second band
    gets 27 if the first observation is in the first band. *)
Theorem C72_integers_refuted : exists zps exs, dget "r" zps = Some (PFloat (275 / 10)) /\
  vec_mag_zeropoint zps exs [CStr "g"; CStr "r"] [CNum 1; CNum 1] [CNum 1; CNum 1] = Ok [Some 26; Some 27] /\
  vec_mag_zeropoint zps exs [CStr "r"; CStr "g"] [CNum 1; CNum 1] [CNum 1; CNum 1] = Ok [Some (275 / 10); Some 26].
Proof.
  exists [("g", PInt 26); ("r", PFloat (275 / 10))]%string, (floats [("g", 0); ("r", 0)]%string). split; [reflexivity|].
  assert (L1 : log10 1 = 0) by (unfold log10; rewrite ln_1; lra).
  assert (T : trunc (275 / 10) = 27%Z).
  { unfold trunc. replace (Rltb (275 / 10) 0) with false by (symmetry; apply Rltb_false; lra).
    destruct (base_Int_part (275 / 10)) as [A B].
    assert (IZR (Int_part (275 / 10)) < 28) by lra. assert (26 < IZR (Int_part (275 / 10))) by lra.
    apply lt_IZR in H. apply lt_IZR in H0. lia. }
  unfold vec_mag_zeropoint, vget, key_get, floats. cbn [dget map String.eqb Ascii.eqb Bool.eqb bind seq_res fst snd]. rewrite T.
  cbn [zip4 mag_zp_entry num_opt bind map]. replace (Rleb 1 0) with false by (symmetry; apply Rleb_false; lra). rewrite L1.
  split; (apply f_equal; apply f_equal2; [apply f_equal; lra|apply f_equal2; [apply f_equal; lra|reflexivity]]).
Qed.
(** Finding: a band without entry is noticed only in the first observation; later it gives a NaN zero point. *)
Theorem C72_unknown_band_refuted : forall zps exs b bs x airmass exptime, dget b zps <> None -> dget b exs <> None -> dget x zps = None ->
  length airmass = S (S bs) -> length exptime = S (S bs) ->
  exists out, vec_flux_zeropoint (floats zps) (floats exs) (CStr b :: repeat (CStr x) (S bs)) (map CNum airmass) (map CNum exptime) = Ok out /\
    forall i, (1 <= i < S (S bs))%nat -> nth_error out i = Some None.
Proof.
  intros zps exs b bs x airmass exptime H1 H2 HX LA LT. unfold vec_flux_zeropoint, vec_mag_zeropoint.
  rewrite !vget_floats_ok by auto. cbn [bind]. eexists. split; [reflexivity|]. intros i Hi.
  rewrite nth_error_map, zip4_nth, !nth_error_map.
  assert (E : nth_error (CStr b :: repeat (CStr x) (S bs)) i = Some (CStr x)).
  { destruct i as [|i]; [lia|]. cbn [nth_error]. apply nth_error_repeat. lia. }
  rewrite E. cbn [option_map band_value]. rewrite HX.
  destruct (nth_error airmass i) eqn:EA; [|apply nth_error_None in EA; lia]. destruct (nth_error exptime i) eqn:ET; [|apply nth_error_None in ET; lia]. reflexivity.
Qed.
(** Finding: no observations, no zero points. *)
Theorem C72_empty_refuted : forall zps exs, vec_flux_zeropoint zps exs [] [] [] = Err ValueError.
Proof. reflexivity. Qed.

(** ** Tables of a survey class *)
Lemma survey_base : forall df zpf f cm meta kw fp o, survey_make df zpf f cm meta kw fp = Ok o ->
  exists o0, ob_make f (Some cm) meta [] fp = Ok o0 /\
  let b := mkObs (ob_frame o0) (ob_inv o0) (survey_values df meta kw) (ob_filters o0) [] (ob_footprint o0) in
  exists o1, (if ob_contains o0 "zp" then o1 = b else zpf b = Ok o1) /\
    o = mkObs (ob_frame o1) (ob_inv o1) (ob_values o1) (ob_filters o1) (build_tree (ob_frame o1)) (ob_footprint o1).
Proof.
  intros df zpf f cm meta kw fp o H. unfold survey_make in H. unfold ob_make. destruct (remap (Some cm) f) as [[f' inv]|]; [|discriminate]. cbn [bind] in *.
  destruct (forallb _ required); [|discriminate]. cbn [negb] in H. cbv zeta in H. eexists. split; [reflexivity|]. cbn [ob_frame ob_inv ob_filters ob_tree ob_footprint].
  change (ob_contains (mkObs f' inv (survey_values df meta kw) (unique_filters f') [] fp) "zp") with
         (ob_contains (mkObs f' inv (merge_values meta []) (unique_filters f') (build_tree f') fp) "zp") in H.
  destruct (ob_contains _ "zp"); cbn [bind] in H.
  - injection H as <-. eexists. split; [reflexivity|]. reflexivity.
  - destruct (zpf _) as [o1|]; [|discriminate]. cbn [bind] in H. injection H as <-. exists o1. auto.
Qed.
(** A survey value: keyword argument, else metadata, else default of the class. *)
Definition value_given (df meta kw : dict sval) (k : string) : option sval :=
  match dget k kw with Some v => Some v | None => match dget k meta with Some v => Some v | None => dget k df end end.
Lemma survey_value_get : forall df meta kw k, NoDup (dkeys meta) -> NoDup (dkeys kw) -> dget k (survey_values df meta kw) = value_given df meta kw k.
Proof. intros. unfold survey_values, value_given. rewrite !fold_dset_get, !dget_rev by auto. reflexivity. Qed.
Lemma num_at_row : forall o name i, row_num o name i = match cell_at o name i with Some c => num_opt c | None => None end.
Proof. intros. unfold row_num, col_of, cell_at. destruct (dget name (f_cols (ob_frame o))); auto. now destruct i. Qed.

Lemma some_nodup : forall V (c : dict V), NoDup (dkeys c) -> forall d, Some c = Some d -> NoDup (dkeys d).
Proof. intros V c H d E. now inversion E; subst. Qed.

(** ** OpSim *)
Definition opsim_map (colmap : option (dict string)) : dict string := match colmap with None => opsim_colnames | Some c => c end.
Lemma opsim_stage : forall o o1, frame_ok (ob_frame o) -> dmem "zp" (f_cols (ob_frame o)) = false -> opsim_zero_points o = Ok o1 ->
  grows o o1 /\ In "zp"%string (columns (ob_frame o1)) /\
  exists zps exs, dget "zp_per_sec" (ob_values o) = Some (SMap zps) /\ dget "ext_coeff" (ob_values o) = Some (SMap exs) /\
  forall i s a t, cell_at o "filter" i = Some (CStr s) -> cell_at o "airmass" i = Some (CNum a) -> cell_at o "exptime" i = Some (CNum t) ->
    cell_at o1 "zp" i = Some (cell_of (match dget s zps, dget s exs with
      | Some z, Some k => if Rleb t 0 then None else Some (mag2flux (z + k * (a - 1) + 25 / 10 * log10 t))
      | _, _ => None end)).
Proof.
  intros o o1 [_ F] HM H. unfold opsim_zero_points in H. cbv zeta in H.
  destruct (dmem "filter" (f_cols (ob_frame o)) && dmem "airmass" (f_cols (ob_frame o)) && dmem "exptime" (f_cols (ob_frame o)))%bool; [|discriminate]. cbn [negb] in H.
  unfold safe_map in H. destruct (dget "ext_coeff" (ob_values o)) as [[| |exs|]|] eqn:EE; try discriminate. cbn [bind] in H.
  destruct (dget "zp_per_sec" (ob_values o)) as [[| |zps|]|] eqn:EZ; try discriminate. cbn [bind] in H.
  destruct (vec_flux_zeropoint _ _ _ _ _) as [vals|] eqn:EV; [|discriminate]. cbn [bind] in H.
  destruct (add_grows _ _ _ _ _ HM H) as (G & I & _). split; auto. split; auto. exists zps, exs. split; auto. split; auto.
  intros i s a t Hs Ha Ht. destruct (C66_add_column _ _ _ _ _ H) as (_ & _ & CA & _).
  unfold vec_flux_zeropoint, vec_mag_zeropoint in EV. destruct (vget (floats zps) _) as [z|] eqn:E1; [|discriminate]. cbn [bind] in EV.
  destruct (vget (floats exs) _) as [k|] eqn:E2; [|discriminate]. cbn [bind] in EV. injection EV as <-.
  apply vget_floats in E1. destruct E1 as [-> _]. apply vget_floats in E2. destruct E2 as [-> _].
  assert (LI : (i < nrows (ob_frame o))%nat).
  { unfold cell_at in Hs. destruct (dget "filter" (f_cols (ob_frame o))) as [c|] eqn:EC; [|discriminate]. rewrite Forall_forall in F.
    pose proof (F _ (dget_In _ _ _ _ EC)) as L. simpl in L. rewrite <- L. apply nth_error_Some. congruence. }
  assert (CO : forall name c, cell_at o name i = Some c -> nth_error (col_of o name) i = Some c).
  { intros name c HC. unfold col_of. unfold cell_at in HC. now destruct (dget name (f_cols (ob_frame o))). }
  rewrite (proj1 (CA i LI)), !nth_error_map, zip4_nth, !nth_error_map, (CO _ _ Hs), (CO _ _ Ha), (CO _ _ Ht). cbn [option_map band_value num_opt].
  unfold mag_zp_entry. destruct (dget s zps); [|reflexivity]. destruct (dget s exs); [|reflexivity]. destruct (Rleb t 0); reflexivity.
Qed.
(** The zero point of every row of an OpSim table without zero points: the AB magnitude for one electron, from the band's
    values, the airmass and the exposure time, as flux. *)
Theorem C72_opsim_zero_points : forall f colmap meta kw fp o o0, frame_ok f -> NoDup (dkeys (opsim_map colmap)) -> NoDup (dkeys meta) -> NoDup (dkeys kw) ->
  ob_make f (Some (opsim_map colmap)) meta [] fp = Ok o0 -> ob_contains o0 "zp" = false -> opsim_make f colmap meta kw fp = Ok o ->
  exists zps exs, value_given opsim_defaults meta kw "zp_per_sec" = Some (SMap zps) /\ value_given opsim_defaults meta kw "ext_coeff" = Some (SMap exs) /\
  forall i s a t z k, cell_at o0 "filter" i = Some (CStr s) -> cell_at o0 "airmass" i = Some (CNum a) -> cell_at o0 "exptime" i = Some (CNum t) ->
    0 < t -> dget s zps = Some z -> dget s exs = Some k ->
    cell_at o "zp" i = Some (CNum (mag2flux (z + k * (a - 1) + 25 / 10 * log10 t))).
Proof.
  intros f colmap meta kw fp o o0 F ND NM NK E0 HZ H. unfold opsim_make in H. fold (opsim_map colmap) in H.
  destruct (survey_base _ _ _ _ _ _ _ _ H) as (o0' & E0' & M). rewrite E0 in E0'. injection E0' as <-. cbv zeta in M. destruct M as (o1 & M1 & ->). rewrite HZ in M1.
  pose proof (make_inv_obs _ _ _ _ _ _ F (some_nodup _ _ ND) E0) as T0.
  assert (HD : dmem "zp" (f_cols (ob_frame o0)) = false) by (unfold ob_contains in HZ; apply orb_false_elim in HZ; apply HZ).
  destruct (opsim_stage (mkObs (ob_frame o0) (ob_inv o0) (survey_values opsim_defaults meta kw) (ob_filters o0) [] (ob_footprint o0)) _ (ti_frame _ T0) HD M1) as (G & I & zps & exs & E1 & E2 & V). cbn [ob_values] in E1, E2.
  rewrite survey_value_get in E1, E2 by auto. exists zps, exs. split; auto. split; auto.
  intros i s a t z k Hs Ha Ht HP Ez Ek.
  change (cell_at (mkObs (ob_frame o1) (ob_inv o1) (ob_values o1) (ob_filters o1) (build_tree (ob_frame o1)) (ob_footprint o1)) "zp" i) with (cell_at o1 "zp" i).
  rewrite (V i s a t Hs Ha Ht), Ez, Ek. replace (Rleb t 0) with false by (symmetry; apply Rleb_false; lra). reflexivity.
Qed.

(** The zero points are positive, so the noise model is applicable to every such row. *)
Theorem C72_opsim_positive : forall m, 0 < mag2flux m.
Proof. exact C53_positive. Qed.
Lemma opsim_grows : forall f colmap meta kw fp o o0, frame_ok f -> NoDup (dkeys (opsim_map colmap)) ->
  ob_make f (Some (opsim_map colmap)) meta [] fp = Ok o0 -> opsim_make f colmap meta kw fp = Ok o ->
  let b := mkObs (ob_frame o0) (ob_inv o0) (survey_values opsim_defaults meta kw) (ob_filters o0) (ob_tree o0) (ob_footprint o0) in
  grows b o /\ tinv o /\ (forall c, In c (columns (ob_frame o)) -> c = "zp"%string \/ In c (columns (ob_frame o0))).
Proof.
  intros f colmap meta kw fp o o0 F ND E0 H. unfold opsim_make in H. fold (opsim_map colmap) in H.
  destruct (survey_base _ _ _ _ _ _ _ _ H) as (o0' & E0' & M). rewrite E0 in E0'. injection E0' as <-. cbv zeta in *. destruct M as (o1 & M1 & ->).
  pose proof (make_inv_obs _ _ _ _ _ _ F (some_nodup _ _ ND) E0) as T0. destruct (ob_contains o0 "zp") eqn:HZ.
  - subst o1. cbn [ob_frame ob_inv ob_values ob_filters ob_footprint]. destruct T0 as [A B C]. split; [|split].
    + split; cbn [ob_frame ob_inv ob_values ob_filters ob_tree ob_footprint]; auto.
    + split; auto.
    + auto.
  - assert (HD : dmem "zp" (f_cols (ob_frame o0)) = false) by (unfold ob_contains in HZ; apply orb_false_elim in HZ; apply HZ).
    destruct (opsim_stage (mkObs (ob_frame o0) (ob_inv o0) (survey_values opsim_defaults meta kw) (ob_filters o0) [] (ob_footprint o0)) _ (ti_frame _ T0) HD M1) as (G & _).
    assert (X : exists vals, length vals = nrows (ob_frame o0) /\
      o1 = mkObs (mkFrame (f_labels (ob_frame o0)) (dset "zp" vals (f_cols (ob_frame o0)))) (ob_inv o0) (survey_values opsim_defaults meta kw) (ob_filters o0) [] (ob_footprint o0)).
    { unfold opsim_zero_points in M1. cbv zeta in M1. destruct (negb _); [discriminate|]. destruct (safe_map _ "ext_coeff"); [|discriminate]. cbn [bind] in M1.
      destruct (safe_map _ "zp_per_sec"); [|discriminate]. cbn [bind] in M1. destruct (vec_flux_zeropoint _ _ _ _ _); [|discriminate]. cbn [bind] in M1.
      unfold add_column in M1. cbv zeta in M1. destruct (_ && _)%bool; [discriminate|]. destruct (_ =? _)%nat eqn:EL; [|discriminate]. apply Nat.eqb_eq in EL.
      injection M1 as <-. eexists. split; [exact EL|reflexivity]. }
    destruct X as (vals & LV & ->). cbn [ob_frame ob_inv ob_values ob_filters ob_footprint]. destruct T0 as [A B C].
    assert (BT : build_tree (mkFrame (f_labels (ob_frame o0)) (dset "zp" vals (f_cols (ob_frame o0)))) = build_tree (ob_frame o0)).
    { rewrite build_tree_dset by discriminate. now destruct (ob_frame o0). }
    rewrite BT. split; [|split].
    + destruct G as [G1 G2 G3 G4 G5 G6 G7 G8]. split; cbn [ob_frame ob_inv ob_values ob_filters ob_tree ob_footprint] in *; auto.
    + split; cbn [ob_frame ob_tree]; auto.
      * split; [unfold columns; cbn [f_cols]; apply NoDup_dset; apply A|]. apply dset_cols_Forall; [apply A|exact LV].
      * intros c Hc. unfold columns. cbn [f_cols]. apply In_dkeys_dset. right. now apply B.
    + intros c Hc. unfold columns in Hc. cbn [f_cols] in Hc. apply In_dkeys_dset in Hc. exact Hc.
Qed.
(** Everything else is kept: rows, pointings, columns. *)
Theorem C72_opsim_kept : forall f colmap meta kw fp o o0, frame_ok f -> NoDup (dkeys (opsim_map colmap)) ->
  ob_make f (Some (opsim_map colmap)) meta [] fp = Ok o0 -> opsim_make f colmap meta kw fp = Ok o ->
  nrows (ob_frame o) = nrows (ob_frame o0) /\ ob_tree o = ob_tree o0 /\
  (forall c i, In c (columns (ob_frame o0)) -> cell_at o c i = cell_at o0 c i) /\
  (forall c, In c (columns (ob_frame o)) -> c = "zp"%string \/ In c (columns (ob_frame o0))).
Proof.
  intros f colmap meta kw fp o o0 F ND E0 H. destruct (opsim_grows _ _ _ _ _ _ _ F ND E0 H) as (G & T & O).
  split; [exact (grows_nrows _ _ G)|]. split; [exact (gr_tree _ _ G)|]. split; [exact (gr_cells _ _ G)|exact O].
Qed.
(** An OpSim table is refused unless it has zero points or the columns to derive them. *)
Theorem C72_opsim_refused : forall f colmap meta kw fp o0 c, ob_make f (Some (opsim_map colmap)) meta [] fp = Ok o0 -> ob_contains o0 "zp" = false ->
  In c ["filter"; "airmass"; "exptime"]%string -> ~ In c (columns (ob_frame o0)) -> opsim_make f colmap meta kw fp = Err ValueError.
Proof.
  intros f colmap meta kw fp o0 c E0 HZ HI HN. unfold opsim_make, survey_make. fold (opsim_map colmap). unfold ob_make in E0.
  destruct (remap (Some (opsim_map colmap)) f) as [[f' inv]|]; [|discriminate]. cbn [bind] in *. destruct (forallb _ required); [|discriminate]. cbn [negb]. injection E0 as <-. cbv zeta.
  cbn [ob_frame] in HN. change (ob_contains (mkObs f' inv (survey_values opsim_defaults meta kw) (unique_filters f') [] fp) "zp" = false) in HZ. rewrite HZ.
  unfold opsim_zero_points. cbv zeta. cbn [ob_frame]. apply dmem_false in HN.
  replace (dmem "filter" (f_cols f') && dmem "airmass" (f_cols f') && dmem "exptime" (f_cols f'))%bool with false; [reflexivity|].
  destruct HI as [<-|[<-|[<-|[]]]]; rewrite HN; destruct (dmem "filter" (f_cols f')); destruct (dmem "airmass" (f_cols f')); reflexivity.
Qed.
(** It is accepted when all bands are known. *)
Theorem C72_opsim_accepts : forall f colmap meta kw fp o0 zps exs, frame_ok f -> NoDup (dkeys (opsim_map colmap)) -> NoDup (dkeys meta) -> NoDup (dkeys kw) ->
  ob_make f (Some (opsim_map colmap)) meta [] fp = Ok o0 -> (0 < nrows (ob_frame o0))%nat ->
  (forall c, In c ["filter"; "airmass"; "exptime"]%string -> In c (columns (ob_frame o0))) ->
  value_given opsim_defaults meta kw "zp_per_sec" = Some (SMap zps) -> value_given opsim_defaults meta kw "ext_coeff" = Some (SMap exs) ->
  (exists s, cell_at o0 "filter" 0 = Some (CStr s) /\ dget s zps <> None /\ dget s exs <> None) ->
  exists o, opsim_make f colmap meta kw fp = Ok o.
Proof.
  intros f colmap meta kw fp o0 zps exs F ND NM NK E0 LN HC VZ VE (s & HS & KZ & KE).
  pose proof (make_inv_obs _ _ _ _ _ _ F (some_nodup _ _ ND) E0) as T0. unfold opsim_make, survey_make. fold (opsim_map colmap). unfold ob_make in E0.
  destruct (remap (Some (opsim_map colmap)) f) as [[f' inv]|]; [|discriminate]. cbn [bind] in *. destruct (forallb _ required); [|discriminate]. cbn [negb]. injection E0 as <-. cbv zeta.
  cbn [ob_frame] in *. destruct (ob_contains _ "zp") eqn:HZ; [cbn [bind]; eauto|].
  assert (X : exists o1, opsim_zero_points (mkObs f' inv (survey_values opsim_defaults meta kw) (unique_filters f') [] fp) = Ok o1); [|destruct X as (o1 & ->); cbn [bind]; eauto].
  unfold opsim_zero_points. cbv zeta. cbn [ob_frame].
  rewrite !(proj2 (dmem_true _ _ (f_cols f'))) by (apply HC; simpl; tauto). cbn [andb negb].
  unfold safe_map. cbn [ob_values]. rewrite !survey_value_get, VZ, VE by auto. cbn [bind].
  destruct (ti_frame _ T0) as [_ FF]. cbn [ob_frame] in FF. rewrite Forall_forall in FF.
  assert (CL : forall c, In c (columns f') -> exists l, dget c (f_cols f') = Some l /\ length l = nrows f').
  { intros c Hc. apply dget_keys in Hc. destruct (dget c (f_cols f')) as [l|] eqn:E; [|congruence]. exists l. split; auto. now apply (FF (c, l)), dget_In. }
  destruct (CL "filter"%string (HC "filter"%string ltac:(simpl; tauto))) as (fl & EF & LF). destruct (CL "airmass"%string (HC "airmass"%string ltac:(simpl; tauto))) as (al & EA & LA).
  destruct (CL "exptime"%string (HC "exptime"%string ltac:(simpl; tauto))) as (tl & ET & LT).
  unfold col_of. cbn [ob_frame]. rewrite EF, EA, ET. unfold cell_at in HS. cbn [ob_frame] in HS. rewrite EF in HS. destruct fl as [|c0 fl]; [discriminate|]. injection HS as ->.
  unfold vec_flux_zeropoint, vec_mag_zeropoint. rewrite !vget_floats_ok by auto. cbn [bind].
  apply (proj1 (proj2 (C66_add_column_accepts _ _ _ _))); [auto|]. intros l El. injection El as <-. rewrite !map_length. cbn [ob_frame].
  refine (zip4_length _ _ _ _ _ mag_zp_entry (nrows f') (map (band_value zps) (CStr s :: fl)) (map (band_value exs) (CStr s :: fl)) (map num_opt al) (map num_opt tl) _ _ _ _);
    rewrite map_length; auto.
Qed.
(** The flux errors of an OpSim table: for every requested row the Poisson noise of that row's exposure, seeing, sky
    brightness and zero point, with the camera's values. *)
Theorem C72_opsim_errors : forall o flux index ps rn dk, (forall i, In i index -> (i < nrows (ob_frame o))%nat) -> length flux = length index ->
  (forall c, In c ["seeing"; "zp"; "skybrightness"; "exptime"; "nexposure"]%string -> In c (columns (ob_frame o))) ->
  dget "pixel_scale" (ob_values o) = Some (SNum ps) -> dget "read_noise" (ob_values o) = Some (SNum rn) -> dget "dark_current" (ob_values o) = Some (SNum dk) -> ps <> 0 ->
  exists out, opsim_errors o flux index = Ok out /\ length out = length index /\
  forall j x i t n s b z, nth_error flux j = Some x -> nth_error index j = Some i ->
    cell_at o "exptime" i = Some (CNum t) -> cell_at o "nexposure" i = Some (CNum n) -> cell_at o "seeing" i = Some (CNum s) ->
    cell_at o "skybrightness" i = Some (CNum b) -> cell_at o "zp" i = Some (CNum z) ->
    nth_error out j = Some (poisson_std x t n (PI / (2 * ln 2) * (s / ps) ^ 2) (mag2flux b * ps ^ 2 / z) z (RNum rn) dk).
Proof.
  intros o flux index ps rn dk HI HL HC VP VR VD PS. unfold opsim_errors.
  replace (in_rows o index) with true by (symmetry; apply forallb_forall; intros i Hi; apply Nat.ltb_lt; auto). cbn [negb].
  rewrite (proj2 (safe_number_ok _ _ _) VP). cbn [bind].
  assert (N : forall names, (forall c, In c names -> In c (columns (ob_frame o))) -> need_cols o names = Ok tt).
  { induction names as [|c names IH]; intros HN; cbn [need_cols]; auto. unfold need_col. pose proof (HN c (or_introl eq_refl)) as Hc. apply dget_keys in Hc.
    destruct (dget c (f_cols (ob_frame o))); [|congruence]. cbn [bind]. apply IH. intros; apply HN; right; auto. }
  rewrite N by auto. cbn [bind]. rewrite (proj2 (safe_number_ok _ _ _) VR), (proj2 (safe_number_ok _ _ _) VD). cbn [bind].
  rewrite HL, Nat.eqb_refl. cbn [negb]. eexists. split; [reflexivity|]. split; [rewrite map_length, combine_length; lia|].
  intros j x i t n s b z Hx Hi H1 H2 H3 H4 H5. rewrite nth_error_map, nth_error_combine, Hx, Hi. cbn [option_map].
  rewrite !num_at_row, H1, H2, H3, H4, H5. cbn [num_opt]. replace (Reqb ps 0) with false by (symmetry; now apply Reqb_false).
  unfold opsim_error. destruct (Reqb z 0) eqn:EZ.
  - unfold poisson_std. now rewrite EZ.
  - unfold gauss_area. now rewrite <- !Rsqr_pow2.
Qed.
(** From table to error bars: the error of an observation of an OpSim table without zero points is the Poisson noise of the
    row's exposure time, number of exposures, seeing and sky brightness, in electrons by the derived zero point, with the
    read noise, dark current and pixel scale of keyword argument, metadata or camera. *)
Theorem C72_opsim_noise : forall f colmap meta kw fp o o0 zps exs flux index ps rn dk,
  frame_ok f -> NoDup (dkeys (opsim_map colmap)) -> NoDup (dkeys meta) -> NoDup (dkeys kw) ->
  ob_make f (Some (opsim_map colmap)) meta [] fp = Ok o0 -> ob_contains o0 "zp" = false -> opsim_make f colmap meta kw fp = Ok o ->
  value_given opsim_defaults meta kw "zp_per_sec" = Some (SMap zps) -> value_given opsim_defaults meta kw "ext_coeff" = Some (SMap exs) ->
  value_given opsim_defaults meta kw "pixel_scale" = Some (SNum ps) -> value_given opsim_defaults meta kw "read_noise" = Some (SNum rn) ->
  value_given opsim_defaults meta kw "dark_current" = Some (SNum dk) -> ps <> 0 ->
  (forall c, In c ["seeing"; "skybrightness"; "exptime"; "nexposure"]%string -> In c (columns (ob_frame o0))) ->
  (forall i, In i index -> (i < nrows (ob_frame o0))%nat) -> length flux = length index ->
  exists out, opsim_errors o flux index = Ok out /\ length out = length index /\
  forall j x i fil a t n s b z k, nth_error flux j = Some x -> nth_error index j = Some i ->
    cell_at o0 "filter" i = Some (CStr fil) -> cell_at o0 "airmass" i = Some (CNum a) -> cell_at o0 "exptime" i = Some (CNum t) ->
    cell_at o0 "nexposure" i = Some (CNum n) -> cell_at o0 "seeing" i = Some (CNum s) -> cell_at o0 "skybrightness" i = Some (CNum b) ->
    0 < t -> dget fil zps = Some z -> dget fil exs = Some k ->
    let zp := mag2flux (z + k * (a - 1) + 25 / 10 * log10 t) in
    nth_error out j = Some (poisson_std x t n (PI / (2 * ln 2) * (s / ps) ^ 2) (mag2flux b * ps ^ 2 / zp) zp (RNum rn) dk).
Proof.
  intros f colmap meta kw fp o o0 zps exs flux index ps rn dk F ND NM NK E0 HZ H VZ VE VP VR VD PS HC HI HL.
  destruct (C72_opsim_zero_points _ _ _ _ _ _ _ F ND NM NK E0 HZ H) as (zps' & exs' & Z1 & Z2 & ZP). rewrite VZ in Z1. rewrite VE in Z2.
  injection Z1 as <-. injection Z2 as <-.
  destruct (opsim_grows _ _ _ _ _ _ _ F ND E0 H) as (G & T & _). cbv zeta in G. pose proof (gr_values _ _ G) as GV. cbn [ob_values] in GV.
  assert (ZC : In "zp"%string (columns (ob_frame o))).
  { unfold opsim_make in H. fold (opsim_map colmap) in H. destruct (survey_base _ _ _ _ _ _ _ _ H) as (o0' & E0' & M). rewrite E0 in E0'. injection E0' as <-.
    cbv zeta in M. destruct M as (o1 & M1 & ->). rewrite HZ in M1. pose proof (make_inv_obs _ _ _ _ _ _ F (some_nodup _ _ ND) E0) as T0.
    assert (HD : dmem "zp" (f_cols (ob_frame o0)) = false) by (unfold ob_contains in HZ; apply orb_false_elim in HZ; apply HZ).
    destruct (opsim_stage (mkObs (ob_frame o0) (ob_inv o0) (survey_values opsim_defaults meta kw) (ob_filters o0) [] (ob_footprint o0)) _ (ti_frame _ T0) HD M1) as (_ & I & _).
    exact I. }
  destruct (C72_opsim_errors o flux index ps rn dk) as (out & EO & LO & HO); auto.
  - intros i Hi. rewrite (grows_nrows _ _ G). cbn [ob_frame]. auto.
  - intros c [<-|[<-|[<-|[<-|[<-|[]]]]]]; auto; apply (gr_cols _ _ G); cbn [ob_frame]; apply HC; simpl; tauto.
  - rewrite GV, survey_value_get; auto.
  - rewrite GV, survey_value_get; auto.
  - rewrite GV, survey_value_get; auto.
  - exists out. split; auto. split; auto. intros j x i fil a t n s b z k Hx Hi Hf Ha Ht Hn Hs Hb HP Hz Hk zp.
    assert (K : forall c v, In c ["seeing"; "skybrightness"; "exptime"; "nexposure"]%string -> cell_at o0 c i = Some v -> cell_at o c i = Some v).
    { intros c v Hc E. rewrite (gr_cells _ _ G); [exact E|]. cbn [ob_frame]. auto. }
    apply HO with (i := i); auto; try (apply K; auto; simpl; tauto).
    exact (ZP i fil a t z k Hf Ha Ht HP Hz Hk).
Qed.
(** A concrete OpSim table of two visits. *)
Definition two_visits : frame := mkFrame [0; 1]%nat
  [("fieldRA", [CNum 10; CNum 20]); ("fieldDec", [CNum 0; CNum 5]); ("observationStartMJD", [CNum 60000; CNum 60001]);
   ("filter", [CStr "r"; CStr "g"]); ("airmass", [CNum 1; CNum (12 / 10)]); ("visitExposureTime", [CNum 30; CNum 10]);
   ("seeingFwhmEff", [CNum 1; CNum 2]); ("skyBrightness", [CNum 21; CNum 20]); ("numExposures", [CNum 1; CNum 2])]%string.
Definition two_visits_plain : obstable :=
  Eval cbv [remap] in match remap (Some opsim_colnames) two_visits with
  | Ok (f', inv) => mkObs f' inv (merge_values [] []) (unique_filters f') (build_tree f') None
  | Err _ => mkObs two_visits [] [] [] [] None end.
Lemma two_visits_ok : frame_ok two_visits.
Proof. split; [|repeat constructor]. repeat constructor; simpl; intuition discriminate. Qed.
Lemma two_visits_made : ob_make two_visits (Some opsim_colnames) [] [] None = Ok two_visits_plain.
Proof. with_strategy opaque [build_tree merge_values unique_filters] reflexivity. Qed.
Definition second_zp : R := mag2flux (28508 / 1000 + (- 208 / 1000) * (12 / 10 - 1) + 25 / 10 * log10 10).
Example C72_case : exists o out, opsim_make two_visits None [] [("read_noise", SNum 7)]%string None = Ok o /\
  cell_at o "zp" 1 = Some (CNum second_zp) /\ opsim_errors o [100] [1]%nat = Ok [out] /\
  out = poisson_std 100 10 2 (PI / (2 * ln 2) * (2 / (2 / 10)) ^ 2) (mag2flux 20 * (2 / 10) ^ 2 / second_zp) second_zp (RNum 7) (2 / 10).
Proof.
  assert (N1 : NoDup (dkeys opsim_colnames)) by (repeat constructor; simpl; intuition discriminate).
  assert (N2 : NoDup (dkeys [("read_noise", SNum 7)]%string)) by (repeat constructor; simpl; tauto).
  assert (N3 : NoDup (dkeys ([] : dict sval))) by constructor.
  destruct (C72_opsim_accepts two_visits None [] [("read_noise", SNum 7)]%string None two_visits_plain lsst_zp lsst_ext) as (o & EO); auto using two_visits_ok, two_visits_made.
  - unfold nrows. simpl. lia.
  - intros c [<-|[<-|[<-|[]]]]; simpl; tauto.
  - exists "r"%string. split; [reflexivity|]. split; discriminate.
  - destruct (C72_opsim_noise two_visits None [] [("read_noise", SNum 7)]%string None o two_visits_plain lsst_zp lsst_ext [100] [1]%nat (2 / 10) 7 (2 / 10))
      as (out & HE & HL & HO); auto using two_visits_ok, two_visits_made; try lra.
    + intros c [<-|[<-|[<-|[<-|[]]]]]; simpl; tauto.
    + intros i [<-|[]]. unfold nrows. simpl. lia.
    + destruct (C72_opsim_zero_points two_visits None [] [("read_noise", SNum 7)]%string None o two_visits_plain) as (zps & exs & Z1 & Z2 & ZP); auto using two_visits_ok, two_visits_made.
      change (Some (SMap lsst_zp) = Some (SMap zps)) in Z1. change (Some (SMap lsst_ext) = Some (SMap exs)) in Z2. injection Z1 as <-. injection Z2 as <-.
      destruct out as [|v [|]]; try discriminate. exists o, v. split; auto. split; [|split; auto].
      * apply (ZP 1%nat "g"%string (12 / 10) 10 (28508 / 1000) (- 208 / 1000)); try reflexivity. lra.
      * specialize (HO 0%nat 100 1%nat "g"%string (12 / 10) 10 2 2 20 (28508 / 1000) (- 208 / 1000)). cbv zeta in HO.
        assert (X : nth_error [v] 0 = Some (poisson_std 100 10 2 (PI / (2 * ln 2) * (2 / (2 / 10)) ^ 2) (mag2flux 20 * (2 / 10) ^ 2 / second_zp) second_zp (RNum 7) (2 / 10))).
        { apply HO; try reflexivity. lra. }
        simpl in X. injection X as ->. reflexivity.
Qed.
(** Searching an OpSim table (within the radius given or that of keyword argument, metadata or camera) finds exactly the
    matching rows of the table it was made from. *)
Theorem C72_opsim_search : forall ball f colmap meta kw fp o o0 ra dec radius tmin tmax r res, ball_spec ball -> frame_ok f -> NoDup (dkeys (opsim_map colmap)) ->
  NoDup (dkeys meta) -> NoDup (dkeys kw) -> ob_make f (Some (opsim_map colmap)) meta [] fp = Ok o0 -> opsim_make f colmap meta kw fp = Ok o ->
  match radius with Some x => x = r | None => value_given opsim_defaults meta kw "radius" = Some (SNum r) end -> 0 <= r <= 180 ->
  range_search ball o (QScalar ra) (QScalar dec) radius tmin tmax = Ok res ->
  exists l, res = One l /\ NoDup l /\ forall i, In i l <-> matches o0 ra dec r (bound_of tmin 0) (bound_of tmax 0) i.
Proof.
  intros ball f colmap meta kw fp o o0 ra dec radius tmin tmax r res HB F ND NM NK E0 H HR HL HS.
  destruct (opsim_grows _ _ _ _ _ _ _ F ND E0 H) as (G & T & O). cbv zeta in G.
  pose proof (gr_values _ _ G) as GV. cbn [ob_values] in GV.
  assert (ER : radius_of o radius = Some r).
  { unfold radius_of. destruct radius as [x|]; [now subst|]. rewrite GV, survey_value_get by auto. now rewrite HR. }
  destruct (exact_scalar_inv _ _ _ _ _ _ _ _ _ HB T ER HL HS) as (l & E & N & M). exists l. split; auto. split; auto.
  intros i. rewrite M. pose proof (make_inv_obs _ _ _ _ _ _ F (some_nodup _ _ ND) E0) as T0.
  assert (C : forall c, c <> "zp"%string -> num_at o c i = num_at o0 c i).
  { intros c Hc. unfold num_at. f_equal. destruct (in_dec string_dec c (columns (ob_frame o0))) as [I|I].
    - exact (gr_cells _ _ G c i I).
    - unfold cell_at. rewrite !(proj2 (dget_None _ _ _)); auto. intros I'. destruct (O c I') as [->|I2]; [congruence|]. contradiction. }
  unfold matches. rewrite !C by discriminate. rewrite (gr_fp _ _ G). cbn [ob_footprint]. reflexivity.
Qed.
