(** C73: the ZTF table: blank rows, zero points from limiting magnitudes, flux errors. *)
From Coq Require Import Reals String List Bool Arith ZArith Lia Lra Permutation.
From Verif Require Import Base BaseFacts RealBase ObsTableModel ObsTableProps ObsTableMore NoiseModel NoiseProps FakeModel FakeProps SurveyModel SurveyProps.
Import ListNotations.
Open Scope R_scope.

Definition ztf_map (colmap : option (dict string)) : dict string := match colmap with None => ztf_colnames | Some c => c end.
(** The table as handed to the base class: dates as text become MJD numbers unless there is an obsmjd column. *)
Definition dated (mjd : string -> R) (f : frame) : frame :=
  match dget "obsdate" (f_cols f) with
  | Some dates => if dmem "obsmjd" (f_cols f) then f
                  else mkFrame (f_labels f) (dset "obsmjd" (map (fun c => match c with CStr s => CNum (mjd s) | c => c end) dates) (f_cols f))
  | None => f
  end.
Lemma dated_ok : forall mjd f, frame_ok f -> frame_ok (dated mjd f).
Proof.
  intros mjd f [N F]. unfold dated. destruct (dget "obsdate" (f_cols f)) as [c|] eqn:E; [|split; auto]. destruct (dmem "obsmjd" (f_cols f)); [split; auto|].
  split; [unfold columns; cbn [f_cols]; now apply NoDup_dset|]. cbn [f_cols]. apply dset_cols_Forall; [exact F|]. cbn [snd]. rewrite map_length.
  rewrite Forall_forall in F. exact (F _ (dget_In _ _ _ _ E)).
Qed.
Lemma ztf_make_eq : forall mjd f colmap meta kw fp, ztf_make mjd f colmap meta kw fp = survey_make ztf_defaults ztf_zero_points (dated mjd f) (ztf_map colmap) meta kw fp.
Proof. reflexivity. Qed.
(** The rows with a width. *)
Definition has_width (o : obstable) (i : nat) : bool :=
  match cell_at o "fwhm" i with Some CNan => false | Some (CStr EmptyString) => false | _ => true end.
Definition with_width (o : obstable) : list nat := filter (has_width o) (seq 0 (nrows (ob_frame o))).
Lemma map_blank_get : forall d name, dget name (map (fun kc => (fst kc, map blank (snd kc))) d) = option_map (map blank) (dget name d).
Proof. induction d as [|[k v] d IH]; intros; simpl; auto. destruct (String.eqb name k); auto. Qed.
Definition width_mask (o : obstable) : list bool :=
  map (fun c => negb (is_nan c)) (match dget "fwhm" (map (fun kc => (fst kc, map blank (snd kc))) (f_cols (ob_frame o))) with Some c => c | None => [] end).
Definition blanked (o : obstable) : obstable :=
  mkObs (mkFrame (f_labels (ob_frame o)) (map (fun kc => (fst kc, map blank (snd kc))) (f_cols (ob_frame o)))) (ob_inv o) (ob_values o) (ob_filters o) (ob_tree o) (ob_footprint o).
Lemma blanked_cell : forall o name i, cell_at (blanked o) name i = option_map blank (cell_at o name i).
Proof. intros. unfold cell_at, blanked. cbn [ob_frame f_cols]. rewrite map_blank_get. destruct (dget name (f_cols (ob_frame o))); simpl; auto. apply nth_error_map. Qed.
Lemma blanked_ok : forall o, frame_ok (ob_frame o) -> frame_ok (ob_frame (blanked o)).
Proof.
  intros o [N F]. split.
  - unfold columns, blanked. cbn [ob_frame f_cols]. unfold dkeys in *. rewrite map_map. exact N.
  - unfold blanked. cbn [ob_frame f_cols]. rewrite Forall_forall in *. intros kc H. apply in_map_iff in H. destruct H as (x & <- & Hx). cbn [snd]. rewrite map_length.
    exact (F _ Hx).
Qed.
Lemma blanked_cols : forall o, columns (ob_frame (blanked o)) = columns (ob_frame o).
Proof. intros. unfold columns, blanked, dkeys. cbn [ob_frame f_cols]. now rewrite map_map. Qed.
Lemma width_mask_spec : forall o, frame_ok (ob_frame o) -> In "fwhm"%string (columns (ob_frame o)) ->
  length (width_mask o) = nrows (ob_frame o) /\ kept (width_mask o) = with_width o.
Proof.
  intros o [_ F] I. unfold width_mask. rewrite map_blank_get. apply dget_keys in I. destruct (dget "fwhm" (f_cols (ob_frame o))) as [c|] eqn:E; [|congruence]. cbn [option_map].
  rewrite Forall_forall in F. pose proof (F _ (dget_In _ _ _ _ E)) as L. cbn [snd] in L. split; [now rewrite !map_length|].
  unfold kept, with_width. rewrite !map_length, L. apply filter_ext_in. intros i Hi. apply in_seq in Hi. unfold has_width, cell_at. rewrite E.
  rewrite map_map. destruct (nth_error c i) as [x|] eqn:EN; [|apply nth_error_None in EN; lia].
  rewrite (nth_error_nth _ _ _ (eq_trans (nth_error_map _ _ _) (f_equal (option_map _) EN))). destruct x as [r|[|]|]; reflexivity.
Qed.
Lemma zp_absent : forall o, ob_contains o "zp" = false -> dmem "zp" (f_cols (ob_frame o)) = false.
Proof. intros o H. unfold ob_contains in H. apply orb_false_elim in H. apply H. Qed.
(** What is made of a table without zero points. *)
Record ztf_table (df : dict sval) (o0 o : obstable) : Prop := {
  zt_inv : tinv o;
  zt_rows : nrows (ob_frame o) = length (with_width o0);
  zt_labels : forall j i, nth_error (with_width o0) j = Some i -> nth_error (f_labels (ob_frame o)) j = nth_error (f_labels (ob_frame o0)) i;
  zt_values : ob_values o = df;
  zt_filters : ob_filters o = ob_filters o0;
  zt_fp : ob_footprint o = ob_footprint o0;
  zt_cols : forall c, In c (columns (ob_frame o)) <-> c = "zp"%string \/ In c (columns (ob_frame o0));
  zt_cells : forall c j i, c <> "zp"%string -> nth_error (with_width o0) j = Some i -> cell_at o c j = option_map blank (cell_at o0 c i);
  zt_zp : forall j i m s w t, nth_error (with_width o0) j = Some i ->
    cell_at o0 "maglim" i = Some (CNum m) -> cell_at o0 "sky" i = Some (CNum s) -> cell_at o0 "fwhm" i = Some (CNum w) -> cell_at o0 "exptime" i = Some (CNum t) ->
    cell_at o "zp" j = Some (cell_of (ztf_zero_point m s w t))
}.
Lemma ztf_made : forall mjd f colmap meta kw fp o0 o, frame_ok f -> NoDup (dkeys (ztf_map colmap)) ->
  ob_make (dated mjd f) (Some (ztf_map colmap)) meta [] fp = Ok o0 -> ob_contains o0 "zp" = false -> ztf_make mjd f colmap meta kw fp = Ok o ->
  ztf_table (survey_values ztf_defaults meta kw) o0 o.
Proof.
  intros mjd f colmap meta kw fp o0 o F ND E0 HZ H. rewrite ztf_make_eq in H.
  destruct (survey_base _ _ _ _ _ _ _ _ H) as (o0' & E0' & M). rewrite E0 in E0'. injection E0' as <-. cbv zeta in M. destruct M as (o1 & M1 & ->). rewrite HZ in M1.
  pose proof (make_inv_obs _ _ _ _ _ _ (dated_ok mjd _ F) (some_nodup _ _ ND) E0) as T0. pose proof (zp_absent _ HZ) as HD.
  unfold ztf_zero_points in M1. cbv zeta in M1. cbn [ob_frame] in M1.
  destruct (dmem "maglim" (f_cols (ob_frame o0)) && dmem "sky" (f_cols (ob_frame o0)) && dmem "fwhm" (f_cols (ob_frame o0)) && dmem "exptime" (f_cols (ob_frame o0)))%bool eqn:EC;
    [|discriminate]. cbn [negb] in M1. apply andb_prop in EC. destruct EC as [EC C4]. apply andb_prop in EC. destruct EC as [EC C3]. apply andb_prop in EC. destruct EC as [C1 C2].
  apply dmem_true in C1, C2, C3, C4. destruct (width_mask_spec o0 (ti_frame _ T0) C3) as [WL WK].
  set (oc := mkObs (ztf_clean (ob_frame o0)) _ _ _ _ _) in M1.
  assert (BI : frame_ok (ob_frame (blanked o0))) by exact (blanked_ok _ (ti_frame _ T0)).
  assert (FC : ob_frame oc = mask_frame (width_mask o0) (ob_frame (blanked o0))) by reflexivity.
  assert (OKC : frame_ok (ob_frame oc)) by (rewrite FC; now apply mask_frame_ok).
  assert (COLS : columns (ob_frame oc) = columns (ob_frame o0)).
  { rewrite FC. unfold mask_frame. unfold columns at 1. cbn [f_cols]. rewrite dkeys_mask. exact (blanked_cols o0). }
  assert (NRC : nrows (ob_frame oc) = length (with_width o0)).
  { rewrite FC. unfold nrows, mask_frame. cbn [f_labels]. rewrite mask_list_len; [now rewrite WK|]. exact WL. }
  assert (CELLS : forall c j i, nth_error (with_width o0) j = Some i -> cell_at oc c j = option_map blank (cell_at o0 c i)).
  { intros c j i Hj. rewrite <- blanked_cell. unfold cell_at. rewrite FC. unfold mask_frame. cbn [f_cols]. rewrite dget_mask.
    destruct (dget c (f_cols (ob_frame (blanked o0)))) as [l|] eqn:ED; auto. cbn [option_map]. apply mask_list_nth; [|now rewrite WK].
    destruct BI as [_ BF]. rewrite Forall_forall in BF. pose proof (BF _ (dget_In _ _ _ _ ED)) as L. cbn [snd] in L. rewrite L. exact WL. }
  assert (HDC : dmem "zp" (f_cols (ob_frame oc)) = false).
  { apply dmem_false. fold (columns (ob_frame oc)). rewrite COLS. now apply dmem_false in HD. }
  unfold add_column in M1. cbv zeta in M1. rewrite HDC in M1. cbn [andb] in M1. destruct (_ =? _)%nat eqn:EL; [|discriminate]. apply Nat.eqb_eq in EL. injection M1 as <-.
  set (vals := map cell_of _) in *. cbn [ob_frame ob_inv ob_values ob_filters ob_footprint f_labels].
  assert (LT : forall j i, nth_error (with_width o0) j = Some i -> (j < nrows (ob_frame oc))%nat).
  { intros j i Hj. rewrite NRC. apply nth_error_Some. congruence. }
  split; cbn [ob_frame ob_inv ob_values ob_filters ob_footprint ob_tree].
  - split; cbn [ob_frame ob_tree]; auto.
    + split; [unfold columns; cbn [f_cols]; apply NoDup_dset; apply OKC|]. apply dset_cols_Forall; [apply OKC|exact EL].
    + intros c Hc. unfold columns. cbn [f_cols]. apply In_dkeys_dset. right. change (In c (columns (ob_frame oc))). rewrite COLS. now apply (ti_req _ T0).
  - exact NRC.
  - intros j i Hj. change (nth_error (mask_list (width_mask o0) (f_labels (ob_frame (blanked o0)))) j = nth_error (f_labels (ob_frame o0)) i). rewrite (mask_list_nth _ (width_mask o0) (f_labels (ob_frame (blanked o0))) j i); [reflexivity|exact WL|now rewrite WK].
  - reflexivity.
  - reflexivity.
  - reflexivity.
  - intros c. rewrite <- COLS. unfold columns. cbn [f_cols]. apply In_dkeys_dset.
  - intros c j i Hc Hj. unfold cell_at at 1. cbn [ob_frame f_cols]. rewrite dget_dset_other by auto. exact (CELLS c j i Hj).
  - intros j i m s w t Hj Hm Hs Hw Ht. unfold cell_at at 1. cbn [ob_frame f_cols]. rewrite dget_dset_same. unfold vals. rewrite nth_error_map, zip4_nth, !nth_error_map.
    assert (CO : forall c r, cell_at o0 c i = Some (CNum r) -> nth_error (col_of oc c) j = Some (CNum r)).
    { intros c r HC. pose proof (CELLS c j i Hj) as X. rewrite HC in X. cbn [option_map blank] in X. unfold col_of. unfold cell_at in X. now destruct (dget c (f_cols (ob_frame oc))). }
    rewrite (CO _ _ Hm), (CO _ _ Hs), (CO _ _ Hw), (CO _ _ Ht). reflexivity.
Qed.
(** Rows without a width are dropped; every other row is kept, in order, with its cells (empty text becomes NaN). *)
Theorem C73_rows : forall mjd f colmap meta kw fp o0 o, frame_ok f -> NoDup (dkeys (ztf_map colmap)) ->
  ob_make (dated mjd f) (Some (ztf_map colmap)) meta [] fp = Ok o0 -> ob_contains o0 "zp" = false -> ztf_make mjd f colmap meta kw fp = Ok o ->
  nrows (ob_frame o) = length (with_width o0) /\ (forall c, In c (columns (ob_frame o)) <-> c = "zp"%string \/ In c (columns (ob_frame o0))) /\
  forall c j i, c <> "zp"%string -> nth_error (with_width o0) j = Some i -> cell_at o c j = option_map blank (cell_at o0 c i).
Proof.
  intros mjd f colmap meta kw fp o0 o F ND E0 HZ H. destruct (ztf_made _ _ _ _ _ _ _ _ F ND E0 HZ H). auto.
Qed.
(** The zero point of a kept row follows from its limiting magnitude, sky, width and exposure time. *)
Theorem C73_zero_points : forall mjd f colmap meta kw fp o0 o, frame_ok f -> NoDup (dkeys (ztf_map colmap)) ->
  ob_make (dated mjd f) (Some (ztf_map colmap)) meta [] fp = Ok o0 -> ob_contains o0 "zp" = false -> ztf_make mjd f colmap meta kw fp = Ok o ->
  forall j i m s w t, nth_error (with_width o0) j = Some i ->
    cell_at o0 "maglim" i = Some (CNum m) -> cell_at o0 "sky" i = Some (CNum s) -> cell_at o0 "fwhm" i = Some (CNum w) -> cell_at o0 "exptime" i = Some (CNum t) ->
    0 <= s -> 0 <= t ->
    exists z, zp_from_maglim m s w ztf_gain ztf_read ztf_dark t 1 = Some z /\ cell_at o "zp" j = Some (CNum (mag2flux z)).
Proof.
  intros mjd f colmap meta kw fp o0 o F ND E0 HZ H j i m s w t Hj Hm Hs Hw Ht P1 P2. destruct (ztf_made _ _ _ _ _ _ _ _ F ND E0 HZ H) as [_ _ _ _ _ _ _ _ Z].
  rewrite (Z j i m s w t Hj Hm Hs Hw Ht). destruct (C56_defined m s w ztf_gain ztf_read ztf_dark t 1) as (z & E & _); try (unfold ztf_gain, ztf_dark; lra).
  exists z. split; auto. unfold ztf_zero_point. rewrite E. reflexivity.
Qed.
(** Errors of a ZTF table: per requested row. *)
Theorem C73_errors : forall o flux index g rn dk, (forall i, In i index -> (i < nrows (ob_frame o))%nat) -> length flux = length index ->
  (forall c, In c ["fwhm"; "exptime"; "sky"; "zp"]%string -> In c (columns (ob_frame o))) ->
  dget "gain" (ob_values o) = Some (SNum g) -> dget "read_noise" (ob_values o) = Some (SNum rn) -> dget "dark_current" (ob_values o) = Some (SNum dk) ->
  exists out, ztf_errors o flux index = Ok out /\ length out = length index /\
  forall j x i t w s z, nth_error flux j = Some x -> nth_error index j = Some i ->
    cell_at o "exptime" i = Some (CNum t) -> cell_at o "fwhm" i = Some (CNum w) -> cell_at o "sky" i = Some (CNum s) -> cell_at o "zp" i = Some (CNum z) ->
    nth_error out j = Some (poisson_std x t 1 (PI / (2 * ln 2) * w ^ 2) (s * g) z (RNum rn) dk).
Proof.
  intros o flux index g rn dk HI HL HC VG VR VD. unfold ztf_errors.
  replace (in_rows o index) with true by (symmetry; apply forallb_forall; intros i Hi; apply Nat.ltb_lt; auto). cbn [negb].
  assert (N : forall names, (forall c, In c names -> In c (columns (ob_frame o))) -> need_cols o names = Ok tt).
  { induction names as [|c names IH]; intros HN; cbn [need_cols]; auto. unfold need_col. pose proof (HN c (or_introl eq_refl)) as Hc. apply dget_keys in Hc.
    destruct (dget c (f_cols (ob_frame o))); [|congruence]. cbn [bind]. apply IH. intros; apply HN; right; auto. }
  rewrite !N by (intros c Hc; apply HC; simpl in *; tauto). cbn [bind]. rewrite (proj2 (safe_number_ok _ _ _) VG), (proj2 (safe_number_ok _ _ _) VR), (proj2 (safe_number_ok _ _ _) VD). cbn [bind].
  rewrite HL, Nat.eqb_refl. cbn [negb]. eexists. split; [reflexivity|]. split; [rewrite map_length, combine_length; lia|].
  intros j x i t w s z Hx Hi H1 H2 H3 H4. rewrite nth_error_map, nth_error_combine, Hx, Hi. cbn [option_map].
  rewrite !num_at_row, H1, H2, H3, H4. cbn [num_opt]. unfold ztf_error, gauss_area. now rewrite <- Rsqr_pow2.
Qed.
(** With the default camera a source at the limiting magnitude of a kept row has a signal-to-noise ratio between 4.9995 and 5
    there. *)
Theorem C73_five_sigma : forall mjd f colmap meta kw fp o0 o, frame_ok f -> NoDup (dkeys (ztf_map colmap)) -> NoDup (dkeys meta) -> NoDup (dkeys kw) ->
  ob_make (dated mjd f) (Some (ztf_map colmap)) meta [] fp = Ok o0 -> ob_contains o0 "zp" = false -> ztf_make mjd f colmap meta kw fp = Ok o ->
  (forall k, In k ["gain"; "read_noise"; "dark_current"]%string -> dget k kw = None /\ dget k meta = None) ->
  forall j i m s w t, nth_error (with_width o0) j = Some i ->
    cell_at o0 "maglim" i = Some (CNum m) -> cell_at o0 "sky" i = Some (CNum s) -> cell_at o0 "fwhm" i = Some (CNum w) -> cell_at o0 "exptime" i = Some (CNum t) ->
    0 <= s -> 0 < w -> 0 <= t ->
    exists e, ztf_errors o [mag2flux m] [j] = Ok [Some e] /\ 49995 / 10000 < mag2flux m / e < 5.
Proof.
  intros mjd f colmap meta kw fp o0 o F ND NM NK E0 HZ H DF j i m s w t Hj Hm Hs Hw Ht P1 P2 P3.
  pose proof (ztf_made _ _ _ _ _ _ _ _ F ND E0 HZ H) as ZT.
  assert (DV : forall k v, In k ["gain"; "read_noise"; "dark_current"]%string -> dget k ztf_defaults = Some v -> dget k (ob_values o) = Some v).
  { intros k v Hk Hv. rewrite (zt_values _ _ _ ZT), survey_value_get by auto. unfold value_given. destruct (DF k Hk) as [-> ->]. exact Hv. }
  assert (HCs : forall c, In c ["fwhm"; "exptime"; "sky"; "zp"]%string -> In c (columns (ob_frame o))).
  { intros c Hc. apply (zt_cols _ _ _ ZT). assert (K : forall c r, cell_at o0 c i = Some r -> In c (columns (ob_frame o0))).
    { intros c' r HC. apply dget_keys. unfold cell_at in HC. now destruct (dget c' (f_cols (ob_frame o0))). }
    destruct Hc as [<-|[<-|[<-|[<-|[]]]]]; eauto. }
  destruct (C73_errors o [mag2flux m] [j] ztf_gain ztf_read ztf_dark) as (out & EO & LO & HO); auto; try (apply DV; [simpl; tauto|reflexivity]).
  - intros k [<-|[]]. rewrite (zt_rows _ _ _ ZT). apply nth_error_Some. congruence.
  - destruct out as [|v [|]]; try discriminate.
    destruct (C56_defined m s w ztf_gain ztf_read ztf_dark t 1) as (z & E & _); try (unfold ztf_gain, ztf_dark; lra).
    assert (EZ : ztf_zero_point m s w t = Some (mag2flux z)) by (unfold ztf_zero_point; now rewrite E).
    destruct (C56_ztf_close m s w t (mag2flux z) P1 P2 P3 EZ) as (e & EE & _ & B). exists e. split; [|exact B].
    specialize (HO 0%nat (mag2flux m) j t w s (mag2flux z) eq_refl eq_refl).
    assert (C : forall c r, c <> "zp"%string -> cell_at o0 c i = Some (CNum r) -> cell_at o c j = Some (CNum r)).
    { intros c r Hc HC. rewrite (zt_cells _ _ _ ZT c j i Hc Hj), HC. reflexivity. }
    assert (X : nth_error [v] 0 = Some (poisson_std (mag2flux m) t 1 (PI / (2 * ln 2) * w ^ 2) (s * ztf_gain) (mag2flux z) (RNum ztf_read) ztf_dark)).
    { apply HO; try (apply C; [discriminate|assumption]). rewrite (zt_zp _ _ _ ZT j i m s w t Hj Hm Hs Hw Ht), EZ. reflexivity. }
    cbn [nth_error] in X. assert (X2 : v = ztf_error (mag2flux m) t w s (mag2flux z) ztf_gain ztf_read ztf_dark).
    { unfold ztf_error, gauss_area. change (w * w) with (w²). rewrite Rsqr_pow2. congruence. }
    now rewrite EO, X2, EE.
Qed.
(** Searching a ZTF table finds, for each kept row, whether the row of the original table matches. *)
Theorem C73_search : forall ball mjd f colmap meta kw fp o0 o ra dec radius tmin tmax r res, ball_spec ball -> frame_ok f -> NoDup (dkeys (ztf_map colmap)) ->
  NoDup (dkeys meta) -> NoDup (dkeys kw) ->
  ob_make (dated mjd f) (Some (ztf_map colmap)) meta [] fp = Ok o0 -> ob_contains o0 "zp" = false -> ztf_make mjd f colmap meta kw fp = Ok o ->
  match radius with Some x => x = r | None => value_given ztf_defaults meta kw "radius" = Some (SNum r) end -> 0 <= r <= 180 ->
  range_search ball o (QScalar ra) (QScalar dec) radius tmin tmax = Ok res ->
  (forall c i s, In c ["ra"; "dec"; "time"; "rotation"]%string -> cell_at o0 c i <> Some (CStr s)) ->
  exists l, res = One l /\ NoDup l /\ (forall j, In j l -> (j < length (with_width o0))%nat) /\
    forall j i, nth_error (with_width o0) j = Some i -> (In j l <-> matches o0 ra dec r (bound_of tmin 0) (bound_of tmax 0) i).
Proof.
  intros ball mjd f colmap meta kw fp o0 o ra dec radius tmin tmax r res HB F ND NM NK E0 HZ H HR HL HS HN.
  pose proof (ztf_made _ _ _ _ _ _ _ _ F ND E0 HZ H) as ZT. pose proof (zt_values _ _ _ ZT) as GV.
  assert (ER : radius_of o radius = Some r).
  { unfold radius_of. destruct radius as [x|]; [now subst|]. rewrite GV, survey_value_get by auto. now rewrite HR. }
  destruct (exact_scalar_inv _ _ _ _ _ _ _ _ _ HB (zt_inv _ _ _ ZT) ER HL HS) as (l & E & N & M). exists l. split; auto. split; auto. split.
  - intros j Hj. apply M in Hj. destruct Hj as (a & b & c & A & _). rewrite <- (zt_rows _ _ _ ZT). now apply (num_at_lt _ _ _ _ (zt_inv _ _ _ ZT) A).
  - intros j i Hj. rewrite M.
    assert (C : forall c, In c ["ra"; "dec"; "time"; "rotation"]%string -> num_at o c j = num_at o0 c i).
    { intros c Hc. unfold num_at. rewrite (zt_cells _ _ _ ZT c j i) by (auto; destruct Hc as [<-|[<-|[<-|[<-|[]]]]]; discriminate).
      destruct (cell_at o0 c i) as [[x|s|]|] eqn:EC; auto. exfalso. exact (HN c i s Hc EC). }
    unfold matches. rewrite !C by (simpl; tauto). rewrite (zt_fp _ _ _ ZT). reflexivity.
Qed.
(** Missing columns are refused, otherwise the table is made. *)
Theorem C73_accepts : forall mjd f colmap meta kw fp o0, frame_ok f -> NoDup (dkeys (ztf_map colmap)) ->
  ob_make (dated mjd f) (Some (ztf_map colmap)) meta [] fp = Ok o0 -> ob_contains o0 "zp" = false ->
  ((exists o, ztf_make mjd f colmap meta kw fp = Ok o) <-> (forall c, In c ["maglim"; "sky"; "fwhm"; "exptime"]%string -> In c (columns (ob_frame o0)))) /\
  forall e, ztf_make mjd f colmap meta kw fp = Err e -> e = ValueError.
Proof.
  intros mjd f colmap meta kw fp o0 F ND E0 HZ. pose proof (make_inv_obs _ _ _ _ _ _ (dated_ok mjd _ F) (some_nodup _ _ ND) E0) as T0.
  rewrite ztf_make_eq. unfold survey_make. unfold ob_make in E0. destruct (remap (Some (ztf_map colmap)) (dated mjd f)) as [[f' inv]|]; [|discriminate]. cbn [bind] in *.
  destruct (forallb _ required); [|discriminate]. cbn [negb]. injection E0 as <-. cbv zeta. cbn [ob_frame].
  change (ob_contains (mkObs f' inv (survey_values ztf_defaults meta kw) (unique_filters f') [] fp) "zp" = false) in HZ. rewrite HZ.
  unfold ztf_zero_points. cbv zeta. cbn [ob_frame ob_inv ob_values ob_filters ob_tree ob_footprint].
  destruct (dmem "maglim" (f_cols f') && dmem "sky" (f_cols f') && dmem "fwhm" (f_cols f') && dmem "exptime" (f_cols f'))%bool eqn:EC; cbn [negb].
  - apply andb_prop in EC. destruct EC as [EC C4]. apply andb_prop in EC. destruct EC as [EC C3]. apply andb_prop in EC. destruct EC as [C1 C2].
    apply dmem_true in C1, C2, C3, C4. cbn [ob_frame] in T0. set (oc := mkObs (ztf_clean f') inv _ _ _ _).
    assert (X : exists o1, add_column oc "zp" (ColList (map cell_of (zip4 ztf_row_zp (map num_opt (col_of oc "maglim")) (map num_opt (col_of oc "sky"))
                  (map num_opt (col_of oc "fwhm")) (map num_opt (col_of oc "exptime"))))) true = Ok o1).
    { apply (proj1 (proj2 (C66_add_column_accepts _ _ _ _))); [auto|]. intros l El. injection El as <-. rewrite map_length.
      assert (OK : frame_ok (ob_frame oc)).
      { cbn [oc ob_frame]. unfold ztf_clean. cbv zeta. apply mask_frame_ok. exact (blanked_ok (mkObs f' inv [] [] [] None) (ti_frame _ T0)). }
      assert (L : forall c, In c (columns f') -> length (map num_opt (col_of oc c)) = nrows (ob_frame oc)).
      { intros c Hc. rewrite map_length. unfold col_of. destruct OK as [_ FF]. rewrite Forall_forall in FF.
        assert (I : In c (columns (ob_frame oc))).
        { cbn [oc ob_frame]. unfold ztf_clean. cbv zeta. unfold columns, mask_frame. cbn [f_cols]. rewrite dkeys_mask. unfold dkeys. rewrite map_map. exact Hc. }
        apply dget_keys in I. destruct (dget c (f_cols (ob_frame oc))) as [l|] eqn:EG; [|congruence]. exact (FF _ (dget_In _ _ _ _ EG)). }
      apply zip4_length; apply L; auto. }
    destruct X as (o1 & ->). cbn [bind]. split; [|discriminate]. split; [|eauto]. intros _ c [<-|[<-|[<-|[<-|[]]]]]; auto.
  - cbn [bind]. split; [|intros e E; now inversion E]. split; [intros (o & E); discriminate|]. intros HC. exfalso.
    rewrite !(proj2 (dmem_true _ _ (f_cols f'))) in EC by (apply HC; simpl; tauto). discriminate.
Qed.
(** The date column: with the default column names, observation times are the MJD of the dates. *)
Theorem C73_dates : forall mjd f meta fp o0 dates i s, frame_ok f -> dget "obsdate" (f_cols f) = Some dates -> ~ In "obsmjd"%string (columns f) ->
  ob_make (dated mjd f) (Some ztf_colnames) meta [] fp = Ok o0 -> nth_error dates i = Some (CStr s) -> cell_at o0 "time" i = Some (CNum (mjd s)).
Proof.
  intros mjd f meta fp o0 dates i s F HD HN E0 HI.
  assert (DC : dget "obsmjd" (f_cols (dated mjd f)) = Some (map (fun c => match c with CStr s => CNum (mjd s) | c => c end) dates)).
  { unfold dated. rewrite HD. apply dmem_false in HN. rewrite HN. cbn [f_cols]. apply dget_dset_same. }
  assert (N1 : NoDup (dkeys ztf_colnames)) by (repeat constructor; simpl; intuition discriminate).
  assert (N2 : NoDup (map snd ztf_colnames)) by (repeat constructor; simpl; intuition discriminate).
  destruct (C37_renamed _ _ _ _ _ _ "time"%string "obsmjd"%string _ (dated_ok mjd _ F) N1 N2 E0 ltac:(simpl; tauto) DC) as (G & _ & I & _).
  unfold ob_getitem in G. unfold cell_at. apply dget_keys in I. destruct (dget "time" (f_cols (ob_frame o0))) as [c|]; [|congruence]. injection G as ->.
  rewrite nth_error_map, HI. reflexivity.
Qed.
(** A concrete table: two nights, the first without width. *)
Definition two_nights : frame := mkFrame [0; 1]%nat
  [("ra", [CNum 0; CNum 0]); ("dec", [CNum 0; CNum 0]); ("obsdate", [CStr "2020-01-01"; CStr "2020-01-02"]); ("filter", [CStr "g"; CStr "r"]);
   ("fwhm", [CStr ""; CNum 2]); ("maglim", [CNum 20; CNum 21]); ("scibckgnd", [CNum 100; CNum 200]); ("exptime", [CNum 30; CNum 30])]%string.
Definition nights (s : string) : R := if String.eqb s "2020-01-01" then 58849 else 58850.
Lemma two_nights_ok : frame_ok two_nights.
Proof. split; [|repeat constructor]. repeat constructor; simpl; intuition discriminate. Qed.
Lemma two_nights_made : exists o0 o, ob_make (dated nights two_nights) (Some ztf_colnames) [] [] None = Ok o0 /\ ob_contains o0 "zp" = false /\
  ztf_make nights two_nights None [] [] None = Ok o /\ with_width o0 = [1%nat] /\ f_labels (ob_frame o0) = [0; 1]%nat /\
  ob_filters o0 = ["g"; "r"]%string /\ (forall c i, In c ["ra"; "dec"]%string -> (i < 2)%nat -> cell_at o0 c i = Some (CNum 0)) /\
  cell_at o0 "time" 1 = Some (CNum 58850) /\ cell_at o0 "maglim" 1 = Some (CNum 21) /\ cell_at o0 "sky" 1 = Some (CNum 200) /\
  cell_at o0 "fwhm" 1 = Some (CNum 2) /\ cell_at o0 "exptime" 1 = Some (CNum 30) /\ cell_at o0 "filter" 1 = Some (CStr "r") /\ ob_footprint o0 = None.
Proof.
  destruct (ob_make (dated nights two_nights) (Some ztf_colnames) [] [] None) as [o0|] eqn:E0; [|discriminate]. exists o0.
  assert (HZ : ob_contains o0 "zp" = false) by (injection E0 as <-; reflexivity).
  assert (ND : NoDup (dkeys ztf_colnames)) by (repeat constructor; simpl; intuition discriminate).
  destruct (proj2 (proj1 (C73_accepts nights two_nights None [] [] None o0 two_nights_ok ND E0 HZ))) as (o & EO).
  { injection E0 as <-. intros c [<-|[<-|[<-|[<-|[]]]]]; simpl; tauto. }
  exists o. split; auto. split; auto. split; auto. clear EO. injection E0 as <-. repeat split; auto.
  intros c i [<-|[<-|[]]] Hi; destruct i as [|[|i]]; try lia; reflexivity.
Qed.
Example C73_case : exists o0 o, ob_make (dated nights two_nights) (Some ztf_colnames) [] [] None = Ok o0 /\ ztf_make nights two_nights None [] [] None = Ok o /\
  with_width o0 = [1%nat] /\ nrows (ob_frame o) = 1%nat /\ cell_at o "time" 0 = Some (CNum 58850) /\
  exists e, ztf_errors o [mag2flux 21] [0]%nat = Ok [Some e] /\ 49995 / 10000 < mag2flux 21 / e < 5.
Proof.
  destruct two_nights_made as (o0 & o & E0 & HZ & EO & W & _ & _ & _ & HT & HM & HS & HW & HE & _). exists o0, o. split; auto. split; auto. split; auto.
  assert (ND : NoDup (dkeys (ztf_map None))) by (repeat constructor; simpl; intuition discriminate).
  destruct (C73_rows nights two_nights None [] [] None o0 o two_nights_ok ND E0 HZ EO) as (A & _ & B). split; [now rewrite A, W|]. split.
  - rewrite (B "time"%string 0%nat 1%nat); [now rewrite HT|discriminate|now rewrite W].
  - apply (C73_five_sigma nights two_nights None [] [] None o0 o) with (i := 1%nat) (s := 200) (w := 2) (t := 30); auto using two_nights_ok; try lra; try constructor.
    + now rewrite W.
Qed.
(** Finding: the row labels are not renumbered, so [get_observations] fails (or returns another row) for what the search finds. *)
Theorem C73_labels_refuted : exists o, ztf_make nights two_nights None [] [] None = Ok o /\ forall ball, ball_spec ball ->
  range_search ball o (QScalar 0) (QScalar 0) (Some 1) TNone TNone = Ok (One [0%nat]) /\
  get_observations ball o 0 0 (Some 1) TNone TNone (Some ["time"%string]) = Err KeyError.
Proof.
  destruct two_nights_made as (o0 & o & E0 & HZ & EO & W & LB & _ & RD & HT & _ & _ & _ & _ & _ & FP). exists o. split; auto. intros ball HB.
  assert (ND : NoDup (dkeys (ztf_map None))) by (repeat constructor; simpl; intuition discriminate).
  pose proof (ztf_made nights two_nights None [] [] None o0 o two_nights_ok ND E0 HZ EO) as ZT.
  assert (C : forall c v, c <> "zp"%string -> cell_at o0 c 1 = Some (CNum v) -> cell_at o c 0 = Some (CNum v)).
  { intros c v Hc HC. rewrite (zt_cells _ _ _ ZT c 0%nat 1%nat Hc) by (now rewrite W). now rewrite HC. }
  destruct (range_search ball o (QScalar 0) (QScalar 0) (Some 1) TNone TNone) as [res|] eqn:ER; [|discriminate].
  destruct (exact_scalar_inv ball o 0 0 (Some 1) TNone TNone res 1 HB (zt_inv _ _ _ ZT) eq_refl ltac:(lra) ER) as (l & -> & NDl & M).
  assert (EL : l = [0%nat]).
  { assert (I0 : In 0%nat l).
    { apply M. exists 0, 0, 58850. unfold num_at. rewrite (C "ra"%string 0), (C "dec"%string 0), (C "time"%string 58850); auto; try discriminate; try (apply RD; simpl; auto; lia).
      do 3 (split; [reflexivity|]). rewrite sep_same. split; [lra|]. split; [discriminate|]. split; [discriminate|]. rewrite (zt_fp _ _ _ ZT), FP. discriminate. }
    assert (ALL : forall j, In j l -> j = 0%nat).
    { intros j Hj. apply M in Hj. destruct Hj as (a & b & c & A & _). pose proof (num_at_lt _ _ _ _ (zt_inv _ _ _ ZT) A) as L. rewrite (zt_rows _ _ _ ZT), W in L. simpl in L. lia. }
    destruct l as [|x [|y l]]; [destruct I0| |].
    - now rewrite (ALL x (or_introl eq_refl)).
    - exfalso. inversion NDl as [|? ? N1 _]; subst. apply N1. left. rewrite (ALL x (or_introl eq_refl)), (ALL y (or_intror (or_introl eq_refl))). reflexivity. }
  subst l. split; [reflexivity|]. unfold get_observations. rewrite ER. cbn [bind fold_res]. cbv zeta.
  assert (LO : f_labels (ob_frame o) = [1%nat]).
  { pose proof (zt_rows _ _ _ ZT) as NR. pose proof (zt_labels _ _ _ ZT 0%nat 1%nat) as L0. rewrite W in *. unfold nrows in NR. rewrite LB in L0.
    destruct (f_labels (ob_frame o)) as [|x [|]]; try discriminate. specialize (L0 eq_refl). simpl in L0. congruence. }
  unfold fold_res, ob_getitem. pose proof (ti_req _ (zt_inv _ _ _ ZT) "time"%string ltac:(simpl; tauto)) as I. apply dget_keys in I.
  destruct (dget "time" (f_cols (ob_frame o))) as [c|] eqn:EC; [|congruence]. cbn [bind]. rewrite LO. destruct c as [|v c]; reflexivity.
Qed.
(** Finding: the list of filters still names filters of which every row was dropped. *)
Theorem C73_stale_filters_refuted : exists o, ztf_make nights two_nights None [] [] None = Ok o /\ In "g"%string (ob_filters o) /\
  forall i, cell_at o "filter" i <> Some (CStr "g").
Proof.
  destruct two_nights_made as (o0 & o & E0 & HZ & EO & W & LB & FL & RD & HT & _ & _ & _ & _ & HF & FP). exists o. split; auto.
  assert (ND : NoDup (dkeys (ztf_map None))) by (repeat constructor; simpl; intuition discriminate).
  pose proof (ztf_made nights two_nights None [] [] None o0 o two_nights_ok ND E0 HZ EO) as ZT. split; [rewrite (zt_filters _ _ _ ZT), FL; simpl; auto|].
  intros i E. destruct i as [|i].
  - rewrite (zt_cells _ _ _ ZT "filter"%string 0%nat 1%nat), HF in E; [discriminate|discriminate|now rewrite W].
  - assert (NE : num_at o "filter" (S i) <> None) by (unfold num_at; rewrite E; discriminate). destruct (num_at o "filter" (S i)) eqn:EN; [|congruence].
    pose proof (num_at_lt _ _ _ _ (zt_inv _ _ _ ZT) EN) as L. rewrite (zt_rows _ _ _ ZT), W in L. simpl in L. lia.
Qed.
(** Finding: the zero points use the default camera even when gain, read noise or dark current are overridden. *)
Theorem C73_override_refuted : forall mjd f colmap meta kw kw' fp o o', ztf_make mjd f colmap meta kw fp = Ok o -> ztf_make mjd f colmap meta kw' fp = Ok o' ->
  ob_frame o = ob_frame o'.
Proof.
  intros mjd f colmap meta kw kw' fp o o' H H'. rewrite ztf_make_eq in *.
  destruct (survey_base _ _ _ _ _ _ _ _ H) as (a & Ea & Ma). destruct (survey_base _ _ _ _ _ _ _ _ H') as (b & Eb & Mb). rewrite Ea in Eb. injection Eb as <-.
  cbv zeta in *. destruct Ma as (x & Mx & ->). destruct Mb as (y & My & ->). cbn [ob_frame]. destruct (ob_contains a "zp"); [now subst|].
  unfold ztf_zero_points in *. cbv zeta in *. cbn [ob_frame ob_inv ob_values ob_filters ob_tree ob_footprint] in *. destruct (negb _); [discriminate|].
  unfold add_column in *. cbv zeta in *. cbn [ob_frame ob_inv ob_values ob_filters ob_tree ob_footprint] in *. destruct (_ && _)%bool; [discriminate|].
  unfold col_of in *. cbn [ob_frame] in *. destruct (_ =? _)%nat; [|discriminate]. injection Mx as <-. injection My as <-. reflexivity.
Qed.
