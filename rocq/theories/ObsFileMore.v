(** Theorems C107, continued: tables that cannot be loaded again, or not as they were. *)
From Coq Require Import Reals String Ascii List Bool Arith Lia Lra.
From Verif Require Import Base BaseFacts RealBase ObsTableModel ObsTableProps ObsTableMore NoiseModel FakeModel FakeProps SurveyModel SurveyProps ZtfProps RomanModel RomanProps ObsFileModel ObsFileProofs ObsFileProps ObsDbProps.
Import ListNotations.
Open Scope string_scope.
Open Scope list_scope.
Open Scope nat_scope.

Lemma collide : forall k f key v meta kw fp, In (key, v) (k_map k) -> key <> v -> In v (columns (k_prep k f)) -> In key (columns (k_prep k f)) ->
  kmake k f None meta kw fp = Err ValueError.
Proof.
  intros k f key v meta kw fp HI NE HV HK. pose proof (C37_collision (k_prep k f) (k_map k) [] [] None key v HI HV HK NE) as X. unfold ob_make in X.
  match type of X with bind ?Y _ = _ => assert (R : Y = Err ValueError) end.
  { match type of X with bind ?Y _ = _ => destruct Y as [[f' inv]|e] end; cbn [bind] in X; [destruct (forallb _ required); discriminate|now injection X as ->]. }
  unfold kmake, survey_make. match goal with |- bind ?Y _ = _ => replace Y with (@Err (frame * dict string) ValueError) by (symmetry; exact R) end. reflexivity.
Qed.
Lemma saved : forall fs o p ow fs', write_parquet fs o p ow = (Ok tt, fs') -> load_parquet fs' p = Ok (ob_frame o, ob_values o).
Proof.
  intros fs o p ow fs' H. unfold write_parquet in H. destruct (_ && _)%bool; [discriminate|]. destruct (arrow_columns _); [|discriminate]. injection H as <-.
  unfold load_parquet. now rewrite put_same.
Qed.
(** Finding: a survey table with a column under one of the survey's own names besides the standard one (added later, or because another column
    map was used) can be saved but not loaded. *)
Theorem C107_own_name_refuted : forall k o fs p overwrite fs' key v, survey_class k -> k_prep k (ob_frame o) = ob_frame o ->
  In (key, v) (k_map k) -> key <> v -> In v (columns (ob_frame o)) -> In key (columns (ob_frame o)) ->
  write_parquet fs o p overwrite = (Ok tt, fs') -> from_parquet k fs' p = Err ValueError.
Proof.
  intros k o fs p ow fs' key v K HP HI NE HV HK HW. unfold from_parquet. rewrite (saved _ _ _ _ _ HW). cbn [bind fst snd]. eapply collide; eauto; now rewrite HP.
Qed.
(** Finding: a ZTF table with calendar dates (a column "obsdate", the usual case) can never be loaded again, neither from a parquet file nor from a
    database: the constructor converts the dates once more, and the result collides with the times. *)
Lemma ztf_dates_collide : forall mjd f meta kw fp, In "obsdate" (columns f) -> In "time" (columns f) -> kmake (ztf_class mjd) f None meta kw fp = Err ValueError.
Proof.
  intros mjd f meta kw fp HD HT. assert (X : In "obsmjd" (columns (add_mjd mjd f)) /\ In "time" (columns (add_mjd mjd f))).
  { unfold add_mjd. destruct (dget "obsdate" (f_cols f)) as [dates|] eqn:E; [|apply dget_None in E; contradiction]. destruct (dmem "obsmjd" (f_cols f)) eqn:EM.
    - apply dmem_true in EM. auto.
    - unfold columns. cbn [f_cols]. split; apply In_dkeys_dset; [now left|now right]. }
  apply (collide (ztf_class mjd) f "time" "obsmjd"); cbn [k_map k_prep ztf_class]; try tauto; [|discriminate]. cbn. tauto.
Qed.
Theorem C107_ztf_dates_refuted : forall mjd o fs p overwrite fs' t fsd, held (ztf_class mjd) o -> In "obsdate" (columns (ob_frame o)) ->
  (write_parquet fs o p overwrite = (Ok tt, fs') -> from_parquet (ztf_class mjd) fs' p = Err ValueError) /\
  (write_db fs o p t overwrite = (Ok tt, fsd) -> from_db (ztf_class mjd) fsd p (select_all t) None [] None = Err ValueError /\
     ztf_from_db mjd fsd p (select_all t) None = Err ValueError).
Proof.
  intros mjd o fs p ow fs' t fsd H HD. assert (K : survey_class (ztf_class mjd)) by (right; right; eauto).
  destruct (held_inv _ o K (class_nodup _ K) H) as [T _]. assert (HT : In "time" (columns (ob_frame o))) by (apply (ti_req o T); simpl; auto). split.
  - intros HW. unfold from_parquet. rewrite (saved _ _ _ _ _ HW). cbn [bind fst snd]. now apply ztf_dates_collide.
  - intros HW. pose proof (loaded_frame _ _ _ _ _ _ t HW eq_refl) as HL. unfold from_db, ztf_from_db. rewrite HL. cbn [bind].
    assert (X : forall kw fp, kmake (ztf_class mjd) (with_labels (ob_frame o)) None [] kw fp = Err ValueError) by (intros kw fp; apply ztf_dates_collide; right; auto).
    split; [apply X|]. apply (X [] None).
Qed.
(** ZTF's own loader is the general one with its column map; but it reads a table "exposures" unless told otherwise.  Finding: a table written and read
    with the default arguments is not found. *)
Theorem C107_ztf_loader : forall mjd fs p q, ztf_from_db mjd fs p q None = from_db (ztf_class mjd) fs p q None [] None.
Proof. reflexivity. Qed.
Theorem C107_ztf_query_refuted : forall mjd o fs p overwrite fs', fs p = None -> write_db fs o p "observations" overwrite = (Ok tt, fs') ->
  ztf_from_db mjd fs' p ztf_default_query None = Err ValueError.
Proof.
  intros mjd o fs p ow fs' HN HW. apply written in HW. destruct HW as (d & HD & _ & _ & _ & ->). unfold tables in HD. rewrite HN in HD. injection HD as <-.
  unfold ztf_from_db, load_db. rewrite put_same. reflexivity.
Qed.
(** Finding: old column names are forgotten by a plain table. *)
Theorem C107_old_names_refuted : forall o fs p overwrite fs' o' key, held base_class o -> write_parquet fs o p overwrite = (Ok tt, fs') ->
  from_parquet base_class fs' p = Ok o' -> ~ In key (columns (ob_frame o)) -> ob_contains o' key = false.
Proof.
  intros o fs p ow fs' o' key H HW HL HN. assert (K : survey_class base_class) by (now left).
  destruct (C107_parquet base_class o fs p ow fs' K H) as (x & E & F & _ & _ & _ & I & _); auto.
  { split; [intros k v []|]. intros mjd E. discriminate. }
  { now left. }
  rewrite HL in E. injection E as <-. unfold ob_contains. rewrite F, I. cbn [k_map base_class fold_left dget]. rewrite orb_false_r. apply dmem_false. exact HN.
Qed.
(** ** FakeObsTable *)
Lemma noise_values : forall o o', fake_noise_columns o = Ok o' -> ob_values o' = ob_values o.
Proof.
  assert (A : forall o name v ow o', add_column o name v ow = Ok o' -> ob_values o' = ob_values o) by (intros o name v ow o' H; apply add_column_shape in H; destruct H as (x & _ & ->); reflexivity).
  assert (B : forall o name c b o', assign_constant o name c = Ok (b, o') -> ob_values o' = ob_values o).
  { intros o name c b o' H. unfold assign_constant in H. cbv zeta in H. destruct (dmem name _); [injection H as _ <-; auto|].
    destruct (dget name (ob_values o)) as [[| | |]|]; try (injection H as _ <-; reflexivity).
    - match type of H with bind ?X _ = _ => destruct X end; [|discriminate]. cbn [bind] in H. destruct (add_column _ _ _ _) as [o1|] eqn:E; [|discriminate]. cbn [bind] in H. injection H as _ <-. eauto.
    - match type of H with bind ?X _ = _ => destruct X end; [|discriminate]. cbn [bind] in H. destruct (add_column _ _ _ _) as [o1|] eqn:E; [|discriminate]. cbn [bind] in H. injection H as _ <-. eauto.
    - destruct (ob_filters o); [|discriminate]. match type of H with bind ?X _ = _ => destruct X end; [|discriminate]. cbn [bind] in H. destruct (add_column _ _ _ _) as [o1|] eqn:E; [|discriminate]. cbn [bind] in H. injection H as _ <-. eauto. }
  assert (N : forall o name c o', needs o name c = Ok o' -> ob_values o' = ob_values o) by (intros o name c o' H; apply needs_ok in H; eauto).
  intros o o' H. unfold fake_noise_columns in H. destruct (needs o "exptime" true) as [o1|] eqn:E1; [|discriminate]. cbn [bind] in H.
  destruct (needs o1 "nexposure" true) as [o2|] eqn:E2; [|discriminate]. cbn [bind] in H. destruct (assign_constant o2 "psf_footprint" true) as [[b o3]|] eqn:E3; [|discriminate]. cbn [bind fst snd] in H.
  apply N in E1. apply N in E2. apply B in E3. destruct b; cbn [bind] in H.
  - apply N in H. congruence.
  - destruct (needs o3 "fwhm_px" true) as [o4|] eqn:E4; [|discriminate]. cbn [bind] in H. destruct (add_column _ _ _ _) as [o5|] eqn:E5; [|discriminate]. cbn [bind] in H.
    apply N in E4. apply A in E5. apply N in H. congruence.
Qed.
(** Finding: a FakeObsTable loaded from its file has lost its camera: dark current, read noise and field radius are those of the signature, whatever was saved,
    and the constant flux error is gone. *)
Theorem C107_fake_values_refuted : forall o fs p overwrite fs' k, write_parquet fs o p overwrite = (Ok tt, fs') -> fake_from_parquet fs' p = Ok k ->
  dget "dark_current" (ob_values (fk_obs k)) = Some (SNum 0) /\ dget "read_noise" (ob_values (fk_obs k)) = Some (SNum 0) /\
  dget "radius" (ob_values (fk_obs k)) = Some SNone /\ fk_const k = None.
Proof.
  intros o fs p ow fs' k HW HL. unfold fake_from_parquet in HL. rewrite (saved _ _ _ _ _ HW) in HL. cbn [bind fst snd] in HL.
  assert (V : ob_values (fk_obs k) = fake_values (ob_values o) fake_signature /\ fk_const k = None).
  { destruct (make_stages _ _ _ _ _ _ HL) as (o0 & _ & M). cbv zeta in M. destruct M as (o1 & M1 & c & MC & M2). cbn [fa_const fake_signature fake_const] in MC. injection MC as <-.
    destruct M2 as (o2 & M2 & ->). cbn [fk_obs fk_const]. split; auto. rewrite (noise_values _ _ M2). destruct (ob_contains _ "zp"); [now subst o1|].
    unfold fake_zero_points in M1. cbv zeta in M1. destruct (dmem "zp" _); [now injection M1 as <-|]. cbn [fa_zp fake_signature] in M1. discriminate. }
  destruct V as [V C]. rewrite V. assert (AO : args_ok fake_signature) by (split; [repeat constructor; simpl; intuition discriminate|discriminate]).
  split; [|split; [|split; auto]]; (apply fake_value_get; [exact AO|simpl; tauto]).
Qed.
(** Finding: a FakeObsTable made with a constant flux error has no column "sky"; it can be saved, but not loaded. *)
Theorem C107_fake_constant_refuted : forall o fs p overwrite fs' i s, frame_ok (ob_frame o) -> cell_at o "filter" i = Some (CStr s) -> ~ In "sky" (columns (ob_frame o)) ->
  write_parquet fs o p overwrite = (Ok tt, fs') -> forall k, fake_from_parquet fs' p <> Ok k.
Proof.
  intros o fs p ow fs' i s F HC HN HW k HL. unfold fake_from_parquet in HL. rewrite (saved _ _ _ _ _ HW) in HL. cbn [bind fst snd] in HL.
  destruct (make_stages _ _ _ _ _ _ HL) as (o0 & E0 & _). assert (ND : forall d : dict string, None = Some d -> NoDup (dkeys d)) by discriminate.
  assert (F0 : ob_frame o0 = ob_frame o).
  { pose proof (make_remap _ _ _ _ _ _ E0) as R. unfold remap in R. cbv zeta in R. injection R as R _. rewrite <- R. rewrite rename_same by (intros c; apply target_id). now destruct (ob_frame o). }
  revert HL. apply (C71_missing_refused (ob_frame o) None (ob_values o) fake_signature None o0 F ND); auto.
  - split; [repeat constructor; simpl; intuition discriminate|discriminate].
  - rewrite F0. unfold cell_at in HC. destruct (dget "filter" (f_cols (ob_frame o))) eqn:E; [|discriminate]. apply (dget_keys _ "filter" (f_cols (ob_frame o))). congruence.
  - exists i, s. unfold cell_at in *. now rewrite F0.
  - left. exists "sky", SNone. split; [right; right; now left|]. split; auto. now rewrite F0.
Qed.
(** ** RomanObsTable *)
(** Finding: a RomanObsTable can be saved, but never loaded: the columns its constructor needs have been renamed. *)
Theorem C107_roman_refuted : forall ch f meta kw fp f' o fs p overwrite fs', frame_ok f -> roman_make ch (RFrame f) None None meta kw fp = Ok (f', o) ->
  write_parquet fs o p overwrite = (Ok tt, fs') -> roman_from_parquet ch fs' p = Err AttributeError.
Proof.
  intros ch f meta kw fp f' o fs p ow fs' F H HW. destruct (roman_base _ _ _ _ _ _ _ H) as (_ & o0 & E0 & F0 & _). pose proof (make_remap _ _ _ _ _ _ E0) as R.
  pose proof (remap_inverse _ _ _ _ R) as RI. rewrite RI in R. destruct roman_nodup as [_ N2].
  destruct (sources_gone_map roman_colnames f' (ob_frame o0) N2) as [G _]; auto.
  { cbn. intros key v key' H1 NE H2 E; subst key'; repeat (destruct H1 as [H1|H1]; [injection H1 as <- <-; intuition congruence|]); destruct H1. }
  assert (NB : ~ In "BANDPASS" (columns (ob_frame o))) by (rewrite F0; apply (G "filter"); [cbn; tauto|discriminate]).
  unfold roman_from_parquet. rewrite (saved _ _ _ _ _ HW). cbn [bind fst snd]. unfold roman_make.
  assert (X : roman_append ch (ob_frame o) = Err AttributeError).
  { unfold roman_append. cbv zeta. unfold attr_col at 1.
    match goal with |- context [dget "BANDPASS" (f_cols ?g)] => set (g0 := g) end.
    assert (Y : dget "BANDPASS" (f_cols g0) = None).
    { apply dget_None. intros HI. apply NB. unfold g0 in HI. clear - HI.
      assert (Z : forall names g, ~ In "BANDPASS" names -> In "BANDPASS" (dkeys (f_cols (fold_left (fun f name => whole_col name (zeros f) f) names g))) -> In "BANDPASS" (columns g)).
      { induction names as [|n names IH]; intros g NN HI'; cbn [fold_left] in HI'; [exact HI'|]. apply IH in HI'; [|intros Q; apply NN; now right].
        unfold columns, whole_col in HI'. cbn [f_cols] in HI'. apply In_dkeys_dset in HI'. destruct HI' as [<-|HI']; [exfalso; apply NN; now left|exact HI']. }
      eapply Z; [|exact HI]. simpl. intuition discriminate. }
    rewrite Y. reflexivity. }
  rewrite X. reflexivity.
Qed.
(** ** A concrete case *)
(** An OpSim table of two visits, filtered to the second, with another radius: saved over an older file and loaded. *)
Definition disk : files := fun p => if String.eqb p "old.parquet" then Some FOther else if String.eqb p "old.db" then Some (FDb [("Observations", [("a", [CNum 1])]); ("notes", [("n", [CNum 2])])]) else None.
Lemma visits_second : exists o, ordinary opsim_class o /\ cell_at o "filter" 0 = Some (CStr "g") /\ dget "radius" (ob_values o) = Some (SNum 1) /\
  f_labels (ob_frame o) = [1] /\ smem "index" (columns (ob_frame o)) = false /\ fst (write_parquet disk o "old.parquet" true) = Ok tt /\ fst (write_parquet disk o "old.parquet" false) = Err RuntimeError /\
  fst (write_db disk o "old.db" "visits" false) = Ok tt /\ fst (write_db disk o "old.db" "observations" false) = Err ValueError.
Proof.
  assert (M : exists z1 z2, opsim_make two_visits None [] [] None = Ok (mkObs (mkFrame [0; 1]
      [("ra", [CNum 10; CNum 20]); ("dec", [CNum 0; CNum 5]); ("time", [CNum 60000; CNum 60001]); ("filter", [CStr "r"; CStr "g"]); ("airmass", [CNum 1; CNum (12 / 10)]);
       ("exptime", [CNum 30; CNum 10]); ("seeing", [CNum 1; CNum 2]); ("skybrightness", [CNum 21; CNum 20]); ("nexposure", [CNum 1; CNum 2]); ("zp", [CNum z1; CNum z2])]%R)
      (inverse opsim_colnames) opsim_defaults ["r"; "g"] [cart 10 0; cart 20 5] None)).
  { assert (L1 : Rleb 30 0 = false) by (apply Rleb_false; lra). assert (L2 : Rleb 10 0 = false) by (apply Rleb_false; lra).
    unfold opsim_make, survey_make. cbn -[IZR Rplus Rmult Rdiv mag2flux log10 cart Rleb opsim_defaults lsst_zp lsst_ext].
    unfold opsim_zero_points. cbn -[IZR Rplus Rmult Rdiv mag2flux log10 cart Rleb].
    rewrite L1, L2. cbn -[IZR Rplus Rmult Rdiv mag2flux log10 cart Rleb]. eexists _, _. reflexivity. }
  destruct M as (z1 & z2 & M). set (o1 := mkObs _ _ _ _ _ _) in M.
  assert (O1 : ordinary opsim_class o1) by (apply (ord_make opsim_class two_visits [] [] None); [exact two_visits_ok|discriminate|exact M]).
  destruct (filter_rows o1 (RMask [false; true])) as [o2|] eqn:EF; [|discriminate]. pose proof (ord_filter _ _ _ _ O1 EF) as O2. injection EF as EF.
  destruct (set_radius o2 1) as [o3|] eqn:ES; [|unfold set_radius in ES; rewrite (proj2 (Rleb_false 1 0)) in ES by lra; discriminate].
  pose proof (ord_radius _ _ _ _ O2 ES) as O3. unfold set_radius in ES. rewrite (proj2 (Rleb_false 1 0)) in ES by lra. injection ES as <-. exists (mkObs (ob_frame o2) (ob_inv o2) (dset "radius" (SNum 1) (ob_values o2)) (ob_filters o2) (ob_tree o2) (ob_footprint o2)). split; [exact O3|].
  subst o2. unfold o1. cbn [ob_frame ob_values]. repeat split; reflexivity.
Qed.
Example C107_case : exists o fs1 fs2 o1 o2, ordinary opsim_class o /\ write_parquet disk o "old.parquet" true = (Ok tt, fs1) /\ from_parquet opsim_class fs1 "old.parquet" = Ok o1 /\
  ob_frame o1 = ob_frame o /\ dget "radius" (ob_values o1) = Some (SNum 1) /\
  write_db disk o "old.db" "visits" false = (Ok tt, fs2) /\ from_db opsim_class fs2 "old.db" (select_all "visits") None [] None = Ok o2 /\
  cell_at o2 "index" 0 = Some (CNum 1) /\ dget "radius" (ob_values o2) = Some (SNum (175 / 100)) /\ load_db fs2 "old.db" (select_all "notes") = Ok (mkFrame [0] [("n", [CNum 2])]).
Proof.
  destruct visits_second as (o & O & HC & HR & HL & NI & W1 & _ & W2 & _). assert (K : survey_class opsim_class) by (right; now left).
  destruct (write_parquet disk o "old.parquet" true) as [r1 fs1] eqn:E1. cbn [fst] in W1. subst r1. destruct (write_db disk o "old.db" "visits" false) as [r2 fs2] eqn:E2. cbn [fst] in W2. subst r2.
  destruct (C107_ordinary opsim_class o disk "old.parquet" true fs1 K O E1) as (o1 & L1 & F1 & V1 & _).
  destruct (ordinary_standard opsim_class o K O) as (S1 & S2 & S3).
  destruct (C107_db opsim_class o disk "old.db" "visits" false fs2 "visits" [] None K (ordinary_held _ _ O) S1 S2 E2 eq_refl) as (o2 & L2 & LL & CC & CE & CI & VV & _).
  exists o, fs1, fs2, o1, o2. split; auto. split; auto. split; auto. split; auto. split; [now rewrite V1|]. split; auto. split; auto.
  rewrite NI in CI. split; [rewrite CI, HL; simpl; reflexivity|]. split; [rewrite VV by constructor; reflexivity|].
  apply written in E2. destruct E2 as (d & HD & _ & _ & _ & ->). injection HD as <-. reflexivity.
Qed.
