(** C102, continued: SED sources in formulas, filtered tables, runs of many supernovae, a worked case. *)
From Coq Require Import Reals String List Bool Arith ZArith Lia Lra.
From Verif Require Import Base BaseFacts RealBase PassbandModel PassbandProofs PassbandProps PassbandGroupProps ObsTableModel ObsTableProps SedModel SedProps SedPipeline SedBands SedMulti
  SimulateModel SimulateProps SimulateDefined SimulateMore NoiseModel NoiseProps FakeModel FakeProps SurveyModel SurveyProps Salt2Model EndToEndModel EndToEndProps EndToEndSed EndToEndDefined EndToEndCase SnRunModel SnRunProps.
Import ListNotations.
Open Scope R_scope.

Lemma source_sed : forall s st ps z t0 f act ts ws, source s st ps z t0 f act -> ws <> [] ->
  evaluate_sed (PSed s) ts ws [st] [] = Ok (SOne (mat ts ws (expected_flux (extended s st f) act (sd_rest s ++ sd_obs s) z t0))).
Proof.
  intros s st ps z t0 f g ts ws [HP HF Hz HC HE HB HA HR HO] HW.
  set (s0 := mkSed (sd_node s) (sd_setters s) (sd_redshift s) (sd_min s) (sd_max s) (sd_extrap s) (sd_compute s) [] []).
  assert (RO : filter ef_rest (sd_rest s ++ sd_obs s) = sd_rest s /\ filter (fun e => negb (ef_rest e)) (sd_rest s ++ sd_obs s) = sd_obs s).
  { rewrite !filter_app. split.
    - replace (filter ef_rest (sd_obs s)) with (@nil effect); [rewrite app_nil_r|].
      + clear - HR. induction (sd_rest s) as [|e l IH]; simpl; auto. rewrite (HR e) by (left; auto). f_equal. apply IH. intros. apply HR. right; auto.
      + clear - HO. induction (sd_obs s) as [|e l IH]; simpl; auto. rewrite (HO e) by (left; auto). apply IH. intros. apply HO. right; auto.
    - replace (filter (fun e => negb (ef_rest e)) (sd_rest s)) with (@nil effect); [simpl|].
      + clear - HO. induction (sd_obs s) as [|e l IH]; simpl; auto. rewrite (HO e) by (left; auto). simpl. f_equal. apply IH. intros. apply HO. right; auto.
      + clear - HR. induction (sd_rest s) as [|e l IH]; simpl; auto. rewrite (HR e) by (left; auto). simpl. apply IH. intros. apply HR. right; auto. }
  pose proof (C42_pipeline s0 (sd_rest s ++ sd_obs s) ts ws st [] ps z t0 f g eq_refl eq_refl HP HF Hz) as X.
  specialize (X (fun a b c K => HC a b c K) HW HE HB HA).
  assert (FL : fold_left add_effect (sd_rest s ++ sd_obs s) (PSed s0) = PSed (fold_left sd_add_effect (sd_rest s ++ sd_obs s) s0)).
  { clear. generalize s0. induction (sd_rest s ++ sd_obs s) as [|e effs IH]; intros s1; [reflexivity|]. simpl fold_left at 1. rewrite IH. reflexivity. }
  rewrite FL in X. destruct (add_all (sd_rest s ++ sd_obs s) s0) as (A & B & C & D & E & F & G & H).
  set (s1 := fold_left sd_add_effect (sd_rest s ++ sd_obs s) s0) in *. rewrite (proj1 RO) in G. rewrite (proj2 RO) in H. cbn in A, B, C, D, E, F, G, H.
  assert (SAME : sed_single s1 ts ws st [] = sed_single s ts ws st []).
  { unfold sed_single. rewrite A. destruct (local_params (sd_node s) st) as [q|]; auto. cbn [bind].
    unfold rest_frame. rewrite B. destruct (if sd_redshift s then _ else _) as [[[rt rw] oz]|]; auto. cbn [bind].
    unfold sed_extrapolated. rewrite C, D, E, F, G, H. reflexivity. }
  change (bind (sed_single s1 ts ws st []) (fun x => Ok (SOne x)) = Ok (SOne (mat ts ws (expected_flux (extended s0 st f) g (sd_rest s ++ sd_obs s) z t0)))) in X.
  rewrite SAME in X. exact X.
Qed.

(** The spectra of an SED source: every time of the result by every wavelength of the passbands, redshifted and with effects; the
    same in flux per wavelength; the rest-frame wavelengths; and band by band the noise-free fluxes are the integrals of that
    same spectrum over the band. *)
Theorem C102_spectra : forall ball s o g st draws r ps z t0 f act, source s st ps z t0 f act -> sd_node s = "source"%string -> sd_redshift s = true -> pg_waves g <> [] ->
  Forall (fun w => 0 < w) (pg_waves g) ->
  draw_sn ball (PSed s) o g st draws = Ok r ->
  let F := expected_flux (extended s st f) act (sd_rest s ++ sd_obs s) z t0 in
  dr_state r = st /\ dr_rest r = map (fun w => w / (1 + z)) (pg_waves g) /\ dr_njy r = mat (dr_times r) (pg_waves g) F /\
  flam_to_fnu (dr_flam r) (pg_waves g) u_aa u_flam u_njy = Ok (dr_njy r) /\
  (built g -> (forall p, In p (members g) -> pb_waves p <> []) ->
   forall p t name, nth_error (dr_times r) p = Some t -> nth_error (dr_filters r) p = Some name ->
     exists band x, denotes g name band /\ nth_error (dr_perfect r) p = Some x /\ x = row_bandflux (pb_table band) (pb_delta band) (map (F t) (pb_waves band))).
Proof.
  intros ball s o g st draws r ps z t0 f act HS HN HZ HW HPOS H F. unfold draw_sn in H.
  destruct (source_number st "ra") as [ra|] eqn:E1; [|discriminate]. cbn [bind] in H. destruct (source_number st "dec") as [dec|] eqn:E2; [|discriminate]. cbn [bind] in H.
  destruct (source_number st "t0") as [t0'|] eqn:E3; [|discriminate]. cbn [bind] in H. destruct (source_number st "redshift") as [z'|] eqn:E4; [|discriminate]. cbn [bind] in H.
  apply source_number_spec in E3, E4. cbv zeta in H.
  assert (z' = z) as ->.
  { pose proof (sc_params _ _ _ _ _ _ _ HS) as P. rewrite HN in P. destruct (sc_force _ _ _ _ _ _ _ HS) as [(_ & DZ & _)|[R _]]; [|congruence].
    unfold of_source, get_param in E4. rewrite P, DZ in E4. congruence. }
  destruct (range_search _ _ _ _ _ _ _) as [[index|]|] eqn:ER; try discriminate. cbn [bind] in H.
  destruct (labelled o "time" index) as [all|]; [|discriminate]. cbn [bind] in H. set (rows := mask_list _ index) in *.
  destruct (labelled o "time" rows) as [tc|]; [|discriminate]. cbn [bind] in H. destruct (labelled o "filter" rows) as [fc|]; [|discriminate]. cbn [bind] in H.
  set (ts := map num_of tc) in *. set (fs := map (fun c => ("LSST_" ++ text_of c)%string) fc) in *.
  rewrite (source_sed _ _ _ _ _ _ _ _ _ HS HW) in H. cbn [bind] in H. fold F in H.
  destruct (fnu_to_flam _ _ _ _ _) as [flam|] eqn:EF in H; [|discriminate]. cbn [bind] in H.
  destruct (evaluate_bandfluxes _ _ _ _ _) as [[xs|]|] eqn:EB in H; try discriminate. cbn [bind] in H.
  destruct (bind _ finite) as [es|] in H; [|discriminate]. cbn [bind] in H. injection H as <-. cbn [dr_state dr_rest dr_njy dr_flam dr_times dr_filters dr_perfect].
  repeat match goal with |- _ /\ _ => split end; auto.
  - assert (X : bind (fnu_to_flam (mat ts (pg_waves g) F) (pg_waves g) u_aa u_flam u_njy) (fun x => flam_to_fnu x (pg_waves g) u_aa u_flam u_njy) = Ok (mat ts (pg_waves g) F)).
    { apply C54_fnu_flam_fnu; auto; try (unfold u_aa, u_flam, u_njy; try apply Rinv_0_lt_compat; apply pow_lt; lra).
      apply Forall_forall. intros row HI. unfold mat in HI. apply in_map_iff in HI. destruct HI as (t & <- & _). now rewrite map_length. }
    rewrite EF in X. exact X.
  - intros HB HM p t name Ht Hf.
    assert (TN : ts <> []) by (intros E; rewrite E in Ht; destruct p; discriminate).
    assert (LEN : length fs = length ts).
    { destruct (Nat.eq_dec (length fs) (length ts)) as [|N]; auto. rewrite (proj2 (C45_errors (PSed s) g ts fs [st]) N) in EB. discriminate. }
    destruct (source_settled _ _ _ _ _ _ _ [g] HS) as [ONE _].
    apply C45_entries in EB; auto.
    assert (EC : nth_error (combine ts fs) p = Some (t, name)) by (rewrite nth_error_combine, Ht, Hf; reflexivity).
    destruct (f2_nth _ _ _ _ _ _ _ EB EC) as (x & X1 & X2). cbn [fst snd] in X2.
    destruct (source_flux _ _ _ _ _ _ _ _ _ _ _ HS HB HM X2) as (band & D & V). exists band, x. auto.
Qed.

(** ** Filtered tables *)
(** If the first row of a table was filtered out, the rows keep their labels; times and filters then come from the row before the one
    that was found. *)
Theorem C102_filtered_mixup_refuted : forall ball m o g st draws r, ball_spec ball -> tinv o -> f_labels (ob_frame o) = seq 1 (nrows (ob_frame o)) ->
  draw_sn ball m o g st draws = Ok r ->
  exists rows, NoDup rows /\ length rows = length (dr_times r) /\ opsim_errors o (dr_perfect r) rows = Ok (map Some (dr_error r)) /\
    forall p j, nth_error rows p = Some j ->
      (exists ra dec ra' dec', of_source st "ra" ra /\ of_source st "dec" dec /\ num_at o "ra" j = Some ra' /\ num_at o "dec" j = Some dec' /\ separation ra' dec' ra dec <= 175 / 100) /\
      exists k, j = S k /\ nth_error (dr_times r) p = num_at o "time" k.
Proof.
  intros ball m o g st draws r HB HT HP H. unfold draw_sn in H.
  destruct (source_number st "ra") as [ra|] eqn:E1; [|discriminate]. cbn [bind] in H. destruct (source_number st "dec") as [dec|] eqn:E2; [|discriminate]. cbn [bind] in H.
  destruct (source_number st "t0") as [t0|] eqn:E3; [|discriminate]. cbn [bind] in H. destruct (source_number st "redshift") as [z|] eqn:E4; [|discriminate]. cbn [bind] in H.
  apply source_number_spec in E1, E2, E3, E4. cbv zeta in H.
  destruct (range_search _ _ _ _ _ _ _) as [res|] eqn:ER; [|discriminate]. cbn [bind] in H.
  destruct (exact_scalar_inv ball o ra dec (Some (175 / 100)) TNone TNone res (175 / 100) HB HT eq_refl ltac:(lra) ER) as (index & -> & ND & IFF).
  destruct (labelled o "time" index) as [all|] eqn:EA; [|discriminate]. cbn [bind] in H. set (rows := mask_list _ index) in *.
  assert (SUB : forall m l, NoDup l -> NoDup (mask_list m l) /\ forall x : nat, In x (mask_list m l) -> In x l).
  { clear. induction m as [|b m IH]; intros l HN; [destruct l; (split; [constructor|intros x []])|]. destruct l as [|y0 l]; [split; [constructor|intros x []]|]. inversion HN as [|? ? HN1 HN2]; subst.
    destruct (IH l HN2) as [I1 I2]. cbn [mask_list]. destruct b; split; auto; [constructor; auto| |].
    - intros y [->|Y]; [left; auto|right; auto].
    - intros y Y. right. auto. }
  destruct (SUB (map (fun c => alive t0 z (num_of c)) all) index ND) as [NR SR]. fold rows in NR, SR.
  destruct (labelled o "time" rows) as [tc|] eqn:ET; [|discriminate]. cbn [bind] in H. destruct (labelled o "filter" rows) as [fc|] eqn:EF; [|discriminate]. cbn [bind] in H.
  destruct (evaluate_sed _ _ _ _ _) as [[njy|]|] in H; try discriminate. cbn [bind] in H. destruct (fnu_to_flam _ _ _ _ _) as [flam|] in H; [|discriminate]. cbn [bind] in H.
  destruct (evaluate_bandfluxes _ _ _ _ _) as [[xs|]|] in H; try discriminate. cbn [bind] in H.
  destruct (opsim_errors o xs rows) as [oe|] eqn:EO; [|discriminate]. cbn [bind] in H. destruct (finite oe) as [es|] eqn:EE; [|discriminate]. cbn [bind] in H. injection H as <-.
  apply finite_spec in EE. subst oe. cbn [dr_times dr_perfect dr_error].
  unfold labelled in ET. pose proof (ti_req _ HT "time"%string ltac:(simpl; auto)) as X. apply dget_keys in X.
  assert (EG : exists c, ob_getitem o "time" = Ok c /\ dget "time" (f_cols (ob_frame o)) = Some c).
  { unfold ob_getitem. destruct (dget "time" (f_cols (ob_frame o))) as [c|]; [eauto|congruence]. }
  destruct EG as (c & EG & DC). rewrite EG in ET. cbn [bind] in ET. apply select_Forall2 in ET.
  assert (LC : length c = nrows (ob_frame o)) by (eapply getitem_length; eauto).
  exists rows. split; auto. split; [rewrite map_length; eapply F2_length; eauto|]. split; auto. intros p j Hj. split.
  - assert (IJ : In j index) by (apply SR; eapply nth_error_In; eauto). apply IFF in IJ. destruct IJ as (ra' & dec' & t & A1 & A2 & A3 & A4 & _). exists ra, dec, ra', dec'. auto.
  - destruct (f2_nth _ _ _ _ _ _ _ ET Hj) as (v & V1 & V2). rewrite HP, <- LC in V2. destruct j as [|k].
    + exfalso. assert (Z : forall (c : list cell) u, (0 < u)%nat -> by_label (seq u (length c)) c 0 = None).
      { clear. induction c as [|a c IH]; intros [|u] HU; try lia; cbn; auto with arith. }
      rewrite Z in V2 by lia. discriminate.
    + exists k. split; auto. rewrite nth_error_map, V1. cbn [option_map]. pose proof (by_label_seq c 1 k) as BL. cbn [Nat.add] in BL. rewrite BL in V2.
      unfold num_at, cell_at. rewrite DC, V2. reflexivity.
Qed.

(** ** Many supernovae *)
(** Result i is the draw of state i, with its own deviates; a run fails exactly when one of its draws fails. *)
Theorem C102_run : forall ball m o g sts draws,
  (forall l, draw_all ball m o g sts draws 0 = Ok l -> length l = length sts /\
     forall i st, nth_error sts i = Some st -> exists r, nth_error l i = Some r /\ draw_sn ball m o g st (draws i) = Ok r) /\
  ((forall i st, nth_error sts i = Some st -> exists r, draw_sn ball m o g st (draws i) = Ok r) -> exists l, draw_all ball m o g sts draws 0 = Ok l).
Proof.
  intros ball m o g sts draws.
  assert (G : forall sts u, (forall l, draw_all ball m o g sts draws u = Ok l -> length l = length sts /\
     forall i st, nth_error sts i = Some st -> exists r, nth_error l i = Some r /\ draw_sn ball m o g st (draws (u + i)%nat) = Ok r) /\
    ((forall i st, nth_error sts i = Some st -> exists r, draw_sn ball m o g st (draws (u + i)%nat) = Ok r) -> exists l, draw_all ball m o g sts draws u = Ok l)).
  { clear sts. induction sts as [|st sts IH]; intros u; cbn [draw_all].
    - split; [intros l E; injection E as <-; split; auto; intros [|i] st E; discriminate|eauto].
    - destruct (IH (S u)) as [I1 I2]. split.
      + intros l E. destruct (draw_sn ball m o g st (draws u)) as [r|] eqn:ED; [|discriminate]. cbn [bind] in E.
        destruct (draw_all ball m o g sts draws (S u)) as [l'|]; [|discriminate]. cbn [bind] in E. injection E as <-. destruct (I1 l' eq_refl) as [L1 L2].
        split; [cbn; lia|]. intros [|i] st' E; cbn in E.
        * injection E as <-. exists r. rewrite Nat.add_0_r. auto.
        * destruct (L2 i st' E) as (r' & R1 & R2). exists r'. split; auto. now replace (u + S i)%nat with (S u + i)%nat by lia.
      + intros HA. destruct (HA 0%nat st eq_refl) as (r & ER). rewrite Nat.add_0_r in ER. rewrite ER. cbn [bind].
        destruct I2 as (l & EL); [|rewrite EL; cbn [bind]; eauto]. intros i st' E. destruct (HA (S i) st' E) as (r' & R'). exists r'. now replace (S u + i)%nat with (u + S i)%nat by lia. }
  exact (G sts 0%nat).
Qed.
