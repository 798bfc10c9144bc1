(** C101, continued: a run with consistent inputs returns; a worked run. *)
From Coq Require Import Reals String List Bool Arith ZArith Lia Lra.
From Verif Require Import Base BaseFacts RealBase PassbandModel PassbandProofs PassbandProps PassbandGroupProps ObsTableModel ObsTableProps SedModel SedProps SedPipeline SedBands SedMulti
  SimulateModel SimulateProps SimulateDefined SimulateMore NoiseModel NoiseProps FakeModel FakeProps SurveyModel SurveyProps RomanModel SimpleModels EndToEndModel EndToEndProps EndToEndSed.
Import ListNotations.
Open Scope R_scope.

Lemma forall2_out : forall A B (f : A -> B) l out, Forall2 (fun a b => f a = b) l out -> map f l = out.
Proof. induction 1; simpl; congruence. Qed.
Lemma singles_in : forall fl idx out (P : R -> nat -> option R -> Prop), length fl = length idx -> Forall2 (fun p e => P (fst p) (snd p) e) (combine fl idx) out ->
  forall i, In i idx -> exists x e, P x i e.
Proof.
  intros fl. induction fl as [|x fl IH]; intros [|j idx] out P HL H i HI; try discriminate; [destruct HI|]. cbn [combine] in H. inversion H; subst.
  destruct HI as [<-|HI]; [eauto|]. eapply IH; [|eassumption|assumption]. cbn in HL. lia.
Qed.
Lemma rows_all : forall o idx, (forall i, In i idx -> in_rows o [i] = true) -> in_rows o idx = true.
Proof. intros o idx H. apply forallb_forall. intros i HI. specialize (H _ HI). unfold in_rows in H. cbn [forallb] in H. now rewrite andb_true_r in H. Qed.
(** Error bars that exist one by one exist together. *)
Lemma errors_all : forall sv fl idx out, length fl = length idx -> sv_errors sv [] [] = Ok [] ->
  Forall2 (fun p e => sv_errors sv [fst p] [snd p] = Ok [e]) (combine fl idx) out -> sv_errors sv fl idx = Ok out.
Proof.
  intros sv fl idx out HL H0 H.
  pose proof (singles_in fl idx out (fun x i e => sv_errors sv [x] [i] = Ok [e]) HL H) as SI.
  destruct sv as [o|o|o|k]; cbn [sv_errors] in *.
  - unfold opsim_errors in *. rewrite rows_all; [|intros i HI; destruct (SI i HI) as (x & e & E); destruct (in_rows o [i]); [auto|discriminate]].
    cbn [in_rows forallb negb length Nat.eqb combine map] in H0. cbn [negb].
    destruct (safe_number o "pixel_scale") as [ps|]; [|discriminate]. cbn [bind] in *. destruct (need_cols o _) as [u|] in *; [|discriminate]. cbn [bind] in *.
    destruct (safe_number o "read_noise") as [rn|]; [|discriminate]. cbn [bind] in *. destruct (safe_number o "dark_current") as [dk|]; [|discriminate]. cbn [bind] in *.
    rewrite HL, Nat.eqb_refl. cbn [negb]. f_equal. apply forall2_out. clear SI HL. induction H as [|[x i] e l out E _ IH]; constructor; auto.
    cbn [fst snd] in E. destruct (in_rows o [i]); [|discriminate]. cbn in E. injection E as E. exact E.
  - unfold ztf_errors in *. rewrite rows_all; [|intros i HI; destruct (SI i HI) as (x & e & E); destruct (in_rows o [i]); [auto|discriminate]].
    cbn [in_rows forallb negb length Nat.eqb combine map] in H0. cbn [negb].
    destruct (need_cols o ["fwhm"; "exptime"; "sky"]%string) as [u|]; [|discriminate]. cbn [bind] in *.
    destruct (safe_number o "gain") as [ps|]; [|discriminate]. cbn [bind] in *. destruct (need_cols o ["zp"%string]) as [u'|]; [|discriminate]. cbn [bind] in *.
    destruct (safe_number o "read_noise") as [rn|]; [|discriminate]. cbn [bind] in *. destruct (safe_number o "dark_current") as [dk|]; [|discriminate]. cbn [bind] in *.
    rewrite HL, Nat.eqb_refl. cbn [negb]. f_equal. apply forall2_out. clear SI HL. induction H as [|[x i] e l out E _ IH]; constructor; auto.
    cbn [fst snd] in E. destruct (in_rows o [i]); [|discriminate]. cbn in E. injection E as E. exact E.
  - unfold roman_errors in *. rewrite rows_all; [|intros i HI; destruct (SI i HI) as (x & e & E); destruct (in_rows o [i]); [auto|discriminate]].
    cbn [in_rows forallb negb length Nat.eqb combine map] in H0. cbn [negb].
    destruct (need_cols o ["exptime"%string]) as [u|]; [|discriminate]. cbn [bind] in *.
    destruct (safe_number o "zodi_level") as [ps|]; [|discriminate]. cbn [bind] in *. 
    destruct (need_cols o ["zodi_countrate_min"; "thermal_countrate"; "N_Eff_Pix"; "zp"]%string) as [u'|]; [|discriminate]. cbn [bind] in *.
    destruct (safe_number o "dark_current") as [dk|]; [|discriminate]. cbn [bind] in *.
    rewrite HL, Nat.eqb_refl. cbn [negb]. f_equal. apply forall2_out. clear SI HL. induction H as [|[x i] e l out E _ IH]; constructor; auto.
    cbn [fst snd] in E. destruct (in_rows o [i]); [|discriminate]. cbn in E. injection E as E. exact E.
  - unfold fake_error in *. destruct (fk_const k) as [mp|].
    + destruct (need_col (fk_obs k) "filter") as [fs|]; [|discriminate]. cbn [bind] in *. clear H0 SI.
      assert (G : forallb (fun i => (i <? nrows (ob_frame (fk_obs k)))%nat) idx = true /\
                  seq_res (map (fun i => match nth_error fs i with Some (CStr s) => match dget s mp with Some v => Ok (Some v) | None => Err KeyError end | _ => Err KeyError end) idx) = Ok out).
      { revert idx out HL H. induction fl as [|x fl IH]; intros [|i idx] out HL H; try discriminate; cbn [combine] in H; inversion H as [|? e ? out' E1 E2]; subst; [split; reflexivity|].
        destruct (IH idx out') as [I1 I2]; auto. cbn [fst snd forallb] in E1. cbn [forallb map seq_res]. rewrite I1.
        destruct (i <? nrows (ob_frame (fk_obs k)))%nat; [|discriminate]. cbn [andb negb map seq_res] in *. split; auto. rewrite I2.
        match type of E1 with bind ?X _ = _ => destruct X as [v|]; [|discriminate] end. cbn [bind] in *. injection E1 as ->. reflexivity. }
      destruct G as [G1 G2]. rewrite G1. cbn [negb]. exact G2.
    + assert (FA : forallb (fun i => (i <? nrows (ob_frame (fk_obs k)))%nat) idx = true).
      { apply forallb_forall. intros i HI. destruct (SI i HI) as (x & e & E). cbn [forallb] in E. destruct (i <? nrows (ob_frame (fk_obs k)))%nat; [auto|discriminate]. }
      rewrite FA. cbn [forallb negb] in *.
      destruct (need_col (fk_obs k) "psf_footprint") as [c1|]; [|discriminate]. cbn [bind] in *.
      destruct (need_col (fk_obs k) "exptime") as [c2|]; [|discriminate]. cbn [bind] in *.
      destruct (need_col (fk_obs k) "nexposure") as [c3|]; [|discriminate]. cbn [bind] in *.
      destruct (need_col (fk_obs k) "sky") as [c4|]; [|discriminate]. cbn [bind] in *.
      destruct (need_col (fk_obs k) "zp") as [c5|]; [|discriminate]. cbn [bind] in *.
      destruct (safe_number (fk_obs k) "read_noise") as [rn|]; [|discriminate]. cbn [bind] in *.
      destruct (safe_number (fk_obs k) "dark_current") as [dk|]; [|discriminate]. cbn [bind] in *.
      rewrite HL, Nat.eqb_refl. cbn [negb]. f_equal. apply forall2_out. clear SI HL FA H0. induction H as [|[x i] e l out E _ IH]; constructor; auto.
      cbn [fst snd] in E. match type of E with (if ?b then _ else _) = _ => destruct b; [discriminate|] end. cbn in E. injection E as E. exact E.
Qed.

(** Every object's t0 is a number, or no window is asked for. *)
Definition windowable (node : string) (off : option (list (option R))) (sts : list gst) : Prop :=
  off = None \/ exists before after, off = Some [before; after] /\ forall st, In st sts -> exists t0, get_param node st "t0" = PNum t0.
Lemma numbers_ok : forall node name sts, (forall st, In st sts -> exists x, get_param node st name = PNum x) -> exists l, numbers node name sts = Ok l.
Proof.
  intros node name. induction sts as [|st sts IH]; intros H; cbn [numbers]; eauto. destruct (H st (or_introl eq_refl)) as (x & ->).
  destruct IH as (l & ->); [intros; apply H; simpl; auto|]. cbn [bind]. eauto.
Qed.
Lemma windows_ok : forall node off sts, windowable node off sts -> sts <> [] -> exists lo hi, get_time_windows (t0_of node sts) off = Ok (lo, hi) /\
  forall l, lo = Some l \/ hi = Some l -> length l = length sts.
Proof.
  intros node off sts [->|(b & a & -> & H)] HN.
  - exists None, None. split; [destruct (t0_of node sts); reflexivity|]. intros l [E|E]; discriminate.
  - destruct (numbers_ok node "t0" sts H) as (l & EL). apply numbers_spec in EL.
    assert (T : t0_list (t0_of node sts) l).
    { unfold t0_list. destruct sts as [|s0 [|s1 sts]]; [congruence| |].
      - left. inversion EL as [|? x ? l' E1 E2]; subst. inversion E2; subst. cbn [t0_of]. rewrite E1. eauto.
      - right. set (all := s0 :: s1 :: sts) in *. assert (X : t0_of node all = if existsb (fun st : gst => match dget node st with Some ps => dmem "t0" ps | None => false end) all
         then T0Arr (map (fun st => match get_param node st "t0" with PNum r => Some r | _ => None end) all) else T0None) by reflexivity.
        rewrite X. assert (Y : existsb (fun st : gst => match dget node st with Some ps => dmem "t0" ps | None => false end) all = true).
        { apply existsb_exists. exists s0. split; [left; auto|]. destruct (H s0 (or_introl eq_refl)) as (t0 & G). unfold get_param in G.
          destruct (dget node s0) as [ps|]; [|discriminate]. unfold dmem. destruct (dget "t0" ps); [auto|discriminate]. }
        rewrite Y. f_equal. clear - EL. induction EL as [|st x sts' l E _ IH]; cbn [map]; auto. now rewrite E, IH. }
    rewrite (C40_windows _ _ b a T). eexists _, _. split; [reflexivity|]. assert (LL : length l = length sts) by (symmetry; eapply F2_length; eauto).
    intros l' [E|E]; [destruct b|destruct a]; cbn in E; try discriminate; injection E as <-; now rewrite map_length.
Qed.

(** A run returns if every object has a position and the model and the surveys can treat every row by itself. *)
Theorem C101_defined : forall ball m node mask keep draws num sts tables groups save params use_mask off,
  ball_spec ball -> (forall ts st, mask ts st = map (keep st) ts) -> (0 < num)%Z -> length sts = Z.to_nat num ->
  (forall st, In st sts -> one_by_one m st /\ forall g, In g groups -> evaluate_bandfluxes m (PGroup g) [] (Some []) [st] = Ok (BOne [])) ->
  (forall st, In st sts -> (exists ra, get_param node st "ra" = PNum ra) /\ exists dec, get_param node st "dec" = PNum dec) ->
  windowable node off sts -> length groups = length tables -> (is_band m = true -> length tables = 1%nat) ->
  (forall tb, In tb tables -> tinv (sv_table tb) /\ (exists rad, dget "radius" (ob_values (sv_table tb)) = Some (SNum rad) /\ 0 <= rad <= 180) /\
     (exists c, ob_getitem (sv_table tb) "filter" = Ok c) /\ sv_errors tb [] [] = Ok []) ->
  (forall s tb g st j t f, nth_error tables s = Some tb -> nth_error groups s = Some g -> In st sts ->
     num_at (sv_table tb) "time" j = Some t -> item_at (sv_table tb) "filter" j = Some f ->
     exists x e, single_flux m (PGroup g) st t (text_of f) x /\ sv_errors tb [x] [j] = Ok [Some e]) ->
  (forall c, In c params -> exists n p, split_dot c = [n; p] /\ forall st, In st sts -> exists ps, dget n st = Some ps /\ dmem p ps = true) ->
  NoDup save -> (forall k, In k save -> ~ In k base_cols) ->
  (forall tb k st, In tb tables -> In k save -> ob_contains (sv_table tb) k = true -> In st sts ->
     exists j, seen_row node None false keep st (mkObs (ob_frame (sv_table tb)) (ob_inv (sv_table tb)) (ob_values (sv_table tb)) (ob_filters (sv_table tb)) (ob_tree (sv_table tb)) None) j) ->
  exists r, sim_run ball m node mask draws num sts tables groups save params use_mask off = Ok r.
Proof.
  intros ball m node mask keep draws num sts tables groups save params use_mask off HB HM HN HL HS HP HW HG HBF HT HR HPA HD HBC HNEAR.
  unfold sim_run. replace (num <=? 0)%Z with false by (symmetry; apply Z.leb_gt; lia).
  destruct (numbers_ok node "ra" sts) as (ras & ERA); [intros; now apply HP|]. destruct (numbers_ok node "dec" sts) as (decs & EDEC); [intros; now apply HP|].
  unfold sim_samples. rewrite ERA, EDEC. cbn [bind]. apply numbers_spec in ERA. apply numbers_spec in EDEC.
  assert (HS' : forall st, In st sts -> settled m groups st).
  { intros st HI. destruct (HS st HI) as [H1 H2]. split; auto. intros g b Hg E. rewrite (H2 g Hg) in E. congruence. }
  destruct (sig_states _ (settled m groups) sts HS') as (sts' & ES).
  set (sm' := mkSamples sts' ras decs (t0_of node sts) (map (fun st => VParam (get_param node st "redshift")) sts)
     (map (fun st => VParam (get_param node st "t0")) sts) (map VState sts) (state_column sts)).
  set (h := @proj1_sig gst (settled m groups)) in *.
  match goal with |- exists r, simulate _ _ _ _ ?SM _ _ _ _ _ _ = _ => assert (EP : SM = push h sm') by (unfold push, sm'; cbn; now rewrite ES) end.
  rewrite EP, simulate_pull. clear EP.
  assert (L1 : length ras = length sts) by (symmetry; eapply F2_length; eauto). assert (L2 : length decs = length sts) by (symmetry; eapply F2_length; eauto).
  assert (SN : sts <> []) by (intros ->; cbn in HL; lia).
  destruct (windows_ok node off sts HW SN) as (lo & hi & EW & LW).
  apply (C38_defined ball) with (flux := fun s st => flux_at m groups 0 s (proj1_sig st)) (error := error_at tables 0) (keep := fun st => keep (proj1_sig st)) (lo := lo) (hi := hi); auto.
  - apply sim_pointwise. exact HM.
  - (* every row *)
    intros s o st' idx Ho HI HJ. cbn [ph_eval ph_error pull sim_model]. rewrite nth_error_map in Ho.
    destruct (nth_error tables s) as [tb|] eqn:ET; [|discriminate]. cbn in Ho. injection Ho as <-. set (o := sv_table tb) in *.
    destruct (nth_error groups s) as [g|] eqn:EG.
    2:{ apply nth_error_None in EG. assert (s < length tables)%nat by (apply nth_error_Some; congruence). lia. }
    assert (IS : In (h st') sts) by (rewrite <- ES; apply in_map; exact HI). fold h. set (st := h st') in *. destruct (HS st IS) as [ONE Q].
    destruct (HT tb (nth_error_In _ _ ET)) as (TI & _ & (cf & EF) & E0). fold o in TI, EF.
    assert (CT : exists ct, dget "time" (f_cols (ob_frame o)) = Some ct).
    { pose proof (ti_req _ TI "time"%string ltac:(simpl; auto)) as X. apply dget_keys in X. destruct (dget "time" (f_cols (ob_frame o))); [eauto|congruence]. }
    destruct CT as (ct & CT).
    assert (LT : length ct = nrows (ob_frame o)) by (apply (getitem_length o "time" ct TI); unfold ob_getitem; now rewrite CT).
    assert (LF : length cf = nrows (ob_frame o)) by (apply (getitem_length o "filter" cf TI EF)).
    assert (ROW : forall j, In j idx -> exists x e, single_flux m (PGroup g) st (tm o j) (fl o j) x /\ sv_errors tb [x] [j] = Ok [Some e]).
    { intros j Hj. specialize (HJ j Hj).
      assert (N1 : exists t, num_at o "time" j = Some t).
      { unfold num_at, cell_at. rewrite CT. rewrite (nth_error_nth' ct (CNum 0)) by lia. cbn. eauto. }
      assert (N2 : exists c, item_at o "filter" j = Some c).
      { unfold item_at. rewrite EF. rewrite (nth_error_nth' cf (CNum 0)) by lia. eauto. }
      destruct N1 as (t & N1). destruct N2 as (c & N2). destruct (HR s tb g st j t c ET EG IS N1 N2) as (x & e & X1 & X2). exists x, e. unfold tm, fl. rewrite N1, N2. auto. }
    assert (ALL : exists xs es, Forall2 (fun tf x => single_flux m (PGroup g) st (fst tf) (snd tf) x) (combine (map (tm o) idx) (map (fl o) idx)) xs /\
       Forall2 (fun p e => sv_errors tb [fst p] [snd p] = Ok [Some e]) (combine xs idx) es /\ length xs = length idx).
    { clear HJ. induction idx as [|j idx IH]; [exists [], []; cbn; auto|]. destruct IH as (xs & es & I1 & I2 & I3); [intros; apply ROW; simpl; auto|].
      destruct (ROW j (or_introl eq_refl)) as (x & e & X1 & X2). exists (x :: xs), (e :: es). cbn [map combine length]. repeat split; auto. }
    destruct ALL as (xs & es & A1 & A2 & A3). exists xs, es.
    assert (EV : evaluate_bandfluxes m (PGroup g) (map (tm o) idx) (Some (map (fl o) idx)) [st] = Ok (BOne xs)).
    { destruct idx as [|j idx]; [destruct xs; [|discriminate]; apply Q; eapply nth_error_In; eauto|].
      apply C45_entries; auto; [discriminate|]. now rewrite !map_length. }
    rewrite EV. cbn [bind]. split; auto. rewrite A3, Nat.eqb_refl. cbn [negb].
    rewrite (errors_all tb xs idx (map Some es)); auto.
    + cbn [bind]. now apply finite_spec.
    + clear - A2. induction A2; cbn [map]; constructor; auto.
  - constructor; cbn [sm_states sm_ra sm_dec sm'].
    + rewrite <- HL, <- ES. now rewrite map_length.
    + lia.
    + lia.
    + apply Forall_forall. intros o HI. apply in_map_iff in HI. destruct HI as (tb & <- & HI). now apply HT.
    + intros o HI. apply in_map_iff in HI. destruct HI as (tb & <- & HI). destruct (HT _ HI) as (_ & (rad & E & B) & _). exists rad. unfold radius_of. now rewrite E.
  - unfold cols_ok. cbn [sm_t0col sm_z sm_params sm']. now rewrite !map_length.
  - intros c HI. cbn [sm_param sm']. destruct (HPA c HI) as (n & p & SD & HA). unfold state_column. rewrite SD.
    match goal with |- exists v, (if ?b then _ else _) = _ /\ _ => assert (X : b = true) end.
    { apply forallb_forall. intros st HI2. destruct (HA st HI2) as (ps & E1 & E). match goal with |- match ?x with _ => _ end = true => replace x with (Some ps) by (symmetry; exact E1) end. exact E. }
    rewrite X. eexists. split; [reflexivity|]. now rewrite map_length.
  - now rewrite map_length.
  - cbn [ph_bandflux pull sim_model]. now rewrite map_length.
  - intros l El. rewrite <- HL. now apply LW.
  - intros o HI. apply in_map_iff in HI. destruct HI as (tb & <- & HI). destruct (HT _ HI) as (_ & _ & X & _). exact X.
  - intros o k i ra dec HI HK HC Hra Hdec. apply in_map_iff in HI. destruct HI as (tb & <- & HI). cbn [sm_ra sm_dec sm'] in *.
    destruct (f2_nth_r _ _ _ _ _ _ _ ERA Hra) as (st & Hst & Gra). destruct (f2_nth_r _ _ _ _ _ _ _ EDEC Hdec) as (st2 & Hst2 & Gdec).
    assert (st2 = st) as -> by congruence.
    destruct (HNEAR tb k st HI HK HC (nth_error_In _ _ Hst)) as (j & ra1 & dec1 & ra' & dec' & t & rad & B1 & B2 & A1 & A2 & A3 & B3 & A4 & _).
    exists j, ra', dec', rad. cbn [ob_values] in B3. unfold radius_of. rewrite B3. assert (ra1 = ra) as -> by congruence. assert (dec1 = dec) as -> by congruence.
    repeat split; auto.
Qed.
