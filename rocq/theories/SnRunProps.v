(** Property C102: one simulated supernova, and a run of many (example_runs/simulate_snia.py). *)
From Coq Require Import Reals String List Bool Arith ZArith Lia Lra.
From Verif Require Import Base BaseFacts RealBase PassbandModel PassbandProofs PassbandProps PassbandGroupProps ObsTableModel ObsTableProps SedModel SedProps SedPipeline SedBands SedMulti
  SimulateModel SimulateProps SimulateDefined SimulateMore NoiseModel NoiseProps FakeModel FakeProps SurveyModel SurveyProps Salt2Model EndToEndModel EndToEndProps EndToEndSed EndToEndDefined EndToEndCase SnRunModel.
Import ListNotations.
Open Scope R_scope.

(** ** The vocabulary *)
(** Parameter [name] of the source in the state. *)
Definition of_source (st : gst) (name : string) (x : R) : Prop := get_param "source" st name = PNum x.
(** Rows are labelled by their position, as in a table that was not filtered. *)
Definition plain_labels (o : obstable) : Prop := f_labels (ob_frame o) = seq 0 (nrows (ob_frame o)).
(** Row j is an observation of the supernova: within 1.75 degrees, strictly between 20 rest-frame days before and 50 after t0. *)
Definition sn_row (st : gst) (o : obstable) (j : nat) : Prop :=
  exists ra dec t0 z ra' dec' t, of_source st "ra" ra /\ of_source st "dec" dec /\ of_source st "t0" t0 /\ of_source st "redshift" z /\
    num_at o "ra" j = Some ra' /\ num_at o "dec" j = Some dec' /\ num_at o "time" j = Some t /\
    separation ra' dec' ra dec <= 175 / 100 /\ t0 - 20 * (1 + z) < t < t0 + 50 * (1 + z) /\
    (forall fp, ob_footprint o = Some fp -> fp (ra, dec) (ra', dec') (num_at o "rotation" j) = true).

Lemma source_number_spec : forall st name x, source_number st name = Ok x <-> of_source st name x.
Proof.
  intros st name x. unfold source_number, of_source, get_param. destruct (dget "source"%string st) as [ps|]; [|split; discriminate].
  destruct (dget name ps) as [[|y|]|]; split; intros E; try discriminate; injection E as ->; reflexivity.
Qed.
Lemma alive_spec : forall t0 z t, alive t0 z t = true <-> t0 - 20 * (1 + z) < t < t0 + 50 * (1 + z).
Proof. intros. unfold alive. rewrite andb_true_iff, !Rltb_true. split; intros [A B]; split; lra. Qed.
Lemma mask_map : forall A (p : A -> bool) l, mask_list (map p l) l = filter p l.
Proof. induction l as [|x l IH]; cbn [map mask_list filter]; auto. destruct (p x); now rewrite IH. Qed.
Lemma select_Forall2 : forall labels c ks vs, select_labels labels c ks = Ok vs -> Forall2 (fun k v => by_label labels c k = Some v) ks vs.
Proof.
  induction ks as [|k ks IH]; intros vs H; cbn [select_labels] in H; [injection H as <-; constructor|].
  destruct (by_label labels c k) as [v|] eqn:E; [|discriminate]. destruct (select_labels labels c ks) as [vs'|]; [|discriminate]. cbn [bind] in H. injection H as <-. constructor; auto.
Qed.
Lemma by_label_at : forall o c k, length c = nrows (ob_frame o) -> plain_labels o -> by_label (f_labels (ob_frame o)) c k = nth_error c k.
Proof. intros o c k HL HP. rewrite HP, <- HL. apply (by_label_seq c 0 k). Qed.
Lemma labelled_at : forall o key ks vs, tinv o -> plain_labels o -> labelled o key ks = Ok vs -> Forall2 (fun k v => item_at o key k = Some v) ks vs.
Proof.
  intros o key ks vs HT HP H. unfold labelled in H. destruct (ob_getitem o key) as [c|] eqn:EG; [|discriminate]. cbn [bind] in H.
  apply select_Forall2 in H. assert (LC : length c = nrows (ob_frame o)) by (eapply getitem_length; eauto).
  induction H as [|k v ks vs E _ IH]; constructor; auto. unfold item_at. rewrite EG. rewrite by_label_at in E; auto.
Qed.
Lemma item_num : forall o j v, tinv o -> item_at o "time" j = Some v -> num_at o "time" j = Some (num_of v).
Proof.
  intros o j v HT H. pose proof (ti_req _ HT "time"%string ltac:(simpl; auto)) as X. apply dget_keys in X.
  unfold item_at, ob_getitem in H. unfold num_at, cell_at. destruct (dget "time" (f_cols (ob_frame o))) as [c|]; [|congruence]. now rewrite H.
Qed.

(** ** One supernova *)
Theorem C102_rows : forall ball m o g st draws r, ball_spec ball -> tinv o -> plain_labels o -> settled m [g] st ->
  draw_sn ball m o g st draws = Ok r ->
  exists rows, NoDup rows /\ (forall j, In j rows <-> sn_row st o j) /\
    length (dr_times r) = length rows /\ length (dr_filters r) = length rows /\ length (dr_perfect r) = length rows /\
    length (dr_error r) = length rows /\ length (dr_flux r) = length rows /\
    forall p j, nth_error rows p = Some j ->
      exists t fc x e, num_at o "time" j = Some t /\ item_at o "filter" j = Some fc /\
        let name := ("LSST_" ++ text_of fc)%string in
        single_flux m (PGroup g) st t name x /\ opsim_errors o [x] [j] = Ok [Some e] /\
        nth_error (dr_times r) p = Some t /\ nth_error (dr_filters r) p = Some name /\ nth_error (dr_perfect r) p = Some x /\
        nth_error (dr_error r) p = Some e /\ nth_error (dr_flux r) p = Some (x + e * draws p).
Proof.
  intros ball m o g st draws r HB HT HP HS H. unfold draw_sn in H.
  destruct (source_number st "ra") as [ra|] eqn:E1; [|discriminate]. cbn [bind] in H. destruct (source_number st "dec") as [dec|] eqn:E2; [|discriminate]. cbn [bind] in H.
  destruct (source_number st "t0") as [t0|] eqn:E3; [|discriminate]. cbn [bind] in H. destruct (source_number st "redshift") as [z|] eqn:E4; [|discriminate]. cbn [bind] in H.
  apply source_number_spec in E1, E2, E3, E4. cbv zeta in H.
  destruct (range_search _ _ _ _ _ _ _) as [res|] eqn:ER; [|discriminate]. cbn [bind] in H.
  destruct (exact_scalar_inv ball o ra dec (Some (175 / 100)) TNone TNone res (175 / 100) HB HT eq_refl ltac:(lra) ER) as (index & -> & ND & IFF).
  destruct (labelled o "time" index) as [all|] eqn:EA; [|discriminate]. cbn [bind] in H.
  assert (EI : mask_list (map (fun c => alive t0 z (num_of c)) all) index = filter (fun j => match num_at o "time" j with Some t => alive t0 z t | None => false end) index).
  { rewrite <- mask_map. f_equal. apply labelled_at in EA; auto. clear - EA HT. induction EA as [|k v ks vs E _ IH]; cbn [map]; auto. rewrite IH, (item_num _ _ _ HT E). reflexivity. }
  rewrite EI in H. set (rows := filter _ index) in *. clear EI EA all.
  destruct (labelled o "time" rows) as [tc|] eqn:ET; [|discriminate]. cbn [bind] in H. destruct (labelled o "filter" rows) as [fc|] eqn:EF; [|discriminate]. cbn [bind] in H.
  destruct (evaluate_sed _ _ _ _ _) as [[njy|]|] in H; try discriminate. cbn [bind] in H. destruct (fnu_to_flam _ _ _ _ _) as [flam|] in H; [|discriminate]. cbn [bind] in H.
  set (ts := map num_of tc) in *. set (fs := map (fun c => ("LSST_" ++ text_of c)%string) fc) in *.
  destruct (evaluate_bandfluxes m (PGroup g) ts (Some fs) [st]) as [[xs|]|] eqn:EB; try discriminate. cbn [bind] in H.
  destruct (opsim_errors o xs rows) as [oe|] eqn:EO; [|discriminate]. cbn [bind] in H. destruct (finite oe) as [es|] eqn:EE; [|discriminate]. cbn [bind] in H. injection H as <-.
  cbn [dr_times dr_filters dr_perfect dr_error dr_flux]. apply finite_spec in EE. subst oe.
  apply labelled_at in ET; auto. apply labelled_at in EF; auto.
  assert (LT : length tc = length rows) by (symmetry; eapply F2_length; eauto). assert (LF : length fc = length rows) by (symmetry; eapply F2_length; eauto).
  assert (LX : length xs = length rows).
  { unfold opsim_errors in EO. destruct (in_rows o rows); [|discriminate]. cbn [negb] in EO. destruct (safe_number _ _) in EO; [|discriminate]. cbn [bind] in EO.
    destruct (need_cols _ _) in EO; [|discriminate]. cbn [bind] in EO. destruct (safe_number _ _) in EO; [|discriminate]. cbn [bind] in EO. destruct (safe_number _ _) in EO; [|discriminate]. cbn [bind] in EO.
    destruct (length xs =? length rows)%nat eqn:E; [now apply Nat.eqb_eq in E|discriminate]. }
  pose proof (errors_each (SvOpsim o) xs rows (map Some es) LX EO) as EACH. cbn [sv_errors] in EACH.
  assert (LE : length es = length rows).
  { apply F2_length in EACH. rewrite combine_length, map_length in EACH. lia. }
  exists rows. split; [now apply NoDup_filter|]. split.
  { intros j. unfold rows. rewrite filter_In, IFF. unfold matches, sn_row. cbn [bound_of]. split.
    - intros [(ra' & dec' & t & A1 & A2 & A3 & A4 & _ & _ & A5) AL]. rewrite A3 in AL. apply alive_spec in AL. exists ra, dec, t0, z, ra', dec', t. repeat match goal with |- _ /\ _ => split end; auto; apply AL.
    - intros (ra1 & dec1 & t1 & z1 & ra' & dec' & t & B1 & B2 & B3 & B4 & A1 & A2 & A3 & A4 & AL & A5). unfold of_source in *.
      assert (ra1 = ra) as -> by congruence. assert (dec1 = dec) as -> by congruence. assert (t1 = t0) as -> by congruence. assert (z1 = z) as -> by congruence.
      split; [|rewrite A3; now apply alive_spec]. exists ra', dec', t. repeat match goal with |- _ /\ _ => split end; auto; discriminate. }
  unfold ts, fs. rewrite !map_length. repeat match goal with |- _ /\ _ => split end; auto.
  { unfold noisy. assert (Z : forall A B C (f : A -> B -> C) a b, length a = length b -> length (zip_with f a b) = length a).
    { induction a; intros [|? ?] X; cbn in *; try discriminate; auto. }
    rewrite Z; rewrite ?seq_length, ?combine_length; lia. }
  intros p j Hj. destruct (f2_nth _ _ _ _ _ _ _ ET Hj) as (tv & T1 & T2). destruct (f2_nth _ _ _ _ _ _ _ EF Hj) as (fv & F1 & F2).
  destruct (nth_error xs p) as [x|] eqn:EX; [|apply nth_error_None in EX; assert (p < length rows)%nat by (apply nth_error_Some; congruence); lia].
  assert (EC : nth_error (combine xs rows) p = Some (x, j)) by (rewrite nth_error_combine, EX, Hj; reflexivity).
  destruct (f2_nth _ _ _ _ _ _ _ EACH EC) as (oe & O1 & O2). cbn [fst snd] in O2. rewrite nth_error_map in O1. destruct (nth_error es p) as [e|] eqn:EEp; [|discriminate]. cbn in O1. injection O1 as <-.
  exists (num_of tv), fv, x, e. split; [now apply item_num|]. split; auto. cbv zeta.
  destruct HS as [ONE _].
  assert (TN : ts <> []) by (unfold ts; destruct tc; [destruct p; discriminate|discriminate]).
  apply C45_entries in EB; auto; [|unfold ts, fs; rewrite !map_length; lia].
  assert (EC2 : nth_error (combine ts fs) p = Some (num_of tv, ("LSST_" ++ text_of fv)%string)).
  { rewrite nth_error_combine. unfold ts, fs. rewrite !nth_error_map, T1, F1. reflexivity. }
  destruct (f2_nth _ _ _ _ _ _ _ EB EC2) as (x' & X1 & X2). cbn [fst snd] in X2. assert (x' = x) as -> by congruence.
  repeat match goal with |- _ /\ _ => split end; auto.
  - rewrite nth_error_map, T1. reflexivity.
  - rewrite nth_error_map, F1. reflexivity.
  - unfold noisy. assert (Z : forall u a b q x e, nth_error a q = Some x -> nth_error b q = Some e ->
      nth_error (zip_with (fun k fe => fst fe + snd fe * draws k) (seq u (length a)) (combine a b)) q = Some (x + e * draws (u + q)%nat)).
    { intros u a. revert u. induction a as [|y a IH]; intros u [|w b] [|q] x0 e0 Q1 Q2; cbn in *; try discriminate.
      - injection Q1 as ->. injection Q2 as ->. now rewrite Nat.add_0_r.
      - rewrite (IH (S u) b q x0 e0 Q1 Q2). do 4 f_equal. lia. }
    apply (Z 0%nat xs es p x e EX EEp).
Qed.
