(** Property C60: signal-to-noise, magnitudes and detections (src/lightcurvelynx/utils/post_process_results.py). *)
From Coq Require Import String List Bool Arith Reals Lra Lia.
From Verif Require Import Base BaseFacts RealBase NoiseModel NoiseProps PostModel.
Import ListNotations.
Open Scope string_scope.
Open Scope list_scope.
Open Scope R_scope.

(** ** What each column should hold *)
(** The flag a point deserves. *)
Definition detected (min_snr f e : R) : Prop := 0 < f /\ 0 < e /\ min_snr <= f / e.
Definition flag_ok (min_snr f e : R) (x : flag) : Prop := exists b, x = Flag b /\ (b = true <-> detected min_snr f e).
Definition snr_ok (f e : R) (x : option R) : Prop :=
  (0 < f /\ 0 < e -> x = Some (f / e)) /\ (~ (0 < f /\ 0 < e) -> x = None).
Definition mag_ok (f e : R) (x : option R) : Prop :=
  (0 < f /\ 0 < e -> exists m, x = Some m /\ mag2flux m = f) /\ (~ (0 < f /\ 0 < e) -> x = None).
(** 2.5 / ln 10 * err / flux *)
Definition magerr_ok (f e : R) (x : option R) : Prop :=
  (0 < f /\ 0 < e -> x = Some (2.5 / ln 10 * (e / f))) /\ (~ (0 < f /\ 0 < e) -> x = None).
(** Row by row. *)
Definition rows3 {X} (P : R -> R -> X -> Prop) (flux err : list R) (out : list X) : Prop :=
  length flux = length err /\ Forall2 (fun fe x => P (fst fe) (snd fe) x) (combine flux err) out.

Lemma valid_true : forall f e, valid f e = true <-> 0 < f /\ 0 < e.
Proof. intros. unfold valid. rewrite andb_true_iff, !Rltb_true. tauto. Qed.
Lemma valid_false : forall f e, valid f e = false <-> ~ (0 < f /\ 0 < e).
Proof. intros. rewrite <- valid_true. destruct (valid f e); intuition congruence. Qed.
Lemma zip_rows : forall X (g : R -> R -> X) (P : R -> R -> X -> Prop) flux err,
  length flux = length err -> (forall f e, P f e (g f e)) -> rows3 P flux err (zip_with g flux err).
Proof.
  intros X g P flux err HL HP. split; auto. revert err HL.
  induction flux as [|f flux IH]; intros [|e err] HL; simpl in *; try lia; constructor; auto.
Qed.
Lemma zip_map : forall X Y (g : R -> R -> X) (h : X -> Y) a b, map h (zip_with g a b) = zip_with (fun x y => h (g x y)) a b.
Proof. induction a as [|x a IH]; intros [|y b]; simpl; auto. now rewrite IH. Qed.

Lemma snr_point : forall f e, snr_ok f e (if valid f e then Some (f / e) else None).
Proof. intros f e. destruct (valid f e) eqn:E; [apply valid_true in E|apply valid_false in E]; split; tauto. Qed.
Lemma mag_point : forall f e, mag_ok f e (if valid f e then flux2mag f else None).
Proof.
  intros f e. destruct (valid f e) eqn:E; [apply valid_true in E|apply valid_false in E]; split; try tauto.
  intros [H _]. destruct (C53_flux_mag_flux f H) as (m & H1 & H2). eauto.
Qed.
Lemma magerr_point : forall f e, magerr_ok f e (if valid f e then Some (25 / 10 / ln 10 * (e / f)) else None).
Proof.
  intros f e. destruct (valid f e) eqn:E; [apply valid_true in E|apply valid_false in E]; split; intros HH; try tauto.
  all: replace 2.5 with (25 / 10) by lra; reflexivity.
Qed.
Lemma flag_point : forall m f e, flag_ok m f e (flag_single m (if valid f e then Some (f / e) else None)).
Proof.
  intros m f e. unfold detected, flag_ok. destruct (valid f e) eqn:E; cbn [flag_single].
  - apply valid_true in E. exists (Rleb m (f / e)). split; auto. rewrite Rleb_true. unfold detected. tauto.
  - apply valid_false in E. exists false. split; auto. unfold detected. split; [discriminate|]. tauto.
Qed.

Theorem C60_snr : forall flux err,
  (length flux = length err -> exists snr, compute_snr flux err = Ok snr /\ rows3 snr_ok flux err snr) /\
  (length flux <> length err -> compute_snr flux err = Err ValueError).
Proof.
  intros flux err. unfold compute_snr. destruct (Nat.eqb_spec (length flux) (length err)); split; try tauto.
  intros _. eexists. split; [reflexivity|]. apply zip_rows; auto. apply snr_point.
Qed.
Theorem C60_mag : forall flux err, length flux = length err ->
  exists mag magerr, compute_mag flux err = Ok (mag, magerr) /\ rows3 mag_ok flux err mag /\ rows3 magerr_ok flux err magerr.
Proof.
  intros flux err HL. unfold compute_mag. rewrite (proj2 (Nat.eqb_eq _ _) HL). do 2 eexists. split; [reflexivity|].
  split; apply zip_rows; auto; [apply mag_point|apply magerr_point].
Qed.

(** ** One light curve *)
Definition added : list string := ["snr"; "detection"; "mag"; "magerr"].
(** The augmented columns of a data frame, row by row, with the other columns as they were. *)
Definition augmented (flagP : R -> R -> flag -> Prop) (extra : list string) (df df' : dict column) : Prop :=
  exists flux err snr det mag magerr,
    dget "flux" df = Some (CNums flux) /\ dget "fluxerr" df = Some (CNums err) /\
    dget "snr" df' = Some (CMask snr) /\ rows3 snr_ok flux err snr /\
    dget "detection" df' = Some (CFlags det) /\ rows3 flagP flux err det /\
    dget "mag" df' = Some (CMask mag) /\ rows3 mag_ok flux err mag /\
    dget "magerr" df' = Some (CMask magerr) /\ rows3 magerr_ok flux err magerr /\
    (forall k, ~ In k added -> ~ In k extra -> dget k df' = dget k df).

Lemma add_columns_ok : forall fl (P : R -> R -> flag -> Prop) m df df',
  (forall f e, P f e (fl m (if valid f e then Some (f / e) else None))) ->
  add_columns fl m df = Ok df' -> augmented P [] df df'.
Proof.
  intros fl P m df df' HP H. unfold add_columns in H.
  destruct (dget "flux" df) as [cf|] eqn:EF; [|discriminate]. destruct (dget "fluxerr" df) as [ce|] eqn:EE; [|discriminate].
  destruct cf as [flux| | |]; cbn [nums bind] in H; try discriminate.
  destruct ce as [er| | |]; cbn [nums bind] in H; try discriminate.
  unfold compute_snr, compute_mag in H. destruct (Nat.eqb_spec (length flux) (length er)) as [HL|]; [|discriminate].
  cbn [bind fst snd] in H. inversion H; subst df'; clear H.
  exists flux, er. do 4 eexists. split; [auto|]. split; [auto|].
  split; [rewrite dget_dset_other, dget_dset_other, dget_dset_other, dget_dset_same by discriminate; reflexivity|].
  split; [apply zip_rows; [auto|apply snr_point]|].
  split; [rewrite dget_dset_other, dget_dset_other, dget_dset_same by discriminate; reflexivity|].
  split; [rewrite zip_map; apply zip_rows; auto|].
  split; [rewrite dget_dset_other, dget_dset_same by discriminate; reflexivity|].
  split; [apply zip_rows; [auto|apply mag_point]|].
  split; [rewrite dget_dset_same; reflexivity|].
  split; [apply zip_rows; [auto|apply magerr_point]|].
  intros k HK _. unfold added in HK. simpl in HK.
  rewrite !dget_dset_other; auto; intros ->; tauto.
Qed.
Lemma add_columns_runs : forall fl m df flux er,
  dget "flux" df = Some (CNums flux) -> dget "fluxerr" df = Some (CNums er) -> length flux = length er ->
  exists df', add_columns fl m df = Ok df'.
Proof.
  intros fl m df flux er H1 H2 HL. unfold add_columns, compute_snr, compute_mag. rewrite H1, H2. cbn [nums bind].
  rewrite (proj2 (Nat.eqb_eq _ _) HL). cbn [bind]. eauto.
Qed.
Lemma add_columns_err : forall fl m df, dget "flux" df = None \/ dget "fluxerr" df = None -> add_columns fl m df = Err ValueError.
Proof. intros fl m df [H|H]; unfold add_columns; rewrite H; auto. destruct (dget "flux" df); auto. Qed.

(** Every row is marked as detected exactly if flux and error are positive and their ratio reaches
    the threshold; the new columns follow the rows and all other columns stay. *)
Theorem C60_single : forall df min_snr t0 df', augment_single df min_snr t0 = Ok df' ->
  augmented (flag_ok min_snr) ["time_rel"] df df' /\
  match t0, dget "mjd" df with
  | Some t, Some (CNums mjd) => dget "time_rel" df' = Some (CNums (map (fun m => m - t) mjd))
  | Some t, Some _ => False
  | _, _ => dget "time_rel" df' = dget "time_rel" df
  end.
Proof.
  intros df m t0 df' H. unfold augment_single in H.
  destruct (add_columns flag_single m df) as [df1|] eqn:EA; [|discriminate]. cbn [bind] in H.
  assert (A := add_columns_ok _ (flag_ok m) _ _ _ (flag_point m) EA).
  assert (MJ : dget "mjd" df1 = dget "mjd" df).
  { destruct A as (? & ? & ? & ? & ? & ? & A). apply A; simpl; intuition discriminate. }
  assert (TR : dget "time_rel" df1 = dget "time_rel" df).
  { destruct A as (? & ? & ? & ? & ? & ? & A). apply A; simpl; intuition discriminate. }
  assert (W : forall df2, df2 = df1 \/ (exists c, df2 = dset "time_rel" c df1) -> augmented (flag_ok m) ["time_rel"] df df2).
  { intros df2 H2. destruct A as (flux & er & snr & det & mag & magerr & A1 & A2 & A3 & A4 & A5 & A6 & A7 & A8 & A9 & A10 & A11).
    assert (G : forall k, k <> "time_rel" -> dget k df2 = dget k df1).
    { intros k HK. destruct H2 as [-> |[c ->]]; auto. now apply dget_dset_other. }
    exists flux, er, snr, det, mag, magerr. rewrite !G by discriminate. repeat (split; [assumption|]).
    intros k K1 K2. rewrite G by (intros ->; apply K2; now left). apply A11; auto. }
  rewrite MJ in H. destruct t0 as [t|]; [|inversion H; subst; split; auto].
  destruct (dget "mjd" df) as [cm|]; [|inversion H; subst; split; auto].
  destruct cm as [mjd| | |]; cbn [nums bind] in H; try discriminate. inversion H; subst. split.
  - apply W. right. eauto.
  - apply dget_dset_same.
Qed.
Theorem C60_single_accepts : forall df min_snr t0 flux er,
  dget "flux" df = Some (CNums flux) -> dget "fluxerr" df = Some (CNums er) -> length flux = length er ->
  (forall c, dget "mjd" df = Some c -> exists l, c = CNums l) ->
  exists df', augment_single df min_snr t0 = Ok df'.
Proof.
  intros df m t0 flux er H1 H2 HL HM. destruct (add_columns_runs flag_single m df flux er H1 H2 HL) as [df1 E].
  unfold augment_single. rewrite E. cbn [bind]. destruct t0 as [t|]; eauto.
  destruct (add_columns_ok _ (flag_ok m) _ _ _ (flag_point m) E) as (? & ? & ? & ? & ? & ? & A).
  rewrite (proj2 (proj2 (proj2 (proj2 (proj2 (proj2 (proj2 (proj2 (proj2 (proj2 A))))))))) "mjd") by (simpl; intuition discriminate).
  destruct (dget "mjd" df) as [c|]; eauto. destruct (HM c eq_refl) as [l ->]. cbn. eauto.
Qed.
Theorem C60_single_missing : forall df min_snr t0, dget "flux" df = None \/ dget "fluxerr" df = None ->
  augment_single df min_snr t0 = Err ValueError.
Proof. intros df m t0 H. unfold augment_single. now rewrite (add_columns_err _ _ _ H). Qed.

(** ** Nested frames *)
(** The flat rows belonging to object number [i]. *)
Definition first_row (counts : list (option nat)) (i : nat) : nat := list_sum (map size (firstn i counts)).
Definition of_object {A} (counts : list (option nat)) (i : nat) (flat : list A) : list A :=
  firstn (size (nth i counts None)) (skipn (first_row counts i) flat).
(** Flags of valid points are as they should be; the others are numpy's [masked], not False. *)
Definition flag_nested_ok (min_snr f e : R) (x : flag) : Prop :=
  (0 < f /\ 0 < e -> exists b, x = Flag b /\ (b = true <-> min_snr <= f / e)) /\ (~ (0 < f /\ 0 < e) -> x = FMasked).
Lemma flag_nested_point : forall m f e, flag_nested_ok m f e (flag_nested m (if valid f e then Some (f / e) else None)).
Proof.
  intros m f e. unfold flag_nested_ok. destruct (valid f e) eqn:E; cbn [flag_nested].
  - apply valid_true in E. split; [|tauto]. intros _. exists (Rleb m (f / e)). split; auto. apply Rleb_true.
  - apply valid_false in E. split; tauto.
Qed.

(** The labels, the t0 column, the objects and the numbers of their observations stay; the added
    columns follow the rows. *)
Theorem C60_nested : forall nf min_snr nf', augment_nested true nf min_snr = (nf', None) ->
  nf_labels nf' = nf_labels nf /\ nf_t0 nf' = nf_t0 nf /\
  exists lc lc', nf_lc nf = Some lc /\ nf_lc nf' = Some lc' /\ cu_counts lc' = cu_counts lc /\
    augmented (flag_nested_ok min_snr) ["time_rel"] (cu_flat lc) (cu_flat lc').
Proof.
  intros nf m nf' H. unfold augment_nested in H. destruct (nf_lc nf) as [lc|] eqn:EL; [|discriminate].
  destruct (add_columns flag_nested m (cu_flat lc)) as [df1|] eqn:EA; [|discriminate].
  assert (A := add_columns_ok _ (flag_nested_ok m) _ _ _ (flag_nested_point m) EA).
  assert (W : forall df2, df2 = df1 \/ (exists c, df2 = dset "time_rel" c df1) -> augmented (flag_nested_ok m) ["time_rel"] (cu_flat lc) df2).
  { intros df2 H2. destruct A as (flux & er & snr & det & mag & magerr & A1 & A2 & A3 & A4 & A5 & A6 & A7 & A8 & A9 & A10 & A11).
    assert (G : forall k, k <> "time_rel" -> dget k df2 = dget k df1).
    { intros k HK. destruct H2 as [-> |[c ->]]; auto. now apply dget_dset_other. }
    exists flux, er, snr, det, mag, magerr. rewrite !G by discriminate. repeat (split; [assumption|]).
    intros k K1 K2. rewrite G by (intros ->; apply K2; now left). apply A11; auto. }
  assert (F : forall df2, nf' = mkNF (nf_labels nf) (nf_t0 nf) (Some (mkCurves (cu_counts lc) df2)) ->
    (df2 = df1 \/ exists c, df2 = dset "time_rel" c df1) ->
    nf_labels nf' = nf_labels nf /\ nf_t0 nf' = nf_t0 nf /\
    exists lc0 lc', Some lc = Some lc0 /\ nf_lc nf' = Some lc' /\ cu_counts lc' = cu_counts lc0 /\
    augmented (flag_nested_ok m) ["time_rel"] (cu_flat lc0) (cu_flat lc')).
  { intros df2 -> D. split; auto. split; auto. exists lc. eexists. split; [reflexivity|]. split; [reflexivity|]. split; [reflexivity|]. cbn. auto. }
  destruct (nf_t0 nf) as [t0|] eqn:ET; [|inversion H; subst; eapply F; eauto].
  destruct (t0_usable t0); [|inversion H; subst; eapply F; eauto].
  destruct (dget "mjd" df1) as [cm|]; [|discriminate]. match type of H with context [bind ?X ?Y] => destruct (bind X Y) end; inversion H; subst.
  eapply F; [reflexivity|]. right. eauto.
Qed.
Lemma Forall2_firstn : forall A B (P : A -> B -> Prop) l l' n, Forall2 P l l' -> Forall2 P (firstn n l) (firstn n l').
Proof. intros A B P l l' n H. revert n. induction H; intros [|n]; simpl; constructor; auto. Qed.
Lemma Forall2_skipn : forall A B (P : A -> B -> Prop) l l' n, Forall2 P l l' -> Forall2 P (skipn n l) (skipn n l').
Proof. intros A B P l l' n H. revert n. induction H; intros [|n]; simpl; auto. Qed.
Lemma combine_firstn2 : forall A B (a : list A) (b : list B) n, combine (firstn n a) (firstn n b) = firstn n (combine a b).
Proof. induction a as [|x a IH]; intros [|y b] [|n]; simpl; auto. now rewrite IH. Qed.
Lemma combine_skipn : forall A B (a : list A) (b : list B) n, combine (skipn n a) (skipn n b) = skipn n (combine a b).
Proof. induction a as [|x a IH]; intros [|y b] [|n]; simpl; auto. now destruct (skipn n a). Qed.
(** Row by row over the flat columns means row by row within every object. *)
Theorem C60_per_object : forall X (P : R -> R -> X -> Prop) flux er out counts i,
  rows3 P flux er out -> rows3 P (of_object counts i flux) (of_object counts i er) (of_object counts i out).
Proof.
  intros X P flux er out counts i [HL H]. unfold of_object. split.
  - rewrite !firstn_length, !skipn_length, HL. reflexivity.
  - rewrite combine_firstn2, combine_skipn. apply Forall2_firstn, Forall2_skipn, H.
Qed.
Theorem C60_nested_errors : forall nf min_snr,
  augment_nested false nf min_snr = (nf, Some ValueError) /\
  (nf_lc nf = None -> augment_nested true nf min_snr = (nf, Some ValueError)) /\
  (forall lc, nf_lc nf = Some lc -> dget "flux" (cu_flat lc) = None \/ dget "fluxerr" (cu_flat lc) = None ->
     augment_nested true nf min_snr = (nf, Some ValueError)).
Proof.
  intros nf m. split; [reflexivity|]. split; unfold augment_nested.
  - intros ->. reflexivity.
  - intros lc -> H. now rewrite (add_columns_err _ _ _ H).
Qed.

(** ** Relative times *)
Lemma index_all_spec : forall l idx r, index_all l idx = Ok r <-> Forall2 (fun i t => nth_error l i = Some (Some t)) idx r.
Proof.
  induction idx as [|i idx IH]; intros r; simpl.
  - split; [intros H; inversion H; constructor|intros H; inversion H; auto].
  - split.
    + destruct (nth_error l i) as [[t|]|] eqn:E; try discriminate.
      destruct (index_all l idx) as [r'|]; [|discriminate]. cbn. intros H. inversion H; subst. constructor; auto. now apply IH.
    + intros H. inversion H as [|? t ? r' H1 H2]; subst. rewrite H1. apply IH in H2. rewrite H2. reflexivity.
Qed.
(** The frame numbers its objects 0, 1, 2, ... *)
Definition numbered (nf : nframe) : Prop := nf_labels nf = seq 0 (length (nf_labels nf)).
(** The object of flat row [r]. *)
Definition row_of (counts : list (option nat)) (r i : nat) : Prop :=
  (first_row counts i <= r < first_row counts i + size (nth i counts None))%nat /\ (i < length counts)%nat.

Lemma flat_index_nth : forall labels counts r i, length labels = length counts -> row_of counts r i ->
  nth_error (flat_index labels counts) r = nth_error labels i.
Proof.
  unfold flat_index, row_of, first_row. induction labels as [|a labels IH]; intros [|c counts] r i HL [H1 H2]; simpl in HL, H2; try lia.
  cbn [combine flat_map fst snd]. destruct i as [|i]; simpl in H1.
  - rewrite nth_error_app1 by (rewrite repeat_length; lia). rewrite nth_error_repeat by lia. reflexivity.
  - rewrite nth_error_app2 by (rewrite repeat_length; lia). rewrite repeat_length. simpl. apply IH; [lia|]. split; lia.
Qed.
Lemma flat_index_length : forall labels counts, length labels = length counts ->
  length (flat_index labels counts) = list_sum (map size counts).
Proof.
  unfold flat_index. induction labels as [|a labels IH]; intros [|c counts] HL; simpl in HL; try lia; auto.
  cbn [combine flat_map fst snd]. rewrite app_length, repeat_length, IH by lia. reflexivity.
Qed.
Lemma index_bound : forall labels counts x, In x (flat_index labels counts) -> In x labels.
Proof.
  unfold flat_index. intros labels counts x H. apply in_flat_map in H. destruct H as [[a c] [H1 H2]].
  apply repeat_spec in H2. subst. eapply in_combine_l; eauto.
Qed.

(** The frame is consistent: one count per object, one flat row per observation, one t0 per object. *)
Definition consistent (nf : nframe) (lc : curves) : Prop :=
  length (nf_labels nf) = length (cu_counts lc) /\
  (forall t0, nf_t0 nf = Some t0 -> length t0 = length (nf_labels nf)) /\
  (forall c l, dget c (cu_flat lc) = Some (CNums l) -> length l = list_sum (map size (cu_counts lc))).

Lemma zip_nth : forall (a b : list R) r x y, nth_error a r = Some x -> nth_error b r = Some y ->
  nth_error (zip_with Rminus a b) r = Some (x - y).
Proof.
  induction a as [|u a IH]; intros [|w b] [|r] x y H1 H2; simpl in *; try discriminate; [congruence|]. auto.
Qed.

(** On a frame whose objects are numbered 0, 1, 2, ... the relative time of an observation is its time
    minus the t0 of its object, provided that all t0 are present and none is zero. *)
Theorem C60_time_rel : forall nf lc min_snr flux er mjd t0,
  consistent nf lc -> numbered nf -> nf_lc nf = Some lc -> nf_t0 nf = Some t0 ->
  dget "flux" (cu_flat lc) = Some (CNums flux) -> dget "fluxerr" (cu_flat lc) = Some (CNums er) ->
  dget "mjd" (cu_flat lc) = Some (CNums mjd) ->
  (forall x, In x t0 -> exists t, x = Some t /\ t <> 0) ->
  exists nf' lc' rel, augment_nested true nf min_snr = (nf', None) /\ nf_lc nf' = Some lc' /\
    dget "time_rel" (cu_flat lc') = Some (CNums rel) /\ length rel = length mjd /\
    forall r i m t, row_of (cu_counts lc) r i -> nth_error mjd r = Some m -> nth_error t0 i = Some (Some t) ->
      nth_error rel r = Some (m - t).
Proof.
  intros nf lc ms flux er mjd t0 (C1 & C2 & C3) NU EL ET EF EE EM HT.
  assert (LF := C3 _ _ EF). assert (LE := C3 _ _ EE). assert (LM := C3 _ _ EM). specialize (C2 t0 ET).
  destruct (add_columns_runs flag_nested ms (cu_flat lc) flux er EF EE ltac:(lia)) as [df1 EA].
  destruct (add_columns_ok _ (flag_nested_ok ms) _ _ _ (flag_nested_point ms) EA) as (v1 & v2 & v3 & v4 & v5 & v6 & A).
  assert (MJ : dget "mjd" df1 = Some (CNums mjd)).
  { rewrite (proj2 (proj2 (proj2 (proj2 (proj2 (proj2 (proj2 (proj2 (proj2 (proj2 A))))))))) "mjd") by (simpl; intuition discriminate). exact EM. }
  unfold augment_nested. rewrite EL, EA, ET, MJ. cbn [nums bind].
  assert (US : t0_usable t0 = true).
  { apply forallb_forall. intros x Hx. destruct (HT x Hx) as (t & -> & Ht). apply negb_true_iff. now apply Reqb_false. }
  rewrite US.
  destruct (index_all t0 (flat_index (nf_labels nf) (cu_counts lc))) as [ts|e] eqn:EI.
  2:{ exfalso. assert (B : forall idx, (forall x, In x idx -> (x < length t0)%nat) -> exists r, index_all t0 idx = Ok r).
      { clear - HT. induction idx as [|i idx IH]; intros H; simpl; eauto.
        destruct (nth_error t0 i) as [x|] eqn:E; [|apply nth_error_None in E; specialize (H i (or_introl eq_refl)); lia].
        destruct (HT x (nth_error_In _ _ E)) as (t & -> & _). destruct IH as [r ->]; cbn; eauto. intros y Hy. apply H. now right. }
      destruct (B (flat_index (nf_labels nf) (cu_counts lc))) as [r Hr]; [|congruence].
      intros x Hx. apply index_bound in Hx. rewrite NU in Hx. apply in_seq in Hx. lia. }
  cbn [bind]. do 3 eexists. split; [reflexivity|]. split; [reflexivity|]. cbn [cu_flat]. split; [apply dget_dset_same|].
  apply index_all_spec in EI. assert (LT : length ts = length mjd).
  { assert (X : length (flat_index (nf_labels nf) (cu_counts lc)) = length ts) by (clear - EI; induction EI; simpl; auto).
    rewrite flat_index_length in X by auto. lia. }
  split.
  { clear - LT. revert ts LT. induction mjd as [|a l IH]; intros [|b ts] LT; simpl in *; try lia. rewrite IH; lia. }
  intros r i m t HR Hm Ht. apply zip_nth; auto.
  assert (FI := flat_index_nth _ _ r i C1 HR).
  assert (LI : nth_error (nf_labels nf) i = Some i).
  { rewrite NU. destruct HR as [_ HR]. rewrite nth_error_nth' with (d := O) by (rewrite seq_length; lia). rewrite seq_nth by lia. reflexivity. }
  rewrite LI in FI. clear - EI FI Ht. revert r FI. induction EI as [|x y l l' H1 H2 IH]; intros [|r] FI; simpl in *; try discriminate.
  - inversion FI; subst. congruence.
  - auto.
Qed.

(** ** Dropping empty light curves *)
Lemma keep_In : forall A counts (l : list A) n, length l = length counts ->
  exists ix, keep counts l = map (fun i => nth i l n) ix /\
    ix = filter (fun i => match nth i counts None with Some _ => true | None => false end) (seq 0 (length counts)).
Proof.
  intros A counts l n HL. eexists. split; [|reflexivity].
  assert (G : forall counts l s, length l = length counts -> forall big bigl, (forall k, nth (s + k) big None = nth k counts None) ->
     (forall k, (k < length counts)%nat -> nth (s + k) bigl n = nth k l n) ->
     keep counts l = map (fun i => nth i bigl n) (filter (fun i => match nth i big None with Some _ => true | None => false end) (seq s (length counts)))).
  { clear. induction counts as [|c counts IH]; intros [|a l] s HL big bigl H1 H2; simpl in HL; try lia; auto.
    unfold keep. cbn [combine filter fst length seq]. assert (E0 := H1 O). assert (E1 := H2 O ltac:(simpl; lia)). rewrite Nat.add_0_r in E0, E1. cbn [nth] in E0, E1. rewrite E0.
    assert (R1 : keep counts l = map (fun i => nth i bigl n) (filter (fun i => match nth i big None with Some _ => true | None => false end) (seq (S s) (length counts)))).
    { apply IH; [lia| |].
      - intros k. specialize (H1 (S k)). replace (S s + k)%nat with (s + S k)%nat by lia. exact H1.
      - intros k Hk. specialize (H2 (S k) ltac:(simpl; lia)). replace (S s + k)%nat with (s + S k)%nat by lia. exact H2. }
    unfold keep in R1. destruct c; cbn [map snd]; rewrite R1; [now rewrite E1|reflexivity]. }
  apply G with (s := O); auto.
Qed.

(** Exactly the objects without a light curve are removed; the others keep their order, labels,
    t0 and observations. *)
Theorem C60_drop_empty : forall nf lc, nf_lc nf = Some lc -> consistent nf lc ->
  exists nf' lc', drop_empty nf = Ok nf' /\ nf_lc nf' = Some lc' /\ cu_flat lc' = cu_flat lc /\
  let ix := filter (fun i => match nth i (cu_counts lc) None with Some _ => true | None => false end) (seq 0 (length (nf_labels nf))) in
  nf_labels nf' = map (fun i => nth i (nf_labels nf) O) ix /\
  cu_counts lc' = map (fun i => nth i (cu_counts lc) None) ix /\
  (forall t0, nf_t0 nf = Some t0 -> nf_t0 nf' = Some (map (fun i => nth i t0 None) ix)) /\
  (forall k i, nth_error ix k = Some i -> forall A (flat : list A), of_object (cu_counts lc') k flat = of_object (cu_counts lc) i flat).
Proof.
  intros nf lc EL (C1 & C2 & C3). unfold drop_empty. rewrite EL. do 2 eexists. split; [reflexivity|]. split; [reflexivity|].
  split; [reflexivity|]. cbn [nf_labels cu_counts nf_t0]. cbv zeta. rewrite C1.
  destruct (keep_In _ (cu_counts lc) (nf_labels nf) O C1) as (ix & K1 & EX).
  destruct (keep_In _ (cu_counts lc) (cu_counts lc) None eq_refl) as (ix' & K2 & EX'). rewrite <- EX. rewrite <- EX in EX'. subst ix'.
  split; [exact K1|]. split; [exact K2|]. split.
  - intros t0 ET. rewrite ET. cbn [option_map]. f_equal.
    destruct (keep_In _ (cu_counts lc) t0 None) as (ix' & K3 & EX'); [rewrite (C2 t0 ET); lia|]. rewrite <- EX in EX'. subst ix'. exact K3.
  - intros k i HK A flat. unfold of_object. rewrite K2.
    assert (NK : nth k (map (fun i => nth i (cu_counts lc) None) ix) None = nth i (cu_counts lc) None).
    { apply nth_error_nth. rewrite nth_error_map, HK. reflexivity. }
    rewrite NK. f_equal. f_equal. unfold first_row. rewrite <- K2. clear NK K1 K2. subst ix.
    (* dropped objects have no rows *)
    assert (G : forall counts s big, (forall k, nth (s + k) big None = nth k counts None) -> forall k i,
       nth_error (filter (fun i => match nth i big None with Some _ => true | None => false end) (seq s (length counts))) k = Some i ->
       list_sum (map size (firstn k (keep counts counts))) = list_sum (map size (firstn (i - s) counts)) /\ (s <= i)%nat).
    { clear. induction counts as [|c counts IH]; intros s big H k i HK; [destruct k; discriminate|].
      unfold keep. cbn [combine filter fst length seq] in *. assert (E0 := H O). rewrite Nat.add_0_r in E0. cbn [nth] in E0. rewrite E0 in HK.
      assert (H' : forall k, nth (S s + k) big None = nth k counts None).
      { intros j. specialize (H (S j)). replace (S s + j)%nat with (s + S j)%nat by lia. exact H. }
      destruct c as [n|]; cbn [map snd].
      - destruct k as [|k]; cbn [nth_error] in HK.
        + inversion HK; subst. rewrite Nat.sub_diag. split; auto.
        + destruct (IH (S s) big H' k i HK) as [I1 I2]. split; [|lia]. replace (i - s)%nat with (S (i - S s)) by lia.
          cbn [firstn map list_sum fold_right]. fold (keep counts counts).
          unfold list_sum in *. cbn. f_equal. 
          exact I1.
      - destruct (IH (S s) big H' k i HK) as [I1 I2]. split; [|lia]. replace (i - s)%nat with (S (i - S s)) by lia.
        cbn [firstn map]. unfold list_sum in *. cbn. exact I1. }
    destruct (G (cu_counts lc) O (cu_counts lc) (fun _ => eq_refl) k i HK) as [G1 _]. rewrite Nat.sub_0_r in G1. exact G1.
Qed.

(** ** Refuted claims *)
Ltac rdec := repeat match goal with
  | |- context [Rlt_dec ?a ?b] => destruct (Rlt_dec a b); try (exfalso; lra)
  | |- context [Rle_dec ?a ?b] => destruct (Rle_dec a b); try (exfalso; lra)
  | |- context [Req_EM_T ?a ?b] => destruct (Req_EM_T a b); try (exfalso; lra)
  end.
Definition two_points (mjd flux : list R) : dict column :=
  [("mjd", CNums mjd); ("flux", CNums flux); ("fluxerr", CNums (map (fun _ => 1) flux))].

(** In a nested frame a point with non-positive flux is not marked False but masked (the test is
    [is not None], the entry is numpy's [masked]); for a single light curve it is marked False. *)
Theorem C60_nested_flag_refuted : exists nf nf' lc' df',
  augment_nested true nf 5 = (nf', None) /\ nf_lc nf' = Some lc' /\
  dget "detection" (cu_flat lc') = Some (CFlags [FMasked; Flag true]) /\
  augment_single (two_points [1; 2] [-1; 10]) 5 None = Ok df' /\
  dget "detection" df' = Some (CFlags [Flag false; Flag true]).
Proof.
  exists (mkNF [0%nat] None (Some (mkCurves [Some 2%nat] (two_points [1; 2] [-1; 10])))).
  do 3 eexists. split; [reflexivity|]. split; [reflexivity|]. cbn [cu_flat]. split.
  - cbn. unfold valid, Rltb. rdec. cbn. unfold Rleb. rdec. reflexivity.
  - split; [reflexivity|]. cbn. unfold valid, Rltb. rdec. cbn. unfold Rleb. rdec. reflexivity.
Qed.
(** After empty light curves have been dropped the objects keep their labels, but t0 is looked up by
    position: IndexError.  In a frame whose objects have been reordered, an object gets another
    object's t0. *)
Definition sparse_frame : nframe :=
  mkNF [0; 1; 2; 3]%nat (Some [Some 100; Some 200; Some 300; Some 400])
    (Some (mkCurves [Some 1%nat; None; Some 1%nat; Some 1%nat] (two_points [101; 301; 401] [1; 1; 1]))).
Theorem C60_time_rel_after_drop_refuted : exists nf' nf2 lc2,
  drop_empty sparse_frame = Ok nf' /\ nf_labels nf' = [0; 2; 3]%nat /\ nf_t0 nf' = Some [Some 100; Some 300; Some 400] /\
  augment_nested true nf' 0 = (nf2, Some IndexError) /\
  (* two objects: the second one gets the t0 of another *)
  (let nf := mkNF [1; 0]%nat (Some [Some 100; Some 200]) (Some (mkCurves [Some 1%nat; Some 1%nat] (two_points [101; 201] [1; 1]))) in
   exists nf3, augment_nested true nf 0 = (nf3, None) /\ nf_lc nf3 = Some lc2 /\
     dget "time_rel" (cu_flat lc2) = Some (CNums [101 - 200; 201 - 100])).
Proof.
  do 3 eexists. split; [reflexivity|]. split; [reflexivity|]. split; [reflexivity|]. split.
  - cbn. unfold Reqb. rdec. reflexivity.
  - cbn. unfold Reqb. rdec. eexists. split; [reflexivity|]. split; reflexivity.
Qed.
(** A single t0 of zero suppresses the relative times of all objects. *)
Theorem C60_zero_t0_refuted : exists nf nf' lc', nf_t0 nf = Some [Some 0; Some 5] /\ consistent nf (mkCurves [Some 1%nat; Some 1%nat] (two_points [1; 6] [1; 1])) /\
  augment_nested true nf 0 = (nf', None) /\ nf_lc nf' = Some lc' /\ dget "time_rel" (cu_flat lc') = None.
Proof.
  exists (mkNF [0; 1]%nat (Some [Some 0; Some 5]) (Some (mkCurves [Some 1%nat; Some 1%nat] (two_points [1; 6] [1; 1])))).
  do 2 eexists. split; [reflexivity|]. split.
  { split; [reflexivity|]. split.
    - intros t0 H. inversion H. reflexivity.
    - unfold two_points. intros c l H. cbn [cu_flat dget] in H.
      repeat match type of H with (if ?b then _ else _) = _ => destruct b end; try discriminate; inversion H; reflexivity. }
  split; [cbn; unfold Reqb; rdec; reflexivity|]. split; reflexivity.
Qed.
(** The hypotheses of [C60_time_rel] are met. *)
Example time_rel_meets : exists nf lc, consistent nf lc /\ numbered nf /\ nf_lc nf = Some lc /\
  nf_t0 nf = Some [Some 10; Some 5] /\ dget "mjd" (cu_flat lc) = Some (CNums [1; 6]) /\ row_of (cu_counts lc) 1 1.
Proof.
  exists (mkNF [0; 1]%nat (Some [Some 10; Some 5]) (Some (mkCurves [Some 1%nat; Some 1%nat] (two_points [1; 6] [1; 1])))),
    (mkCurves [Some 1%nat; Some 1%nat] (two_points [1; 6] [1; 1])).
  split.
  { split; [reflexivity|]. split.
    - intros t0 H. inversion H. reflexivity.
    - unfold two_points. intros c l H. cbn [cu_flat dget] in H.
      repeat match type of H with (if ?b then _ else _) = _ => destruct b end; try discriminate; inversion H; reflexivity. }
  repeat split; cbn; lia.
Qed.
