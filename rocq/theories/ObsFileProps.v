(** Theorems C107: saving a survey table and loading it again. *)
From Coq Require Import Reals String Ascii List Bool Arith Lia Lra.
From Verif Require Import Base BaseFacts RealBase ObsTableModel ObsTableProps ObsTableMore NoiseModel FakeModel FakeProps SurveyModel SurveyProps ZtfProps RomanModel RomanProps ObsFileModel ObsFileProofs.
Import ListNotations.
Open Scope string_scope.
Open Scope list_scope.
Open Scope nat_scope.

(** ** Specification *)
(** The table has standard column names only: none of the columns has the name a survey's own files use for a standard column, so there
    is nothing left to rename (for ZTF: nor to convert). *)
Definition standard_names (k : klass) (o : obstable) : Prop :=
  (forall key v, In (key, v) (k_map k) -> key <> v -> ~ In v (columns (ob_frame o))) /\
  (forall mjd, k = ztf_class mjd -> ~ In "obsdate" (columns (ob_frame o))).
(** The zero points are in a column "zp" (a plain ObsTable needs none). *)
Definition has_zero_points (k : klass) (o : obstable) : Prop := k = base_class \/ In "zp" (columns (ob_frame o)).
(** Two tables answer every search alike. *)
Definition same_searches (o o' : obstable) : Prop := forall ball ra dec radius tmin tmax,
  range_search ball o' ra dec radius tmin tmax = range_search ball o ra dec radius tmin tmax /\
  is_observed ball o' ra dec radius tmin tmax = is_observed ball o ra dec radius tmin tmax.

(** ** Loading a table with standard names *)
Lemma prep_standard : forall k o, survey_class k -> standard_names k o -> k_prep k (ob_frame o) = ob_frame o.
Proof.
  intros k o [-> | [-> | (mjd & ->)]] [_ H]; auto. cbn [k_prep ztf_class]. unfold add_mjd. specialize (H mjd eq_refl).
  destruct (dget "obsdate" (f_cols (ob_frame o))) eqn:E; auto. exfalso. apply H. apply (dget_keys _ "obsdate" (f_cols (ob_frame o))). congruence.
Qed.
Lemma load_standard : forall k o meta kw fp, survey_class k -> tinv o -> standard_names k o -> has_zero_points k o ->
  kmake k (ob_frame o) None meta kw fp =
    Ok (mkObs (ob_frame o) (inverse (k_map k)) (survey_values (k_defaults k) meta kw) (unique_filters (ob_frame o)) (ob_tree o) fp).
Proof.
  intros k o meta kw fp K [T1 T2 T3] HS HZ. unfold kmake. rewrite prep_standard by auto. unfold survey_make. rewrite remap_plain by (exact (proj1 HS)). cbn [bind].
  replace (forallb (fun c => smem c (columns (ob_frame o))) required) with true by (symmetry; apply forallb_forall; intros c Hc; apply smem_In; auto).
  cbn [negb]. cbv zeta. set (b := mkObs _ _ _ _ _ _). assert (X : (if ob_contains b "zp" then Ok b else k_zero k b) = Ok b).
  { destruct HZ as [-> |HZ]; [destruct (ob_contains b "zp"); reflexivity|]. replace (ob_contains b "zp") with true; auto. symmetry. unfold ob_contains.
    apply orb_true_intro. left. apply dmem_true. exact HZ. }
  rewrite X. cbn [bind]. unfold b. cbn [ob_frame ob_inv ob_values ob_filters ob_footprint]. now rewrite <- T3.
Qed.
Lemma range_same : forall o o', ob_frame o' = ob_frame o -> ob_tree o' = ob_tree o -> ob_footprint o' = ob_footprint o -> dget "radius" (ob_values o') = dget "radius" (ob_values o) -> same_searches o o'.
Proof.
  intros o o' H1 H2 H3 H4 ball ra dec radius tmin tmax.
  assert (X : range_search ball o' ra dec radius tmin tmax = range_search ball o ra dec radius tmin tmax).
  { unfold range_search, preset_radius, search_one. rewrite H1, H2, H3, H4. reflexivity. }
  split; auto. unfold is_observed. now rewrite X.
Qed.

(** ** Parquet *)
(** Every table of the base class, OpSim and ZTF with standard names comes back from its parquet file with the same rows, labels and columns,
    the same survey values (whatever the class's defaults and later changes), and answers every search as before; the detector footprint and
    the old names of the columns are not in the file. *)
Theorem C107_parquet : forall k o fs p overwrite fs', survey_class k -> held k o -> standard_names k o -> has_zero_points k o ->
  write_parquet fs o p overwrite = (Ok tt, fs') ->
  exists o', from_parquet k fs' p = Ok o' /\ ob_frame o' = ob_frame o /\ (forall key, dget key (ob_values o') = dget key (ob_values o)) /\
    same_searches (clear_footprint o) o' /\ ob_footprint o' = None /\
    ob_inv o' = fold_left (fun a kv => dset (snd kv) (fst kv) a) (k_map k) [] /\
    (forall s, In s (ob_filters o') <-> exists i, cell_at o "filter" i = Some (CStr s)).
Proof.
  intros k o fs p ow fs' K H HS HZ HW. destruct (held_inv k o K (class_nodup k K) H) as [T V]. unfold write_parquet in HW.
  destruct (_ && _)%bool; [discriminate|]. destruct (arrow_columns _); [|discriminate]. injection HW as <-.
  unfold from_parquet, load_parquet. rewrite put_same. cbn [bind fst snd]. rewrite load_standard by auto. eexists. split; [reflexivity|].
  cbn [ob_frame ob_values ob_footprint ob_inv ob_filters]. split; auto. split; [intros key; now apply saved_values|]. split.
  - apply range_same; auto. cbn [ob_values clear_footprint]. now apply saved_values.
  - split; auto. split; auto. intros s. unfold unique_filters, cell_at.
    assert (FA : forall l acc, In s (fold_left (fun acc s => sadd s acc) l acc) <-> In s l \/ In s acc).
    { induction l as [|x0 l IH]; intros acc; cbn [fold_left]; [simpl; tauto|]. rewrite IH. rewrite In_sadd. simpl. intuition. }
    destruct (dget "filter" (f_cols (ob_frame o))) as [c|].
    + rewrite FA. simpl. split.
      * intros [HI|[]]. apply in_flat_map in HI. destruct HI as ([r|t|] & HI & E); try now destruct E. destruct E as [-> |[]]. apply In_nth_error. exact HI.
      * intros (i & Hi). left. apply in_flat_map. exists (CStr s). split; [eapply nth_error_In; eauto|simpl; auto].
    + simpl. split; [tauto|]. intros ([|i] & Hi); discriminate.
Qed.
(** Writing does not depend on the class, and changes no other file; a failed write changes nothing. *)
Theorem C107_parquet_write : forall fs o p overwrite r fs', write_parquet fs o p overwrite = (r, fs') ->
  (forall q, q <> p -> fs' q = fs q) /\ (r <> Ok tt -> fs' = fs) /\
  (r = Err RuntimeError <-> overwrite = false /\ fs p <> None).
Proof.
  intros fs o p ow r fs' H. unfold write_parquet in H.
  assert (NR : forall d, arrow_columns d <> Err RuntimeError).
  { induction d as [|[n c] d IH]; cbn [arrow_columns snd]; [discriminate|]. unfold arrow_column. destruct (first_value c) as [[v|t|]|]; cbn [bind]; auto.
    - destruct (forallb _ c); cbn [bind]; auto. discriminate.
    - destruct (forallb _ c); cbn [bind]; auto. discriminate. }
  specialize (NR (f_cols (ob_frame o))). destruct (negb ow && match fs p with Some _ => true | None => false end)%bool eqn:E.
  - injection H as <- <-. apply andb_prop in E. destruct E as [E1 E2]. apply negb_true_iff in E1. split; auto. split; auto. split; auto. intros _. split; auto. destruct (fs p); [discriminate|discriminate].
  - assert (NE : ~ (ow = false /\ fs p <> None)).
    { intros [-> X]. cbn [negb] in E. destruct (fs p); [discriminate|congruence]. }
    destruct (arrow_columns _) as [u|e]; injection H as <- <-.
    + split; [intros q Hq; now apply put_other|]. split; [intros X; now destruct X|]. split; [discriminate|tauto].
    + split; auto. split; auto. split; [|tauto]. intros X. congruence.
Qed.
(** A column of numbers and missing values, or of text and missing values, can be saved; mixed columns cannot. *)
Theorem C107_parquet_columns : forall fs o p, fst (write_parquet fs o p true) = Ok tt <->
  forall name c, In (name, c) (f_cols (ob_frame o)) -> (forall s, ~ In (CStr s) c) \/ (forall r, ~ In (CNum r) c).
Proof.
  intros fs o p. unfold write_parquet. cbn [negb andb].
  assert (AC : forall c, arrow_column c = Ok tt <-> (forall s, ~ In (CStr s) c) \/ (forall r, ~ In (CNum r) c)).
  { intros c. unfold arrow_column.
    assert (F : match first_value c with None => forall x, In x c -> x = CNan | Some x => In x c /\ x <> CNan end).
    { induction c as [|[r|t|] c IH]; cbn [first_value]; [intros x []|split; [now left|discriminate]|split; [now left|discriminate]|].
      destruct (first_value c) as [x|]; [destruct IH; split; auto; now right|]. intros x [<-|HI]; auto. }
    destruct (first_value c) as [[r|t|]|].
    - destruct F as [F _]. destruct (forallb _ c) eqn:E.
      + split; auto. intros _. left. intros s HI. rewrite forallb_forall in E. apply E in HI. discriminate.
      + split; [discriminate|]. intros [X|X]; [|exfalso; eapply X; eauto]. exfalso. apply not_true_iff_false in E. apply E. apply forallb_forall.
        intros [|s|] HI; auto. exfalso. eapply X; eauto.
    - destruct F as [F _]. destruct (forallb _ c) eqn:E.
      + split; auto. intros _. right. intros s HI. rewrite forallb_forall in E. apply E in HI. discriminate.
      + split; [discriminate|]. intros [X|X]; [exfalso; eapply X; eauto|]. exfalso. apply not_true_iff_false in E. apply E. apply forallb_forall.
        intros [s| |] HI; auto. exfalso. eapply X; eauto.
    - destruct F; congruence.
    - split; auto. intros _. left. intros s HI. apply F in HI. discriminate. }
  assert (AD : forall d : dict (list cell), (exists u, arrow_columns d = Ok u) <-> forall name c, In (name, c) d -> arrow_column c = Ok tt).
  { induction d as [|[n c] d IH]; cbn [arrow_columns snd].
    - split; [intros _ name c []|intros _; now exists tt].
    - destruct (arrow_column c) as [[]|e] eqn:E; cbn [bind].
      + rewrite IH. split; [intros X name c' [HI|HI]; [now injection HI as _ <-|eauto]|intros X name c' HI; apply (X name); now right].
      + split; [intros (u & X); discriminate|]. intros X. specialize (X n c (or_introl eq_refl)). congruence. }
  split.
  - intros H name c HI. apply AC. destruct (arrow_columns _) as [u|] eqn:E; [|discriminate]. apply (proj1 (AD _) (ex_intro _ u E) name c HI).
  - intros H. destruct (proj2 (AD (f_cols (ob_frame o)))) as (u & E); [intros name c HI; apply AC; eauto|]. now rewrite E.
Qed.
(** Loading: the file must be there, and hold a parquet table. *)
Theorem C107_parquet_missing : forall k fs p,
  (fs p = None -> from_parquet k fs p = Err RuntimeError) /\
  (forall o, from_parquet k fs p = Ok o -> exists f a, fs p = Some (FParquet f a)).
Proof.
  intros k fs p. unfold from_parquet, load_parquet. split; [now intros ->|]. intros o H. destruct (fs p) as [[f a|d|]|]; try discriminate. eauto.
Qed.

(** ** The tables of a survey, made with its own column names *)
(** A table made from a file with the survey's own names, then filtered, its radius set, and columns added or filled in, none under one of the
    survey's own names. *)
Inductive ordinary (k : klass) : obstable -> Prop :=
| ord_make : forall f meta kw fp o, frame_ok f -> (forall mjd, k = ztf_class mjd -> ~ In "obsdate" (columns f)) -> kmake k f None meta kw fp = Ok o -> ordinary k o
| ord_add : forall o name v ow o', ordinary k o -> name <> "ra" -> name <> "dec" -> ~ In name ("obsdate" :: map snd (k_map k)) -> add_column o name v ow = Ok o' -> ordinary k o'
| ord_const : forall o name c b o', ordinary k o -> ~ In name ("obsdate" :: map snd (k_map k)) -> assign_constant o name c = Ok (b, o') -> ordinary k o'
| ord_filter : forall o r o', ordinary k o -> filter_rows o r = Ok o' -> ordinary k o'
| ord_radius : forall o r o', ordinary k o -> set_radius o r = Ok o' -> ordinary k o'.
Lemma ordinary_held : forall k o, ordinary k o -> held k o.
Proof.
  intros k o H. induction H; [|eapply held_add; eauto|eapply held_const; eauto|eapply held_filter; eauto|eapply held_radius; eauto].
  eapply (held_make k f None); eauto. discriminate.
Qed.
Lemma standard_add : forall k o name v ow o', standard_names k o -> ~ In name ("obsdate" :: map snd (k_map k)) -> add_column o name v ow = Ok o' -> standard_names k o'.
Proof.
  intros k o name v ow o' [H1 H2] HN H. apply add_column_shape in H. destruct H as (vals & _ & ->). split.
  - intros key w HI NE HC. unfold columns in HC. cbn [ob_frame f_cols] in HC. apply In_dkeys_dset in HC. destruct HC as [-> |HC]; [|eapply H1; eauto].
    apply HN. right. apply in_map_iff. exists (key, name). auto.
  - intros mjd E HC. unfold columns in HC. cbn [ob_frame f_cols] in HC. apply In_dkeys_dset in HC. destruct HC as [<-|HC]; [|eapply H2; eauto]. apply HN. now left.
Qed.
(** The names left by a column map that gives no column the name of another's source. *)
Lemma sources_gone_map : forall cm f f', NoDup (map snd cm) -> (forall key v key', In (key, v) cm -> key <> v -> In key' (map fst cm) -> key' <> v) ->
  remap (Some cm) f = Ok (f', inverse cm) ->
  (forall key v, In (key, v) cm -> key <> v -> ~ In v (columns f')) /\
  (forall c, In c (columns f') -> In c (columns f) \/ In c (map fst cm)).
Proof.
  intros cm f f' ND2 DJ H.
  unfold remap in H. cbv zeta in H. destruct (fold_res _ _ _) as [st|] eqn:E; [|discriminate]. cbn [bind] in H. injection H as <- EI.
  destruct (remap_fold_eq _ _ _ _ _ E) as [A B]. unfold columns at 1 2. cbn [f_cols]. rewrite rename_keys. fold (columns f).
  assert (TG : forall c, In c (columns f) -> (~ In c (map snd cm) /\ target (fst st) c = c) \/ exists key, In (key, c) cm /\ target (fst st) c = key).
  { intros c HC. destruct (in_dec string_dec c (map snd cm)) as [HI|HI].
    - right. apply in_map_iff in HI. destruct HI as ([key v] & EV & HI). cbn [snd] in EV. subst v. exists key. split; auto. apply (B key c ND2 HI).
      apply dmem_true. unfold dkeys. rewrite map_map. cbn [fst]. rewrite map_id. exact HC.
    - left. split; auto. destruct (A c HI) as [X _]. rewrite X. apply target_id. }
  split.
  - intros key v HI NE HC. apply in_map_iff in HC. destruct HC as (c & EC & HC). destruct (TG c HC) as [[N X]|(key' & HI' & X)].
    + rewrite X in EC. subst c. apply N. apply in_map_iff. exists (key, v). auto.
    + rewrite X in EC. subst key'. apply (DJ key v v HI NE); auto. apply in_map_iff. exists (v, c). auto.
  - intros c HC. apply in_map_iff in HC. destruct HC as (c0 & EC & HC). destruct (TG c0 HC) as [[N X]|(key' & HI' & X)]; rewrite X in EC.
    + subst c0. now left.
    + subst key'. right. apply in_map_iff. exists (c, c0). auto.
Qed.
Lemma sources_gone : forall k f f', survey_class k -> remap (Some (k_map k)) f = Ok (f', inverse (k_map k)) ->
  (forall key v, In (key, v) (k_map k) -> key <> v -> ~ In v (columns f')) /\
  (forall c, In c (columns f') -> In c (columns f) \/ In c (map fst (k_map k))).
Proof.
  intros k f f' K H. apply sources_gone_map; auto.
  - destruct K as [-> | [-> | (mjd & ->)]]; cbn; repeat constructor; simpl; intuition discriminate.
  - destruct K as [-> | [-> | (mjd & ->)]]; cbn; intros key v key' H1 NE H2 E; subst key'; repeat (destruct H1 as [H1|H1]; [injection H1 as <- <-; intuition congruence|]); destruct H1.
Qed.
Lemma assign_add : forall k o name c b o', survey_class k -> held k o -> assign_constant o name c = Ok (b, o') -> o' = o \/ exists v, add_column o name (ColList v) false = Ok o'.
Proof.
  intros k o name c b o' K H HA. destruct (held_inv k o K (class_nodup k K) H) as [T _]. destruct (assign_constant_inv _ _ _ _ _ T HA) as [_ [-> |(v & _ & _ & X)]]; eauto.
Qed.
Lemma ordinary_standard : forall k o, survey_class k -> ordinary k o ->
  standard_names k o /\ has_zero_points k o /\ ob_inv o = inverse (k_map k).
Proof.
  intros k o K H.
  assert (ADD : forall o name v ow o', standard_names k o /\ has_zero_points k o /\ ob_inv o = inverse (k_map k) -> ~ In name ("obsdate" :: map snd (k_map k)) -> add_column o name v ow = Ok o' ->
    standard_names k o' /\ has_zero_points k o' /\ ob_inv o' = inverse (k_map k)).
  { clear o H. intros o name v ow o' (S1 & S2 & S3) HN HA. split; [eapply standard_add; eauto|]. apply add_column_shape in HA. destruct HA as (vals & _ & ->). split; auto.
    destruct S2 as [S2|S2]; [now left|]. right. unfold columns. cbn [ob_frame f_cols]. apply In_dkeys_dset. now right. }
  induction H.
  - assert (ND : forall d : dict string, None = Some d -> NoDup (dkeys d)) by discriminate.
    destruct (kmake_made _ _ _ _ _ _ _ K H ND (class_nodup k K) H1) as [A1 A2 A3 A4 A5 (f' & ER & AC)].
    destruct (sources_gone k (k_prep k f) f' K ER) as (B1 & B2).
    assert (NZ : forall key v, In (key, v) (k_map k) -> key <> v -> v <> "zp") by (destruct K as [-> | [-> | (mjd & ->)]]; cbn; intros key v HI NE -> ; intuition congruence).
    split; [split|split; auto].
    + intros key v HI NE HC. destruct (AC v HC) as [-> |HC']; [eapply NZ; eauto|eapply B1; eauto].
    + intros mjd -> HC. destruct (AC _ HC) as [E|HC']; [discriminate|]. apply B2 in HC'. destruct HC' as [HC'|HC'].
      * cbn [k_prep ztf_class] in HC'. unfold add_mjd in HC'. specialize (H0 mjd eq_refl). destruct (dget "obsdate" (f_cols f)) eqn:E; [|contradiction].
        apply H0. apply (dget_keys _ "obsdate" (f_cols f)). congruence.
      * cbn in HC'. repeat (destruct HC' as [HC'|HC']; [discriminate|]). exact HC'.
    + destruct (string_dec "a" "b") as [X|_]; [discriminate|].
      assert (BD : k = base_class \/ k <> base_class).
      { destruct K as [-> | [-> | (mjd & ->)]]; [now left|right|right]; intros X; injection X; intros; congruence. }
      destruct BD as [BD|BD]; [now left|]. right. destruct (A5 BD) as [X|(key & X & _)]; auto. exfalso.
      destruct K as [-> | [-> | (mjd & ->)]]; [congruence| |]; vm_compute in X; discriminate.
  - eapply ADD; eauto.
  - destruct (assign_add k _ _ _ _ _ K (ordinary_held _ _ H) H1) as [-> |(v & X)]; [exact IHordinary|]. eapply ADD; eauto.
  - destruct IHordinary as (S1 & S2 & S3). apply filter_shape in H0. destruct H0 as (m & _ & ->). unfold standard_names, has_zero_points, columns, mask_frame in *. cbn [ob_frame ob_inv f_cols] in *. rewrite !dkeys_mask. auto.
  - destruct IHordinary as (S1 & S2 & S3). unfold set_radius in H0. destruct (Rleb r 0); [discriminate|]. injection H0 as <-. split; [exact S1|split; [exact S2|exact S3]].
Qed.
(** Such a table, saved and loaded, is the same table: rows, labels, columns under both names, survey values, searches, queries; without
    the detector footprint. *)
Theorem C107_ordinary : forall k o fs p overwrite fs', survey_class k -> ordinary k o -> write_parquet fs o p overwrite = (Ok tt, fs') ->
  exists o', from_parquet k fs' p = Ok o' /\ ob_frame o' = ob_frame o /\ (forall key, dget key (ob_values o') = dget key (ob_values o)) /\
    same_searches (clear_footprint o) o' /\
    (forall key, ob_getitem o' key = ob_getitem o key /\ ob_contains o' key = ob_contains o key) /\
    (forall ball ra dec radius tmin tmax cols, get_observations ball o' ra dec radius tmin tmax cols = get_observations ball (clear_footprint o) ra dec radius tmin tmax cols).
Proof.
  intros k o fs p ow fs' K H HW. destruct (ordinary_standard k o K H) as (S1 & S2 & S3).
  destruct (C107_parquet k o fs p ow fs' K (ordinary_held k o H) S1 S2 HW) as (o' & E & F & V & SS & FP & I & _). fold (inverse (k_map k)) in I.
  exists o'. split; auto. split; auto. split; auto. split; auto.
  assert (G : forall key, ob_getitem o' key = ob_getitem o key) by (intros key; unfold ob_getitem; now rewrite F, I, S3).
  split; [intros key; split; auto; unfold ob_contains; now rewrite F, I, S3|].
  intros ball ra dec radius tmin tmax cols. unfold get_observations. rewrite (proj1 (SS ball (QScalar ra) (QScalar dec) radius tmin tmax)).
  rewrite F. cbn [ob_frame clear_footprint]. destruct (range_search _ _ _ _ _ _ _) as [[ks|]|]; cbn [bind]; auto.
  assert (X : forall cs acc, fold_res (fun acc col => bind (ob_getitem o' col) (fun c => bind (select_labels (f_labels (ob_frame o)) c ks) (fun vs => Ok (dset col vs acc)))) acc cs =
    fold_res (fun acc col => bind (ob_getitem (clear_footprint o) col) (fun c => bind (select_labels (f_labels (ob_frame o)) c ks) (fun vs => Ok (dset col vs acc)))) acc cs).
  { induction cs as [|c cs IH]; intros acc; cbn [fold_res]; auto. rewrite (G c). change (ob_getitem (clear_footprint o) c) with (ob_getitem o c).
    destruct (bind (ob_getitem o c) _); auto. }
  apply X.
Qed.
