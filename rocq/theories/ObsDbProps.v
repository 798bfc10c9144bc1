(** Theorems C107, continued: survey tables in databases, the other classes, and what does not survive. *)
From Coq Require Import Reals String Ascii List Bool Arith Lia Lra.
From Verif Require Import Base BaseFacts RealBase ObsTableModel ObsTableProps ObsTableMore NoiseModel FakeModel FakeProps SurveyModel SurveyProps ZtfProps RomanModel RomanProps ObsFileModel ObsFileProofs ObsFileProps.
Import ListNotations.
Open Scope string_scope.
Open Scope list_scope.
Open Scope nat_scope.

(** ** Names in a database *)
Lemma distinct_nodup : forall l, distinctb l = true <-> NoDup l.
Proof.
  induction l as [|x l IH]; cbn [distinctb]; [split; auto; constructor|]. split.
  - intros H. apply andb_prop in H. destruct H as [H1 H2]. apply negb_true_iff in H1. constructor; [|now apply IH]. intros HI. apply smem_In in HI. congruence.
  - intros H. inversion H as [|? ? N1 N2]; subst. apply andb_true_intro. split; [|now apply IH]. apply negb_true_iff. apply not_true_iff_false. intros HI. apply smem_In in HI. contradiction.
Qed.
Lemma nodup_of_map : forall A B (g : A -> B) l, NoDup (map g l) -> NoDup l.
Proof.
  intros A B g l. induction l as [|x l IH]; intros H; [constructor|]. cbn [map] in H. inversion H as [|? ? N1 N2]; subst. constructor; auto. intros HI. apply N1. now apply in_map.
Qed.
Lemma names_nodup : forall cols, sql_names_ok cols = true -> NoDup cols.
Proof. intros cols H. unfold sql_names_ok in H. apply andb_prop in H. destruct H as [H _]. apply distinct_nodup in H. now apply nodup_of_map in H. Qed.
Lemma select_app : forall t d d', ~ In (low t) (map low (dkeys d)) -> select_all t (d ++ d') = select_all t d'.
Proof.
  intros t d d'. induction d as [|[n c] d IH]; intros H; cbn [app select_all]; auto. cbn in H. destruct (String.eqb_spec (low n) (low t)) as [E|E]; [exfalso; apply H; now left|].
  apply IH. tauto.
Qed.
Lemma select_del : forall t t2 d, low t2 <> low t -> select_all t2 (ddel t d) = select_all t2 d.
Proof.
  intros t t2 d NE. induction d as [|[n c] d IH]; cbn [ddel select_all]; auto. destruct (String.eqb_spec t n) as [E|E].
  - subst n. destruct (String.eqb_spec (low t) (low t2)) as [E2|E2]; [congruence|reflexivity].
  - cbn [select_all]. now rewrite IH.
Qed.
Lemma select_last : forall t2 d x, low t2 <> low (fst x) -> select_all t2 (d ++ [x]) = select_all t2 d.
Proof.
  intros t2 d [t c] NE. cbn [fst] in NE. induction d as [|[n c'] d IH]; cbn [app select_all].
  - destruct (String.eqb_spec (low t) (low t2)); [congruence|reflexivity].
  - now rewrite IH.
Qed.
(** The tables of a file that is a database (or does not exist yet). *)
Definition tables (fs : files) (p : string) : option (dict sqltable) :=
  match fs p with None => Some [] | Some (FDb d) => Some d | Some _ => None end.
Lemma write_db_eq : forall fs o p t ow d, tables fs p = Some d -> write_db fs o p t ow =
    (if (dmem t d && negb ow)%bool then (Err ValueError, fs)
     else if (table_name_ok t (ddel t d) && sql_names_ok (dkeys (sql_columns (ob_frame o))))%bool
          then (Ok tt, put p (FDb (ddel t d ++ [(t, sql_columns (ob_frame o))])) fs) else (Err ValueError, put p (FDb (ddel t d)) fs)).
Proof. intros fs o p t ow d H. unfold write_db. unfold tables in H. destruct (fs p) as [[f a|d'|]|]; try discriminate; injection H as <-; reflexivity. Qed.
Lemma written : forall fs o p t ow fs', write_db fs o p t ow = (Ok tt, fs') -> exists d, tables fs p = Some d /\ (dmem t d = true -> ow = true) /\
  ~ In (low t) (map low (dkeys (ddel t d))) /\ sql_names_ok (dkeys (sql_columns (ob_frame o))) = true /\
  fs' = put p (FDb (ddel t d ++ [(t, sql_columns (ob_frame o))])) fs.
Proof.
  intros fs o p t ow fs' H. destruct (tables fs p) as [d|] eqn:E.
  - rewrite (write_db_eq _ _ _ _ _ _ E) in H. destruct (dmem t d && negb ow)%bool eqn:E1; [discriminate|]. destruct (table_name_ok t _ && _)%bool eqn:E2; [|discriminate]. injection H as <-.
    apply andb_prop in E2. destruct E2 as [E2 E3]. exists d. split; auto. split; [intros M; rewrite M in E1; now destruct ow|]. split; auto.
    unfold table_name_ok in E2. apply andb_prop in E2. destruct E2 as [_ E2]. apply negb_true_iff in E2. intros HI. apply smem_In in HI. congruence.
  - unfold write_db in H. unfold tables in E. destruct (fs p) as [[f a|d'|]|]; discriminate.
Qed.

(** ** A database round trip *)
Lemma label_fresh : forall k cols, survey_class k -> ~ In (label_name cols) ("obsdate" :: "ra" :: "dec" :: "time" :: "filter" :: "zp" :: "rotation" :: map snd (k_map k)).
Proof.
  intros k cols K H. unfold label_name in H. destruct K as [-> | [-> | (mjd & ->)]]; destruct (smem "index" cols); cbn in H; intuition discriminate.
Qed.
(** What is loaded from a database is the saved table with the old row labels in a first column "index" (or "level_0", if there was an "index"
    already), new labels 0, 1, ..., and every other column as it was. *)
Definition with_labels (f : frame) : frame :=
  mkFrame (seq 0 (nrows f)) ((label_name (columns f), map (fun n => CNum (INR n)) (f_labels f)) :: f_cols f).
Lemma loaded_frame : forall fs o p t ow fs' t', write_db fs o p t ow = (Ok tt, fs') -> low t' = low t ->
  load_db fs' p (select_all t') = Ok (with_labels (ob_frame o)).
Proof.
  intros fs o p t ow fs' t' H E. apply written in H. destruct H as (d & _ & _ & NI & _ & ->). unfold load_db. rewrite put_same.
  rewrite select_app by (rewrite E; exact NI). cbn [select_all]. rewrite E, String.eqb_refl. unfold sql_columns. rewrite map_length. reflexivity.
Qed.
Lemma with_labels_tinv : forall o, tinv o -> sql_names_ok (dkeys (sql_columns (ob_frame o))) = true -> forall i v fl fp,
  tinv (mkObs (with_labels (ob_frame o)) i v fl (build_tree (with_labels (ob_frame o))) fp).
Proof.
  intros o [T1 T2 T3] HN i v fl fp. split; cbn [ob_frame ob_tree]; auto.
  - split; [now apply (names_nodup _ HN)|]. unfold with_labels, nrows. cbn [f_cols f_labels]. rewrite seq_length. constructor.
    + cbn [snd]. now rewrite map_length.
    + apply T1.
  - intros c Hc. right. auto.
Qed.
Lemma label_not : forall cols name, In name ["ra"; "dec"; "time"; "rotation"; "filter"; "zp"] -> String.eqb name (label_name cols) = false.
Proof. intros cols name H. unfold label_name. destruct (smem "index" cols); cbn in H; repeat (destruct H as [<-|H]; [reflexivity|]); destruct H. Qed.
Lemma labels_num_col : forall f name, In name ["ra"; "dec"; "time"; "rotation"; "filter"; "zp"] -> num_col name (with_labels f) = num_col name f.
Proof. intros f name H. unfold num_col, with_labels. cbn [f_cols dget]. rewrite label_not by exact H. reflexivity. Qed.
Lemma labels_tree : forall f, build_tree (with_labels f) = build_tree f.
Proof. intros f. unfold build_tree. now rewrite !labels_num_col by (simpl; auto). Qed.
Lemma labels_search : forall o i v fl fp ball ra dec r tmin tmax,
  range_search ball (mkObs (with_labels (ob_frame o)) i v fl (ob_tree o) fp) ra dec (Some r) tmin tmax =
  range_search ball (mkObs (ob_frame o) i v fl (ob_tree o) fp) ra dec (Some r) tmin tmax.
Proof.
  intros o i v fl fp ball ra dec r tmin tmax. unfold range_search, search_one. cbn [ob_frame ob_tree ob_footprint bind].
  rewrite !labels_num_col by (simpl; auto). replace (rotation_of (with_labels (ob_frame o))) with (rotation_of (ob_frame o)); auto.
  unfold rotation_of, with_labels. cbn [f_cols dget]. rewrite label_not by (simpl; auto). reflexivity.
Qed.
Theorem C107_db : forall k o fs p t overwrite fs' t' kwargs fp, survey_class k -> held k o -> standard_names k o -> has_zero_points k o ->
  write_db fs o p t overwrite = (Ok tt, fs') -> low t' = low t ->
  exists o', from_db k fs' p (select_all t') None kwargs fp = Ok o' /\
    f_labels (ob_frame o') = seq 0 (nrows (ob_frame o)) /\
    columns (ob_frame o') = (if smem "index" (columns (ob_frame o)) then "level_0" else "index") :: columns (ob_frame o) /\
    (forall c i, In c (columns (ob_frame o)) -> cell_at o' c i = cell_at o c i) /\
    (forall i, cell_at o' (if smem "index" (columns (ob_frame o)) then "level_0" else "index") i = option_map (fun n => CNum (INR n)) (nth_error (f_labels (ob_frame o)) i)) /\
    (NoDup (dkeys kwargs) -> forall key, dget key (ob_values o') = match dget key kwargs with Some v => Some v | None => dget key (k_defaults k) end) /\
    (forall ball ra dec r tmin tmax, range_search ball o' ra dec (Some r) tmin tmax =
       range_search ball (mkObs (ob_frame o) (ob_inv o) (ob_values o) (ob_filters o) (ob_tree o) fp) ra dec (Some r) tmin tmax) /\
    held k o' /\ standard_names k o' /\ has_zero_points k o'.
Proof.
  intros k o fs p t ow fs' t' kw fp K H HS HZ HW ET. destruct (held_inv k o K (class_nodup k K) H) as [T V].
  destruct (written _ _ _ _ _ _ HW) as (d & _ & _ & _ & HN & _). pose proof (loaded_frame _ _ _ _ _ _ t' HW ET) as HL.
  set (o1 := mkObs (with_labels (ob_frame o)) (inverse (k_map k)) (survey_values (k_defaults k) [] kw) (unique_filters (with_labels (ob_frame o))) (build_tree (with_labels (ob_frame o))) fp).
  assert (T1 : tinv o1) by (apply (with_labels_tinv o T HN)).
  assert (LF := label_fresh k (columns (ob_frame o)) K).
  assert (S1 : standard_names k o1).
  { destruct HS as [HS1 HS2]. split.
    - intros key v HI NE [E|HC]; [|eapply HS1; eauto]. cbn [fst] in E. subst v. apply LF. do 7 right. apply in_map_iff. exists (key, label_name (columns (ob_frame o))). auto.
    - intros mjd E [E'|HC]; [|eapply HS2; eauto]. cbn [fst] in E'. apply LF. left. auto. }
  assert (Z1 : has_zero_points k o1) by (destruct HZ as [HZ|HZ]; [now left|right; right; exact HZ]).
  assert (M1 : kmake k (with_labels (ob_frame o)) None [] kw fp = Ok o1).
  { change (with_labels (ob_frame o)) with (ob_frame o1) at 1. rewrite (load_standard k o1 [] kw fp K T1 S1 Z1). reflexivity. }
  exists o1. split; [unfold from_db; rewrite HL; exact M1|].
  split; [reflexivity|]. split; [reflexivity|].
  assert (ND : NoDup (label_name (columns (ob_frame o)) :: columns (ob_frame o))) by exact (names_nodup _ HN).
  inversion ND as [|? ? N1 _]; subst. split.
  { intros c i HC. unfold cell_at, o1, with_labels. cbn [ob_frame f_cols dget]. destruct (String.eqb_spec c (label_name (columns (ob_frame o)))); [congruence|reflexivity]. }
  split.
  { intros i. unfold cell_at, o1, with_labels. cbn [ob_frame f_cols dget]. fold (label_name (columns (ob_frame o))). rewrite String.eqb_refl. apply nth_error_map. }
  split.
  { intros NK key. unfold o1. cbn [ob_values]. rewrite survey_value_get by (auto; constructor). reflexivity. }
  split.
  { intros ball ra dec r tmin tmax. unfold o1. rewrite labels_tree. rewrite <- (ti_tree o T). rewrite labels_search.
    unfold range_search, search_one. reflexivity. }
  split; [|split; auto]. eapply (held_make k _ None); [exact (ti_frame o1 T1)| |exact M1]. discriminate.
Qed.
(** Writing: other files, and the other tables of the same file, are not changed, whatever the outcome. *)
Theorem C107_db_write : forall fs o p t overwrite r fs', write_db fs o p t overwrite = (r, fs') ->
  (forall q, q <> p -> fs' q = fs q) /\
  (forall d, tables fs p = Some d -> exists d', tables fs' p = Some d' /\ forall t2, low t2 <> low t -> select_all t2 d' = select_all t2 d) /\
  (tables fs p = None -> r = Err ValueError /\ fs' = fs) /\
  (r = Ok tt \/ r = Err ValueError).
Proof.
  intros fs o p t ow r fs' H. destruct (tables fs p) as [d|] eqn:E.
  - rewrite (write_db_eq _ _ _ _ _ _ E) in H. destruct (dmem t d && negb ow)%bool.
    + injection H as <- <-. split; auto. split; [|split; [discriminate|auto]]. intros d0 E0. injection E0 as <-. exists d. auto.
    + destruct (_ && _)%bool; injection H as <- <-; (split; [intros q Hq; now apply put_other|split; [|split; [discriminate|auto]]]); intros d0 E0; injection E0 as <-; unfold tables; rewrite put_same.
      * eexists. split; [reflexivity|]. intros t2 NE. rewrite select_last by exact NE. now apply select_del.
      * eexists. split; [reflexivity|]. intros t2 NE. now apply select_del.
  - assert (X : write_db fs o p t ow = (Err ValueError, fs)) by (unfold write_db; unfold tables in E; destruct (fs p) as [[f a|d'|]|]; try discriminate; auto).
    rewrite X in H. injection H as <- <-. split; auto. split; [discriminate|]. split; auto.
Qed.
(** A table that exists is kept unless overwriting is asked for; the error is a ValueError, not the documented FileExistsError (which would be
    [RuntimeError] here). *)
Theorem C107_db_exists_refuted : forall fs o p t d, fs p = Some (FDb d) -> In t (dkeys d) -> write_db fs o p t false = (Err ValueError, fs).
Proof.
  intros fs o p t d H HI. assert (E : tables fs p = Some d) by (unfold tables; now rewrite H). rewrite (write_db_eq _ _ _ _ _ _ E).
  apply dmem_true in HI. rewrite HI. reflexivity.
Qed.
(** A file that is there, but without a table of that name, is no obstacle: the table is added to it. *)
Theorem C107_db_added : forall fs o p t d, fs p = Some (FDb d) -> ~ In (low t) (map low (dkeys d)) -> t <> "" -> String.prefix "sqlite_" (low t) = false ->
  NoDup (map low (dkeys (sql_columns (ob_frame o)))) -> ~ In "" (columns (ob_frame o)) ->
  exists fs', write_db fs o p t false = (Ok tt, fs') /\ forall t2 c, select_all t2 d = Some c -> load_db fs' p (select_all t2) = Ok (mkFrame (seq 0 (match c with [] => 0 | (_, x) :: _ => length x end)) c).
Proof.
  intros fs o p t d H NI NE NP ND NB. assert (E : tables fs p = Some d) by (unfold tables; now rewrite H). rewrite (write_db_eq _ _ _ _ _ _ E).
  assert (NT : ~ In t (dkeys d)) by (intros X; apply NI; now apply in_map). apply dmem_false in NT. rewrite NT. cbn [andb].
  assert (DD : ddel t d = d).
  { apply dmem_false in NT. clear - NT. induction d as [|[n c] d IH]; cbn [ddel]; auto. cbn in NT. destruct (String.eqb_spec t n); [exfalso; apply NT; left; congruence|]. rewrite IH; tauto. }
  rewrite DD. assert (OK : (table_name_ok t d && sql_names_ok (dkeys (sql_columns (ob_frame o))))%bool = true).
  { apply andb_true_intro. split.
    - unfold table_name_ok. rewrite NP. destruct (String.eqb_spec t ""); [congruence|]. cbn [negb andb]. apply negb_true_iff. apply not_true_iff_false. intros X. apply smem_In in X. contradiction.
    - unfold sql_names_ok. apply andb_true_intro. split; [now apply distinct_nodup|]. apply negb_true_iff. apply not_true_iff_false. intros X. apply smem_In in X. cbn in X. destruct X as [X|X]; [|contradiction].
      unfold label_name in X. destruct (smem "index" _); discriminate. }
  rewrite OK. eexists. split; [reflexivity|]. intros t2 c Hc. unfold load_db. rewrite put_same. assert (L2 : low t2 <> low t).
  { intros EL. apply NI. rewrite <- EL. clear - Hc. induction d as [|[n x] d IH]; [discriminate|]. cbn [select_all] in Hc. cbn. destruct (String.eqb_spec (low n) (low t2)); [now left|right; now apply IH]. }
  rewrite select_last by exact L2. now rewrite Hc.
Qed.
(** Finding: a failed overwrite has already removed the old table. *)
Theorem C107_db_lost_refuted : forall fs o p t d, fs p = Some (FDb d) -> NoDup (map low (dkeys d)) -> In t (dkeys d) ->
  ~ NoDup (map low (dkeys (sql_columns (ob_frame o)))) ->
  exists fs', write_db fs o p t true = (Err ValueError, fs') /\ load_db fs' p (select_all t) = Err ValueError.
Proof.
  intros fs o p t d H ND HI NN. assert (E : tables fs p = Some d) by (unfold tables; now rewrite H). rewrite (write_db_eq _ _ _ _ _ _ E). rewrite andb_false_r.
  assert (X : sql_names_ok (dkeys (sql_columns (ob_frame o))) = false).
  { apply not_true_iff_false. intros X. apply NN. unfold sql_names_ok in X. apply andb_prop in X. now apply distinct_nodup. }
  rewrite X, andb_false_r. eexists. split; [reflexivity|]. unfold load_db. rewrite put_same.
  assert (G : select_all t (ddel t d) = None).
  { clear - ND HI. induction d as [|[n c] d IH]; [destruct HI|]. cbn in ND. inversion ND as [|? ? N1 N2]; subst. cbn [ddel]. destruct (String.eqb_spec t n) as [<-|NE].
    - clear IH HI ND N2. induction d as [|[n c'] d IH]; auto. cbn [select_all]. cbn in N1. destruct (String.eqb_spec (low n) (low t)); [exfalso; apply N1; now left|]. apply IH. tauto.
    - destruct HI as [HI|HI]; [cbn in HI; congruence|]. cbn [select_all]. destruct (String.eqb_spec (low n) (low t)) as [EL|]; [|now apply IH].
      exfalso. apply N1. rewrite EL. now apply in_map. }
  now rewrite G.
Qed.
(** Finding: a table cannot go through a database three times: every trip adds a column of labels, and after two trips both names pandas would
    use are taken. *)
Theorem C107_db_third_refuted : forall k o fs1 fs2 fs3 p1 p2 p3 t1 t2 t3 w1 w2 w3 fs1' fs2' o1 o2, survey_class k -> held k o -> standard_names k o -> has_zero_points k o ->
  write_db fs1 o p1 t1 w1 = (Ok tt, fs1') -> from_db k fs1' p1 (select_all t1) None [] None = Ok o1 ->
  write_db fs2 o1 p2 t2 w2 = (Ok tt, fs2') -> from_db k fs2' p2 (select_all t2) None [] None = Ok o2 ->
  fst (write_db fs3 o2 p3 t3 w3) = Err ValueError.
Proof.
  intros k o fs1 fs2 fs3 p1 p2 p3 t1 t2 t3 w1 w2 w3 fs1' fs2' o1 o2 K H HS HZ W1 L1 W2 L2.
  destruct (C107_db k o fs1 p1 t1 w1 fs1' t1 [] None K H HS HZ W1 eq_refl) as (x & E1 & _ & C1 & _ & _ & _ & _ & H1 & S1 & Z1). rewrite L1 in E1. injection E1 as <-.
  destruct (C107_db k o1 fs2 p2 t2 w2 fs2' t2 [] None K H1 S1 Z1 W2 eq_refl) as (x & E2 & _ & C2 & _ & _ & _ & _ & H2 & S2 & Z2). rewrite L2 in E2. injection E2 as <-.
  destruct (fst (write_db fs3 o2 p3 t3 w3)) as [[]|e] eqn:E3.
  - exfalso. destruct (write_db fs3 o2 p3 t3 w3) as [r fs3'] eqn:EW. cbn [fst] in E3. subst r. destruct (written _ _ _ _ _ _ EW) as (d & _ & _ & _ & HN & _). apply names_nodup in HN.
    unfold sql_columns in HN. cbn [dkeys map fst] in HN. fold (dkeys (f_cols (ob_frame o2))) in HN. fold (columns (ob_frame o2)) in HN. inversion HN as [|? ? N1 _]; subst. apply N1.
    destruct (written _ _ _ _ _ _ W2) as (d2 & _ & _ & _ & HN2 & _). apply names_nodup in HN2. unfold sql_columns in HN2. cbn [dkeys map fst] in HN2. fold (dkeys (f_cols (ob_frame o1))) in HN2. fold (columns (ob_frame o1)) in HN2.
    inversion HN2 as [|? ? N2 _]; subst. unfold label_name in *. rewrite C2. destruct (smem "index" (columns (ob_frame o1))) eqn:E1.
    + replace (smem "index" ("level_0" :: columns (ob_frame o1))) with true by (symmetry; apply smem_In; right; now apply smem_In). now left.
    + exfalso. assert (X : In "index" (columns (ob_frame o1)) \/ smem "index" (columns (ob_frame o)) = true).
      { destruct (smem "index" (columns (ob_frame o))) eqn:E0; [now right|]. left. rewrite C1. now left. }
      destruct X as [X|X]; [apply smem_In in X; congruence|]. rewrite X in C1. apply smem_In in X. assert (Y : In "index" (columns (ob_frame o1))) by (rewrite C1; now right). apply smem_In in Y. congruence.
  - destruct (write_db fs3 o2 p3 t3 w3) as [r fs3'] eqn:EW. cbn [fst] in E3. subst r. destruct (C107_db_write _ _ _ _ _ _ _ EW) as (_ & _ & _ & [X|X]); [discriminate|exact X].
Qed.
(** Loading: a file that is there, is a database, and in which the query can be answered. *)
Theorem C107_db_missing : forall k fs p q colmap kwargs fp,
  (fs p = None -> from_db k fs p q colmap kwargs fp = Err RuntimeError) /\
  (forall d, fs p = Some (FDb d) -> q d = None -> from_db k fs p q colmap kwargs fp = Err ValueError) /\
  (forall o, from_db k fs p q colmap kwargs fp = Ok o -> exists d c, fs p = Some (FDb d) /\ q d = Some c).
Proof.
  intros k fs p q colmap kw fp. unfold from_db, load_db. split; [now intros ->|]. split; [now intros d -> -> |].
  intros o H. destruct (fs p) as [[f a|d|]|]; try discriminate. destruct (q d) as [c|] eqn:E; [|discriminate]. eauto.
Qed.

(** ** Times *)
Lemma fold_min_spec : forall ts t, (fold_left Rmin ts t <= t)%R /\ (forall x, In x ts -> (fold_left Rmin ts t <= x)%R) /\ In (fold_left Rmin ts t) (t :: ts).
Proof.
  induction ts as [|a ts IH]; intros t; cbn [fold_left].
  - split; [lra|]. split; [intros x []|now left].
  - destruct (IH (Rmin t a)) as (A & B & C). pose proof (Rmin_l t a). pose proof (Rmin_r t a). split; [lra|]. split.
    + intros x [<-|HI]; [lra|auto].
    + destruct C as [C|C]; [|right; now right]. rewrite <- C. unfold Rmin. destruct (Rle_dec t a); [now left|right; now left].
Qed.
Lemma fold_max_spec : forall ts t, (t <= fold_left Rmax ts t)%R /\ (forall x, In x ts -> (x <= fold_left Rmax ts t)%R) /\ In (fold_left Rmax ts t) (t :: ts).
Proof.
  induction ts as [|a ts IH]; intros t; cbn [fold_left].
  - split; [lra|]. split; [intros x []|now left].
  - destruct (IH (Rmax t a)) as (A & B & C). pose proof (Rmax_l t a). pose proof (Rmax_r t a). split; [lra|]. split.
    + intros x [<-|HI]; [lra|auto].
    + destruct C as [C|C]; [|right; now right]. rewrite <- C. unfold Rmax. destruct (Rle_dec t a); [right; now left|now left].
Qed.
Lemma times_In : forall c r, In r (times_of c) <-> In (CNum r) c.
Proof.
  intros c r. unfold times_of. rewrite in_flat_map. split.
  - intros ([x|s|] & HI & E); try now destruct E. destruct E as [<-|[]]. exact HI.
  - intros HI. exists (CNum r). split; auto. now left.
Qed.
(** The bounds are the earliest and the latest time in the table; they exist as soon as one row has a time. *)
Theorem C107_time_bounds : forall k o, survey_class k -> held k o ->
  (exists lo hi, time_bounds o = Ok (Some lo, Some hi) /\ (exists i, cell_at o "time" i = Some (CNum lo)) /\ (exists i, cell_at o "time" i = Some (CNum hi)) /\
     forall i t, cell_at o "time" i = Some (CNum t) -> (lo <= t <= hi)%R) \/
  (time_bounds o = Ok (None, None) /\ forall i t, cell_at o "time" i <> Some (CNum t)).
Proof.
  intros k o K H. destruct (held_inv k o K (class_nodup k K) H) as [T _]. assert (HT : In "time" (columns (ob_frame o))) by (apply (ti_req o T); simpl; auto).
  unfold time_bounds, cell_at. destruct (dget "time" (f_cols (ob_frame o))) as [c|] eqn:E; [|exfalso; apply dget_None in E; contradiction].
  assert (CI : forall r, In r (times_of c) <-> exists i, nth_error c i = Some (CNum r)).
  { intros r. rewrite times_In. split; [apply In_nth_error|]. intros (i & Hi). eapply nth_error_In; eauto. }
  destruct (times_of c) as [|t ts].
  - right. split; auto. intros i r Hi. apply (proj2 (CI r)). eauto.
  - left. destruct (fold_min_spec ts t) as (A1 & A2 & A3). destruct (fold_max_spec ts t) as (B1 & B2 & B3). eexists _, _. split; [reflexivity|].
    split; [now apply CI|]. split; [now apply CI|]. intros i r Hi. assert (X : In r (t :: ts)) by (apply CI; eauto). destruct X as [<-|X]; [lra|]. specialize (A2 r X). specialize (B2 r X). lra.
Qed.
