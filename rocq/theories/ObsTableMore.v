(** More about observation tables (C37, C66): tables from dicts, added columns, which survey values
    can become columns. *)
From Coq Require Import Reals String List Bool Arith Lia Lra.
From Verif Require Import Base BaseFacts RealBase ObsTableModel ObsTableProps.
Import ListNotations.
Open Scope R_scope.

(** A dict of columns makes a table exactly if the columns have equal lengths; rows are numbered
    0, 1, 2, ... *)
Theorem C37_from_dict : forall d, NoDup (dkeys d) ->
  ((exists f, frame_of_dict d = Ok f) <-> forall k k' c c', dget k d = Some c -> dget k' d = Some c' -> length c = length c') /\
  (forall f, frame_of_dict d = Ok f -> frame_ok f /\ f_labels f = seq 0 (nrows f) /\ forall k, dget k (f_cols f) = dget k d) /\
  (forall e, frame_of_dict d = Err e -> e = ValueError).
Proof.
  intros d ND. unfold frame_of_dict. destruct d as [|[k0 c0] d0] eqn:ED.
  - split; [|split].
    + split; [discriminate|eauto].
    + intros f H. inversion H; subst. split; [split; constructor|]. split; reflexivity.
    + discriminate.
  - rewrite <- ED in *. assert (G0 : dget k0 d = Some c0) by (rewrite ED; simpl; now rewrite String.eqb_refl).
    destruct (forallb _ d) eqn:EF.
    + rewrite forallb_forall in EF.
      assert (L : forall k c, dget k d = Some c -> length c = length c0).
      { intros k c H. apply dget_In in H. apply EF in H. now apply Nat.eqb_eq in H. }
      split; [|split].
      * split; [|eauto]. intros _ k k' c c' H1 H2. rewrite (L _ _ H1), (L _ _ H2). reflexivity.
      * intros f H. inversion H; subst f. unfold frame_ok, nrows, columns. cbn [f_labels f_cols]. rewrite seq_length. split; [split; auto|].
        -- apply Forall_forall. intros kc HI. apply EF in HI. now apply Nat.eqb_eq in HI.
        -- split; reflexivity.
      * discriminate.
    + split; [|split].
      * split; [intros [f H]; discriminate|]. intros H. exfalso.
        assert (X : forallb (fun kc : string * list cell => (length (snd kc) =? length c0)%nat) d = true); [|congruence].
        apply forallb_forall. intros [k c] HI. apply Nat.eqb_eq. simpl. apply (H k k0 c c0); [|exact G0]. apply In_dget; [exact ND|exact HI].
      * discriminate.
      * intros e H. congruence.
Qed.

(** Adding a column: a scalar is repeated for every row, a list is used row by row; the other
    columns, the rows and the search positions stay. *)
Theorem C66_add_column : forall o name v overwrite o', add_column o name v overwrite = Ok o' ->
  nrows (ob_frame o') = nrows (ob_frame o) /\ f_labels (ob_frame o') = f_labels (ob_frame o) /\
  (forall i, (i < nrows (ob_frame o))%nat ->
     cell_at o' name i = match v with ColScalar c => Some c | ColList l => nth_error l i end /\ cell_at o' name i <> None) /\
  (forall c i, c <> name -> cell_at o' c i = cell_at o c i) /\
  ob_values o' = ob_values o /\ ob_tree o' = ob_tree o.
Proof.
  intros o name v ow o' H. unfold add_column in H. destruct (_ && _)%bool; [discriminate|].
  destruct (_ =? _)%nat eqn:EL; [|discriminate]. apply Nat.eqb_eq in EL. injection H as <-. cbn [ob_frame ob_values ob_tree f_labels].
  split; [reflexivity|]. split; [reflexivity|]. split; [|split; [|split; reflexivity]].
  - intros i Hi. unfold cell_at. cbn [ob_frame f_cols]. rewrite dget_dset_same. destruct v as [c|l].
    + rewrite nth_error_repeat by auto. split; [auto|discriminate].
    + split; auto. apply nth_error_Some. lia.
  - intros c i HC. unfold cell_at. cbn [ob_frame f_cols]. now rewrite dget_dset_other.
Qed.
Theorem C66_add_column_accepts : forall o name v overwrite,
  (dmem name (f_cols (ob_frame o)) = true -> overwrite = false -> add_column o name v overwrite = Err KeyError) /\
  (dmem name (f_cols (ob_frame o)) = false \/ overwrite = true ->
     (forall l, v = ColList l -> length l = nrows (ob_frame o)) -> exists o', add_column o name v overwrite = Ok o') /\
  (dmem name (f_cols (ob_frame o)) = false \/ overwrite = true ->
     forall l, v = ColList l -> length l <> nrows (ob_frame o) -> add_column o name v overwrite = Err ValueError).
Proof.
  intros o name v ow. unfold add_column. split; [|split].
  - intros -> ->. reflexivity.
  - intros H HL. replace (dmem name (f_cols (ob_frame o)) && negb ow)%bool with false
      by (destruct H as [-> | ->]; [reflexivity|destruct (dmem _ _); reflexivity]).
    replace (length _ =? nrows (ob_frame o))%nat with true; [eauto|]. symmetry. apply Nat.eqb_eq.
    destruct v as [c|l]; [apply repeat_length|auto].
  - intros H l -> HL. replace (dmem name (f_cols (ob_frame o)) && negb ow)%bool with false
      by (destruct H as [-> | ->]; [reflexivity|destruct (dmem _ _); reflexivity]).
    apply Nat.eqb_neq in HL. now rewrite HL.
Qed.

Lemma fill_accepts : forall m cp cells filters vals, 
  ((exists vals', fold_res (fun vals fil => match dget fil m with
        | None => Err ValueError
        | Some v => if (cp && Rleb v 0)%bool then Err ValueError else Ok (set_where fil v cells vals)
        end) vals filters = Ok vals') <->
   forall fil, In fil filters -> exists v, dget fil m = Some v /\ (cp = true -> 0 < v)) /\
  (forall e, fold_res (fun vals fil => match dget fil m with
        | None => Err ValueError
        | Some v => if (cp && Rleb v 0)%bool then Err ValueError else Ok (set_where fil v cells vals)
        end) vals filters = Err e -> e = ValueError).
Proof.
  induction filters as [|fil filters IH]; intros vals; cbn [fold_res].
  - split; [|discriminate]. split; [intros _ fil []|eauto].
  - destruct (dget fil m) as [v|] eqn:EV.
    + destruct (cp && Rleb v 0)%bool eqn:EC.
      * apply andb_prop in EC. destruct EC as [-> EC]. apply Rleb_true in EC. split; [|congruence].
        split; [intros [x H]; discriminate|]. intros H. destruct (H fil (or_introl eq_refl)) as (v' & E & HP).
        rewrite EV in E. inversion E; subst. specialize (HP eq_refl). lra.
      * destruct (IH (set_where fil v cells vals)) as [I1 I2]. split; auto. rewrite I1. split.
        -- intros H f [<-|HF]; auto. exists v. split; auto. intros ->. cbn in EC. now apply Rleb_false in EC.
        -- intros H f HF. apply H. now right.
    + split; [|congruence]. split; [intros [x H]; discriminate|]. intros H. destruct (H fil (or_introl eq_refl)) as (v' & E & _). congruence.
Qed.

Lemma constant_accepts_inv : forall o name cp val, tinv o -> In "filter"%string (columns (ob_frame o)) ->
  dmem name (f_cols (ob_frame o)) = false ->
  dget name (ob_values o) = Some val -> (forall s, val <> SText s) -> val <> SNone ->
  ((exists o', assign_constant o name cp = Ok (true, o')) <->
   forall fil, In fil (ob_filters o) -> exists v, value_for val fil = Some v /\ (cp = true -> 0 < v)) /\
  (forall e, assign_constant o name cp = Err e -> e = ValueError).
Proof.
  intros o name cp val HT HF HM HV NT NN.
  assert (CL : length (filter_cells (ob_frame o)) = nrows (ob_frame o)).
  { unfold filter_cells. apply dget_keys in HF. destruct (dget "filter" (f_cols (ob_frame o))) as [c|] eqn:EC; [|congruence].
    destruct (ti_frame o HT) as [_ F]. rewrite Forall_forall in F. now apply (F ("filter"%string, c)), dget_In. }
  unfold assign_constant. rewrite HM, HV. cbv zeta.
  assert (G : forall m, (forall s, In s (ob_filters o) -> value_for val s = dget s m) ->
    ((exists o', bind (fold_res (fun vals fil => match dget fil m with
        | None => Err ValueError
        | Some v => if (cp && Rleb v 0)%bool then Err ValueError else Ok (set_where fil v (filter_cells (ob_frame o)) vals)
        end) (repeat 0 (nrows (ob_frame o))) (ob_filters o)) (fun vals =>
      bind (add_column o name (ColList (map CNum vals)) false) (fun o' => Ok (true, o'))) = Ok (true, o')) <->
     forall fil, In fil (ob_filters o) -> exists v, value_for val fil = Some v /\ (cp = true -> 0 < v)) /\
    (forall e, bind (fold_res (fun vals fil => match dget fil m with
        | None => Err ValueError
        | Some v => if (cp && Rleb v 0)%bool then Err ValueError else Ok (set_where fil v (filter_cells (ob_frame o)) vals)
        end) (repeat 0 (nrows (ob_frame o))) (ob_filters o)) (fun vals =>
      bind (add_column o name (ColList (map CNum vals)) false) (fun o' => Ok (true, o'))) = Err e -> e = ValueError)).
  { intros m EM. destruct (fill_accepts m cp (filter_cells (ob_frame o)) (ob_filters o) (repeat 0 (nrows (ob_frame o)))) as [F1 F2].
    assert (F1' : (forall fil, In fil (ob_filters o) -> exists v, value_for val fil = Some v /\ (cp = true -> 0 < v)) <->
                  (forall fil, In fil (ob_filters o) -> exists v, dget fil m = Some v /\ (cp = true -> 0 < v))).
    { split; intros H fil HI; destruct (H fil HI) as (v & E & P); exists v; split; auto; [rewrite <- EM; auto|rewrite EM; auto]. }
    rewrite F1', <- F1. destruct (fold_res _ _ _) as [vals|e0] eqn:EF.
    - cbn [bind]. assert (LV : length vals = length (filter_cells (ob_frame o))).
      { refine (proj1 (fill_spec m cp (filter_cells (ob_frame o)) (ob_filters o) (repeat 0 (nrows (ob_frame o))) vals _ EF)). rewrite repeat_length. lia. }
      destruct (proj1 (proj2 (C66_add_column_accepts o name (ColList (map CNum vals)) false)) (or_introl HM)) as [o' EA].
      { intros l E. inversion E; subst. rewrite map_length. lia. }
      rewrite EA. cbn [bind]. split; [|discriminate]. split; eauto.
    - cbn [bind]. split; [|intros e H; inversion H; subst; auto]. split; intros [x H]; discriminate. }
  destruct val as [|r|m|s]; [congruence| | |now destruct (NT s)].
  - apply G. intros s HS. simpl. symmetry.
    clear - HS. induction (ob_filters o) as [|f l IH]; [destruct HS|]. simpl. destruct (String.eqb s f) eqn:E; auto.
    destruct HS as [->|HS]; auto. rewrite String.eqb_refl in E. discriminate.
  - apply G; auto.
Qed.
(** A survey value becomes a column exactly if it gives every filter of the table a (positive, when
    asked) number; otherwise ValueError. *)
Theorem C66_constant_accepts : forall o name cp val, tbl o -> In "filter"%string (columns (ob_frame o)) ->
  dmem name (f_cols (ob_frame o)) = false ->
  dget name (ob_values o) = Some val -> (forall s, val <> SText s) -> val <> SNone ->
  ((exists o', assign_constant o name cp = Ok (true, o')) <->
   forall fil, In fil (ob_filters o) -> exists v, value_for val fil = Some v /\ (cp = true -> 0 < v)) /\
  (forall e, assign_constant o name cp = Err e -> e = ValueError).
Proof. intros o name cp val HT. apply constant_accepts_inv. now apply tbl_inv. Qed.

(** Finding: overwriting the filter column does not update the list of filters, so a constant column
    made afterwards holds zeros for the new filters although the survey value is a number. *)
Theorem C66_stale_filters_refuted : exists o o1 o2, tbl o /\ add_column o "filter" (ColList [CStr "r"]) true = Ok o1 /\
  dget "read_noise" (ob_values o1) = Some (SNum 5) /\ assign_constant o1 "read_noise" true = Ok (true, o2) /\
  cell_at o2 "filter" 0 = Some (CStr "r") /\ num_at o2 "read_noise" 0 = Some 0.
Proof.
  set (f := mkFrame [0%nat] [("ra", [CNum 0]); ("dec", [CNum 0]); ("time", [CNum 0]); ("filter", [CStr "g"])]%string).
  destruct (ob_make f None [] [("read_noise"%string, SNum 5)] None) as [o|] eqn:EO; [|discriminate].
  exists o. do 2 eexists. split.
  - apply (tbl_make f None [] [("read_noise"%string, SNum 5)] None); auto; [|discriminate].
    split; [|repeat constructor]. unfold columns. simpl. repeat constructor; simpl; intuition discriminate.
  - injection EO as <-. split; [reflexivity|]. split; [reflexivity|]. split.
    + unfold assign_constant. simpl. replace (Rleb 5 0) with false by (symmetry; apply Rleb_false; lra). reflexivity.
    + split; reflexivity.
Qed.
(** When a table with a column map is accepted: no standard name is both already a column and assigned to another column of the
    table, and each required name exists, by the map or unmapped. *)
Theorem C37_accepts : forall f cm meta kw fp, frame_ok f -> NoDup (dkeys cm) -> NoDup (map snd cm) ->
  (forall k v, In (k, v) cm -> In v (columns f) -> In k (columns f) -> k = v) ->
  (forall c, In c required -> (exists v, In (c, v) cm /\ In v (columns f)) \/ (In c (columns f) /\ ~ In c (map snd cm))) ->
  exists o, ob_make f (Some cm) meta kw fp = Ok o.
Proof.
  intros f cm meta kw fp F N1 N2 HC HR.
  assert (X : forall cm' nm inv, (forall c, dmem c nm = true -> In c (columns f)) -> (forall k v, In (k, v) cm' -> In v (columns f) -> In k (columns f) -> k = v) ->
    exists st, fold_res (remap_step (columns f)) (nm, inv) cm' = Ok st).
  { induction cm' as [|[k v] cm' IH]; intros nm inv HM HK; [cbn [fold_res]; eauto|].
    change (exists st, match remap_step (columns f) (nm, inv) (k, v) with Ok s' => fold_res (remap_step (columns f)) s' cm' | Err e => Err e end = Ok st).
    unfold remap_step at 1. destruct (dmem v nm) eqn:EV.
    - destruct (smem k (columns f) && negb (String.eqb k v))%bool eqn:EC.
      + exfalso. apply andb_prop in EC. destruct EC as [E1 E2]. apply smem_In in E1. apply negb_true_iff, String.eqb_neq in E2. apply E2. apply (HK k v); auto; simpl; auto.
      + apply IH; [|intros; apply HK; simpl; auto]. intros c Hc. rewrite dmem_dset in Hc. apply orb_prop in Hc. destruct Hc as [Hc|Hc]; auto.
        apply String.eqb_eq in Hc. subst. auto.
    - apply IH; auto. intros; apply HK; simpl; auto. }
  destruct (X cm (map (fun c => (c, c)) (columns f)) []) as ([nm inv] & E); auto.
  { intros c Hc. now apply (ri_mem _ _ _ _ (rinv_init (columns f))). }
  unfold ob_make, remap. cbv zeta. unfold fold_res in *. fold (@fold_res (string * string) (dict string * dict string)) in *.
  match goal with |- context [bind ?X _] => replace X with (Ok (nm, inv) : result (dict string * dict string)) end. cbn [bind fst snd]. set (f' := mkFrame _ _).
  assert (G : forall c, In c required -> In c (columns f')).
  { intros c Hc. unfold f', columns. cbn [f_cols]. rewrite rename_keys. apply in_map_iff. destruct (HR c Hc) as [(v & I & V)|[V NI]].
    - exists v. split; auto. destruct (remap_fold_eq _ _ _ _ _ E) as [_ B]. destruct (B c v N2 I) as [_ T]. apply T. now apply (ri_mem _ _ _ _ (rinv_init (columns f))).
    - exists c. split; auto. destruct (remap_fold_eq _ _ _ _ _ E) as [B _]. destruct (B c NI) as [B1 _]. cbn [fst] in B1. rewrite B1. apply target_id. }
  replace (forallb (fun c => smem c (columns f')) required) with true; [eauto|]. symmetry. apply forallb_forall. intros c Hc. apply smem_In. now apply G.
Qed.
